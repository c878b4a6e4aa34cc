(** * C66: the order of the declarations of a schema document *)
From Coq Require Import Permutation.
From Verif Require Import Base Libs Xml Ast XsdNode Parse ParseSpec ParseFiles ParseRoots MiscProof Decode Writer Gen Run Harness Samples
  DeclSpec DeclProof1 MergeSpec MergeProof HashProof HashGen LookupProof LocalSpec LocalProof PropDecode PropParse PropDecl.

(** A document without includes whose prefixes stand for its own namespace is accepted exactly
    if each of its declarations is accepted as the only declaration. *)
Theorem C66_parses : forall (L : Libs) fuel f d path, no_loads d -> own_prefixes d ->
  (exists s, schema_parse fuel f (Some d) path = Ok s)
  <-> (xe_tag d = "schema" /\ xe_ns d = Some NS_XSD)
      /\ forall x, In x (xsd_children d) -> exists s, schema_parse fuel f (Some (alone d x)) path = Ok s.
Proof.
  intros L fuel f d path NL OP.
  assert (SE : schema_element d <-> xe_tag d = "schema" /\ xe_ns d = Some NS_XSD).
  { apply has_name_spec. }
  rewrite <- SE. split.
  - intros (s & E). now apply each_alone in E.
  - intros (S & H). destruct (blocks_of fuel f path d NL OP S H) as (bs & B). exists (built d bs). now apply (blocks_parse fuel f path d OP bs).
Qed.
Print Assumptions C66_parses.

(** A name stands for what the last of the declarations that make a type of that name makes of it
    on its own. *)
Theorem C66_types : forall (L : Libs) fuel f d path s, no_loads d -> own_prefixes d ->
  schema_parse fuel f (Some d) path = Ok s -> forall n r,
  sc_get (s_context s) n = Some r <-> exists l1 x l2, xsd_children d = l1 ++ x :: l2 /\ makes fuel f path d x n r
    /\ forall y r', In y l2 -> ~ makes fuel f path d y n r'.
Proof.
  intros L fuel f d path s NL OP E n r. destruct (each_alone fuel f path d NL OP s E) as (SE & H).
  destruct (blocks_of fuel f path d NL OP SE H) as (bs & B). rewrite (blocks_parse fuel f path d OP bs SE B) in E. injection E as <-.
  rewrite built_get.
  assert (M : forall x b, In x (xsd_children d) -> block fuel (fun p s => parse_file_with_context fuel f p (Some s)) f (fs_parent f path)
    (start d) (node_of x) b -> forall r, makes fuel f path d x n r <-> own b n = Some r) by (intros; now apply block_makes).
  assert (G : forall cs, (forall x, In x cs -> In x (xsd_children d)) -> forall bs, Forall2 (block fuel
      (fun p s => parse_file_with_context fuel f p (Some s)) f (fs_parent f path) (start d)) (map node_of cs) bs ->
    (aget name_eqb n (add_all (logs bs) []) = Some r <-> exists l1 x l2, cs = l1 ++ x :: l2 /\ makes fuel f path d x n r
      /\ forall y r', In y l2 -> ~ makes fuel f path d y n r')); [|now apply G].
  clear bs B H. induction cs as [|x cs IH]; intros Hin bs B; simpl in B; inversion B as [|? b ? bs' Bx B' E1 E2]; subst.
  - split; [discriminate|]. intros (l1 & y & l2 & K & _). destruct l1; discriminate.
  - assert (Hin' : forall y, In y cs -> In y (xsd_children d)) by (intros y I; apply Hin; now right).
    specialize (IH Hin' bs' B'). unfold logs in *. simpl. rewrite add_all_app, aget_add_app.
    destruct (aget name_eqb n (add_all (concat (map fst bs')) [])) as [r'|] eqn:A.
    + split.
      * intros K. apply IH in K. destruct K as (l1 & y & l2 & -> & K). exists (x :: l1), y, l2. now split.
      * intros (l1 & y & l2 & K & My & Nl). apply IH. destruct l1 as [|z l1]; simpl in K; injection K as -> ->.
        -- exfalso. apply logs_some in A. destruct A as (b' & I & O). clear IH.
           assert (X : exists z, In z l2 /\ block fuel (fun p s => parse_file_with_context fuel f p (Some s)) f (fs_parent f path)
             (start d) (node_of z) b').
           { clear -B' I. remember (map node_of l2) as ms eqn:Em. revert l2 Em. induction B' as [|m b0 ms bs Hm F IHf]; intros l2 Em; [destruct I|].
             destruct l2 as [|z l2]; [discriminate|]. injection Em as -> ->. destruct I as [<-|I]; [exists z; split; [now left|exact Hm]|].
             destruct (IHf I l2 eq_refl) as (w & Iw & Hw). exists w. split; [now right|exact Hw]. }
           destruct X as (z & Iz & Bz). apply (Nl z r' Iz). apply (M z b'); auto.
        -- exists l1, y, l2. auto.
    + assert (None1 : forall y r', In y cs -> ~ makes fuel f path d y n r').
      { intros y r' I K. clear IH. assert (X : exists b', In b' bs' /\ block fuel (fun p s => parse_file_with_context fuel f p (Some s)) f (fs_parent f path)
             (start d) (node_of y) b').
        { clear -B' I. remember (map node_of cs) as ms eqn:Em. revert cs Em I. induction B' as [|m b0 ms bs Hm F IHf]; intros cs Em I.
          - destruct cs; [destruct I|discriminate].
          - destruct cs as [|z cs]; [discriminate|]. injection Em as -> ->. destruct I as [->|I]; [exists b0; split; [now left|exact Hm]|].
            destruct (IHf cs eq_refl I) as (w & Iw & Hw). exists w. split; [now right|exact Hw]. }
        destruct X as (b' & Ib & Bb). apply (M y b' (Hin' y I) Bb) in K. rewrite (logs_none _ _ A _ Ib) in K. discriminate. }
      change (aget name_eqb n (add_all (fst b) [])) with (own b n). rewrite <- (M x b (Hin x (or_introl eq_refl)) Bx r). split.
      * intros K. exists [], x, cs. auto.
      * intros (l1 & y & l2 & K & My & Nl). destruct l1 as [|z l1]; simpl in K; injection K as -> ->; [exact My|].
        exfalso. apply (None1 y r); [apply in_elt|exact My].
Qed.
Print Assumptions C66_types.
(** What is recorded as used is what the declarations on their own record. *)
Theorem C66_uses : forall (L : Libs) fuel f d path s, no_loads d -> own_prefixes d ->
  schema_parse fuel f (Some d) path = Ok s -> forall n m,
  uses s n m <-> exists x s', In x (xsd_children d) /\ schema_parse fuel f (Some (alone d x)) path = Ok s' /\ uses s' n m.
Proof.
  intros L fuel f d path s NL OP E n m. destruct (each_alone fuel f path d NL OP s E) as (SE & H).
  destruct (blocks_of fuel f path d NL OP SE H) as (bs & B). rewrite (blocks_parse fuel f path d OP bs SE B) in E. injection E as <-.
  rewrite built_uses.
  assert (O : forall x b, In x (xsd_children d) -> block fuel (fun p s => parse_file_with_context fuel f p (Some s)) f (fs_parent f path)
    (start d) (node_of x) b -> forall s', schema_parse fuel f (Some (alone d x)) path = Ok s' <-> s' = built d [b]).
  { intros x b I Bx s'. rewrite (parse_alone _ _ _ _ _ _ I). unfold built, logs, deps. simpl. rewrite !app_nil_r. split.
    - intros (_ & c & R & ->). apply ready_one in R. rewrite (Bx _ (same_env_refl _ (start_own d OP))) in R. now injection R as <-.
    - intros ->. split; [exact SE|]. eexists. split; [|reflexivity]. apply ready_one. apply Bx, same_env_refl, start_own, OP. }
  assert (G : forall cs, (forall x, In x cs -> In x (xsd_children d)) -> forall bs, Forall2 (block fuel
      (fun p s => parse_file_with_context fuel f p (Some s)) f (fs_parent f path) (start d)) (map node_of cs) bs ->
    (In (m, n) (deps bs) <-> exists x s', In x cs /\ schema_parse fuel f (Some (alone d x)) path = Ok s' /\ uses s' n m)); [|now apply G].
  clear bs B H. induction cs as [|x cs IH]; intros Hin bs B; simpl in B; inversion B as [|? b ? bs' Bx B' E1 E2]; subst.
  - split; [intros []|]. intros (x & _ & [] & _).
  - unfold deps in *. simpl. rewrite in_app_iff, (IH (fun y I => Hin y (or_intror I)) bs' B').
    assert (Hb : In (m, n) (snd b) <-> uses (built d [b]) n m) by (rewrite built_uses; unfold deps; simpl; now rewrite app_nil_r).
    split.
    + intros [K|(y & s' & I & K)]; [|exists y, s'; auto]. exists x, (built d [b]). split; [now left|].
      split; [apply (O x b (Hin x (or_introl eq_refl)) Bx); reflexivity|now apply Hb].
    + intros (y & s' & [->|I] & K & U); [left|right; eauto]. apply (O y b (Hin y (or_introl eq_refl)) Bx) in K. subst s'. now apply Hb.
Qed.
Print Assumptions C66_uses.

(** If no two declarations make types of the same name, their order does not matter: the reordered
    document is accepted and gives the same types, the same namespaces and the same dependencies. *)
Theorem C66_order : forall (L : Libs) fuel f d d' path s, no_loads d -> own_prefixes d -> no_collisions fuel f path d ->
  reordered d d' -> schema_parse fuel f (Some d) path = Ok s ->
  exists s', schema_parse fuel f (Some d') path = Ok s'
    /\ Permutation (sc_elements (s_context s)) (sc_elements (s_context s'))
    /\ (forall n, sc_get (s_context s) n = sc_get (s_context s') n)
    /\ sc_target (s_context s) = sc_target (s_context s') /\ sc_qualified (s_context s) = sc_qualified (s_context s')
    /\ sc_namespaces (s_context s) = sc_namespaces (s_context s')
    /\ forall n m, uses s n m <-> uses s' n m.
Proof.
  intros L fuel f d d' path s NL OP NC R E. destruct (each_alone fuel f path d NL OP s E) as (SE & H).
  destruct (blocks_of fuel f path d NL OP SE H) as (bs & B). rewrite (blocks_parse fuel f path d OP bs SE B) in E. injection E as <-.
  pose proof (apart_of fuel f path d OP bs SE B NC) as A. pose proof R as (_ & _ & _ & _ & P).
  destruct (perm_forall2 _ _ _ (Permutation_map node_of P) _ B) as (bs' & B' & Pb). rewrite (reordered_start _ _ R) in B'.
  assert (G : forall n, sc_get (s_context (built d bs)) n = sc_get (s_context (built d' bs')) n)
    by (intros n; rewrite !built_get; now apply logs_perm).
  exists (built d' bs'). split; [apply blocks_parse; [eapply reordered_prefixes; eauto|eapply reordered_element; eauto|exact B']|].
  split; [|split; [exact G|]].
  { apply same_map_perm. unfold sc_get in G. split; [|split; [|exact G]].
    - unfold built, into_schema. cbn. rewrite start_roots. apply add_all_NoDup. constructor.
    - unfold built, into_schema. cbn. rewrite start_roots. apply add_all_NoDup. constructor. }
  unfold built. rewrite (reordered_start _ _ R). split; [reflexivity|]. split; [reflexivity|]. split; [reflexivity|].
  intros n m. pose proof (built_uses d' bs' n m) as K'. unfold built in K'. rewrite K'.
  pose proof (built_uses d' bs n m) as K. unfold built in K. rewrite K. unfold deps.
  split; apply Permutation_in; [|apply Permutation_sym]; now apply perm_concat.
Qed.
Print Assumptions C66_order.

(** The module generated from the reordered document has the same items, and reads and writes the
    same. *)
Theorem C66_modules : forall (L : Libs) fuel gfuel f d d' path s p, no_loads d -> own_prefixes d -> no_collisions fuel f path d ->
  reordered d d' -> schema_parse fuel f (Some d) path = Ok s -> generate_all gfuel s = Ok p ->
  exists s' p', schema_parse fuel f (Some d') path = Ok s' /\ generate_all gfuel s' = Ok p' /\ Permutation p p'
    /\ (NoDup (map ti_id p) -> (forall dfuel id e, from_xml p dfuel id e = from_xml p' dfuel id e)
          /\ forall dfuel id v, to_xml p dfuel id v = to_xml p' dfuel id v).
Proof.
  intros L fuel gfuel f d d' path s p NL OP NC R E Gp.
  destruct (C66_order L fuel f d d' path s NL OP NC R E) as (s' & E' & P & G & T & Q & N & _).
  assert (S : same_schema s (mkSchema (s_dependencies s) (s_context s'))) by (repeat split; assumption).
  destruct (generate_same _ _ _ _ S Gp) as (p' & G' & Pp). exists s', p'.
  split; [exact E'|]. split; [exact G'|]. split; [exact Pp|]. intros ND.
  assert (Hl : forall id, lookup_item p id = lookup_item p' id) by (intros id; now apply find_perm).
  split; intros; [now apply decode_look|now apply encode_look].
Qed.
Print Assumptions C66_modules.

(** The condition can be checked by listing names. *)
Definition type_names {L : Libs} (fuel : nat) (f : fs) (path : string) (d x : xelem) : list name :=
  match schema_parse fuel f (Some (alone d x)) path with Ok s => map fst (sc_elements (s_context s)) | _ => [] end.
Lemma nodup_tail {A} (a b : list A) : NoDup (a ++ b) -> NoDup b.
Proof. induction a as [|x a IH]; simpl; [auto|]. intros H. inversion H; auto. Qed.
Lemma no_collisions_names {L : Libs} fuel f path d : NoDup (flat_map (type_names fuel f path d) (xsd_children d)) -> no_collisions fuel f path d.
Proof.
  assert (M : forall x n r, makes fuel f path d x n r -> In n (type_names fuel f path d x)).
  { intros x n r (s & E & G). unfold type_names. rewrite E. apply (aget_In _ name_eqb_eq) in G. now apply (in_map fst) in G. }
  intros ND l1 x l2 y l3 n r r' E Mx My. rewrite E in ND. rewrite flat_map_app in ND. cbn [flat_map] in ND.
  apply nodup_tail in ND. rewrite flat_map_app in ND. cbn [flat_map] in ND.
  apply M in Mx. apply M in My. revert ND Mx My. generalize (type_names fuel f path d x), (type_names fuel f path d y). intros lx ly ND Ix Iy.
  apply in_split in Ix. destruct Ix as (a & b & ->). rewrite <- app_assoc in ND. simpl in ND. apply NoDup_remove_2 in ND. apply ND.
  rewrite !in_app_iff. auto.
Qed.

(** ** Examples *)
Definition ex_book_a : xelem := xelement [at_ "name" "book"] [xcomplex [xsequence [xtyped "title" "xs:string"; xtyped "part" "t:part"]]].
Definition ex_book_b : xelem := xs "complexType" [at_ "name" "part"] [xsequence [xtyped "page" "t:page"]].
Definition ex_book_c : xelem := xs "simpleType" [at_ "name" "page"] [xs "restriction" [at_ "base" "xs:int"] []].
Definition ex_book (l : list xelem) : xelem := xschema [at_ "targetNamespace" "urn:t"; at_ "elementFormDefault" "qualified"] l.
Lemma ex_book_own l : own_prefixes (ex_book l).
Proof.
  intros p u [H|[H|[]]]; injection H as <- <-; [now left|]. right. exists (at_ "targetNamespace" "urn:t"). split; [|reflexivity].
  now apply attr_lookup_iff.
Qed.
Lemma ex_book_perm l l' : Permutation l l' -> reordered (ex_book l) (ex_book l').
Proof.
  intros P. repeat split. unfold xsd_children. apply filter_perm. unfold xe_children, ex_book, xschema. simpl.
  induction P; simpl; auto. - apply perm_swap. - eapply Permutation_trans; eassumption.
Qed.
Definition ex_book_doc : xelem := elq "book" [] [txtq "title" "Dune"; elq "part" [] [txtq "page" "4"]].
Lemma ex_book_no : no_collisions 40 no_files "m.xsd" (ex_book [ex_book_a; ex_book_b; ex_book_c]).
Proof.
  apply no_collisions_names. set (l := flat_map _ _).
  assert (E : map nm l = ["book"; "part"; "page"]) by by_compute. apply (NoDup_map_inv nm). rewrite E. now apply nodupb_NoDup.
Qed.
Lemma ex_book_loads l : Forall (fun x => ~ is_load x) l -> no_loads (ex_book l).
Proof.
  intros F x I. apply filter_In in I. destruct I as [I _]. rewrite Forall_forall in F. apply F.
  unfold xe_children, ex_book, xschema in I. simpl in I. induction l as [|y l IH]; [destruct I|]. destruct I as [I|I]; [now left|].
  right. apply IH; [|exact I]. intros z Iz. apply F. now right.
Qed.
(** Uses before definitions or after: two modules with the items in another order, the same value. *)
Example C66_example : exists s s' p p', schema_parse 40 no_files (Some (ex_book [ex_book_a; ex_book_b; ex_book_c])) "m.xsd" = Ok s
  /\ schema_parse 40 no_files (Some (ex_book [ex_book_c; ex_book_a; ex_book_b])) "m.xsd" = Ok s'
  /\ generate_all 40 s = Ok p /\ generate_all 40 s' = Ok p' /\ p <> p' /\ Permutation p p'
  /\ (forall dfuel id e, from_xml p dfuel id e = from_xml p' dfuel id e)
  /\ from_xml p 40 "Book" ex_book_doc
     = Ok (VStruct [("title", VStr "Dune"); ("part", VStruct [("page", VInt 4)])])
  /\ (forall n m, uses s n m <-> uses s' n m) /\ uses s (mkName "part" (NsId 1)) (mkName "page" (NsId 1)).
Proof.
  destruct (schema_parse 40 no_files (Some (ex_book [ex_book_a; ex_book_b; ex_book_c])) "m.xsd") as [s|e|w|] eqn:E; [|vm_compute in E; discriminate..].
  destruct (generate_all 40 s) as [p|e|w|] eqn:Gp; [|vm_compute in E; injection E as <-; vm_compute in Gp; discriminate..].
  assert (R : reordered (ex_book [ex_book_a; ex_book_b; ex_book_c]) (ex_book [ex_book_c; ex_book_a; ex_book_b])).
  { apply ex_book_perm. apply Permutation_sym. apply (Permutation_middle [ex_book_a; ex_book_b] [] ex_book_c). }
  assert (NL : no_loads (ex_book [ex_book_a; ex_book_b; ex_book_c]))
    by (apply ex_book_loads; repeat constructor; intros [H|H]; discriminate).
  destruct (C66_modules _ _ _ _ _ _ _ _ _ NL (ex_book_own _) ex_book_no R E Gp) as (s' & p' & E' & Gp' & P & K).
  destruct (C66_order _ _ _ _ _ _ _ NL (ex_book_own _) ex_book_no R E) as (s2 & E2 & _ & _ & _ & _ & _ & U).
  rewrite E' in E2. injection E2 as <-.
  assert (ND : NoDup (map ti_id p)) by (vm_compute in E; injection E as <-; vm_compute in Gp; injection Gp as <-; apply nodupb_NoDup; by_compute).
  destruct (K ND) as (D & _). exists s, s', p, p'.
  split; [reflexivity|]. split; [exact E'|]. split; [exact Gp|]. split; [exact Gp'|]. split; [|split; [exact P|split; [exact D|]]].
  - clear - E E' Gp Gp'. vm_compute in E, E'. injection E as <-. injection E' as <-. vm_compute in Gp, Gp'. injection Gp as <-. injection Gp' as <-. discriminate.
  - split; [|split; [exact U|]].
    + clear - E Gp. vm_compute in E. injection E as <-. vm_compute in Gp. injection Gp as <-. by_compute.
    + clear - E. vm_compute in E. injection E as <-. eexists. split; [reflexivity|]. now left.
Qed.

(** A declaration that makes a type of the same name as another declaration: the later one counts. *)
Theorem C66_collision_refuted : forall (L : Libs), exists d d' s s' n, no_loads d /\ own_prefixes d /\ reordered d d'
  /\ schema_parse 40 no_files (Some d) "m.xsd" = Ok s /\ schema_parse 40 no_files (Some d') "m.xsd" = Ok s'
  /\ sc_get (s_context s) n <> sc_get (s_context s') n.
Proof.
  intros L.
  set (a := xs "simpleType" [at_ "name" "OrderItemData"] [xs "restriction" [at_ "base" "xs:string"] []]).
  set (b := xs "complexType" [at_ "name" "order"] [xsequence [xelement [at_ "name" "item"] [xcomplex [xsequence [xtyped "n" "xs:int"]]]]]).
  exists (ex_book [a; b]), (ex_book [b; a]).
  assert (E : exists s e, schema_parse 40 no_files (Some (ex_book [a; b])) "m.xsd" = Ok s
    /\ sc_get (s_context s) (mkName "OrderItemData" (NsId 1)) = Some (RootElement e))
    by (do 2 eexists; split; [by_compute|by_compute]).
  assert (E' : exists s l, schema_parse 40 no_files (Some (ex_book [b; a])) "m.xsd" = Ok s
    /\ sc_get (s_context s) (mkName "OrderItemData" (NsId 1)) = Some (RootLeaf l)) by
    (do 2 eexists; split; [by_compute|by_compute]).
  destruct E as (s & e & E & G), E' as (s' & l & E' & G'). exists s, s', (mkName "OrderItemData" (NsId 1)).
  split; [apply ex_book_loads; repeat constructor; intros [H|H]; discriminate|]. split; [apply ex_book_own|].
  split; [apply ex_book_perm, perm_swap|]. split; [exact E|]. split; [exact E'|]. rewrite G, G'. discriminate.
Qed.
Print Assumptions C66_collision_refuted.

(** Prefixes of other namespaces are numbered in the order of their first use. *)
Definition ex_foreign (l : list xelem) : xelem :=
  XE "schema" (Some NS_XSD) [at_ "targetNamespace" "urn:t"]
    [(Some "xs", NS_XSD); (Some "t", "urn:t"); (Some "u", "urn:u"); (Some "v", "urn:v")] r0 (map KElem l).
Theorem C66_prefixes_refuted : forall (L : Libs), exists d d' s s', no_loads d /\ prefixes_once d /\ reordered d d'
  /\ no_collisions 40 no_files "m.xsd" d
  /\ schema_parse 40 no_files (Some d) "m.xsd" = Ok s /\ schema_parse 40 no_files (Some d') "m.xsd" = Ok s'
  /\ sc_namespaces (s_context s) <> sc_namespaces (s_context s')
  /\ exists n, sc_get (s_context s) n <> sc_get (s_context s') n.
Proof.
  intros L. exists (ex_foreign [xtyped "a" "u:x"; xtyped "b" "v:x"]), (ex_foreign [xtyped "b" "v:x"; xtyped "a" "u:x"]).
  do 2 eexists. split; [intros x [<-|[<-|[]]] [H|H]; discriminate|].
  split. { unfold prefixes_once. simpl. repeat constructor; simpl; intuition discriminate. }
  split. { repeat split. simpl. apply perm_swap. }
  split. { apply no_collisions_names. set (l := flat_map _ _). assert (E : map nm l = ["a"; "b"]) by by_compute.
    apply (NoDup_map_inv nm). rewrite E. now apply nodupb_NoDup. }
  split; [by_compute|]. split; [by_compute|]. split; [simpl; discriminate|]. exists (mkName "a" (NsId 1)). vm_compute. discriminate.
Qed.
Print Assumptions C66_prefixes_refuted.
