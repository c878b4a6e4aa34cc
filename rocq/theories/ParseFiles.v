(** * ParseFiles: schema elements, files and include *)
From Verif Require Import Base Libs Xml Ast XsdNode Parse ParseSpec MiscSpec MiscProof ParseProof ParseMono.

Lemma xsd_children_nodes d : map n_elem (n_children (node_of d) NS_XSD) = xsd_children d.
Proof. unfold n_children, xsd_children. rewrite map_map. simpl. apply map_id. Qed.

(** The context a finished schema corresponds to. *)
Definition ctx_of (s : schema) : ctx :=
  mkCtx (sc_elements (s_context s)) None (sc_target (s_context s)) [] (sc_qualified (s_context s)) (into_shared s).

Definition grow (c c' : ctx) : Prop :=
  frame c c' /\ nss_le (nss_of c) (nss_of c')
  /\ (forall p t, dep c p t -> dep c' p t)
  /\ (forall n, aget name_eqb n (cx_roots c) <> None -> aget name_eqb n (cx_roots c') <> None).
Lemma grow_refl c : grow c c.
Proof. repeat split; auto. Qed.
Lemma grow_trans a b c : grow a b -> grow b c -> grow a c.
Proof.
  intros ((F1 & F2 & F3 & F4) & (N1 & N2) & D1 & R1) ((G1 & G2 & G3 & G4) & (M1 & M2) & D2 & R2).
  split; [split; [congruence|split; [congruence|split; congruence]]|].
  split; [split; eauto|]. split; eauto.
Qed.
Lemma ext_grow c c' : ext c c' -> grow c c'.
Proof. intros (H1 & H2 & H3 & _ & H5). split; [exact H1|]. auto. Qed.

(** Well-formedness only reads namespaces and dependencies. *)
Definition below_ctx (c c' : ctx) : Prop :=
  nss_le (nss_of c) (nss_of c') /\ (forall p t, dep c p t -> dep c' p t).
Lemma owned_le c c' nr : below_ctx c c' -> owned c nr -> owned c' nr.
Proof.
  intros [HN HD].
  assert (C : forall p lc, cwf c p lc -> cwf c' p lc).
  { intros p [l|n|s]; simpl; auto. intros [H1 H2]. split; [eapply nvalid_le; eauto|auto]. }
  assert (W : forall p l, lwf c p l -> lwf c' p l).
  { intros p l (H1 & H2 & H3). split; [eapply nvalid_le; eauto|]. auto. }
  intros (H1 & p & H2 & H3). split; [eapply nvalid_le; eauto|]. exists p. split; [intuition|].
  destruct nr as [n [dl|ns|e|ch]]; simpl in *; auto.
  - destruct H3 as [H3 H4]. split.
    + eapply Forall_impl; [|exact H3]. intros a [K1 K2]. split; auto.
    + destruct (ed_content e) as [[n' d'|ls]|]; auto. eapply Forall_impl; [|exact H4]. auto.
  - eapply Forall_impl; [|exact H3]. auto.
Qed.

Section Files.
Context {L : Libs}.
Variable f : fs.
Variable nice : Prop.
Hypothesis nice_files : nice -> forall p d, fs_read f p = Some (Some d) -> ascii_attrs d.
Hypothesis nice_snake : nice -> snake_keeps_ascii L.

(** Where an error may come from. *)
Definition err_ok (e : schema_err) : Prop :=
  match e with
  | SeXsd e p => (e = XeXml /\ fs_read f p = Some None)
                 \/ exists d, fs_read f p = Some (Some d) /\ located d e
  | SeOpen p => fs_read f p = None
  | SeNotFound _ => False
  end.

Definition load_ok (load : string -> shared_ctx -> res schema_err schema) : Prop :=
  forall path shared, ns_wf (sh_namespaces shared) ->
    match load path shared with
    | Ok s => Inv (ctx_of s) /\ nss_le (sh_namespaces shared) (sc_namespaces (s_context s))
              /\ (forall p t, depends (sh_dependencies shared) p t -> depends (s_dependencies s) p t)
    | Err e => err_ok e
    | Panic _ => ~ nice
    | OutOfFuel => True
    end.

Section Doc.
Variable d : xelem.
Hypothesis nice_doc : nice -> ascii_attrs d.

Definition pok {A} (m : res parse_err A) (Q : A -> Prop) : Prop :=
  match m with
  | Ok a => Q a
  | Err (PeXsd e) => located d e
  | Err (PeSchema e) => err_ok e
  | Panic _ => ~ nice
  | OutOfFuel => True
  end.
Lemma pok_bind {A B} (m : res parse_err A) (k : A -> res parse_err B) Q :
  pok m (fun a => pok (k a) Q) -> pok (bind m k) Q.
Proof. destruct m; auto. Qed.
Lemma pok_mono {A} (m : res parse_err A) (Q Q' : A -> Prop) : pok m Q -> (forall a, Q a -> Q' a) -> pok m Q'.
Proof. destruct m as [a|[e|e]|w|]; simpl; auto. Qed.

Lemma add_all_In (rs : list (name * root)) : forall m k v,
  In (k, v) (fold_left (fun m nr => aset name_eqb (fst nr) (snd nr) m) rs m) -> In (k, v) rs \/ In (k, v) m.
Proof.
  induction rs as [|[k0 v0] rs IH]; simpl; intros m k v H; [auto|].
  apply IH in H. destruct H as [H|H]; [auto|]. apply aset_In in H. simpl in H.
  destruct H as [[-> ->]|H]; auto.
Qed.
Lemma add_all_present (rs : list (name * root)) : forall m n,
  aget name_eqb n m <> None ->
  aget name_eqb n (fold_left (fun m nr => aset name_eqb (fst nr) (snd nr) m) rs m) <> None.
Proof.
  induction rs as [|[k v] rs IH]; simpl; intros m n H; [exact H|]. apply IH.
  destruct (name_eqb k n) eqn:E.
  - apply name_eqb_eq in E. subst k. rewrite (aget_aset_same _ name_eqb_eq). discriminate.
  - rewrite (aget_aset_other _ name_eqb_eq); [exact H|]. intros ->. rewrite name_eqb_refl in E. discriminate.
Qed.

(** Storing a declaration. *)
Lemma store_ok c n r : Inv c -> nvalid (nss_of c) (nm_ns n) -> rwf c n r ->
  Inv (set_roots (aset name_eqb n r (cx_roots c)) c)
  /\ grow c (set_roots (aset name_eqb n r (cx_roots c)) c).
Proof.
  intros (W & Tv & R) Hn Hr. split.
  - split; [exact W|]. split; [exact Tv|]. apply Forall_forall. intros [m r'] Hm. apply aset_In in Hm.
    rewrite Forall_forall in R. destruct Hm as [[-> ->]|Hm].
    + split; [exact Hn|]. exists n. split; [now left|exact Hr].
    + exact (R _ Hm).
  - split; [repeat split|]. split; [split; auto|]. split; [auto|]. simpl. intros m Hm.
    destruct (name_eqb n m) eqn:E.
    + apply name_eqb_eq in E. subst m. rewrite (aget_aset_same _ name_eqb_eq). discriminate.
    + rewrite (aget_aset_other _ name_eqb_eq); [exact Hm|]. intros ->. rewrite name_eqb_refl in E. discriminate.
Qed.

(** Merging an included schema. *)
Definition merge (c : ctx) (s : schema) : ctx :=
  set_shared (into_shared s)
    (set_roots (fold_left (fun m nr => aset name_eqb (fst nr) (snd nr) m)
                  (sc_elements (s_context s)) (cx_roots c)) c).
Lemma merge_ok c s : Inv c -> Inv (ctx_of s) -> nss_le (nss_of c) (sc_namespaces (s_context s)) ->
  (forall p t, depends (deps_of c) p t -> depends (s_dependencies s) p t) ->
  Inv (merge c s) /\ grow c (merge c s).
Proof.
  intros (W & Tv & R) (W' & Tv' & R') HN HD.
  assert (B1 : below_ctx c (merge c s)) by (split; [exact HN|exact HD]).
  assert (B2 : below_ctx (ctx_of s) (merge c s)) by (split; [split; auto|auto]).
  split.
  - split; [exact W'|]. split; [eapply nvalid_le; [exact HN|exact Tv]|].
    apply Forall_forall. intros [m r] Hm. apply add_all_In in Hm. rewrite Forall_forall in R, R'. destruct Hm as [Hm|Hm].
    + eapply owned_le; [exact B2|]. now apply R'.
    + eapply owned_le; [exact B1|]. now apply R.
  - split; [repeat split|]. split; [exact HN|]. split; [exact HD|]. intros n. apply add_all_present.
Qed.

Lemma child_ok fuel load base x c : load_ok load -> inn d x -> Inv c ->
  pok (schema_child fuel load f base x c) (fun c' => Inv c' /\ grow c c').
Proof.
  intros HL Hx HI. unfold schema_child. destruct (orb _ _).
  - pose proof (rok_try d nice nice_doc x "schemaLocation" (fun an => True) Hx (fun _ _ _ _ _ => I)) as K.
    destruct (n_try_attribute x "schemaLocation") as [[a x']|e|w|]; simpl in *; try tauto.
    assert (Wn : ns_wf (sh_namespaces (cx_shared c))) by apply HI.
    specialize (HL (fs_push f base (at_value a)) (cx_shared c) Wn).
    destruct (load _ _) as [s|e|w|]; simpl in *; auto.
    destruct HL as (H1 & H2 & H3). apply merge_ok; assumption.
  - pose proof (rok_try d nice nice_doc x "name"
      (fun an => iattr d nice (fst an) /\ n_elem (snd an) = n_elem x) Hx) as K.
    assert (K' : rok d (n_try_attribute x "name") (fun an => iattr d nice (fst an) /\ n_elem (snd an) = n_elem x)).
    { apply K. intros. split; [assumption|reflexivity]. }
    clear K. destruct (n_try_attribute x "name") as [[a x']|e|w|]; simpl in *; try tauto.
    destruct K' as [Ha Hx'].
    pose proof (walk d nice nice_doc nice_snake fuel) as (HR & _).
    specialize (HR x' (mkName (at_value a) (cx_target c)) c).
    assert (Hx1 : inn d x') by (unfold inn; rewrite Hx'; exact Hx).
    specialize (HR Hx1 (proj2 Ha) HI). unfold wp in HR.
    destruct (root_parse fuel x' _ c) as [[r c1]|e|w|]; simpl in *; auto.
    destruct HR as (I1 & E1 & R1).
    pose proof (ext_grow _ _ E1) as G1.
    assert (Hn : nvalid (nss_of c1) (nm_ns (mkName (at_value a) (cx_target c)))).
    { simpl. eapply nvalid_ext; [exact E1|]. apply HI. }
    destruct (store_ok c1 _ r I1 Hn R1) as [I2 G2].
    split; [exact I2|]. eapply grow_trans; eauto.
Qed.

Lemma children_ok fuel load base cs : load_ok load -> Forall (inn d) cs -> forall c, Inv c ->
  pok (schema_children fuel load f base cs c) (fun c' => Inv c' /\ grow c c').
Proof.
  intros HL. induction 1 as [|x cs Hx Hcs IH]; intros c HI; simpl.
  - split; [exact HI|apply grow_refl].
  - apply pok_bind. eapply pok_mono; [apply child_ok; assumption|]. intros c1 [I1 G1].
    eapply pok_mono; [apply IH, I1|]. intros c2 [I2 G2]. split; [exact I2|]. eapply grow_trans; eauto.
Qed.

Lemma ctx_new_ok target shared : ns_wf (sh_namespaces shared) ->
  Inv (ctx_new d target shared)
  /\ nss_le (sh_namespaces shared) (nss_of (ctx_new d target shared))
  /\ deps_of (ctx_new d target shared) = sh_dependencies shared.
Proof.
  intros W. unfold ctx_new. destruct target as [t|].
  - destruct (get_or_insert _ t) as [tn nss] eqn:G. apply get_or_insert_wf in G; [|exact W].
    destruct G as (W' & (k & -> & K) & N1 & N2). split; [|split; [split; assumption|reflexivity]].
    split; [exact W'|]. split; [|constructor]. simpl.
    destruct W' as (_ & W' & _). apply W' in K. destruct K as [_ K]. unfold nss_of. simpl. now rewrite K.
  - split; [|split; [split; auto|reflexivity]]. split; [exact W|]. split; [exact I|constructor].
Qed.

Lemma nodes_inn : Forall (inn d) (n_children (node_of d) NS_XSD).
Proof. eapply below_inn. apply (children_below d (node_of d)). apply wi_root. Qed.

Lemma schema_ok fuel load base shared : load_ok load -> (forall s, shared = Some s -> ns_wf (sh_namespaces s)) ->
  pok (parse_schema_with fuel load f d base shared)
    (fun s => Inv (ctx_of s)
       /\ nss_le (match shared with Some s => sh_namespaces s | None => namespaces_default end) (sc_namespaces (s_context s))
       /\ (forall p t, depends (match shared with Some s => sh_dependencies s | None => [] end) p t ->
             depends (s_dependencies s) p t)).
Proof.
  intros HL HS. unfold parse_schema_with. destruct (negb _).
  { exists (xe_range d). split; [reflexivity|]. exists d. split; [apply wi_root|now left]. }
  simpl. set (sh := match shared with Some s => s | None => shared_default end).
  assert (W : ns_wf (sh_namespaces sh)) by (subst sh; destruct shared as [s|]; [now apply HS|apply ns_wf_default]).
  set (c := ctx_new d _ sh).
  destruct (ctx_new_ok (option_map at_value (attr_lookup "targetNamespace" (xe_attrs d))) sh W) as (I0 & N0 & D0).
  fold c in I0, N0, D0.
  apply pok_bind. eapply pok_mono; [apply (children_ok fuel load base _ HL nodes_inn c I0)|].
  intros c' [I1 (F1 & N1 & D1 & _)]. simpl.
  split; [exact I1|]. split.
  - assert (E : nss_le (sh_namespaces sh) (nss_of c')).
    { destruct N0 as [A1 A2], N1 as [B1 B2]. split; eauto. }
    subst sh. destruct shared; exact E.
  - intros p t H. apply D1. unfold dep. rewrite D0. subst sh. destruct shared; exact H.
Qed.
End Doc.

Lemma file_ok fuel : load_ok (fun p s => parse_file_with_context fuel f p (Some s)).
Proof.
  induction fuel as [|fuel IH]; intros path shared W; simpl; [exact I|].
  destruct (fs_read f path) as [[d|]|] eqn:R; simpl; [|left; auto|exact R].
  pose proof (schema_ok d (fun N => nice_files N path d R) fuel _ (fs_parent f path) (Some shared) IH) as K.
  assert (HS : forall s, Some shared = Some s -> ns_wf (sh_namespaces s)) by (intros s E; injection E as <-; exact W).
  specialize (K HS). destruct (parse_schema_with _ _ _ _ _ _) as [s|[e|e]|w|]; simpl in *; auto.
  right. eauto.
Qed.

(** [Schema::parse] on a parsed document. *)
Lemma doc_ok fuel d path : (nice -> ascii_attrs d) ->
  match schema_parse fuel f (Some d) path with
  | Ok s => Inv (ctx_of s)
  | Err (SeXsd e p) => (p = path /\ located d e) \/ err_ok (SeXsd e p)
  | Err e => err_ok e
  | Panic _ => ~ nice
  | OutOfFuel => True
  end.
Proof.
  intros Hd. pose proof (schema_ok d Hd fuel _ (fs_parent f path) None (file_ok fuel)) as K.
  assert (HS : forall s, @None shared_ctx = Some s -> ns_wf (sh_namespaces s)) by discriminate.
  specialize (K HS). unfold schema_parse, parse_with.
  destruct (parse_schema_with _ _ _ _ _ _) as [s|[e|e]|w|]; simpl in *; auto.
  - apply K.
  - destruct e; auto.
Qed.
End Files.

(** ** Documents that load nothing *)
Section NoLoads.
Context {L : Libs}.

Lemma orb_load x : orb (n_name x =?s "include") (n_name x =?s "import") = true <-> is_load (n_elem x).
Proof. unfold is_load, n_name. rewrite orb_true_iff, !String.eqb_eq. tauto. Qed.

Lemma no_load_err fuel load f base cs : Forall (fun x => ~ is_load (n_elem x)) cs ->
  forall c e, schema_children fuel load f base cs c <> Err (PeSchema e).
Proof.
  induction 1 as [|x cs Hx Hcs IH]; intros c e; simpl; [discriminate|].
  unfold schema_child. destruct (orb _ _) eqn:O; [apply orb_load in O; tauto|].
  destruct (n_try_attribute x "name") as [[a x']|e'|w|]; simpl; try discriminate.
  destruct (root_parse _ _ _ _) as [[r c1]|e'|w|]; simpl; try discriminate. apply IH.
Qed.

Lemma no_loads_nodes d : no_loads d -> Forall (fun x => ~ is_load (n_elem x)) (n_children (node_of d) NS_XSD).
Proof.
  intros H. apply Forall_forall. intros x Hx. apply H. rewrite <- xsd_children_nodes. now apply in_map.
Qed.

Lemma no_load_schema_err fuel load f d base sh : no_loads d ->
  forall e, parse_schema_with fuel load f d base sh <> Err (PeSchema e).
Proof.
  intros H e. unfold parse_schema_with. destruct (negb _); [discriminate|]. simpl.
  pose proof (no_load_err fuel load f base _ (no_loads_nodes d H)) as K.
  specialize (K (ctx_new d (option_map at_value (attr_lookup "targetNamespace" (xe_attrs d)))
    match sh with Some s => s | None => shared_default end) e).
  destruct (schema_children _ _ _ _ _ _) as [c|e'|w|]; simpl; try discriminate. congruence.
Qed.

(** ** Termination *)
Lemma settles_const {E A} (r : res E A) : r <> OutOfFuel -> settles (fun _ => r).
Proof. intros H. exists 0, r. auto. Qed.
Lemma settles_ext {E A} (m m' : nat -> res E A) : (forall n, m n = m' n) -> settles m -> settles m'.
Proof. intros H (b & r & N & K). exists b, r. split; [exact N|]. intros n Hn. rewrite <- H. auto. Qed.
Lemma settles_succ {E A} (m : nat -> res E A) : settles (fun n => m (S n)) -> settles m.
Proof.
  intros (b & r & N & K). exists (S b), r. split; [exact N|]. intros [|n] Hn; [lia|]. apply K. lia.
Qed.
Lemma settles_bind {E A B} (m : nat -> res E A) (k : nat -> A -> res E B) :
  settles m -> (forall a, (exists n, m n = Ok a) -> settles (fun n => k n a)) ->
  settles (fun n => bind (m n) (k n)).
Proof.
  intros (b & r & N & K) H. destruct r as [a|e|w|]; [| | |congruence].
  - destruct (H a) as (b' & r' & N' & K'); [exists b; now apply K|].
    exists (Nat.max b b'), r'. split; [exact N'|]. intros n Hn. rewrite K by lia. simpl. apply K'. lia.
  - exists b, (Err e). split; [discriminate|]. intros n Hn. rewrite K by lia. reflexivity.
  - exists b, (Panic w). split; [discriminate|]. intros n Hn. rewrite K by lia. reflexivity.
Qed.
Lemma settles_map_err {E F A} (g : E -> F) (m : nat -> res E A) : settles m -> settles (fun n => map_err g (m n)).
Proof.
  intros (b & r & N & K). exists b, (map_err g r). split; [destruct r; simpl; congruence|].
  intros n Hn. now rewrite K.
Qed.

Lemma root_parse_settles d n p c : inn d n -> Inv c -> settles (fun fuel => root_parse fuel n p c).
Proof.
  intros Hn HI. set (b := 3 * ht n + 2).
  assert (N : root_parse b n p c <> OutOfFuel).
  { pose proof (walk d False (fun H => False_ind _ H) (fun H => False_ind _ H) b) as (HR & _).
    specialize (HR n p c Hn). unfold wp in HR. intros E. rewrite E in HR.
    assert (b < 3 * ht n + 2); [|subst b; lia]. apply HR; [intros []|exact HI]. }
  exists b, (root_parse b n p c). split; [exact N|]. intros fuel H. now apply root_parse_mono.
Qed.

Section Term.
Variable f : fs.
Variable d : xelem.
Variable base : string.
Variable load : nat -> string -> shared_ctx -> res schema_err schema.
Hypothesis Hload : forall fuel, load_ok f False (load fuel).
Hypothesis loads_settle : forall c a shared, In c (xsd_children d) -> is_load c -> has_attr c "schemaLocation" a ->
  ns_wf (sh_namespaces shared) -> settles (fun fuel => load fuel (fs_push f base (at_value a)) shared).

Lemma child_settles x c : inn d x -> In (n_elem x) (xsd_children d) -> Inv c ->
  settles (fun fuel => schema_child fuel (load fuel) f base x c).
Proof.
  intros Hx Hin HI. unfold schema_child. destruct (orb _ _) eqn:O.
  - apply orb_load in O. unfold n_try_attribute, n_attribute.
    destruct (attr_lookup "schemaLocation" _) as [a|] eqn:A; [|simpl; now apply settles_const].
    apply attr_lookup_In in A. simpl. apply settles_bind; [|intros s _; now apply settles_const].
    apply settles_map_err, (loads_settle (n_elem x)); try assumption. apply HI.
  - unfold n_try_attribute, n_attribute. destruct (attr_lookup "name" _) as [a|] eqn:A; [|simpl; now apply settles_const].
    simpl. apply (settles_bind (fun fuel => map_err PeXsd (root_parse fuel _ _ c)) (fun _ rc => let '(r, c0) := rc in Ok _)).
    + apply settles_map_err. eapply root_parse_settles; [|exact HI]. exact Hx.
    + intros [r c1] _. now apply settles_const.
Qed.

Lemma children_settle cs : Forall (fun x => inn d x /\ In (n_elem x) (xsd_children d)) cs -> forall c, Inv c ->
  settles (fun fuel => schema_children fuel (load fuel) f base cs c).
Proof.
  induction 1 as [|x cs [Hx Hin] Hcs IH]; intros c HI; simpl; [now apply settles_const|].
  apply settles_bind; [now apply child_settles|]. intros c1 [n E]. apply IH.
  pose proof (child_ok f False (fun H => False_ind _ H) (fun H => False_ind _ H) d (fun H => False_ind _ H) n (load n) base x c (Hload n) Hx HI) as K.
  rewrite E in K. apply K.
Qed.

Lemma schema_settles shared : (forall s, shared = Some s -> ns_wf (sh_namespaces s)) ->
  settles (fun fuel => parse_schema_with fuel (load fuel) f d base shared).
Proof.
  intros W. unfold parse_schema_with. destruct (negb _); [now apply settles_const|]. simpl.
  apply settles_bind; [|intros c _; now apply settles_const]. apply children_settle.
  - apply Forall_forall. intros x Hx. split.
    + pose proof (nodes_inn d) as K. rewrite Forall_forall in K. now apply K.
    + rewrite <- xsd_children_nodes. now apply in_map.
  - apply ctx_new_ok. destruct shared as [s|]; [now apply W|apply ns_wf_default].
Qed.
End Term.

Lemma file_settles f path : includes_end f path ->
  forall shared, (forall s, shared = Some s -> ns_wf (sh_namespaces s)) ->
  settles (fun fuel => parse_file_with_context fuel f path shared).
Proof.
  induction 1 as [path _ IH]. intros shared W. apply settles_succ. simpl.
  destruct (fs_read f path) as [[d|]|] eqn:R; [|simpl; now apply settles_const|now apply settles_const].
  unfold parse_with. apply settles_map_err.
  apply (schema_settles f d (fs_parent f path) (fun fuel p s => parse_file_with_context fuel f p (Some s))).
  - intros fuel. exact (file_ok f False (fun H => False_ind _ H) (fun H => False_ind _ H) fuel).
  - intros c a sh Hc Hl Ha Wn. apply IH.
    + exists d, c, a. auto.
    + intros s E. injection E as <-. exact Wn.
  - exact W.
Qed.

Lemma doc_settles f d path :
  (forall c a, In c (xsd_children d) -> is_load c -> has_attr c "schemaLocation" a ->
     includes_end f (fs_push f (fs_parent f path) (at_value a))) ->
  settles (fun fuel => schema_parse fuel f (Some d) path).
Proof.
  intros H. unfold schema_parse, parse_with. apply settles_map_err.
  apply (schema_settles f d (fs_parent f path) (fun fuel p s => parse_file_with_context fuel f p (Some s))).
  - intros fuel. exact (file_ok f False (fun H => False_ind _ H) (fun H => False_ind _ H) fuel).
  - intros c a sh Hc Hl Ha Wn. apply file_settles; [now apply (H c)|]. intros s E. injection E as <-. exact Wn.
  - discriminate.
Qed.
End NoLoads.
