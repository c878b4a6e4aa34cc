(** * BulkNames: lemmas for C86, the number of namespaces *)
From Verif Require Import Base Libs Xml Ast XsdNode Parse ParseSpec EndlessSpec EndlessProof CostSpec AmountSpec AmountProof BulkSpec.
From Coq Require Import Lia.

Section WithLibs.
Context {L : Libs}.
Definition nss_in (c : ctx) : nat := length (by_id (sh_namespaces (cx_shared c))).
Definition adds {A} (d : nat) (m : P A) : Prop := forall c a c', m c = Ok (a, c') -> nss_in c' <= d + nss_in c.
Lemma insert_one nss u : length (by_id (snd (get_or_insert nss u))) <= S (length (by_id nss)).
Proof.
  unfold get_or_insert. destruct (aget _ _ _); cbn [snd]; [lia|]. cbn [by_id]. generalize (length (by_namespace nss) + 1) as i, (mkNsDef u ("ns" +++ show_nat (length (by_namespace nss) + 1))) as v. intros i v.
  induction (by_id nss) as [|[a b] l IH]; cbn [aset length]; [lia|]. destruct (Nat.eqb i a); cbn [length]; lia.
Qed.
Lemma adds_weak {A} d d' (m : P A) : adds d m -> d <= d' -> adds d' m.
Proof. intros H K c a c' E. specialize (H c a c' E). lia. Qed.
Lemma adds_ret {A} d (a : A) : adds d (pret a).
Proof. intros c a' c' [= <- <-]. lia. Qed.
Lemma adds_err {A} d e : @adds A d (perr e).
Proof. intros c a c' H. discriminate. Qed.
Lemma adds_out {A} d : @adds A d (fun _ => OutOfFuel).
Proof. intros c a c' H. discriminate. Qed.
Lemma adds_bind {A B} d1 d (m : P A) (k : A -> P B) : adds d1 m -> d1 <= d -> (forall a, adds (d - d1) (k a)) -> adds d (pbind m k).
Proof.
  intros H ? K c b c2 E. unfold pbind in E. destruct (m c) as [[a c1]|e|s|] eqn:Em; try discriminate. specialize (H c a c1 Em). specialize (K a c1 b c2 E). lia.
Qed.
Lemma adds_bind_q {A B} (Q : A -> Prop) d1 d (m : P A) (k : A -> P B) : yields Q m -> adds d1 m -> d1 <= d -> (forall a, Q a -> adds (d - d1) (k a)) -> adds d (pbind m k).
Proof.
  intros Y H ? K c b c2 E. unfold pbind in E. destruct (m c) as [[a c1]|e|s|] eqn:Em; try discriminate. specialize (H c a c1 Em). specialize (K a (Y _ _ _ Em) c1 b c2 E). lia.
Qed.
Lemma adds_lift {A B} d (m : res xsd_err A) (k : A -> P B) : (forall a, m = Ok a -> adds d (k a)) -> adds d (pbind (plift m) k).
Proof. intros K c b c2 E. unfold pbind, plift in E. destruct m as [a|e|s|]; try discriminate. exact (K a eq_refl c b c2 E). Qed.
Lemma adds_get {B} d (k : ctx -> P B) : (forall c, adds d (k c)) -> adds d (pbind pget k).
Proof. intros K c b c2 E. exact (K c c b c2 E). Qed.
Lemma adds_root n r : adds 0 (add_root n r).
Proof. intros c a c' [= <- <-]. apply le_n. Qed.
Lemma adds_use n p : adds 0 (discover_type n p).
Proof. intros c a c' [= <- <-]. apply le_n. Qed.
Lemma adds_virtual ns b : adds 0 (derive_virtual_name ns b).
Proof.
  intros c x c' H. unfold derive_virtual_name in H. cbn zeta in H. assert (c' = c) as ->; [|lia].
  destruct (if b then _ else _) as [s|]; [congruence|]. destruct (concat_upper (map nm ns)); cbn in H; congruence.
Qed.
Lemma adds_name a : adds 1 (get_type_name a).
Proof.
  intros c x c' H. unfold get_type_name in H.
  destruct (split_colon (at_value a)) as [[p l]|].
  - destruct (aget _ _ _) as [u|]; [|discriminate]. destruct (_ =?s _); [destruct (literal_from_str l); [|discriminate]; injection H as <- <-; lia|].
    pose proof (insert_one (sh_namespaces (cx_shared c)) u). destruct (get_or_insert _ _) as [ns nss]. injection H as <- <-. unfold nss_in. cbn [set_shared cx_shared sh_namespaces snd] in *. lia.
  - destruct (opt_eqb _ _ _); [destruct (literal_from_str (at_value a)); [|discriminate]|]; injection H as <- <-; lia.
Qed.
Lemma adds_collect {B} (g : node -> P (option B)) cs : (forall n, adds (S (inner n)) (g n)) -> adds (load_of cs) (pcollect g cs).
Proof.
  intros H. induction cs as [|x cs IH]; cbn [pcollect]; [apply adds_ret|]. rewrite load_cons.
  eapply adds_bind; [apply H|lia|]. intros o. eapply adds_bind; [exact IH|lia|]. intros bs. apply adds_ret.
Qed.
Lemma adds_content n p c : adds 0 (content_of_type n p c).
Proof.
  unfold content_of_type. destruct c; [destruct (n_attribute n "fixed"); apply adds_ret| |apply adds_ret]. eapply adds_bind; [apply adds_use|lia|]. intros _. apply adds_ret.
Qed.
Ltac steps := repeat lazymatch goal with
  | |- adds _ (pbind (plift _) _) => apply adds_lift; intros ? ?
  | |- adds _ (pbind pget _) => apply adds_get; intros ?
  | |- adds _ (pbind (derive_virtual_name _ _) _) => eapply adds_bind; [apply adds_virtual|lia|intros ?; rewrite Nat.sub_0_r]
  | |- adds _ (pbind (add_root _ _) _) => eapply adds_bind; [apply adds_root|lia|intros ?; rewrite Nat.sub_0_r]
  | |- adds _ (pbind (discover_type _ _) _) => eapply adds_bind; [apply adds_use|lia|intros ?; rewrite Nat.sub_0_r]
  | |- adds _ (pbind (content_of_type _ _ _) _) => eapply adds_bind; [apply adds_content|lia|intros [? ?]; rewrite Nat.sub_0_r]
  | |- adds _ (perr _) => apply adds_err
  | |- adds _ (pret _) => apply adds_ret
  end.
Ltac norm := cbn beta iota zeta delta [n_attribute n_elem n_visited].
Ltac go := norm; steps; norm; steps; norm.
Ltac rem := lazymatch goal with |- context [c_remove ?s ?ns ?cs] => let E := fresh "R" in destruct (c_remove s ns cs) as [? ?] eqn:E; apply load_remove in E; unfold load_opt in E end.
Ltac name_ := eapply adds_bind; [apply adds_name|lia|intros ?].
Ltac kids := repeat match goal with
  | H : context [load_of (n_children ?n ?ns)] |- _ => lazymatch goal with _ : load_of (n_children n ns) <= _ |- _ => fail | _ => pose proof (load_children n ns) end
  | H : c_try_remove _ _ _ _ = Ok _ |- _ => apply load_try in H
  | H : n_try_attribute _ _ = Ok _ |- _ => apply inner_try in H
  end; rewrite ?inner_mark in *.

Lemma simple_adds n : adds (inner n) (simple_type_parse n).
Proof.
  unfold simple_type_parse. go. rem. go. destruct a1 as [restr cs2]. go. destruct a1 as [at0 restr2]. kids. name_. destruct a1; go.
Qed.
Lemma attribute_adds p n : adds (S (inner n)) (attribute_parse p n).
Proof.
  unfold attribute_parse. go. destruct a as [na n1]. go. rem. go. rem.
  eapply (adds_bind (S (inner n))); [|lia|].
  - destruct o0 as [st|].
    + kids. eapply adds_bind; [apply simple_adds|lia|]. intros r. destruct r as [[[| |] rs ds]| | |]; go.
    + go. destruct a0 as [ta n3]. go. name_. eapply adds_weak; [apply adds_content|lia].
  - intros [ct n2]. go. repeat match goal with
    | |- adds _ (match ?x with _ => _ end) => destruct x
    | |- _ => progress go
    end.
Qed.
Lemma attributes_add p cs d : load_of cs <= d -> adds d (pcollect (attribute_parse p) (select_all "attribute" cs)).
Proof. intros H. pose proof (load_select "attribute" cs). eapply adds_weak; [apply adds_collect; intros n; apply attribute_adds|lia]. Qed.
Lemma simple_content_adds n p : adds (inner n) (simple_content_parse n p).
Proof.
  unfold simple_content_parse. go. destruct a0 as [ext rest]. go. destruct a1 as [base ext2]. kids. name_.
  eapply (adds_bind 0); [destruct a1; go|lia|]. intros x. pose proof (load_children ext2 NS_XSD).
  eapply adds_bind; [apply (attributes_add p _ (inner ext2)); lia|lia|]. intros ats. go.
Qed.

Section Step.
Variable k : nat.
Hypothesis CT : forall n p, adds (inner n) (complex_type_parse k n p).
Hypothesis CC : forall n p, adds (inner n) (complex_content_parse k n p).
Hypothesis SQ : forall n p, adds (inner n) (sequence_parse k n p).
Hypothesis CH : forall n p, adds (inner n) (choice_parse k n p).
Hypothesis PC : forall n p, adds (S (inner n)) (parse_child k n p).
Hypothesis PR : forall n p, adds (typed_inner n) (parse_root k n p).
Hypothesis RP : forall n p, adds (typed_inner n) (root_parse k n p).
Ltac weak H := eapply adds_weak; [apply H|rewrite ?inner_mark; lia].

Lemma root_step n p : adds (typed_inner n) (root_parse (S k) n p).
Proof.
  pose proof (typed_le n). cbn [root_parse]. destruct (_ =?s _); [apply PR|]. destruct (_ =?s _); [weak CT|]. destruct (_ =?s _); [|apply adds_err]. weak simple_adds.
Qed.
Lemma parse_root_step n p : adds (typed_inner n) (parse_root (S k) n p).
Proof.
  cbn [parse_root]. go. rem. go. unfold typed_inner. destruct (attr_lookup "type" (xe_attrs (n_elem n))) as [ta|].
  - go. name_. go.
  - go. rem. eapply (adds_bind (inner n)); [|lia|intros [r cs]; go]. kids. destruct o0 as [ct|].
    + eapply adds_bind; [apply CT|lia|]. intros r. go.
    + rem. destruct o0 as [st|]; [|apply adds_err]. eapply adds_bind; [apply simple_adds|lia|]. intros r. go.
Qed.
Lemma parse_child_step n p : adds (S (inner n)) (parse_child (S k) n p).
Proof.
  cbn [parse_child]. go. destruct (attr_lookup "ref" _) as [ra|].
  - go. name_. destruct a2; go.
  - go. destruct a1 as [na n1]. go. assert (X : n_elem n1 = n_elem n).
    { unfold n_try_attribute, n_attribute in H1. cbn [n_elem] in H1. destruct (attr_lookup "name" _) in H1; [|discriminate]. now injection H1 as _ <-. }
    destruct (attr_lookup "type" (xe_attrs (n_elem n1))) as [ta|] eqn:Et.
    + go. name_. go.
    + go.
      assert (T : forall v, typed_inner (mkNode (n_elem n1) v) = inner n).
      { intros v. unfold typed_inner. cbn [n_elem]. rewrite Et. unfold inner. cbn [n_elem]. now rewrite X. }
      destruct (n_child _ "simpleType" _); [|destruct (n_child _ "complexType" _)]; go; try (eapply adds_bind; [apply RP|rewrite T; lia|]; intros r; go).
Qed.
Lemma choice_step n p : adds (inner n) (choice_parse (S k) n p).
Proof.
  cbn [choice_parse]. go. pose proof (load_children n NS_XSD). eapply adds_weak; [apply adds_collect|lia].
  intros x. destruct (_ =?s _).
  - eapply adds_bind; [apply PC|lia|]. intros l. go.
  - destruct (_ =?s _).
    + go. eapply adds_bind; [apply SQ|rewrite ?inner_mark; lia|]. intros ls. go.
    + destruct (_ =?s _); go.
Qed.
Lemma sequence_step n p : adds (inner n) (sequence_parse (S k) n p).
Proof.
  cbn [sequence_parse]. go. pose proof (load_children n NS_XSD). eapply adds_weak; [apply adds_collect|lia].
  intros x. destruct (_ =?s _).
  - eapply adds_bind; [apply PC|lia|]. intros l. go.
  - destruct (_ =?s _); [|destruct (_ =?s _)].
    + go. eapply adds_bind; [apply CH|rewrite ?inner_mark; lia|]. intros ls. go.
    + go. eapply adds_bind; [apply SQ|rewrite ?inner_mark; lia|]. intros ls. go.
    + destruct (_ =?s _); go.
Qed.
Lemma complex_content_step n p : adds (inner n) (complex_content_parse (S k) n p).
Proof.
  cbn [complex_content_parse]. go. destruct a0 as [ext rest]. go. destruct a1 as [base ext2]. kids. name_.
  destruct a1 as [l|t|f]; try apply adds_err. go. rem. pose proof (load_children ext2 NS_XSD) as Hl.
  eapply (adds_bind (load_opt o)); [|unfold load_opt; lia|].
  { destruct o as [sq|]; [|go]. cbn [load_opt]. go. eapply adds_bind; [apply SQ|rewrite ?inner_mark; lia|]. intros ls. go. }
  intros vl. eapply adds_bind; [apply (attributes_add p l (load_of l)); lia|unfold load_opt; lia|]. intros ats. go.
Qed.
Lemma complex_type_step n p : adds (inner n) (complex_type_parse (S k) n p).
Proof.
  cbn [complex_type_parse]. go. destruct (match attr_lookup "mixed" (xe_attrs (n_elem n)) with Some a => _ | None => false end); [apply adds_err|]. go. rem. go. rem.
  rewrite children_mark in R. pose proof (load_children n NS_XSD) as Hl.
  destruct o0 as [sc|].
  { go. eapply adds_bind; [apply simple_content_adds|lia|]. intros d. go. }
  rem. destruct o0 as [cc|].
  { go. eapply adds_bind; [apply CC|lia|]. intros d. go. }
  rem.
  assert (Q : exists sq cs, (match o0 with Some _ => (o0, l2) | None => c_remove "all" (Some NS_XSD) l2 end) = (sq, cs) /\ load_opt sq + load_of cs <= load_of l1).
  { destruct o0 as [x|]; [exists (Some x), l2; split; [reflexivity|cbn [load_opt]; lia]|]. destruct (c_remove "all" (Some NS_XSD) l2) as [sq cs] eqn:E. apply load_remove in E.
    exists sq, cs. split; [reflexivity|lia]. }
  destruct Q as (sq & cs & -> & Hq). clear o0 R2.
  assert (M : forall d (x : option element_content * list node) ch, snd x = ch -> load_of ch <= d ->
     adds d (let '(content, children) := x in
       attributes <== pcollect (attribute_parse p) (select_all "attribute" children) ;;
       plift (prevent_unvisited_children (mkNode (n_elem n) ("mixed" :: n_visited n)) (remove_all "attribute" children)) ;==
       pret (RootElement (mkElementDef attributes content false a0)))).
  { intros d [ct ch'] ch <- D. cbn [snd] in D. eapply adds_bind; [apply (attributes_add p ch' (load_of ch')); lia|lia|]. intros ats. go. }
  destruct sq as [x|].
  - cbn [load_opt] in Hq. eapply (adds_bind_q (fun y => snd y = cs) (inner x)).
    + norm. do 3 (apply yields_bind; intros ?). destruct (orb _ _); [do 2 (apply yields_bind; intros ?); do 2 (apply yields_bind; intros ?)|]; apply yields_ret; reflexivity.
    + go. eapply adds_bind; [apply SQ|rewrite ?inner_mark; lia|]. intros ls. destruct (orb _ _); go.
    + lia.
    + intros y Hy. apply (M _ y cs Hy). lia.
  - cbn [load_opt] in Hq. rem. destruct o0 as [ch|].
    + eapply (adds_bind_q (fun y => snd y = l3) (inner ch)).
      * repeat (apply yields_bind; intros ?). apply yields_ret. reflexivity.
      * eapply adds_bind; [apply CH|lia|]. intros vs. go.
      * lia.
      * intros y Hy. apply (M _ y l3 Hy). lia.
    + eapply (adds_bind_q (fun y => snd y = l3) 0).
      * apply yields_ret. reflexivity.
      * apply adds_ret.
      * lia.
      * intros y Hy. apply (M _ y l3 Hy). lia.
Qed.
End Step.

Lemma tree_adds k :
  (forall n p, adds (inner n) (complex_type_parse k n p)) /\ (forall n p, adds (inner n) (complex_content_parse k n p))
  /\ (forall n p, adds (inner n) (sequence_parse k n p)) /\ (forall n p, adds (inner n) (choice_parse k n p))
  /\ (forall n p, adds (S (inner n)) (parse_child k n p)) /\ (forall n p, adds (typed_inner n) (parse_root k n p))
  /\ (forall n p, adds (typed_inner n) (root_parse k n p)).
Proof.
  induction k as [|k (CT & CC & SQ & CH & PC & PR & RP)].
  - repeat apply conj; intros; apply adds_out.
  - split; [intros; apply complex_type_step; auto|]. split; [intros; apply complex_content_step; auto|]. split; [intros; apply sequence_step; auto|].
    split; [intros; apply choice_step; auto|]. split; [intros; apply parse_child_step; auto|]. split; [intros; apply parse_root_step; auto|]. intros; apply root_step; auto.
Qed.

(** ** Files *)
Definition few_loads (load : string -> shared_ctx -> res schema_err schema) (f : fs) : Prop :=
  forall p sh s, load p sh = Ok s -> exists ds, opened f p ds /\ length (by_id (sc_namespaces (s_context s))) <= elements ds + length (by_id (sh_namespaces sh)).
Lemma children_names k load f dir : few_loads load f -> forall cs c c', schema_children k load f dir cs c = Ok c' ->
  exists ds, opened_in f dir (map n_elem cs) ds /\ nss_in c' <= load_of cs + elements ds + nss_in c.
Proof.
  intros W. induction cs as [|x cs IH]; intros c c' H; cbn [schema_children] in H.
  { injection H as <-. exists []. split; [constructor|]. lia. }
  destruct (schema_child k load f dir x c) as [c1| | |] eqn:E1; try discriminate. cbn [bind] in H. destruct (IH _ _ H) as (ds2 & O2 & M2). rewrite load_cons. cbn [map].
  unfold schema_child in E1. destruct (orb _ _) eqn:El.
  - apply is_load_name in El. destruct (n_try_attribute x "schemaLocation") as [[a x']| | |] eqn:Ea; try discriminate. cbn [map_err bind] in E1.
    assert (La : last_attr (n_elem x) "schemaLocation" a).
    { unfold n_try_attribute, n_attribute in Ea. destruct (attr_lookup "schemaLocation" (xe_attrs (n_elem x))) eqn:Eb; [|discriminate]. injection Ea as <- _. now apply lookup_last. }
    destruct (load (fs_push f dir (at_value a)) (cx_shared c)) as [s| | |] eqn:Es; try discriminate. cbn [map_err bind] in E1. injection E1 as <-.
    destruct (W _ _ _ Es) as (ds1 & O1 & T1). exists (ds1 ++ ds2). split; [now apply oi_load with a|]. rewrite elements_app.
    unfold nss_in in *. cbn [set_shared set_roots cx_roots cx_shared into_shared sh_namespaces] in M2. lia.
  - assert (N : ~ is_load (n_elem x)) by (intros K; apply is_load_name in K; congruence).
    destruct (n_try_attribute x "name") as [[a x']| | |] eqn:Ea; try discriminate. cbn [map_err bind] in E1.
    destruct (root_parse k x' _ c) as [[r c0]| | |] eqn:Er; try discriminate. cbn [map_err bind] in E1. injection E1 as <-.
    exists ds2. split; [now apply oi_other|]. apply tree_adds in Er. pose proof (typed_le x'). apply inner_try in Ea. unfold nss_in in *. cbn [set_roots cx_shared] in M2. lia.
Qed.
Lemma ctx_new_names d tn sh : nss_in (ctx_new d tn sh) <= S (length (by_id (sh_namespaces sh))).
Proof.
  unfold nss_in, ctx_new. destruct tn as [t|]; [|cbn; lia]. pose proof (insert_one (sh_namespaces sh) t). destruct (get_or_insert (sh_namespaces sh) t). cbn [cx_shared sh_namespaces snd] in *. lia.
Qed.
Lemma file_names k f : forall path sh s, parse_file_with_context k f path sh = Ok s ->
  exists ds, opened f path ds /\ length (by_id (sc_namespaces (s_context s))) <= elements ds + length (by_id (sh_namespaces (match sh with Some s => s | None => shared_default end))).
Proof.
  induction k as [|k IH]; intros path sh s H; cbn [parse_file_with_context] in H; [discriminate|].
  destruct (fs_read f path) as [[d|]|] eqn:R; try discriminate. unfold parse_with in H.
  destruct (parse_schema_with k _ f d (fs_parent f path) sh) as [s0| | |] eqn:E; try discriminate. cbn [map_err] in H. injection H as ->.
  unfold parse_schema_with in E. destruct (negb _); [discriminate|]. cbn zeta in E. unfold n_attribute in E.
  destruct (schema_children k _ f _ _ _) as [c| | |] eqn:Ec; try discriminate. cbn [bind] in E. injection E as <-.
  apply children_names in Ec; [|intros p sh' s' H'; exact (IH p (Some sh') s' H')]. destruct Ec as (ds & O & M). change (n_children (mkNode (n_elem (node_of d)) _) NS_XSD) with (n_children (node_of d) NS_XSD) in *.
  rewrite children_elems in O. exists (d :: ds). split; [now constructor|]. rewrite elements_cons, size_children. cbn [into_schema s_context sc_namespaces].
  match type of M with context [nss_in (ctx_new d ?tn ?x)] => pose proof (ctx_new_names d tn x) end.
  pose proof (load_children (node_of d) NS_XSD) as Hl. unfold inner in Hl. cbn [n_elem node_of] in Hl. unfold nss_in in M at 1. destruct sh; lia.
Qed.
End WithLibs.
