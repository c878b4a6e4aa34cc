(** * MergeProof: included schemas (C46) *)
From Coq Require Import Permutation.
From Verif Require Import Base Libs Xml Ast XsdNode Parse MiscProof ParseSpec DeclSpec ParseProof ParseFiles ParseRoots ParseMono DeclProof1 DeclProof2 DeclProof3
  DeclMain DeclCheck DeclCor MergeSpec.

(** ** Maps up to order *)
Definition same_map (R R' : list (name * root)) : Prop :=
  NoDup (map fst R) /\ NoDup (map fst R') /\ forall n, aget name_eqb n R = aget name_eqb n R'.
Lemma same_map_perm R R' : same_map R R' -> Permutation R R'.
Proof.
  intros (N & N' & H). apply NoDup_Permutation; [now apply NoDup_map_inv in N|now apply NoDup_map_inv in N'|].
  intros [n r]. rewrite <- !aget_iff_In by assumption. now rewrite H.
Qed.
Lemma perm_same_map R R' : NoDup (map fst R) -> Permutation R R' -> same_map R R'.
Proof.
  intros N P. assert (N' : NoDup (map fst R')) by (eapply Permutation_NoDup; [apply Permutation_map; exact P|exact N]).
  split; [exact N|]. split; [exact N'|]. intros n. destruct (aget name_eqb n R) as [r|] eqn:E.
  - symmetry. rewrite aget_iff_In in * by assumption. eapply Permutation_in; eassumption.
  - destruct (aget name_eqb n R') as [r|] eqn:E'; [|reflexivity]. rewrite aget_iff_In in E' by assumption.
    apply Permutation_sym in P. apply (Permutation_in _ P) in E'. rewrite <- aget_iff_In in E' by assumption. congruence.
Qed.
Lemma aget_aset n k v (m : list (name * root)) : aget name_eqb n (aset name_eqb k v m) = if name_eqb k n then Some v else aget name_eqb n m.
Proof.
  destruct (name_eqb k n) eqn:E.
  - apply name_eqb_eq in E. subst. apply (aget_aset_same _ name_eqb_eq).
  - apply (aget_aset_other _ name_eqb_eq). intros ->. rewrite name_eqb_refl in E. discriminate.
Qed.
Lemma same_map_add adds : forall R R', same_map R R' -> same_map (add_all adds R) (add_all adds R').
Proof.
  induction adds as [|[k v] adds IH]; intros R R' (N & N' & H); [split; auto|]. simpl. apply IH.
  split; [now apply (aset_NoDup _ name_eqb_eq)|]. split; [now apply (aset_NoDup _ name_eqb_eq)|].
  intros n. rewrite !aget_aset. now rewrite H.
Qed.
(** Adding the same definitions in another order, no two of the same name. *)
Lemma aget_add_all es : NoDup (map fst es) -> forall R n,
  aget name_eqb n (add_all es R) = match aget name_eqb n es with Some r => Some r | None => aget name_eqb n R end.
Proof.
  induction es as [|[k v] es IH]; simpl; intros ND R n; [reflexivity|]. inversion ND; subst. rewrite IH by assumption.
  rewrite aget_aset. destruct (name_eqb n k) eqn:E.
  - apply name_eqb_eq in E. subst k. rewrite name_eqb_refl. destruct (aget name_eqb n es) as [r|] eqn:G; [|reflexivity].
    apply (aget_iff_In es) in G; [|assumption]. exfalso. apply H1. apply in_map_iff. exists (n, r). auto.
  - destruct (name_eqb k n) eqn:E'; [|reflexivity]. apply name_eqb_eq in E'. subst. rewrite name_eqb_refl in E. discriminate.
Qed.
Lemma same_map_merge es es' R R' : same_map es es' -> same_map R R' -> same_map (add_all es R) (add_all es' R').
Proof.
  intros (N & N' & H) (M & M' & K). split; [now apply add_all_NoDup|]. split; [now apply add_all_NoDup|].
  intros n. rewrite !aget_add_all by assumption. now rewrite H, K.
Qed.

Section Order.
Context {L : Libs}.
Definition like (s s' : schema) : Prop :=
  s_dependencies s = s_dependencies s' /\ same_map (sc_elements (s_context s)) (sc_elements (s_context s'))
  /\ sc_target (s_context s) = sc_target (s_context s') /\ sc_qualified (s_context s) = sc_qualified (s_context s')
  /\ sc_namespaces (s_context s) = sc_namespaces (s_context s').
Definition like_result {E} (r r' : res E schema) : Prop :=
  match r, r' with
  | Ok s, Ok s' => like s s'
  | Err e, Err e' => e = e'
  | Panic w, Panic w' => w = w'
  | OutOfFuel, OutOfFuel => True
  | _, _ => False
  end.
Lemma like_same {E} (r r' : res E schema) : like_result r r' -> same_result r r'.
Proof.
  destruct r, r'; simpl; auto. intros (D & M & T & Q & N). split; [exact D|]. split; [now apply same_map_perm|].
  split; [exact T|]. split; [exact Q|]. split; [exact N|]. intros n. apply M.
Qed.

Section Load.
Variable f : fs.
Variable base : string.
Variables load load' : string -> shared_ctx -> res schema_err schema.
Hypothesis loads : forall p sh, like_result (load p sh) (load' p sh).

Definition ctx_like (c c' : ctx) : Prop := exists R', c' = set_roots R' c /\ same_map (cx_roots c) R'.
Definition ctx_result (r r' : res parse_err ctx) : Prop :=
  match r, r' with
  | Ok s, Ok s' => ctx_like s s'
  | Err e, Err e' => e = e'
  | Panic w, Panic w' => w = w'
  | OutOfFuel, OutOfFuel => True
  | _, _ => False
  end.
Lemma child_order fuel x c c' : ctx_like c c' ->
  ctx_result (schema_child fuel load f base x c) (schema_child fuel load' f base x c').
Proof.
  intros (R' & -> & M). unfold schema_child. destruct (orb _ _).
  - destruct (n_try_attribute _ _) as [[a n']|e|w|]; simpl; auto.
    specialize (loads (fs_push f base (at_value a)) (cx_shared c)).
    destruct (load _ _) as [s|e|w|], (load' _ _) as [s'|e'|w'|]; simpl in loads |- *; auto; try contradiction; try congruence.
    destruct loads as (D & Me & T & Q & N). eexists. split.
    + unfold set_shared, set_roots, into_shared. simpl. rewrite D, N. reflexivity.
    + simpl. now apply same_map_merge.
  - destruct (n_try_attribute _ _) as [[a n']|e|w|]; simpl; auto.
    pose proof (uniform_root fuel n' (mkName (at_value a) (cx_target c)) c) as U.
    destruct (root_parse fuel n' (mkName (at_value a) (cx_target c)) c) as [[r c1]|e|w|] eqn:Rp.
    + destruct U as [adds U]. rewrite U. simpl.
      assert (Rc : cx_roots c1 = add_all adds (cx_roots c)).
      { specialize (U (cx_roots c)). rewrite set_roots_self, Rp in U. injection U as U. rewrite U at 1. reflexivity. }
      eexists. split; [reflexivity|]. simpl. rewrite Rc.
      apply (same_map_add [(mkName (at_value a) (cx_target c), r)]). now apply same_map_add.
    + rewrite U. reflexivity.
    + rewrite U. reflexivity.
    + rewrite U. reflexivity.
Qed.
Lemma children_order fuel xs : forall c c', ctx_like c c' ->
  ctx_result (schema_children fuel load f base xs c) (schema_children fuel load' f base xs c').
Proof.
  induction xs as [|x xs IH]; intros c c' H; [exact H|]. simpl.
  pose proof (child_order fuel x c c' H) as K.
  destruct (schema_child fuel load f base x c) as [c1|e|w|], (schema_child fuel load' f base x c') as [c1'|e'|w'|]; simpl in K |- *;
    auto; try contradiction; try (now rewrite K).
Qed.
Lemma schema_order fuel d sh :
  like_result (parse_schema_with fuel load f d base sh) (parse_schema_with fuel load' f d base sh).
Proof.
  unfold parse_schema_with. destruct (negb _); [reflexivity|]. unfold n_attribute. cbv zeta iota.
  match goal with |- context [schema_children fuel load f base ?xs ?c] => 
    assert (K : ctx_result (schema_children fuel load f base xs c) (schema_children fuel load' f base xs c)) end.
  { apply children_order. eexists. split; [symmetry; apply set_roots_self|].
    unfold ctx_new. destruct (match _ with Some t => _ | None => _ end). simpl. repeat split; constructor. }
  destruct (schema_children fuel load f base _ _) as [c1|e|w|], (schema_children fuel load' f base _ _) as [c1'|e'|w'|];
    simpl in K |- *; auto; try contradiction; try congruence.
  destruct K as (R' & -> & M). repeat split; apply M.
Qed.
End Load.

Lemma reorder_like o s s' : Permutation (o (sc_elements (s_context s'))) (sc_elements (s_context s')) -> like s s' -> like s (reorder o s').
Proof.
  intros P (D & M & T & Q & N). repeat split; try assumption; try apply M.
  - destruct M as (_ & N' & _). eapply Permutation_NoDup; [|exact N']. apply Permutation_map, Permutation_sym, P.
  - intros n. destruct M as (_ & N' & H). rewrite H. simpl.
    apply perm_same_map; [exact N'|]. now apply Permutation_sym.
Qed.
Lemma file_order ord f : shuffles ord -> forall fuel path sh,
  like_result (parse_file_with_context fuel f path sh) (parse_file_in_order ord fuel f path sh).
Proof.
  intros Sh. induction fuel as [|fuel IH]; intros path sh; simpl; [exact I|].
  destruct (fs_read f path) as [[d|]|]; simpl; try reflexivity.
  pose proof (schema_order f (fs_parent f path) (fun p s => parse_file_with_context fuel f p (Some s))
    (fun p s => map_ok (reorder (ord p)) (parse_file_in_order ord fuel f p (Some s)))) as K.
  assert (HL : forall p s, like_result (parse_file_with_context fuel f p (Some s))
     (map_ok (reorder (ord p)) (parse_file_in_order ord fuel f p (Some s)))).
  { intros p s. specialize (IH p (Some s)). destruct (parse_file_with_context fuel f p (Some s)), (parse_file_in_order ord fuel f p (Some s));
      simpl in IH |- *; auto. apply reorder_like; [apply Sh|exact IH]. }
  specialize (K HL fuel d sh).
  destruct (parse_schema_with fuel (fun p s => parse_file_with_context fuel f p (Some s)) f d (fs_parent f path) sh) as [s|e|w|],
    (parse_schema_with fuel (fun p s => map_ok (reorder (ord p)) (parse_file_in_order ord fuel f p (Some s))) f d (fs_parent f path) sh) as [s'|e'|w'|];
    simpl in K |- *; auto; try contradiction. now subst.
Qed.
Lemma file_order_same ord f fuel path : shuffles ord ->
  same_result (parse_file fuel f path) (parse_file_in_order ord fuel f path None).
Proof. intros Sh. apply like_same, file_order, Sh. Qed.

(** ** What an include keeps *)
Lemma include_keeps fuel f d path s l x rest : files_bind_once f -> prefixes_once d ->
  schema_parse fuel f (Some d) path = Ok s -> xsd_children d = l ++ x :: rest -> is_load x ->
  exists a d' log t v later, the_attr x "schemaLocation" a
    /\ fs_read f (fs_push f (fs_parent f path) (at_value a)) = Some (Some d')
    /\ defines f (sc_namespaces (s_context s)) (fs_push f (fs_parent f path) (at_value a)) d' log
    /\ Forall2 (child_defines f (sc_namespaces (s_context s)) path d t v) rest later
    /\ forall n r, last_def n log r ->
         sc_get (s_context s) n = Some r \/ exists r', In (n, r') (concat later).
Proof.
  intros BO PO E Ec Ld. destruct (parse_log _ _ _ _ _ BO PO E) as (log & D & Li).
  inversion D as [? ? t v ess Tg Lo F]; subst. rewrite Ec in F.
  destruct (Forall2_app_inv _ _ _ _ _ F) as (m1 & y & m2 & -> & _ & C & F2).
  inversion C as [? ? ? ? ? a d' log' es Ld' Hl Rd Df Ls|]; subst; [|contradiction].
  exists a, d', log', t, v, m2. split; [exact Hl|]. split; [exact Rd|]. split; [exact Df|]. split; [exact F2|].
  intros n r Hn. destruct Ls as [ND Ls]. apply Ls in Hn.
  destruct (in_dec name_dec n (map fst (concat m2))) as [I|I].
  - right. apply in_map_iff in I. destruct I as ([n' r'] & En & I). simpl in En. subst n'. eauto.
  - left. apply (get_last s _ _ _ Li). destruct (in_split _ _ Hn) as (e1 & e2 & ->).
    exists (concat m1 ++ e1), (e2 ++ concat m2). split.
    + rewrite concat_app. simpl. now rewrite <- !app_assoc.
    + apply Forall_app. split.
      * apply Forall_forall. intros [k w] Ik Ek. simpl in Ek. subst k. rewrite map_app in ND. simpl in ND.
        apply NoDup_remove_2 in ND. apply ND. apply in_or_app. right. apply in_map_iff. exists (n, w). auto.
      * apply Forall_forall. intros [k w] Ik Ek. simpl in Ek. subst k. apply I. apply in_map_iff. exists (n, w). auto.
Qed.

(** Every declaration of a loaded file leaves a type of its name in the target
    namespace of that file. *)
Lemma include_named fuel f d path s x : files_bind_once f -> prefixes_once d ->
  schema_parse fuel f (Some d) path = Ok s -> In x (xsd_children d) -> is_load x ->
  exists a d', the_attr x "schemaLocation" a
    /\ fs_read f (fs_push f (fs_parent f path) (at_value a)) = Some (Some d')
    /\ forall y, In y (xsd_children d') -> ~ is_load y ->
       exists b n r, the_attr y "name" b /\ nm n = at_value b
         /\ target_of d' (sc_namespaces (s_context s)) (nm_ns n) /\ sc_get (s_context s) n = Some r.
Proof.
  intros BO PO E I Ld. destruct (in_split _ _ I) as (l & rest & Ec).
  destruct (parse_log _ _ _ _ _ BO PO E) as (log & D & Li).
  inversion D as [? ? t v ess Tg Lo F]; subst. rewrite Ec in F.
  destruct (Forall2_app_inv _ _ _ _ _ F) as (m1 & ys & m2 & -> & _ & C & F2).
  inversion C as [? ? ? ? ? a d' log' es Ld' Hl Rd Df Ls|]; subst; [|contradiction].
  exists a, d'. split; [exact Hl|]. split; [exact Rd|]. intros y Iy Ny.
  inversion Df as [? ? t' v' ess' Tg' Lo' F']; subst. destruct (in_split _ _ Iy) as (l1 & l2 & Ec').
  rewrite Ec' in F'. destruct (Forall2_app_inv _ _ _ _ _ F') as (k1 & z & k2 & -> & _ & C' & _).
  inversion C' as [|? ? ? ? ? b made r Ny' Hb Dd Fm]; subst; [contradiction|].
  assert (I1 : In (mkName (at_value b) t', r) (concat (k1 ++ (made ++ [(mkName (at_value b) t', r)]) :: k2))).
  { rewrite concat_app. apply in_or_app. right. simpl. apply in_or_app. left. apply in_or_app. right. now left. }
  destruct (last_def_ex _ _ _ I1) as (r1 & H1). apply (proj2 Ls) in H1.
  assert (I2 : In (mkName (at_value b) t', r1) (concat (m1 ++ ys :: m2))).
  { rewrite concat_app. apply in_or_app. right. simpl. apply in_or_app. now left. }
  destruct (last_def_ex _ _ _ I2) as (r2 & H2). exists b, (mkName (at_value b) t'), r2.
  split; [exact Hb|]. split; [reflexivity|]. split; [exact Tg'|]. now apply (get_last s _ _ _ Li).
Qed.

(** ** Namespace numbers *)
Lemma uri_ids fuel f d path s a b u : schema_parse fuel f (Some d) path = Ok s ->
  ns_uri (sc_namespaces (s_context s)) a u -> ns_uri (sc_namespaces (s_context s)) b u -> a = b.
Proof.
  intros E (i & da & -> & Ga & Ua) (j & db & -> & Gb & Ub).
  assert (W : ns_wf (sc_namespaces (s_context s))).
  { pose proof (doc_ok f False (fun H => False_ind _ H) (fun H => False_ind _ H) fuel d path (fun H => False_ind _ H)) as K.
    rewrite E in K. apply K. }
  destruct W as (_ & _ & W). apply W in Ga, Gb. rewrite Ua in Ga. rewrite Ub in Gb. congruence.
Qed.
End Order.
