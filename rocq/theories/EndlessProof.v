(** * EndlessProof: lemmas for the exact form of C29 *)
From Verif Require Import Base Libs Xml Ast XsdNode Parse Gen ParseSpec MiscSpec MiscProof ParseProof ParseMono ParseFiles ParseGen ParseMain EndlessSpec.

Lemma lookup_last e n a : attr_lookup n (xe_attrs e) = Some a <-> last_attr e n a.
Proof.
  unfold last_attr. generalize (xe_attrs e) as l. clear e. induction l as [|x l IH]; simpl.
  - split; [discriminate|]. intros (l1 & l2 & E & _). now destruct l1.
  - destruct (attr_lookup n l) as [b|] eqn:B.
    + rewrite IH. split.
      * intros (l1 & l2 & -> & K). now exists (x :: l1), l2.
      * intros (l1 & l2 & E & K & N). destruct l1 as [|y l1].
        -- injection E as -> ->. apply attr_lookup_In in B. destruct B as [I E]. now apply N in I.
        -- injection E as -> ->. now exists l1, l2.
    + assert (N : forall b, In b l -> at_name b <> n) by now apply attr_lookup_None. split.
      * destruct (String.eqb_spec (at_name x) n) as [E|]; [|discriminate]. intros K. injection K as ->. now exists [], l.
      * intros (l1 & l2 & E & K & _). destruct l1 as [|y l1].
        -- injection E as -> ->. apply String.eqb_eq in K. now rewrite K.
        -- injection E as -> ->. exfalso. apply (N a); [apply in_or_app; right; now left|exact K].
Qed.
Lemma schema_name d : has_name "schema" (Some NS_XSD) d = true <-> xe_ns d = Some NS_XSD /\ xe_tag d = "schema".
Proof.
  unfold has_name. split.
  - intros H. apply andb_true_iff in H. destruct H as [A B]. split.
    + destruct (xe_ns d) as [s|]; cbn in *; try discriminate; apply String.eqb_eq in B || apply String.eqb_eq in A; congruence.
    + apply String.eqb_eq in A || apply String.eqb_eq in B; congruence.
  - intros [-> ->]. reflexivity.
Qed.

Section Endless.
Context {L : Libs}.
Implicit Types f : fs.

(** ** More fuel, the same result *)
Lemma children_mono n n' load load' f base : n <= n' ->
  (forall p s, load p s <> OutOfFuel -> load' p s = load p s) ->
  forall cs c, schema_children n load f base cs c <> OutOfFuel ->
    schema_children n' load' f base cs c = schema_children n load f base cs c.
Proof.
  intros H HL. induction cs as [|x cs IH]; intros c K; [reflexivity|]. simpl in *.
  assert (E : schema_child n load f base x c <> OutOfFuel ->
              schema_child n' load' f base x c = schema_child n load f base x c).
  { unfold schema_child. destruct (orb _ _).
    - destruct (n_try_attribute x "schemaLocation") as [[a x']|?|?|]; simpl; try reflexivity.
      intros N. rewrite HL; [reflexivity|]. intros E. now rewrite E in N.
    - destruct (n_try_attribute x "name") as [[a x']|?|?|]; simpl; try reflexivity.
      intros N. rewrite (root_parse_mono n n'); [reflexivity|exact H|]. intros E. now rewrite E in N. }
  destruct (schema_child n load f base x c) as [c1|e|w|] eqn:Q; simpl in *; try (rewrite E by discriminate; simpl; auto).
  congruence.
Qed.
Lemma file_mono f n : forall n' p sh, n <= n' -> parse_file_with_context n f p sh <> OutOfFuel ->
  parse_file_with_context n' f p sh = parse_file_with_context n f p sh.
Proof.
  induction n as [|n IH]; intros n' p sh H K; [now destruct K|]. destruct n' as [|n']; [lia|]. simpl in *.
  destruct (fs_read f p) as [[d|]|]; try reflexivity. unfold parse_with in *. f_equal.
  unfold parse_schema_with in *. destruct (negb _); [reflexivity|]. simpl in *.
  rewrite (children_mono n n' (fun p s => parse_file_with_context n f p (Some s)) (fun p s => parse_file_with_context n' f p (Some s)));
    [reflexivity|lia| |].
  - intros q s N. apply IH; [lia|exact N].
  - intros E. rewrite E in K. now destruct K.
Qed.
Lemma loader_mono f n n' : n <= n' -> forall p s, loader n f p s <> OutOfFuel -> loader n' f p s = loader n f p s.
Proof. intros H p s N. now apply file_mono. Qed.

(** ** Accepted files *)
Lemma children_app n load f base pre x post c r :
  schema_children n load f base (pre ++ x :: post) c = r -> r <> OutOfFuel ->
  schema_children n load f base pre c <> OutOfFuel
  /\ forall c1, schema_children n load f base pre c = Ok c1 -> schema_child n load f base x c1 <> OutOfFuel.
Proof.
  revert c. induction pre as [|y pre IH]; intros c E N; simpl in *.
  - split; [discriminate|]. intros c1 K. injection K as <-. intros Q. rewrite Q in E. simpl in E. congruence.
  - destruct (schema_child n load f base y c) as [c2|e|w|] eqn:Q; simpl in *; try (split; [discriminate|intros; discriminate]).
    + now apply IH.
    + congruence.
Qed.
Lemma accepted_children n load f base : forall cs c c', schema_children n load f base cs c = Ok c' ->
  forall x a, In x cs -> is_load (n_elem x) -> last_attr (n_elem x) "schemaLocation" a ->
  exists sh s, load (fs_push f base (at_value a)) sh = Ok s.
Proof.
  induction cs as [|y cs IH]; intros c c' E x a I Ld La; [destruct I|]. simpl in E.
  destruct (schema_child n load f base y c) as [c1|?|?|] eqn:Q; simpl in E; try discriminate.
  destruct I as [->|I]; [|eapply IH; eauto].
  unfold schema_child in Q. apply orb_load in Ld. rewrite Ld in Q. unfold n_try_attribute, n_attribute in Q.
  apply lookup_last in La. rewrite La in Q. simpl in Q.
  destruct (load _ _) as [s|?|?|] eqn:R; simpl in Q; try discriminate. eauto.
Qed.
Lemma accepted_step fuel f p sh s : parse_file_with_context fuel f p sh = Ok s ->
  is_schema_file f p /\ forall q, refers f p q -> exists fuel' sh' s', fuel' < fuel /\ parse_file_with_context fuel' f q sh' = Ok s'.
Proof.
  destruct fuel as [|fuel]; [discriminate|]. simpl. destruct (fs_read f p) as [[d|]|] eqn:R; try discriminate.
  unfold parse_with, parse_schema_with. destruct (has_name "schema" (Some NS_XSD) d) eqn:Hn; [|discriminate]. simpl.
  apply schema_name in Hn. destruct Hn as [Hns Ht].
  destruct (schema_children _ _ _ _ _ _) as [c|e|w|] eqn:Q; simpl; [|destruct e; discriminate|discriminate|discriminate].
  intros _. split; [now exists d|]. intros q (d' & x & a & R' & _ & _ & I & Ld & La & ->).
  rewrite R in R'. injection R' as <-. rewrite <- xsd_children_nodes in I. apply in_map_iff in I. destruct I as (xn & <- & I).
  edestruct accepted_children as (sh' & s' & K); [exact Q| |exact Ld|exact La|].
  - exact I.
  - simpl in K. exists fuel, (Some sh'), s'. split; [lia|exact K].
Qed.
Lemma accepted_end fuel : forall f p sh s, parse_file_with_context fuel f p sh = Ok s -> Acc (fun q p => refers f p q) p.
Proof.
  induction fuel as [fuel IH] using lt_wf_ind. intros f p sh s E. constructor. intros q Q.
  destruct (accepted_step _ _ _ _ _ E) as [_ K]. destruct (K _ Q) as (n & sh' & s' & H & E'). eapply IH; eauto.
Qed.
Lemma accepted_reach fuel f p sh s : parse_file_with_context fuel f p sh = Ok s ->
  forall q, reaches f p q -> exists fuel' sh' s', parse_file_with_context fuel' f q sh' = Ok s'.
Proof.
  intros E q Q. induction Q as [|q r Q (n & sh' & s' & IH) S]; [eauto|].
  destruct (accepted_step _ _ _ _ _ IH) as [_ K]. destruct (K _ S) as (m & sh2 & s2 & _ & E2). eauto.
Qed.
Lemma acc_not_endless f p : Acc (fun q p => refers f p q) p -> ~ endless f p.
Proof.
  induction 1 as [p _ IH]. intros (ch & <- & K). apply (IH (ch 1) (K 0)). exists (fun n => ch (S n)). split; [reflexivity|].
  intros n. apply (K (S n)).
Qed.

(** ** Exactly when reading comes to an end *)
Lemma not_out_ends f n : forall p sh, parse_file_with_context n f p sh <> OutOfFuel -> visits_end f (p, sh).
Proof.
  induction n as [|n IH]; intros p sh N; [now destruct N|]. constructor. intros [q sh'] W.
  destruct W as (d & pre & x & post & a & m & c & R & Hns & Ht & Hc & Ld & La & Hp & E). simpl in *.
  injection E as -> ->. rewrite R in N. unfold parse_with, parse_schema_with in N.
  rewrite (proj2 (schema_name d) (conj Hns Ht)) in N. simpl in N.
  change (n_children {| n_elem := d; n_visited := ["targetNamespace"] |} NS_XSD) with (n_children (node_of d) NS_XSD) in N.
  rewrite Hc in N.
  match type of N with context [schema_children ?a ?b ?c ?d ?e ?g] =>
    set (r := schema_children a b c d e g) in *; assert (Hr : r <> OutOfFuel) by (intros Q; now rewrite Q in N);
    destruct (children_app a b c d pre x post g r eq_refl Hr) as [P1 P2]; clear N end.
  assert (K : schema_children n (loader n f) f (fs_parent f p) pre (start_ctx d sh) = Ok c).
  { set (k := Nat.max n m). rewrite <- (children_mono n k (loader n f) (loader k f)).
    - rewrite (children_mono m k (loader m f)); [exact Hp|subst k; lia|apply loader_mono; subst k; lia|]. now rewrite Hp.
    - subst k; lia.
    - apply loader_mono; subst k; lia.
    - exact P1. }
  specialize (P2 c K). apply IH. intros Q. apply P2. unfold schema_child. rewrite (proj2 (orb_load x) Ld).
  unfold n_try_attribute, n_attribute. rewrite (proj2 (lookup_last _ _ _) La). simpl. now rewrite Q.
Qed.

Lemma enters_wf f p sh q sh' : (forall s, sh = Some s -> ns_wf (sh_namespaces s)) ->
  enters f (p, sh) (q, sh') -> forall s, sh' = Some s -> ns_wf (sh_namespaces s).
Proof.
  intros W (d & pre & x & post & a & m & c & R & _ & _ & Hc & _ & _ & Hp & E) s Es. simpl in *.
  injection E as _ ->. injection Es as <-.
  assert (F : Forall (inn d) pre).
  { pose proof (nodes_inn d) as F. rewrite Hc in F. apply Forall_app in F. apply F. }
  assert (I0 : Inv (start_ctx d sh)).
  { apply ctx_new_ok. destruct sh as [s|]; [now apply W|apply ns_wf_default]. }
  revert I0 Hp. generalize (start_ctx d sh) as c0. clear Hc. induction F as [|y pre Hy F IH]; intros c0 I0 Hp; simpl in Hp.
  - injection Hp as <-. apply I0.
  - destruct (schema_child _ _ _ _ y c0) as [c1|?|?|] eqn:Q; simpl in Hp; try discriminate.
    apply (IH c1); [|exact Hp].
    pose proof (child_ok f False (fun H => False_ind _ H) (fun H => False_ind _ H) d (fun H => False_ind _ H) m (loader m f)
      (fs_parent f p) y c0 (file_ok f False (fun H => False_ind _ H) (fun H => False_ind _ H) m) Hy I0) as K.
    rewrite Q in K. apply K.
Qed.

Section Files.
Variable f : fs.
Variable d : xelem.
Variable p : string.
Variable sh : option shared_ctx.
Hypothesis W : forall s, sh = Some s -> ns_wf (sh_namespaces s).
Hypothesis R : fs_read f p = Some (Some d).
Hypothesis Hns : xe_ns d = Some NS_XSD.
Hypothesis Ht : xe_tag d = "schema".
Hypothesis IH : forall w, enters f (p, sh) w -> settles (fun fuel => parse_file_with_context fuel f (fst w) (snd w)).

Lemma rest_settles post : forall pre c n,
  n_children (node_of d) NS_XSD = pre ++ post -> Inv c ->
  schema_children n (loader n f) f (fs_parent f p) pre (start_ctx d sh) = Ok c ->
  settles (fun fuel => schema_children fuel (loader fuel f) f (fs_parent f p) post c).
Proof.
  induction post as [|x post IHp]; intros pre c n Hc I Hp; simpl; [now apply settles_const|].
  assert (Hx : inn d x /\ In (n_elem x) (xsd_children d)).
  { pose proof (nodes_inn d) as F. rewrite Forall_forall in F. assert (In x (n_children (node_of d) NS_XSD)).
    { rewrite Hc. apply in_or_app. right. now left. }
    split; [now apply F|]. rewrite <- xsd_children_nodes. now apply in_map. }
  apply settles_bind.
  - unfold schema_child. destruct (orb _ _) eqn:O.
    + apply orb_load in O. unfold n_try_attribute, n_attribute.
      destruct (attr_lookup "schemaLocation" _) as [a|] eqn:A; [|simpl; now apply settles_const].
      simpl. apply settles_bind; [|intros s _; now apply settles_const]. apply settles_map_err.
      refine (IH (fs_push f (fs_parent f p) (at_value a), Some (cx_shared c)) _).
      exists d, pre, x, post, a, n, c. repeat split; auto. now apply lookup_last.
    + unfold n_try_attribute, n_attribute. destruct (attr_lookup "name" _) as [a|] eqn:A; [|simpl; now apply settles_const].
      simpl. apply (settles_bind (fun fuel => map_err PeXsd (root_parse fuel _ _ c)) (fun _ rc => let '(r, c0) := rc in Ok _)).
      * apply settles_map_err. eapply root_parse_settles; [|exact I]. exact (proj1 Hx).
      * intros [r c1] _. now apply settles_const.
  - intros c1 [m E]. apply (IHp (pre ++ [x]) c1 (Nat.max n m)).
    + now rewrite <- app_assoc.
    + pose proof (child_ok f False (fun H => False_ind _ H) (fun H => False_ind _ H) d (fun H => False_ind _ H) m (loader m f)
        (fs_parent f p) x c (file_ok f False (fun H => False_ind _ H) (fun H => False_ind _ H) m) (proj1 Hx) I) as K.
      rewrite E in K. apply K.
    + set (k := Nat.max n m).
      assert (A : schema_children k (loader k f) f (fs_parent f p) pre (start_ctx d sh) = Ok c).
      { rewrite (children_mono n k (loader n f)); [exact Hp|subst k; lia|apply loader_mono; subst k; lia|]. now rewrite Hp. }
      assert (B : schema_children k (loader k f) f (fs_parent f p) [x] c = Ok c1).
      { assert (B0 : schema_children m (loader m f) f (fs_parent f p) [x] c = Ok c1) by (simpl; now rewrite E).
        rewrite (children_mono m k (loader m f)); [exact B0|subst k; lia|apply loader_mono; subst k; lia|]. now rewrite B0. }
      clear - A B. revert A. generalize (start_ctx d sh). induction pre as [|y pre IH]; intros c0 A; simpl in *.
      * injection A as ->. exact B.
      * destruct (schema_child _ _ _ _ y c0) as [c2|?|?|]; simpl in *; try discriminate. now apply IH.
Qed.
End Files.

Lemma ends_settles f v : visits_end f v -> (forall s, snd v = Some s -> ns_wf (sh_namespaces s)) ->
  settles (fun fuel => parse_file_with_context fuel f (fst v) (snd v)).
Proof.
  induction 1 as [[p sh] _ IH]. intros W. simpl in *. apply settles_succ. simpl.
  destruct (fs_read f p) as [[d|]|] eqn:R; [|simpl; now apply settles_const|now apply settles_const].
  unfold parse_with. apply settles_map_err. unfold parse_schema_with.
  destruct (has_name "schema" (Some NS_XSD) d) eqn:Hn; [|simpl; now apply settles_const]. simpl.
  apply schema_name in Hn. destruct Hn as [Hns Ht].
  apply settles_bind; [|intros c _; now apply settles_const].
  refine (rest_settles f d p sh R Hns Ht _ (n_children (node_of d) NS_XSD) [] (start_ctx d sh) 0 eq_refl _ eq_refl).
  - intros w Hw. apply IH; [exact Hw|]. destruct w as [q sh']. intros s Es. eapply enters_wf; eauto.
  - apply ctx_new_ok. destruct sh as [s|]; [now apply W|apply ns_wf_default].
Qed.

Lemma settles_exact f p : settles (fun fuel => parse_file fuel f p) <-> visits_end f (p, None).
Proof.
  split.
  - intros (b & r & N & K). apply (not_out_ends f b). specialize (K b (Nat.le_refl b)). unfold parse_file in K. now rewrite K.
  - intros H. apply (ends_settles f (p, None)); [exact H|discriminate].
Qed.
Lemma diverges f ch : (forall n, enters f (ch n) (ch (S n))) -> forall fuel, parse_file_with_context fuel f (fst (ch 0)) (snd (ch 0)) = OutOfFuel.
Proof.
  intros K fuel. destruct (parse_file_with_context fuel f (fst (ch 0)) (snd (ch 0))) eqn:E; try reflexivity; exfalso;
  (assert (A : visits_end f (ch 0)) by (destruct (ch 0) as [p sh] eqn:Q; apply (not_out_ends f fuel); simpl in E; now rewrite E));
  clear E; revert A; generalize (eq_refl (ch 0)); generalize (ch 0) at 1 3; intros v Ev A; revert ch Ev K; induction A as [v _ IH];
  intros ch Ev K; subst v; apply (IH (ch 1) (K 0) (fun n => ch (S n)) eq_refl); intros n; apply (K (S n)).
Qed.
End Endless.
