(** * TypingRun: the same results with bodies in braces *)
From Verif Require Import Base Libs Xml Ast Decode Writer Gen Run Rust RustRules.
From Coq Require Import Lia.

(** The same outcome, unless the fuel was not enough. *)
Inductive ole : outcome -> outcome -> Prop :=
| ole_fuel o : ole Fuel o
| ole_refl o : ole o o.
#[local] Hint Constructors ole : core.

Lemma obind_le o o' k k' : ole o o' -> (forall r E s, ole (k r E s) (k' r E s)) -> ole (obind o k) (obind o' k').
Proof. intros H K. destruct H as [o|o]; [cbn; auto|]. destruct o; cbn; auto. Qed.
Lemma leave_le E o o' : ole o o' -> ole (leave E o) (leave E o').
Proof. intros H. apply obind_le; auto. Qed.

Section Open.
Variables ev ev' : ex -> env -> state -> outcome.
Hypothesis H : forall e E s, ole (ev e E s) (ev' e E s).
Lemma stms_le l : forall E s k k', (forall E s, ole (k E s) (k' E s)) -> ole (eval_stms ev l E s k) (eval_stms ev' l E s k').
Proof. induction l as [|[x e|e] l IH]; intros E s k k' K; cbn [eval_stms]; auto; apply obind_le; auto. Qed.
Lemma args_le l : forall E s k k', (forall r E s, ole (k r E s) (k' r E s)) -> ole (eval_args ev l E s k) (eval_args ev' l E s k').
Proof. induction l as [|e l IH]; intros E s k k' K; cbn [eval_args]; auto; apply obind_le; auto. Qed.
Lemma fields_le l : forall E s k k', (forall r E s, ole (k r E s) (k' r E s)) -> ole (eval_fields ev l E s k) (eval_fields ev' l E s k').
Proof. induction l as [|[f e] l IH]; intros E s k k' K; cbn [eval_fields]; auto; apply obind_le; auto. Qed.
Lemma arms_le r l E s : ole (eval_arms ev r l E s) (eval_arms ev' r l E s).
Proof. induction l as [|[q b] l IH]; cbn [eval_arms]; auto. destruct (matches_pat q r); auto using leave_le. Qed.
Lemma each_le x b l : forall E s, ole (eval_each ev x b l E s) (eval_each ev' x b l E s).
Proof. induction l as [|y l IH]; intros E s; cbn [eval_each]; auto. apply obind_le; auto using leave_le. Qed.
End Open.

Section Tables.
Context {L : Libs}.
Variable p : program.

Lemma step_le fns fns' n m :
  (forall self e E s, ole (eval p fns n self e E s) (eval p fns' m self e E s)) ->
  (forall t f args E s, ole (call_fn fns (eval p fns n) t f args E s) (call_fn fns' (eval p fns' m) t f args E s)) ->
  forall self e E s, ole (eval p fns (S n) self e E s) (eval p fns' (S m) self e E s).
Proof.
  intros Hv Hc self e E s. specialize (Hv self). destruct e; cbn [eval];
  repeat first [ apply ole_refl | apply Hv | apply Hc | intro
    | match goal with
      | |- ole (leave _ _) (leave _ _) => apply leave_le
      | |- ole (obind _ _) (obind _ _) => apply obind_le
      | |- ole (eval_stms _ _ _ _ _) _ => apply stms_le
      | |- ole (eval_args _ _ _ _ _) _ => apply args_le
      | |- ole (eval_fields _ _ _ _ _) _ => apply fields_le
      | |- ole (eval_arms _ _ _ _ _) _ => apply arms_le
      | |- ole (eval_each _ _ _ _ _ _) _ => apply each_le
      | |- ole (match ?x with _ => _ end) _ => destruct x
      end ].
Qed.

(** The functions of [fns'] are those of [fns], perhaps with the body in braces. *)
Definition braced (fns fns' : string -> string -> option fn) : Prop := forall t f,
  match fns t f with
  | Some g => exists b, fns' t f = Some (mkFn (fn_params g) b) /\ (b = fn_body g \/ b = EBlock [] (fn_body g))
  | None => fns' t f = None
  end.

Lemma more_fuel fns n : forall m, n <= m -> forall self e E s, ole (eval p fns n self e E s) (eval p fns m self e E s).
Proof.
  induction n as [|n IH]; intros m Hm self e E s; [cbn [eval]; constructor|]. destruct m as [|m]; [lia|]. apply step_le; [apply IH; lia|].
  intros t f args E' s'. unfold call_fn. destruct (fns t f) as [g|]; [|constructor]. destruct (Nat.eqb _ _); [|constructor].
  destruct (IH m ltac:(lia) t (fn_body g) (rev (combine (fn_params g) args)) s'); constructor.
Qed.

Section Braces.
Variables fns fns' : string -> string -> option fn.
Hypothesis Hb : braced fns fns'.

Lemma braces_add n : forall m, 2 * n <= m -> forall self e E s, ole (eval p fns n self e E s) (eval p fns' m self e E s).
Proof.
  induction n as [|n IH]; intros m Hm self e E s; [cbn [eval]; constructor|]. destruct m as [|m]; [lia|]. apply step_le; [apply IH; lia|].
  intros t f args E' s'. unfold call_fn. specialize (Hb t f). destruct (fns t f) as [g|].
  - destruct Hb as (b & -> & K). cbn [fn_params fn_body]. destruct (Nat.eqb _ _); [|constructor]. destruct K as [-> | ->].
    + destruct (IH m ltac:(lia) t (fn_body g) (rev (combine (fn_params g) args)) s'); constructor.
    + destruct m as [|m]; [lia|]. cbn [eval eval_stms].
      destruct (IH m ltac:(lia) t (fn_body g) (rev (combine (fn_params g) args)) s') as [o|o]; [constructor|]. destruct o; constructor.
  - rewrite Hb. constructor.
Qed.
Lemma braces_remove n : forall m, n <= m -> forall self e E s, ole (eval p fns' n self e E s) (eval p fns m self e E s).
Proof.
  induction n as [n IH] using lt_wf_ind. intros m Hm self e E s. destruct n as [|n]; [cbn [eval]; constructor|]. destruct m as [|m]; [lia|].
  apply step_le; [apply IH; lia|]. intros t f args E' s'. unfold call_fn. specialize (Hb t f). destruct (fns t f) as [g|].
  - destruct Hb as (b & -> & K). cbn [fn_params fn_body]. destruct (Nat.eqb _ _); [|constructor]. destruct K as [-> | ->].
    + destruct (IH n ltac:(lia) m ltac:(lia) t (fn_body g) (rev (combine (fn_params g) args)) s'); constructor.
    + destruct n as [|n]; [cbn [eval]; constructor|]. cbn [eval eval_stms].
      destruct (IH n ltac:(lia) m ltac:(lia) t (fn_body g) (rev (combine (fn_params g) args)) s') as [o|o]; [constructor|]. destruct o; constructor.
  - rewrite Hb. constructor.
Qed.

Lemma braces_evals self e E s o : o <> Fuel -> (evals p fns self e E s o <-> evals p fns' self e E s o).
Proof.
  intros No. split; intros (F & H).
  - exists (2 * F). intros n Hn. pose proof (braces_add F n Hn self e E s) as K. rewrite H in K by lia. inversion K; subst; congruence.
  - exists F. intros n Hn. pose proof (braces_remove F n Hn self e E s) as K. rewrite H in K by lia. inversion K; subst; congruence.
Qed.
Lemma braces_fn t f args s r s' : fn_to p fns t f args s r s' <-> fn_to p fns' t f args s r s'.
Proof.
  unfold fn_to, call_fn. pose proof (Hb t f) as K. destruct (fns t f) as [g|].
  - destruct K as (b & -> & K). cbn [fn_params fn_body]. destruct (Nat.eqb _ _); [|reflexivity]. set (E0 := rev _).
    assert (Nf : forall E o, match o with Val r _ s | Ret r s => Val r E s | Stuck => Stuck | Fuel => Fuel end = Val r E s' -> o <> Fuel) by (intros E o X ->; discriminate).
    assert (Bl : forall n b, eval p fns' (S n) t (EBlock [] b) E0 s = leave E0 (eval p fns' n t b E0 s)) by reflexivity.
    assert (Lv : forall E o, match leave E0 o with Val r _ s | Ret r s => Val r E s | Stuck => Stuck | Fuel => Fuel end = match o with Val r _ s | Ret r s => Val r E s | Stuck => Stuck | Fuel => Fuel end) by (intros E []; reflexivity).
    assert (Eq : forall o o', ole o o' -> o <> Fuel -> o' = o) by (intros o o' [x|x] N; [contradiction|reflexivity]).
    split; intros (F & H).
    + exists (S (2 * F)). intros n Hn E. specialize (H F (Nat.le_refl _) E). destruct n as [|n]; [lia|]. destruct K as [-> | ->].
      * now rewrite (Eq _ _ (braces_add F (S n) ltac:(lia) t (fn_body g) E0 s) (Nf _ _ H)).
      * rewrite Bl, Lv. now rewrite (Eq _ _ (braces_add F n ltac:(lia) t (fn_body g) E0 s) (Nf _ _ H)).
    + exists F. intros n Hn E. specialize (H F (Nat.le_refl _) E). destruct K as [-> | ->].
      * now rewrite (Eq _ _ (braces_remove F n Hn t (fn_body g) E0 s) (Nf _ _ H)).
      * destruct F as [|F]; [discriminate|]. rewrite Bl, Lv in H. now rewrite (Eq _ _ (braces_remove F n ltac:(lia) t (fn_body g) E0 s) (Nf _ _ H)).
  - rewrite K. reflexivity.
Qed.
End Braces.
End Tables.
