(** * RustRules: evaluation as a relation

    Rules for [eval] without fuel: [evals e E s o] says that [e] evaluates to [o] with any
    sufficient amount of it. *)
From Verif Require Import Base Libs Xml Ast Decode Writer Gen Run Rust.
From Coq Require Import Lia.

Section Rules.
Context {L : Libs}.
Variable p : program.
Variable fns : string -> string -> option fn.
Variable self : string.

Notation EV n := (eval p fns n self).
Definition evals (e : ex) (E : env) (s : state) (o : outcome) : Prop :=
  exists F, forall n, F <= n -> EV n e E s = o.
Definition stms_to (l : list stm) (E : env) (s : state) (E' : env) (s' : state) : Prop :=
  exists F, forall n, F <= n -> forall k, eval_stms (EV n) l E s k = k E' s'.
Definition stms_ret (l : list stm) (E : env) (s : state) (r : rv) (s' : state) : Prop :=
  exists F, forall n, F <= n -> forall k, eval_stms (EV n) l E s k = Ret r s'.
Definition args_to (l : list ex) (E : env) (s : state) (rs : list rv) (E' : env) (s' : state) : Prop :=
  exists F, forall n, F <= n -> forall k, eval_args (EV n) l E s k = k rs E' s'.
Definition args_ret (l : list ex) (E : env) (s : state) (r : rv) (s' : state) : Prop :=
  exists F, forall n, F <= n -> forall k, eval_args (EV n) l E s k = Ret r s'.
Definition fields_to (l : list (string * ex)) (E : env) (s : state) (rs : list (string * rv)) (E' : env) (s' : state) : Prop :=
  exists F, forall n, F <= n -> forall k, eval_fields (EV n) l E s k = k rs E' s'.
Definition fields_ret (l : list (string * ex)) (E : env) (s : state) (r : rv) (s' : state) : Prop :=
  exists F, forall n, F <= n -> forall k, eval_fields (EV n) l E s k = Ret r s'.
(** A call of a function of the module. *)
Definition fn_to (t f : string) (args : list rv) (s : state) (r : rv) (s' : state) : Prop :=
  exists F, forall n, F <= n -> forall E, call_fn fns (fun t => eval p fns n t) t f args E s = Val r E s'.

Lemma evals_det e E s o o' : evals e E s o -> evals e E s o' -> o = o'.
Proof. intros [F H] [F' H']. rewrite <- (H (F + F')), <- (H' (F + F')) by lia. reflexivity. Qed.

Ltac rule := 
  repeat match goal with
  | H : evals _ _ _ _ |- _ => destruct H as [? H]
  | H : stms_to _ _ _ _ _ |- _ => destruct H as [? H]
  | H : stms_ret _ _ _ _ _ |- _ => destruct H as [? H]
  | H : args_to _ _ _ _ _ _ |- _ => destruct H as [? H]
  | H : args_ret _ _ _ _ _ |- _ => destruct H as [? H]
  | H : fields_to _ _ _ _ _ _ |- _ => destruct H as [? H]
  | H : fields_ret _ _ _ _ _ |- _ => destruct H as [? H]
  | H : fn_to _ _ _ _ _ _ |- _ => destruct H as [? H]
  end.
(** Use a hypothesis about evaluation with at least so much fuel. *)
Ltac use H := rewrite H by lia; cbn [obind].

Lemma leave_val E r B E' s : length E' = length E -> leave E (Val r (B ++ E') s) = Val r E' s.
Proof.
  intros Hl. unfold leave. cbn [obind]. rewrite app_length, Hl.
  replace (length B + length E - length E) with (length B) by lia.
  now rewrite skipn_app, skipn_all, Nat.sub_diag.
Qed.

(** ** Expressions *)
Lemma ev_var x E s r : aget String.eqb x E = Some r -> evals (EVar x) E s (Val r E s).
Proof. intros H. exists 1. intros [|n] Hn; [lia|]. cbn [eval]. now rewrite H. Qed.
Lemma ev_str t E s : evals (EStr t) E s (Val (D (VStr t)) E s).
Proof. exists 1. now intros [|n] Hn; [lia|]. Qed.
Lemma ev_bool b E s : evals (EBool b) E s (Val (D (VBool b)) E s).
Proof. exists 1. now intros [|n] Hn; [lia|]. Qed.
Lemma ev_unit E s : evals EUnit E s (Val (D VUnit) E s).
Proof. exists 1. now intros [|n] Hn; [lia|]. Qed.
Lemma ev_none E s : is_tuple_struct p "None" = false -> evals (EPath (PName "None")) E s (Val NoneOf E s).
Proof. intros H. exists 1. intros [|n] Hn; [lia|]. cbn [eval]. now rewrite H. Qed.
Lemma ev_version E s : evals (EPath (PLib "::xsd::xml::common::XmlVersion::Version10")) E s (Val Version10 E s).
Proof. exists 1. now intros [|n] Hn; [lia|]. Qed.
Lemma ev_unit_variant t x E s : t <> "Self" -> variant_of p t x = true -> evals (EPath (PAssoc t x)) E s (Val (D (VEnum x)) E s).
Proof.
  intros N H. exists 1. intros [|n] Hn; [lia|]. cbn [eval].
  destruct (String.eqb_spec t "Self"); [contradiction|]. now rewrite H.
Qed.
Lemma ev_ref e E s o : evals e E s o -> evals (ERef e) E s o.
Proof. intros [F H]. exists (S F). intros [|n] Hn; [lia|]. cbn [eval]. now rewrite H by lia. Qed.

Lemma ev_block l e E s B E1 s1 r E2 s2 :
  stms_to l E s E1 s1 -> evals e E1 s1 (Val r (B ++ E2) s2) -> length E2 = length E -> evals (EBlock l e) E s (Val r E2 s2).
Proof.
  intros [F H] [F' H'] Hl. exists (S (F + F')). intros [|n] Hn; [lia|]. cbn [eval]. rewrite H, H' by lia. now apply leave_val.
Qed.
Lemma ev_block_ret l e E s r s' : stms_ret l E s r s' -> evals (EBlock l e) E s (Ret r s').
Proof. intros [F H]. exists (S F). intros [|n] Hn; [lia|]. cbn [eval]. now rewrite H by lia. Qed.
Lemma ev_block_last l e E s E1 s1 r s2 : stms_to l E s E1 s1 -> evals e E1 s1 (Ret r s2) -> evals (EBlock l e) E s (Ret r s2).
Proof. intros [F H] [F' H']. exists (S (F + F')). intros [|n] Hn; [lia|]. cbn [eval]. now rewrite H, H' by lia. Qed.

Lemma ev_if c t e E s b E1 s1 o :
  evals c E s (Val (D (VBool b)) E1 s1) -> evals (if b then t else e) E1 s1 o -> evals (EIf c t e) E s o.
Proof.
  intros [F H] [F' H']. exists (S (F + F')). intros [|n] Hn; [lia|]. cbn [eval]. use H. destruct b; now rewrite H' by lia.
Qed.
Lemma ev_iflet_yes q x t e E s r E1 s1 B r2 B2 E2 s2 :
  evals x E s (Val r E1 s1) -> matches_pat q r = Yes B -> evals t (B ++ E1) s1 (Val r2 (B2 ++ E2) s2) -> length E2 = length E1 ->
  evals (EIfLet q x t e) E s (Val r2 E2 s2).
Proof.
  intros [F H] M [F' H'] Hl. exists (S (F + F')). intros [|n] Hn; [lia|]. cbn [eval]. use H. rewrite M, H' by lia. now apply leave_val.
Qed.
Lemma ev_iflet_ret q x t e E s r E1 s1 B r2 s2 :
  evals x E s (Val r E1 s1) -> matches_pat q r = Yes B -> evals t (B ++ E1) s1 (Ret r2 s2) -> evals (EIfLet q x t e) E s (Ret r2 s2).
Proof.
  intros [F H] M [F' H']. exists (S (F + F')). intros [|n] Hn; [lia|]. cbn [eval]. use H. now rewrite M, H' by lia.
Qed.
Lemma ev_iflet_no q x t e E s r E1 s1 o :
  evals x E s (Val r E1 s1) -> matches_pat q r = No -> evals e E1 s1 o -> evals (EIfLet q x t e) E s o.
Proof.
  intros [F H] M [F' H']. exists (S (F + F')). intros [|n] Hn; [lia|]. cbn [eval]. use H. now rewrite M, H' by lia.
Qed.

Lemma ev_while_end c b E s E1 s1 : evals c E s (Val (D (VBool false)) E1 s1) -> evals (EWhile c b) E s (Val (D VUnit) E1 s1).
Proof. intros [F H]. exists (S F). intros [|n] Hn; [lia|]. cbn [eval]. now use H. Qed.
Lemma ev_while_step c b E s E1 s1 r E2 s2 o :
  evals c E s (Val (D (VBool true)) E1 s1) -> evals b E1 s1 (Val r E2 s2) -> evals (EWhile c b) E2 s2 o -> evals (EWhile c b) E s o.
Proof.
  intros [F H] [F1 H1] [F2 H2]. exists (S (F + F1 + F2)). intros [|n] Hn; [lia|]. cbn [eval]. use H. use H1. now use H2.
Qed.
Lemma ev_while_ret c b E s E1 s1 r s2 :
  evals c E s (Val (D (VBool true)) E1 s1) -> evals b E1 s1 (Ret r s2) -> evals (EWhile c b) E s (Ret r s2).
Proof. intros [F H] [F1 H1]. exists (S (F + F1)). intros [|n] Hn; [lia|]. cbn [eval]. use H. now use H1. Qed.

Lemma ev_whilelet_end q x b E s r E1 s1 : evals x E s (Val r E1 s1) -> matches_pat q r = No ->
  evals (EWhileLet q x b) E s (Val (D VUnit) E1 s1).
Proof. intros [F H] M. exists (S F). intros [|n] Hn; [lia|]. cbn [eval]. use H. now rewrite M. Qed.
Lemma ev_whilelet_step q x b E s r E1 s1 B r2 B2 E2 s2 o :
  evals x E s (Val r E1 s1) -> matches_pat q r = Yes B -> evals b (B ++ E1) s1 (Val r2 (B2 ++ E2) s2) -> length E2 = length E1 ->
  evals (EWhileLet q x b) E2 s2 o -> evals (EWhileLet q x b) E s o.
Proof.
  intros [F H] M [F1 H1] Hl [F2 H2]. exists (S (F + F1 + F2)). intros [|n] Hn; [lia|]. cbn [eval]. use H. rewrite M, H1 by lia.
  rewrite leave_val by assumption. cbn [obind]. now use H2.
Qed.
Lemma ev_whilelet_ret q x b E s r E1 s1 B r2 s2 :
  evals x E s (Val r E1 s1) -> matches_pat q r = Yes B -> evals b (B ++ E1) s1 (Ret r2 s2) -> evals (EWhileLet q x b) E s (Ret r2 s2).
Proof. intros [F H] M [F1 H1]. exists (S (F + F1)). intros [|n] Hn; [lia|]. cbn [eval]. use H. now rewrite M, H1 by lia. Qed.

(** [for]: the state goes through the values; the variables stay. *)
Lemma ev_for x e b E s vs E1 s1 (St : list value -> state -> Prop) :
  evals e E s (Val (D (VVec vs)) E1 s1) -> St vs s1 ->
  (forall v vs s, St (v :: vs) s -> exists r s', evals b ((x, D v) :: E1) s (Val r ((x, D v) :: E1) s') /\ St vs s') ->
  exists s', evals (EFor x e b) E s (Val (D VUnit) E1 s') /\ St [] s'.
Proof.
  intros [F H] S0 Step.
  assert (K : forall vs s1, St vs s1 -> exists s', (exists F, forall n, F <= n -> eval_each (EV n) x b vs E1 s1 = Val (D VUnit) E1 s') /\ St [] s').
  { clear - Step. induction vs as [|v vs IH]; intros s1 S1.
    - exists s1. split; auto. exists 0. reflexivity.
    - destruct (Step _ _ _ S1) as (r & s2 & [F H] & S2). destruct (IH _ S2) as (s3 & [F' H'] & S3). exists s3. split; auto.
      exists (F + F'). intros n Hn. cbn [eval_each]. rewrite H by lia.
      change ((x, D v) :: E1) with ([(x, D v)] ++ E1). rewrite leave_val by reflexivity. cbn [obind]. now apply H'; lia. }
  destruct (K _ _ S0) as (s' & [F' H'] & S'). exists s'. split; auto.
  exists (S (F + F')). intros [|n] Hn; [lia|]. cbn [eval]. use H. now apply H'; lia.
Qed.

(** [match]. *)
Lemma ev_match_yes e arms1 q b arms2 E s r E1 s1 B r2 B2 E2 s2 :
  evals e E s (Val r E1 s1) -> Forall (fun a => matches_pat (fst a) r = No) arms1 -> matches_pat q r = Yes B ->
  evals b (B ++ E1) s1 (Val r2 (B2 ++ E2) s2) -> length E2 = length E1 ->
  evals (EMatch e (arms1 ++ (q, b) :: arms2)) E s (Val r2 E2 s2).
Proof.
  intros [F H] No M [F' H'] Hl. exists (S (F + F')). intros [|n] Hn; [lia|]. cbn [eval]. use H.
  induction No as [|[q1 b1] arms1 N1 _ IH]; cbn [app eval_arms].
  - rewrite M, H' by lia. now apply leave_val.
  - simpl in N1. now rewrite N1.
Qed.
Lemma ev_match_ret e arms1 q b arms2 E s r E1 s1 B r2 s2 :
  evals e E s (Val r E1 s1) -> Forall (fun a => matches_pat (fst a) r = No) arms1 -> matches_pat q r = Yes B ->
  evals b (B ++ E1) s1 (Ret r2 s2) -> evals (EMatch e (arms1 ++ (q, b) :: arms2)) E s (Ret r2 s2).
Proof.
  intros [F H] No M [F' H']. exists (S (F + F')). intros [|n] Hn; [lia|]. cbn [eval]. use H.
  induction No as [|[q1 b1] arms1 N1 _ IH]; cbn [app eval_arms].
  - now rewrite M, H' by lia.
  - simpl in N1. now rewrite N1.
Qed.

(** Calls. *)
Lemma ev_call_ret q t args E s r s' : args_ret args E s r s' -> evals (ECall q t args) E s (Ret r s').
Proof. intros [F H]. exists (S F). intros [|n] Hn; [lia|]. cbn [eval]. now rewrite H by lia. Qed.
Lemma ev_call_name x t args E s rs E1 s1 o :
  args_to args E s rs E1 s1 -> name_call p x rs E1 s1 = o -> evals (ECall (PName x) t args) E s o.
Proof. intros [F H] K. exists (S F). intros [|n] Hn; [lia|]. cbn [eval]. now rewrite H by lia. Qed.
Lemma ev_call_variant t0 x t args E s r v E1 s1 :
  args_to args E s [r] E1 s1 -> data r = Some v -> variant_of p (if t0 =?s "Self" then self else t0) x = true ->
  evals (ECall (PAssoc t0 x) t args) E s (Val (D (VChoice x v)) E1 s1).
Proof. intros [F H] K V. exists (S F). intros [|n] Hn; [lia|]. cbn [eval]. rewrite H by lia. now rewrite V, K. Qed.
Lemma ev_call_fn t0 x t args E s rs E1 s1 r s2 :
  args_to args E s rs E1 s1 -> variant_of p (if t0 =?s "Self" then self else t0) x = false ->
  lookup_item p (if t0 =?s "Self" then self else t0) <> None ->
  fn_to (if t0 =?s "Self" then self else t0) x rs s1 r s2 ->
  evals (ECall (PAssoc t0 x) t args) E s (Val r E1 s2).
Proof.
  intros [F H] V Lk [F' H']. exists (S (F + F')). intros [|n] Hn; [lia|]. cbn [eval]. rewrite H by lia. rewrite V.
  destruct (lookup_item p (if t0 =?s "Self" then self else t0)); [|contradiction]. apply H'. lia.
Qed.
Lemma ev_call_prelude t0 x t args E s rs E1 s1 o :
  t0 <> "Self" -> args_to args E s rs E1 s1 -> lookup_item p t0 = None -> prelude_call t0 x rs E1 s1 = o ->
  evals (ECall (PAssoc t0 x) t args) E s o.
Proof.
  intros N [F H] Lk K. exists (S F). intros [|n] Hn; [lia|]. cbn [eval]. rewrite H by lia.
  destruct (String.eqb_spec t0 "Self"); [contradiction|]. unfold variant_of. now rewrite Lk.
Qed.
Lemma ev_call_lib x t args E s rs E1 s1 o :
  args_to args E s rs E1 s1 -> (forall id, t <> Some (TRef id)) -> lib_call x t rs E1 s1 = o -> evals (ECall (PLib x) t args) E s o.
Proof.
  intros [F H] N K. exists (S F). intros [|n] Hn; [lia|]. cbn [eval]. rewrite H by lia.
  destruct t as [[]|]; try exact K. now elim (N id).
Qed.
Lemma ev_call_from_str x id args E s rs E1 s1 r s2 :
  args_to args E s rs E1 s1 -> fn_to id "from_str" rs s1 r s2 -> evals (ECall (PLib x) (Some (TRef id)) args) E s (Val r E1 s2).
Proof.
  intros [F H] [F' H']. exists (S (F + F')). intros [|n] Hn; [lia|]. cbn [eval]. rewrite H by lia. apply H'. lia.
Qed.
Lemma ev_method e t m args E s r E1 s1 rs E2 s2 o :
  evals e E s (Val r E1 s1) -> args_to args E1 s1 rs E2 s2 -> (forall id, t <> Some (TRef id)) ->
  lib_method r m rs E2 s2 = o -> evals (EMethod e t m args) E s o.
Proof.
  intros [F H] [F' H'] N K. exists (S (F + F')). intros [|n] Hn; [lia|]. cbn [eval]. use H. rewrite H' by lia.
  destruct t as [[]|]; try exact K. now elim (N id).
Qed.
Lemma ev_method_fn e id m args E s r E1 s1 rs E2 s2 r' s3 :
  evals e E s (Val r E1 s1) -> args_to args E1 s1 rs E2 s2 -> m <> "to_string" -> fn_to id m (r :: rs) s2 r' s3 ->
  evals (EMethod e (Some (TRef id)) m args) E s (Val r' E2 s3).
Proof.
  intros [F H] [F' H'] N [F2 H2]. exists (S (F + F' + F2)). intros [|n] Hn; [lia|]. cbn [eval]. use H. rewrite H' by lia.
  destruct (String.eqb_spec m "to_string"); [contradiction|]. apply H2. lia.
Qed.
Lemma ev_to_string e id E s r E1 s1 r' s2 :
  evals e E s (Val r E1 s1) -> fn_to id "fmt" [r; Fm] (set_text "" s1) (ROk r') s2 ->
  evals (EMethod e (Some (TRef id)) "to_string" []) E s (Val (D (VStr (s_text s2))) E1 (set_text (s_text s1) s2)).
Proof.
  intros [F H] [F2 H2]. exists (S (F + F2)). intros [|n] Hn; [lia|]. cbn [eval]. use H. cbn [eval_args].
  change ("to_string" =?s "to_string") with true. cbn iota. change (fun t => eval p fns n t) with (eval p fns n) in H2.
  rewrite H2 by lia. reflexivity.
Qed.

(** Arguments. *)
Lemma args_nil E s : args_to [] E s [] E s.
Proof. exists 0. reflexivity. Qed.
Lemma args_cons e l E s r E1 s1 rs E2 s2 :
  evals e E s (Val r E1 s1) -> args_to l E1 s1 rs E2 s2 -> args_to (e :: l) E s (r :: rs) E2 s2.
Proof. intros [F H] [F' H']. exists (F + F'). intros n Hn k. cbn [eval_args]. use H. now rewrite H' by lia. Qed.
Lemma args_one e E s r E1 s1 : evals e E s (Val r E1 s1) -> args_to [e] E s [r] E1 s1.
Proof. intros H. eapply args_cons; [exact H|apply args_nil]. Qed.
Lemma args_one_ret e E s r s1 : evals e E s (Ret r s1) -> args_ret [e] E s r s1.
Proof. intros [F H]. exists F. intros n Hn k. cbn [eval_args]. now rewrite H by lia. Qed.

(** Fields. *)
Lemma fields_nil E s : fields_to [] E s [] E s.
Proof. exists 0. reflexivity. Qed.
Lemma fields_cons f e l E s r E1 s1 rs E2 s2 :
  evals e E s (Val r E1 s1) -> fields_to l E1 s1 rs E2 s2 -> fields_to ((f, e) :: l) E s ((f, r) :: rs) E2 s2.
Proof. intros [F H] [F' H']. exists (F + F'). intros n Hn k. cbn [eval_fields]. use H. now rewrite H' by lia. Qed.
Lemma fields_first_ret f e l E s r s1 : evals e E s (Ret r s1) -> fields_ret ((f, e) :: l) E s r s1.
Proof. intros [F H]. exists F. intros n Hn k. cbn [eval_fields]. now rewrite H by lia. Qed.
Lemma fields_next_ret f e l E s r0 E1 s1 r s2 :
  evals e E s (Val r0 E1 s1) -> fields_ret l E1 s1 r s2 -> fields_ret ((f, e) :: l) E s r s2.
Proof. intros [F H] [F' H']. exists (F + F'). intros n Hn k. cbn [eval_fields]. use H. now rewrite H' by lia. Qed.
Lemma fields_app l1 l2 E s rs1 E1 s1 rs2 E2 s2 :
  fields_to l1 E s rs1 E1 s1 -> fields_to l2 E1 s1 rs2 E2 s2 -> fields_to (l1 ++ l2) E s (rs1 ++ rs2) E2 s2.
Proof.
  intros H1 H2. assert (G : forall n k l, eval_fields (EV n) (l1 ++ l) E s k = eval_fields (EV n) l1 E s (fun rs E s => eval_fields (EV n) l E s (fun rs' => k (rs ++ rs')))).
  { clear. intros n k l. revert E s k. induction l1 as [|[f e] l1 IH]; intros; [reflexivity|]. cbn [app eval_fields].
    destruct (EV n e E s); [|reflexivity..]. cbn [obind]. apply IH. }
  destruct H1 as [F1 H1], H2 as [F2 H2]. exists (F1 + F2). intros n Hn k. rewrite G, H1 by lia. now rewrite H2 by lia.
Qed.
Lemma fields_app_ret1 l1 l2 E s r s1 : fields_ret l1 E s r s1 -> fields_ret (l1 ++ l2) E s r s1.
Proof.
  intros [F1 H1]. exists F1. intros n Hn k.
  assert (G : forall k, eval_fields (EV n) (l1 ++ l2) E s k = eval_fields (EV n) l1 E s (fun rs E s => eval_fields (EV n) l2 E s (fun rs' => k (rs ++ rs')))).
  { clear. revert E s. induction l1 as [|[f e] l1 IH]; intros; [reflexivity|]. cbn [app eval_fields].
    destruct (EV n e E s); [|reflexivity..]. cbn [obind]. apply IH. }
  now rewrite G, H1 by lia.
Qed.
Lemma fields_app_ret2 l1 l2 E s rs1 E1 s1 r s2 :
  fields_to l1 E s rs1 E1 s1 -> fields_ret l2 E1 s1 r s2 -> fields_ret (l1 ++ l2) E s r s2.
Proof.
  intros [F1 H1] [F2 H2]. exists (F1 + F2). intros n Hn k.
  assert (G : forall k, eval_fields (EV n) (l1 ++ l2) E s k = eval_fields (EV n) l1 E s (fun rs E s => eval_fields (EV n) l2 E s (fun rs' => k (rs ++ rs')))).
  { clear. revert E s. induction l1 as [|[f e] l1 IH]; intros; [reflexivity|]. cbn [app eval_fields].
    destruct (EV n e E s); [|reflexivity..]. cbn [obind]. apply IH. }
  now rewrite G, H1, H2 by lia.
Qed.
Lemma ev_struct q fs E s rs E1 s1 vs t :
  fields_to fs E s rs E1 s1 -> q = PName t -> fields_data rs = Some vs ->
  (exists it ds, lookup_item p t = Some it /\ ti_decl it = DStruct ds) -> evals (EStruct q fs) E s (Val (D (VStruct vs)) E1 s1).
Proof.
  intros [F H] -> V (it & ds & Lk & Dk). exists (S F). intros [|n] Hn; [lia|]. cbn [eval]. rewrite H by lia. now rewrite Lk, Dk, V.
Qed.
Lemma ev_struct_ret q fs E s r s1 : fields_ret fs E s r s1 -> evals (EStruct q fs) E s (Ret r s1).
Proof. intros [F H]. exists (S F). intros [|n] Hn; [lia|]. cbn [eval]. now rewrite H by lia. Qed.
Lemma ev_lib_struct x fs E s rs E1 s1 r :
  fields_to fs E s rs E1 s1 -> lib_struct x rs = Some r -> evals (EStruct (PLib x) fs) E s (Val r E1 s1).
Proof. intros [F H] V. exists (S F). intros [|n] Hn; [lia|]. cbn [eval]. rewrite H by lia. now rewrite V. Qed.
Lemma ev_error x fs E s rs E1 s1 e :
  fields_to fs E s rs E1 s1 -> lib_struct x rs = Some (Er e) -> evals (EStruct (PLib x) fs) E s (Val (Er e) E1 s1).
Proof. apply ev_lib_struct. Qed.

(** The rest. *)
Lemma ev_map_err_ok e x b E s r E1 s1 : evals e E s (Val (ROk r) E1 s1) -> evals (EMapped e "map_err" x b) E s (Val (ROk r) E1 s1).
Proof. intros [F H]. exists (S F). intros [|n] Hn; [lia|]. cbn [eval]. now use H. Qed.
Lemma ev_map_err e x b E s r E1 s1 r2 s2 :
  evals e E s (Val (RErr r) E1 s1) -> evals b ((x, r) :: E1) s1 (Val r2 ((x, r) :: E1) s2) ->
  evals (EMapped e "map_err" x b) E s (Val (RErr r2) E1 s2).
Proof.
  intros [F H] [F' H']. exists (S (F + F')). intros [|n] Hn; [lia|]. cbn [eval]. use H.
  change ("map_err" =?s "map") with false. change ("map_err" =?s "map_err") with true. cbn iota. rewrite H' by lia.
  change ((x, r) :: E1) with ([(x, r)] ++ E1). now rewrite leave_val by reflexivity.
Qed.
Lemma ev_map e x b E s v E1 s1 w s2 :
  evals e E s (Val (D (VSome v)) E1 s1) -> evals b ((x, D v) :: E1) s1 (Val (D w) ((x, D v) :: E1) s2) ->
  evals (EMapped e "map" x b) E s (Val (D (VSome w)) E1 s2).
Proof.
  intros [F H] [F' H']. exists (S (F + F')). intros [|n] Hn; [lia|]. cbn [eval]. use H.
  change ("map" =?s "map") with true. cbn iota. rewrite H' by lia.
  change ((x, D v) :: E1) with ([(x, D v)] ++ E1). now rewrite leave_val by reflexivity.
Qed.
Lemma ev_map_none e x b E s r E1 s1 :
  evals e E s (Val r E1 s1) -> none_like r = true -> evals (EMapped e "map" x b) E s (Val NoneOf E1 s1).
Proof. intros [F H] N. exists (S F). intros [|n] Hn; [lia|]. cbn [eval]. use H. destruct r as [[]| | | | | | | | | | | | | | |]; try discriminate; reflexivity. Qed.
Lemma ev_push x a E s r v E1 s1 vs :
  evals a E s (Val r E1 s1) -> data r = Some v -> aget String.eqb x E1 = Some (D (VVec vs)) ->
  evals (EPush x a) E s (Val (D VUnit) (aset String.eqb x (D (VVec (vs ++ [v]))) E1) s1).
Proof. intros [F H] V G. exists (S F). intros [|n] Hn; [lia|]. cbn [eval]. use H. now rewrite G, V. Qed.
Lemma ev_push_ret x a E s r s1 : evals a E s (Ret r s1) -> evals (EPush x a) E s (Ret r s1).
Proof. intros [F H]. exists (S F). intros [|n] Hn; [lia|]. cbn [eval]. now use H. Qed.
Lemma ev_field e f E s fs E1 s1 v :
  evals e E s (Val (D (VStruct fs)) E1 s1) -> aget String.eqb f fs = Some v -> evals (EField e f) E s (Val (D v) E1 s1).
Proof. intros [F H] G. exists (S F). intros [|n] Hn; [lia|]. cbn [eval]. use H. now rewrite G. Qed.
Lemma ev_field0 e E s E1 s1 v : evals e E s (Val (D (VTuple v)) E1 s1) -> evals (EField e "0") E s (Val (D v) E1 s1).
Proof. intros [F H]. exists (S F). intros [|n] Hn; [lia|]. cbn [eval]. now use H. Qed.
Lemma ev_try e E s r E1 s1 : evals e E s (Val (ROk r) E1 s1) -> evals (ETry e) E s (Val r E1 s1).
Proof. intros [F H]. exists (S F). intros [|n] Hn; [lia|]. cbn [eval]. now use H. Qed.
Lemma ev_try_err e E s x E1 s1 : evals e E s (Val (RErr (Er x)) E1 s1) -> evals (ETry e) E s (Ret (RErr (Er x)) s1).
Proof. intros [F H]. exists (S F). intros [|n] Hn; [lia|]. cbn [eval]. now use H. Qed.
Lemma ev_return e E s r E1 s1 : evals e E s (Val r E1 s1) -> evals (EReturn e) E s (Ret r s1).
Proof. intros [F H]. exists (S F). intros [|n] Hn; [lia|]. cbn [eval]. now use H. Qed.
Lemma ev_not e E s b E1 s1 : evals e E s (Val (D (VBool b)) E1 s1) -> evals (ENot e) E s (Val (D (VBool (negb b))) E1 s1).
Proof. intros [F H]. exists (S F). intros [|n] Hn; [lia|]. cbn [eval]. now use H. Qed.
Lemma ev_or_true a b E s E1 s1 : evals a E s (Val (D (VBool true)) E1 s1) -> evals (EOr a b) E s (Val (D (VBool true)) E1 s1).
Proof. intros [F H]. exists (S F). intros [|n] Hn; [lia|]. cbn [eval]. now use H. Qed.
Lemma ev_or_false a b E s E1 s1 o : evals a E s (Val (D (VBool false)) E1 s1) -> evals b E1 s1 o -> evals (EOr a b) E s o.
Proof. intros [F H] [F' H']. exists (S (F + F')). intros [|n] Hn; [lia|]. cbn [eval]. use H. now use H'. Qed.
Lemma ev_ne a b E s x E1 s1 y E2 s2 :
  evals a E s (Val (D (VStr x)) E1 s1) -> evals b E1 s1 (Val (D (VStr y)) E2 s2) ->
  evals (ENe a b) E s (Val (D (VBool (negb (x =?s y)))) E2 s2).
Proof. intros [F H] [F' H']. exists (S (F + F')). intros [|n] Hn; [lia|]. cbn [eval]. use H. now use H'. Qed.

(** ** Statements *)
Lemma st_nil E s : stms_to [] E s E s.
Proof. exists 0. reflexivity. Qed.
Lemma st_let x e l E s r E1 s1 E2 s2 :
  evals e E s (Val r E1 s1) -> stms_to l ((x, r) :: E1) s1 E2 s2 -> stms_to (SLet x e :: l) E s E2 s2.
Proof. intros [F H] [F' H']. exists (F + F'). intros n Hn k. cbn [eval_stms]. use H. now rewrite H' by lia. Qed.
Lemma st_expr e l E s r E1 s1 E2 s2 : evals e E s (Val r E1 s1) -> stms_to l E1 s1 E2 s2 -> stms_to (SExpr e :: l) E s E2 s2.
Proof. intros [F H] [F' H']. exists (F + F'). intros n Hn k. cbn [eval_stms]. use H. now rewrite H' by lia. Qed.
Lemma st_app l1 l2 E s E1 s1 E2 s2 : stms_to l1 E s E1 s1 -> stms_to l2 E1 s1 E2 s2 -> stms_to (l1 ++ l2) E s E2 s2.
Proof.
  intros [F1 H1] [F2 H2]. exists (F1 + F2). intros n Hn k.
  assert (G : eval_stms (EV n) (l1 ++ l2) E s k = eval_stms (EV n) l1 E s (fun E s => eval_stms (EV n) l2 E s k)).
  { clear. revert E s. induction l1 as [|[x e|e] l1 IH]; intros; [reflexivity|..]; cbn [app eval_stms];
      (destruct (EV n e E s); [|reflexivity..]); cbn [obind]; apply IH. }
  now rewrite G, H1, H2 by lia.
Qed.
Lemma st_let_ret x e l E s r s1 : evals e E s (Ret r s1) -> stms_ret (SLet x e :: l) E s r s1.
Proof. intros [F H]. exists F. intros n Hn k. cbn [eval_stms]. now rewrite H by lia. Qed.
Lemma st_expr_ret e l E s r s1 : evals e E s (Ret r s1) -> stms_ret (SExpr e :: l) E s r s1.
Proof. intros [F H]. exists F. intros n Hn k. cbn [eval_stms]. now rewrite H by lia. Qed.
Lemma st_let_next x e l E s r0 E1 s1 r s2 :
  evals e E s (Val r0 E1 s1) -> stms_ret l ((x, r0) :: E1) s1 r s2 -> stms_ret (SLet x e :: l) E s r s2.
Proof. intros [F H] [F' H']. exists (F + F'). intros n Hn k. cbn [eval_stms]. use H. now rewrite H' by lia. Qed.
End Rules.

(** ** Functions of the module *)
Lemma fn_body_to {L : Libs} p fns t f g args s r E' s' :
  fns t f = Some g -> length (fn_params g) = length args ->
  evals p fns t (fn_body g) (rev (combine (fn_params g) args)) s (Val r E' s') -> fn_to p fns t f args s r s'.
Proof.
  intros Hg Hl [F H]. exists F. intros n Hn E. unfold call_fn. rewrite Hg, Hl, Nat.eqb_refl. now rewrite H by lia.
Qed.
Lemma fn_body_ret {L : Libs} p fns t f g args s r s' :
  fns t f = Some g -> length (fn_params g) = length args ->
  evals p fns t (fn_body g) (rev (combine (fn_params g) args)) s (Ret r s') -> fn_to p fns t f args s r s'.
Proof.
  intros Hg Hl [F H]. exists F. intros n Hn E. unfold call_fn. rewrite Hg, Hl, Nat.eqb_refl. now rewrite H by lia.
Qed.
