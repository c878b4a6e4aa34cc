(** * TypingInv: what the typing rules say about the parts of the templates *)
From Verif Require Import Base Libs Xml Ast Gen Emit Rust Body RustSpec EmitSpec GramSpec GramWrite TypingSpec TypingProof TypingItems TypingRead.
From Coq Require Import Permutation Lia.

Lemma coerces_from_up u t : coerces (up u) t -> t = up u.
Proof. intros H. inversion H; subst; auto; destruct u; discriminate. Qed.
Lemma coerces_prim q t : coerces (YPrim q) t -> t = YPrim q.
Proof. intros H. now inversion H. Qed.
Lemma coerces_vec u t : coerces (YVec u) t -> t = YVec u.
Proof. intros H. now inversion H. Qed.
Lemma coerces_res u w t : coerces (YRes u w) t -> t = YRes u w.
Proof. intros H. now inversion H. Qed.
Lemma var_fun G x t u : var G x t -> var G x u -> t = u.
Proof. unfold var. congruence. Qed.
Lemma derefs_named id u : derefs (YNamed id) u -> u = YNamed id.
Proof. intros H. now inversion H. Qed.
Lemma derefs_lib n u : derefs (YLib n) u -> u = YLib n.
Proof. intros H. now inversion H. Qed.

Section Inv.
Variables (items : list pitem) (l : list (root * titem)) (p : program).
Hypothesis Hh : holds items l.
Hypothesis Hl : forall t, In t p <-> In t (map snd l).
Hypothesis Hd : decls_ok p.
Notation val := (val items).
Notation place := (place items).
Notation stms := (stms items).
Notation args := (args items).
Notation fields := (fields items).
Notation arms := (arms items).
Variable self : string.

(** ** Generally *)
Lemma var_inv r G x e' t G' : val self r G (EVar x) e' t G' ->
  e' = EVar x /\ var G x t /\ ((copy t /\ G' = G) \/ (~ copy t /\ G' = moved x G)).
Proof. intros H. inversion H; subst; auto. Qed.
Lemma str_inv r G s e' t G' : val self r G (EStr s) e' t G' -> e' = EStr s /\ t = str_ref /\ G' = G.
Proof. intros H. inversion H; subst; auto. Qed.
Lemma unit_inv r G e' t G' : val self r G EUnit e' t G' -> e' = EUnit /\ t = YUnit /\ G' = G.
Proof. intros H. inversion H; subst; auto. Qed.
Lemma args_nil_inv r G es ts G' : args self r G [] es ts G' -> es = [] /\ ts = [] /\ G' = G.
Proof. intros H. inversion H; subst; auto. Qed.
Lemma args_cons_inv r G e es es' ts G' : args self r G (e :: es) es' ts G' ->
  exists e1 es1 u t ts1 G1, es' = e1 :: es1 /\ ts = t :: ts1 /\ val self r G e e1 u G1 /\ coerces u t /\ args self r G1 es es1 ts1 G'.
Proof. intros H. inversion H; subst. do 6 eexists. split; [reflexivity|]. split; [reflexivity|]. eauto. Qed.
Lemma args_one_inv r G e es' ts G' : args self r G [e] es' ts G' ->
  exists e1 u t, es' = [e1] /\ ts = [t] /\ val self r G e e1 u G' /\ coerces u t.
Proof. intros H. apply args_cons_inv in H. destruct H as (e1 & es1 & u & t & ts1 & G1 & -> & -> & H & K & A). apply args_nil_inv in A. destruct A as (-> & -> & ->). eauto 8. Qed.
Lemma args_two_inv r G e f es' ts G' : args self r G [e; f] es' ts G' ->
  exists e1 f1 u t u' t' G1, es' = [e1; f1] /\ ts = [t; t'] /\ val self r G e e1 u G1 /\ coerces u t /\ val self r G1 f f1 u' G' /\ coerces u' t'.
Proof.
  intros H. apply args_cons_inv in H. destruct H as (e1 & es1 & u & t & ts1 & G1 & -> & -> & H & K & A). apply args_one_inv in A.
  destruct A as (f1 & u' & t' & -> & -> & A & B). do 7 eexists. split; [reflexivity|]. split; [reflexivity|]. eauto.
Qed.
Lemma block_inv r G ss e e' t G' : val self r G (EBlock ss e) e' t G' ->
  exists ss1 e1 G1 G2, e' = EBlock ss1 e1 /\ stms self r G ss ss1 G1 /\ val self r G1 e e1 t G2 /\ G' = out G G2.
Proof. intros H. inversion H; subst. do 4 eexists. split; [reflexivity|]. eauto. Qed.
Lemma stms_nil_inv r G ss G' : stms self r G [] ss G' -> ss = [] /\ G' = G.
Proof. intros H. inversion H; subst; auto. Qed.
Lemma stms_let_inv r G x e ss ss' G' : stms self r G (SLet x e :: ss) ss' G' ->
  exists e1 ss1 t G1, ss' = SLet x e1 :: ss1 /\ val self r G e e1 t G1 /\ stms self r ((x, Some t) :: G1) ss ss1 G'.
Proof. intros H. inversion H; subst. do 4 eexists. split; [reflexivity|]. eauto. Qed.
Lemma stms_expr_inv r G e ss ss' G' : stms self r G (SExpr e :: ss) ss' G' ->
  exists e1 ss1 t G1, ss' = SExpr e1 :: ss1 /\ val self r G e e1 t G1 /\ (block_like e = true -> t = YUnit) /\ stms self r G1 ss ss1 G'.
Proof. intros H. inversion H; subst. do 4 eexists. split; [reflexivity|]. eauto. Qed.
Lemma block_one_inv r G e e' t G' : val self r G (EBlock [] e) e' t G' ->
  exists e1 G2, e' = EBlock [] e1 /\ val self r G e e1 t G2 /\ G' = out G G2.
Proof. intros H. apply block_inv in H. destruct H as (ss & e1 & G1 & G2 & -> & A & B & ->). apply stms_nil_inv in A. destruct A as (-> & ->). eauto. Qed.
Lemma block_let_inv r G x a e e' t G' : val self r G (EBlock [SLet x a] e) e' t G' ->
  exists a1 e1 u G1 G2, e' = EBlock [SLet x a1] e1 /\ val self r G a a1 u G1 /\ val self r ((x, Some u) :: G1) e e1 t G2 /\ G' = out G G2.
Proof.
  intros H. apply block_inv in H. destruct H as (ss & e1 & G1 & G2 & -> & A & B & ->). apply stms_let_inv in A.
  destruct A as (a1 & ss1 & u & G3 & -> & A & C). apply stms_nil_inv in C. destruct C as (-> & ->). do 5 eexists. split; [reflexivity|]. eauto.
Qed.
Lemma try_inv r G e e' t G' : val self r G (ETry e) e' t G' ->
  exists e1 w a b, e' = ETry e1 /\ r = YRes a b /\ val self r G e e1 (YRes t w) G' /\ converts w b.
Proof. intros H. inversion H; subst. do 4 eexists. split; [reflexivity|]. eauto. Qed.
Lemma ref_inv r G e e' t G' : val self r G (ERef e) e' t G' -> exists e1 u, e' = ERef e1 /\ t = YRef u /\ place self r G e e1 u G'.
Proof. intros H. inversion H; subst. eauto 6. Qed.
Lemma place_var_inv r G x e' t G' : place self r G (EVar x) e' t G' -> e' = EVar x /\ var G x t /\ G' = G.
Proof. intros H. inversion H; subst; auto. discriminate. Qed.
Lemma place_val_inv r G e e' t G' : is_place e = false -> place self r G e e' t G' -> val self r G e e' t G'.
Proof. intros N H. inversion H; subst; auto; discriminate. Qed.
Lemma if_inv r G c a b e' t G' : val self r G (EIf c a b) e' t G' ->
  exists c1 a1 b1 G1 G2 G3, e' = EIf c1 a1 b1 /\ val self r G c c1 YBool G1 /\ val self r G1 a a1 t G2 /\ val self r G1 b b1 t G3 /\ G' = join G2 G3.
Proof. intros H. inversion H; subst. do 6 eexists. split; [reflexivity|]. eauto. Qed.
Lemma if_let_inv r G q x a b e' t G' : val self r G (EIfLet q x a b) e' t G' ->
  exists x1 a1 b1 u B G1 G2 G3, e' = EIfLet q x1 a1 b1 /\ val self r G x x1 u G1 /\ binds items self q u B /\ val self r (B ++ G1) a a1 t G2
    /\ val self r G1 b b1 t G3 /\ G' = join (out G1 G2) G3.
Proof. intros H. inversion H; subst. do 8 eexists. split; [reflexivity|]. eauto 6. Qed.
Lemma push_val_inv r G x e e' t G' : val self r G (EPush x e) e' t G' ->
  exists e1 u t1, e' = EPush x e1 /\ t = YUnit /\ val self r G e e1 u G' /\ coerces u t1 /\ var G' x (YVec t1).
Proof. intros H. inversion H; subst. do 3 eexists. split; [reflexivity|]. eauto. Qed.
Lemma while_inv r G c b e' t G' : val self r G (EWhile c b) e' t G' ->
  exists c1 b1, e' = EWhile c1 b1 /\ t = YUnit /\ val self r G c c1 YBool G /\ val self r G b b1 YUnit G /\ G' = G.
Proof. intros H. inversion H; subst. eauto 8. Qed.
Lemma while_let_inv r G q x b e' t G' : val self r G (EWhileLet q x b) e' t G' ->
  exists x1 b1 u B G2, e' = EWhileLet q x1 b1 /\ t = YUnit /\ val self r G x x1 u G /\ binds items self q u B /\ val self r (B ++ G) b b1 YUnit G2 /\ out G G2 = G /\ G' = G.
Proof. intros H. inversion H; subst. do 5 eexists. split; [reflexivity|]. eauto 8. Qed.
Lemma for_inv r G x e b e' t G' : val self r G (EFor x e b) e' t G' ->
  exists e1 b1 u w G2, e' = EFor x e1 b1 /\ t = YUnit /\ val self r G e e1 u G' /\ iterates u w /\ val self r ((x, Some w) :: G') b b1 YUnit G2 /\ out G' G2 = G'.
Proof. intros H. inversion H; subst. do 5 eexists. split; [reflexivity|]. eauto 8. Qed.
Lemma match_inv r G e ms e' t G' : val self r G (EMatch e ms) e' t G' ->
  exists e1 ms1 u G1, e' = EMatch e1 ms1 /\ val self r G e e1 u G1 /\ exhaustive items self u (map fst ms) /\ arms self r G1 u ms ms1 t G'.
Proof. intros H. inversion H; subst. do 4 eexists. split; [reflexivity|]. eauto. Qed.
Lemma or_inv r G a b e' t G' : val self r G (EOr a b) e' t G' ->
  exists a1 b1 G1 G2, e' = EOr a1 b1 /\ t = YBool /\ val self r G a a1 YBool G1 /\ val self r G1 b b1 YBool G2 /\ G' = join G1 G2.
Proof. intros H. inversion H; subst. do 4 eexists. split; [reflexivity|]. eauto. Qed.
Lemma not_inv r G a e' t G' : val self r G (ENot a) e' t G' -> exists a1, e' = ENot a1 /\ t = YBool /\ val self r G a a1 YBool G'.
Proof. intros H. inversion H; subst. eauto. Qed.
Lemma ne_inv r G a b e' t G' : val self r G (ENe a b) e' t G' -> exists a1 b1 G1, e' = ENe a1 b1 /\ val self r G a a1 str_ref G1 /\ val self r G1 b b1 str_ref G'.
Proof. intros H. inversion H; subst. eauto 6. Qed.
Lemma return_inv r G e e' t G' : val self r G (EReturn e) e' t G' -> exists e1 u, e' = EReturn e1 /\ val self r G e e1 u G' /\ coerces u r.
Proof. intros H. inversion H; subst. eauto 6. Qed.
Lemma struct_inv r G x fs e' t G' : val self r G (EStruct (PName x) fs) e' t G' ->
  exists ds fs1 ts, declared items x (DStruct ds) /\ fields self r G fs fs1 ts G' /\ Permutation (combine (map fst fs) ts) (map (fun d => (fst d, up (snd d))) ds)
  /\ e' = EStruct (PName x) fs1 /\ t = YNamed x.
Proof. intros H. inversion H; subst. do 3 eexists. eauto 6. Qed.
Lemma arms_cons_inv r G u q b m ms ms' t G' : arms self r G u ((q, b) :: m :: ms) ms' t G' ->
  exists b1 ms1 B G1 G2, ms' = (q, b1) :: ms1 /\ binds items self q u B /\ val self r (B ++ G) b b1 t G1 /\ arms self r G u (m :: ms) ms1 t G2 /\ G' = join (out G G1) G2.
Proof. intros H. inversion H; subst. do 5 eexists. split; [reflexivity|]. eauto. Qed.
Lemma arms_one_inv r G u q b ms' t G' : arms self r G u [(q, b)] ms' t G' ->
  exists b1 B G1, ms' = [(q, b1)] /\ binds items self q u B /\ val self r (B ++ G) b b1 t G1 /\ G' = out G G1.
Proof.
  intros H. inversion H; subst; [do 3 eexists; split; [reflexivity|]; eauto|]. match goal with K : TypingSpec.arms _ _ _ _ _ [] _ _ _ |- _ => inversion K end.
Qed.
Lemma copied r G x t e' u G' : var G x t -> copy t -> val self r G (EVar x) e' u G' -> e' = EVar x /\ u = t /\ G' = G.
Proof.
  intros V C H. apply var_inv in H. destruct H as (-> & V' & M). pose proof (var_fun _ _ _ _ V V') as <-. destruct M as [(_ & ->)|(N & _)]; [auto|contradiction].
Qed.
Lemma moves r G x t e' u G' : var G x t -> ~ copy t -> val self r G (EVar x) e' u G' -> e' = EVar x /\ u = t /\ G' = moved x G.
Proof.
  intros V C H. apply var_inv in H. destruct H as (-> & V' & M). pose proof (var_fun _ _ _ _ V V') as <-. destruct M as [(N & _)|(_ & ->)]; [contradiction|auto].
Qed.
Lemma some_binds x u B : binds items self (PSome x) u B -> (exists t, u = YOpt t /\ B = [(x, Some t)]) \/ (exists t, u = YRef (YOpt t) /\ B = [(x, Some (YRef t))]).
Proof. intros H. inversion H; subst; eauto. Qed.

(** ** The prelude *)
Lemma no_tuples x : In x prelude_values -> no_tuple items x.
Proof. eapply prelude_no_tuple; eauto. Qed.
Lemma some_inv r G e e' t G' : val self r G (ECall (PName "Some") None [e]) e' t G' ->
  exists e1 u t1, e' = some e1 /\ t = YOpt t1 /\ val self r G e e1 u G' /\ coerces u t1.
Proof.
  intros H. inversion H; subst.
  - exfalso. eapply (no_tuples "Some"); [simpl; tauto|eauto].
  - match goal with A : TypingSpec.args _ _ _ _ _ _ _ _ |- _ => apply args_one_inv in A; destruct A as (e1 & u & t1 & -> & Et & A & B) end.
    injection Et as ->. exists e1, u, t1. auto.
Qed.
Lemma none_inv r G e' t G' : val self r G none e' t G' -> e' = none /\ (exists u, t = YOpt u) /\ G' = G.
Proof. intros H. inversion H; subst. eauto. Qed.
Lemma ok_inv r G e e' t G' : val self r G (ECall (PName "Ok") None [e]) e' t G' ->
  exists e1 u t1 w, e' = ECall (PName "Ok") None [e1] /\ t = YRes t1 w /\ val self r G e e1 u G' /\ coerces u t1.
Proof.
  intros H. inversion H; subst.
  - exfalso. eapply (no_tuples "Ok"); [simpl; tauto|eauto].
  - match goal with A : TypingSpec.args _ _ _ _ _ _ _ _ |- _ => apply args_one_inv in A; destruct A as (e1 & u & t1 & -> & Et & A & B) end.
    injection Et as ->. do 4 eexists. split; [reflexivity|]. split; [reflexivity|]. eauto.
Qed.
Lemma err_inv r G e e' t G' : val self r G (ECall (PName "Err") None [e]) e' t G' ->
  exists e1 u t1 w, e' = ECall (PName "Err") None [e1] /\ t = YRes t1 w /\ val self r G e e1 u G' /\ coerces u w.
Proof.
  intros H. inversion H; subst.
  - exfalso. eapply (no_tuples "Err"); [simpl; tauto|eauto].
  - match goal with A : TypingSpec.args _ _ _ _ _ _ _ _ |- _ => apply args_one_inv in A; destruct A as (e1 & u & t1 & -> & Et & A & B) end.
    injection Et as ->. do 4 eexists. split; [reflexivity|]. split; [reflexivity|]. eauto.
Qed.
Lemma no_types x : In x prelude_types -> no_type items x.
Proof. eapply prelude_no_type; eauto. Qed.
Lemma no_inherent x f i q : In x prelude_types -> ~ inherent items x f i q.
Proof.
  intros I H. destruct (inherent_in _ _ _ Hh Hl _ _ _ _ H) as (t & It & E & _). eapply (no_types x I). rewrite <- E. eapply in_declared; eauto.
Qed.
Lemma vec_new_inv r G e' t G' : val self r G (ECall (PAssoc "Vec" "new") None []) e' t G' ->
  e' = ECall (PAssoc "Vec" "new") None [] /\ (exists u, t = YVec u) /\ G' = G.
Proof.
  intros H. inversion H; subst; [exfalso|exfalso|eauto].
  - eapply (no_types "Vec"); [simpl; tauto|eauto].
  - eapply (no_inherent "Vec"); [simpl; tauto|eauto].
Qed.
Lemma box_new_inv r G e e' t G' : val self r G (ECall (PAssoc "Box" "new") None [e]) e' t G' ->
  exists e1 u t1, e' = ECall (PAssoc "Box" "new") None [e1] /\ t = YBox t1 /\ val self r G e e1 u G' /\ coerces u t1.
Proof.
  intros H. inversion H; subst; [exfalso|exfalso|].
  - eapply (no_types "Box"); [simpl; tauto|eauto].
  - eapply (no_inherent "Box"); [simpl; tauto|eauto].
  - match goal with A : TypingSpec.args _ _ _ _ _ _ _ _ |- _ => apply args_one_inv in A; destruct A as (e1 & u & t1 & -> & Et & A & B) end.
    injection Et as ->. exists e1, u, t1. auto.
Qed.
Lemma ns_inv r G ns e' t G' : val self r G (untyped (ns_code ns)) e' t G' -> e' = ns_code ns /\ G' = G.
Proof.
  destruct ns as [s|]; intros H; cbn [ns_code untyped map some] in H.
  - apply some_inv in H. destruct H as (e1 & u & t1 & -> & -> & H & _). apply str_inv in H. destruct H as (-> & _ & ->). auto.
  - apply none_inv in H. destruct H as (-> & _ & ->). auto.
Qed.

(** ** Methods *)
Lemma method_inv r G e m es e' w G' : val self r G (EMethod e None m es) e' w G' ->
  exists e1 es1 t u ts G1, place self r G e e1 t G1 /\ derefs t u /\ args self r G1 es es1 ts G' /\ e' = EMethod e1 (own_type_of u) m es1
  /\ (method_of items u m ts w \/ exists id i q s ts0 w0, u = YNamed id /\ inherent items id m i q /\ sig_of i q = Some (YRef u :: ts0, w0) /\ within q s
      /\ ts = map (subst s) ts0 /\ w = subst s w0).
Proof.
  intros H. inversion H; subst.
  - do 6 eexists. split; [eassumption|]. split; [eassumption|]. split; [eassumption|]. split; [reflexivity|]. now left.
  - exists e'0, es', t, (YNamed id), (map (subst s) ts), G1. do 3 (split; [eassumption|]). split; [reflexivity|]. right. exists id, i, q, s, ts, u. auto 8.
Qed.
(** Of a type that is not of the module. *)
Lemma lib_method_inv r G e m es e' w G' : val self r G (EMethod e None m es) e' w G' -> (forall e1 T G1, place self r G e e1 T G1 -> forall id, ~ derefs T (YNamed id)) ->
  exists e1 es1 t u ts G1, place self r G e e1 t G1 /\ derefs t u /\ args self r G1 es es1 ts G' /\ e' = call e1 m es1 /\ method_of items u m ts w.
Proof.
  intros H N. apply method_inv in H. destruct H as (e1 & es1 & t & u & ts & G1 & P & D & A & -> & K).
  assert (O : own_type_of u = None) by (destruct u; try reflexivity; now apply N with (id := id) in P).
  rewrite O. exists e1, es1, t, u, ts, G1. do 3 (split; [assumption|]). split; [reflexivity|].
  destruct K as [K|(id & i & q & s & ts0 & w0 & -> & _)]; [exact K|discriminate].
Qed.
Lemma node_method_inv r G T m es e' w G' : var G "node" T -> node_like T -> m <> "into" -> val self r G (EMethod (EVar "node") None m es) e' w G' ->
  exists es1 ts, e' = call (v "node") m es1 /\ args self r G es es1 ts G' /\ method_of items Node m ts w.
Proof.
  intros V N M H. apply lib_method_inv in H.
  - destruct H as (e1 & es1 & t & u & ts & G1 & P & D & A & -> & K). apply place_var_inv in P. destruct P as (-> & V' & ->).
    pose proof (var_fun _ _ _ _ V V') as <-. exists es1, ts. split; [reflexivity|]. split; [exact A|].
    destruct N as [-> | ->]; inversion D; subst; auto.
    + inversion K; subst; try congruence; match goal with X : displays _ _ |- _ => inversion X end.
    + match goal with X : derefs Node _ |- _ => now apply derefs_lib in X; subst end.
  - intros e1 T' G1 P id D. apply place_var_inv in P. destruct P as (-> & V' & ->). pose proof (var_fun _ _ _ _ V V') as <-.
    destruct N as [-> | ->]; inversion D; subst. match goal with X : derefs Node _ |- _ => inversion X end.
Qed.
Lemma child_args_inv r G n ns es ts G' : args self r G [untyped (EStr n); untyped (ns_code ns)] es ts G' -> es = [EStr n; ns_code ns] /\ G' = G.
Proof.
  intros H. apply args_two_inv in H. destruct H as (e1 & f1 & u & t & u' & t' & G1 & -> & -> & A & _ & B & _).
  cbn [untyped] in A. apply str_inv in A. destruct A as (-> & _ & ->). apply ns_inv in B. destruct B as (-> & ->). auto.
Qed.
Lemma str_ref_derefs u : derefs str_ref u -> u = str_ref \/ u = YStr.
Proof. intros D. inversion D; subst; auto. match goal with X : derefs YStr _ |- _ => inversion X; subst; auto end. Qed.
Lemma str_of_inv r G e e' t G' : (forall e1 T G1, place self r G (untyped e) e1 T G1 -> e1 = e /\ T = str_ref /\ G1 = G) ->
  val self r G (untyped (str_of e)) e' t G' -> e' = str_of e /\ t = YString /\ G' = G.
Proof.
  intros N H. unfold str_of in H. cbn [untyped call map] in H. apply lib_method_inv in H.
  - destruct H as (e1 & es1 & T & u & ts & G1 & P & D & A & -> & K). destruct (N _ _ _ P) as (-> & -> & ->).
    apply args_nil_inv in A. destruct A as (-> & -> & ->). split; [reflexivity|]. split; [|reflexivity].
    apply str_ref_derefs in D. destruct D as [-> | ->]; inversion K; subst; auto; match goal with X : converts _ _ |- _ => inversion X end.
  - intros e1 T G1 P id D. destruct (N _ _ _ P) as (_ & -> & _). apply str_ref_derefs in D. destruct D; discriminate.
Qed.
Lemma str_of_lit_inv r G s e' t G' : val self r G (untyped (str_of (EStr s))) e' t G' -> e' = str_of (EStr s) /\ t = YString /\ G' = G.
Proof. apply str_of_inv. intros e1 T G1 P. apply place_val_inv in P; [|reflexivity]. cbn [untyped] in P. now apply str_inv in P. Qed.
Lemma str_of_var_inv r G x e' t G' : var G x str_ref -> val self r G (untyped (str_of (v x))) e' t G' -> e' = str_of (v x) /\ t = YString /\ G' = G.
Proof.
  intros V. apply str_of_inv. intros e1 T G1 P. cbn [untyped v] in P. apply place_var_inv in P. destruct P as (-> & V' & ->).
  pose proof (var_fun _ _ _ _ V V') as <-. auto.
Qed.

(** ** Errors *)
Lemma fields_cons_inv r G f e fs fs' ts G' : fields self r G ((f, e) :: fs) fs' ts G' ->
  exists e1 fs1 u t ts1 G1, fs' = (f, e1) :: fs1 /\ ts = t :: ts1 /\ val self r G e e1 u G1 /\ coerces u t /\ fields self r G1 fs fs1 ts1 G'.
Proof. intros H. inversion H; subst. do 6 eexists. split; [reflexivity|]. split; [reflexivity|]. eauto. Qed.
Lemma fields_nil_inv r G fs ts G' : fields self r G [] fs ts G' -> fs = [] /\ ts = [] /\ G' = G.
Proof. intros H. inversion H; subst; auto. Qed.
Lemma lib_struct_inv r G x fs e' t G' : val self r G (EStruct (PLib x) fs) e' t G' ->
  exists ds fs1 ts, struct_of x = Some (ds, t) /\ fields self r G fs fs1 ts G' /\ Permutation (combine (map fst fs) ts) ds /\ e' = EStruct (PLib x) fs1.
Proof. intros H. inversion H; subst. do 3 eexists. eauto 6. Qed.
Lemma parse_error_inv r G n x y ty e' t G' : var G x str_ref -> y <> x -> var G y n -> ~ copy n ->
  val self r G (untyped (err_struct "ParseType" [("type_", str_of (EStr ty)); ("value", str_of (v x)); ("err", ECall (PAssoc "Box" "new") None [v y])])) e' t G' ->
  e' = err_struct "ParseType" [("type_", str_of (EStr ty)); ("value", str_of (v x)); ("err", ECall (PAssoc "Box" "new") None [v y])]
  /\ t = DecodeError /\ G' = moved y G.
Proof.
  intros V N W C H. unfold err_struct in H |- *. cbn [untyped map fst snd] in H. apply lib_struct_inv in H. destruct H as (ds & fs1 & ts & S & F & P & ->).
  cbn in S. injection S as <- <-.
  apply fields_cons_inv in F. destruct F as (a1 & fs2 & u1 & t1 & ts1 & G1 & -> & -> & A1 & C1 & F). change (EMethod (EStr ty) None "to_string" []) with (untyped (str_of (EStr ty))) in A1.
  apply str_of_lit_inv in A1. destruct A1 as (-> & -> & ->).
  apply fields_cons_inv in F. destruct F as (a2 & fs3 & u2 & t2 & ts2 & G1 & -> & -> & A2 & C2 & F). change (EMethod (v x) None "to_string" []) with (untyped (str_of (v x))) in A2.
  apply str_of_var_inv in A2; [|exact V]. destruct A2 as (-> & -> & ->).
  apply fields_cons_inv in F. destruct F as (a3 & fs4 & u3 & t3 & ts3 & G1 & -> & -> & A3 & C3 & F). apply fields_nil_inv in F. destruct F as (-> & -> & ->).
  apply box_new_inv in A3. destruct A3 as (e1 & u & t4 & -> & -> & A3 & C4). apply var_inv in A3. destruct A3 as (-> & W' & M).
  pose proof (var_fun _ _ _ _ W W') as <-. destruct M as [(K & _)|(_ & ->)]; [contradiction|]. split; [reflexivity|]. auto.
Qed.
End Inv.
