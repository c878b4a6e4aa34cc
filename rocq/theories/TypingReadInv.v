(** * TypingReadInv: what the types of the functions that read say about their parts *)
From Verif Require Import Base Libs Xml Ast Gen Emit Rust Body RustSpec EmitSpec GramSpec GramWrite TypingSpec TypingProof TypingItems TypingRead TypingInv.
From Coq Require Import Permutation Lia.

(** The code for a literal, at any type. *)
Definition lit_at (u : rty) (l : literal) : ex :=
  ETry (EMapped (ECall (PLib "std::str::FromStr::from_str") (Some u) [v "val"]) "map_err" "err"
    (value_block (err_struct "ParseType"
      [("type_", str_of (EStr (xsd_name l))); ("value", str_of (v "val")); ("err", ECall (PAssoc "Box" "new") None [v "err"])]))).
Definition text_at (u : rty) (l : literal) : ex := EBlock [SLet "val" (ETry (call (v "node") "text" []))] (lit_at u l).

Section Inv.
Variables (items : list pitem) (l : list (root * titem)) (p : program).
Hypothesis Hh : holds items l.
Hypothesis Hl : forall t, In t p <-> In t (map snd l).
Hypothesis Hd : decls_ok p.
Notation val := (val items).
Notation place := (place items).
Notation stms := (stms items).
Notation args := (args items).
Notation fields := (fields items).
Notation arms := (arms items).
Variable self : string.

Lemma from_str_call_inv r G f x e' t G' : from_str_fn f = true -> var G x str_ref -> val self r G (ECall (PLib f) None [EVar x]) e' t G' ->
  exists u w, e' = ECall (PLib f) (Some u) [EVar x] /\ t = YRes (up u) w /\ from_str items u w /\ G' = G.
Proof.
  intros Ff V H. inversion H; subst; [match goal with K : function_of _ _ _ |- _ => inversion K; subst; discriminate end|].
  match goal with K : TypingSpec.args _ _ _ _ _ _ _ _ |- _ => rename K into A end. apply args_one_inv in A. destruct A as (e1 & u1 & t1 & -> & Et & A & B).
  apply var_inv in A. destruct A as (-> & V' & M). pose proof (var_fun _ _ _ _ V V') as <-. destruct M as [(_ & ->)|(C & _)]; [|destruct C; constructor].
  eauto 8.
Qed.
Lemma map_err_inv r G e x b e' t G' : val self r G (EMapped e "map_err" x b) e' t G' ->
  exists e1 b1 t1 w u G2, e' = EMapped e1 "map_err" x b1 /\ t = YRes t1 u /\ val self r G e e1 (YRes t1 w) G' /\ val self u ((x, Some w) :: G') b b1 u G2 /\ out G' G2 = G'.
Proof. intros H. inversion H; subst. do 6 eexists. split; [reflexivity|]. split; [reflexivity|]. eauto. Qed.
Lemma from_str_error u w : from_str items u w -> ~ copy w.
Proof. intros F C. destruct (from_str_inv _ _ _ Hh Hl _ _ F) as [(q & _ & ->)|(t & _ & _ & -> & _)]; inversion C. Qed.

Lemma lit_inv r G lt e' t G' : var G "val" str_ref -> val self r G (untyped (lit_code lt)) e' t G' ->
  exists u w, from_str items u w /\ t = up u /\ e' = lit_at u lt /\ G' = G.
Proof.
  intros V H. unfold lit_code in H. cbn [untyped map v] in H. apply try_inv in H. destruct H as (e1 & w & a & b & -> & _ & H & _).
  apply map_err_inv in H. destruct H as (e2 & b1 & t1 & w1 & u & G2 & -> & Et & A & B & O). injection Et as <- <-.
  apply from_str_call_inv in A; [|reflexivity|exact V]. destruct A as (u0 & w0 & -> & Et & F & ->). injection Et as -> ->.
  apply block_one_inv in B. destruct B as (e3 & G3 & -> & B & ->).
  eapply (parse_error_inv _ _ _ Hh Hl Hd) with (n := w0) in B; [|exact V|discriminate|reflexivity|exact (from_str_error _ _ F)]. destruct B as (-> & _ & ->). exists u0, w0. auto.
Qed.

Lemma own_fn_inv r G id f es e' t G' : In f own_names -> (forall id, t <> YNamed id) -> val self r G (ECall (PAssoc id f) None es) e' t G' ->
  exists t0 i q ts u s es1, In t0 p /\ ti_id t0 = type_name self id /\ In i (impls_of t0) /\ pi_trait i = None /\ In q (fn_of t0 f)
  /\ sig_of i q = Some (ts, u) /\ args self r G es es1 (map (subst s) ts) G' /\ t = subst s u /\ e' = ECall (PAssoc id f) None es1.
Proof.
  intros F N H. inversion H; subst; try (exfalso; eapply N; reflexivity).
  - match goal with K : inherent _ _ _ _ _ |- _ => destruct (inherent_in _ _ _ Hh Hl _ _ _ _ K) as (t0 & I0 & E0 & J & Tr & Q & _) end.
    do 7 eexists. split; [exact I0|]. split; [exact E0|]. split; [exact J|]. split; [exact Tr|]. split; [exact Q|]. eauto.
  - exfalso. simpl in F. intuition discriminate.
  - exfalso. simpl in F. intuition discriminate.
Qed.
Lemma look_inv r G id e' G' : var G "node" (YRef Node) -> val self r G (ECall (PAssoc id "lookahead") None [EVar "node"]) e' YBool G' ->
  defined p (type_name self id) /\ e' = ECall (PAssoc id "lookahead") None [EVar "node"] /\ G' = G.
Proof.
  intros V H. apply own_fn_inv in H; [|simpl; tauto|discriminate].
  destruct H as (t0 & i & q & ts & u & s & es1 & I0 & E0 & J & Tr & Q & Sg & A & _ & ->). split; [apply defined_in; eauto|].
  apply args_one_inv in A. destruct A as (e1 & u1 & t1 & -> & _ & A & _). apply var_inv in A. destruct A as (-> & V' & M).
  pose proof (var_fun _ _ _ _ V V') as <-. destruct M as [(_ & ->)|(C & _)]; [|destruct C; constructor]. auto.
Qed.

(** What is read from an element. *)
Inductive rx_elab : rx -> rty -> ex -> Prop :=
| re_text lt u w : from_str items u w -> rx_elab (RxText lt) u (text_at u lt)
| re_fixed s : rx_elab (RxFixed s) TUnit (rx_code (RxFixed s))
| re_call id : defined p (type_name self id) -> rx_elab (RxCall id) (TRef (type_name self id)) (rx_code (RxCall id)).
Lemma text_inv r G T e' t G' : var G "node" T -> node_like T -> val self r G (ETry (EMethod (v "node") None "text" [])) e' t G' ->
  e' = ETry (call (v "node") "text" []) /\ t = str_ref /\ G' = G.
Proof.
  intros V N H. apply try_inv in H. destruct H as (e1 & w & a & b & -> & _ & H & _). eapply node_method_inv in H; eauto; [|discriminate].
  destruct H as (es1 & ts & -> & A & M). apply args_nil_inv in A. destruct A as (-> & -> & ->). inversion M; subst; auto.
Qed.
Lemma fixed_error_inv r G s es e' t G' : var G "val" str_ref ->
  es = err_struct "FixedMismatch" [("expected", EStr s); ("received", str_of (v "val"))] ->
  val self r G (untyped es) e' t G' -> e' = es /\ t = DecodeError /\ G' = G.
Proof.
  intros V -> H. unfold err_struct in H |- *. cbn [untyped map fst snd] in H. apply lib_struct_inv in H. destruct H as (ds & fs1 & ts & S & F & P & ->).
  cbn in S. injection S as <- <-.
  apply fields_cons_inv in F. destruct F as (a1 & fs2 & u1 & t1 & ts1 & G1 & -> & -> & A1 & C1 & F). apply str_inv in A1. destruct A1 as (-> & -> & ->).
  apply fields_cons_inv in F. destruct F as (a2 & fs3 & u2 & t2 & ts2 & G1 & -> & -> & A2 & C2 & F). change (EMethod (v "val") None "to_string" []) with (untyped (str_of (v "val"))) in A2.
  apply str_of_var_inv in A2; [|exact V]. destruct A2 as (-> & -> & ->).
  apply fields_nil_inv in F. destruct F as (-> & -> & ->). auto.
Qed.
Lemma into_inv r G e e' t G' : is_place e = false -> (forall e1 T G1, val self r G e e1 T G1 -> T = DecodeError) ->
  val self r G (EMethod e None "into" []) e' t G' -> exists e1, e' = call e1 "into" [] /\ val self r G e e1 DecodeError G'.
Proof.
  intros Np N H. apply lib_method_inv in H.
  - destruct H as (e1 & es1 & T & u & ts & G1 & P & D & A & -> & K). apply place_val_inv in P; [|exact Np]. apply args_nil_inv in A. destruct A as (-> & -> & ->).
    pose proof (N _ _ _ P) as ->. eauto.
  - intros e1 T G1 P id D. apply place_val_inv in P; [|exact Np]. rewrite (N _ _ _ P) in D. inversion D.
Qed.
Lemma rx_inv r G T x e' t G' : var G "node" T -> node_like T -> val self r G (untyped (rx_code x)) e' t G' ->
  exists u, t = up u /\ rx_elab x u e' /\ G' = G.
Proof.
  intros V N H. destruct x as [lt|s|id]; unfold rx_code in H.
  - cbn [untyped map call] in H. apply block_let_inv in H. destruct H as (a1 & e1 & u & G1 & G2 & -> & A & B & ->).
    eapply text_inv in A; eauto. destruct A as (-> & -> & ->). apply lit_inv in B; [|reflexivity]. destruct B as (u0 & w0 & F & -> & -> & ->).
    exists u0. split; [reflexivity|]. split; [now apply (re_text lt u0 w0)|apply out_cons].
  - rewrite untyped_block in H. cbn [map untyped_stm] in H. cbn [untyped map call] in H. rewrite untyped_unit_block in H. cbn [map untyped_stm] in H.
    apply block_let_inv in H. destruct H as (a1 & e1 & u & G1 & G2 & -> & A & B & ->).
    eapply text_inv in A; eauto. destruct A as (-> & -> & ->). apply if_inv in B. destruct B as (c1 & b1 & d1 & G3 & G4 & G5 & -> & Hc & Ha & Hb & ->).
    assert (V1 : var (("val", Some str_ref) :: G) "val" str_ref) by reflexivity. set (G1 := ("val", Some str_ref) :: G) in *.
    assert (C : c1 = ENe (v "val") (EStr s) /\ G3 = G1).
    { apply ne_inv in Hc. destruct Hc as (a1 & b2 & G6 & -> & X & Y). apply var_inv in X. destruct X as (-> & V' & M).
      destruct M as [(_ & ->)|(C & _)]; [|destruct C; constructor]. apply str_inv in Y. destruct Y as (-> & _ & ->). auto. }
    destruct C as (-> & ->). apply unit_inv in Hb. destruct Hb as (-> & -> & ->).
    apply unit_block_inv in Ha. destruct Ha as (ss & G6 & Ha & -> & _ & ->). apply stms_expr_inv in Ha. destruct Ha as (r1 & ss1 & t1 & G7 & -> & Ha & _ & K).
    apply stms_nil_inv in K. destruct K as (-> & ->). apply return_inv in Ha. destruct Ha as (q1 & u1 & -> & Ha & _). cbn [untyped map] in Ha. eapply err_inv in Ha; eauto.
    destruct Ha as (q2 & u2 & t2 & w2 & -> & -> & Ha & _).
    assert (X : forall e1 T G1', val self r G1 (untyped (err_struct "FixedMismatch" [("expected", EStr s); ("received", str_of (v "val"))])) e1 T G1' -> T = DecodeError).
    { intros e1 T' G1' X. eapply fixed_error_inv in X; eauto. now destruct X as (_ & -> & _). }
    apply into_inv in Ha; [|reflexivity|exact X]. destruct Ha as (q3 & -> & Ha). eapply fixed_error_inv in Ha; eauto. destruct Ha as (-> & _ & ->).
    exists TUnit. split; [reflexivity|]. split; [apply re_fixed|]. rewrite out_same, join_same. apply out_cons.
  - cbn [untyped map] in H. apply try_inv in H. destruct H as (e1 & w & a & b & -> & _ & H & _). apply own_fn_inv in H; [|simpl; tauto|discriminate].
    destruct H as (t0 & i & q & ts & u & s & es1 & I0 & E0 & J & Tr & Q & Sg & A & Eu & ->). rewrite (fn_sig t0 i _ q J Tr Q) in Sg. cbn in Sg.
    injection Sg as <- <-. cbn in Eu. injection Eu as -> ->. apply args_one_inv in A. destruct A as (e1 & u1 & t1 & -> & _ & A & _).
    apply ref_inv in A. destruct A as (e2 & u2 & -> & -> & A). apply place_var_inv in A. destruct A as (-> & _ & ->).
    exists (TRef (ti_id t0)). split; [reflexivity|]. rewrite E0. split; [|reflexivity]. apply re_call. apply defined_in. eauto.
Qed.
Lemma rx_elab_code x u e' : rx_elab x u e' -> rx_type p x u -> e' = rx_code x.
Proof. intros H K. destruct K; inversion H; subst; auto. Qed.

(** ** Fields *)
Lemma child_call_inv r G T m n ns e' t G' : var G "node" T -> node_like T -> m <> "into" ->
  val self r G (untyped (call (v "node") m [EStr n; ns_code ns])) e' t G' ->
  e' = call (v "node") m [EStr n; ns_code ns] /\ (exists ts, method_of items Node m ts t) /\ G' = G.
Proof.
  intros V N M H. cbn [untyped call map v] in H. eapply node_method_inv in H; eauto. destruct H as (es1 & ts & -> & A & K).
  apply (child_args_inv _ _ _ Hh Hl Hd) in A. destruct A as (-> & ->). eauto.
Qed.
Lemma next_inv r G T n ns e' t G' : var G "node" T -> node_like T -> val self r G (untyped (call (v "node") "next_child" [EStr n; ns_code ns])) e' t G' ->
  e' = call (v "node") "next_child" [EStr n; ns_code ns] /\ t = YOpt Node /\ G' = G.
Proof. intros V N H. eapply child_call_inv in H; eauto; [|discriminate]. destruct H as (-> & (ts & M) & ->). inversion M; subst; auto. Qed.
Lemma child_inv r G T m n ns e' t G' : var G "node" T -> node_like T -> m = "try_child" \/ m = "try_next_child" ->
  val self r G (untyped (ETry (call (v "node") m [EStr n; ns_code ns]))) e' t G' ->
  e' = ETry (call (v "node") m [EStr n; ns_code ns]) /\ t = Node /\ G' = G.
Proof.
  intros V N E H. cbn [untyped] in H. apply try_inv in H. destruct H as (e1 & w & a & b & -> & _ & H & _).
  eapply child_call_inv in H; eauto; [|destruct E as [-> | ->]; discriminate]. destruct H as (-> & (ts & M) & ->).
  destruct E as [-> | ->]; inversion M; subst; auto.
Qed.
Lemma push_inv r G T x T0 e' t G' : var G "node" T -> node_like T -> var G "vec" (YVec T0) ->
  val self r G (untyped (unit_block [SExpr (EPush "vec" (rx_code x))])) e' t G' ->
  exists u e1, T0 = up u /\ rx_elab x u e1 /\ e' = unit_block [SExpr (EPush "vec" e1)] /\ G' = G.
Proof.
  intros V N W H. rewrite untyped_unit_block in H. cbn [map untyped_stm] in H. apply unit_block_inv in H. destruct H as (ss & G2 & H & -> & _ & ->).
  apply stms_expr_inv in H. destruct H as (e1 & ss1 & t1 & G1 & -> & H & _ & K). apply stms_nil_inv in K. destruct K as (-> & ->).
  cbn [untyped] in H. apply push_val_inv in H. destruct H as (e2 & u & t2 & -> & _ & H & C & W'). eapply rx_inv in H; eauto. destruct H as (u0 & -> & X & ->).
  apply coerces_from_up in C. subst t2. pose proof (var_fun _ _ _ _ W W') as Y. injection Y as ->.
  exists u0, e2. split; [reflexivity|]. split; [exact X|]. split; [reflexivity|apply out_same].
Qed.
Lemma some_node_inv u B : u = YOpt Node -> binds items self (PSome "node") u B -> B = [("node", Some Node)].
Proof. intros -> H. apply some_binds in H. destruct H as [(t & E & ->)|(t & E & _)]; [now injection E as <-|discriminate]. Qed.
Lemma next_stms_inv r G T n ns x ss G' : var G "node" T -> node_like T -> stms self r G (map untyped_stm (next_stms n ns x)) ss G' ->
  exists u e1, rx_elab x u e1 /\ (e1 = rx_code x -> ss = next_stms n ns x) /\ G' = ("vec", Some (YVec (up u))) :: G.
Proof.
  intros V N H. unfold next_stms in H. cbn [map untyped_stm] in H. apply stms_let_inv in H. destruct H as (e1 & ss1 & t & G1 & -> & A & H).
  cbn [untyped map] in A. apply (vec_new_inv _ _ _ Hh Hl Hd) in A. destruct A as (-> & (T0 & ->) & ->).
  apply stms_expr_inv in H. destruct H as (e2 & ss2 & t1 & G2 & -> & H & _ & K). apply stms_nil_inv in K. destruct K as (-> & ->).
  cbn [untyped] in H. apply while_let_inv in H. destruct H as (x1 & b1 & u & B & G3 & -> & _ & X & Y & Z & _ & ->).
  eapply next_inv in X; [|exact V|exact N]. destruct X as (-> & -> & _). apply some_node_inv in Y; [|reflexivity]. subst B.
  eapply push_inv in Z; [|reflexivity|now left|reflexivity]. destruct Z as (u & e1 & -> & Z & -> & _). exists u, e1. split; [exact Z|]. split; [|reflexivity]. now intros ->.
Qed.
Lemma vec_inv (Q : rty -> ex -> Prop) r G opt E e' t G' : val self r G (untyped (vec_code opt E)) e' t G' ->
  (forall e1 T G1, val self r G (untyped E) e1 T G1 -> exists u, T = YVec (up u) /\ Q u e1 /\ G1 = G) ->
  exists u e1, t = up (wrap_opt opt (TVec u)) /\ Q u e1 /\ e' = vec_code opt e1 /\ G' = G.
Proof.
  intros H X. destruct opt; unfold vec_code in H; cbn [untyped map value_block some call v] in H.
  - apply block_let_inv in H. destruct H as (a1 & e1 & u & G1 & G2 & -> & A & B & ->). destruct (X _ _ _ A) as (u0 & -> & Hq & ->).
    apply if_inv in B. destruct B as (c1 & b1 & d1 & G3 & G4 & G5 & -> & Hc & Ha & Hb & ->).
    set (G1 := ("val", Some (YVec (up u0))) :: G) in *. assert (V1 : var G1 "val" (YVec (up u0))) by reflexivity.
    apply lib_method_inv in Hc.
    2:{ intros e1 T' G6 P id D. apply place_var_inv in P. destruct P as (_ & V' & _). pose proof (var_fun _ _ _ _ V1 V') as <-. inversion D. }
    destruct Hc as (e2 & es1 & t2 & u2 & ts & G6 & P & D & Ag & -> & K). apply args_nil_inv in Ag. destruct Ag as (-> & -> & ->).
    apply place_var_inv in P. destruct P as (-> & V' & ->). apply block_one_inv in Ha. destruct Ha as (e3 & G7 & -> & Ha & ->).
    apply none_inv in Ha. destruct Ha as (-> & _ & ->). apply block_one_inv in Hb. destruct Hb as (e4 & G8 & -> & Hb & ->).
    eapply some_inv in Hb; eauto. destruct Hb as (e5 & u5 & t5 & -> & -> & Hb & C). eapply moves in Hb; [|exact V1|intros C'; inversion C'].
    destruct Hb as (-> & -> & ->). apply coerces_vec in C. subst t5. exists u0, a1. split; [reflexivity|]. split; [exact Hq|]. split; [reflexivity|].
    unfold moved, G1. cbn [aset]. change ("val" =?s "val") with true. cbv iota. rewrite out_same.
    unfold out at 2. cbn [length]. rewrite Nat.sub_diag. cbn [skipn join]. rewrite join_same. apply out_cons.
  - apply block_one_inv in H. destruct H as (e1 & G2 & -> & H & ->). destruct (X _ _ _ H) as (u & -> & Hq & ->). exists u, e1. rewrite out_same. auto.
Qed.
Lemma vec_moved_inv r G t e' u G' : val self r (("vec", Some (YVec t)) :: G) (EVar "vec") e' u G' -> e' = EVar "vec" /\ u = YVec t /\ G' = ("vec", None) :: G.
Proof. intros H. eapply moves in H; [exact H|reflexivity|intros C; inversion C]. Qed.

Definition fr_weak (f : fr) : Prop :=
  match f with FrWhileLook id _ _ | FrIfLook id _ => defined p (type_name self id) | _ => True end.
Lemma fr_inv r G f e' t G' : var G "node" (YRef Node) -> val self r G (untyped (fr_code f)) e' t G' ->
  exists u, t = up u /\ fr_weak f /\ (fr_type p f u -> e' = fr_code f) /\ G' = G.
Proof.
  intros V H. assert (N : node_like (YRef Node)) by now right. destruct f as [x|id x opt|id x|n ns x opt|n ns x|n ns x|n ns x]; unfold fr_code in H.
  - cbn [untyped map value_block] in H. apply block_one_inv in H. destruct H as (e1 & G2 & -> & H & ->). eapply rx_inv in H; eauto. destruct H as (u & -> & X & ->).
    exists u. split; [reflexivity|]. split; [exact I|]. split; [|apply out_same]. intros K. inversion K; subst. cbn [fr_code]. now rewrite (rx_elab_code _ _ _ X).
  - eapply (vec_inv (fun u e => defined p (type_name self id) /\ (rx_type p x u -> e = while_look_code id x))) in H.
    + destruct H as (u & e1 & -> & (Di & Q) & -> & ->). exists (wrap_opt opt (TVec u)). split; [reflexivity|]. split; [exact Di|]. split; [|reflexivity].
      intros K. inversion K as [|? ? ? t' _ K'| | | | |]; subst. cbn [fr_code]. rewrite Q; [reflexivity|]. destruct opt; simpl in *; congruence.
    + clear H. intros e1 T G1 H. unfold while_look_code in H. rewrite untyped_block in H. cbn [map untyped_stm] in H. apply block_inv in H.
      destruct H as (ss & e2 & G2 & G3 & -> & A & B & ->). apply stms_let_inv in A. destruct A as (e3 & ss1 & t0 & G4 & -> & A & H).
      cbn [untyped map] in A. apply (vec_new_inv _ _ _ Hh Hl Hd) in A. destruct A as (-> & (T0 & ->) & ->).
      apply stms_expr_inv in H. destruct H as (e4 & ss2 & t1 & G5 & -> & H & _ & K). apply stms_nil_inv in K. destruct K as (-> & ->).
      cbn [untyped map v] in H. apply while_inv in H. destruct H as (c1 & b1 & -> & _ & Hc & Hb & ->). apply look_inv in Hc; [|exact V]. destruct Hc as (Di & -> & _).
      eapply push_inv in Hb; [|exact V|exact N|reflexivity]. destruct Hb as (u & e5 & -> & Z & -> & _).
      cbn [untyped v] in B. apply vec_moved_inv in B. destruct B as (-> & -> & ->). exists u. split; [reflexivity|]. split; [|apply out_cons].
      split; [exact Di|]. intros K. now rewrite (rx_elab_code _ _ _ Z K).
  - cbn [untyped map value_block v some] in H. apply block_one_inv in H. destruct H as (e1 & G2 & -> & H & ->). apply if_inv in H.
    destruct H as (c1 & b1 & d1 & G3 & G4 & G5 & -> & Hc & Ha & Hb & ->). apply look_inv in Hc; [|exact V]. destruct Hc as (Di & -> & ->).
    apply block_one_inv in Ha. destruct Ha as (e3 & G7 & -> & Ha & ->). eapply some_inv in Ha; eauto. destruct Ha as (e4 & u4 & t4 & -> & -> & Ha & C).
    eapply rx_inv in Ha; eauto. destruct Ha as (u & -> & X & ->). apply coerces_from_up in C. subst t4.
    apply block_one_inv in Hb. destruct Hb as (e5 & G8 & -> & Hb & ->). apply none_inv in Hb. destruct Hb as (-> & _ & ->).
    exists (TOpt u). split; [reflexivity|]. split; [exact Di|]. rewrite !out_same, join_same, out_same. split; [|reflexivity].
    intros K. inversion K; subst. cbn [fr_code]. now rewrite (rx_elab_code _ _ _ X).
  - eapply (vec_inv (fun u e => rx_type p x u -> e = while_next_code n ns x)) in H.
    + destruct H as (u & e1 & -> & Q & -> & ->). exists (wrap_opt opt (TVec u)). split; [reflexivity|]. split; [exact I|]. split; [|reflexivity].
      intros K. inversion K as [| | |? ? ? ? t' K'| | |]; subst. cbn [fr_code]. rewrite Q; [reflexivity|]. destruct opt; simpl in *; congruence.
    + clear H. intros e1 T G1 H. unfold while_next_code in H. rewrite untyped_block in H. apply block_inv in H.
      destruct H as (ss & e2 & G2 & G3 & -> & A & B & ->). eapply next_stms_inv in A; eauto. destruct A as (u & e5 & Z & Q & ->).
      cbn [untyped v] in B. apply vec_moved_inv in B. destruct B as (-> & -> & ->). exists u. split; [reflexivity|]. split; [|apply out_cons].
      intros K. rewrite Q; [reflexivity|]. now apply (rx_elab_code _ _ _ Z).
  - cbn [untyped map value_block some] in H. apply block_one_inv in H. destruct H as (e1 & G2 & -> & H & ->). apply if_let_inv in H.
    destruct H as (x1 & a1 & b1 & u & B & G1 & G3 & G4 & -> & X & Y & Ha & Hb & ->). eapply next_inv in X; eauto. destruct X as (-> & -> & ->).
    apply some_node_inv in Y; [|reflexivity]. subst B.
    apply block_one_inv in Ha. destruct Ha as (e3 & G7 & -> & Ha & ->). eapply some_inv in Ha; eauto. destruct Ha as (e4 & u4 & t4 & -> & -> & Ha & C).
    eapply rx_inv in Ha; [|reflexivity|now left]. destruct Ha as (u & -> & X & ->). apply coerces_from_up in C. subst t4.
    apply block_one_inv in Hb. destruct Hb as (e5 & G8 & -> & Hb & ->). apply none_inv in Hb. destruct Hb as (-> & _ & ->).
    exists (TOpt u). split; [reflexivity|]. split; [exact I|]. cbn [app]. rewrite !out_same, out_cons, join_same, out_same. split; [|reflexivity].
    intros K. inversion K; subst. cbn [fr_code]. now rewrite (rx_elab_code _ _ _ X).
  - rewrite untyped_block in H. cbn [map untyped_stm] in H. apply block_let_inv in H. destruct H as (a1 & e1 & u & G1 & G2 & -> & A & B & ->).
    eapply child_inv in A; eauto. destruct A as (-> & -> & ->). eapply rx_inv in B; [|reflexivity|now left]. destruct B as (u & -> & X & ->).
    exists u. split; [reflexivity|]. split; [exact I|]. rewrite out_cons. split; [|reflexivity]. intros K. inversion K; subst. cbn [fr_code]. now rewrite (rx_elab_code _ _ _ X).
  - rewrite untyped_block in H. cbn [map untyped_stm] in H. apply block_let_inv in H. destruct H as (a1 & e1 & u & G1 & G2 & -> & A & B & ->).
    eapply child_inv in A; eauto. destruct A as (-> & -> & ->). eapply rx_inv in B; [|reflexivity|now left]. destruct B as (u & -> & X & ->).
    exists u. split; [reflexivity|]. split; [exact I|]. rewrite out_cons. split; [|reflexivity]. intros K. inversion K; subst. cbn [fr_code]. now rewrite (rx_elab_code _ _ _ X).
Qed.

(** ** Attributes *)
Definition ax_weak (a : ax) (u : rty) : Prop :=
  match a with
  | AxLit _ => True
  | AxFromStr _ => u = TPrim PString \/ exists t, In t p /\ u = TRef (ti_id t) /\ converted (ti_decl t)
  | AxUnit => u = TUnit
  end.
Lemma ax_inv r G a e' t G' : decoding r -> var G "val" str_ref -> val self r G (untyped (ax_code a)) e' t G' ->
  exists u, t = up u /\ ax_weak a u /\ (ax_type p a u -> e' = ax_code a) /\ G' = G.
Proof.
  intros (a0 & Er) V H. destruct a as [lt|t0|]; unfold ax_code in H.
  - apply lit_inv in H; [|exact V]. destruct H as (u & w & F & -> & -> & ->). exists u. split; [reflexivity|]. split; [exact I|]. split; [|reflexivity].
    intros K. inversion K; subst. reflexivity.
  - cbn [untyped map v] in H. apply try_inv in H. destruct H as (e1 & w & a & b & -> & Er' & H & C). rewrite Er in Er'. injection Er' as -> <-.
    apply from_str_call_inv in H; [|reflexivity|exact V]. destruct H as (u & w1 & -> & E & F & ->). injection E as -> ->. exists u. split; [reflexivity|].
    split; [|split; [|reflexivity]].
    + cbn [ax_weak]. destruct (from_str_inv _ _ _ Hh Hl _ _ F) as [(q & -> & ->)|(t & I & -> & _ & D)]; [left|right; eauto]. inversion C; subst. reflexivity.
    + intros K. inversion K; subst; reflexivity.
  - cbn [untyped] in H. apply unit_inv in H. destruct H as (-> & -> & ->). exists TUnit. cbn. auto.
Qed.
Definition ra_weak (a : ra) (t : rty) : Prop :=
  if ra_opt a then exists u, t = TOpt u /\ ax_weak (ra_conv a) u else ax_weak (ra_conv a) t.
Lemma ra_inv r G a e' t G' : decoding r -> var G "node" (YRef Node) -> val self r G (untyped (ra_code a)) e' t G' ->
  exists u, t = up u /\ ra_weak a u /\ (ra_type p a u -> e' = ra_code a) /\ G' = G.
Proof.
  intros D V H. assert (N : node_like (YRef Node)) by now right. unfold ra_weak, ra_type, ra_code in *. destruct (ra_opt a).
  - cbn [untyped map value_block some call v] in H. apply block_one_inv in H. destruct H as (e1 & G2 & -> & H & ->). apply if_let_inv in H.
    destruct H as (x1 & a1 & b1 & u & B & G1 & G3 & G4 & -> & X & Y & Ha & Hb & ->). eapply node_method_inv in X; eauto; [|discriminate].
    destruct X as (es1 & ts & -> & Ag & M). apply args_one_inv in Ag. destruct Ag as (e2 & u2 & t2 & -> & -> & Ag & _). apply str_inv in Ag. destruct Ag as (-> & _ & ->).
    inversion M; subst. apply some_binds in Y. destruct Y as [(t0 & E & ->)|(t0 & E & _)]; [injection E as <-|discriminate].
    apply block_one_inv in Ha. destruct Ha as (e3 & G7 & -> & Ha & ->). eapply some_inv in Ha; eauto. destruct Ha as (e4 & u4 & t4 & -> & -> & Ha & C).
    apply ax_inv in Ha; [|exact D|reflexivity]. destruct Ha as (u & -> & W & Q & ->). apply coerces_from_up in C. subst t4.
    apply block_one_inv in Hb. destruct Hb as (e5 & G8 & -> & Hb & ->). apply none_inv in Hb. destruct Hb as (-> & _ & ->).
    exists (TOpt u). split; [reflexivity|]. split; [eauto|]. cbn [app]. rewrite !out_same, out_cons, join_same, out_same. split; [|reflexivity].
    intros (u' & E & K). injection E as <-. rewrite (Q K). reflexivity.
  - rewrite untyped_block in H. cbn [map untyped_stm] in H. apply block_let_inv in H. destruct H as (a1 & e1 & u & G1 & G2 & -> & A & B & ->).
    cbn [untyped map call v] in A. apply try_inv in A. destruct A as (e2 & w & a2 & b2 & -> & _ & A & _). eapply node_method_inv in A; eauto; [|discriminate].
    destruct A as (es1 & ts & -> & Ag & M). apply args_one_inv in Ag. destruct Ag as (e3 & u2 & t2 & -> & -> & Ag & _). apply str_inv in Ag. destruct Ag as (-> & _ & ->).
    inversion M; subst. apply ax_inv in B; [|exact D|reflexivity]. destruct B as (u & -> & W & Q & ->). exists u. split; [reflexivity|]. split; [exact W|].
    rewrite out_cons. split; [|reflexivity]. intros K. rewrite (Q K). reflexivity.
Qed.

(** ** Choices *)
Definition arm_weak (vs : list (string * rty)) (m : arm) : Prop :=
  match m with
  | ArmLook w id x => defined p (type_name self id) /\ exists u e, In (w, u) vs /\ rx_elab x u e
  | ArmVec w n ns x => exists u e, In (w, TVec u) vs /\ rx_elab x u e
  | ArmOne w n ns x => exists u e, In (w, u) vs /\ rx_elab x u e
  end.
Lemma case_inv r G w e e' G' t0 vs : In t0 p -> ti_id t0 = self -> ti_decl t0 = DChoice vs ->
  val self r G (ECall (PAssoc "Self" w) None [e]) e' (YNamed self) G' ->
  exists e1 u1 u, e' = ECall (PAssoc "Self" w) None [e1] /\ val self r G e e1 u1 G' /\ coerces u1 (up u) /\ In (w, u) vs.
Proof.
  intros It Ei Ed H. inversion H; subst.
  - match goal with K : declared _ _ _ |- _ => rename K into D end. match goal with K : TypingSpec.args _ _ _ _ _ _ _ _ |- _ => rename K into A end.
    change (type_name (ti_id t0) "Self") with (ti_id t0) in D. apply (declared_item _ _ _ Hh Hl Hd) in D; [|exact It]. rewrite Ed in D. cbn in D. subst vs0.
    apply args_one_inv in A. destruct A as (e1 & u1 & t1 & -> & Et & A & C). injection Et as <-. eauto 8.
  - exfalso. match goal with K : inherent _ _ _ _ _ |- _ => rename K into X end. destruct (inherent_in _ _ _ Hh Hl _ _ _ _ X) as (t1 & I1 & E1 & J & Tr & Q & F).
    match goal with K : sig_of _ _ = _ |- _ => rewrite (fn_sig t1 i _ q J Tr Q) in K; rename K into S end.
    destruct F as [F|(-> & _)].
    + simpl in F. destruct F as [<-|[<-|[<-|[<-|[<-|[]]]]]]; cbn in S; injection S as <- <-; discriminate.
    + cbn in S. injection S as <- <-. discriminate.
Qed.
Lemma arms_inv r G name ms t0 vs : In t0 p -> ti_id t0 = self -> ti_decl t0 = DChoice vs -> NoDup (map fst vs) -> var G "node" (YRef Node) ->
  forall e' G', val self r G (untyped (arms_code name ms)) e' (YNamed self) G' ->
  Forall (arm_weak vs) ms /\ (Forall (arm_type p vs) ms -> e' = arms_code name ms) /\ G' = G.
Proof.
  intros It Ei Ed Nd V. assert (N : node_like (YRef Node)) by now right.
  assert (Un : forall w u u', In (w, u) vs -> In (w, u') vs -> u = u').
  { clear - Nd. intros w u u' A B. induction vs as [|[w0 u0] vs IH]; [destruct A|]. inversion Nd; subst. destruct A as [A|A], B as [B|B].
    - congruence.
    - injection A as -> _. destruct H1. now apply (in_map fst) in B.
    - injection B as -> _. destruct H1. now apply (in_map fst) in A.
    - auto. }
  induction ms as [|m ms IH]; intros e' G' H.
  - split; [constructor|]. cbn [arms_code untyped map value_block call] in H. apply block_one_inv in H. destruct H as (e1 & G2 & -> & H & ->).
    apply return_inv in H. destruct H as (e2 & u2 & -> & H & _). cbn [untyped map] in H. eapply err_inv in H; eauto.
    destruct H as (q2 & u3 & t2 & w2 & -> & -> & Ha & _).
    assert (X : forall e1 T G1', val self r G (untyped (err_struct "MissingVariant" [("name", str_of (EStr name))])) e1 T G1' ->
      e1 = err_struct "MissingVariant" [("name", str_of (EStr name))] /\ T = DecodeError /\ G1' = G).
    { intros e1 T G1 H. unfold err_struct in H |- *. cbn [untyped map fst snd] in H. apply lib_struct_inv in H. destruct H as (ds & fs1 & ts & S & F & P & ->).
      cbn in S. injection S as <- <-.
      apply fields_cons_inv in F. destruct F as (a1 & fs2 & u1 & t1 & ts1 & G3 & -> & -> & A1 & C1 & F). change (EMethod (EStr name) None "to_string" []) with (untyped (str_of (EStr name))) in A1.
      apply str_of_lit_inv in A1. destruct A1 as (-> & -> & ->). apply fields_nil_inv in F. destruct F as (-> & -> & ->). auto. }
    apply into_inv in Ha; [|reflexivity|intros e1 T G1 K; now apply X in K]. destruct Ha as (q3 & -> & Ha). apply X in Ha. destruct Ha as (-> & _ & ->).
    split; [reflexivity|apply out_same].
  - destruct m as [w id x|w n ns x|w n ns x]; cbn [arms_code untyped map value_block v] in H.
    + apply if_inv in H. destruct H as (c1 & b1 & d1 & G3 & G4 & G5 & -> & Hc & Ha & Hb & ->). apply look_inv in Hc; [|exact V]. destruct Hc as (Di & -> & ->).
      destruct (IH _ _ Hb) as (F & Q & ->). apply block_one_inv in Ha. destruct Ha as (e3 & G7 & -> & Ha & ->).
      eapply case_inv in Ha; eauto. destruct Ha as (e4 & u4 & u & -> & Ha & C & Iw). eapply rx_inv in Ha; eauto. destruct Ha as (u0 & -> & X & ->).
      apply coerces_from_up in C. apply up_inj in C. subst u0. split; [constructor; auto; cbn; eauto|]. rewrite out_same, join_same. split; [|reflexivity].
      intros K. inversion K as [|? ? K1 K2]; subst. inversion K1; subst. cbn [arms_code]. rewrite (Q K2).
      match goal with K3 : In (w, ?t) vs |- _ => assert (t = u) as -> by (eapply Un; eauto) end. now rewrite (rx_elab_code _ _ _ X).
    + apply if_inv in H. destruct H as (c1 & b1 & d1 & G3 & G4 & G5 & -> & Hc & Ha & Hb & ->). change (EVar "node") with (v "node") in Hc.
      change (val self r G (untyped (call (v "node") "peek_child" [EStr n; ns_code ns])) c1 YBool G3) in Hc.
      eapply child_call_inv in Hc; eauto; [|discriminate]. destruct Hc as (-> & _ & ->).
      destruct (IH _ _ Hb) as (F & Q & ->). change (val self r G (untyped (EBlock (next_stms n ns x) (ECall (PAssoc "Self" w) None [v "vec"]))) b1 (YNamed self) G4) in Ha.
      rewrite untyped_block in Ha. apply block_inv in Ha. destruct Ha as (ss & e2 & G2 & G3 & -> & A & B & ->).
      eapply next_stms_inv in A; eauto. destruct A as (u & e5 & Z & Q' & ->). cbn [untyped map v] in B. eapply case_inv in B; eauto.
      destruct B as (e4 & u4 & u1 & -> & B & C & Iw). apply vec_moved_inv in B. destruct B as (-> & -> & ->). apply coerces_vec in C.
      change (YVec (up u)) with (up (TVec u)) in C. apply up_inj in C. subst u1. split; [constructor; auto; cbn; eauto|]. rewrite out_cons, join_same. split; [|reflexivity].
      intros K. inversion K as [|? ? K1 K2]; subst. inversion K1; subst. cbn [arms_code]. rewrite (Q K2).
      match goal with K3 : In (w, TVec ?t) vs |- _ => assert (E : TVec t = TVec u) by (eapply Un; eauto); injection E as -> end. rewrite Q'; [reflexivity|]. now apply (rx_elab_code _ _ _ Z).
    + apply if_let_inv in H. destruct H as (x1 & a1 & b1 & u & B & G1 & G3 & G4 & -> & X & Y & Ha & Hb & ->).
      change (val self r G (untyped (call (v "node") "next_child" [EStr n; ns_code ns])) x1 u G1) in X.
      eapply next_inv in X; eauto. destruct X as (-> & -> & ->).
      apply some_node_inv in Y; [|reflexivity]. subst B. destruct (IH _ _ Hb) as (F & Q & ->). cbn [app] in Ha. apply block_one_inv in Ha. destruct Ha as (e3 & G7 & -> & Ha & ->).
      eapply case_inv in Ha; eauto. destruct Ha as (e4 & u4 & u & -> & Ha & C & Iw). eapply rx_inv in Ha; [|reflexivity|now left]. destruct Ha as (u0 & -> & X & ->).
      apply coerces_from_up in C. apply up_inj in C. subst u0. split; [constructor; auto; cbn; eauto|]. rewrite out_same, out_cons, join_same. split; [|reflexivity].
      intros K. inversion K as [|? ? K1 K2]; subst. inversion K1; subst. cbn [arms_code]. rewrite (Q K2).
      match goal with K3 : In (w, ?t) vs |- _ => assert (t = u) as -> by (eapply Un; eauto) end. now rewrite (rx_elab_code _ _ _ X).
Qed.

(** ** Structs *)
End Inv.
