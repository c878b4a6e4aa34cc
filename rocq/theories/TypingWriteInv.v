(** * TypingWriteInv: the functions that write have one meaning *)
From Verif Require Import Base Libs Xml Ast Gen Run Emit Rust Body RustSpec EmitSpec GramSpec GramWrite TypingSpec TypingProof TypingItems TypingRead TypingInv TypingReadInv TypingFnInv TypingWrite.
From Coq Require Import Permutation Lia.

Section Write.
Variables (items : list pitem) (l : list (root * titem)) (p : program).
Hypothesis Hh : holds items l.
Hypothesis Hl : forall t, In t p <-> In t (map snd l).
Hypothesis Hd : decls_ok p.
Notation val := (val items).
Notation place := (place items).
Notation stms := (stms items).
Notation args := (args items).
Notation arms := (arms items).
Variable t : titem.
Hypothesis It : In t p.
Notation self := (ti_id t).
Variable r : typ.

Lemma stm_one_inv G e ss G' : stms self r G [SExpr e] ss G' -> exists e1 T, ss = [SExpr e1] /\ val self r G e e1 T G' /\ (block_like e = true -> T = YUnit).
Proof. intros H. apply stms_expr_inv in H. destruct H as (e1 & ss1 & T & G1 & -> & A & B & C). apply stms_nil_inv in C. destruct C as (-> & ->). eauto 6. Qed.
(** A method of a variable whose type is of a library. *)
Definition foreign (T : typ) : Prop := forall id, ~ derefs T (YNamed id).
Lemma var_method_inv G x T m es e' w G' : var G x T -> foreign T -> val self r G (EMethod (EVar x) None m es) e' w G' ->
  exists es1 u ts, derefs T u /\ args self r G es es1 ts G' /\ e' = call (EVar x) m es1 /\ method_of items u m ts w.
Proof.
  intros V F H. apply lib_method_inv in H.
  2:{ intros e1 T1 G1 P. apply place_var_inv in P. destruct P as (_ & V' & _). now pose proof (var_fun _ _ _ _ V V') as <-. }
  destruct H as (e1 & es1 & t1 & u & ts & G1 & P & D & A & -> & M). apply place_var_inv in P. destruct P as (-> & V' & ->). pose proof (var_fun _ _ _ _ V V') as <-. eauto 8.
Qed.
Lemma foreign_ctx : foreign Context.
Proof. intros id D. inversion D. Qed.
Lemma foreign_out : foreign Out.
Proof. intros id D. inversion D; subst. match goal with K : derefs (YWriter _) _ |- _ => inversion K end. Qed.
Lemma foreign_string : foreign YString.
Proof. intros id D. inversion D; subst. match goal with K : derefs YStr _ |- _ => inversion K end. Qed.
Lemma ctx_call_inv G m ss G' : var G "ctx" Context -> var G "writer" Out ->
  stms self r G [untyped_stm (SExpr (ETry (call (v "ctx") m [v "writer"])))] ss G' -> ss = [SExpr (ETry (call (v "ctx") m [v "writer"]))] /\ G' = G.
Proof.
  intros C W H. cbn [untyped_stm] in H. apply stm_one_inv in H. destruct H as (e1 & T & -> & H & _). cbn [untyped call map v] in H. apply try_inv in H.
  destruct H as (e2 & w & a & b & -> & _ & H & _). eapply var_method_inv in H; [|exact C|exact foreign_ctx]. destruct H as (es1 & u & ts & _ & A & -> & _).
  apply args_one_inv in A. destruct A as (e3 & u3 & t3 & -> & _ & A & _). eapply copied in A; [|exact W|constructor]. destruct A as (-> & _ & ->). auto.
Qed.
Lemma characters_inv G e ss G' : (forall e' T G1, val self r G (untyped e) e' T G1 -> e' = e /\ G1 = G) -> var G "writer" Out ->
  stms self r G [untyped_stm (characters e)] ss G' -> ss = [characters e] /\ G' = G.
Proof.
  intros X W H. unfold characters in H |- *. cbn [untyped_stm] in H. apply stm_one_inv in H. destruct H as (e1 & T & -> & H & _). cbn [untyped call map v] in H. apply try_inv in H.
  destruct H as (e2 & w & a & b & -> & _ & H & _). eapply var_method_inv in H; [|exact W|exact foreign_out]. destruct H as (es1 & u & ts & _ & A & -> & _).
  apply args_one_inv in A. destruct A as (e3 & u3 & t3 & -> & _ & A & _). apply function_inv in A; [|reflexivity]. destruct A as (es1 & ts1 & _ & A & ->).
  apply args_one_inv in A. destruct A as (e4 & u4 & t4 & -> & _ & A & _). apply X in A. destruct A as (-> & ->). auto.
Qed.
Lemma text_stms_inv G e ss G' : (forall e' T G1, val self r G (untyped e) e' T G1 -> e' = e /\ T = YString /\ G1 = G) -> var G "writer" Out ->
  stms self r G (map untyped_stm (text_stms e)) ss G' -> ss = text_stms e /\ G' = ("val", Some YString) :: G.
Proof.
  intros X W H. unfold text_stms in H |- *. cbn [map untyped_stm] in H. apply stms_let_inv in H. destruct H as (e1 & ss1 & T & G1 & -> & A & H). apply X in A. destruct A as (-> & -> & ->).
  set (G1 := ("val", Some YString) :: G) in *. apply stm_one_inv in H. destruct H as (e2 & T & -> & H & _). cbn [untyped call map v] in H. rewrite untyped_unit_block in H.
  apply if_inv in H. destruct H as (c1 & a1 & b1 & G2 & G3 & G4 & -> & A & B & D & ->). apply not_inv in A. destruct A as (a2 & -> & _ & A).
  eapply (var_method_inv G1) in A; [|reflexivity|exact foreign_string]. destruct A as (es1 & u & ts & _ & A & -> & _). apply args_nil_inv in A. destruct A as (-> & _ & ->).
  apply unit_block_inv in B. destruct B as (l1 & G5 & B & -> & _ & ->). apply unit_inv in D. destruct D as (-> & _ & ->).
  cbn [map] in B. apply characters_inv in B; [|clear|exact W].
  - destruct B as (-> & ->). split; [reflexivity|]. rewrite out_same. apply join_same.
  - intros e' T G2 H. cbn [untyped v] in H. apply ref_inv in H. destruct H as (e1 & u & -> & _ & P). apply place_var_inv in P. destruct P as (-> & _ & ->). auto.
Qed.
(** A method of a type of the module, or of a built-in one. *)
Lemma named_method_inv G x T id m es e' w G' : var G x T -> derefs T (YNamed id) -> (T = YRef (YNamed id) -> ~ exists ts w, method_of items (YRef (YNamed id)) m ts w) ->
  T = YNamed id \/ T = YRef (YNamed id) ->
  val self r G (EMethod (EVar x) None m es) e' w G' ->
  exists es1 ts, args self r G es es1 ts G' /\ e' = EMethod (EVar x) (Some (TRef id)) m es1.
Proof.
  intros V D N E H. apply method_inv in H. destruct H as (e1 & es1 & t1 & u & ts & G1 & P & D1 & A & -> & M). apply place_var_inv in P. destruct P as (-> & V' & ->).
  pose proof (var_fun _ _ _ _ V V') as <-. exists es1, ts. split; [exact A|].
  assert (u = YNamed id) as ->; [|reflexivity]. destruct E as [->| ->].
  - now apply derefs_named in D1.
  - inversion D1 as [|x0 y D2| |]; subst; [|now apply derefs_named in D2]. destruct M as [M|(id' & i & q & s & ts0 & w0 & E & _)]; [|discriminate]. exfalso. apply N; eauto.
Qed.
Lemma prim_to_string_inv G x q e' w G' : var G x (YRef (YPrim q)) -> val self r G (EMethod (EVar x) None "to_string" []) e' w G' ->
  e' = call (EVar x) "to_string" [] /\ w = YString /\ G' = G.
Proof.
  intros V H. eapply var_method_inv in H; [|exact V|].
  - destruct H as (es1 & u & ts & D & A & -> & M). apply args_nil_inv in A. destruct A as (-> & -> & ->). inversion M; subst; auto.
  - intros id D. inversion D as [|x0 y D2| |]; subst. inversion D2; subst. match goal with K : derefs YStr _ |- _ => inversion K end.
Qed.

Lemma wx_inv G x ty ss G' : wx_type p x ty -> var G "val" (YRef (up ty)) -> var G "ctx" Context -> var G "writer" Out ->
  stms self r G (map untyped_stm (wx_code x)) ss G' -> ss = wx_code x /\ exists B, only_val B /\ G' = B ++ after x G.
Proof.
  intros Tx V C W H. destruct Tx as [q|s ty|id Di]; unfold wx_code, after in *.
  - apply text_stms_inv in H; [|intros e' T G1 K; cbn [untyped map str_of call v] in K; eapply prim_to_string_inv; eauto|exact W]. destruct H as (-> & ->).
    split; [reflexivity|]. exists [("val", Some YString)]. split; [repeat constructor|reflexivity].
  - apply characters_inv in H; [|intros e' T G1 K; cbn [untyped] in K; apply str_inv in K; tauto|exact W]. destruct H as (-> & ->). split; [reflexivity|]. exists []. split; [constructor|reflexivity].
  - cbn [map untyped_stm] in H. apply stm_one_inv in H. destruct H as (e1 & T & -> & H & _). cbn [untyped map v] in H. apply try_inv in H. destruct H as (e2 & w & a & b & -> & _ & H & _).
    eapply named_method_inv with (id := id) in H; [|exact V|repeat constructor|intros _ (ts & w0 & M); inversion M|now right]. destruct H as (es1 & ts & A & ->).
    apply args_two_inv in A. destruct A as (e1 & f1 & u1 & t1 & u2 & t2 & G1 & -> & _ & A & _ & B & _). eapply moves in A; [|exact C|intros K; inversion K]. destruct A as (-> & _ & ->).
    eapply copied in B; [|eapply moved_other; [exact C|exact W|discriminate]|constructor]. destruct B as (-> & _ & ->). split; [reflexivity|]. exists []. split; [constructor|reflexivity].
Qed.
Lemma tagged_inv wrap G l0 (Q : tenv -> Prop) ss G' : var G "ctx" Context -> var G "writer" Out ->
  (forall G1, Q G1 -> wrap = true -> var G1 "ctx" Context /\ var G1 "writer" Out) ->
  (forall ss G1, stms self r G (map untyped_stm l0) ss G1 -> ss = l0 /\ Q G1) ->
  stms self r G (map untyped_stm (tagged wrap l0)) ss G' -> ss = tagged wrap l0 /\ Q G'.
Proof.
  intros C W E X H. destruct wrap; [|now apply X]. unfold tagged in *. cbn [map] in H.
  change (untyped_stm start_tag :: map untyped_stm (l0 ++ [end_tag])) with ([untyped_stm start_tag] ++ map untyped_stm (l0 ++ [end_tag])) in H.
  apply stms_app_inv in H. destruct H as (s1 & s2 & G1 & -> & A & H). apply ctx_call_inv in A; auto. destruct A as (-> & ->).
  rewrite map_app in H. apply stms_app_inv in H. destruct H as (s3 & s4 & G2 & -> & A & H). apply X in A. destruct A as (-> & Q2). destruct (E _ Q2 eq_refl) as (C2 & W2).
  cbn [map] in H. apply ctx_call_inv in H; auto. destruct H as (-> & ->). auto.
Qed.
Lemma after_keeps wrap x B G : closes wrap x -> only_val B -> var G "ctx" Context -> var G "writer" Out -> wrap = true ->
  var (B ++ after x G) "ctx" Context /\ var (B ++ after x G) "writer" Out.
Proof. intros K O C W Wr. specialize (K Wr). destruct x; try contradiction; simpl; split; apply only_val_var; auto; discriminate. Qed.
Lemma tagged_wx_inv wrap G x ty ss G' : closes wrap x -> wx_type p x ty -> var G "val" (YRef (up ty)) -> var G "ctx" Context -> var G "writer" Out ->
  stms self r G (map untyped_stm (tagged wrap (wx_code x))) ss G' -> ss = tagged wrap (wx_code x) /\ exists B, only_val B /\ G' = B ++ after x G.
Proof.
  intros K Tx V C W H. apply (tagged_inv wrap G _ (fun G' => exists B, only_val B /\ G' = B ++ after x G)) in H; auto.
  - intros G1 (B & O & ->) Wr. eapply after_keeps; eauto.
  - intros s1 G1 A. eapply wx_inv; eauto.
Qed.

(** ** Fields *)
Definition block_same (tn : list stm) (ty : rty) : Prop := forall G e' T G', var G "val" (YRef (up ty)) -> var G "ctx" Context -> var G "writer" Out ->
  val self r G (untyped (unit_block tn)) e' T G' -> e' = unit_block tn /\ G' = G.
Lemma in_ctx_inv wrap x ty c : (forall G ss G', var G "ctx" Context -> stms self r G [untyped_stm c] ss G' -> ss = [c] /\ G' = ("ctx", Some Context) :: G) ->
  closes wrap x -> wx_type p x ty -> block_same (c :: tagged wrap (wx_code x)) ty.
Proof.
  intros X K Tx G e' T G' V C W H. rewrite untyped_unit_block in H. apply unit_block_inv in H. destruct H as (l1 & G2 & H & -> & _ & ->). cbn [map] in H.
  change (untyped_stm c :: map untyped_stm (tagged wrap (wx_code x))) with ([untyped_stm c] ++ map untyped_stm (tagged wrap (wx_code x))) in H.
  apply stms_app_inv in H. destruct H as (s1 & s2 & G1 & -> & A & H). apply X in A; auto. destruct A as (-> & ->). eapply tagged_wx_inv in H; [|exact K|exact Tx|exact V|reflexivity|exact W].
  destruct H as (-> & B & O & ->). split; [reflexivity|]. now apply out_moved.
Qed.
Lemma for_block_inv (b : bool) tn ty : block_same tn ty -> block_same (for_code b tn) (wrap_vec b ty).
Proof.
  intros X. destruct b; [|exact X]. intros G e' T G' V C W H. unfold for_code in *. cbn [wrap_vec up] in V. rewrite untyped_unit_block in H. apply unit_block_inv in H.
  destruct H as (l1 & G2 & H & -> & _ & ->). cbn [map untyped_stm] in H. apply stm_one_inv in H. destruct H as (e1 & T1 & -> & H & _). cbn [untyped v] in H. apply for_inv in H.
  destruct H as (e2 & b1 & u & w & G3 & -> & _ & A & I & B & _). eapply copied in A; [|exact V|constructor]. destruct A as (-> & -> & ->). inversion I; subst.
  apply X in B; auto; [|reflexivity]. destruct B as (-> & _). split; [reflexivity|apply out_same].
Qed.
Lemma if_block_inv (b : bool) tn ty : block_same tn ty -> block_same (if_code b tn) (wrap_opt b ty).
Proof.
  intros X. destruct b; [|exact X]. intros G e' T G' V C W H. unfold if_code in *. cbn [wrap_opt up] in V. rewrite untyped_unit_block in H. apply unit_block_inv in H.
  destruct H as (l1 & G2 & H & -> & _ & ->). cbn [map untyped_stm] in H. apply stm_one_inv in H. destruct H as (e1 & T1 & -> & H & _). cbn [untyped v] in H. apply if_let_inv in H.
  destruct H as (x1 & a1 & b1 & u & B & G3 & G4 & G5 & -> & A & Bi & Ha & Hb & ->). eapply copied in A; [|exact V|constructor]. destruct A as (-> & -> & ->).
  apply some_binds in Bi. destruct Bi as [(t0 & E & _)|(t0 & E & ->)]; [discriminate|]. injection E as <-.
  apply X in Ha; auto; [|reflexivity]. destruct Ha as (-> & ->). apply unit_inv in Hb. destruct Hb as (-> & _ & ->). split; [reflexivity|]. cbn [app]. rewrite out_cons, join_same. apply out_same.
Qed.
Lemma field_inv G f ty e' T G' fs : ti_decl t = DStruct fs -> NoDup (map fst fs) -> In (f, ty) fs -> var G "self" (YRef (YNamed self)) -> place self r G (EField (EVar "self") f) e' T G' ->
  e' = EField (EVar "self") f /\ T = up ty /\ G' = G.
Proof.
  intros Ed Nd I V H.
  assert (X : forall e1 T1 G1 id, place self r G (EVar "self") e1 T1 G1 -> derefs T1 (YNamed id) -> e1 = EVar "self" /\ G1 = G /\ id = self).
  { intros e1 T1 G1 id P D. apply place_var_inv in P. destruct P as (-> & V' & ->). pose proof (var_fun _ _ _ _ V V') as <-. inversion D; subst. match goal with K : derefs (YNamed _) _ |- _ => apply derefs_named in K; injection K as -> end. auto. }
  inversion H; subst; [..|discriminate].
  - match goal with P : TypingSpec.place _ _ _ _ _ _ _ _, D : derefs _ _ |- _ => destruct (X _ _ _ _ P D) as (-> & -> & ->) end.
    match goal with K : declared _ _ _ |- _ => apply (declared_item _ _ _ Hh Hl Hd) in K; [|exact It]; rewrite Ed in K; cbn in K; subst end. 
    split; [reflexivity|]. split; [|reflexivity]. f_equal. eapply keys_in; eauto.
  - match goal with P : TypingSpec.place _ _ _ _ _ _ _ _, D : derefs _ _ |- _ => destruct (X _ _ _ _ P D) as (-> & -> & ->) end.
    match goal with K : declared _ _ _ |- _ => apply (declared_item _ _ _ Hh Hl Hd) in K; [|exact It]; rewrite Ed in K; destruct K end.
Qed.
Lemma new_ctx_inv n G ss G' : var G "ctx" Context ->
  stms self r G [untyped_stm (match n with Some n => SLet "ctx" (ECall (PLib "::xsd::Context::new") None [EStr n]) | None => SLet "ctx" (ECall (PLib "::xsd::Context::wrap") None [ERef (v "ctx")]) end)] ss G' ->
  ss = [match n with Some n => SLet "ctx" (ECall (PLib "::xsd::Context::new") None [EStr n]) | None => SLet "ctx" (ECall (PLib "::xsd::Context::wrap") None [ERef (v "ctx")]) end]
  /\ G' = ("ctx", Some Context) :: G.
Proof.
  intros C H. destruct n as [n|]; cbn [untyped_stm untyped map v] in H; apply stms_let_inv in H; destruct H as (e1 & ss1 & T & G1 & -> & A & H);
    apply stms_nil_inv in H; destruct H as (-> & ->); apply function_inv in A; try reflexivity; destruct A as (es1 & ts & F & A & ->); inversion F; subst;
    apply args_one_inv in A; destruct A as (e2 & u2 & t2 & -> & _ & A & _).
  - apply str_inv in A. destruct A as (-> & _ & ->). auto.
  - apply ref_inv in A. destruct A as (e3 & u & -> & _ & P). apply place_var_inv in P. destruct P as (-> & _ & ->). auto.
Qed.
Lemma wf_inv G fs w ss G' : ti_decl t = DStruct fs -> NoDup (map fst fs) -> wf_ok p fs w ->
  var G "self" (YRef (YNamed self)) -> var G "ctx" Context -> var G "writer" Out ->
  stms self r G (map untyped_stm (wf_code w)) ss G' -> ss = wf_code w /\ exists b, fst b = "val" /\ G' = b :: G.
Proof.
  intros Ed Nd (ty & I & X & K) V C W H. unfold wf_code in H |- *. cbn [map untyped_stm] in H. apply stms_let_inv in H. destruct H as (e1 & ss1 & T & G1 & -> & A & H).
  cbn [untyped v] in A. apply ref_inv in A. destruct A as (e2 & u & -> & -> & P). eapply field_inv in P; eauto. destruct P as (-> & -> & ->).
  apply stm_one_inv in H. destruct H as (e3 & T & -> & H & _).
  set (ctx := match wf_new w with Some n => SLet "ctx" (ECall (PLib "::xsd::Context::new") None [EStr n]) | None => SLet "ctx" (ECall (PLib "::xsd::Context::wrap") None [ERef (v "ctx")]) end) in *.
  apply (if_block_inv (wf_opt w) (for_code (wf_vec w) (ctx :: tagged (wf_wrap w) (wx_code (wf_x w)))) (wrap_vec (wf_vec w) ty)) in H; auto; try reflexivity.
  - destruct H as (-> & ->). split; [reflexivity|]. eexists. split; [|reflexivity]. reflexivity.
  - apply for_block_inv. apply in_ctx_inv; auto. intros. now apply new_ctx_inv.
Qed.
Lemma wfs_inv fs ws : ti_decl t = DStruct fs -> NoDup (map fst fs) -> Forall (wf_ok p fs) ws -> forall G ss G',
  var G "self" (YRef (YNamed self)) -> var G "ctx" Context -> var G "writer" Out ->
  stms self r G (map untyped_stm (flat_map wf_code ws)) ss G' -> ss = flat_map wf_code ws /\ exists B, only_val B /\ G' = B ++ G.
Proof.
  intros Ed Nd F. induction F as [|w ws Hw F IH]; intros G ss G' V C W H.
  - apply stms_nil_inv in H. destruct H as (-> & ->). split; [reflexivity|]. exists []. split; [constructor|reflexivity].
  - cbn [flat_map] in H. rewrite map_app in H. apply stms_app_inv in H. destruct H as (s1 & s2 & G1 & -> & A & H). eapply wf_inv in A; eauto. destruct A as (-> & [x o] & Ex & ->). simpl in Ex. subst x.
    apply IH in H; auto. destruct H as (-> & B & O & ->). split; [reflexivity|]. exists (B ++ [("val", o)]). split; [apply Forall_app; split; auto; repeat constructor|now rewrite <- app_assoc].
Qed.
End Write.

Section Attributes.
Variables (items : list pitem) (l : list (root * titem)) (p : program).
Hypothesis Hh : holds items l.
Hypothesis Hl : forall t, In t p <-> In t (map snd l).
Hypothesis Hd : decls_ok p.
Notation val := (val items).
Notation place := (place items).
Notation stms := (stms items).
Variable t : titem.
Hypothesis It : In t p.
Notation self := (ti_id t).

Lemma conv_inv o G a ty e' T G' : var G "val" (YRef (up ty)) -> (wa_fixed a = None -> shown p ty /\ Body.own_type (field_type t (wa_field a)) = Body.own_type (Some ty)) ->
  val self o G (untyped (conv_code t a)) e' T G' -> e' = conv_code t a /\ T = conv_type a /\ G' = G.
Proof.
  intros V Sh H. unfold conv_code, conv_type in *. destruct (wa_fixed a) as [s|]; [cbn [untyped] in H; now apply str_inv in H|].
  destruct (Sh eq_refl) as (S & E). cbn [untyped map v] in H. destruct S as [q|id (t0 & vs & I & <- & D)].
  - eapply prim_to_string_inv in H; eauto. rewrite E. exact H.
  - rewrite E. cbn [Body.own_type]. pose proof H as H0. eapply named_method_inv with (id := ti_id t0) in H; [|exact V|repeat constructor|intros _ (ts & w0 & M); inversion M; match goal with K : displays _ _ |- _ => inversion K end|now right].
    destruct H as (es1 & ts & A & ->). apply args_nil_inv in A. destruct A as (-> & -> & ->). split; [reflexivity|]. split; [|reflexivity].
    apply method_inv in H0. destruct H0 as (e1 & es1 & t1 & u & ts & G1 & _ & _ & A & _ & M).
    destruct M as [M|(id & i & q & s & ts0 & w0 & E1 & M & _)]; [now inversion M|].
    destruct (inherent_in _ _ _ Hh Hl _ _ _ _ M) as (t2 & _ & _ & _ & _ & _ & [K|(K & _)]); [simpl in K; intuition discriminate|discriminate].
Qed.
Lemma set_attr_inv o G n T e' T' G' : var G "ctx" Context -> var G "val" T ->
  val self o G (EMethod (EVar "ctx") None "set_attr" [EStr n; EVar "val"]) e' T' G' ->
  e' = EMethod (EVar "ctx") None "set_attr" [EStr n; EVar "val"] /\ (G' = G \/ G' = moved "val" G).
Proof.
  intros C V H. eapply var_method_inv in H; [|exact C|exact foreign_ctx]. destruct H as (es1 & u & ts & _ & A & -> & _).
  apply args_two_inv in A. destruct A as (e1 & f1 & u1 & t1 & u2 & t2 & G1 & -> & _ & A & _ & B & _). apply str_inv in A. destruct A as (-> & _ & ->).
  apply var_inv in B. destruct B as (-> & _ & [(_ & ->)|(_ & ->)]); auto.
Qed.
Lemma map_inv o G e x b e' T G' : val self o G (EMapped e "map" x b) e' T G' ->
  exists e1 b1 t1 u G2, e' = EMapped e1 "map" x b1 /\ T = YOpt u /\ val self o G e e1 (YOpt t1) G' /\ val self u ((x, Some t1) :: G') b b1 u G2.
Proof. intros H. inversion H; subst. do 5 eexists. split; [reflexivity|]. split; [reflexivity|]. eauto. Qed.
Lemma wa_inv o G fs a ss G' : ti_decl t = DStruct fs -> NoDup (map fst fs) -> wa_ok p fs a ->
  var G "self" (YRef (YNamed self)) -> var G "ctx" Context ->
  stms self o G (map untyped_stm (wa_code t a)) ss G' -> ss = wa_code t a /\ exists B, only_val B /\ G' = B ++ G.
Proof.
  intros Ed Nd (ty & I & Sh) V C H.
  assert (Sh' : wa_fixed a = None -> shown p ty /\ Body.own_type (field_type t (wa_field a)) = Body.own_type (Some ty)).
  { intros F. split; [auto|]. unfold field_type. rewrite Ed, (aget_in _ _ _ Nd I). simpl. destruct (wa_opt a); [reflexivity|]. destruct (Sh F); reflexivity. }
  unfold wa_code in H |- *. fold (conv_code t a) in *. destruct (wa_opt a); cbn [wrap_opt] in I; cbn [map untyped_stm] in H.
  - apply stms_let_inv in H. destruct H as (e1 & ss1 & T & G1 & -> & A & H). cbn [untyped map call v] in A. apply map_inv in A.
    destruct A as (e2 & b2 & t2 & u2 & G2 & -> & -> & A & B). apply method_inv in A. destruct A as (e3 & es3 & t3 & u3 & ts3 & G3 & P & D & A & -> & M).
    eapply field_inv in P; eauto. destruct P as (-> & -> & ->). apply args_nil_inv in A. destruct A as (-> & -> & ->). cbn [up] in D. inversion D; subst u3.
    destruct M as [M|(id & i & q & s & ts0 & w0 & E & _)]; [|discriminate]. inversion M; subst. clear M D.
    apply block_one_inv in B. destruct B as (e4 & G4 & -> & B & ->). eapply conv_inv in B; [|reflexivity|exact Sh']. destruct B as (-> & -> & ->).
    set (G1 := ("val", Some (YOpt (conv_type a))) :: G) in *. apply stm_one_inv in H. destruct H as (e5 & T & -> & H & _). cbn [untyped map call v] in H. apply if_let_inv in H.
    destruct H as (x1 & a1 & b1 & u & B & G3 & G4 & G5 & -> & A & Bi & Ha & Hb & ->). apply var_inv in A. destruct A as (-> & V1 & M). injection V1 as <-.
    assert (X : exists o, G3 = ("val", o) :: G) by (destruct M as [(_ & ->)|(_ & ->)]; eexists; reflexivity). destruct X as (o3 & ->). clear M.
    apply some_binds in Bi. destruct Bi as [(t0 & E & ->)|(t0 & E & _)]; [|discriminate]. injection E as <-. apply unit_inv in Hb. destruct Hb as (-> & _ & ->).
    apply block_one_inv in Ha. destruct Ha as (e6 & G6 & -> & Ha & ->). eapply set_attr_inv in Ha; [|exact C|reflexivity]. destruct Ha as (-> & M).
    split; [reflexivity|]. exists [("val", o3)]. split; [repeat constructor|].
    assert (X : exists o, G6 = [("val", o)] ++ ("val", o3) :: G) by (destruct M as [->| ->]; eexists; reflexivity). destruct X as (o6 & ->).
    cbn [app]. replace (out (("val", Some (conv_type a)) :: ("val", o3) :: G) (("val", o6) :: ("val", o3) :: G)) with (("val", o6) :: ("val", o3) :: G) by (unfold out; cbn [length]; now rewrite Nat.sub_diag).
    now rewrite out_cons, join_same.
  - apply stms_let_inv in H. destruct H as (e1 & ss1 & T & G1 & -> & A & H). cbn [untyped v] in A. apply ref_inv in A. destruct A as (e2 & u & -> & -> & P).
    eapply field_inv in P; eauto. destruct P as (-> & -> & ->). apply stms_let_inv in H. destruct H as (e3 & ss3 & T & G1 & -> & A & H).
    eapply conv_inv in A; [|reflexivity|exact Sh']. destruct A as (-> & -> & ->). apply stm_one_inv in H. destruct H as (e5 & T & -> & H & _).
    cbn [untyped map call v] in H. eapply set_attr_inv in H; [|exact C|reflexivity]. destruct H as (-> & M). split; [reflexivity|].
    assert (X : exists o, G' = [("val", o); ("val", Some (YRef (up ty)))] ++ G) by (destruct M as [->| ->]; eexists; reflexivity).
    destruct X as (o6 & ->). eexists. split; [|reflexivity]. repeat constructor.
Qed.
Lemma was_inv o fs ats : ti_decl t = DStruct fs -> NoDup (map fst fs) -> Forall (wa_ok p fs) ats -> forall G ss G',
  var G "self" (YRef (YNamed self)) -> var G "ctx" Context ->
  stms self o G (map untyped_stm (flat_map (wa_code t) ats)) ss G' -> ss = flat_map (wa_code t) ats /\ exists B, only_val B /\ G' = B ++ G.
Proof.
  intros Ed Nd F. induction F as [|w ws Hw F IH]; intros G ss G' V C H.
  - apply stms_nil_inv in H. destruct H as (-> & ->). split; [reflexivity|]. exists []. split; [constructor|reflexivity].
  - cbn [flat_map] in H. rewrite map_app in H. apply stms_app_inv in H. destruct H as (s1 & s2 & G1 & -> & A & H). eapply wa_inv in A; eauto. destruct A as (-> & B1 & O1 & ->).
    apply IH in H; try (apply only_val_var; auto; discriminate). destruct H as (-> & B & O & ->). split; [reflexivity|]. exists (B ++ B1). split; [apply Forall_app; split; auto|now rewrite <- app_assoc].
Qed.

(** ** [to_xml_writer] *)
Lemma arms_env (ms : list (pat * ex)) o G u : (forall m B e' T G1, In m ms -> binds items self (fst m) u B -> val self o (B ++ G) (untyped (snd m)) e' T G1 -> G1 = B ++ G) ->
  forall ms' T G', arms items self o G u (map (fun a => (fst a, untyped (snd a))) ms) ms' T G' -> G' = G.
Proof.
  induction ms as [|[q b] ms IH]; intros X ms' T G' H; cbn [map fst snd] in H; [inversion H|]. destruct ms as [|m ms]; cbn [map] in H.
  - apply arms_one_inv in H. destruct H as (b1 & B & G1 & -> & Bi & K & ->). rewrite (X (q, b) _ _ _ _ (or_introl eq_refl) Bi K). apply out_app.
  - apply arms_cons_inv in H. destruct H as (b1 & ms1 & B & G1 & G2 & -> & Bi & K & A & ->). rewrite (X (q, b) _ _ _ _ (or_introl eq_refl) Bi K), out_app.
    rewrite (IH (fun m0 B0 e0 T0 G0 I0 => X m0 B0 e0 T0 G0 (or_intror I0)) _ _ _ A). apply join_same.
Qed.
Lemma warm_inv o G vs a B e' T G' : ti_decl t = DChoice vs -> NoDup (map fst vs) -> warm_ok p vs a -> var G "ctx" Context -> var G "writer" Out ->
  binds items self (fst (warm_code a)) (YRef (YNamed self)) B -> val self o (B ++ G) (untyped (snd (warm_code a))) e' T G' -> e' = snd (warm_code a) /\ G' = B ++ G.
Proof.
  intros Ed Nd (ty & I & X & K) C W Bi H. unfold warm_code in *. cbn [fst snd] in *. inversion Bi; subst.
  match goal with D : declared _ _ _ |- _ => apply (declared_item _ _ _ Hh Hl Hd) in D; [|exact It]; rewrite Ed in D; cbn in D; subst end.
  match goal with J : In (wm_variant a, ?u) _ |- _ => assert (u = wrap_vec (wm_vec a) ty) by (eapply keys_in; eauto); subst end.
  pose proof (for_block_inv items t o (wm_vec a) (SLet "ctx" (ECall (PLib "::xsd::Context::new") None [EStr (wm_xml a)]) :: tagged (wm_wrap a) (wx_code (wm_x a))) ty) as F.
  apply F in H; auto; try reflexivity. eapply in_ctx_inv; eauto. intros. now apply (new_ctx_inv items t o (Some (wm_xml a))).
Qed.
Lemma write_inv o G ss G' : write_ok p (ti_decl t) (ti_write t) ->
  var G "self" (YRef (YNamed self)) -> var G "ctx" Context -> var G "writer" Out ->
  stms self o G (map untyped_stm (write_code t)) ss G' -> ss = write_code t.
Proof.
  intros Ok V C W H. pose proof (decl_good _ Hd t It) as Dg. unfold write_code in H |- *.
  remember (ti_decl t) as d eqn:Ed. remember (ti_write t) as w eqn:Ew. destruct Ok as [ty b wrap x X K|vs|fs ats wrap b Fa Hb|vs wrap ms In_ F].
  - eapply (tagged_inv items t o wrap G _ (fun G' => exists B, only_val B /\ G' = B ++ after x (("val", Some (YRef (up ty))) :: G))) in H; auto; [tauto| |].
    + intros G1 (B & O & ->) Wr. eapply after_keeps; eauto.
    + intros s1 G1 A. cbn [map untyped_stm] in A. apply stms_let_inv in A. destruct A as (e1 & ss1 & T & G2 & -> & A & A2). cbn [untyped v] in A. apply ref_inv in A.
      destruct A as (e2 & u & -> & -> & P). eapply first_inv in P; eauto. destruct P as (-> & -> & ->). eapply wx_inv in A2; eauto; [|reflexivity]. destruct A2 as (-> & B & O & ->). eauto 6.
  - eapply (tagged_inv items t o true G _ (fun G' => G' = ("val", Some YString) :: G)) in H; auto; [tauto|intros G1 -> _; split; auto|].
    intros s1 G1 A. eapply text_stms_inv; eauto. intros e' T G2 A1. cbn [untyped map v] in A1. pose proof A1 as A0.
    eapply named_method_inv with (id := self) in A1; [|exact V|repeat constructor|intros _ (ts & w0 & M); inversion M; match goal with K : displays _ _ |- _ => inversion K end|now right].
    destruct A1 as (es1 & ts & A1 & ->). apply args_nil_inv in A1. destruct A1 as (-> & -> & ->). split; [reflexivity|]. split; [|reflexivity].
    apply method_inv in A0. destruct A0 as (e1 & es1 & t1 & u & ts & G3 & _ & _ & _ & _ & M).
    destruct M as [M|(id & i & q & s & ts0 & w0 & E1 & M & _)]; [now inversion M|].
    destruct (inherent_in _ _ _ Hh Hl _ _ _ _ M) as (t2 & _ & _ & _ & _ & _ & [K|(K & _)]); [simpl in K; intuition discriminate|discriminate].
  - inversion Dg as [| |fs' M|]; subst fs'. destruct M as (Nd & _). symmetry in Ed. rewrite map_app in H. apply stms_app_inv in H. destruct H as (s1 & s2 & G1 & -> & A & H).
    eapply was_inv in A; eauto. destruct A as (-> & B & O & ->). f_equal.
    assert (V1 : var (B ++ G) "self" (YRef (YNamed self))) by (apply only_val_var; auto; discriminate).
    assert (V2 : var (B ++ G) "ctx" Context) by (apply only_val_var; auto; discriminate).
    assert (V3 : var (B ++ G) "writer" Out) by (apply only_val_var; auto; discriminate).
    destruct b as [|f x|ws]; cbn [wb_code body_ok] in *.
    + eapply (tagged_inv items t o wrap _ _ (fun G' => G' = B ++ G)) in H; auto; [tauto|intros G1 -> _; auto|]. intros s1 G1 A. apply stms_nil_inv in A. tauto.
    + destruct Hb as (ty & I & X & K).
      eapply (tagged_inv items t o wrap _ _ (fun G' => exists B', only_val B' /\ G' = B' ++ after x (("val", Some (YRef (up ty))) :: B ++ G))) in H; auto; [tauto| |].
      * intros G1 (B' & O' & ->) Wr. eapply after_keeps; eauto.
      * intros s1 G1 A. cbn [map untyped_stm] in A. apply stms_let_inv in A. destruct A as (e1 & ss1 & T & G2 & -> & A & A2). cbn [untyped v] in A. apply ref_inv in A.
        destruct A as (e2 & u & -> & -> & P). eapply field_inv in P; eauto. destruct P as (-> & -> & ->). eapply wx_inv in A2; eauto; [|reflexivity]. destruct A2 as (-> & B' & O' & ->). eauto 6.
    + eapply (tagged_inv items t o wrap _ _ (fun G' => exists B', only_val B' /\ G' = B' ++ B ++ G)) in H; auto; [tauto| |].
      * intros G1 (B' & O' & ->) _. split; apply only_val_var; auto; discriminate.
      * intros s1 G1 A. eapply wfs_inv in A; eauto.
  - inversion Dg as [| | |vs' Ne M]; subst vs'. symmetry in Ed. eapply (tagged_inv items t o wrap _ _ (fun G' => wrap = true -> G' = G)) in H; auto; [tauto| |].
    + intros G1 E Wr. rewrite (E Wr). auto.
    + intros s1 G1 A. cbn [map untyped_stm] in A. apply stm_one_inv in A. destruct A as (e5 & T & -> & A & _). cbn [untyped v] in A. apply match_inv in A.
      destruct A as (e2 & ms1 & u2 & G2 & -> & A & _ & B). eapply copied in A; [|exact V|constructor]. destruct A as (-> & -> & ->).
      assert (X : forall m B e' T G1, In m (map warm_code ms) -> binds items self (fst m) (YRef (YNamed self)) B -> val self o (B ++ G) (untyped (snd m)) e' T G1 -> e' = snd m /\ G1 = B ++ G).
      { intros m B0 e' T0 G3 I Bi A. apply in_map_iff in I. destruct I as (a & <- & I). rewrite Forall_forall in F. destruct M. eapply warm_inv; eauto. }
      rewrite (arms_same _ _ _ _ _ _ (fun m B0 e' T0 G3 I Bi A => proj1 (X m B0 e' T0 G3 I Bi A)) _ _ _ B). split; [reflexivity|]. intros _.
      eapply arms_env; eauto. intros m B0 e' T0 G3 I Bi A. now destruct (X m B0 e' T0 G3 I Bi A).
Qed.
Lemma ns_inv_stms o G nss ss G' : var G "ctx" Context -> stms self o G (map untyped_stm (map ns_stm nss)) ss G' -> ss = map ns_stm nss /\ G' = G.
Proof.
  intros C. revert ss. induction nss as [|d nss IH]; intros ss H; [now apply stms_nil_inv in H|]. cbn [map] in H |- *.
  assert (X : exists e1 ss1 T G1, ss = SExpr e1 :: ss1 /\ SExpr e1 = ns_stm d /\ G1 = G /\ stms self o G1 (map untyped_stm (map ns_stm nss)) ss1 G' /\ T = YUnit).
  { unfold ns_stm at 1 in H. unfold ns_stm at 1. destruct (is_empty (fst d)); cbn [untyped_stm untyped call map v] in H; apply stms_expr_inv in H; destruct H as (e1 & ss1 & T & G1 & -> & A & _ & H0);
      (eapply var_method_inv in A; [|exact C|exact foreign_ctx]); destruct A as (es1 & u & ts & _ & A & -> & _).
    - apply args_one_inv in A. destruct A as (e3 & u3 & t3 & -> & _ & A & _). apply str_inv in A. destruct A as (-> & _ & ->). eauto 10.
    - apply args_two_inv in A. destruct A as (e3 & f3 & u3 & t3 & u4 & t4 & G3 & -> & _ & A & _ & B & _). apply str_inv in A. destruct A as (-> & _ & ->). apply str_inv in B. destruct B as (-> & _ & ->). eauto 10. }
  clear H. destruct X as (e1 & ss1 & T & G1 & -> & E & -> & H & _). apply IH in H. destruct H as (-> & ->). now rewrite E.
Qed.
Lemma writer_inv o G e' u G' : write_ok p (ti_decl t) (ti_write t) ->
  var G "self" (YRef (YNamed self)) -> var G "ctx" Context -> var G "writer" Out ->
  val self o G (untyped (writer_code t)) e' u G' -> e' = writer_code t.
Proof.
  intros Ok V C W H. unfold writer_code in H |- *. rewrite untyped_block in H. rewrite map_app in H. apply block_inv in H. destruct H as (ss1 & e1 & G1 & G2 & -> & H & K & _).
  apply stms_app_inv in H. destruct H as (s1 & s2 & G3 & -> & A & B). apply ns_inv_stms in A; [|exact C]. destruct A as (-> & ->). apply write_inv in B; auto. subst s2. f_equal.
  cbn [untyped map] in K. eapply ok_inv in K; eauto. destruct K as (e2 & u2 & t2 & w & -> & _ & K & _). apply unit_inv in K. now destruct K as (-> & _).
Qed.

(** ** [to_xml] *)
Lemma lib_call_inv o G e m es e' w G' (T : typ) : is_place e = false -> foreign T -> (forall e1 T1 G1, val self o G e e1 T1 G1 -> T1 = T) ->
  val self o G (EMethod e None m es) e' w G' ->
  exists e1 es1 u ts G1, val self o G e e1 T G1 /\ derefs T u /\ args items self o G1 es es1 ts G' /\ e' = call e1 m es1 /\ method_of items u m ts w.
Proof.
  intros P F X H. apply lib_method_inv in H.
  2:{ intros e1 T1 G1 K. apply place_val_inv in K; [|exact P]. now rewrite (X _ _ _ K). }
  destruct H as (e1 & es1 & t1 & u & ts & G1 & K & D & A & -> & M). apply place_val_inv in K; [|exact P]. pose proof (X _ _ _ K) as ->. eauto 10.
Qed.
Lemma foreign_config : foreign EmitterConfig.
Proof. intros id D. inversion D. Qed.
Lemma config_inv o G e' T G' : val self o G (ECall (PLib "::xsd::xml::writer::EmitterConfig::new") None []) e' T G' ->
  e' = ECall (PLib "::xsd::xml::writer::EmitterConfig::new") None [] /\ T = EmitterConfig /\ G' = G.
Proof. intros H. apply function_inv in H; [|reflexivity]. destruct H as (es1 & ts & F & A & ->). inversion F; subst. apply args_nil_inv in A. destruct A as (-> & _ & ->). auto. Qed.
Lemma indent_inv o G e' T G' : val self o G (EMethod (ECall (PLib "::xsd::xml::writer::EmitterConfig::new") None []) None "perform_indent" [EBool true]) e' T G' ->
  e' = call (ECall (PLib "::xsd::xml::writer::EmitterConfig::new") None []) "perform_indent" [EBool true] /\ T = EmitterConfig /\ G' = G.
Proof.
  intros H. apply (lib_call_inv _ _ _ _ _ _ _ _ EmitterConfig) in H; [|reflexivity|exact foreign_config|intros; now apply config_inv in H0].
  destruct H as (e1 & es1 & u & ts & G1 & A & D & B & -> & M). apply config_inv in A. destruct A as (-> & _ & ->). apply derefs_lib in D. subst u.
  apply args_one_inv in B. destruct B as (e2 & u2 & t2 & -> & -> & B & _). inversion B; subst. inversion M; subst. auto.
Qed.
Lemma to_xml_inv o G e' u G' : var G "self" (YRef (YNamed self)) -> val self o G (untyped (to_xml_code t)) e' u G' -> e' = to_xml_code t.
Proof.
  intros V H. unfold to_xml_code in H |- *. rewrite untyped_block in H. cbn [map untyped_stm] in H. apply block_inv in H. destruct H as (ss1 & e1 & G1 & G2 & -> & H & K & _).
  apply stms_let_inv in H. destruct H as (b & ss2 & T & G3 & -> & A & H). cbn [untyped map] in A. eapply vec_new_inv in A; eauto. destruct A as (-> & (tb & ->) & ->).
  set (G3 := ("body", Some (YVec tb)) :: G) in *. apply stms_let_inv in H. destruct H as (w & ss3 & T & G4 & -> & A & H). cbn [untyped map call v] in A.
  apply (lib_call_inv _ _ _ _ _ _ _ _ EmitterConfig) in A; [|reflexivity|exact foreign_config|intros; now apply indent_inv in H0].
  destruct A as (e2 & es2 & u2 & ts2 & G5 & A & D & B & -> & M). apply indent_inv in A. destruct A as (-> & _ & ->). apply derefs_lib in D. subst u2.
  apply args_one_inv in B. destruct B as (e3 & u3 & t3 & -> & -> & B & C3). apply ref_inv in B. destruct B as (e4 & u4 & -> & -> & P). apply place_var_inv in P. destruct P as (-> & _ & ->).
  inversion M; subst T. clear M C3.
  match goal with _ : stms _ _ (("writer", Some (YWriter ?w)) :: _) _ _ _ |- _ => set (Wt := w) in * end.
  set (G4 := ("writer", Some (YWriter Wt)) :: G3) in *.
  apply stms_expr_inv in H. destruct H as (e5 & ss4 & T & G5 & -> & A & _ & H). cbn [untyped map call v] in A. apply try_inv in A. destruct A as (e6 & w6 & a6 & b6 & -> & _ & A & _).
  eapply (var_method_inv _ _ _ G4) in A; [|reflexivity|intros id D; inversion D]. destruct A as (es6 & u6 & ts6 & _ & A & -> & _).
  apply args_one_inv in A. destruct A as (e7 & u7 & t7 & -> & _ & A & _). cbn [untyped map fst snd] in A. apply lib_struct_inv in A. destruct A as (ds & fs & ts7 & _ & A & _ & ->).
  apply fields_cons_inv in A. destruct A as (f1 & fs1 & x1 & y1 & ts8 & G6 & -> & _ & F1 & _ & A). inversion F1; subst f1 G6. clear F1.
  apply fields_cons_inv in A. destruct A as (f2 & fs2 & x2 & y2 & ts9 & G7 & -> & _ & F2 & _ & A). cbn [untyped map some] in F2. eapply some_inv in F2; eauto.
  destruct F2 as (e8 & u8 & t8 & -> & _ & F2 & _). apply str_inv in F2. destruct F2 as (-> & _ & ->).
  apply fields_cons_inv in A. destruct A as (f3 & fs3 & x3 & y3 & ts10 & G8 & -> & _ & F3 & _ & A). change (untyped none) with none in F3. apply none_inv in F3. destruct F3 as (-> & _ & ->).
  apply fields_nil_inv in A. destruct A as (-> & _ & ->).
  apply stms_let_inv in H. destruct H as (c & ss5 & T9 & G9 & -> & A & H). cbn [untyped map] in A. apply function_inv in A; [|reflexivity]. destruct A as (es9 & ts11 & F & A & ->). inversion F; subst.
  apply args_one_inv in A. destruct A as (e9 & u9 & t9 & -> & _ & A & _). apply str_inv in A. destruct A as (-> & _ & ->).
  apply stm_one_inv in H. destruct H as (e10 & T10 & -> & H & _). cbn [untyped map v] in H. apply try_inv in H. destruct H as (e11 & w11 & a11 & b11 & -> & _ & H & _).
  eapply named_method_inv with (id := self) in H; [|exact V|repeat constructor|intros _ (ts & w0 & M); inversion M|now right]. destruct H as (es1 & ts & A & ->).
  apply args_two_inv in A. destruct A as (e12 & f12 & u12 & t12 & u13 & t13 & G12 & -> & _ & A & _ & B & _). apply var_inv in A. destruct A as (-> & _ & _).
  apply ref_inv in B. destruct B as (e14 & u14 & -> & _ & P). apply place_var_inv in P. destruct P as (-> & _ & _). f_equal.
  cbn [untyped map v] in K. eapply ok_inv in K; eauto. destruct K as (e15 & u15 & t15 & w15 & -> & _ & K & _). apply var_inv in K. now destruct K as (-> & _).
Qed.
End Attributes.
