(** * BodyWrite: the generated writers, run as Rust, do what Run.v says *)
From Verif Require Import Base Libs Xml Ast Decode Writer Gen Run RustSpec Rust Body RustRules BodySpec BodyRead.
From Coq Require Import Lia.

(** ** The heap *)
(** [ev] has been written; the contexts are as before. *)
Definition kept (ev : list wevent) (s s' : state) : Prop :=
  (forall k m, nth_error (s_inners s) k = Some m -> nth_error (s_inners s') k = Some m)
  /\ s_nodes s' = s_nodes s /\ s_out s' = s_out s ++ ev /\ s_text s' = s_text s.
(** ... except for the one at [l], which is [i] now. *)
Definition wrote (l : nat) (i : inner) (ev : list wevent) (s s' : state) : Prop :=
  nth_error (s_inners s') l = Some i
  /\ (forall k m, k <> l -> nth_error (s_inners s) k = Some m -> nth_error (s_inners s') k = Some m)
  /\ s_nodes s' = s_nodes s /\ s_out s' = s_out s ++ ev /\ s_text s' = s_text s.

Lemma kept_wrote l i ev s s' : nth_error (s_inners s) l = Some i -> kept ev s s' -> wrote l i ev s s'.
Proof. intros H (A & B & C & D). repeat split; auto. Qed.
Lemma wrote_trans l i1 i2 e1 e2 s s1 s2 : wrote l i1 e1 s s1 -> wrote l i2 e2 s1 s2 -> wrote l i2 (e1 ++ e2) s s2.
Proof.
  intros (A1 & B1 & C1 & D1 & E1) (A2 & B2 & C2 & D2 & E2). repeat split; auto; try congruence.
  now rewrite D2, D1, app_assoc.
Qed.
Lemma kept_trans e1 e2 s s1 s2 : kept e1 s s1 -> kept e2 s1 s2 -> kept (e1 ++ e2) s s2.
Proof.
  intros (A1 & C1 & D1 & E1) (A2 & C2 & D2 & E2). repeat split; auto; try congruence. now rewrite D2, D1, app_assoc.
Qed.
Lemma kept_refl s : kept [] s s.
Proof. repeat split; auto. now rewrite app_nil_r. Qed.
Lemma wrote_refl l i s : nth_error (s_inners s) l = Some i -> wrote l i [] s s.
Proof. intros H. apply kept_wrote; auto. apply kept_refl. Qed.
Lemma kept_put ev s : kept ev s (put ev s).
Proof. repeat split; auto. Qed.
Lemma wrote_set l i ev i0 s : nth_error (s_inners s) l = Some i0 -> wrote l i ev s (put ev (set_inner l i s)).
Proof.
  intros H. repeat split; simpl.
  - apply set_nth_same. eapply nth_lt; eauto.
  - intros k m Hk Hm. now rewrite set_nth_other.
Qed.
Lemma wrote_set0 l i i0 s : nth_error (s_inners s) l = Some i0 -> wrote l i [] s (set_inner l i s).
Proof.
  intros H. repeat split; simpl.
  - apply set_nth_same. eapply nth_lt; eauto.
  - intros k m Hk Hm. now rewrite set_nth_other.
  - now rewrite app_nil_r.
Qed.
(** Work on a new context. *)
Lemma new_kept i s : nth_error (s_inners (snd (new_inner i s))) (length (s_inners s)) = Some i
  /\ forall i' ev s2, wrote (length (s_inners s)) i' ev (snd (new_inner i s)) s2 -> kept ev s s2.
Proof.
  split.
  - simpl. rewrite nth_error_app2 by lia. now rewrite Nat.sub_diag.
  - intros i' ev s2 (A & B & C & D & F). repeat split; auto. intros k m Hm. pose proof (nth_lt _ _ _ Hm).
    apply B; [lia|]. simpl. now rewrite nth_error_app1.
Qed.

Section Write.
Context {L : Libs}.
Variable p : program.
Hypothesis OK : rust_ok p.
Notation fns := (module_fn p).

Section Self.
Variable self : string.
Notation evals := (evals p fns self).
Notation stms_to := (stms_to p fns self).

Variable callw : string -> value -> wctx -> W (list event * inner).
Hypothesis Hcall : forall id w c ev i s l, callw id w c = Ok (ev, i) -> nth_error (s_inners s) l = Some (wc_inner c) ->
  exists s', fn_to p fns id "to_xml_writer" [D w; Cx (wc_virtual c) l; Wr] s (ROk (D VUnit)) s' /\ wrote l i (map WEv ev) s s'.

(** [ctx] and [writer]. *)
Definition env_ok (E : env) (virt : bool) (l : nat) : Prop :=
  aget String.eqb "ctx" E = Some (Cx virt l) /\ aget String.eqb "writer" E = Some Wr.
(** Bindings of [val] only. *)
Definition vals (B : env) : Prop := Forall (fun b => fst b = "val") B.
Lemma vals_get B E x : vals B -> x <> "val" -> aget String.eqb x (B ++ E) = aget String.eqb x E.
Proof.
  intros V N. induction V as [|[y r] B H _ IH]; [reflexivity|]. simpl in H. subst y. cbn [app aget].
  destruct (String.eqb_spec x "val"); [contradiction|exact IH].
Qed.
Lemma vals_env B E virt l : vals B -> env_ok E virt l -> env_ok (B ++ E) virt l.
Proof. intros V [A C]. split; rewrite vals_get; auto; discriminate. Qed.

(** ** Tags and text *)
Lemma start_writes E s l c : env_ok E (wc_virtual c) l -> nth_error (s_inners s) l = Some (wc_inner c) ->
  exists s', stms_to [start_tag] E s E s' /\ wrote l (wc_inner (snd (write_start_element c))) (map WEv (fst (write_start_element c))) s s'.
Proof.
  intros [Hc Hw] Hl. destruct c as [virt i]. cbn [wc_virtual wc_inner] in *.
  destruct (write_start_element (mkWctx virt i)) as [ev c'] eqn:Ew. cbn [fst snd].
  exists (put (map WEv ev) (set_inner l (wc_inner c') s)). split; [|eapply wrote_set; eauto].
  eapply st_expr; [|apply st_nil]. apply ev_try. eapply ev_method; [apply ev_var; exact Hc|apply args_one, ev_var; exact Hw|discriminate|].
  unfold lib_method, context_method. rewrite Hl. cbn -[write_start_element]. rewrite Ew. reflexivity.
Qed.
Lemma end_writes E s l virt i : env_ok E virt l -> nth_error (s_inners s) l = Some i ->
  exists s', stms_to [end_tag] E s E s' /\ wrote l i (map WEv (write_end_element (mkWctx virt i))) s s'.
Proof.
  intros [Hc Hw] Hl. eexists. split.
  - eapply st_expr; [|apply st_nil]. apply ev_try. eapply ev_method; [apply ev_var; exact Hc|apply args_one, ev_var; exact Hw|discriminate|].
    unfold lib_method, context_method. rewrite Hl. reflexivity.
  - apply kept_wrote; auto. apply kept_put.
Qed.
Lemma start_virtual c : wc_virtual (snd (write_start_element c)) = wc_virtual c.
Proof. unfold write_start_element. destruct (wc_virtual c) eqn:E; simpl; auto. Qed.

Lemma tagged_writes wrap E s l c stms body ev i : env_ok E (wc_virtual c) l -> nth_error (s_inners s) l = Some (wc_inner c) ->
  wrapped wrap c body = Ok (ev, i) ->
  (forall c' ev i s, wc_virtual c' = wc_virtual c -> nth_error (s_inners s) l = Some (wc_inner c') -> body c' = Ok (ev, i) ->
     exists B s', vals B /\ stms_to stms E s (B ++ E) s' /\ wrote l i (map WEv ev) s s') ->
  exists B s', vals B /\ stms_to (tagged wrap stms) E s (B ++ E) s' /\ wrote l i (map WEv ev) s s'.
Proof.
  intros He Hl Hw Hb. unfold wrapped in Hw. unfold tagged. destruct wrap; [|eauto].
  destruct (start_writes E s l c He Hl) as (s1 & H1 & W1). pose proof (start_virtual c) as Vt.
  destruct (write_start_element c) as [e0 c1]. cbn [fst snd] in *.
  destruct (body c1) as [[e1 i1]| | |] eqn:Eb; try discriminate. cbn [bind] in Hw. injection Hw as <- <-.
  destruct (Hb c1 e1 i1 s1 Vt (proj1 W1) Eb) as (B & s2 & VB & H2 & W2).
  destruct (end_writes (B ++ E) s2 l (wc_virtual c) i1 (vals_env _ _ _ _ VB He) (proj1 W2)) as (s3 & H3 & W3).
  exists B, s3. split; auto. split.
  - change (start_tag :: stms ++ [end_tag]) with ([start_tag] ++ stms ++ [end_tag]).
    eapply st_app; [exact H1|]. eapply st_app; [exact H2|exact H3].
  - rewrite !map_app. unfold ctx_unwrap. rewrite Vt. eapply wrote_trans; [exact W1|]. eapply wrote_trans; [exact W2|exact W3].
Qed.

Lemma characters_writes E s e t E1 : aget String.eqb "writer" E = Some Wr -> evals e E s (Val (D (VStr t)) E1 s) ->
  stms_to [characters e] E s E1 (put [WEv (EvChars t)] s).
Proof.
  intros Hw He. eapply st_expr; [|apply st_nil]. apply ev_try. eapply ev_method; [apply ev_var; exact Hw| |discriminate|].
  { apply args_one. eapply ev_call_lib; [apply args_one; exact He|discriminate|]. reflexivity. }
  reflexivity.
Qed.
Lemma text_writes E s e t : aget String.eqb "writer" E = Some Wr -> evals e E s (Val (D (VStr t)) E s) ->
  exists s', stms_to (text_stms e) E s (("val", D (VStr t)) :: E) s' /\ kept (map WEv (if is_empty t then [] else [EvChars t])) s s'.
Proof.
  intros Hw He. set (E1 := ("val", D (VStr t)) :: E).
  assert (Em : evals (ENot (call (v "val") "is_empty" [])) E1 s (Val (D (VBool (negb (is_empty t)))) E1 s)).
  { apply ev_not. eapply ev_method; [apply ev_var; reflexivity|apply args_nil|discriminate|reflexivity]. }
  unfold text_stms. destruct (is_empty t); cbn [negb] in Em.
  - exists s. split; [|apply kept_refl]. eapply st_let; [exact He|]. eapply st_expr; [|apply st_nil].
    eapply ev_if; [exact Em|]. apply ev_unit.
  - exists (put [WEv (EvChars t)] s). split; [|apply kept_put]. eapply st_let; [exact He|]. eapply st_expr; [|apply st_nil].
    eapply ev_if; [exact Em|]. apply (ev_unit_block _ _ []); [|reflexivity]. apply characters_writes; auto. apply ev_ref, ev_var. reflexivity.
Qed.

(** ** Contents *)
Lemma wx_writes x w c E s l ev i : env_ok E (wc_virtual c) l -> aget String.eqb "val" E = Some (D w) ->
  nth_error (s_inners s) l = Some (wc_inner c) -> write_wx callw x w c = Ok (ev, i) ->
  exists B s', vals B /\ stms_to (wx_code x) E s (B ++ E) s' /\ wrote l i (map WEv ev) s s'.
Proof.
  intros He Hv Hl Hx. destruct x as [|t|id]; cbn [write_wx wx_code] in *.
  - destruct (value_to_string w) as [t|] eqn:Et; [|discriminate]. injection Hx as <- <-.
    destruct (text_writes E s (str_of (v "val")) t (proj2 He)) as (s' & H & K).
    { eapply ev_method; [apply ev_var; exact Hv|apply args_nil|discriminate|].
      destruct w; try discriminate; cbn in Et |- *; injection Et as <-; reflexivity. }
    exists [("val", D (VStr t))], s'. split; [repeat constructor|]. split; auto. now apply kept_wrote.
  - injection Hx as <- <-. exists [], (put [WEv (EvChars t)] s). split; [constructor|]. split.
    + apply characters_writes; [apply He|apply ev_str].
    + apply kept_wrote; auto. apply kept_put.
  - destruct (Hcall id w c ev i s l Hx Hl) as (s' & H & Hw). exists [], s'. split; [constructor|]. split; auto.
    eapply st_expr; [|apply st_nil]. apply ev_try. eapply ev_method_fn; [apply ev_var; exact Hv| |discriminate|exact H].
    destruct He. eapply args_cons; [apply ev_var; eassumption|]. apply args_one, ev_var. assumption.
Qed.

(** Around a content, in a new context. *)
Lemma new_writes wrap x w n E s virt l ev i : env_ok E virt l -> aget String.eqb "val" E = Some (D w) ->
  wrapped wrap (ctx_create n) (write_wx callw x w) = Ok (ev, i) ->
  exists B s', stms_to (SLet "ctx" (ECall (PLib "::xsd::Context::new") None [EStr n]) :: tagged wrap (wx_code x)) E s (B ++ E) s'
    /\ kept (map WEv ev) s s'.
Proof.
  intros He Hv Hx. destruct (new_kept (mkInner n [] []) s) as [Hn Kn]. set (s1 := snd (new_inner (mkInner n [] []) s)) in *.
  set (E1 := ("ctx", Cx false (length (s_inners s))) :: E).
  assert (He1 : env_ok E1 (wc_virtual (ctx_create n)) (length (s_inners s))) by (split; [reflexivity|apply He]).
  edestruct (tagged_writes wrap E1 s1 _ (ctx_create n) (wx_code x) (write_wx callw x w) ev i He1 Hn Hx) as (B & s2 & VB & H2 & W2).
  { intros c' ev' i' s' Vt Hl' Hx'. rewrite <- Vt in He1. eapply wx_writes; eauto. }
  exists (B ++ [("ctx", Cx false (length (s_inners s)))]), s2. split; [|eauto].
  rewrite <- app_assoc. eapply st_let; [|exact H2]. eapply ev_call_lib; [apply args_one, ev_str|discriminate|reflexivity].
Qed.

(** ** Fields *)
Lemma leaf_one_wrapped w x c : write_leaf_one callw w x c =
  match wf_new w with
  | Some n => '(ev, _) <- wrapped (wf_wrap w) (ctx_create n) (write_wx callw (wf_x w) x) ;; Ok (ev, c)
  | None => '(ev, i) <- wrapped (wf_wrap w) (ctx_wrap c) (write_wx callw (wf_x w) x) ;; Ok (ev, ctx_unwrap c i)
  end.
Proof.
  unfold write_leaf_one, wrapped. destruct (wf_new w); destruct (wf_wrap w); auto;
    destruct (write_start_element _) as [e0 c1]; destruct (write_wx callw (wf_x w) x c1) as [[]| | |]; reflexivity.
Qed.
Definition leaf_stms (w : wf) : list stm :=
  match wf_new w with
  | Some n => SLet "ctx" (ECall (PLib "::xsd::Context::new") None [EStr n])
  | None => SLet "ctx" (ECall (PLib "::xsd::Context::wrap") None [ERef (v "ctx")])
  end :: tagged (wf_wrap w) (wx_code (wf_x w)).
Lemma leaf_one_writes w x c c' E s l ev : env_ok E (wc_virtual c) l -> aget String.eqb "val" E = Some (D x) ->
  nth_error (s_inners s) l = Some (wc_inner c) -> write_leaf_one callw w x c = Ok (ev, c') ->
  wc_virtual c' = wc_virtual c /\ exists B s', stms_to (leaf_stms w) E s (B ++ E) s' /\ wrote l (wc_inner c') (map WEv ev) s s'.
Proof.
  intros He Hv Hl Hx. rewrite leaf_one_wrapped in Hx. unfold leaf_stms. destruct (wf_new w) as [n|].
  - destruct (wrapped (wf_wrap w) (ctx_create n) (write_wx callw (wf_x w) x)) as [[ev0 i]| | |] eqn:Ew; try discriminate.
    injection Hx as <- <-. split; auto. destruct (new_writes _ _ _ _ _ s _ _ _ _ He Hv Ew) as (B & s' & H & K).
    exists B, s'. split; auto. now apply kept_wrote.
  - destruct (wrapped (wf_wrap w) (ctx_wrap c) (write_wx callw (wf_x w) x)) as [[ev0 i]| | |] eqn:Ew; try discriminate.
    injection Hx as <- <-. split; auto. set (E1 := ("ctx", Cx true l) :: E).
    assert (He1 : env_ok E1 (wc_virtual (ctx_wrap c)) l) by (split; [reflexivity|apply He]).
    edestruct (tagged_writes (wf_wrap w) E1 s l (ctx_wrap c) (wx_code (wf_x w)) (write_wx callw (wf_x w) x) ev0 i He1 Hl Ew) as (B & s2 & VB & H2 & W2).
    { intros c1 ev' i' s' Vt Hl' Hx'. rewrite <- Vt in He1. eapply wx_writes; eauto. }
    exists (B ++ [("ctx", Cx true l)]), s2. split; [|exact W2].
    rewrite <- app_assoc. eapply st_let; [|exact H2]. eapply ev_call_lib; [apply args_one, ev_ref, ev_var, He|discriminate|reflexivity].
Qed.

Lemma each_writes w vs : forall c c' E s l ev, env_ok E (wc_virtual c) l -> aget String.eqb "val" E = Some (D (VVec vs)) ->
  nth_error (s_inners s) l = Some (wc_inner c) -> write_each callw w vs c = Ok (ev, c') ->
  wc_virtual c' = wc_virtual c /\
  exists s', evals (EFor "val" (v "val") (unit_block (leaf_stms w))) E s (Val (D VUnit) E s') /\ wrote l (wc_inner c') (map WEv ev) s s'.
Proof.
  intros c c' E s l ev He Hv Hl Hx.
  set (St := fun rest s1 => exists c1 e1 e2, wc_virtual c1 = wc_virtual c /\ write_each callw w rest c1 = Ok (e2, c')
    /\ ev = e1 ++ e2 /\ wrote l (wc_inner c1) (map WEv e1) s s1).
  assert (S0 : St vs s). { exists c, [], ev. split; auto. split; auto. split; auto. now apply wrote_refl. }
  destruct (ev_for p fns self "val" (v "val") (unit_block (leaf_stms w)) E s vs E s St) as (s' & H & St'); auto.
  - now apply ev_var.
  - intros y rest s1 (c1 & e1 & e2 & V1 & W1 & -> & K1). cbn [write_each] in W1.
    destruct (write_leaf_one callw w y c1) as [[e3 c2]| | |] eqn:E1; try discriminate. cbn [bind] in W1.
    destruct (write_each callw w rest c2) as [[e4 c3]| | |] eqn:E2; try discriminate. cbn [bind] in W1. injection W1 as <- <-.
    assert (He1 : env_ok (("val", D y) :: E) (wc_virtual c1) l) by (rewrite V1; exact He).
    destruct (leaf_one_writes w y c1 c2 (("val", D y) :: E) s1 l e3 He1 eq_refl (proj1 K1) E1) as (V2 & B & s2 & H2 & K2).
    exists (D VUnit), s2. split; [eapply ev_unit_block; [exact H2|reflexivity]|].
    exists c2, (e1 ++ e3), e4. split; [congruence|]. split; auto. split; [now rewrite app_assoc|]. rewrite map_app. eapply wrote_trans; eauto.
  - destruct St' as (c1 & e1 & e2 & V1 & W1 & -> & K1). cbn [write_each] in W1. injection W1 as <- <-. split; auto.
    exists s'. split; auto. now rewrite app_nil_r.
Qed.

Lemma wf_code_leaf w : wf_code w =
  [SLet "val" (ERef (EField (v "self") (wf_field w)));
   SExpr (unit_block
     (let tn := if wf_vec w then [SExpr (EFor "val" (v "val") (unit_block (leaf_stms w)))] else leaf_stms w in
      if wf_opt w then [SExpr (EIfLet (PSome "val") (v "val") (unit_block tn) EUnit)] else tn))].
Proof. reflexivity. Qed.

Lemma leaf_writes w self_v c c' E s l ev : env_ok E (wc_virtual c) l -> aget String.eqb "self" E = Some (D self_v) ->
  nth_error (s_inners s) l = Some (wc_inner c) -> write_leaf callw w self_v c = Ok (ev, c') ->
  wc_virtual c' = wc_virtual c /\ exists B s', vals B /\ stms_to (wf_code w) E s (B ++ E) s' /\ wrote l (wc_inner c') (map WEv ev) s s'.
Proof.
  intros He Hs Hl Hx. rewrite wf_code_leaf. unfold write_leaf, vfield in Hx. destruct self_v as [| | | | | | | | | | |fs|]; try discriminate.
  destruct (aget String.eqb (wf_field w) fs) as [x|] eqn:Ef; [|discriminate]. cbn [bind] in Hx.
  assert (Hf : forall s, evals (ERef (EField (v "self") (wf_field w))) E s (Val (D x) E s)).
  { intros s0. apply ev_ref. eapply ev_field; [apply ev_var; exact Hs|exact Ef]. }
  (* the part without the option *)
  assert (In1 : forall y E ev c', env_ok E (wc_virtual c) l -> aget String.eqb "val" E = Some (D y) ->
    (if wf_vec w then match y with VVec vs => write_each callw w vs c | _ => Panic "not a Vec" end else write_leaf_one callw w y c) = Ok (ev, c') ->
    wc_virtual c' = wc_virtual c /\ exists B s',
      stms_to (if wf_vec w then [SExpr (EFor "val" (v "val") (unit_block (leaf_stms w)))] else leaf_stms w) E s (B ++ E) s'
      /\ wrote l (wc_inner c') (map WEv ev) s s').
  { clear - Hl OK Hcall. intros y E ev c' He Hv Hy. destruct (wf_vec w).
    - destruct y; try discriminate. destruct (each_writes w vs c c' E s l ev He Hv Hl Hy) as (V & s' & H & K). split; auto.
      exists [], s'. split; auto. eapply st_expr; [exact H|apply st_nil].
    - eapply leaf_one_writes; eauto. }
  assert (Fin : forall tn s', evals (unit_block tn) (("val", D x) :: E) s (Val (D VUnit) (("val", D x) :: E) s') ->
    stms_to [SLet "val" (ERef (EField (v "self") (wf_field w))); SExpr (unit_block tn)] E s ([("val", D x)] ++ E) s').
  { intros tn s' H. eapply st_let; [apply Hf|]. eapply st_expr; [exact H|apply st_nil]. }
  destruct (wf_opt w).
  - destruct x as [| | | | | | |y| | | | |]; try discriminate.
    + injection Hx as <- <-. split; auto. exists [("val", D VNone)], s. split; [repeat constructor|]. split; [|now apply wrote_refl].
      apply Fin. apply (ev_unit_block _ _ []); [|reflexivity]. eapply st_expr; [|apply st_nil].
      eapply ev_iflet_no; [apply ev_var; reflexivity|reflexivity|apply ev_unit].
    + destruct (In1 y (("val", D y) :: ("val", D (VSome y)) :: E) ev c' He eq_refl Hx) as (V & B & s' & H & K). split; auto.
      exists [("val", D (VSome y))], s'. split; [repeat constructor|]. split; auto.
      apply Fin. apply (ev_unit_block _ _ []); [|reflexivity]. eapply st_expr; [|apply st_nil].
      eapply (ev_iflet_yes _ _ _ _ _ _ _ _ _ _ _ _ _ _ [_]); [apply ev_var; reflexivity|reflexivity| |reflexivity].
      eapply ev_unit_block; [exact H|reflexivity].
  - destruct (In1 x (("val", D x) :: E) ev c' He eq_refl Hx) as (V & B & s' & H & K). split; auto.
    exists [("val", D x)], s'. split; [repeat constructor|]. split; auto. apply Fin. eapply ev_unit_block; [exact H|reflexivity].
Qed.

Lemma leaves_write ws self_v : forall c c' E s l ev, env_ok E (wc_virtual c) l -> aget String.eqb "self" E = Some (D self_v) ->
  nth_error (s_inners s) l = Some (wc_inner c) -> write_leaves callw ws self_v c = Ok (ev, c') ->
  exists B s', vals B /\ stms_to (flat_map wf_code ws) E s (B ++ E) s' /\ wrote l (wc_inner c') (map WEv ev) s s'.
Proof.
  induction ws as [|w ws IH]; intros c c' E s l ev He Hs Hl Hx; cbn [write_leaves flat_map] in *.
  - injection Hx as <- <-. exists [], s. split; [constructor|]. split; [apply st_nil|now apply wrote_refl].
  - destruct (write_leaf callw w self_v c) as [[e1 c1]| | |] eqn:E1; try discriminate. cbn [bind] in Hx.
    destruct (write_leaves callw ws self_v c1) as [[e2 c2]| | |] eqn:E2; try discriminate. cbn [bind] in Hx. injection Hx as <- <-.
    destruct (leaf_writes w self_v c c1 E s l e1 He Hs Hl E1) as (V & B & s1 & VB & H1 & W1).
    destruct (IH c1 c2 (B ++ E) s1 l e2) as (B2 & s2 & VB2 & H2 & W2); auto.
    { rewrite V. now apply vals_env. }
    { rewrite vals_get by (auto; discriminate). exact Hs. }
    { exact (proj1 W1). }
    exists (B2 ++ B), s2. split; [now apply Forall_app|]. split; [rewrite <- app_assoc; eapply st_app; eauto|].
    rewrite map_app. eapply wrote_trans; eauto.
Qed.

(** ** Enumerations *)
Lemma enum_as_str_split vs x t : enum_as_str vs x = Some t ->
  exists l1 l2, vs = l1 ++ (x, t) :: l2 /\ Forall (fun d => (x =?s fst d) = false) l1.
Proof.
  induction vs as [|[y lit] vs IH]; cbn [enum_as_str]; [discriminate|]. destruct (x =?s y) eqn:E; intros H.
  - injection H as <-. apply String.eqb_eq in E as ->. exists [], vs. auto.
  - destruct (IH H) as (l1 & l2 & -> & F). exists ((y, lit) :: l1), l2. auto.
Qed.
Lemma fmt_fn id t vs x y st : lookup_item p id = Some t -> ti_decl t = DEnum vs -> enum_as_str vs x = Some y ->
  fn_to p fns id "fmt" [D (VEnum x); Fm] st (ROk (D VUnit)) (set_text (s_text st +++ y) st).
Proof.
  intros Lk Dt Ev. pose proof (found _ _ _ Lk) as [_ Ei].
  assert (G1 : fns id "as_str" = Some (mkFn ["self"] (enum_as_str_code vs))).
  { unfold module_fn. rewrite Lk. unfold item_fn. rewrite Dt. reflexivity. }
  assert (G2 : fns id "fmt" = Some (mkFn ["self"; "f"] (enum_fmt_code id))).
  { unfold module_fn. rewrite Lk. unfold item_fn. rewrite Dt, Ei. reflexivity. }
  assert (As : fn_to p fns id "as_str" [D (VEnum x)] st (D (VStr y)) st).
  { apply enum_as_str_split in Ev. destruct Ev as (l1 & l2 & Es & F). eapply fn_body_to; [exact G1|reflexivity|].
    unfold enum_as_str_code. cbn [fn_body fn_params combine rev app]. rewrite Es, map_app. cbn [map fst snd].
    eapply (ev_match_yes _ _ _ _ _ _ _ _ _ _ _ _ _ [] _ []); [apply ev_var; reflexivity| | |apply ev_str|reflexivity].
    - apply Forall_map. eapply Forall_impl; [|exact F]. intros d Hd. simpl in *. now rewrite Hd.
    - simpl. now rewrite String.eqb_refl. }
  eapply fn_body_to; [exact G2|reflexivity|]. cbn [fn_body fn_params combine rev app]. unfold enum_fmt_code.
  eapply ev_method; [apply ev_var; reflexivity| |discriminate|].
  { apply args_one. eapply ev_method_fn; [apply ev_var; reflexivity|apply args_nil|discriminate|exact As]. }
  reflexivity.
Qed.
Lemma enum_to_string id t vs x y e E s : lookup_item p id = Some t -> ti_decl t = DEnum vs -> enum_as_str vs x = Some y ->
  evals e E s (Val (D (VEnum x)) E s) -> evals (EMethod e (Some (TRef id)) "to_string" []) E s (Val (D (VStr y)) E s).
Proof.
  intros Lk Dt Ev He. pose proof (ev_to_string _ _ _ _ _ _ _ _ _ _ _ _ He (fmt_fn id t vs x y (set_text "" s) Lk Dt Ev)) as H.
  destruct s. exact H.
Qed.

(** ** Attributes *)
Lemma attr_writes t a self_v c c' E s l : lookup_item p self = Some t -> env_ok E (wc_virtual c) l -> aget String.eqb "self" E = Some (D self_v) ->
  nth_error (s_inners s) l = Some (wc_inner c) -> write_attr p t a self_v c = Ok c' ->
  wc_virtual c' = wc_virtual c /\ exists B s', vals B /\ stms_to (wa_code t a) E s (B ++ E) s' /\ wrote l (wc_inner c') [] s s'.
Proof.
  intros Lk He Hs Hl Hx. unfold write_attr, vfield in Hx. destruct self_v as [| | | | | | | | | | |fs|]; try discriminate.
  destruct (aget String.eqb (wa_field a) fs) as [x|] eqn:Ef; [|discriminate]. cbn [bind] in Hx.
  set (conv := match wa_fixed a with Some s => EStr s | None => EMethod (v "val") (own_type (field_type t (wa_field a))) "to_string" [] end).
  assert (Hc : forall y u E, aget String.eqb "val" E = Some (D y) ->
    match wa_fixed a with Some s => Ok s | None => attr_to_string p y (field_type t (wa_field a)) end = Ok u ->
    evals conv E s (Val (D (VStr u)) E s)).
  { clear - OK. intros y u E Hv Hu. unfold conv. destruct (wa_fixed a) as [t0|]; [injection Hu as <-; apply ev_str|].
    assert (Lit : forall ty, (forall id, ty <> Some (TRef id)) -> match value_to_string y with Some s => Ok s | None => Panic "no Display" end = (Ok u : W string) ->
      evals (EMethod (v "val") ty "to_string" []) E s (Val (D (VStr u)) E s)).
    { intros ty Nt Hy. destruct (value_to_string y) as [z|] eqn:Ez; [|discriminate]. injection Hy as ->.
      eapply ev_method; [apply ev_var; exact Hv|apply args_nil|exact Nt|].
      destruct y; try discriminate; cbn in Ez |- *; injection Ez as <-; reflexivity. }
    unfold attr_to_string in Hu. destruct (field_type t (wa_field a)) as [[q| |id|ty|ty]|]; try (apply Lit; [discriminate|exact Hu]).
    destruct (lookup_item p id) as [ti|] eqn:Li; [|discriminate]. destruct (ti_decl ti) as [|vs| |] eqn:Di; try discriminate.
    destruct y; try discriminate. destruct (enum_as_str vs variant) as [z|] eqn:Ez; [|discriminate]. injection Hu as ->.
    eapply enum_to_string; eauto. now apply ev_var. }
  assert (Set_ : forall u E s, env_ok E (wc_virtual c) l -> aget String.eqb "val" E = Some (D (VStr u)) -> nth_error (s_inners s) l = Some (wc_inner c) ->
    evals (call (v "ctx") "set_attr" [EStr (wa_xml a); v "val"]) E s (Val (D VUnit) E (set_inner l (wc_inner (set_attr (wa_xml a) u c)) s))).
  { clear. intros u E s He Hv Hl. eapply ev_method; [apply ev_var, He|eapply args_cons; [apply ev_str|apply args_one, ev_var; exact Hv]|discriminate|].
    unfold lib_method, context_method. rewrite Hl. now destruct c. }
  unfold wa_code. fold conv. destruct (wa_opt a).
  - assert (Ha : match x with VNone | VSome _ => evals (call (EField (v "self") (wa_field a)) "as_ref" []) E s (Val (D x) E s) | _ => True end).
    { destruct x; auto;
        (eapply ev_method; [eapply ev_field; [apply ev_var; exact Hs|exact Ef]|apply args_nil|discriminate|reflexivity]). }
    destruct x as [| | | | | | |y| | | | |]; try discriminate.
    + injection Hx as <-. split; auto. exists [("val", NoneOf)], s. split; [repeat constructor|]. split; [|now apply wrote_refl].
      eapply st_let; [eapply ev_map_none; [exact Ha|reflexivity]|]. eapply st_expr; [|apply st_nil].
      eapply ev_iflet_no; [apply ev_var; reflexivity|reflexivity|apply ev_unit].
    + destruct (match wa_fixed a with Some s => Ok s | None => attr_to_string p y (field_type t (wa_field a)) end) as [u| | |] eqn:Eu; try discriminate.
      injection Hx as <-. split; auto. exists [("val", D (VSome (VStr u)))]. eexists. split; [repeat constructor|]. split; [|eapply wrote_set0; eauto].
      eapply st_let; [eapply ev_map; [exact Ha|apply ev_value_block; eapply Hc; [reflexivity|exact Eu]]|]. eapply st_expr; [|apply st_nil].
      eapply (ev_iflet_yes _ _ _ _ _ _ _ _ _ _ _ _ _ _ [_]); [apply ev_var; reflexivity|reflexivity| |reflexivity].
      apply ev_value_block. apply Set_; auto.
  - destruct (match wa_fixed a with Some s => Ok s | None => attr_to_string p x (field_type t (wa_field a)) end) as [u| | |] eqn:Eu; try discriminate.
    injection Hx as <-. split; auto. exists [("val", D (VStr u)); ("val", D x)]. eexists. split; [repeat constructor|]. split; [|eapply wrote_set0; eauto].
    eapply st_let; [apply ev_ref; eapply ev_field; [apply ev_var; exact Hs|exact Ef]|].
    eapply st_let; [eapply Hc; [reflexivity|exact Eu]|]. eapply st_expr; [apply Set_; auto; reflexivity|apply st_nil].
Qed.
Lemma attrs_write t ats self_v : lookup_item p self = Some t -> forall c c' E s l, env_ok E (wc_virtual c) l -> aget String.eqb "self" E = Some (D self_v) ->
  nth_error (s_inners s) l = Some (wc_inner c) -> write_attrs p t ats self_v c = Ok c' ->
  wc_virtual c' = wc_virtual c /\ exists B s', vals B /\ stms_to (flat_map (wa_code t) ats) E s (B ++ E) s' /\ wrote l (wc_inner c') [] s s'.
Proof.
  intros Lk. induction ats as [|a ats IH]; intros c c' E s l He Hs Hl Hx; cbn [write_attrs flat_map] in *.
  - injection Hx as <-. split; auto. exists [], s. split; [constructor|]. split; [apply st_nil|now apply wrote_refl].
  - destruct (write_attr p t a self_v c) as [c1| | |] eqn:E1; try discriminate. cbn [bind] in Hx.
    destruct (attr_writes t a self_v c c1 E s l Lk He Hs Hl E1) as (V & B & s1 & VB & H1 & W1).
    destruct (IH c1 c' (B ++ E) s1 l) as (V2 & B2 & s2 & VB2 & H2 & W2); auto.
    { rewrite V. now apply vals_env. }
    { rewrite vals_get by (auto; discriminate). exact Hs. }
    { exact (proj1 W1). }
    split; [congruence|]. exists (B2 ++ B), s2. split; [now apply Forall_app|]. split; [rewrite <- app_assoc; eapply st_app; eauto|].
    change (@nil wevent) with ((@nil wevent) ++ []). eapply wrote_trans; eauto.
Qed.

(** ** Choices *)
Lemma arm_one_wrapped a x : write_arm_one callw a x =
  ('(e, _) <- wrapped (wm_wrap a) (ctx_create (wm_xml a)) (write_wx callw (wm_x a) x) ;; Ok e).
Proof.
  unfold write_arm_one, wrapped. destruct (wm_wrap a); auto.
  destruct (write_start_element _) as [e0 c1]; destruct (write_wx callw (wm_x a) x c1) as [[]| | |]; reflexivity.
Qed.
Definition arm_stms (a : warm) : list stm :=
  SLet "ctx" (ECall (PLib "::xsd::Context::new") None [EStr (wm_xml a)]) :: tagged (wm_wrap a) (wx_code (wm_x a)).
Lemma arm_one_writes a x E s virt l ev : env_ok E virt l -> aget String.eqb "val" E = Some (D x) -> write_arm_one callw a x = Ok ev ->
  exists B s', stms_to (arm_stms a) E s (B ++ E) s' /\ kept (map WEv ev) s s'.
Proof.
  intros He Hv Hx. rewrite arm_one_wrapped in Hx.
  destruct (wrapped (wm_wrap a) (ctx_create (wm_xml a)) (write_wx callw (wm_x a) x)) as [[ev0 i]| | |] eqn:Ew; try discriminate.
  injection Hx as <-. eapply new_writes; eauto.
Qed.
Lemma arm_each_writes a vs E s virt l ev : env_ok E virt l -> aget String.eqb "val" E = Some (D (VVec vs)) -> write_arm_each callw a vs = Ok ev ->
  exists s', evals (EFor "val" (v "val") (unit_block (arm_stms a))) E s (Val (D VUnit) E s') /\ kept (map WEv ev) s s'.
Proof.
  intros He Hv Hx.
  set (St := fun rest s1 => exists e1 e2, write_arm_each callw a rest = Ok e2 /\ ev = e1 ++ e2 /\ kept (map WEv e1) s s1).
  assert (S0 : St vs s). { exists [], ev. split; auto. split; auto. apply kept_refl. }
  destruct (ev_for p fns self "val" (v "val") (unit_block (arm_stms a)) E s vs E s St) as (s' & H & St'); auto.
  - now apply ev_var.
  - intros y rest s1 (e1 & e2 & W1 & -> & K1). cbn [write_arm_each] in W1.
    destruct (write_arm_one callw a y) as [e3| | |] eqn:E1; try discriminate. cbn [bind] in W1.
    destruct (write_arm_each callw a rest) as [e4| | |] eqn:E2; try discriminate. cbn [bind] in W1. injection W1 as <-.
    destruct (arm_one_writes a y (("val", D y) :: E) s1 virt l e3 He eq_refl E1) as (B & s2 & H2 & K2).
    exists (D VUnit), s2. split; [eapply ev_unit_block; [exact H2|reflexivity]|].
    exists (e1 ++ e3), e4. split; auto. split; [now rewrite app_assoc|]. rewrite map_app. eapply kept_trans; eauto.
  - destruct St' as (e1 & e2 & W1 & -> & K1). cbn [write_arm_each] in W1. injection W1 as <-.
    exists s'. split; auto. now rewrite app_nil_r.
Qed.
Lemma find_split {A} (f : A -> bool) l a : find f l = Some a -> exists l1 l2, l = l1 ++ a :: l2 /\ f a = true /\ Forall (fun b => f b = false) l1.
Proof.
  induction l as [|b l IH]; cbn [find]; [discriminate|]. destruct (f b) eqn:E; intros H.
  - injection H as ->. exists [], l. auto.
  - destruct (IH H) as (l1 & l2 & -> & Fa & F). exists (b :: l1), l2. auto.
Qed.
Lemma choice_writes arms self_v E s virt l ev : env_ok E virt l -> aget String.eqb "self" E = Some (D self_v) -> write_choice callw arms self_v = Ok ev ->
  exists s', stms_to [SExpr (EMatch (v "self") (map warm_code arms))] E s E s' /\ kept (map WEv ev) s s'.
Proof.
  intros He Hs Hx. unfold write_choice in Hx. destruct self_v as [| | | | | | | | | | | |x y]; try discriminate.
  destruct (find (fun a => wm_variant a =?s x) arms) as [a|] eqn:Fd; [|discriminate].
  apply find_split in Fd. destruct Fd as (l1 & l2 & -> & Fa & F). apply String.eqb_eq in Fa.
  assert (H : exists s', evals (snd (warm_code a)) (("val", D y) :: E) s (Val (D VUnit) (("val", D y) :: E) s') /\ kept (map WEv ev) s s').
  { unfold warm_code. cbn [snd]. fold (arm_stms a). destruct (wm_vec a).
    - destruct y; try discriminate. destruct (arm_each_writes a vs (("val", D (VVec vs)) :: E) s virt l ev He eq_refl Hx) as (s' & H & K).
      exists s'. split; auto. apply (ev_unit_block _ _ []); [|reflexivity]. eapply st_expr; [exact H|apply st_nil].
    - destruct (arm_one_writes a y (("val", D y) :: E) s virt l ev He eq_refl Hx) as (B & s' & H & K).
      exists s'. split; auto. eapply ev_unit_block; [exact H|reflexivity]. }
  destruct H as (s' & H & K). exists s'. split; auto. eapply st_expr; [|apply st_nil]. rewrite map_app. cbn [map].
  destruct (warm_code a) as [q b] eqn:Ew. assert (Eq : q = PCase x "val") by (unfold warm_code in Ew; injection Ew as <- _; now rewrite Fa).
  eapply (ev_match_yes _ _ _ _ _ _ _ _ _ _ _ _ _ [_] _ [_]); [apply ev_var; exact Hs| | |exact H|reflexivity].
  - apply Forall_map. eapply Forall_impl; [|exact F]. intros d Hd. simpl in *. rewrite String.eqb_sym. now rewrite Hd.
  - subst q. simpl. now rewrite String.eqb_refl.
Qed.

(** ** Namespaces *)
Lemma nss_write nss : forall c E s l, env_ok E (wc_virtual c) l -> nth_error (s_inners s) l = Some (wc_inner c) ->
  wc_virtual (set_nss nss c) = wc_virtual c /\ exists s', stms_to (map ns_stm nss) E s E s' /\ wrote l (wc_inner (set_nss nss c)) [] s s'.
Proof.
  induction nss as [|[q u] nss IH]; intros c E s l He Hl; cbn [map set_nss fold_left].
  - split; auto. exists s. split; [apply st_nil|now apply wrote_refl].
  - set (c1 := set_ns q u c). destruct (IH c1 E (set_inner l (wc_inner c1) s) l) as (V & s2 & H2 & W2).
    { exact He. }
    { eapply (proj1 (wrote_set0 _ _ _ _ Hl)). }
    split; [exact V|]. exists s2. split.
    + unfold ns_stm. cbn [fst snd]. destruct (is_empty q) eqn:Eq.
      * assert (q = "") as -> by (destruct q; [reflexivity|discriminate]). eapply st_expr; [|exact H2].
        eapply ev_method; [apply ev_var, He|apply args_one, ev_str|discriminate|]. unfold lib_method, context_method. rewrite Hl. now destruct c.
      * eapply st_expr; [|exact H2].
        eapply ev_method; [apply ev_var, He|eapply args_cons; [apply ev_str|apply args_one, ev_str]|discriminate|].
        unfold lib_method, context_method. rewrite Hl. now destruct c.
    + change (@nil wevent) with ((@nil wevent) ++ []). eapply wrote_trans; [eapply wrote_set0; eauto|exact W2].
Qed.

(** ** [to_xml_writer] *)
Lemma item_writes t w c E s l ev i : lookup_item p self = Some t -> env_ok E (wc_virtual c) l -> aget String.eqb "self" E = Some (D w) ->
  nth_error (s_inners s) l = Some (wc_inner c) -> write_item p callw t w c = Ok (ev, i) ->
  exists s', evals (writer_code t) E s (Val (ROk (D VUnit)) E s') /\ wrote l i (map WEv ev) s s'.
Proof.
  intros Lk He Hs Hl Hx. unfold write_item in Hx. pose proof (found _ _ _ Lk) as [_ Ei].
  destruct (nss_write (ti_nss t) c E s l He Hl) as (V & s1 & H1 & W1). set (c1 := set_nss (ti_nss t) c) in *.
  assert (He1 : env_ok E (wc_virtual c1) l) by now rewrite V.
  assert (G : exists B s2, vals B /\ stms_to (write_code t) E s1 (B ++ E) s2 /\ wrote l i (map WEv ev) s1 s2).
  { unfold write_code. pose proof (proj1 W1) as Hl1. destruct (ti_write t) as [wrap x| |ats wrap b|wrap arms].
    - destruct w as [| | | | | | | | |y| | |]; try discriminate. eapply tagged_writes; [exact He1|exact Hl1|exact Hx|].
      intros c' ev' i' s' Vt Hl' Hx'. rewrite <- Vt in He1.
      destruct (wx_writes x y c' (("val", D y) :: E) s' l ev' i' He1 eq_refl Hl' Hx') as (B & s2 & VB & H2 & W2).
      exists (B ++ [("val", D y)]), s2. split; [apply Forall_app; split; auto; repeat constructor|]. split; auto.
      rewrite <- app_assoc. eapply st_let; [|exact H2]. apply ev_ref. apply ev_field0, ev_var. exact Hs.
    - destruct w as [| | | | | | | | | |x| |]; try discriminate. destruct (ti_decl t) as [|vs| |] eqn:Dt; try discriminate.
      destruct (enum_as_str vs x) as [y|] eqn:Ey; [|discriminate]. eapply tagged_writes; [exact He1|exact Hl1|exact Hx|].
      intros c' ev' i' s' Vt Hl' Hx'. injection Hx' as <- <-.
      destruct (text_writes E s' (EMethod (v "self") (Some (TRef (ti_id t))) "to_string" []) y (proj2 He)) as (s2 & H2 & K2).
      { rewrite Ei. eapply enum_to_string; eauto. apply ev_var. exact Hs. }
      exists [("val", D (VStr y))], s2. split; [repeat constructor|]. split; auto. now apply kept_wrote.
    - destruct (write_attrs p t ats w c1) as [c2| | |] eqn:Ea; try discriminate. cbn [bind] in Hx.
      destruct (attrs_write t ats w Lk c1 c2 E s1 l He1 Hs Hl1 Ea) as (V2 & B & s2 & VB & H2 & W2).
      assert (He2 : env_ok (B ++ E) (wc_virtual c2) l) by (rewrite V2; now apply vals_env).
      assert (Hs2 : aget String.eqb "self" (B ++ E) = Some (D w)) by (rewrite vals_get by (auto; discriminate); exact Hs).
      assert (T : exists B' s', vals B' /\ stms_to (tagged wrap (wb_code b)) (B ++ E) s2 (B' ++ B ++ E) s' /\ wrote l i (map WEv ev) s2 s').
      { eapply tagged_writes; [exact He2|exact (proj1 W2)|exact Hx|].
        intros c' ev' i' s' Vt Hl' Hx'. rewrite <- Vt in He2. destruct b as [|f x|ws]; cbn [write_body wb_code] in *.
        - injection Hx' as <- <-. exists [], s'. split; [constructor|]. split; [apply st_nil|now apply wrote_refl].
        - unfold vfield in Hx'. destruct w as [| | | | | | | | | | |fs|]; try discriminate. destruct (aget String.eqb f fs) as [y|] eqn:Ef; [|discriminate].
          cbn [bind] in Hx'. destruct (wx_writes x y c' (("val", D y) :: B ++ E) s' l ev' i' He2 eq_refl Hl' Hx') as (B2 & s3 & VB2 & H3 & W3).
          exists (B2 ++ [("val", D y)]), s3. split; [apply Forall_app; split; auto; repeat constructor|]. split; auto.
          rewrite <- app_assoc. eapply st_let; [|exact H3]. apply ev_ref. eapply ev_field; [apply ev_var; exact Hs2|exact Ef].
        - destruct (write_leaves callw ws w c') as [[e c3]| | |] eqn:El; try discriminate. cbn [bind] in Hx'. injection Hx' as <- <-.
          eapply leaves_write; eauto. }
      destruct T as (B' & s3 & VB' & H3 & W3). exists (B' ++ B), s3. split; [now apply Forall_app|].
      split; [rewrite <- app_assoc; eapply st_app; eauto|]. change (map WEv ev) with ([] ++ map WEv ev). eapply wrote_trans; eauto.
    - eapply tagged_writes; [exact He1|exact Hl1|exact Hx|].
      intros c' ev' i' s' Vt Hl' Hx'. destruct (write_choice callw arms w) as [e| | |] eqn:Ec; try discriminate. cbn [bind] in Hx'. injection Hx' as <- <-.
      destruct (choice_writes arms w E s' _ l e He Hs Ec) as (s2 & H2 & K2). exists [], s2. split; [constructor|]. split; auto. now apply kept_wrote. }
  destruct G as (B & s2 & VB & H2 & W2). exists s2. split.
  - unfold writer_code. eapply (ev_block _ _ _ _ _ _ _ B); [eapply st_app; [exact H1|exact H2]| |reflexivity].
    apply ev_ok; auto. apply ev_unit.
  - change (map WEv ev) with ([] ++ map WEv ev). eapply wrote_trans; eauto.
Qed.
End Self.

(** ** All together *)
Lemma write_fn fuel : forall id w c ev i s l, write_type p fuel id w c = Ok (ev, i) -> nth_error (s_inners s) l = Some (wc_inner c) ->
  exists s', fn_to p fns id "to_xml_writer" [D w; Cx (wc_virtual c) l; Wr] s (ROk (D VUnit)) s' /\ wrote l i (map WEv ev) s s'.
Proof.
  induction fuel as [|fuel IH]; intros id w c ev i s l Hx Hl; cbn [write_type] in Hx; [discriminate|].
  destruct (lookup_item p id) as [t|] eqn:Lk; [|discriminate].
  assert (G : fns id "to_xml_writer" = Some (mkFn ["self"; "ctx"; "writer"] (writer_code t))) by (unfold module_fn; now rewrite Lk).
  destruct (item_writes id (write_type p fuel) IH t w c [("writer", Wr); ("ctx", Cx (wc_virtual c) l); ("self", D w)] s l ev i Lk) as (s' & H & K); auto.
  - now split.
  - exists s'. split; auto. eapply fn_body_to; [exact G|reflexivity|exact H].
Qed.

Lemma to_xml_fn fuel id w ev s : to_xml p fuel id w = Ok ev ->
  exists s' r, fn_to p fns id "to_xml" [D w] s (ROk r) s' /\ kept (WDoc :: map WEv ev) s s'.
Proof.
  intros Hx. unfold to_xml in Hx. destruct (lookup_item p id) as [t|] eqn:Lk; [|discriminate]. pose proof (found _ _ _ Lk) as [_ Ei].
  assert (G : fns id "to_xml" = Some (mkFn ["self"] (to_xml_code t))) by (unfold module_fn; now rewrite Lk).
  destruct (write_type p fuel id w (ctx_create (ti_xml_name t))) as [[ev0 i]| | |] eqn:Ew; try discriminate. cbn [bind] in Hx. injection Hx as <-.
  set (s1 := put [WDoc] s). destruct (new_kept (mkInner (ti_xml_name t) [] []) s1) as [Hn Kn].
  set (s2 := snd (new_inner (mkInner (ti_xml_name t) [] []) s1)) in *.
  destruct (write_fn fuel id w _ ev0 i s2 _ Ew Hn) as (s3 & H3 & W3). exists s3, (D (VVec [])). split.
  - eapply fn_body_to; [exact G|reflexivity|]. unfold to_xml_code. cbn [fn_body fn_params combine rev app].
    eapply (ev_block _ _ _ _ _ _ _ [_; _; _]).
    + eapply st_let; [apply ev_vec_new; auto|].
      eapply st_let.
      { eapply ev_method.
        - eapply ev_method.
          + eapply ev_call_lib; [apply args_nil|discriminate|reflexivity].
          + apply args_one, ev_bool.
          + discriminate.
          + reflexivity.
        - apply args_one, ev_ref, ev_var. reflexivity.
        - discriminate.
        - reflexivity. }
      eapply st_expr.
      { apply ev_try. eapply ev_method; [apply ev_var; reflexivity| |discriminate|].
        - apply args_one. eapply (ev_lib_struct _ _ _ _ _ _ _ _ _ _ StartDoc).
          + eapply fields_cons; [apply ev_version|]. eapply fields_cons; [apply ev_some; auto; apply ev_str|].
            eapply fields_cons; [apply ev_noneof; auto|apply fields_nil].
          + reflexivity.
        - reflexivity. }
      eapply st_let; [eapply ev_call_lib; [apply args_one, ev_str|discriminate|reflexivity]|].
      eapply st_expr; [|apply st_nil]. apply ev_try. rewrite Ei. eapply ev_method_fn; [apply ev_var; reflexivity| |discriminate|exact H3].
      eapply args_cons; [apply ev_var; reflexivity|]. apply args_one, ev_ref, ev_var. reflexivity.
    + apply ev_ok; auto. apply ev_var. reflexivity.
    + reflexivity.
  - apply Kn in W3. change (WDoc :: map WEv ev0) with ([WDoc] ++ map WEv ev0). eapply kept_trans; [apply kept_put|exact W3].
Qed.
End Write.
