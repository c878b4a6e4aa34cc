(** * TypingWrite: the functions that write have types *)
From Verif Require Import Base Libs Xml Ast Gen Run Emit Rust Body RustSpec EmitSpec GramSpec GramWrite TypingSpec TypingProof TypingItems TypingRead.
From Coq Require Import Permutation Lia.

Definition writing_type : typ := YRes YUnit WriterError.
Definition Out : typ := YRef (YWriter (YVar "W")).
(** Variables that shadow nothing but [val]. *)
Definition only_val (B : tenv) : Prop := Forall (fun b => fst b = "val") B.
Lemma only_val_get B x : only_val B -> x <> "val" -> aget String.eqb x B = None.
Proof. intros H N. induction H as [|[y o] B E H IH]; [reflexivity|]. simpl in *. subst y. destruct (String.eqb_spec x "val"); [contradiction|auto]. Qed.
Lemma only_val_var B G x t : only_val B -> x <> "val" -> var G x t -> var (B ++ G) x t.
Proof.
  intros H N V. induction H as [|[y o] B E H IH]; [exact V|]. unfold var in *. simpl in *. subst y.
  destruct (String.eqb_spec x "val"); [contradiction|auto].
Qed.
Definition after (x : wx) (G : tenv) : tenv := match x with WxCall _ => moved "ctx" G | _ => G end.

Section Write.
Variables (items : list pitem) (l : list (root * titem)) (p : program).
Hypothesis Hh : holds items l.
Hypothesis Hl : forall t, In t p <-> In t (map snd l).
Hypothesis Hd : decls_ok p.
Notation val := (val items).
Notation place := (place items).
Notation stms := (stms items).
Notation args := (args items).
Notation fields := (fields items).
Notation arms := (arms items).
Variable self : string.
Notation r := writing_type.

Lemma stm_one G e e' t G' : val self r G e e' t G' -> (block_like e = true -> t = YUnit) -> stms self r G [SExpr e] [SExpr e'] G'.
Proof. intros. econstructor; eauto. constructor. Qed.
Lemma ctx_call G m : var G "ctx" Context -> var G "writer" Out -> m = "write_start_element" \/ m = "write_end_element" ->
  stms self r G [untyped_stm (SExpr (ETry (call (v "ctx") m [v "writer"])))] [SExpr (ETry (call (v "ctx") m [v "writer"]))] G.
Proof.
  intros C W E. cbn [untyped_stm]. eapply stm_one; [|discriminate]. cbn [untyped call map]. eapply v_try; [|reflexivity|apply cv_refl].
  eapply (v_method _ _ _ _ _ _ _ _ Context _ (YRes YUnit WriterError)); [apply p_var; exact C|constructor| |].
  - destruct E as [-> | ->]; [apply (me_start _ (YVar "W"))|apply (me_end _ (YVar "W"))]; constructor.
  - eapply args_one; [apply v_copy; [exact W|constructor]|constructor].
Qed.
Lemma characters_stm G e e' t : val self r G (untyped e) e' t G -> coerces t str_ref -> e' = e -> var G "writer" Out ->
  stms self r G [untyped_stm (characters e)] [characters e] G.
Proof.
  intros H K -> W. unfold characters. cbn [untyped_stm]. eapply stm_one; [|discriminate]. cbn [untyped call map]. eapply v_try; [|reflexivity|apply cv_refl].
  eapply (v_method _ _ _ _ _ _ _ _ (YWriter (YVar "W"))); [apply p_var; exact W|constructor; constructor|constructor; constructor|].
  eapply args_one; [|constructor]. eapply v_function; [apply fu_characters|]. eapply args_one; eauto.
Qed.
Lemma text_stms_val G e : val self r G (untyped e) e YString G -> var G "writer" Out ->
  stms self r G (map untyped_stm (text_stms e)) (text_stms e) (("val", Some YString) :: G).
Proof.
  intros H W. unfold text_stms. cbn [map untyped_stm]. eapply ss_let; [exact H|]. set (G1 := ("val", Some YString) :: G).
  eapply stm_one; [|reflexivity]. cbn [untyped call map]. rewrite untyped_unit_block. rewrite <- (join_same G1) at 2.
  eapply v_if with (G1 := G1); [|rewrite <- (out_same G1) at 2; apply unit_block_val|constructor].
  - apply v_not. eapply (v_method _ _ _ _ _ _ _ _ YString); [apply p_var; reflexivity|constructor|constructor|constructor].
  - eapply characters_stm; [cbn [untyped]; apply v_ref, p_var; reflexivity|apply co_deref; constructor; constructor|reflexivity|exact W].
Qed.

Lemma sub_w u : u = YRes YUnit WriterError -> subst [("W", YVar "W")] u = u.
Proof. now intros ->. Qed.
Lemma writer_call id o G e T w W : defined p id -> place self o G e e T G -> derefs T (YNamed id) -> var G "ctx" Context -> writes w ->
  o = writing_type \/ o = YRes (YVec Byte) WriterError ->
  val self o (moved "ctx" G) W W (YRef (YWriter w)) (moved "ctx" G) ->
  val self o G (EMethod e None "to_xml_writer" [EVar "ctx"; W]) (EMethod e (Some (TRef id)) "to_xml_writer" [EVar "ctx"; W]) writing_type (moved "ctx" G).
Proof.
  intros Di P D C Ww _ HW. apply defined_in in Di. destruct Di as (t & I & <-).
  destruct (in_inherent _ _ _ Hh Hl t "to_xml_writer" I) as (i & q & H & Q); [simpl; tauto|].
  destruct (inherent_in _ _ _ Hh Hl _ _ _ _ H) as (t1 & I1 & E1 & J & Tr & Q1 & _). pose proof (same_item _ Hd t1 t I1 I E1) as ->.
  eapply v_own_method with (i := i) (q := q) (u := writing_type) (s := [("W", w)]) (ts := [Context; YRef (YWriter (YVar "W"))]); eauto.
  - now rewrite (fn_sig t i _ q J Tr Q1).
  - assert (Gq : pf_generics q = [("a", None); ("b", None); ("W", Some (here [""; "std"; "io"; "Write"]))]) by (cbn in Q; destruct Q as [<-|[]]; reflexivity).
    unfold within. rewrite Gq. repeat constructor; cbn; try congruence. intros _. exists w. auto.
  - eapply args_two; [apply v_move; [exact C|intros X; inversion X]|constructor|exact HW|constructor].
Qed.

Lemma moved_other G x y t u : var G x t -> var G y u -> x <> y -> var (moved x G) y u.
Proof.
  unfold var, moved. intros V W N. induction G as [|[z o] G IH]; simpl in *; [discriminate|].
  destruct (String.eqb_spec x z) as [<-|Nz].
  - simpl. destruct (String.eqb_spec y x); [congruence|exact W].
  - simpl. destruct (y =?s z); auto.
Qed.
Lemma wx_val G x t T : wx_type p x t -> var G "val" T -> derefs T (up t) -> var G "ctx" Context -> var G "writer" Out ->
  exists B, only_val B /\ stms self r G (map untyped_stm (wx_code x)) (wx_code x) (B ++ after x G).
Proof.
  intros H V D C W. destruct H as [q|s t|id Di]; unfold wx_code, after.
  - exists [("val", Some YString)]. split; [repeat constructor|]. apply text_stms_val; auto.
    eapply (v_method _ _ _ _ _ _ _ _ (YPrim q)); [apply p_var; exact V|exact D|constructor; constructor|constructor].
  - exists []. split; [constructor|]. eapply characters_stm; [constructor|constructor|reflexivity|exact W].
  - exists []. split; [constructor|]. cbn [map untyped_stm app]. eapply stm_one; [|discriminate]. cbn [untyped map].
    eapply v_try; [|reflexivity|apply cv_refl]. eapply writer_call with (w := YVar "W"); eauto; [apply p_var; exact V|constructor|].
    apply v_copy; [|constructor]. now apply moved_other with (t := Context).
Qed.
Lemma tagged_val wrap G l0 G' : var G "ctx" Context -> var G "writer" Out -> (wrap = true -> var G' "ctx" Context /\ var G' "writer" Out) ->
  stms self r G (map untyped_stm l0) l0 G' -> stms self r G (map untyped_stm (tagged wrap l0)) (tagged wrap l0) G'.
Proof.
  intros C W E H. destruct wrap; [|exact H]. destruct (E eq_refl) as (C' & W'). unfold tagged. cbn [map].
  change (untyped_stm start_tag :: map untyped_stm (l0 ++ [end_tag])) with ([untyped_stm start_tag] ++ map untyped_stm (l0 ++ [end_tag])).
  change (start_tag :: l0 ++ [end_tag]) with ([start_tag] ++ (l0 ++ [end_tag])).
  eapply stms_app; [apply ctx_call; auto|]. rewrite map_app. eapply stms_app; [exact H|]. apply ctx_call; auto.
Qed.
Lemma tagged_wx wrap G x t T : closes wrap x -> wx_type p x t -> var G "val" T -> derefs T (up t) -> var G "ctx" Context -> var G "writer" Out ->
  exists B, only_val B /\ stms self r G (map untyped_stm (tagged wrap (wx_code x))) (tagged wrap (wx_code x)) (B ++ after x G).
Proof.
  intros K H V D C W. destruct (wx_val _ _ _ _ H V D C W) as (B & O & S). exists B. split; [exact O|]. apply tagged_val; auto.
  intros Wr. specialize (K Wr). destruct x; try contradiction; simpl; split; apply only_val_var; auto; discriminate.
Qed.

(** A new context. *)
Lemma new_ctx_val G n : val self r G (ECall (PLib "::xsd::Context::new") None [EStr n]) (ECall (PLib "::xsd::Context::new") None [EStr n]) Context G.
Proof. eapply v_function; [constructor|]. eapply args_one; [constructor|constructor]. Qed.
Lemma out_moved B b G : fst b = "ctx" -> only_val B -> forall x, out G (B ++ after x (b :: G)) = G.
Proof.
  destruct b as [y o]. simpl. intros -> O x. destruct x; simpl; try (change (B ++ ("ctx", o) :: G) with (B ++ [("ctx", o)] ++ G); rewrite app_assoc; apply out_app).
  unfold moved. cbn [aset]. change ("ctx" =?s "ctx") with true. cbv iota. change (B ++ ("ctx", None) :: G) with (B ++ [("ctx", None)] ++ G). rewrite app_assoc; apply out_app.
Qed.
Lemma in_ctx G wrap x t T c : (exists e e', c = SLet "ctx" e' /\ untyped_stm c = SLet "ctx" e /\ val self r G e e' Context G) ->
  closes wrap x -> wx_type p x t -> var G "val" T -> derefs T (up t) -> var G "writer" Out ->
  val self r G (untyped (unit_block (c :: tagged wrap (wx_code x)))) (unit_block (c :: tagged wrap (wx_code x))) YUnit G.
Proof.
  intros (e & e' & -> & E & Hc) K H V D W. destruct (tagged_wx wrap (("ctx", Some Context) :: G) x t T K H V D eq_refl W) as (B & O & S).
  rewrite untyped_unit_block. rewrite <- (out_moved B ("ctx", Some Context) G eq_refl O x) at 2. apply unit_block_val.
  cbn [map]. rewrite E. eapply ss_let; [exact Hc|exact S].
Qed.
Lemma for_block (b : bool) G tn t : (forall G, var G "val" (YRef (up t)) -> var G "ctx" Context -> var G "writer" Out ->
    val self r G (untyped (unit_block tn)) (unit_block tn) YUnit G) ->
  var G "val" (YRef (up (wrap_vec b t))) -> var G "ctx" Context -> var G "writer" Out ->
  val self r G (untyped (unit_block (for_code b tn))) (unit_block (for_code b tn)) YUnit G.
Proof.
  intros H V C W. destruct b; unfold for_code; [|now apply H]. rewrite untyped_unit_block. rewrite <- (out_same G) at 2. apply unit_block_val.
  cbn [map untyped_stm]. eapply stm_one; [|reflexivity]. cbn [untyped]. eapply v_for; [apply v_copy; [exact V|constructor]|apply it_vec_ref|apply H; auto; reflexivity|apply out_cons].
Qed.
Lemma if_block (b : bool) G tn t : (forall G, var G "val" (YRef (up t)) -> var G "ctx" Context -> var G "writer" Out ->
    val self r G (untyped (unit_block tn)) (unit_block tn) YUnit G) ->
  var G "val" (YRef (up (wrap_opt b t))) -> var G "ctx" Context -> var G "writer" Out ->
  val self r G (untyped (unit_block (if_code b tn))) (unit_block (if_code b tn)) YUnit G.
Proof.
  intros H V C W. destruct b; unfold if_code; [|now apply H]. rewrite untyped_unit_block. rewrite <- (out_same G) at 2. apply unit_block_val.
  cbn [map untyped_stm]. eapply stm_one; [|reflexivity]. cbn [untyped]. rewrite <- (join_same G) at 2. rewrite <- (out_cons ("val", Some (YRef (up t))) G) at 2.
  eapply v_if_let; [apply v_copy; [exact V|constructor]|apply bi_some_ref|apply H; auto; reflexivity|constructor].
Qed.

Lemma self_field G fs f t : declared items self (DStruct fs) -> In (f, t) fs -> var G "self" (YRef (YNamed self)) ->
  place self r G (EField (EVar "self") f) (EField (EVar "self") f) (up t) G.
Proof. intros D I V. eapply p_field; [apply p_var; exact V|constructor; constructor|exact D|exact I]. Qed.

Lemma wf_val G fs w : declared items self (DStruct fs) -> wf_ok p fs w ->
  var G "self" (YRef (YNamed self)) -> var G "ctx" Context -> var G "writer" Out ->
  exists b, fst b = "val" /\ stms self r G (map untyped_stm (wf_code w)) (wf_code w) (b :: G).
Proof.
  intros D (t & I & X & K) S C W. set (u := wrap_opt (wf_opt w) (wrap_vec (wf_vec w) t)) in *. exists ("val", Some (YRef (up u))). split; [reflexivity|].
  unfold wf_code; cbn [map untyped_stm]; eapply ss_let; [cbn [untyped]; apply v_ref; eapply self_field; eauto|].
  set (G1 := ("val", _) :: G).
  set (ctx := match wf_new w with Some n => SLet "ctx" (ECall (PLib "::xsd::Context::new") None [EStr n]) | None => SLet "ctx" (ECall (PLib "::xsd::Context::wrap") None [ERef (v "ctx")]) end).
  eapply stm_one; [|reflexivity].
  apply (if_block (wf_opt w) G1 (for_code (wf_vec w) (ctx :: tagged (wf_wrap w) (wx_code (wf_x w)))) (wrap_vec (wf_vec w) t)); auto; try reflexivity.
  intros G2 V2 C2 W2. apply for_block with (t := t); auto. clear - X K Hh Hl Hd. intros G V C W. eapply in_ctx; eauto; [|repeat constructor].
  unfold ctx. destruct (wf_new w); (eexists; eexists; split; [reflexivity|]; split; [reflexivity|]); [apply new_ctx_val|].
  cbn [untyped map]. eapply v_function; [constructor|]. eapply args_one; [apply v_ref, p_var; exact C|constructor].
Qed.
Lemma wfs_val fs ws : declared items self (DStruct fs) -> Forall (wf_ok p fs) ws -> forall G,
  var G "self" (YRef (YNamed self)) -> var G "ctx" Context -> var G "writer" Out ->
  exists B, only_val B /\ stms self r G (map untyped_stm (flat_map wf_code ws)) (flat_map wf_code ws) (B ++ G).
Proof.
  intros D F. induction F as [|w ws H F IH]; intros G S C W; [exists []; split; constructor|].
  destruct (wf_val G fs w D H S C W) as (b & Eb & H1). destruct b as [x o]. simpl in Eb. subst x.
  destruct (IH (("val", o) :: G)) as (B & O & H2); auto. exists (B ++ [("val", o)]). split; [apply Forall_app; split; auto; repeat constructor|].
  rewrite <- app_assoc. cbn [flat_map app]. rewrite map_app. eapply stms_app; eauto.
Qed.

Lemma set_attr_val G n T : var G "ctx" Context -> var G "val" T -> stringy T -> exists G', 
  val self r G (EMethod (EVar "ctx") None "set_attr" [EStr n; EVar "val"]) (EMethod (EVar "ctx") None "set_attr" [EStr n; EVar "val"]) YUnit G'
  /\ (G' = G \/ G' = moved "val" G).
Proof.
  intros C V Y. destruct (copy_dec T) as [K|K]; eexists; (split; [eapply (v_method _ _ _ _ _ _ _ _ Context);
    [apply p_var; exact C|constructor|apply (me_set_attr _ T); exact Y|eapply args_two; [constructor|constructor| |constructor]]|]).
  - apply v_copy; eauto.
  - now left.
  - apply v_move; eauto.
  - now right.
Qed.
Lemma own_displayed t : shown p t -> displays items (up t) /\ own_type_of (up t) = Body.own_type (Some t).
Proof.
  intros H. destruct H as [q|id (t & vs & I & <- & D)]; [split; [constructor|reflexivity]|]. split; [|reflexivity]. eapply own_displays; eauto. right. eauto.
Qed.
Definition conv_code (t : titem) (a : wa) : ex :=
  match wa_fixed a with Some s => EStr s | None => EMethod (v "val") (Body.own_type (field_type t (wa_field a))) "to_string" [] end.
Definition conv_type (a : wa) : typ := match wa_fixed a with Some _ => str_ref | None => YString end.
Lemma conv_stringy a : stringy (conv_type a).
Proof. unfold conv_type. destruct (wa_fixed a); constructor. Qed.
Lemma conv_val o G it a t : var G "val" (YRef (up t)) -> (wa_fixed a = None -> shown p t /\ Body.own_type (field_type it (wa_field a)) = Body.own_type (Some t)) ->
  val self o G (untyped (conv_code it a)) (conv_code it a) (conv_type a) G.
Proof.
  intros V H. unfold conv_code, conv_type. destruct (wa_fixed a) as [s|]; [constructor|].
  destruct (H eq_refl) as (S & E). destruct (own_displayed t S) as (D & O). rewrite E, <- O. cbn [untyped map].
  eapply (v_method _ _ _ _ _ _ _ _ (up t)); [apply p_var; exact V|repeat constructor|now constructor|constructor].
Qed.
Lemma aget_in {V} (k : string) (x : V) m : NoDup (map fst m) -> In (k, x) m -> aget String.eqb k m = Some x.
Proof.
  induction m as [|[k' y] m IH]; intros N I; [destruct I|]. simpl in *. inversion N; subst. destruct I as [E|I].
  - injection E as -> ->. now rewrite String.eqb_refl.
  - destruct (String.eqb_spec k k') as [<-|_]; [|auto]. exfalso. apply H1. now apply (in_map fst) in I.
Qed.
Lemma wa_val G it fs a : ti_decl it = DStruct fs -> NoDup (map fst fs) -> declared items self (DStruct fs) -> wa_ok p fs a ->
  var G "self" (YRef (YNamed self)) -> var G "ctx" Context ->
  exists B, only_val B /\ stms self r G (map untyped_stm (wa_code it a)) (wa_code it a) (B ++ G).
Proof.
  intros E N D (t & I & Sh) S C.
  assert (Sh' : wa_fixed a = None -> shown p t /\ Body.own_type (field_type it (wa_field a)) = Body.own_type (Some t)).
  { intros F. split; [auto|]. unfold field_type. rewrite E, (aget_in _ _ _ N I). simpl. destruct (wa_opt a); [reflexivity|]. destruct (Sh F); reflexivity. }
  unfold wa_code. fold (conv_code it a). destruct (wa_opt a); cbn [wrap_opt] in I.
  - cbn [map untyped_stm]. set (o := if copy_dec (conv_type a) then Some (YOpt (conv_type a)) else None).
    exists [("val", o)]. split; [repeat constructor|]. eapply ss_let with (G1 := G) (t := YOpt (conv_type a)).
    + cbn [untyped map call]. eapply v_map.
      * eapply (v_method _ _ _ _ _ _ _ _ (YOpt (up t))); [apply p_val with (1 := eq_refl)||eapply (self_field _ _ _ (TOpt t)); eauto|constructor|constructor|constructor].
      * apply block_one. apply conv_val with (t := t); [reflexivity|exact Sh'].
      * cbn [app]. rewrite out_same. apply out_cons.
    + set (G1 := ("val", Some (YOpt (conv_type a))) :: G). eapply stm_one; [|reflexivity]. cbn [untyped map call].
      assert (V1 : val self r G1 (EVar "val") (EVar "val") (YOpt (conv_type a)) (("val", o) :: G)).
      { unfold o. destruct (copy_dec (conv_type a)) as [K|K]; [apply v_copy; [reflexivity|now constructor]|].
        replace (("val", None) :: G) with (moved "val" G1) by reflexivity. apply v_move; [reflexivity|]. intros X. inversion X; subst. contradiction. }
      set (G2 := ("val", o) :: G) in *. destruct (set_attr_val (("val", Some (conv_type a)) :: G2) (wa_xml a) (conv_type a)) as (G3 & A & B); auto; [reflexivity|apply conv_stringy|].
      replace ([("val", o)] ++ G) with (join (out G2 (out (("val", Some (conv_type a)) :: G2) G3)) G2).
      * eapply v_if_let; [exact V1|apply bi_some|apply block_one; exact A|constructor].
      * assert (L : length G3 = Datatypes.S (length G2)) by (destruct B as [-> | ->]; [reflexivity|now apply moved_length with (t := conv_type a)]).
        unfold out at 2. cbn [length]. rewrite L, Nat.sub_diag. cbn [skipn]. destruct B as [-> | ->]; [rewrite out_cons|replace (moved "val" (("val", Some (conv_type a)) :: G2)) with (("val", None) :: G2) by reflexivity; rewrite out_cons]; apply join_same.
  - cbn [map untyped_stm].
    destruct (set_attr_val (("val", Some (conv_type a)) :: ("val", Some (YRef (up t))) :: G) (wa_xml a) (conv_type a)) as (G3 & A & B); auto; [reflexivity|apply conv_stringy|].
    assert (X : exists o, G3 = [("val", o); ("val", Some (YRef (up t)))] ++ G) by (destruct B as [-> | ->]; eexists; reflexivity).
    destruct X as (o & ->). exists [("val", o); ("val", Some (YRef (up t)))]. split; [repeat constructor|].
    eapply ss_let; [cbn [untyped]; apply v_ref; eapply self_field; eauto|]. eapply ss_let; [apply conv_val with (t := t); [reflexivity|exact Sh']|].
    eapply stm_one; [exact A|discriminate].
Qed.
Lemma was_val it fs ats : ti_decl it = DStruct fs -> NoDup (map fst fs) -> declared items self (DStruct fs) -> Forall (wa_ok p fs) ats -> forall G,
  var G "self" (YRef (YNamed self)) -> var G "ctx" Context ->
  exists B, only_val B /\ stms self r G (map untyped_stm (flat_map (wa_code it) ats)) (flat_map (wa_code it) ats) (B ++ G).
Proof.
  intros E N D F. induction F as [|w ws H F IH]; intros G S C; [exists []; split; constructor|].
  destruct (wa_val G it fs w E N D H S C) as (B1 & O1 & H1).
  destruct (IH (B1 ++ G)) as (B & O & H2); auto; try (apply only_val_var; auto; discriminate).
  exists (B ++ B1). split; [apply Forall_app; split; auto|]. rewrite <- app_assoc. cbn [flat_map app]. rewrite map_app. eapply stms_app; eauto.
Qed.

Lemma warm_val G vs a : declared items self (DChoice vs) -> warm_ok p vs a -> var G "ctx" Context -> var G "writer" Out ->
  exists B, binds items self (fst (warm_code a)) (YRef (YNamed self)) B
  /\ val self r (B ++ G) (untyped (snd (warm_code a))) (snd (warm_code a)) YUnit (B ++ G).
Proof.
  intros D (t & I & X & K) C W. eexists. split; [eapply bi_case_ref; eauto|]. cbn [app]. unfold warm_code. cbn [snd].
  apply (for_block (wm_vec a) _ (SLet "ctx" (ECall (PLib "::xsd::Context::new") None [EStr (wm_xml a)]) :: tagged (wm_wrap a) (wx_code (wm_x a))) t); auto; try reflexivity.
  clear - X K Hh Hl Hd. intros G V C W. eapply in_ctx; eauto; [|repeat constructor].
  eexists; eexists; split; [reflexivity|]; split; [reflexivity|]. apply new_ctx_val.
Qed.
End Write.

(** ** Functions *)
Section Functions.
Variables (items : list pitem) (l : list (root * titem)) (p : program).
Hypothesis Hh : holds items l.
Hypothesis Hl : forall t, In t p <-> In t (map snd l).
Hypothesis Hd : decls_ok p.
Notation val := (val items).
Notation stms := (stms items).
Variable t : titem.
Hypothesis It : In t p.
Notation self := (ti_id t).
Notation r := writing_type.

Lemma write_val G : write_ok p (ti_decl t) (ti_write t) ->
  var G "self" (YRef (YNamed self)) -> var G "ctx" Context -> var G "writer" Out ->
  exists G', stms self r G (map untyped_stm (write_code t)) (write_code t) G'.
Proof.
  intros H S C W. pose proof (in_declared _ _ _ Hh Hl t It) as Dt. pose proof (decl_good _ Hd t It) as Dg. unfold write_code.
  remember (ti_decl t) as d eqn:Ed. remember (ti_write t) as w eqn:Ew. destruct H as [ty b wrap x H K|vs|fs ats wrap b Fa Hb|vs wrap ms In_ F].
  - assert (P : place items self r G (EField (EVar "self") "0") (EField (EVar "self") "0") (up ty) G) by
      (eapply p_first; [apply p_var; exact S|constructor; constructor|exact Dt]).
    destruct (wx_val _ _ _ Hh Hl Hd self (("val", Some (YRef (up ty))) :: G) x ty (YRef (up ty)) H eq_refl) as (B & O & Hx); [repeat constructor|exact C|exact W|].
    eexists. eapply tagged_val; [exact C|exact W| |cbn [map untyped_stm]; eapply ss_let; [cbn [untyped]; apply v_ref, P|exact Hx]].
    intros Wr. specialize (K Wr). destruct x; try contradiction; simpl; split; apply only_val_var; auto; discriminate.
  - eexists. eapply tagged_val; [exact C|exact W| |apply text_stms_val; [cbn [untyped map]|exact W]].
    + intros _. split; auto.
    + eapply (v_method _ _ _ _ _ _ _ _ (YNamed self)); [apply p_var; exact S|constructor; constructor|constructor; eapply own_displays; eauto; right; eauto|constructor].
  - inversion Dg as [| |fs' M|]; subst fs'. destruct M as (N & _).
    assert (Ed' : ti_decl t = DStruct fs) by congruence.
    destruct (was_val _ _ _ Hh Hl self t fs ats Ed' N Dt Fa G S C) as (B & O & Ha).
    assert (V1 : var (B ++ G) "self" (YRef (YNamed self))) by (apply only_val_var; auto; discriminate).
    assert (V2 : var (B ++ G) "ctx" Context) by (apply only_val_var; auto; discriminate).
    assert (V3 : var (B ++ G) "writer" Out) by (apply only_val_var; auto; discriminate).
    rewrite map_app. destruct b as [|f x|ws]; cbn [wb_code body_ok] in *.
    + eexists. eapply stms_app; [exact Ha|]. eapply tagged_val; eauto. constructor.
    + destruct Hb as (ty & I & X & K).
      destruct (wx_val _ _ _ Hh Hl Hd self (("val", Some (YRef (up ty))) :: B ++ G) x ty (YRef (up ty)) X eq_refl) as (B' & O' & Hx); [repeat constructor|auto|auto|].
      eexists. eapply stms_app; [exact Ha|]. eapply tagged_val; [auto|auto| |cbn [map untyped_stm]; eapply ss_let; [cbn [untyped]; apply v_ref; eapply self_field; eauto|exact Hx]].
      intros Wr. specialize (K Wr). destruct x; try contradiction; simpl; split; apply only_val_var; auto; discriminate.
    + destruct (wfs_val _ _ _ Hh Hl Hd self fs ws Dt Hb (B ++ G) V1 V2 V3) as (B' & O' & Hx).
      eexists. eapply stms_app; [exact Ha|]. eapply tagged_val; [auto|auto| |exact Hx]. intros _. split; apply only_val_var; auto; discriminate.
  - inversion Dg as [| | |vs' Ne M]; subst vs'. exists G. eapply tagged_val; [exact C|exact W|auto|]. cbn [map untyped_stm].
    eapply stm_one; [|reflexivity]. cbn [untyped]. eapply v_match; [apply v_copy; [exact S|constructor]| |apply arms_list].
    + eapply ex_choice; [constructor; constructor|exact Dt| |].
      * destruct ms; [|discriminate]. destruct vs as [|[v0 u] vs]; [contradiction|]. exfalso. apply (In_ v0). now left.
      * intros w I. apply In_ in I. apply in_map_iff in I. destruct I as (a & <- & I). exists "val". rewrite !map_map. apply in_map_iff. exists a. auto.
    + destruct ms; [|discriminate]. destruct vs as [|[v0 u] vs]; [contradiction|]. exfalso. apply (In_ v0). now left.
    + intros m I. apply in_map_iff in I. destruct I as (a & <- & I). rewrite Forall_forall in F. eapply warm_val; eauto.
Qed.
Lemma ns_val_stms G nss : var G "ctx" Context -> stms self r G (map untyped_stm (map ns_stm nss)) (map ns_stm nss) G.
Proof.
  intros C. induction nss as [|d nss IH]; [constructor|]. cbn [map]. unfold ns_stm at 1 3. destruct (is_empty (fst d)); cbn [untyped_stm]; (eapply ss_expr; [|discriminate|exact IH]).
  - cbn [untyped call map]. eapply (v_method _ _ _ _ _ _ _ _ Context); [apply p_var; exact C|constructor|apply (me_set_default_ns _ str_ref); constructor|].
    eapply args_one; constructor.
  - cbn [untyped call map]. eapply (v_method _ _ _ _ _ _ _ _ Context); [apply p_var; exact C|constructor|apply (me_set_ns _ str_ref str_ref); constructor|].
    eapply args_two; constructor.
Qed.
Lemma writer_typed : write_ok p (ti_decl t) (ti_write t) ->
  body_val items t writing_type [("writer", Some Out); ("ctx", Some Context); ("self", Some (YRef (YNamed self)))] (writer_code t).
Proof.
  intros H. set (G := [("writer", Some Out); ("ctx", Some Context); ("self", Some (YRef (YNamed self)))] : tenv).
  destruct (write_val G H eq_refl eq_refl eq_refl) as (G' & S). eapply body_block. unfold writer_code. rewrite untyped_block. rewrite map_app.
  eapply v_block; [eapply stms_app; [apply ns_val_stms; reflexivity|exact S]|]. cbn [untyped map]. eapply ok_call; eauto; [reflexivity|constructor].
Qed.
Lemma to_xml_typed : body_val items t (YRes (YVec Byte) WriterError) [("self", Some (YRef (YNamed self)))] (to_xml_code t).
Proof.
  eapply body_block. unfold to_xml_code. rewrite untyped_block. cbn [map untyped_stm]. set (o := YRes (YVec Byte) WriterError).
  eapply v_block with (G1 := [("ctx", None); ("writer", Some (YWriter (YRef (YVec Byte)))); ("body", Some (YVec Byte)); ("self", Some (YRef (YNamed self)))]);
    [|cbn [untyped map]; eapply ok_call; eauto; [reflexivity|apply v_move; [reflexivity|intros X; inversion X]]].
  eapply ss_let; [cbn [untyped map]; eapply vec_new; eauto|].
  eapply ss_let; [cbn [untyped map call]|].
  { eapply (v_method _ _ _ _ _ _ _ _ EmitterConfig); [apply p_val; [reflexivity|]|constructor|apply (me_create _ (YRef (YVec Byte))); repeat constructor|].
    - eapply (v_method _ _ _ _ _ _ _ _ EmitterConfig); [apply p_val; [reflexivity|]|constructor|constructor|].
      + eapply v_function; [constructor|constructor].
      + eapply args_one; [constructor|constructor].
    - eapply args_one; [apply v_ref, p_var; reflexivity|constructor]. }
  eapply ss_expr; [|discriminate|].
  { cbn [untyped map call]. eapply v_try; [|reflexivity|apply cv_refl].
    eapply (v_method _ _ _ _ _ _ _ _ (YWriter (YRef (YVec Byte)))); [apply p_var; reflexivity|constructor|repeat constructor|].
    eapply args_one; [|constructor]. cbn [untyped map fst snd].
    apply v_lib_struct with (ts := [Version; YOpt str_ref; YOpt YBool]) (ds := [("version", Version); ("encoding", YOpt str_ref); ("standalone", YOpt YBool)]); [reflexivity| |apply Permutation_refl].
    econstructor; [constructor|constructor|]. econstructor; [|constructor|econstructor; [|constructor|constructor]].
    - apply v_some; [eapply prelude_no_tuple; eauto; simpl; tauto|]. eapply args_one; constructor.
    - apply v_none. eapply prelude_no_tuple; eauto; simpl; tauto. }
  eapply ss_let; [cbn [untyped map]; eapply v_function; [constructor|eapply args_one; constructor]|].
  eapply ss_expr; [|discriminate|constructor]. cbn [untyped map]. eapply v_try; [|reflexivity|apply cv_refl].
  eapply writer_call with (w := YRef (YVec Byte)); eauto.
  - apply defined_in. eauto.
  - apply p_var. reflexivity.
  - constructor. constructor.
  - reflexivity.
  - repeat constructor.
  - apply v_ref, p_var. reflexivity.
Qed.

(** ** All of them *)
Lemma fn_good i q : functions_ok p t -> In i (impls_of t) -> In q (pi_fns i) ->
  exists g, item_fn t (pf_name q) = Some g /\ fn_typed items i q (as_body (fn_body g)).
Proof.
  intros (Rd & Wr & Lk) Ii Q.
  assert (F : forall f g pub gs tys ret ts u, In q (fn_of t f) -> item_fn t f = Some g -> signature f = Some (pub, gs, tys, ret) ->
    sig_of i q = Some (ts, u) -> length (fn_params g) = length tys ->
    body_val items t u (rev (combine (fn_params g) (map Some ts))) (fn_body g) ->
    exists g, item_fn t (pf_name q) = Some g /\ fn_typed items i q (as_body (fn_body g))).
  { intros f g pub gs tys ret ts u J Eg Es Sg Le (G' & B). pose proof (fn_of_name _ _ _ J) as Nm. exists g. rewrite Nm. split; [exact Eg|].
    unfold fn_of in J. rewrite Eg, Es in J. destruct J as [<-|[]]. exists ts, u, u, G'. split; [exact Sg|]. split; [|constructor].
    rewrite (impls_type _ _ Ii). cbn [pf_params pf_body]. replace (map fst (combine (fn_params g) tys)) with (fn_params g); [exact B|].
    revert Le. clear. generalize (fn_params g). intros m. revert tys. induction m as [|x m IH]; intros [|y tys] Le; try discriminate; [reflexivity|]. simpl. f_equal. apply IH. now injection Le. }
  assert (Own : pi_trait i = None -> forall f, In q (fn_of t f) -> In f (own_names ++ ["as_str"]) ->
    exists g, item_fn t (pf_name q) = Some g /\ fn_typed items i q (as_body (fn_body g))).
  { intros Tr f J K. pose proof (fn_sig t i f q Ii Tr J) as Sg. simpl in K. destruct K as [<-|[<-|[<-|[<-|[<-|[<-|[]]]]]]].
    - eapply F; [exact J|reflexivity|reflexivity|exact Sg|reflexivity|apply to_xml_typed].
    - eapply F; [exact J|reflexivity|reflexivity|exact Sg|reflexivity|now apply writer_typed].
    - eapply F; [exact J|reflexivity|reflexivity|exact Sg|reflexivity|eapply from_xml_typed; eauto].
    - eapply F; [exact J|reflexivity|reflexivity|exact Sg|reflexivity|eapply read_typed; eauto].
    - eapply F; [exact J|reflexivity|reflexivity|exact Sg|reflexivity|eapply look_typed; eauto].
    - destruct (ti_decl t) as [u b|vs|fs|vs] eqn:D; try (exfalso; unfold fn_of, item_fn in J; rewrite D in J; try (destruct b); destruct J; fail).
      eapply F; [exact J|unfold item_fn; rewrite D; reflexivity|reflexivity|exact Sg|reflexivity|eapply enum_as_str_typed; eauto]. }
  assert (Cv : In i [from_str_impl t; display_impl t] -> converted (ti_decl t) ->
    exists g, item_fn t (pf_name q) = Some g /\ fn_typed items i q (as_body (fn_body g))).
  { intros [<-|[<-|[]]] K; cbn [pi_fns from_str_impl display_impl] in Q.
    - pose proof (from_str_sig t q Q) as Sg. pose proof (decl_good _ Hd t It) as Dg. destruct K as [(u & D)|(vs & D)]; rewrite D in Dg.
      + inversion Dg as [u' b _ Uo| | |]; subst. destruct (Uo eq_refl) as (q0 & ->).
        eapply F; [exact Q|unfold item_fn; rewrite D; reflexivity|reflexivity|exact Sg|reflexivity|eapply tuple_from_str_typed; eauto].
      + eapply F; [exact Q|unfold item_fn; rewrite D; reflexivity|reflexivity|exact Sg|reflexivity|eapply enum_from_str_typed; eauto].
    - pose proof (fmt_sig t q Q) as Sg. pose proof (decl_good _ Hd t It) as Dg. destruct K as [(u & D)|(vs & D)]; rewrite D in Dg.
      + inversion Dg as [u' b _ Uo| | |]; subst. destruct (Uo eq_refl) as (q0 & ->).
        eapply F; [exact Q|unfold item_fn; rewrite D; reflexivity|reflexivity|exact Sg|reflexivity|eapply tuple_fmt_typed; eauto].
      + eapply F; [exact Q|unfold item_fn; rewrite D; reflexivity|reflexivity|exact Sg|reflexivity|eapply enum_fmt_typed; eauto]. }
  assert (Ow : forall fs, i = mkPimpl None (ti_id t) [] (flat_map (fn_of t) fs) -> incl fs (own_names ++ ["as_str"]) ->
    exists g, item_fn t (pf_name q) = Some g /\ fn_typed items i q (as_body (fn_body g))).
  { intros fs -> K. cbn [pi_fns] in Q. apply in_flat_map in Q. destruct Q as (f & J & Qf). eapply Own; eauto. }
  unfold impls_of in Ii. apply in_app_or in Ii. destruct Ii as [Ii|Ii].
  - destruct (ti_decl t) as [u []|vs| |] eqn:D; try (destruct Ii; fail).
    + apply Cv; [exact Ii|left; eauto].
    + destruct Ii as [Ii|[Ii|[Ii|[]]]]; [apply Cv; [now left|right; eauto]|eapply Ow; [symmetry; exact Ii|intros f J; simpl in *; tauto]|apply Cv; [right; now left|right; eauto]].
  - destruct Ii as [Ii|[Ii|[Ii|[]]]]; (eapply Ow; [symmetry; exact Ii|intros f J; simpl in *; tauto]).
Qed.
End Functions.
