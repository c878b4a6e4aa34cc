(** * TypingRead: the functions that read have types *)
From Verif Require Import Base Libs Xml Ast Gen Emit Rust Body RustSpec EmitSpec GramSpec GramWrite TypingSpec TypingProof TypingItems.
From Coq Require Import Permutation Lia.

Definition node_like (t : typ) : Prop := t = Node \/ t = YRef Node.
Lemma node_derefs t : node_like t -> derefs t Node.
Proof. intros [-> | ->]; repeat constructor. Qed.
Definition decoding (r : typ) : Prop := exists a, r = YRes a DecodeError.

Section Read.
Variables (items : list pitem) (l : list (root * titem)) (p : program).
Hypothesis Hh : holds items l.
Hypothesis Hl : forall t, In t p <-> In t (map snd l).
Hypothesis Hd : decls_ok p.
Notation val := (val items).
Notation place := (place items).
Notation stms := (stms items).
Notation args := (args items).
Notation fields := (fields items).
Notation arms := (arms items).
Variable self : string.

Lemma args_one r G e e' u t G1 : val self r G e e' u G1 -> coerces u t -> args self r G [e] [e'] [t] G1.
Proof. intros. econstructor; eauto. constructor. Qed.
Lemma args_two r G e e' u t G1 f f' u' t' G2 : val self r G e e' u G1 -> coerces u t -> val self r G1 f f' u' G2 -> coerces u' t' ->
  args self r G [e; f] [e'; f'] [t; t'] G2.
Proof. intros. econstructor; eauto. eapply args_one; eauto. Qed.
Lemma block_one r G e e' t G1 : val self r G e e' t G1 -> val self r G (EBlock [] e) (EBlock [] e') t (out G G1).
Proof. intros. eapply v_block; [constructor|eauto]. Qed.
Lemma block_let r G x a a' u G1 e e' t G2 : val self r G a a' u G1 -> val self r ((x, Some u) :: G1) e e' t G2 ->
  val self r G (EBlock [SLet x a] e) (EBlock [SLet x a'] e') t (out G G2).
Proof. intros. eapply v_block; eauto. econstructor; eauto. constructor. Qed.
Lemma str_val r G x : var G x str_ref -> val self r G (EVar x) (EVar x) str_ref G.
Proof. intros. apply v_copy; auto. constructor. Qed.
Lemma str_of_lit r G s : val self r G (untyped (str_of (EStr s))) (str_of (EStr s)) YString G.
Proof. eapply (v_method _ _ _ _ _ _ _ _ YStr); [apply p_val; [reflexivity|constructor]|constructor; constructor|constructor; constructor|constructor]. Qed.
Lemma str_of_var r G x : var G x str_ref -> val self r G (untyped (str_of (v x))) (str_of (v x)) YString G.
Proof. intros V. eapply (v_method _ _ _ _ _ _ _ _ YStr); [apply p_var; eauto|constructor; constructor|constructor; constructor|constructor]. Qed.
Lemma node_call r G T m es es' ts w G1 : var G "node" T -> node_like T -> method_of items Node m ts w -> args self r G es es' ts G1 ->
  val self r G (EMethod (EVar "node") None m es) (EMethod (EVar "node") None m es') w G1.
Proof. intros V N M A. eapply (v_method _ _ _ _ _ _ _ _ Node); [apply p_var; eauto|now apply node_derefs|eauto|eauto]. Qed.
Lemma ns_val r G ns : val self r G (untyped (ns_code ns)) (ns_code ns) (YOpt str_ref) G.
Proof.
  destruct ns; simpl.
  - apply v_some; [eapply prelude_no_tuple; eauto; simpl; tauto|]. eapply args_one; [constructor|constructor].
  - apply v_none. eapply prelude_no_tuple; eauto; simpl; tauto.
Qed.
Lemma child_args r G n ns : args self r G [untyped (EStr n); untyped (ns_code ns)] [EStr n; ns_code ns] [str_ref; YOpt str_ref] G.
Proof. eapply args_two; [constructor|constructor|apply ns_val|constructor]. Qed.

Lemma parse_error r G n x y : var G x str_ref -> y <> x -> var G y (YErr n) -> forall ty,
  exists G2, val self r G (untyped (err_struct "ParseType" [("type_", str_of (EStr ty)); ("value", str_of (v x)); ("err", ECall (PAssoc "Box" "new") None [v y])]))
    (err_struct "ParseType" [("type_", str_of (EStr ty)); ("value", str_of (v x)); ("err", ECall (PAssoc "Box" "new") None [v y])]) DecodeError G2
  /\ G2 = moved y G.
Proof.
  intros V N W ty. eexists. split; [|reflexivity]. unfold err_struct. cbn [untyped map fst snd].
  apply v_lib_struct with (ts := [YString; YString; YBox YDyn]) (ds := [("type_", YString); ("value", YString); ("err", YBox YDyn)]);
    [reflexivity| |apply Permutation_refl]. econstructor; [apply str_of_lit|constructor|].
  econstructor; [apply str_of_var; exact V|constructor|]. econstructor; [|apply co_unsize; constructor|constructor].
  apply v_box_new; [eapply prelude_no_type; eauto; simpl; tauto|]. eapply args_one; [|constructor].
  apply v_move; [exact W|intros C; inversion C].
Qed.
Lemma lit_val r G lt : decoding r -> var G "val" str_ref -> val self r G (untyped (lit_code lt)) (lit_code lt) (YPrim (lit_prim lt)) G.
Proof.
  intros (a & ->) V. unfold lit_code. cbn [untyped map]. eapply v_try; [|reflexivity|constructor].
  destruct (parse_error DecodeError (("err", Some (YErr (lit_prim lt))) :: G) (lit_prim lt) "val" "err") with (ty := xsd_name lt) as (G2 & E & ->);
    [exact V|discriminate|reflexivity|]. eapply v_map_err; [|apply block_one; exact E|].
  - apply (v_from_str items self _ _ _ (TPrim (lit_prim lt))); [reflexivity|constructor|]. eapply args_one; [now apply str_val|constructor].
  - unfold moved. cbn [aset]. replace ("err" =?s "err") with true by reflexivity. unfold out at 2. cbn [length].
    rewrite Nat.sub_diag. cbn [skipn]. apply out_cons.
Qed.

Lemma own_call f ts u : In f own_names -> (forall t i q, In i (impls_of t) -> pi_trait i = None -> In q (fn_of t f) -> sig_of i q = Some (ts t, u t)) ->
  forall id t0 r G es es' G1, In t0 p -> ti_id t0 = id -> id <> "Self" -> (forall s, subst s (u t0) = u t0) -> f <> "to_xml_writer" ->
  args self r G es es' (map (subst []) (ts t0)) G1 ->
  val self r G (ECall (PAssoc id f) None es) (ECall (PAssoc id f) None es') (u t0) G1.
Proof.
  intros I S id t0 r G es es' G1 It E N Su Nf A. destruct (in_inherent _ _ _ Hh Hl t0 f It I) as (i & q & H & Q).
  pose proof H as (_ & _ & _ & _ & _). destruct (inherent_in _ _ _ Hh Hl _ _ _ _ H) as (t1 & I1 & E1 & J & Tr & Q1 & _).
  pose proof (same_item _ Hd t1 t0 I1 It E1) as ->. rewrite <- (Su []).
  eapply v_own with (i := i) (q := q); [|apply S; eauto| |exact A].
  - unfold type_name. destruct (String.eqb_spec id "Self"); [contradiction|]. rewrite <- E. exact H.
  - unfold within. apply Forall_forall. intros g Ig X. exfalso. apply X. unfold fn_of in Q. destruct (item_fn t0 f) eqn:F; [|destruct Q].
    destruct (signature f) as [[[[pub gs] tys] ret]|] eqn:Sf; [|destruct Q]. destruct Q as [<-|[]]. cbn [pf_generics] in Ig.
    simpl in I. destruct I as [<-|[<-|[<-|[<-|[<-|[]]]]]]; try contradiction; (cbn in Sf; injection Sf as <- <- <- <-; destruct Ig).
Qed.
Lemma not_self id : defined p id -> id <> "Self".
Proof. intros D ->. apply defined_in in D. destruct D as (t & I & E). destruct (item_name _ Hd t I) as (N & _). rewrite E in N. apply N. simpl. tauto. Qed.

Lemma rx_val r G T x t : decoding r -> var G "node" T -> node_like T -> rx_type p x t ->
  val self r G (untyped (rx_code x)) (rx_code x) (up t) G.
Proof.
  intros D V N H. destruct H as [lt|s|id Di]; unfold rx_code.
  - cbn [untyped map]. rewrite <- (out_cons ("val", Some str_ref) G) at 2. eapply block_let.
    + destruct D as (a & ->). eapply v_try; [|reflexivity|constructor]. eapply node_call; eauto; constructor.
    + cbn [up]. apply lit_val; auto. reflexivity.
  - rewrite untyped_block. cbn [map untyped_stm]. cbn [untyped map]. rewrite untyped_unit_block. cbn [map untyped_stm]. rewrite <- (out_cons ("val", Some str_ref) G) at 2.
    assert (V2 : var (("val", Some str_ref) :: G) "val" str_ref) by reflexivity. set (G1 := ("val", Some str_ref) :: G) in *.
    eapply block_let.
    + destruct D as (a & ->). eapply v_try; [|reflexivity|constructor]. eapply node_call; eauto; constructor.
    + fold G1. rewrite <- (join_same G1) at 2. eapply v_if with (G1 := G1); [|rewrite <- (out_same G1) at 2; apply unit_block_val|constructor].
      * eapply v_ne; [now apply str_val|constructor].
      * eapply ss_expr; [|discriminate|constructor]. destruct D as (a & ->). eapply (v_return _ _ _ _ _ _ _ YUnit); [|apply co_refl].
        cbn [untyped map]. apply v_err; [eapply prelude_no_tuple; eauto; simpl; tauto|]. eapply args_one; [|constructor].
        eapply (v_method _ _ _ _ _ _ _ _ DecodeError); [apply p_val; [reflexivity|]|constructor|apply (me_into _ _ DecodeError); constructor|constructor].
        unfold err_struct. cbn [untyped map fst snd]. apply v_lib_struct with (ts := [str_ref; YString]) (ds := [("expected", str_ref); ("received", YString)]); [reflexivity| |apply Permutation_refl].
        econstructor; [constructor|constructor|]. econstructor; [now apply str_of_var|constructor|]. constructor.
  - cbn [untyped map up]. destruct D as (a & ->). apply defined_in in Di as Dt. destruct Dt as (t & I & E).
    eapply v_try; [|reflexivity|constructor]. rewrite <- E. rewrite E.
    replace (YRes (YNamed id) DecodeError) with (YRes (YNamed (ti_id t)) DecodeError) by now rewrite E.
    eapply (own_call "from_xml_node" (fun _ => [YRef Node]) (fun t => YRes (YNamed (ti_id t)) DecodeError)); eauto; try discriminate; try (simpl; tauto).
    + intros t' i q A B C. now rewrite (fn_sig t' i _ q A B C).
    + now apply not_self.
    + eapply args_one; [apply v_ref, p_var; eauto|]. apply co_deref. cbn. now apply node_derefs.
Qed.
Lemma look_val r G id : defined p id -> var G "node" (YRef Node) ->
  val self r G (ECall (PAssoc id "lookahead") None [EVar "node"]) (ECall (PAssoc id "lookahead") None [EVar "node"]) YBool G.
Proof.
  intros Di V. apply defined_in in Di as Dt. destruct Dt as (t & I & E).
  eapply (own_call "lookahead" (fun _ => [YRef Node]) (fun t => YBool)); eauto; try discriminate; try (simpl; tauto).
  - intros t' i q A B C. now rewrite (fn_sig t' i _ q A B C).
  - now apply not_self.
  - eapply args_one; [|constructor]. apply v_copy; auto. constructor.
Qed.

Lemma vec_new r G t : val self r G (ECall (PAssoc "Vec" "new") None []) (ECall (PAssoc "Vec" "new") None []) (YVec t) G.
Proof. apply v_vec_new. eapply prelude_no_type; eauto; simpl; tauto. Qed.
Lemma vec_move r G t : val self r (("vec", Some (YVec t)) :: G) (EVar "vec") (EVar "vec") (YVec t) (("vec", None) :: G).
Proof. replace (("vec", None) :: G) with (moved "vec" (("vec", Some (YVec t)) :: G)) by reflexivity. apply v_move; [reflexivity|]. intros C; inversion C. Qed.
Lemma push_block r G T x t u : decoding r -> var G "node" T -> node_like T -> rx_type p x t -> var G "vec" u -> u = YVec (up t) ->
  val self r G (untyped (unit_block [SExpr (EPush "vec" (rx_code x))])) (unit_block [SExpr (EPush "vec" (rx_code x))]) YUnit G.
Proof.
  intros D V N H W ->. rewrite untyped_unit_block. rewrite <- (out_same G) at 2. apply unit_block_val. eapply ss_expr; [|discriminate|constructor].
  cbn [untyped]. eapply v_push; [eapply rx_val; eauto|constructor|exact W].
Qed.
Lemma next_val r G T n ns : var G "node" T -> node_like T ->
  val self r G (untyped (call (v "node") "next_child" [EStr n; ns_code ns])) (call (v "node") "next_child" [EStr n; ns_code ns]) (YOpt Node) G.
Proof. intros V N. eapply node_call; [eauto|auto|apply me_next|apply child_args]. Qed.
Lemma next_stms_val r G T n ns x t : decoding r -> var G "node" T -> node_like T -> rx_type p x t ->
  stms self r G (map untyped_stm (next_stms n ns x)) (next_stms n ns x) (("vec", Some (YVec (up t))) :: G).
Proof.
  intros D V N H. unfold next_stms. cbn [map untyped_stm]. eapply ss_let; [apply vec_new|]. eapply ss_expr; [|reflexivity|constructor].
  cbn [untyped]. eapply v_while_let.
  - eapply next_val; [exact V|exact N].
  - constructor.
  - eapply push_block with (T := Node); [exact D|reflexivity|now left|exact H|reflexivity|reflexivity].
  - apply out_cons.
Qed.
Lemma vec_val r G (opt : bool) e e' t : val self r G e e' (YVec t) G -> 
  val self r G (if opt then EBlock [SLet "val" e] (EIf (EMethod (EVar "val") None "is_empty" []) (EBlock [] none) (EBlock [] (ECall (PName "Some") None [EVar "val"]))) else EBlock [] e)
    (vec_code opt e') (if opt then YOpt (YVec t) else YVec t) G.
Proof.
  intros H. destruct opt; unfold vec_code; simpl.
  - rewrite <- (out_app [("val", None)] G) at 2. simpl. eapply block_let; [exact H|]. set (G1 := ("val", Some (YVec t)) :: G).
    assert (J : ("val", None) :: G = join G1 (("val", None) :: G)) by (unfold G1; simpl; now rewrite join_same). rewrite J.
    eapply v_if.
    + eapply (v_method _ _ _ _ _ _ _ _ (YVec t)); [apply p_var; reflexivity|constructor|constructor|constructor].
    + rewrite <- (out_same G1) at 2. apply block_one. apply v_none. eapply prelude_no_tuple; eauto; simpl; tauto.
    + replace (("val", None) :: G) with (out G1 (("val", None) :: G)).
      * apply block_one. apply v_some; [eapply prelude_no_tuple; eauto; simpl; tauto|]. eapply args_one; [|constructor].
        replace (("val", None) :: G) with (moved "val" G1) by reflexivity. apply v_move; [reflexivity|intros C; inversion C].
      * unfold out, G1. cbn [length]. now rewrite Nat.sub_diag.
  - rewrite <- (out_same G) at 2. now apply block_one.
Qed.
Lemma some_val r G e e' t : val self r G e e' t G -> val self r G (EBlock [] (ECall (PName "Some") None [e])) (value_block (some e')) (YOpt t) G.
Proof.
  intros H. rewrite <- (out_same G) at 2. apply block_one. apply v_some; [eapply prelude_no_tuple; eauto; simpl; tauto|]. eapply args_one; [exact H|constructor].
Qed.
Lemma none_val r G t : val self r G (EBlock [] none) (value_block none) (YOpt t) G.
Proof. rewrite <- (out_same G) at 2. apply block_one. apply v_none. eapply prelude_no_tuple; eauto; simpl; tauto. Qed.

Lemma fr_val r G f t : decoding r -> var G "node" (YRef Node) -> fr_type p f t -> val self r G (untyped (fr_code f)) (fr_code f) (up t) G.
Proof.
  intros D V H. assert (N : node_like (YRef Node)) by now right.
  destruct H as [x t H|id x opt t Di H|id x t Di H|n ns x opt t H|n ns x t H|n ns x t H|n ns x t H]; unfold fr_code.
  - rewrite <- (out_same G) at 2. apply block_one. eapply rx_val; eauto.
  - replace (up (wrap_opt opt (TVec t))) with (if opt then YOpt (YVec (up t)) else YVec (up t)) by now destruct opt.
    replace (untyped (vec_code opt (while_look_code id x))) with
      (if opt then EBlock [SLet "val" (untyped (while_look_code id x))] (EIf (EMethod (EVar "val") None "is_empty" []) (EBlock [] none) (EBlock [] (ECall (PName "Some") None [EVar "val"]))) else EBlock [] (untyped (while_look_code id x)))
      by now destruct opt.
    apply vec_val. unfold while_look_code. rewrite untyped_block. cbn [map untyped_stm]. rewrite <- (out_cons ("vec", None) G) at 2.
    eapply v_block; [|apply vec_move]. eapply ss_let; [apply vec_new|]. eapply ss_expr; [|reflexivity|constructor].
    cbn [untyped map]. apply v_while; [now apply look_val|]. eapply push_block; eauto; reflexivity.
  - cbn [untyped value_block]. rewrite <- (out_same G) at 2. apply block_one. cbn [untyped map]. rewrite <- (join_same G) at 2.
    eapply v_if; [now apply look_val| |]; [|apply none_val]. apply some_val. eapply rx_val; eauto.
  - replace (up (wrap_opt opt (TVec t))) with (if opt then YOpt (YVec (up t)) else YVec (up t)) by now destruct opt.
    replace (untyped (vec_code opt (while_next_code n ns x))) with
      (if opt then EBlock [SLet "val" (untyped (while_next_code n ns x))] (EIf (EMethod (EVar "val") None "is_empty" []) (EBlock [] none) (EBlock [] (ECall (PName "Some") None [EVar "val"]))) else EBlock [] (untyped (while_next_code n ns x)))
      by now destruct opt.
    apply vec_val. unfold while_next_code. rewrite untyped_block. rewrite <- (out_cons ("vec", None) G) at 2.
    eapply v_block; [|apply vec_move]. eapply next_stms_val; eauto.
  - cbn [untyped value_block]. rewrite <- (out_same G) at 2. apply block_one. cbn [untyped]. rewrite <- (join_same G) at 2. rewrite <- (out_cons ("node", Some Node) G) at 2.
    eapply v_if_let; [eapply next_val; eauto|constructor| |apply none_val]. apply some_val. eapply rx_val; [eauto|reflexivity|now left|exact H].
  - rewrite untyped_block. cbn [map untyped_stm]. rewrite <- (out_cons ("node", Some Node) G) at 2. eapply block_let.
    + destruct D as (a & ->). cbn [untyped]. eapply v_try; [|reflexivity|constructor]. eapply node_call; [eauto|auto|apply me_try_child|apply child_args].
    + eapply rx_val; [eauto|reflexivity|now left|exact H].
  - rewrite untyped_block. cbn [map untyped_stm]. rewrite <- (out_cons ("node", Some Node) G) at 2. eapply block_let.
    + destruct D as (a & ->). cbn [untyped]. eapply v_try; [|reflexivity|constructor]. eapply node_call; [eauto|auto|apply me_try_next|apply child_args].
    + eapply rx_val; [eauto|reflexivity|now left|exact H].
Qed.

Lemma ax_val r G a t : decoding r -> var G "val" str_ref -> ax_type p a t -> val self r G (untyped (ax_code a)) (ax_code a) (up t) G.
Proof.
  intros D V H. destruct H as [lt| | |id E]; unfold ax_code.
  - now apply lit_val.
  - constructor.
  - destruct D as (a & ->). cbn [untyped map]. eapply v_try; [|reflexivity|apply cv_infallible]. eapply (v_from_str items self _ _ _ (TPrim PString)); [reflexivity|constructor|].
    eapply args_one; [now apply str_val|constructor].
  - destruct D as (a & ->). cbn [untyped map]. eapply v_try; [|reflexivity|apply cv_refl]. destruct E as (t & vs & I & <- & Dt).
    eapply (v_from_str items self _ _ _ (TRef (ti_id t))); [reflexivity|eapply own_from_str; eauto; right; eauto|]. eapply args_one; [now apply str_val|constructor].
Qed.
Lemma ra_val r G a t : decoding r -> var G "node" (YRef Node) -> ra_type p a t -> val self r G (untyped (ra_code a)) (ra_code a) (up t) G.
Proof.
  intros D V H. assert (N : node_like (YRef Node)) by now right. unfold ra_type, ra_code in *. destruct (ra_opt a).
  - destruct H as (u & -> & H). cbn [untyped value_block up]. rewrite <- (out_same G) at 2. apply block_one. cbn [untyped map]. rewrite <- (join_same G) at 2. rewrite <- (out_cons ("val", Some str_ref) G) at 2.
    eapply v_if_let; [|constructor| |apply none_val].
    + eapply node_call; eauto; [apply me_attribute|]. eapply args_one; [constructor|constructor].
    + apply some_val. apply ax_val; auto. reflexivity.
  - rewrite untyped_block. cbn [map untyped_stm]. rewrite <- (out_cons ("val", Some str_ref) G) at 2. eapply block_let.
    + destruct D as (b & ->). cbn [untyped]. eapply v_try; [|reflexivity|constructor]. eapply node_call; [eauto|auto|apply me_try_attribute|].
      eapply args_one; [constructor|constructor].
    + apply ax_val; auto. reflexivity.
Qed.

Lemma self_name : self <> "Self" -> type_name self "Self" = self.
Proof. reflexivity. Qed.
Lemma case_val r G vs w u e e' G1 : declared items self (DChoice vs) -> In (w, u) vs -> val self r G e e' (up u) G1 ->
  val self r G (ECall (PAssoc "Self" w) None [e]) (ECall (PAssoc "Self" w) None [e']) (YNamed self) G1.
Proof.
  intros D I H. apply (v_case items self r G "Self" w vs u); [exact D|exact I|]. eapply args_one; [exact H|constructor].
Qed.
Lemma arms_val r G vs name ms : decoding r -> var G "node" (YRef Node) -> declared items self (DChoice vs) -> Forall (arm_type p vs) ms ->
  val self r G (untyped (arms_code name ms)) (arms_code name ms) (YNamed self) G.
Proof.
  intros D V C F. assert (N : node_like (YRef Node)) by now right. induction F as [|m ms H F IH].
  - cbn [arms_code]. cbn [untyped value_block map]. rewrite <- (out_same G) at 2. apply block_one. cbn [untyped map].
    destruct D as (a & ->). eapply v_return; [|apply co_refl]. cbn [untyped map]. apply v_err; [eapply prelude_no_tuple; eauto; simpl; tauto|]. eapply args_one; [|constructor].
    eapply (v_method _ _ _ _ _ _ _ _ DecodeError); [apply p_val; [reflexivity|]|constructor|apply (me_into _ _ DecodeError); constructor|constructor].
    unfold err_struct. cbn [untyped map fst snd]. apply v_lib_struct with (ts := [YString]) (ds := [("name", YString)]); [reflexivity| |apply Permutation_refl].
    econstructor; [apply str_of_lit|constructor|]. constructor.
  - destruct H as [w id x t Di I H|w n ns x t I H|w n ns x t I H]; cbn [arms_code untyped map].
    + rewrite <- (join_same G) at 2. eapply v_if; [now apply look_val| |exact IH]. rewrite <- (out_same G) at 2. apply block_one.
      eapply case_val; eauto. eapply rx_val; eauto.
    + rewrite <- (join_same G) at 2. eapply v_if; [eapply node_call; [eauto|auto|apply me_peek|apply child_args]| |exact IH].
      rewrite <- (out_cons ("vec", None) G) at 2. eapply v_block; [eapply next_stms_val; eauto|].
      cbn [untyped map]. eapply case_val; eauto. cbn [up]. apply vec_move.
    + rewrite <- (join_same G) at 2. rewrite <- (out_cons ("node", Some Node) G) at 2. eapply v_if_let; [eapply next_val; eauto|constructor| |exact IH].
      cbn [app]. replace (("node", Some Node) :: G) with (out (("node", Some Node) :: G) (("node", Some Node) :: G)) at 2 by apply out_same.
      apply block_one. eapply case_val; eauto. eapply rx_val; [eauto|reflexivity|now left|exact H].
Qed.

Lemma fields_list r G (ds : list (string * rty)) (fs : list (string * ex)) :
  Forall2 (fun d f => fst d = fst f /\ val self r G (untyped (snd f)) (snd f) (up (snd d)) G) ds fs ->
  fields self r G (map (fun f => (fst f, untyped (snd f))) fs) fs (map (fun d => up (snd d)) ds) G
  /\ combine (map fst (map (fun f => (fst f, untyped (snd f))) fs)) (map (fun d => up (snd d)) ds) = map (fun d => (fst d, up (snd d))) ds.
Proof.
  induction 1 as [|d [f e] ds fs (E & H) F (A & B)]; [split; [constructor|reflexivity]|]. cbn [map fst snd combine] in *. split.
  - econstructor; [exact H|constructor|exact A].
  - rewrite B, E. reflexivity.
Qed.

Lemma look_fold r G ks e e' : var G "node" (YRef Node) -> (forall id, In (LkCall id) ks -> defined p id) ->
  val self r G e e' YBool G ->
  val self r G (fold_left (fun e k => EOr e (untyped (lk1_code k))) ks e) (fold_left (fun e k => EOr e (lk1_code k)) ks e') YBool G.
Proof.
  intros V. revert e e'. induction ks as [|k ks IH]; intros e e' D H; simpl; auto. apply IH; [intros; apply D; now right|].
  rewrite <- (join_same G) at 2. eapply v_or; [exact H|]. destruct k as [id|n ns]; cbn [lk1_code untyped map].
  - apply look_val; auto. apply D. now left.
  - eapply node_call; [exact V|now right|apply me_peek|apply child_args].
Qed.
Lemma untyped_fold ks : forall e, untyped (fold_left (fun e k => EOr e (lk1_code k)) ks e) = fold_left (fun e k => EOr e (untyped (lk1_code k))) ks (untyped e).
Proof. induction ks as [|k ks IH]; intros e; simpl; auto. now rewrite IH. Qed.
Lemma look_fn_val r G k : var G "node" (YRef Node) -> look_ok p k -> val self r G (untyped (look_code k)) (look_code k) YBool G.
Proof.
  intros V H. destruct H as [|ks D]; cbn [look_code]; [constructor|]. rewrite untyped_fold. apply look_fold; auto. constructor.
Qed.
End Read.

(** ** Functions *)
Section Functions.
Variables (items : list pitem) (l : list (root * titem)) (p : program).
Hypothesis Hh : holds items l.
Hypothesis Hl : forall t, In t p <-> In t (map snd l).
Hypothesis Hd : decls_ok p.
Notation val := (val items).
Variable t : titem.
Hypothesis It : In t p.

Definition body_val (r : typ) (G : tenv) (e : ex) : Prop := exists G', val (ti_id t) r G (as_body (untyped e)) (as_body e) r G'.
Lemma body_block r G e G' : val (ti_id t) r G (untyped e) e r G' -> body_val r G e.
Proof.
  intros H. destruct e; cbn [as_body untyped]; try (exists (out G G'); now apply block_one). exists G'. exact H.
Qed.
Lemma ok_call r G e e' u w G' : r = YRes u w -> val (ti_id t) r G e e' u G' ->
  val (ti_id t) r G (ECall (PName "Ok") None [e]) (ECall (PName "Ok") None [e']) r G'.
Proof. intros -> H. apply v_ok; [eapply prelude_no_tuple; eauto; simpl; tauto|]. eapply args_one; [exact H|constructor]. Qed.

Lemma read_typed : read_ok p (ti_decl t) (ti_read t) ->
  body_val (YRes (YNamed (ti_id t)) DecodeError) [("node", Some (YRef Node))] (read_code t).
Proof.
  intros H. set (r := YRes (YNamed (ti_id t)) DecodeError). set (G := [("node", Some (YRef Node))] : tenv).
  assert (D : decoding r) by (eexists; reflexivity). assert (V : var G "node" (YRef Node)) by reflexivity. assert (N : node_like (YRef Node)) by now right.
  pose proof (in_declared _ _ _ Hh Hl t It) as Dt. eapply (body_block _ _ _ G). unfold read_code. cbn [untyped map]. eapply ok_call; [reflexivity|].
  remember (ti_decl t) as d eqn:Ed. remember (ti_read t) as rd eqn:Er. destruct H as [ty b x H|vs|ds1 ds2 fs ats F1 F2|vs ms F].
  - cbn [untyped map]. eapply v_tuple; [exact Dt|]. eapply args_one; [eapply rx_val; eauto|constructor].
  - rewrite untyped_block. cbn [map untyped_stm]. rewrite <- (out_cons ("val", Some str_ref) G) at 2. eapply block_let.
    + cbn [untyped]. eapply v_try; [|reflexivity|constructor]. eapply node_call; eauto; constructor.
    + cbn [untyped map]. eapply v_try; [|reflexivity|apply cv_refl].
      apply (v_from_str items (ti_id t) _ _ _ (TRef (ti_id t))); [reflexivity|eapply own_from_str; eauto; right; eauto|].
      eapply args_one; [apply str_val; reflexivity|constructor].
  - cbn [untyped]. set (es := map (fun f => (fst f, fr_code (snd f))) fs ++ map (fun a => (ra_field a, ra_code a)) ats).
    assert (F : Forall2 (fun d f => fst d = fst f /\ val (ti_id t) r G (untyped (snd f)) (snd f) (up (snd d)) G) (ds1 ++ ds2) es).
    { apply Forall2_app.
      - clear - F1 D V Hh Hl Hd. induction F1 as [|d f ds1 fs (E & T) F IH]; constructor; auto. split; [exact E|]. eapply fr_val; eauto.
      - clear - F2 D V Hh Hl Hd. induction F2 as [|d f ds1 fs (E & T) F IH]; constructor; auto. split; [exact E|]. eapply ra_val; eauto. }
    apply fields_list in F. destruct F as (A & B). eapply v_struct; [exact Dt|exact A|]. rewrite B. apply Permutation_refl.
  - eapply arms_val; eauto.
Qed.
Lemma look_typed : look_ok p (ti_look t) -> body_val YBool [("node", Some (YRef Node))] (look_code (ti_look t)).
Proof. intros H. eapply body_block. eapply look_fn_val; eauto. reflexivity. Qed.
Lemma from_xml_typed : body_val (YRes (YNamed (ti_id t)) DecodeError) [("input", Some YText)] (from_xml_code t).
Proof.
  set (r := YRes (YNamed (ti_id t)) DecodeError). eapply body_block. unfold from_xml_code. rewrite untyped_block. cbn [map untyped_stm].
  eapply v_block.
  - eapply ss_let; [|eapply ss_let; [|constructor]].
    + cbn [untyped map]. eapply v_try; [|reflexivity|apply cv_refl]. eapply v_function; [apply fu_decode|]. eapply args_one; [|apply co_refl].
      eapply (v_method _ _ _ _ _ _ _ _ YText); [apply p_var; reflexivity|constructor|constructor|constructor].
    + cbn [untyped map]. eapply v_try; [|reflexivity|apply cv_refl].
      eapply (v_method _ _ _ _ _ _ _ _ Document); [apply p_var; reflexivity|constructor|constructor|].
      eapply child_args; eauto.
  - cbn [untyped map].
    destruct (in_inherent _ _ _ Hh Hl t "from_xml_node" It) as (i & q & H & Q); [simpl; tauto|].
    destruct (inherent_in _ _ _ Hh Hl _ _ _ _ H) as (t1 & I1 & E1 & J & Tr & Q1 & _). pose proof (same_item _ Hd t1 t I1 It E1) as ->.
    eapply v_own with (i := i) (q := q) (u := r) (s := []); [exact H|now rewrite (fn_sig t i _ q J Tr Q1)| |].
    + cbn in Q. destruct Q as [<-|[]]. constructor.
    + eapply args_one; [apply v_ref, p_var; reflexivity|apply co_refl].
Qed.

(** ** Conversions *)
Lemma arms_list self r G u (ms : list (pat * ex)) t0 : ms <> [] ->
  (forall m, In m ms -> exists B, binds items self (fst m) u B /\ val self r (B ++ G) (untyped (snd m)) (snd m) t0 (B ++ G)) ->
  arms items self r G u (map (fun a => (fst a, untyped (snd a))) ms) ms t0 G.
Proof.
  intros N H. destruct ms as [|m ms]; [contradiction|]. clear N. revert m H. induction ms as [|m2 ms IH]; intros [q b] H; cbn [map fst snd].
  - destruct (H (q, b)) as (B & A1 & A2); [now left|]. rewrite <- (out_app B G) at 2. eapply am_one; eauto.
  - destruct (H (q, b)) as (B & A1 & A2); [now left|]. rewrite <- (join_same G) at 2. rewrite <- (out_app B G) at 2. eapply am_cons; eauto.
    apply IH. intros m I. apply H. now right.
Qed.
Lemma decl_good : decl_ok p (ti_decl t).
Proof. pose proof (ds_decls p Hd) as D. rewrite Forall_forall in D. auto. Qed.
Lemma not_Self : ti_id t <> "Self".
Proof. destruct (item_name _ Hd t It) as (N & _). intros E. rewrite E in N. apply N. simpl. tauto. Qed.

Lemma enum_from_str_typed vs : ti_decl t = DEnum vs ->
  body_val (YRes (YNamed (ti_id t)) DecodeError) [("s", Some str_ref)] (enum_from_str_code (ti_id t) vs).
Proof.
  intros E. pose proof (in_declared _ _ _ Hh Hl t It) as Dt. rewrite E in Dt.
  eapply body_block. unfold enum_from_str_code. cbn [untyped map]. eapply ok_call; [reflexivity|].
  set (G := [("s", Some str_ref)] : tenv). eapply v_match; [apply str_val; reflexivity|apply ex_any; rewrite map_map; apply in_map_iff|].
  - exists (PAny, EReturn (ECall (PName "Err") None [err_struct "InvalidVariant" [("name", str_of (v "s"))]])). split; [reflexivity|].
    apply in_or_app. right. now left.
  - apply arms_list; [destruct vs; discriminate|]. intros m I. apply in_app_or in I. destruct I as [I|[<-|[]]].
    + apply in_map_iff in I. destruct I as (d & <- & I). exists []. split; [constructor|]. cbn [app fst snd untyped].
      pose proof (v_variant items (ti_id t) (YRes (YNamed (ti_id t)) DecodeError) G (ti_id t) (fst d) vs) as X. unfold type_name in X.
      destruct (String.eqb_spec (ti_id t) "Self"); apply X; auto; now apply in_map.
    + exists []. split; [constructor|]. cbn [app fst snd untyped map]. eapply v_return; [|apply co_refl].
      apply v_err; [eapply prelude_no_tuple; eauto; simpl; tauto|]. eapply args_one; [|constructor].
      unfold err_struct. cbn [untyped map fst snd]. apply v_lib_struct with (ts := [YString]) (ds := [("name", YString)]); [reflexivity| |apply Permutation_refl].
      econstructor; [apply str_of_var; reflexivity|constructor|]. constructor.
Qed.
Lemma enum_as_str_typed vs : ti_decl t = DEnum vs ->
  body_val str_ref [("self", Some (YRef (YNamed (ti_id t))))] (enum_as_str_code vs).
Proof.
  intros E. pose proof (in_declared _ _ _ Hh Hl t It) as Dt. pose proof decl_good as Dg. rewrite E in *.
  eapply body_block. unfold enum_as_str_code. cbn [untyped]. set (G := [("self", Some (YRef (YNamed (ti_id t))))] : tenv).
  inversion Dg; subst. eapply v_match; [apply v_copy; [reflexivity|constructor]| |apply arms_list].
  - eapply ex_enum; [constructor; constructor|exact Dt|destruct vs; [contradiction|discriminate]|]. intros w I. rewrite !map_map.
    apply in_map_iff in I. destruct I as (d & <- & I). apply in_map_iff. exists d. auto.
  - destruct vs; [contradiction|discriminate].
  - intros m I. apply in_map_iff in I. destruct I as (d & <- & I). exists []. split; [|constructor]. eapply bi_unit_ref; [exact Dt|now apply in_map].
Qed.
Lemma enum_fmt_typed vs : ti_decl t = DEnum vs ->
  body_val (YRes YUnit FmtError) [("f", Some (YRef Formatter)); ("self", Some (YRef (YNamed (ti_id t))))] (enum_fmt_code (ti_id t)).
Proof.
  intros E. eapply body_block. unfold enum_fmt_code, call. cbn [untyped map].
  eapply (v_method _ _ _ _ _ _ _ _ Formatter); [apply p_var; reflexivity|constructor; constructor|constructor|]. eapply args_one; [|constructor].
  set (i := mkPimpl None (ti_id t) [] (flat_map (fn_of t) ["as_str"])).
  assert (J : In i (impls_of t)) by (unfold impls_of; rewrite E; apply in_or_app; left; right; left; reflexivity).
  assert (Q : exists q, In q (fn_of t "as_str") /\ pf_generics q = []) by (unfold fn_of, item_fn; rewrite E; simpl; eexists; split; [left; reflexivity|reflexivity]).
  destruct Q as (q & Q & Gq).
  eapply v_own_method with (i := i) (q := q) (ts := []) (u := str_ref) (s := []); [apply p_var; reflexivity|constructor; constructor| | | |constructor].
  - split; [rewrite (impl_in _ _ _ Hh Hl); exists t; auto|]. split; [reflexivity|]. split; [reflexivity|].
    split; [unfold i; cbn [pi_fns flat_map]; rewrite app_nil_r; exact Q|]. now apply (fn_of_name t).
  - rewrite (fn_sig t i _ q J eq_refl Q). reflexivity.
  - unfold within. rewrite Gq. constructor.
Qed.
Lemma tuple_from_str_typed q : ti_decl t = DTuple (TPrim q) true ->
  body_val (YRes (YNamed (ti_id t)) DecodeError) [("s", Some str_ref)] (tuple_from_str_code (ti_id t) (TPrim q)).
Proof.
  intros E. pose proof (in_declared _ _ _ Hh Hl t It) as Dt. rewrite E in Dt.
  set (G := [("s", Some str_ref)] : tenv). eapply body_block with (G' := G). unfold tuple_from_str_code. cbn [untyped map]. eapply ok_call; [reflexivity|].
  eapply v_tuple; [exact Dt|]. eapply args_one; [|constructor]. cbn [up]. eapply v_try; [|reflexivity|constructor].
  destruct (parse_error _ _ _ Hh Hl Hd (ti_id t) DecodeError (("err", Some (YErr q)) :: G) q "s" "err") with (ty := ti_id t) as (G2 & P & ->);
    [reflexivity|discriminate|reflexivity|]. eapply v_map_err; [|apply block_one; exact P|].
  - apply (v_from_str items (ti_id t) _ _ _ (TPrim q)); [reflexivity|constructor|]. eapply args_one; [apply str_val; reflexivity|constructor].
  - reflexivity.
Qed.
Lemma tuple_fmt_typed q : ti_decl t = DTuple (TPrim q) true ->
  body_val (YRes YUnit FmtError) [("f", Some (YRef Formatter)); ("self", Some (YRef (YNamed (ti_id t))))] (tuple_fmt_code (TPrim q)).
Proof.
  intros E. pose proof (in_declared _ _ _ Hh Hl t It) as Dt. rewrite E in Dt. eapply body_block. unfold tuple_fmt_code. cbn [untyped map own_type].
  eapply (v_method _ _ _ _ _ _ _ _ (YPrim q)); [|constructor|constructor; constructor|].
  - change (YPrim q) with (up (TPrim q)). eapply p_first; [apply p_var; reflexivity|constructor; constructor|exact Dt].
  - eapply args_one; [|constructor]. apply v_copy; [reflexivity|constructor].
Qed.
End Functions.
