(** * TypingMain: all functions of a module *)
From Verif Require Import Base Libs Xml Ast Parse Decode Gen Run LitSpec GenSpec GenProof1 DecSpec DecSim DecProof
  RepSpec WfSpec CanonProof2 Emit Rust Body RustSpec RustProof RustLook RustGen EmitSpec GramSpec GramWrite
  TypingSpec TypingProof TypingItems TypingRead TypingInv TypingReadInv TypingFnInv TypingWrite TypingWriteInv.
From Coq Require Import Permutation Lia.

Section Functions.
Variables (items : list pitem) (l : list (root * titem)) (p : program).
Hypothesis Hh : holds items l.
Hypothesis Hl : forall t, In t p <-> In t (map snd l).
Hypothesis Hd : decls_ok p.
Variable t : titem.
Hypothesis It : In t p.
Notation self := (ti_id t).
Notation this := (YRef (YNamed self)).

(** The functions, with their parameters (the last first) and results. *)
Inductive fn_case : string -> ex -> tenv -> typ -> Prop :=
| fc_to_xml : fn_case "to_xml" (to_xml_code t) [("self", Some this)] (YRes (YVec Byte) WriterError)
| fc_writer : fn_case "to_xml_writer" (writer_code t) [("writer", Some Out); ("ctx", Some Context); ("self", Some this)] writing_type
| fc_from_xml : fn_case "from_xml" (from_xml_code t) [("input", Some YText)] (read_result t)
| fc_read : fn_case "from_xml_node" (read_code t) [("node", Some (YRef Node))] (read_result t)
| fc_look : fn_case "lookahead" (look_code (ti_look t)) [("node", Some (YRef Node))] YBool
| fc_as_str vs : ti_decl t = DEnum vs -> fn_case "as_str" (enum_as_str_code vs) [("self", Some this)] str_ref
| fc_enum_from vs : ti_decl t = DEnum vs -> fn_case "from_str" (enum_from_str_code self vs) [("s", Some str_ref)] (read_result t)
| fc_enum_fmt vs : ti_decl t = DEnum vs -> fn_case "fmt" (enum_fmt_code self) [("f", Some (YRef Formatter)); ("self", Some this)] (YRes YUnit FmtError)
| fc_tuple_from q : ti_decl t = DTuple (TPrim q) true -> fn_case "from_str" (tuple_from_str_code self (TPrim q)) [("s", Some str_ref)] (read_result t)
| fc_tuple_fmt q : ti_decl t = DTuple (TPrim q) true -> fn_case "fmt" (tuple_fmt_code (TPrim q)) [("f", Some (YRef Formatter)); ("self", Some this)] (YRes YUnit FmtError).

Lemma fn_cases i q : In i (impls_of t) -> In q (pi_fns i) ->
  exists g G r, item_fn t (pf_name q) = Some g /\ fn_case (pf_name q) (fn_body g) G r
  /\ forall b, fn_typed items i q b -> exists b0 u G', val items self r G (untyped (fn_body g)) b0 u G' /\ coerces u r /\ b = as_body b0.
Proof.
  intros Ii Q.
  assert (F : forall f g pub gs tys ret ts u, In q (fn_of t f) -> item_fn t f = Some g -> signature f = Some (pub, gs, tys, ret) ->
    sig_of i q = Some (ts, u) -> length (fn_params g) = length tys ->
    fn_case f (fn_body g) (rev (combine (fn_params g) (map Some ts))) u ->
    exists g G r, item_fn t (pf_name q) = Some g /\ fn_case (pf_name q) (fn_body g) G r
    /\ forall b, fn_typed items i q b -> exists b0 u G', val items self r G (untyped (fn_body g)) b0 u G' /\ coerces u r /\ b = as_body b0).
  { intros f g pub gs tys ret ts u J Eg Es Sg Le Fc. pose proof (fn_of_name _ _ _ J) as Nm. exists g. do 2 eexists. rewrite Nm. split; [exact Eg|]. split; [exact Fc|].
    unfold fn_of in J. rewrite Eg, Es in J. destruct J as [<-|[]]. intros b (ts' & r & u0 & G' & Sg' & H & C). rewrite Sg in Sg'. injection Sg' as <- <-.
    rewrite (impls_type _ _ Ii) in H. cbn [pf_params pf_body] in H. replace (map fst (combine (fn_params g) tys)) with (fn_params g) in H.
    - apply body_inv in H. destruct H as (b0 & G1 & H & ->). eauto 6.
    - revert Le. clear. generalize (fn_params g). intros m. revert tys. induction m as [|x m IH]; intros [|y tys] Le; try discriminate; [reflexivity|]. simpl. f_equal. apply IH. now injection Le. }
  assert (Own : pi_trait i = None -> forall f, In q (fn_of t f) -> In f (own_names ++ ["as_str"]) ->
    exists g G r, item_fn t (pf_name q) = Some g /\ fn_case (pf_name q) (fn_body g) G r
    /\ forall b, fn_typed items i q b -> exists b0 u G', val items self r G (untyped (fn_body g)) b0 u G' /\ coerces u r /\ b = as_body b0).
  { intros Tr f J K. pose proof (fn_sig t i f q Ii Tr J) as Sg. simpl in K. destruct K as [<-|[<-|[<-|[<-|[<-|[<-|[]]]]]]].
    - eapply F; [exact J|reflexivity|reflexivity|exact Sg|reflexivity|constructor].
    - eapply F; [exact J|reflexivity|reflexivity|exact Sg|reflexivity|constructor].
    - eapply F; [exact J|reflexivity|reflexivity|exact Sg|reflexivity|constructor].
    - eapply F; [exact J|reflexivity|reflexivity|exact Sg|reflexivity|constructor].
    - eapply F; [exact J|reflexivity|reflexivity|exact Sg|reflexivity|constructor].
    - destruct (ti_decl t) as [u b|vs|fs|vs] eqn:D; try (exfalso; unfold fn_of, item_fn in J; rewrite D in J; try (destruct b); destruct J; fail).
      eapply F; [exact J|unfold item_fn; rewrite D; reflexivity|reflexivity|exact Sg|reflexivity|constructor; auto]. }
  assert (Cv : In i [from_str_impl t; display_impl t] -> converted (ti_decl t) ->
    exists g G r, item_fn t (pf_name q) = Some g /\ fn_case (pf_name q) (fn_body g) G r
    /\ forall b, fn_typed items i q b -> exists b0 u G', val items self r G (untyped (fn_body g)) b0 u G' /\ coerces u r /\ b = as_body b0).
  { intros [<-|[<-|[]]] K; cbn [pi_fns from_str_impl display_impl] in Q.
    - pose proof (from_str_sig t q Q) as Sg. pose proof (decl_good _ Hd t It) as Dg. destruct K as [(u & D)|(vs & D)]; rewrite D in Dg.
      + inversion Dg as [u' b _ Uo| | |]; subst. destruct (Uo eq_refl) as (q0 & ->).
        eapply F; [exact Q|unfold item_fn; rewrite D; reflexivity|reflexivity|exact Sg|reflexivity|now constructor].
      + eapply F; [exact Q|unfold item_fn; rewrite D; reflexivity|reflexivity|exact Sg|reflexivity|now constructor].
    - pose proof (fmt_sig t q Q) as Sg. pose proof (decl_good _ Hd t It) as Dg. destruct K as [(u & D)|(vs & D)]; rewrite D in Dg.
      + inversion Dg as [u' b _ Uo| | |]; subst. destruct (Uo eq_refl) as (q0 & ->).
        eapply F; [exact Q|unfold item_fn; rewrite D; reflexivity|reflexivity|exact Sg|reflexivity|now constructor].
      + eapply F; [exact Q|unfold item_fn; rewrite D; reflexivity|reflexivity|exact Sg|reflexivity|now apply (fc_enum_fmt vs)]. }
  assert (Ow : forall fs, i = mkPimpl None (ti_id t) [] (flat_map (fn_of t) fs) -> incl fs (own_names ++ ["as_str"]) ->
    exists g G r, item_fn t (pf_name q) = Some g /\ fn_case (pf_name q) (fn_body g) G r
    /\ forall b, fn_typed items i q b -> exists b0 u G', val items self r G (untyped (fn_body g)) b0 u G' /\ coerces u r /\ b = as_body b0).
  { intros fs -> K. cbn [pi_fns] in Q. apply in_flat_map in Q. destruct Q as (f & J & Qf). eapply Own; eauto. }
  unfold impls_of in Ii. apply in_app_or in Ii. destruct Ii as [Ii|Ii].
  - destruct (ti_decl t) as [u []|vs| |] eqn:D; try (destruct Ii; fail).
    + apply Cv; [exact Ii|left; eauto].
    + destruct Ii as [Ii|[Ii|[Ii|[]]]]; [apply Cv; [now left|right; eauto]|eapply Ow; [symmetry; exact Ii|intros f J; simpl in *; tauto]|apply Cv; [right; now left|right; eauto]].
  - destruct Ii as [Ii|[Ii|[Ii|[]]]]; (eapply Ow; [symmetry; exact Ii|intros f J; simpl in *; tauto]).
Qed.

(** Each function has one meaning. *)
Lemma fn_unique i q b : functions_ok p t -> In i (impls_of t) -> In q (pi_fns i) -> fn_typed items i q b ->
  exists g, item_fn t (pf_name q) = Some g /\ b = as_body (fn_body g).
Proof.
  intros (Rd & Wr & Lk) Ii Q H. destruct (fn_cases i q Ii Q) as (g & G & r & Eg & Fc & T). exists g. split; [exact Eg|].
  destruct (T b H) as (b0 & u & G' & K & C & ->). f_equal. clear T Eg Q H Ii. destruct Fc.
  - eapply to_xml_inv in K; eauto; reflexivity.
  - eapply writer_inv in K; eauto; reflexivity.
  - eapply from_xml_inv in K; eauto; reflexivity.
  - eapply read_fn_inv in K; eauto. now apply K.
  - assert (u = YBool) as -> by (inversion C; reflexivity). eapply look_fn_inv in K; eauto; [tauto|reflexivity].
  - eapply enum_as_str_inv in K; eauto.
  - eapply enum_from_str_inv in K; eauto; reflexivity.
  - eapply enum_fmt_inv in K; eauto; reflexivity.
  - eapply tuple_from_str_inv in K; eauto; reflexivity.
  - eapply tuple_fmt_inv in K; eauto; reflexivity.
Qed.

(** What the types of the functions that read say. *)
Lemma reads_weak : (forall i q, In i (impls_of t) -> In q (pi_fns i) -> exists b, fn_typed items i q b) -> read_weak items p t /\ look_weak p t (ti_look t).
Proof.
  intros H.
  assert (X : forall f g, In f own_names -> item_fn t f = Some g -> exists G r b0 u G', fn_case f (fn_body g) G r /\ val items self r G (untyped (fn_body g)) b0 u G' /\ coerces u r).
  { intros f g J Eg. destruct (in_inherent _ _ _ Hh Hl t f It J) as (i & q & Ih & Q).
    destruct (inherent_in _ _ _ Hh Hl _ _ _ _ Ih) as (t1 & I1 & E1 & Ii & _ & Q1 & _). pose proof (same_item _ Hd t1 t I1 It E1) as ->.
    destruct Ih as (_ & _ & _ & Iq & Nm). destruct (H i q Ii Iq) as (b & Tb). destruct (fn_cases i q Ii Iq) as (g' & G & r & Eg' & Fc & T).
    rewrite Nm in Eg', Fc. rewrite Eg in Eg'. injection Eg' as <-. destruct (T b Tb) as (b0 & u & G' & K & C & _). eauto 10. }
  split.
  - destruct (X "from_xml_node" (mkFn ["node"] (read_code t))) as (G & r & b0 & u & G' & Fc & K & C); [simpl; tauto|reflexivity|]. cbn [fn_body] in *.
    inversion Fc; subst. now eapply read_fn_inv in K; eauto.
  - destruct (X "lookahead" (mkFn ["node"] (look_code (ti_look t)))) as (G & r & b0 & u & G' & Fc & K & C); [simpl; tauto|reflexivity|]. cbn [fn_body] in *.
    inversion Fc; subst. assert (u = YBool) as -> by (inversion C; reflexivity). eapply look_fn_inv in K; eauto; [tauto|reflexivity].
Qed.
End Functions.
