(** * TypedCanon: clean values of the generated types are canonical *)
From Coq Require Import Permutation.
From Verif Require Import Base Libs Xml Ast Decode Gen Run TextSpec LitSpec NumProof MiscSpec MiscProof GenSpec GenProof1 GenProof2 DecSpec DecProof
  ReadSpec RepSpec WfSpec WfProof WfCheck TypeProof CanonSpec CanonProof StableSpec StableProof.

Fixpoint vsize (v : value) : nat :=
  match v with
  | VSome v | VTuple v | VChoice _ v => S (vsize v)
  | VVec vs => S (list_sum (map vsize vs))
  | VStruct fs => S (list_sum (map (fun f => vsize (snd f)) fs))
  | _ => 1
  end.
Lemma sum_in {A} (f : A -> nat) l x : In x l -> f x <= list_sum (map f l).
Proof.
  induction l as [|y l IH]; simpl; [tauto|]. intros [->|I]; [lia|]. specialize (IH I). lia.
Qed.

Section Typed.
Context {L : Libs}.
Hypothesis laws : scalar_laws L.
Variables (gfuel : nat) (c : schema_ctx) (gs : list name) (p : program).
Hypothesis Hg : generated gfuel c gs p.
Hypothesis Hc : compiles c gs.
Hypothesis Hk : constants_ok c gs.

Lemma lit_clean lit v : prim_value (lit_prim lit) v -> clean v ->
  exists s, value_to_string v = Some s /\ lit_from_str lit s = Ok v /\ text_ok s /\ attr_ok s.
Proof.
  intros P C.
  assert (Sc : scalar v -> forall s, value_to_string v = Some s -> text_ok s /\ attr_ok s) by (intros S s; now apply (sl_text laws)).
  assert (D : in_prim (lit_prim lit) v \/ (exists d, lit_prim lit = PDecimal /\ v = VDec d) \/ (exists n, lit_prim lit = PF32 /\ v = VF32 n)).
  { destruct (lit_prim lit), v; simpl in P; try contradiction; eauto 6. }
  destruct D as [D|[(d & E & ->)|(n & E & ->)]].
  - destruct (lit_roundtrip _ _ D) as (s & V & R). exists s. split; [exact V|]. split; [exact R|].
    destruct v; try (apply Sc; [exact I|exact V]); try discriminate. inversion C; subst. injection V as <-. auto.
  - inversion C as [| | |d' Ed| | | | | | | | |]; subst. eexists. split; [reflexivity|]. split; [|apply Sc; [exact I|reflexivity]].
    unfold lit_from_str. rewrite E. simpl. now rewrite Ed.
  - inversion C as [| | | |n' Ed| | | | | | | |]; subst. eexists. split; [reflexivity|]. split; [|apply Sc; [exact I|reflexivity]].
    unfold lit_from_str. rewrite E. simpl. now rewrite Ed.
Qed.

Lemma enum_clean n names vs x : In n gs -> sc_get c n = Some (RootEnum names) -> enum_variants names = Ok vs -> In x (map fst vs) ->
  exists s, enum_as_str vs x = Some s /\ enum_from_str vs s = Ok (VEnum x) /\ text_ok s /\ attr_ok s.
Proof.
  intros I G Ev Ix. destruct (co_enum _ _ Hk _ _ I G) as [Nd F]. destruct (enum_variants_spec _ _ Ev) as (N1 & S & _).
  assert (N2 : NoDup (map snd vs)) by now rewrite S.
  destruct (enum_table vs vs N1 N2 (Permutation_refl _)) as (T & _ & _). destruct (T x Ix) as (s & As & Fr).
  exists s. split; [exact As|]. split; [exact Fr|]. rewrite enum_as_str_aget in As. apply (aget_In _ String.eqb_eq) in As.
  apply (in_map snd) in As. rewrite S in As. simpl in As. apply in_map_iff in As. destruct As as (y & <- & Iy).
  rewrite Forall_forall in F. auto.
Qed.

Lemma ref_item m id v : type_ident m = Ok id -> has_type p (TRef id) v ->
  exists n r t, type_of c gs m n r /\ item c gfuel gs n r t /\ has_decl p (ti_decl t) v.
Proof.
  intros E H. inversion H as [| | | | |id' t v' Lk D]; subst. destruct (item_lookup _ _ _ _ (proj1 Hg) _ _ Lk) as (n & r & It & Ei).
  exists n, r, t. split; [|auto]. split; [exact (it_in _ _ _ _ _ _ It)|]. split; [exact (it_get _ _ _ _ _ _ It)|].
  exists id. split; auto. rewrite <- Ei. exact (it_id _ _ _ _ _ _ It).
Qed.

Definition typed_content (v : value) : Prop := clean v -> forall n r ct t, In n gs -> sc_get c n = Some r -> In ct (contents r) ->
  content_type c ct t -> has_type p t v -> canon_content c gs true ct v.

Lemma typed_attr n r a v t : In n gs -> sc_get c n = Some r -> In a (attributes_of r) -> content_type c (a_content a) t ->
  has_type p (wrap_opt (a_optional a) t) v -> clean v -> canon_attr c gs a v.
Proof.
  intros I G Ia Ty H C.
  assert (Sh : forall w, has_type p t w -> clean w -> exists s, shown_attr c gs (a_content a) w s /\ attr_ok s).
  { intros w Hw Cw. destruct Ty as (ct' & F & Ty). pose proof (cp_attrs _ _ Hc _ _ _ I G Ia) as Ao. unfold attribute_ok in Ao.
    destruct (a_content a) as [lit|m|s] eqn:Ca.
    - inversion F; subst. inversion Ty; subst. inversion Hw; subst. destruct (lit_clean lit w) as (s & A1 & A2 & _ & A3); auto.
      exists s. split; auto. now constructor.
    - destruct Ao as [(lit & F2 & Ps)|(m' & n' & names & F2 & T2)].
      + rewrite (final_det _ _ _ _ F F2) in Ty. inversion Ty; subst. inversion Hw as [q v' Pv| | | | |]; subst. rewrite Ps in Pv.
        destruct w; simpl in Pv; try contradiction. inversion Cw; subst. exists s. split; auto. constructor. exists lit. auto.
      + rewrite (final_det _ _ _ _ F F2) in Ty. inversion Ty as [| |m0 id Ei]; subst.
        destruct (ref_item _ _ _ Ei Hw) as (n2 & r2 & ti & T3 & It & D).
        assert (n2 = n' /\ r2 = RootEnum names) as [-> ->].
        { destruct T2 as (I2 & G2 & i2 & E1 & E2). destruct T3 as (I3 & G3 & i3 & E3 & E4).
          assert (n2 = n') by (eapply (same_ident gfuel c gs p Hg); eauto; congruence). subst. split; congruence. }
        pose proof (it_decl _ _ _ _ _ _ It) as Dc. simpl in Dc. apply bind_ok in Dc. destruct Dc as (vs & Ev & Dc). injection Dc as Dc.
        rewrite <- Dc in D. inversion D as [|vs' x Ix| |]; subst. destruct T2 as (I2 & G2 & X).
        destruct (enum_clean _ _ _ _ I2 G2 Ev Ix) as (s & A1 & A2 & _ & A3). exists s. split; auto.
        eapply (sa_enum _ _ m m' n'); eauto.
    - inversion F; subst. inversion Ty; subst. inversion Hw; subst. exists s. split; [constructor|]. eapply (co_attr _ _ Hk); eauto. }
  destruct (a_optional a) eqn:O; simpl in H.
  - inversion H; subst; [now constructor|]. inversion C; subst. destruct (Sh _ H1 H3) as (s & S1 & S2). eapply ca_some; eauto.
  - destruct (Sh _ H C) as (s & S1 & S2). eapply ca_one; eauto.
Qed.

Lemma each_typed n r ct t vs : Forall typed_content vs -> Forall clean vs -> In n gs -> sc_get c n = Some r -> In ct (contents r) ->
  content_type c ct t -> Forall (has_type p t) vs -> canon_each c gs true ct vs.
Proof.
  intros IH C I G Ic Ty H. induction H as [|v vs Hv H IHv]; [constructor|]. inversion IH; inversion C; subst. constructor; auto.
  match goal with X : typed_content v |- _ => eapply X; eauto end.
Qed.

Lemma leaf_typed n r f t v N : (forall w, vsize w < N -> typed_content w) -> vsize v < N -> In n gs -> sc_get c n = Some r ->
  In (ld_content (lf_def f)) (contents r) -> leaf_type c f t -> has_type p t v -> clean v -> canon_leaf c gs true f v.
Proof.
  intros IH Hs I G Ic (t0 & Ty & ->) H C.
  assert (Vec : forall vs, lf_is_vec f = true -> vsize (VVec vs) < N -> has_type p (TVec t0) (VVec vs) -> clean (VVec vs) ->
    canon_each c gs true (ld_content (lf_def f)) vs).
  { intros vs Vc Hv Ht Cv. inversion Ht; subst. inversion Cv; subst. eapply each_typed; eauto.
    apply Forall_forall. intros w Iw. apply IH. pose proof (sum_in vsize _ _ Iw). simpl in Hv. lia. }
  destruct (lf_is_optional f) eqn:Op; simpl in H; destruct (lf_is_vec f) eqn:Vc; simpl in H.
  - inversion H as [| | |t1|t1 w Hw|]; subst.
    + replace VNone with (vec_value (lf_is_optional f) []) by (rewrite Op; reflexivity). apply cl_vec; auto; [discriminate|constructor].
    + inversion C as [| | | | | | |w' Nw Cw| | | | |]; subst. inversion Hw; subst. destruct vs as [|v0 vs]; [congruence|].
      replace (VSome (VVec (v0 :: vs))) with (vec_value (lf_is_optional f) (v0 :: vs)) by (rewrite Op; reflexivity).
      apply cl_vec; auto; [discriminate|]. apply Vec; auto. simpl in *. lia.
  - inversion H as [| | |t1|t1 w Hw|]; subst.
    + now apply cl_none.
    + inversion C as [| | | | | | |w' Nw Cw| | | | |]; subst. apply cl_some; auto. eapply (IH w); eauto. simpl in Hs. lia.
  - inversion H; subst. replace (VVec vs) with (vec_value (lf_is_optional f) vs) by (rewrite Op; reflexivity).
    apply cl_vec; auto. discriminate.
  - apply cl_one; auto. eapply (IH v); eauto.
Qed.

Lemma root_typed N n r ti v : (forall w, vsize w < N -> typed_content w) -> vsize v <= N -> item c gfuel gs n r ti ->
  has_decl p (ti_decl ti) v -> clean v -> canon_root c gs true n r v.
Proof.
  intros IH Hs It D C. pose proof (it_in _ _ _ _ _ _ It) as I. pose proof (it_get _ _ _ _ _ _ It) as G. pose proof (it_decl _ _ _ _ _ _ It) as Dc.
  destruct r as [d|names|d|d]; simpl in Dc.
  - apply bind_ok in Dc. destruct Dc as (t & Et & Dc). injection Dc as Dc. rewrite <- Dc in D. inversion D as [t' b w Hw| | |]; subst.
    inversion C; subst. constructor. apply content_ty in Et. eapply (IH w); eauto using in_eq.
  - apply bind_ok in Dc. destruct Dc as (vs & Ev & Dc). injection Dc as Dc. rewrite <- Dc in D. inversion D as [|vs' x Ix| |]; subst.
    destruct (enum_clean _ _ _ _ I G Ev Ix) as (s & A1 & A2 & A3 & _). eapply cr_enum; eauto.
  - unfold element_to_impl in Dc. apply bind_ok in Dc. destruct Dc as (fs & Ef & Dc). apply bind_ok in Dc. destruct Dc as (fa & Efa & Dc). injection Dc as Dc.
    rewrite <- Dc in D. inversion D as [| |fs' vs Hf|]; subst. apply Forall2_app_inv_l in Hf. destruct Hf as (vs1 & avs & H1 & H2 & ->).
    inversion C as [| | | | | | | | | | |fs' Cf|]; subst. apply Forall_app in Cf. destruct Cf as [C1 C2]. constructor.
    + assert (Hs1 : forall i w, In (i, w) vs1 -> vsize w < N).
      { intros i w Iw. simpl in Hs. rewrite map_app, list_sum_app in Hs. pose proof (sum_in (fun f => vsize (snd f)) _ _ Iw) as X. simpl in X. lia. }
      destruct (ed_content d) as [[n0 d0|ls]|] eqn:Cd.
      * apply bind_ok in Ef. destruct Ef as (g & Eg & Ef). apply bind_ok in Ef. destruct Ef as (t & Et & Ef). injection Ef as <-.
        inversion H1 as [|? [i w] ? ? [X Hw] H1']; subst. inversion H1'; subst. simpl in X, Hw. subst. inversion C1; subst.
        constructor; auto. apply content_ty in Et. eapply (IH w); eauto; [eapply Hs1; now left|]. simpl. rewrite Cd. now left.
      * constructor. assert (Il : forall f, In f ls -> In (ld_content (lf_def f)) (contents (RootElement d))).
        { intros f If. simpl. rewrite Cd. apply (in_map (fun f => ld_content (lf_def f))). exact If. }
        clear Cd D Dc Hs C H2 C2. apply mapM_ok in Ef. revert vs1 H1 C1 Hs1. induction Ef as [|f [i t] ls fs Ef Efs IHl]; intros vs1 H1 C1 Hs1.
        -- inversion H1; subst. constructor.
        -- inversion H1 as [|? [j w] ? ? [X Hw] H1']; subst. simpl in X, Hw. subst. inversion C1; subst.
           unfold leaf_to_impl in Ef. apply bind_ok in Ef. destruct Ef as (g & Eg & Ef). apply bind_ok in Ef. destruct Ef as (t0 & Et & Ef). injection Ef as <- <-.
           constructor; auto.
           ++ eapply (leaf_typed n (RootElement d)); eauto.
              ** eapply Hs1. now left.
              ** apply Il. now left.
              ** exists t0. split; auto. eapply content_ty; eauto.
           ++ apply IHl; auto.
              ** intros f' If. apply Il. now right.
              ** intros i w' Iw. eapply Hs1. right. eauto.
      * injection Ef as <-. inversion H1; subst. constructor.
    + assert (Ia : forall a, In a (ed_attributes d) -> In a (attributes_of (RootElement d))) by auto. apply mapM_ok in Efa.
      clear -Hg Hc Hk laws I G C2 Efa H2 Ia. remember (ed_attributes d) as ats eqn:Ea. clear Ea.
      revert avs H2 C2. induction Efa as [|a [i t] ats fa Ea Efa IHa]; intros avs H2 C2.
      * inversion H2; subst. constructor.
      * inversion H2 as [|? [j w] ? ? [X Hw] H2']; subst. simpl in X, Hw. subst. inversion C2; subst.
        unfold attr_to_impl in Ea. apply bind_ok in Ea. destruct Ea as (g & Eg & Ea). apply bind_ok in Ea. destruct Ea as (t0 & Et & Ea). injection Ea as <- <-.
        constructor.
        -- simpl. split; auto. eapply typed_attr; eauto; [apply Ia; now left|]. eapply content_ty; eauto.
        -- apply IHa; auto. intros b Ib. apply Ia. now right.
  - apply bind_ok in Dc. destruct Dc as (vs & Em & Dc). injection Dc as Dc. rewrite <- Dc in D. inversion D as [| | |vs' i t w Iv Hw]; subst.
    apply mapM_ok in Em. assert (X : exists f, In f (cd_variants d) /\ (v <- variant_ident (lf_name f) ;; t <- def_to_impl gfuel c (lf_def f) ;;
                           Ok (v, wrap_vec (lf_is_vec f) t)) = Ok (i, t)).
    { clear -Em Iv. induction Em as [|f y l m E F IHm]; [destruct Iv|]. destruct Iv as [->|Iv]; [exists f; split; auto; now left|].
      destruct (IHm Iv) as (f' & If & E'). exists f'. split; auto. now right. }
    destruct X as (f & If & Ef). apply bind_ok in Ef. destruct Ef as (i' & Ei & Ef). apply bind_ok in Ef. destruct Ef as (t0 & Et & Ef). injection Ef as -> <-.
    apply content_ty in Et. inversion C as [| | | | | | | | | | | |i' w' Nw Cw]; subst. simpl in Hs.
    assert (Ic : In (ld_content (lf_def f)) (contents (RootChoice d))) by (simpl; apply (in_map (fun f => ld_content (lf_def f))); exact If).
    eapply cr_choice; [exact If|exact Ei|]. destruct (lf_is_vec f) eqn:Vc; simpl in Hw.
    + inversion Hw; subst. inversion Cw; subst. destruct vs0 as [|v0 vs0]; [congruence|]. apply cv_vec; auto.
      eapply each_typed; eauto. apply Forall_forall. intros x Ix. apply IH. pose proof (sum_in vsize _ _ Ix). simpl in *. lia.
    + apply cv_one; auto. eapply (IH w); eauto.
Qed.

Lemma content_typed v : typed_content v.
Proof.
  assert (H : forall N w, vsize w < N -> typed_content w).
  { induction N as [|N IH]; intros w Hw; [lia|]. intros C n r ct t I G Ic (ct' & F & Ty) Ht.
    inversion Ty as [l|s|m id Ei]; subst.
    - inversion Ht; subst. destruct (lit_clean l w) as (s & A1 & A2 & A3 & _); auto. eapply cc_lit; eauto.
    - inversion Ht; subst. eapply cc_fixed; eauto. eapply (co_fixed _ _ Hk); eauto.
    - destruct (ref_item _ _ _ Ei Ht) as (n2 & r2 & ti & T2 & It & D). eapply cc_named; eauto.
      eapply root_typed; [exact IH| |exact It|exact D|exact C]. lia. }
  eapply H. apply Nat.lt_succ_diag_r.
Qed.

Lemma typed_canon n r id v : In n gs -> sc_get c n = Some r -> type_ident n = Ok id -> has_type p (TRef id) v -> clean v ->
  canon_root c gs true n r v.
Proof.
  intros I G Ei H C. destruct (ref_item _ _ _ Ei H) as (n2 & r2 & ti & (I2 & G2 & i2 & E1 & E2) & It & D).
  assert (n2 = n) by (eapply (same_ident gfuel c gs p Hg); eauto; congruence). subst.
  assert (r2 = r) by congruence. subst.
  eapply root_typed; [|reflexivity|exact It|exact D|exact C]. intros w _. apply content_typed.
Qed.
End Typed.
