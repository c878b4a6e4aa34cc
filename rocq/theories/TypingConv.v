(** * TypingConv: what typed functions say about a generated module *)
From Verif Require Import Base Libs Xml Ast Parse Decode Gen Run LitSpec GenSpec GenProof1 DecSpec DecSim DecProof
  RepSpec WfSpec CanonProof2 Emit Rust Body RustSpec RustProof RustLook RustGen EmitSpec GramSpec GramWrite
  TypingSpec TypingProof TypingItems TypingRead TypingInv TypingReadInv TypingFnInv TypingWrite TypingWriteInv TypingMain.
From Coq Require Import Permutation Lia.

(** ** Two corners
    [Self::lookahead(node)] names the type of the implementation, whether or not the
    module has a type called [Self] (it cannot). *)
Definition fr_looks (f : fr) : list string := match f with FrWhileLook id _ _ | FrIfLook id _ => [id] | _ => [] end.
Definition arm_looks (m : arm) : list string := match m with ArmLook _ id _ => [id] | _ => [] end.
Definition lk_looks (k : lk) : list string := match k with LkTrue => [] | LkOr ks => flat_map (fun k => match k with LkCall id => [id] | _ => [] end) ks end.
Definition looks_called (t : titem) : list string :=
  match ti_read t with BrStruct fs _ => flat_map (fun f => fr_looks (snd f)) fs | BrChoice ms => flat_map arm_looks ms | _ => [] end ++ lk_looks (ti_look t).
(** An attribute of the type of a tuple struct with [FromStr]: Rust accepts it, the
    interpreter of Run.v does not represent it. *)
Definition tuple_attribute (p : program) (t : titem) : Prop :=
  exists fs ats a id t', ti_read t = BrStruct fs ats /\ In a ats /\ ra_conv a = AxFromStr (TRef id) /\ In t' p /\ ti_id t' = id /\ is_tuple (ti_decl t').
Definition plain_module (p : program) : Prop := Forall (fun t => ~ In "Self" (looks_called t) /\ ~ tuple_attribute p t) p.

Section Converse.
Context {L : Libs}.
Variables (gfuel : nat) (c : schema_ctx) (gs : list name) (p : program).
Hypothesis Hp : mapM (generate_element gfuel c) gs = Ok p.
Hypothesis Hd : decls_ok p.
Variables (items : list pitem) (l : list (root * titem)).
Hypothesis Hh : holds items l.
Hypothesis Hl : forall t, In t p <-> In t (map snd l).

Lemma called_plain self id : id <> "Self" -> defined p (type_name self id) -> defined p id.
Proof. intros N D. unfold type_name in D. destruct (id =?s "Self") eqn:E; [apply String.eqb_eq in E; congruence|exact D]. Qed.

Lemma attr_weak a f t r : attr_to_impl gfuel c a = Ok (f, t) -> attr_from_xml gfuel c a = Ok r -> ra_weak p r t ->
  (forall id t', ra_conv r = AxFromStr (TRef id) -> In t' p -> ti_id t' = id -> ~ is_tuple (ti_decl t')) -> attribute_ok c gs a.
Proof.
  intros Ht Hr W N. apply attr_ty in Ht. destruct Ht as (u & Ef & -> & Eu).
  unfold attr_from_xml in Hr. rewrite Ef, Eu in Hr. simpl in Hr. injection Hr as <-.
  apply (attr_conv gfuel c gs p Hp a u Eu). assert (X : ax_weak p (content_from_str (a_content a) u) u).
  { unfold ra_weak in W. simpl in W. destruct (a_optional a); simpl in W; [destruct W as (u' & E & W); now injection E as <-|exact W]. }
  simpl in N. pose proof (content_ty _ _ _ _ Eu) as (ct' & F & T). destruct (a_content a) as [lt|m|s]; simpl in *.
  - inversion F; subst. inversion T; subst. constructor.
  - destruct X as [->|(t & It & -> & D)]; [constructor|]. constructor. destruct D as [(u & D)|(vs & D)]; [|exists t, vs; auto].
    exfalso. apply (N _ t eq_refl It eq_refl). unfold is_tuple. eauto.
  - inversion F; subst. inversion T; subst. constructor.
Qed.

Lemma item_weak n r t : In t p -> item c gfuel gs n r t -> read_weak items p t -> look_weak p t (ti_look t) ->
  ~ In "Self" (looks_called t) -> ~ tuple_attribute p t -> attrs_of c gs r /\ groups_once r /\ looks_of p r.
Proof.
  intros It K Rw Lw Ns Nt. pose proof (it_decl _ _ _ _ _ _ K) as D.
  pose proof (it_read _ _ _ _ _ _ K) as R. pose proof (it_look _ _ _ _ _ _ K) as Lk.
  assert (NoD : forall fs, ti_decl t = DStruct fs \/ ti_decl t = DChoice fs -> NoDup (map fst fs)).
  { intros fs E. pose proof (ds_decls p Hd) as DD. rewrite Forall_forall in DD. specialize (DD _ It). destruct E as [E|E]; rewrite E in DD; inversion DD as [| |? M|? _ M]; subst; apply M. }
  assert (Un : forall (vs : list (string * rty)), NoDup (map fst vs) -> forall w u u', In (w, u) vs -> In (w, u') vs -> u = u').
  { clear. intros vs Nd w u u' A B. induction vs as [|[w0 u0] vs IH]; [destruct A|]. inversion Nd; subst. destruct A as [A|A], B as [B|B].
    - congruence.
    - injection A as -> _. destruct H1. now apply (in_map fst) in B.
    - injection B as -> _. destruct H1. now apply (in_map fst) in A.
    - auto. }
  unfold read_weak in Rw. destruct r as [d|names|d|d]; simpl in D, R, Lk.
  - split; [intros a []|]. split; [discriminate|]. intros f m Q. inversion Q.
  - split; [intros a []|]. split; [discriminate|]. intros f m Q. inversion Q.
  - (* element *)
    unfold element_to_impl in D. apply bind_ok in D. destruct D as (fs & Ef & D). apply bind_ok in D.
    destruct D as (ats & Ea & D). injection D as D. unfold element_from_xml in R. apply bind_ok in R. destruct R as (frs & Er & R). apply bind_ok in R.
    destruct R as (ras & Era & R). injection R as R. apply mapM_ok in Ea. apply mapM_ok in Era.
    specialize (NoD _ (or_introl (eq_sym D))). unfold looks_called in Ns. rewrite <- R in Rw, Ns. rewrite <- D in Rw. destruct Rw as (Rf & Ra).
    split; [|split; [discriminate|]].
    + intros a Ia. simpl in Ia.
      assert (X : forall ds, incl ats ds -> NoDup (map fst ds) -> Forall (fun a => exists u, In (ra_field a, u) ds /\ ra_weak p a u) ras -> incl ras ras -> exists f t0 r0, attr_to_impl gfuel c a = Ok (f, t0) /\ attr_from_xml gfuel c a = Ok r0 /\ ra_weak p r0 t0 /\ In r0 ras).
      { intros ds Ii Nd Fa _. clear - Ea Era Ii Nd Fa Ia Un. revert Ii Fa Ia. revert Era. generalize ras. clear ras. revert Ea. generalize ats. clear ats. generalize (ed_attributes d).
        intros ls. induction ls as [|a0 ls IH]; intros ats Ea ras Era Ii Fa Ia; [destruct Ia|]. inversion Ea as [|? [f t0] ? ats' E1 Ea']; subst. inversion Era as [|? r0 ? ras' E2 Era']; subst.
        inversion Fa as [|? ? (u & Iu & W) Fa']; subst. destruct Ia as [->|Ia].
        - exists f, t0, r0. split; [exact E1|]. split; [exact E2|]. split; [|now left].
          destruct (attr_ty _ _ _ _ _ E1) as (u1 & Ef1 & _). unfold attr_from_xml in E2. rewrite Ef1 in E2. simpl in E2. apply bind_ok in E2. destruct E2 as (u2 & E2 & E3). injection E3 as <-. cbn [ra_field] in Iu.
          rewrite (Un ds Nd f t0 u); auto. apply Ii. now left.
        - destruct (IH _ Ea' _ Era') as (f1 & t1 & r1 & A & B & C & E); auto; [intros x Ix; apply Ii; now right|]. exists f1, t1, r1. repeat split; auto. now right. }
      destruct (X (fs ++ ats)) as (f & t0 & r0 & A & B & C & I0); auto; [intros x Ix; apply in_app_iff; now right|apply incl_refl|].
      eapply attr_weak; eauto. intros id t' E I' E' Tu. apply Nt. exists frs, ras, r0, id, t'. auto 8.
    + intros f m Q V C. inversion Q as [| d0 f0 ls a b Ec Eq Hc]; subst. rewrite Ec in Ef, Er, Lk.
      destruct Hc as [Hc|Hc].
      * apply mapM_ok in Er. assert (Ng : ~ In "Self" (flat_map (fun f => fr_looks (snd f)) frs)) by (intros J; apply Ns, in_app_iff; now left).
        assert (X : exists r0, In r0 frs /\ leaf_from_xml gfuel c f = Ok r0).
        { assert (If : In f (a ++ f :: b)) by (apply in_app_iff; right; now left). clear - Er If. induction Er as [|x y xs ys E F IH]; [destruct If|]. destruct If as [->|If]; [exists y; split; [now left|exact E]|].
          destruct (IH If) as (r0 & I0 & E0). exists r0. split; [now right|exact E0]. }
        destruct X as ([g r0] & I0 & E0). rewrite Forall_forall in Rf. specialize (Rf _ I0). simpl in Rf. apply leaf_fr in E0. destruct E0 as (_ & E0).
        assert (Nr : ~ In "Self" (fr_looks r0)). { intros J. apply Ng. apply in_flat_map. exists (g, r0). auto. }
        destruct E0 as [x V' W' P' X|m' id x V' W' P' C' Em X|m' id x V' W' C' Em X|ns x V'|ns x V'|ns x V'|ns x V']; try congruence.
        -- destruct Hc; congruence.
        -- rewrite C in C'. injection C' as <-. exists id. split; [exact Em|]. eapply called_plain; [|exact Rf]. intros ->. apply Nr. now left.
        -- rewrite C in C'. injection C' as <-. exists id. split; [exact Em|]. eapply called_plain; [|exact Rf]. intros ->. apply Nr. now left.
      * apply bind_ok in Lk. destruct Lk as (ks & Ek & Lk). injection Lk as Lk. rewrite <- Lk in Lw, Ns. cbn [look_weak lk_looks] in Lw, Ns.
        eapply (proj1 (leaves_lk c p _ _ Ek)); eauto. intros id J. eapply called_plain; [|apply Lw, J]. intros ->. apply Ns, in_app_iff. right. apply in_flat_map. eexists. split; [exact J|now left].
  - (* choice *)
    apply bind_ok in D. destruct D as (vs & Ev & D). injection D as D. specialize (NoD _ (or_intror (eq_sym D))).
    apply bind_ok in R. destruct R as (arms & Er & R). injection R as R. apply bind_ok in Lk. destruct Lk as (ks & Ek & Lk). injection Lk as Lk.
    apply mapM_ok in Ev. apply mapM_ok in Er. apply mapM_ok in Ek. unfold looks_called in Ns. rewrite <- R in Rw, Ns. rewrite <- D in Rw. rewrite <- Lk in Lw, Ns.
    split; [intros a []|]. split.
    + intros d' f E If V. injection E as <-.
      assert (Y : exists v t a, In (v, t) vs /\ variant_ident (lf_name f) = Ok v
         /\ (exists u, t = wrap_vec (lf_is_vec f) u /\ exists ct', final c (ld_content (lf_def f)) ct' /\ ty_is ct' u)
         /\ In a arms /\ variant_from_xml gfuel c f = Ok a).
      { clear -Ev Er If. revert arms Er. induction Ev as [|l0 vt ls vs E F IH]; intros arms Er; [destruct If|].
        inversion Er as [|? a ? arms' Ea Er']; subst. destruct If as [<-|If].
        - apply bind_ok in E. destruct E as (v & E1 & E). apply bind_ok in E. destruct E as (u & E2 & E). injection E as <-.
          exists v, (wrap_vec (lf_is_vec l0) u), a. split; [now left|]. split; [exact E1|]. split; [|split; [now left|exact Ea]].
          exists u. split; [reflexivity|]. eapply content_ty; exact E2.
        - destruct (IH If _ Er') as (v & t & a' & I1 & I2 & I3 & I4 & I5). exists v, t, a'.
          split; [now right|]. split; [exact I2|]. split; [exact I3|]. split; [now right|exact I5]. }
      destruct Y as (v & t0 & a & I1 & I2 & (u & -> & T) & I4 & I5). rewrite Forall_forall in Rw. specialize (Rw _ I4). apply variant_arm in I5.
      inversion I5 as [v' m id x V' Ev' C Em X|? ? ? V'|? ? ? V']; subst; try congruence.
      rewrite I2 in Ev'. injection Ev' as <-. cbn [arm_weak] in Rw. destruct Rw as (_ & u2 & e & J & X2). rewrite (Un _ NoD _ _ _ J I1) in X2.
      destruct (lf_is_vec f); [|reflexivity]. simpl in X2. inversion X2 as [lt u0 w Fs| |]; subst. exfalso.
      destruct (from_str_inv _ _ _ Hh Hl _ _ Fs) as [(q & E1 & _)|(t1 & _ & E1 & _)]; discriminate.
    + intros f m Q V C. inversion Q as [d0 f0 If|]; subst. eapply (proj1 (any_lk c p _ _ Ek)); eauto.
      intros id J. cbn [look_weak lk_looks] in Lw, Ns. eapply called_plain; [|apply Lw, J]. intros ->. apply Ns, in_app_iff. right. apply in_flat_map. eexists. split; [exact J|now left].
Qed.

Lemma typed_functions : plain_module p -> typed items -> Forall (functions_ok p) p.
Proof.
  intros Pl Ty. rewrite Forall_forall. intros t It. destruct (in_item _ _ _ _ Hp _ It) as (n & r & K). apply (item_iff gfuel c gs p Hp Hd n r t It K).
  unfold plain_module in Pl. rewrite Forall_forall in Pl. destruct (Pl _ It) as (A & B).
  destruct (reads_weak items l p Hh Hl Hd t It) as (Rw & Lw).
  - intros i q Ii Iq. apply Ty; [|exact Iq]. eapply (impl_in _ _ _ Hh Hl); eauto.
  - eapply item_weak; eauto.
Qed.
End Converse.
