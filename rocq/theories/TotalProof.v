(** * TotalProof: decoding ends *)
From Verif Require Import Base Libs Xml Ast Parse Decode Gen Run CursorSpec CursorProof GenSpec GenProof1 GenProof2 LitSpec
  DecSpec DecSim DecProof ReadSpec DecProof1 RepSpec RepProof DecProof2 WfSpec WfProof.

Lemma fin_bind' {E A B} (m : res E A) (k : A -> res E B) : fin m -> (forall a, fin (k a)) -> fin (bind m k).
Proof. destruct m; simpl; auto. Qed.
Lemma fin_rmap {E A B} (f : A -> B) (m : res E A) : fin m -> fin (rmap f m).
Proof. intros H. apply fin_bind'; [exact H|]. simpl. auto. Qed.
Lemma fin_text e : fin (d_text e).
Proof. unfold d_text. repeat match goal with |- fin (match ?x with _ => _ end) => destruct x end; exact I. Qed.
Lemma fin_lit {L : Libs} l s : fin (lit_from_str l s).
Proof. unfold lit_from_str. destruct (prim_from_str _ s); exact I. Qed.
Lemma fin_enum vs s : fin (enum_from_str vs s).
Proof. induction vs as [|[v w] vs IH]; simpl; [exact I|]. destruct (s =?s w); [exact I|exact IH]. Qed.
Lemma fin_cases {E A} (o : res E A) : fin o -> (exists a, o = Ok a) \/ exists x, o = Err x.
Proof. destruct o; simpl; eauto; contradiction. Qed.

Section Total.
Context {L : Libs}.
Variables (gfuel : nat) (c : schema_ctx) (gs : list name) (p : program).
Hypothesis Hg : generated gfuel c gs p.
Hypothesis Hc : compiles c gs.
Variable rank : name -> nat.
Hypothesis Hr : forall n r ct m n' r',
  In n gs -> sc_get c n = Some r -> In ct (here_contents r) -> final c ct (LcNamed m) -> type_of c gs m n' r' ->
  rank n' < rank n.

Lemma here_in r ct : In ct (here_contents r) -> In ct (contents r).
Proof.
  destruct r as [d|ns|d|d]; simpl; auto.
  - destruct (ed_content d) as [[n0 d0|ls]|]; auto. intros H. apply in_map_iff in H. destruct H as (f & <- & H).
    apply filter_In in H. apply in_map_iff. exists f. tauto.
  - intros H. apply in_map_iff in H. destruct H as (f & <- & H).
    apply filter_In in H. apply in_map_iff. exists f. tauto.
Qed.
Lemma leaf_here r f : In f (leaves_of r) -> lf_virtual f = true -> In (ld_content (lf_def f)) (here_contents r).
Proof.
  intros H V. destruct r as [d|ns|d|d]; simpl in *; try contradiction.
  - destruct (ed_content d) as [[n0 d0|ls]|]; try contradiction. apply in_map_iff. exists f. split; [reflexivity|].
    apply filter_In. auto.
  - apply in_map_iff. exists f. split; [reflexivity|]. apply filter_In. auto.
Qed.
Lemma leaf_content_in r f : In f (leaves_of r) -> In (ld_content (lf_def f)) (contents r).
Proof.
  intros H. destruct r as [d|ns|d|d]; simpl in *; try contradiction.
  - destruct (ed_content d) as [[n0 d0|ls]|]; try contradiction. apply in_map_iff. eauto.
  - apply in_map_iff. eauto.
Qed.
Lemma leaf_quote n r f : In n gs -> sc_get c n = Some r -> In f (leaves_of r) ->
  exists ns, quote_xml_namespace c (lf_name f) = Some ns.
Proof.
  intros I G H. destruct r as [d|ns|d|d]; simpl in *; try contradiction.
  - destruct (ed_content d) as [[n0 d0|ls]|] eqn:C; try contradiction. eapply gen_member; eauto.
  - eapply gen_variant; eauto.
Qed.
Lemma group_final_self m : is_group c gs m -> final c (LcNamed m) (LcNamed m).
Proof. intros (_ & _ & [[d G]|[d G]]); constructor; congruence. Qed.
Lemma group_type m : is_group c gs m -> exists r, sc_get c m = Some r /\ type_of c gs m m r /\ group_of c gs m m r.
Proof.
  intros (I & (id & T & K) & [[d G]|[d G]]); eexists; (split; [exact G|]); split; repeat split; eauto.
Qed.

(** ** Lookahead *)
Lemma look_total k : forall m, rank m < k -> is_group c gs m -> forall l, exists b, look_group c gs m l b.
Proof.
  induction k as [|k IH]; intros m Hk Ig l; [lia|].
  destruct (group_type _ Ig) as (r & G & T & Go).
  assert (LL : forall f, In f (leaves_of r) -> exists b, look_leaf c gs f l b).
  { intros f If. destruct (lf_virtual f) eqn:V.
    - destruct (cp_groups _ _ Hc m r f (proj1 Ig) G If V) as (m' & C & Ig').
      destruct (group_type _ Ig') as (r' & G' & T' & Go').
      assert (rank m' < rank m).
      { apply (Hr m r (ld_content (lf_def f)) m' m' r' (proj1 Ig) G (leaf_here r f If V)); [|exact T'].
        rewrite C. now apply group_final_self. }
      destruct (IH m' ltac:(lia) Ig' l) as (b & B). exists b. eapply ll_virtual; eassumption.
    - destruct (leaf_quote m r f (proj1 Ig) G If) as (ns & Q). eexists. apply (ll_plain c gs f ns l V Q). }
  destruct Ig as (I & _ & [[d E]|[d E]]); rewrite E in G; injection G as <-.
  - destruct (ed_content d) as [[n0 d0|ls]|] eqn:C.
    + exists false. eapply lg_other; [exact Go|]. congruence.
    + simpl in LL. rewrite C in LL. assert (S : exists b, look_seq c gs ls l b).
      { clear -LL. induction ls as [|f ls IH]; [eexists; constructor|].
        destruct (LL f (or_introl eq_refl)) as ([|] & B); [eexists; apply ls_yes; exact B|].
        destruct (lf_is_optional f) eqn:O; [|eexists; now apply ls_required].
        destruct IH as (b & S); [intros g Ig; apply LL; now right|]. exists b. now apply ls_optional. }
      destruct S as (b & S). exists b. eapply lg_leaves; eassumption.
    + exists false. eapply lg_other; [exact Go|]. congruence.
  - simpl in LL. assert (S : exists b, look_any c gs (cd_variants d) l b).
    { clear -LL. induction (cd_variants d) as [|f ls IH]; [eexists; constructor|].
      destruct (LL f (or_introl eq_refl)) as ([|] & B); [eexists; apply la_yes; exact B|].
      destruct IH as (b & S); [intros g Ig; apply LL; now right|]. exists b. now apply la_no. }
    destruct S as (b & S). exists b. eapply lg_choice; eassumption.
Qed.

(** ** Attributes *)
Lemma attr_total a e : attribute_ok c gs a -> exists o, read_attr c gs a e o /\ fin o.
Proof.
  intros Ha. assert (Cv : forall s, exists o, converts c gs (a_content a) s o /\ fin o).
  { intros s. unfold attribute_ok in Ha. destruct (a_content a) as [lit|m|fx].
    - eexists. split; [constructor|apply fin_lit].
    - destruct Ha as [As|(m' & n & names & F & T)].
      + eexists. split; [now apply cv_string|exact I].
      + destruct T as (I & G & X). destruct (gen_enum _ _ _ _ Hg _ _ I G) as (vs & Ev).
        eexists. split; [eapply cv_enum; [exact F|split; eauto|exact Ev]|apply fin_enum].
    - eexists. split; [constructor|exact I]. }
  destruct (d_attribute e (nm (a_name a))) as [s|] eqn:E; destruct (a_optional a) eqn:O.
  - destruct (Cv s) as (o & C & F). eexists. split; [eapply ra_present_opt; eassumption|now apply fin_rmap].
  - destruct (Cv s) as (o & C & F). eexists. split; [eapply ra_present_req; eassumption|exact F].
  - eexists. split; [now apply ra_absent_opt|exact I].
  - eexists. split; [now apply ra_absent_req|exact I].
Qed.

Lemma attrs_total e ats : Forall (attribute_ok c gs) ats ->
  (forall a, In a ats -> exists i, field_ident (a_name a) = Ok i) -> exists o, read_attrs c gs ats e o /\ fin o.
Proof.
  intros F N. induction F as [|a ats Ha F IH]; [eexists; split; [constructor|exact I]|].
  destruct IH as (oo & A & B); [intros b Ib; apply N; now right|].
  destruct (attr_total a e Ha) as (o & R & Fo). destruct (fin_cases _ Fo) as [[v ->]|[x ->]].
  - destruct (N a (or_introl eq_refl)) as (i & Ei). eexists. split; [eapply rs_cons; eassumption|now apply fin_rmap].
  - eexists. split; [apply rs_err; eassumption|exact I].
Qed.

(** ** Contents, given that the parts end *)
Section Step.
  Variables (n : name) (r : root) (e : xelem).
  Hypothesis Hin : In n gs.
  Hypothesis Hget : sc_get c n = Some r.
  Hypothesis here : forall ct l, In ct (here_contents r) -> incl l (xe_children e) ->
    exists o, read_content c gs ct e l o /\ fin o.
  Hypothesis sub : forall ct x, In ct (contents r) -> In x (xe_children e) ->
    exists o, read_sub c gs ct x o /\ fin o.

  Lemma groups_total m k : forall l, is_group c gs m -> In (LcNamed m) (here_contents r) -> length l < k ->
    incl l (xe_children e) -> exists o, read_groups c gs m e l o /\ fin o.
  Proof.
    induction k as [|k IH]; intros l Ig Ih Hk Inc; [lia|].
    destruct (look_total (S (rank m)) m ltac:(lia) Ig l) as ([|] & B); [|eexists; split; [now apply rg_stop|exact I]].
    destruct (here _ l Ih Inc) as (o & R & Fo). destruct (fin_cases _ Fo) as [[[v l'] ->]|[x ->]].
    - pose proof (proj1 (progress _ _ _ _ Hg (cp_groups _ _ Hc)) m l true B eq_refl Ig e v l' R) as Lt.
      destruct (proj1 (reads_shuffle c gs) _ _ _ _ _ R) as (u & S).
      destruct (IH l' Ig Ih ltac:(lia)) as (o & R' & Fo').
      { intros y Iy. apply Inc. apply (shuffle_In _ _ _ S). now right. }
      eexists. split; [eapply rg_more; eassumption|now apply fin_rmap].
    - eexists. split; [apply rg_err; eassumption|exact I].
  Qed.

  Lemma run_total nme ns ct l : In ct (contents r) -> incl l (xe_children e) ->
    exists o, read_run c gs nme ns ct l o /\ fin o.
  Proof.
    intros Ic. induction l as [|x l IH]; intros Inc; [eexists; split; [now apply ru_stop|exact I]|].
    destruct (has_name nme ns x) eqn:E; [|eexists; split; [now apply ru_stop|exact I]].
    destruct (sub ct x Ic) as (o & R & Fo); [apply Inc; now left|]. destruct (fin_cases _ Fo) as [[v ->]|[y ->]].
    - destruct IH as (o & R' & Fo'); [intros z Iz; apply Inc; now right|].
      eexists. split; [eapply ru_more; eassumption|now apply fin_rmap].
    - eexists. split; [apply ru_err; eassumption|exact I].
  Qed.

  Lemma leaf_total f l : In f (leaves_of r) -> incl l (xe_children e) -> exists o, read_leaf c gs f e l o /\ fin o.
  Proof.
    intros If Inc. destruct (leaf_quote n r f Hin Hget If) as (ns & Q). pose proof (leaf_content_in r f If) as Ic.
    destruct (lf_virtual f) eqn:V.
    - destruct (cp_groups _ _ Hc n r f Hin Hget If V) as (m & C & Ig). pose proof (leaf_here r f If V) as Ih.
      destruct (lf_is_vec f) eqn:W; [|destruct (lf_is_optional f) eqn:O].
      + destruct (groups_total m (S (length l)) l Ig ltac:(now rewrite <- C) ltac:(lia) Inc) as (o & R & Fo).
        eexists. split; [eapply rl_groups; eassumption|now apply fin_rmap].
      + destruct (look_total (S (rank m)) m ltac:(lia) Ig l) as ([|] & B).
        * destruct (here _ l Ih Inc) as (o & R & Fo). eexists. split; [eapply rl_group_yes; eassumption|now apply fin_rmap].
        * eexists. split; [eapply rl_group_no; eassumption|exact I].
      + destruct (here _ l Ih Inc) as (o & R & Fo). eexists. split; [eapply rl_group; eassumption|exact Fo].
    - destruct (lf_is_vec f) eqn:W; [|destruct (lf_is_optional f) eqn:O; [|destruct (lf_unordered f) eqn:U]].
      + destruct (run_total (nm (lf_name f)) ns _ l Ic Inc) as (o & R & Fo).
        eexists. split; [eapply rl_run; eassumption|now apply fin_rmap].
      + destruct l as [|x l]; [eexists; split; [now apply (rl_optional_no c gs f ns)|exact I]|].
        destruct (has_name (nm (lf_name f)) ns x) eqn:E; [|eexists; split; [now apply (rl_optional_no c gs f ns)|exact I]].
        destruct (sub _ x Ic) as (o & R & Fo); [apply Inc; now left|].
        eexists. split; [eapply rl_optional_yes; eassumption|now apply fin_rmap].
      + destruct (remove_first (has_name (nm (lf_name f)) ns) l) as [[x l']|] eqn:E.
        * apply remove_first_some in E. destruct E as (l1 & l2 & -> & -> & Fa & Hx).
          destruct (sub _ x Ic) as (o & R & Fo); [apply Inc, in_or_app; right; now left|].
          eexists. split; [eapply rl_anywhere; eassumption|now apply fin_rmap].
        * apply remove_first_none in E. eexists. split; [eapply rl_nowhere; eassumption|exact I].
      + destruct l as [|x l]; [eexists; split; [now apply (rl_missing c gs f ns)|exact I]|].
        destruct (has_name (nm (lf_name f)) ns x) eqn:E; [|eexists; split; [now apply (rl_missing c gs f ns)|exact I]].
        destruct (sub _ x Ic) as (o & R & Fo); [apply Inc; now left|].
        eexists. split; [eapply rl_next; eassumption|now apply fin_rmap].
  Qed.

  Lemma leaves_total ls : (forall f, In f ls -> In f (leaves_of r) /\ exists i, field_ident (lf_name f) = Ok i) ->
    forall l, incl l (xe_children e) -> exists o, read_leaves c gs ls e l o /\ fin o.
  Proof.
    induction ls as [|f ls IH]; intros H l Inc; [eexists; split; [constructor|exact I]|].
    destruct (H f (or_introl eq_refl)) as [If (i & Ei)].
    destruct (leaf_total f l If Inc) as (o & R & Fo). destruct (fin_cases _ Fo) as [[[v l'] ->]|[x ->]].
    - destruct (proj1 (proj2 (proj2 (reads_shuffle c gs))) _ _ _ _ _ R) as (u & S).
      destruct (IH (fun g Ig => H g (or_intror Ig)) l') as (o & R' & Fo').
      { intros y Iy. apply Inc. apply (shuffle_In _ _ _ S). now right. }
      eexists. split; [eapply rv_cons; eassumption|now apply fin_rmap].
    - eexists. split; [apply rv_err; eassumption|exact I].
  Qed.

  Lemma choice_total id vs : type_ident n = Ok id ->
    (forall f, In f vs -> In f (leaves_of r) /\ exists i, variant_ident (lf_name f) = Ok i) ->
    forall l, incl l (xe_children e) -> exists o, read_choice c gs n vs e l o /\ fin o.
  Proof.
    intros Ei. induction vs as [|f vs IH]; intros H l Inc; [eexists; split; [econstructor; eassumption|exact I]|].
    destruct (H f (or_introl eq_refl)) as [If (i & Ev)].
    destruct (IH (fun g Ig => H g (or_intror Ig)) l Inc) as (oo & Rn & Fn).
    destruct (leaf_quote n r f Hin Hget If) as (ns & Q). pose proof (leaf_content_in r f If) as Ic.
    destruct (lf_virtual f) eqn:V.
    - destruct (cp_groups _ _ Hc n r f Hin Hget If V) as (m & C & Ig). pose proof (leaf_here r f If V) as Ih.
      destruct (look_total (S (rank m)) m ltac:(lia) Ig l) as ([|] & B).
      + destruct (here _ l Ih Inc) as (o & R & Fo). rewrite C in R.
        eexists. split; [eapply rh_group; eassumption|now apply fin_rmap].
      + eexists. split; [eapply rh_group_no; eassumption|exact Fn].
    - destruct (first_is (nm (lf_name f)) ns l) eqn:F1; [|eexists; split; [eapply rh_elem_no; eassumption|exact Fn]].
      destruct (lf_is_vec f) eqn:W.
      + destruct (run_total (nm (lf_name f)) ns _ l Ic Inc) as (o & R & Fo).
        eexists. split; [eapply rh_run; eassumption|now apply fin_rmap].
      + destruct l as [|x l]; [discriminate|]. destruct (sub _ x Ic) as (o & R & Fo); [apply Inc; now left|].
        eexists. split; [eapply rh_elem; eassumption|now apply fin_rmap].
  Qed.

End Step.

  Lemma root_total n r e : In n gs -> sc_get c n = Some r ->
    (forall ct l, In ct (here_contents r) -> incl l (xe_children e) -> exists o, read_content c gs ct e l o /\ fin o) ->
    (forall ct x, In ct (contents r) -> In x (xe_children e) -> exists o, read_sub c gs ct x o /\ fin o) ->
    forall l, incl l (xe_children e) -> exists o, read_root c gs n r e l o /\ fin o.
  Proof.
    intros Hin Hget here sub l Inc. destruct (gen_item _ _ _ _ Hg n r Hin Hget) as (t & It & _).
    destruct r as [d|names|d|d].
    - destruct (here (ld_content d) l (or_introl eq_refl) Inc) as (o & R & Fo).
      eexists. split; [constructor; eassumption|now apply fin_rmap].
    - destruct (gen_enum _ _ _ _ Hg _ _ Hin Hget) as (vs & Ev). eexists. split; [econstructor; eassumption|].
      apply fin_bind'; [apply fin_text|]. intros s. apply fin_bind'; [apply fin_enum|]. simpl; auto.
    - assert (RF : exists o, read_fields c gs (ed_content d) e l o /\ fin o).
      { destruct (ed_content d) as [[n0 d0|ls]|] eqn:C.
        - destruct (gen_simple _ _ _ _ Hg _ _ _ _ Hin Hget C) as (i & Ei).
          destruct (here (ld_content d0) l) as (o & R & Fo); [simpl; rewrite C; now left|exact Inc|].
          eexists. split; [eapply rf_leaf; eassumption|now apply fin_rmap].
        - destruct (leaves_total n _ e Hin Hget here sub ls) with (l := l) as (o & R & Fo).
          + intros f If. split; [simpl; now rewrite C|]. eapply gen_member; eauto.
          + exact Inc.
          + eexists. split; [constructor; eassumption|exact Fo].
        - eexists. split; [constructor|exact I]. }
      destruct RF as (o & R & Fo). destruct (fin_cases _ Fo) as [[[vs l'] ->]|[x ->]].
      + destruct (attrs_total e (ed_attributes d)) as (oa & Ra & Fa).
        * apply Forall_forall. intros a Ia. eapply (cp_attrs _ _ Hc); eauto.
        * intros a Ia. eapply gen_attr; eauto.
        * eexists. split; [eapply rr_element; eassumption|]. apply fin_bind'; [exact Fa|]. simpl; auto.
      + eexists. split; [eapply rr_element_err; eassumption|exact I].
    - destruct (choice_total n _ e Hin Hget here sub (ti_id t) (cd_variants d) (it_id _ _ _ _ _ _ It)) with (l := l) as (o & R & Fo).
      + intros f If. split; [exact If|]. eapply gen_variant; eauto.
      + exact Inc.
      + eexists. split; [constructor; eassumption|exact Fo].
  Qed.

Lemma read_total h : forall e, height e < h -> forall k n r, rank n < k -> In n gs -> sc_get c n = Some r ->
  forall l, incl l (xe_children e) -> exists o, read_root c gs n r e l o /\ fin o.
Proof.
  induction h as [|h IHh]; intros e Hh; [lia|].
  induction k as [|k IHk]; intros n r Hk I G l Inc; [lia|].
  assert (CT : forall ct x l', In ct (contents r) -> 
            (forall m n' r', final c ct (LcNamed m) -> type_of c gs m n' r' -> exists o, read_root c gs n' r' x l' o /\ fin o) ->
            exists o, read_content c gs ct x l' o /\ fin o).
  { intros ct x l' Ic H. destruct (gen_contents _ _ _ _ Hg _ _ _ I G Ic) as (ct' & F). destruct ct' as [lit|m|s].
    - eexists. split; [apply rc_lit; exact F|]. apply fin_bind'; [apply fin_text|]. intros s. apply fin_bind'; [apply fin_lit|]. simpl; auto.
    - destruct (cp_refs _ _ Hc n r ct m I G Ic F) as (n' & r' & T). destruct (H m n' r' F T) as (o & R & Fo).
      eexists. split; [eapply rc_named; eassumption|exact Fo].
    - eexists. split; [apply rc_fixed; exact F|]. apply fin_bind'; [apply fin_text|]. intros t. destruct (t =?s s); exact Logic.I. }
  eapply root_total; eauto.
  - intros ct l' Ih Inc'. apply CT; [now apply here_in|]. intros m n' r' F T.
    pose proof (Hr n r ct m n' r' I G Ih F T) as Lt. destruct T as (I' & G' & _).
    apply (IHk n' r'); auto. lia.
  - intros ct x Ic Ix. destruct (CT ct x (xe_children x) Ic) as (o & R & Fo).
    + intros m n' r' F (I' & G' & _). apply (IHh x) with (k := S (rank n')); auto; [|apply incl_refl].
      pose proof (height_child e x Ix). lia.
    + eexists. split; [constructor; exact R|now apply fin_rmap].
Qed.

Lemma doc_total n e : In n gs -> exists o, read_doc c gs n e o /\ fin o.
Proof.
  intros I. assert (X : exists r, sc_get c n = Some r).
  { destruct Hg as [Hp _]. apply mapM_ok in Hp. clear -Hp I. induction Hp as [|n0 t l p' Ht F IH]; [destruct I|].
    destruct I as [->|I]; [|auto]. unfold generate_element in Ht. destruct (sc_get c n); [eauto|discriminate]. }
  destruct X as (r & G). destruct (gen_item _ _ _ _ Hg n r I G) as (t & It & _).
  pose proof (it_rns _ _ _ _ _ _ It) as Q. destruct (has_name (nm n) (ti_read_ns t) e) eqn:N.
  - destruct (read_total (S (height e)) e ltac:(lia) (S (rank n)) n r ltac:(lia) I G (xe_children e) (incl_refl _)) as (o & R & Fo).
    eexists. split; [eapply rd_root; eassumption|now apply fin_rmap].
  - eexists. split; [eapply rd_other; eassumption|exact Logic.I].
Qed.
End Total.

Lemma decoding_ends {L : Libs} gfuel c gs p n id e : generated gfuel c gs p -> compiles c gs -> grounded c gs ->
  In n gs -> type_ident n = Ok id -> exists o, fin o /\ eventually (fun fuel => from_xml p fuel id e = o).
Proof.
  intros Hg Hc (rank & Hr) I Ei. destruct (doc_total gfuel c gs p Hg Hc rank Hr n e I) as (o & R & Fo).
  exists o. split; [exact Fo|]. destruct Hg as [Hp Hnd]. eapply read_doc_complete; eauto.
Qed.

Lemma decoding_never_stuck {L : Libs} gfuel c gs p n id e fuel w : generated gfuel c gs p -> compiles c gs -> grounded c gs ->
  In n gs -> type_ident n = Ok id -> from_xml p fuel id e <> Panic w.
Proof.
  intros Hg Hc Hr I Ei H. destruct (decoding_ends gfuel c gs p n id e Hg Hc Hr I Ei) as (o & Fo & N & E).
  pose proof (le_from_xml real_ops p fuel (fuel + N) id e ltac:(lia)) as M. unfold from_xml in *.
  rewrite H, (E (fuel + N) ltac:(lia)) in M. inversion M; subst; try discriminate; try contradiction.
Qed.
