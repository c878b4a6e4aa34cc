(** * ValidProof: valid documents stand for values *)
From Verif Require Import Base Libs Xml Ast Decode Gen Run CursorSpec GenSpec GenProof1 LitSpec DecSpec DecSim DecProof DecProof1 DecProof2
  ReadSpec RepSpec RepProof WfSpec WfProof WfCheck LlSpec LlProof CanonProof2 RoundSpec RustSpec RustGen ValidSpec.

Lemma text_read e s : only_text e s -> d_text e = Ok s.
Proof. unfold d_text. intros [[-> ->]|(ks & -> & _)]; reflexivity. Qed.

Lemma enum_read vs s : In s (map snd vs) -> exists v, enum_from_str vs s = Ok v.
Proof.
  induction vs as [|[v l] vs IH]; simpl; [intros []|]. intros H.
  destruct (String.eqb_spec s l) as [->|N]; [eauto|]. destruct H as [E|H]; [congruence|auto].
Qed.

Lemma Forall2_each {A B} (P : A -> B -> Prop) l : (forall a, In a l -> exists b, P a b) -> exists r, Forall2 P l r.
Proof.
  induction l as [|a l IH]; intros H; [exists []; constructor|].
  destruct (H a) as (b & Hb); [now left|]. destruct IH as (r & Hr); [intros x X; apply H; now right|].
  exists (b :: r). now constructor.
Qed.

Section Valid.
Context {L : Libs}.
Variables (gfuel : nat) (c : schema_ctx) (gs : list name) (p : program).
Hypothesis Hg : generated gfuel c gs p.
Hypothesis Hat : attrs_ok c gs.
Hypothesis Hch : choices_ok c gs.
Hypothesis Hrq : variants_required c gs.


Notation V := (counted false).
Notation rep_content := (rep_content c gs appended exactly V).
Notation rep_sub := (rep_sub c gs appended exactly V).
Notation rep_root := (rep_root c gs appended exactly V).
Notation rep_fields := (rep_fields c gs appended exactly V).
Notation rep_leaves := (rep_leaves c gs appended exactly V).
Notation rep_leaf := (rep_leaf c gs appended exactly V).
Notation rep_groups := (rep_groups c gs appended exactly V).
Notation rep_run := (rep_run c gs appended exactly V).
Notation rep_variant := (rep_variant c gs appended exactly V).

Lemma enum_valid n names s : In n gs -> sc_get c n = Some (RootEnum names) -> In s (map nm names) ->
  exists vs v, enum_variants names = Ok vs /\ enum_from_str vs s = Ok v.
Proof.
  intros I G H. destruct (gen_enum gfuel c gs p Hg _ _ I G) as (vs & E). exists vs.
  destruct (enum_variants_spec _ _ E) as (_ & E2 & _). destruct (enum_read vs s) as (v & Ev); [now rewrite E2|eauto].
Qed.

Lemma attr_valid a e : attribute_ok c gs a -> valid_attr c gs true a e -> exists v, rep_attr c gs a v e.
Proof.
  unfold valid_attr. intros Ok' Va. destruct (d_attribute e (nm (a_name a))) as [s|] eqn:E; [|exists VNone; now constructor].
  destruct Va as [Lx|[? _]]; [|discriminate].
  assert (X : exists v, converts c gs (a_content a) s (Ok v)).
  { unfold attribute_ok in Ok'. destruct (a_content a) as [lit|m|f].
    - inversion Lx as [ct lit' s0 v Fi Ev|ct s0 Fi|ct m n names s0 Fi T I]; inversion Fi; subst.
      exists v. rewrite <- Ev. constructor.
    - destruct Ok' as [A|(m' & n & names & Fi & T)]; [exists (VStr s); now apply cv_string|].
      inversion Lx as [ct lit' s0 v Fi' Ev|ct s0 Fi'|ct m2 n2 names2 s0 Fi' T' I]; subst;
        pose proof (final_det c _ _ _ Fi Fi') as Q; try discriminate. injection Q as ->.
      destruct (enum_valid n2 names2 s) as (vs & v & E1 & E2); [apply T'|apply T'|exact I|].
      exists v. rewrite <- E2. eapply cv_enum; [exact Fi|exact T'|exact E1].
    - exists VUnit. constructor. }
  destruct X as (v & Cv). destruct (a_optional a) eqn:O; eexists; [eapply pa_opt|eapply pa_req]; eauto.
Qed.

(** What generation guarantees about a member. *)
Definition named (f : leaf) : Prop := exists ns, quote_xml_namespace c (lf_name f) = Some ns.

Lemma allowed_single f k : lf_is_vec f = false -> allowed f k -> k <= 1.
Proof.
  intros V' [_ M]. unfold lf_is_vec in V'. destruct (lf_max f) as [m|]; [|discriminate].
  apply N.ltb_ge in V'. lia.
Qed.
Lemma allowed_required f k : lf_is_optional f = false -> allowed f k -> 1 <= k.
Proof.
  intros O [M _]. unfold lf_is_optional in O. apply N.eqb_neq in O. lia.
Qed.

Lemma valid_rep :
  (forall ct e l, valid_content c gs appended exactly allowed only_text true ct e l -> exists v, rep_content ct v e l) /\
  (forall r e l, valid_type c gs appended exactly allowed only_text true r e l -> forall n, In n gs -> sc_get c n = Some r -> exists v, rep_root n r v e l) /\
  (forall ec e l, valid_fields c gs appended exactly allowed only_text true ec e l -> forall n d, In n gs -> sc_get c n = Some (RootElement d) -> ed_content d = ec ->
     exists vs, rep_fields ec vs e l) /\
  (forall ls e l, valid_sequence c gs appended exactly allowed only_text true ls e l -> (forall f, In f ls -> (exists i, field_ident (lf_name f) = Ok i) /\ named f) ->
     exists vs, rep_leaves ls vs e l) /\
  (forall f e l, valid_particle c gs appended exactly allowed only_text true f e l -> named f ->
     (exists v, rep_leaf f v e l) /\
     (lf_is_optional f = false -> (lf_virtual f = true -> lf_is_vec f = false) -> exists w, rep_variant f w e l)) /\
  (forall f k e l, valid_times c gs appended exactly allowed only_text true f k e l ->
     (lf_virtual f = true -> exists vs, length vs = k /\ rep_groups (ld_content (lf_def f)) vs e l) /\
     (lf_virtual f = false -> forall ns, quote_xml_namespace c (lf_name f) = Some ns ->
        exists vs, length vs = k /\ rep_run (nm (lf_name f)) ns (ld_content (lf_def f)) vs l)) /\
  (forall f e l, valid_once c gs appended exactly allowed only_text true f e l ->
     (lf_virtual f = true -> exists v, rep_content (ld_content (lf_def f)) v e l) /\
     (lf_virtual f = false -> forall ns, quote_xml_namespace c (lf_name f) = Some ns ->
        exists x v, l = [x] /\ matches (nm (lf_name f)) ns x /\ rep_sub (ld_content (lf_def f)) v x)).
Proof.
  apply valid_ind.
  - intros ct e s Lx T. apply text_read in T. destruct Lx as [ct lit s v Fi Ev|ct s Fi|ct m n names s Fi Ty I].
    + exists v. eapply pc_lit; eauto.
    + exists VUnit. eapply pc_fixed; eauto.
    + destruct (enum_valid n names s) as (vs & v & E1 & E2); [apply Ty|apply Ty|exact I|].
      exists v. eapply pc_named; [exact Fi|exact Ty|]. eapply pr_enum; eauto.
  - intros ct m n r e l Fi Ty _ IH. destruct (IH n) as (v & R); [apply Ty|apply Ty|]. exists v. eapply pc_named; eauto.
  - intros d e l _ (v & R) n I G. exists (VTuple v). now constructor.
  - intros names e s Is T n I G. apply text_read in T. destruct (enum_valid n names s I G Is) as (vs & v & E1 & E2).
    exists v. eapply pr_enum; eauto.
  - intros d e l _ IH Ha n I G. destruct (IH n d I G eq_refl) as (vs & R).
    destruct (Forall2_each (fun a fv => field_ident (a_name a) = Ok (fst fv) /\ rep_attr c gs a (snd fv) e) (ed_attributes d)) as (avs & A).
    { intros a Ia. destruct (gen_attr gfuel c gs p Hg _ _ _ I G Ia) as (i & Ei).
      destruct (attr_valid a e) as (v & Rv); [apply (Hat _ _ _ I G Ia)|auto|]. exists (i, v). auto. }
    exists (VStruct (vs ++ avs)). now constructor.
  - intros d f e l If _ IH n I G. destruct (gen_variant gfuel c gs p Hg _ _ _ I G If) as ((i & Ei) & Q).
    destruct (IH Q) as (_ & X). destruct X as (w & R); [eapply Hrq; eauto|eapply Hch; eauto|].
    exists (VChoice i w). econstructor; eauto.
  - intros e n d I G C. exists []. constructor.
  - intros n0 d0 e l _ (v & R) n d I G C. destruct (gen_simple gfuel c gs p Hg _ _ _ _ I G C) as (i & Ei).
    exists [(i, v)]. now constructor.
  - intros ls e l _ IH n d I G C. destruct IH as (vs & R).
    { intros f If. apply (gen_member gfuel c gs p Hg _ _ _ _ I G C If). }
    exists vs. now constructor.
  - intros e _. exists []. constructor.
  - intros f fs e l1 l2 l _ IH1 _ IH2 Jl Hf. destruct (Hf f) as ((i & Ei) & Q); [now left|].
    destruct (IH1 Q) as ((v & R1) & _). destruct IH2 as (vs & R2); [intros x X; apply Hf; now right|].
    exists ((i, v) :: vs). econstructor; eauto.
  - intros f k e l Al _ [IHg IHr] (ns & Q). pose proof (allowed_single f k) as A1. pose proof (allowed_required f k) as A2.
    destruct (lf_virtual f) eqn:Vf.
    + destruct (IHg eq_refl) as (vs & Hl & R). destruct (lf_is_vec f) eqn:Ve.
      * split; [|intros _ H; specialize (H eq_refl); discriminate].
        eexists. eapply pl_groups; eauto. intros _ O. specialize (A2 O Al). intros ->. simpl in Hl. lia.
      * specialize (A1 eq_refl Al). destruct vs as [|v [|w vs]]; simpl in Hl; [| |lia].
        -- inversion R; subst. assert (O : lf_is_optional f = true). { destruct (lf_is_optional f); [auto|]. specialize (A2 eq_refl Al). lia. }
           split; [|congruence]. exists VNone. now apply pl_group_no.
        -- inversion R as [|ct v' vs' e' l1 l2 l' Rc Rg J]; subst. inversion Rg; subst. red in J. rewrite app_nil_r in J. subst l1.
           split; [|intros O _; exists v; now apply px_group].
           destruct (lf_is_optional f) eqn:O; eexists; [eapply pl_group_yes|eapply pl_group]; eauto.
    + destruct (IHr eq_refl ns Q) as (vs & Hl & R). destruct (lf_is_vec f) eqn:Ve.
      * split.
        -- eexists. eapply pl_run; eauto. intros _ O. specialize (A2 O Al). intros ->. simpl in Hl. lia.
        -- intros O _. specialize (A2 O Al). destruct vs as [|w vs]; [simpl in Hl; lia|].
           eexists. eapply px_run; eauto.
      * specialize (A1 eq_refl Al). destruct vs as [|v [|w vs]]; simpl in Hl; [| |lia].
        -- inversion R; subst. assert (O : lf_is_optional f = true). { destruct (lf_is_optional f); [auto|]. specialize (A2 eq_refl Al). lia. }
           split; [|congruence]. exists VNone. now apply pl_none.
        -- inversion R as [|n' ns' ct v' vs' x l' M Rs Rr]; subst. inversion Rr; subst.
           split; [|intros O _; exists v; eapply px_one; eauto].
           destruct (lf_is_optional f) eqn:O; eexists; [eapply pl_some|eapply pl_one]; eauto.
  - intros f e. split; [intros _|intros _ ns _]; exists []; (split; [reflexivity|constructor]).
  - intros f k e l1 l2 l _ [H1 H2] _ [G1 G2] Jl. split.
    + intros Vf. destruct (H1 Vf) as (v & R). destruct (G1 Vf) as (vs & Hl & Rs). exists (v :: vs).
      split; [simpl; congruence|]. econstructor; eauto.
    + intros Vf ns Q. destruct (H2 Vf ns Q) as (x & v & -> & M & R). destruct (G2 Vf ns Q) as (vs & Hl & Rs). exists (v :: vs).
      split; [simpl; congruence|]. red in Jl. subst l. simpl. now constructor.
  - intros f e l Vf _ IH. split; [auto|congruence].
  - intros f ns x e l Vf Q M _ (v & R) Kl. split; [congruence|]. intros _ ns' Q'. assert (ns' = ns) as -> by congruence.
    exists x, v. split; [reflexivity|]. split; [exact M|]. econstructor; eauto.
Qed.

Lemma valid_doc_rep n e : valid_document c gs n e -> exists v, rep_doc c gs appended exactly V n v e.
Proof.
  intros [n' ns r e' l I Q M G T Kl]. destruct valid_rep as (_ & X & _). destruct (X _ _ _ T _ I G) as (v & R).
  exists v. econstructor; eauto.
Qed.
End Valid.

Lemma valid_decoded {L : Libs} gfuel c gs p F n id e : generated gfuel c gs p -> rust_ok p -> variants_required c gs ->
  unambiguous_b c gs false F = true -> valid_document c gs n e -> type_ident n = Ok id ->
  exists v, rep_doc c gs appended exactly (counted false) n v e /\ yields (fun fuel => from_xml p fuel id e) (Ok v).
Proof.
  intros Hg [Hd Hf] Hrq U Vd Ei. apply (functions_iff gfuel c gs p (proj1 Hg) Hd) in Hf. destruct Hf as (Ha & Hc & _).
  destruct (valid_doc_rep gfuel c gs p Hg Ha Hc Hrq n e Vd) as (v & R). exists v. split; [exact R|].
  apply (ll_doc c gs (same_ident gfuel c gs p Hg) false F U) in R. destruct Hg as [Hp Hnd].
  exact (read_doc_complete c gfuel gs p Hp Hnd _ _ _ _ Ei R).
Qed.

(** ** Decoded documents pass the checks *)
Section Checked.
Context {L : Libs}.
Variables (c : schema_ctx) (gs : list name).
Variable J : list xelem -> list xelem -> list xelem -> Prop.
Hypothesis Jnil : forall l, J l [] l.
Hypothesis Jone : forall x l, J [x] l (x :: l).

Notation rep_content := (rep_content c gs J (leftovers J) any_number).
Notation rep_sub := (rep_sub c gs J (leftovers J) any_number).
Notation rep_root := (rep_root c gs J (leftovers J) any_number).
Notation rep_fields := (rep_fields c gs J (leftovers J) any_number).
Notation rep_leaves := (rep_leaves c gs J (leftovers J) any_number).
Notation rep_leaf := (rep_leaf c gs J (leftovers J) any_number).
Notation rep_groups := (rep_groups c gs J (leftovers J) any_number).
Notation rep_run := (rep_run c gs J (leftovers J) any_number).
Notation rep_variant := (rep_variant c gs J (leftovers J) any_number).
Notation valid_content := (valid_content c gs J (leftovers J) loosely first_text false).
Notation valid_type := (valid_type c gs J (leftovers J) loosely first_text false).
Notation valid_fields := (valid_fields c gs J (leftovers J) loosely first_text false).
Notation valid_sequence := (valid_sequence c gs J (leftovers J) loosely first_text false).
Notation valid_particle := (valid_particle c gs J (leftovers J) loosely first_text false).
Notation valid_times := (valid_times c gs J (leftovers J) loosely first_text false).
Notation valid_once := (valid_once c gs J (leftovers J) loosely first_text false).

Lemma read_text e s : d_text e = Ok s -> first_text e s.
Proof.
  unfold d_text, first_text. destruct (xe_kids e) as [|[x|t|t] ks]; try discriminate; intros [= <-]; [now left|]. right. eauto.
Qed.
Lemma enum_in vs s v : enum_from_str vs s = Ok v -> In s (map snd vs).
Proof.
  induction vs as [|[w l] vs IH]; simpl; [discriminate|]. destruct (String.eqb_spec s l) as [->|N]; [now left|]. intros H. right. auto.
Qed.
Lemma enum_lexical names vs s v : enum_variants names = Ok vs -> enum_from_str vs s = Ok v -> In s (map nm names).
Proof. intros E H. destruct (enum_variants_spec _ _ E) as (_ & <- & _). eapply enum_in; eauto. Qed.

Lemma converts_lexical ct s v : converts c gs ct s (Ok v) -> lexical c gs ct s \/ exists t, ct = LcFixed t.
Proof.
  intros H. inversion H as [lit s' E|f s'|m s' (lit & F & P)|m m' n names vs s' F Ty Ev E]; subst; [| |left|left].
  - left. eapply lx_literal; [constructor|eassumption].
  - right. eauto.
  - assert (Q : lit_from_str lit s = Ok (VStr s)) by (unfold lit_from_str; rewrite P; reflexivity).
    eapply lx_literal; eauto.
  - eapply lx_enum; eauto. eapply enum_lexical; eauto.
Qed.
Lemma attr_checked a v e : rep_attr c gs a v e -> valid_attr c gs false a e.
Proof.
  intros [a' e' D O|a' e' s w D O Cv|a' e' s w D O Cv]; unfold valid_attr; rewrite D; auto;
    destruct (converts_lexical _ _ _ Cv); auto.
Qed.

Lemma loosely_none f : lf_is_optional f = true -> loosely f 0.
Proof.
  unfold lf_is_optional, loosely. intros O. apply N.eqb_eq in O. destruct (lf_max f) as [[|[m|m|]]|]; auto; split; auto; lia.
Qed.
Lemma loosely_one f : loosely f 1.
Proof. unfold loosely. destruct (lf_max f) as [[|[m|m|]]|]; auto. Qed.
Lemma loosely_vec f k : lf_is_vec f = true -> loosely f k.
Proof. unfold loosely, lf_is_vec. destruct (lf_max f) as [[|[m|m|]]|]; auto; discriminate. Qed.

Lemma times_one f e l : valid_once f e l -> valid_times f 1 e l.
Proof. intros H. econstructor; [exact H|constructor|apply Jnil]. Qed.

Lemma rep_checked :
  (forall ct v e l, rep_content ct v e l -> valid_content ct e l) /\
  (forall ct v x, rep_sub ct v x -> exists l, valid_content ct x l /\ leftovers J l (xe_children x)) /\
  (forall n r v e l, rep_root n r v e l -> valid_type r e l) /\
  (forall ec vs e l, rep_fields ec vs e l -> valid_fields ec e l) /\
  (forall ls vs e l, rep_leaves ls vs e l -> valid_sequence ls e l) /\
  (forall f v e l, rep_leaf f v e l -> valid_particle f e l) /\
  (forall ct vs e l, rep_groups ct vs e l -> forall f, lf_virtual f = true -> ld_content (lf_def f) = ct ->
     valid_times f (length vs) e l) /\
  (forall n ns ct vs l, rep_run n ns ct vs l -> forall f e, lf_virtual f = false -> nm (lf_name f) = n ->
     quote_xml_namespace c (lf_name f) = Some ns -> ld_content (lf_def f) = ct -> valid_times f (length vs) e l) /\
  (forall f v e l, rep_variant f v e l -> valid_particle f e l).
Proof.
  apply rep_ind.
  - intros ct lit s v e F D E. eapply va_text; [eapply lx_literal; eauto|now apply read_text].
  - intros ct s e F D. eapply va_text; [eapply lx_fixed; eauto|now apply read_text].
  - intros ct m n r v e l F Ty _ IH. eapply va_type; eauto.
  - intros ct v x l _ IH Kl. eauto.
  - intros n d v e l _ IH. now constructor.
  - intros n names vs s v e E D Es. econstructor; [eapply enum_lexical; eauto|now apply read_text].
  - intros n d vs avs e l _ IH Ra. constructor; [exact IH|]. intros a Ia. clear -Ra Ia. red in Ra.
    induction Ra as [|a0 fv ats avs [_ R] Ra IH]; [destruct Ia|]. destruct Ia as [->|Ia]; [eapply attr_checked; eauto|auto].
  - intros n d f i w e l If Ei _ IH. econstructor; eauto.
  - intros e. constructor.
  - intros n d f v e l Ef _ IH. now constructor.
  - intros ls vs e l _ IH. now constructor.
  - intros e. constructor.
  - intros f fs i v vs e l1 l2 l _ IH1 Ei _ IH2 Jl. econstructor; eauto.
  - intros f v e l Vf Ve O _ IH. apply vp with (k := 1); [apply loosely_one|]. apply times_one. now apply vo_group.
  - intros f e Vf Ve O. apply vp with (k := 0); [now apply loosely_none|constructor].
  - intros f v e l Vf Ve O _ IH. apply vp with (k := 1); [apply loosely_one|]. apply times_one. now apply vo_group.
  - intros f vs e l Vf Ve _ IH _. apply vp with (k := length vs); [now apply loosely_vec|auto].
  - intros f ns vs e l Vf Ve Q _ IH _. apply vp with (k := length vs); [now apply loosely_vec|auto].
  - intros f e Vf Ve O. apply vp with (k := 0); [now apply loosely_none|constructor].
  - intros f ns v x e Vf Ve O Q M _ (l & Vc & Kl). apply vp with (k := 1); [apply loosely_one|]. apply times_one. eapply vo_element; eauto.
  - intros f ns v x e Vf Ve O Q M _ (l & Vc & Kl). apply vp with (k := 1); [apply loosely_one|]. apply times_one. eapply vo_element; eauto.
  - intros ct e f Vf C. constructor.
  - intros ct v vs e l1 l2 l _ IH1 _ IH2 Jl f Vf C. simpl. subst ct. econstructor; [apply vo_group; eauto|auto|exact Jl].
  - intros n ns ct f e Vf N Q C. constructor.
  - intros n ns ct v vs x l M _ (l0 & Vc & Kl) _ IH f e Vf N Q C. simpl. subst n ct.
    econstructor; [eapply vo_element; eauto|eapply IH; eauto|apply Jone].
  - intros f w e l Vf _ IH. apply vp with (k := 1); [apply loosely_one|]. apply times_one. now apply vo_group.
  - intros f ns w ws e l Vf Ve Q _ IH. apply vp with (k := length (w :: ws)); [now apply loosely_vec|auto].
  - intros f ns w x e Vf Ve Q M _ (l & Vc & Kl). apply vp with (k := 1); [apply loosely_one|]. apply times_one. eapply vo_element; eauto.
Qed.
Lemma doc_checked n v e : rep_doc c gs J (leftovers J) any_number n v e -> checked_document c gs J n e.
Proof.
  intros [n' ns r v' e' l I Q M G R Kl]. destruct rep_checked as (_ & _ & X & _). econstructor; eauto.
Qed.
End Checked.

Lemma decoded_checked {L : Libs} gfuel c gs p n id e fuel v : generated gfuel c gs p -> In n gs -> type_ident n = Ok id ->
  from_xml p fuel id e = Ok v ->
  checked_document c gs shuffle n e /\ (all_ordered c gs -> checked_document c gs appended n e).
Proof.
  intros Hg I Ei H. destruct (described _ _ _ _ _ _ _ _ _ Hg I Ei H) as [R1 R2]. split.
  - eapply doc_checked; [apply shuffle_nil_r|intros x l; constructor; apply shuffle_nil_l|exact R1].
  - intros O. eapply doc_checked; [|intros x l; reflexivity|exact (R2 O)]. intros l. symmetry. apply app_nil_r.
Qed.

(** ** What validity implies, for the counterexamples *)
Section Invalid.
Context {L : Libs}.
Variables (c : schema_ctx) (gs : list name).

Lemma times_length f k e l : valid_times c gs appended exactly allowed only_text true f k e l -> lf_virtual f = false -> length l = k.
Proof.
  revert l. induction k as [|k IH]; intros l H Vf; inversion H as [|f' k' e' l1 l2 l' Ho Ht Jl]; subst; [reflexivity|].
  inversion Ho as [|f' ns x e' l' V' Q M Vc Kl]; subst; [congruence|]. red in Jl. subst l. simpl. f_equal. auto.
Qed.
Lemma valid_count n d f e : valid_document c gs n e -> sc_get c n = Some (RootElement d) -> ed_content d = Some (EcLeaves [f]) ->
  lf_virtual f = false -> allowed f (length (xe_children e)).
Proof.
  intros [n' ns r e' l I Q M G T Kl] G' C Vf. rewrite G in G'. injection G' as ->. red in Kl. rewrite Kl.
  inversion T as [| |d' e2 l' Vfs Ha|]; subst. rewrite C in Vfs. inversion Vfs as [| |ls e2 l' Vs]; subst.
  inversion Vs as [|f' fs e2 l1 l2 l' Vp Vn Jl]; subst. inversion Vn; subst. red in Jl. rewrite app_nil_r in Jl. subst l1.
  inversion Vp as [f' k e2 l' A Vt]; subst. rewrite (times_length _ _ _ _ Vt Vf). exact A.
Qed.
Lemma valid_fixed n d a t s e : valid_document c gs n e -> sc_get c n = Some (RootElement d) -> In a (ed_attributes d) ->
  a_content a = LcFixed t -> d_attribute e (nm (a_name a)) = Some s -> s = t.
Proof.
  intros [n' ns r e' l I Q M G T Kl] G' Ia C D. rewrite G in G'. injection G' as ->.
  inversion T as [| |d' e2 l' Vfs Ha|]; subst. specialize (Ha a Ia). unfold valid_attr in Ha. rewrite D, C in Ha.
  destruct Ha as [Lx|[? _]]; [|discriminate]. inversion Lx as [ct lit s' v F|ct s' F|ct m n2 names s' F]; subst; inversion F; reflexivity.
Qed.
End Invalid.
