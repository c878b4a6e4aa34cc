(** * EvoProof3: the modules generated for a schema and for one grown from it *)
From Verif Require Import Base Libs Xml Ast Decode Writer Gen Run CursorSpec CursorProof GenSpec GenProof1 DecSpec DecSim DecProof ReadSpec DecProof1 DecProof2 RepSpec RepProof WfSpec WfProof TermProof LlSpec LlProof RoundSpec RustSpec EvoSpec EvoProof EvoProof2 EvoWrite.

Lemma wm_mapM {E A B} (same : A -> A -> Prop) (new : A -> Prop) (P : B -> Prop) (g g' : A -> res E B) l l' : with_more same new l l' -> forall o o', mapM g l = Ok o -> mapM g' l' = Ok o' ->
  (forall x y a b, In x l -> same x y -> g x = Ok a -> g' y = Ok b -> a = b) -> (forall y b, new y -> g' y = Ok b -> P b) -> with_more eq P o o'.
Proof.
  induction 1 as [|x y l l' S W IH|y l l' N W IH]; intros o o' M M' H Hn; cbn [mapM] in *.
  - injection M as <-. injection M' as <-. constructor.
  - apply bind_ok in M. destruct M as (a & Ea & M). apply bind_ok in M. destruct M as (r & Er & M). injection M as <-.
    apply bind_ok in M'. destruct M' as (a' & Ea' & M'). apply bind_ok in M'. destruct M' as (r' & Er' & M'). injection M' as <-.
    constructor; [eapply H; eauto; now left|]. apply IH; auto. intros u v b b' I. apply H. now right.
  - apply bind_ok in M'. destruct M' as (a' & Ea' & M'). apply bind_ok in M'. destruct M' as (r' & Er' & M'). injection M' as <-. constructor; [eauto|]. auto.
Qed.
Lemma mapM_pairs {E A B C D} (f : A -> res E B) (g : A -> res E C) (h : B -> D) (k : C -> D) l : forall o o', mapM f l = Ok o -> mapM g l = Ok o' ->
  (forall x a b, f x = Ok a -> g x = Ok b -> h a = k b) -> map h o = map k o'.
Proof.
  induction l as [|x l IH]; intros o o' M M' H; cbn [mapM] in *.
  - injection M as <-. injection M' as <-. reflexivity.
  - apply bind_ok in M. destruct M as (a & Ea & M). apply bind_ok in M. destruct M as (r & Er & M). injection M as <-.
    apply bind_ok in M'. destruct M' as (a' & Ea' & M'). apply bind_ok in M'. destruct M' as (r' & Er' & M'). injection M' as <-.
    cbn [map]. f_equal; eauto.
Qed.
Lemma mapM_in {E A B} (f : A -> res E B) l o x : mapM f l = Ok o -> In x l -> exists y, f x = Ok y /\ In y o.
Proof. intros H I. apply mapM_ok in H. induction H as [|a b l o Ha F IH]; [destruct I|]. destruct I as [->|I]; [exists b; cbn; auto|]. destruct (IH I) as (y & Hy & Iy). exists y. cbn. auto. Qed.
Lemma mapM_out {E A B} (f : A -> res E B) l o y : mapM f l = Ok o -> In y o -> exists x, f x = Ok y /\ In x l.
Proof. intros H I. apply mapM_ok in H. induction H as [|a b l o Ha F IH]; [destruct I|]. destruct I as [->|I]; [exists a; cbn; auto|]. destruct (IH I) as (x & Hx & Ix). exists x. cbn. auto. Qed.

Section Gen3.
Context {L : Libs}.
Variables (Ns : list (string * option string)) (As : list string) (wide : bool).
Variables (gfuel gfuel' : nat) (c c' : schema_ctx) (p p' : program).
Hypothesis Gen : generated gfuel c (names_in c) p.
Hypothesis Gen' : generated gfuel' c' (names_in c') p'.
Hypothesis Ev : evolves Ns As wide c c'.
Hypothesis Cp : compiles c (names_in c).
Hypothesis Dk : Forall (fun t => decl_ok p' (ti_decl t)) p'.
Let Inj := same_ident gfuel' c' _ p' Gen'.

Definition kept (ct : leaf_content) : Prop := forall ct', final c ct ct' -> final c' ct ct'.
Lemma content_kept n r ct : sc_get c n = Some r -> In ct (contents r) -> kept ct.
Proof.
  intros G I ct' F. eapply final_kept; eauto. intros m ->. destruct (cp_refs _ _ Cp n r ct m) as (n' & r' & T); eauto. eapply get_in; eauto.
Qed.
Lemma attribute_kept n r a : sc_get c n = Some r -> In a (attributes_of r) -> kept (a_content a).
Proof.
  intros G I ct' F. eapply final_kept; eauto. intros m ->. pose proof (cp_attrs _ _ Cp n r a (get_in _ _ _ G) G I) as A. unfold attribute_ok in A.
  destruct (a_content a) as [l|k|s] eqn:Ea; try (inversion F; fail). destruct A as [(lit & Fl & _)|(m' & n' & names & Fm & T)].
  - pose proof (final_det _ _ _ _ F Fl). discriminate.
  - pose proof (final_det _ _ _ _ F Fm) as X. injection X as ->. eauto.
Qed.

Lemma wx_agree ct x x' : kept ct -> content_to_xml gfuel c ct = Ok x -> content_to_xml gfuel' c' ct = Ok x' -> x' = x.
Proof.
  intros K E E'. apply content_wx in E. destruct E as (k & F & X). apply content_wx in E'. destruct E' as (k' & F' & X'). rewrite (final_det _ _ _ _ F' (K _ F)) in X'.
  destruct X; inversion X'; subst; try reflexivity. congruence.
Qed.
Lemma ty_agree ct x x' : kept ct -> content_to_impl gfuel c ct = Ok x -> content_to_impl gfuel' c' ct = Ok x' -> x' = x.
Proof.
  intros K E E'. apply content_ty in E. destruct E as (k & F & X). apply content_ty in E'. destruct E' as (k' & F' & X'). rewrite (final_det _ _ _ _ F' (K _ F)) in X'.
  destruct X; inversion X'; subst; try reflexivity. congruence.
Qed.
Lemma tx_agree f d ct ty x : content_to_impl f d ct = Ok ty -> content_to_xml f d ct = Ok x -> typed_x ty x.
Proof.
  intros E E'. apply content_ty in E. destruct E as (k & F & X). apply content_wx in E'. destruct E' as (k' & F' & X'). rewrite (final_det _ _ _ _ F' F) in X'.
  destruct X; inversion X'; subst; try constructor. assert (id0 = id) as -> by congruence. constructor.
Qed.

Lemma resolve_lit d fuel : forall n o, resolve_from fuel d (sc_get d n) = Some o ->
  ((exists lit, final d (LcNamed n) (LcLiteral lit)) <-> exists lit a b, o = Some (RootLeaf (mkLeafDef (LcLiteral lit) a b))).
Proof.
  induction fuel as [|fuel IH]; intros n o H; cbn [resolve_from] in H.
  - destruct (sc_get d n) as [[[[l|m|s] a b]|ns|e|e]|] eqn:G; try discriminate; injection H as <-; split; intros X;
      try (destruct X as (lit & F); inversion F as [| | |? ? ? G' F']; subst; rewrite G in G'; try discriminate; injection G' as <-; cbn in F'; inversion F'; subst; eauto; fail);
      try (destruct X as (lit & ? & ? & X); discriminate).
    exists l. eapply fi_alias; [exact G|constructor].
  - destruct (sc_get d n) as [[[[l|m|s] a b]|ns|e|e]|] eqn:G; try (injection H as <-; split; intros X;
      try (destruct X as (lit & F); inversion F as [| | |? ? ? G' F']; subst; rewrite G in G'; try discriminate; injection G' as <-; cbn in F'; inversion F'; subst; eauto; fail);
      try (destruct X as (lit & ? & ? & X); discriminate)).
    + exists l. eapply fi_alias; [exact G|constructor].
    + rewrite <- (IH _ _ H). split; intros (lit & F); exists lit.
      * inversion F as [| | |? ? ? G' F']; subst. rewrite G in G'. injection G' as <-. exact F'.
      * eapply fi_alias; [exact G|exact F].
Qed.
Lemma wrap_lit d fuel l m w : lf_virtual l = false -> ld_content (lf_def l) = LcNamed m -> leaf_wrap fuel d l = Ok w ->
  (w = true <-> exists lit, final d (LcNamed m) (LcLiteral lit)).
Proof.
  intros V Cm H. unfold leaf_wrap in H. rewrite V, Cm in H. destruct (resolve fuel d m) as [o|] eqn:R; [|discriminate]. rewrite (resolve_lit d fuel m o R).
  destruct o as [[[[l0|m0|s] a b]|ns|e|e]|]; injection H as <-; split; intros X; try discriminate; try (destruct X as (? & ? & ? & X); discriminate); eauto.
Qed.
Lemma lit_back ct lit : kept ct -> final c' ct (LcLiteral lit) -> (exists ct', final c ct ct') -> final c ct (LcLiteral lit).
Proof. intros K F (ct' & F'). rewrite (final_det _ _ _ _ F (K _ F')). exact F'. Qed.
Lemma wrap_agree f f' w w' x : same_leaf f f' -> kept (ld_content (lf_def f)) -> content_to_xml gfuel c (ld_content (lf_def f)) = Ok x ->
  leaf_wrap gfuel c f = Ok w -> leaf_wrap gfuel' c' f' = Ok w' -> w' = w.
Proof.
  intros (S1 & S2 & S3 & S4 & S5 & S6) K X E E'. apply content_wx in X. destruct X as (k & Fk & _).
  destruct (lf_virtual f) eqn:V; [unfold leaf_wrap in *; rewrite V in E; rewrite S4 in E'; congruence|].
  destruct (ld_content (lf_def f)) as [l|m|s] eqn:Cm; try (unfold leaf_wrap in *; rewrite V, Cm in E; rewrite S4, S2 in E'; congruence).
  pose proof (wrap_lit _ _ _ _ _ V Cm E) as A. rewrite <- S2 in Cm. 
  assert (B : w' = true <-> exists lit, final c' (LcNamed m) (LcLiteral lit)) by (eapply wrap_lit; eauto; congruence).
  assert (C : (exists lit, final c (LcNamed m) (LcLiteral lit)) <-> exists lit, final c' (LcNamed m) (LcLiteral lit)).
  { split; intros (lit & F); exists lit; [now apply K|]. eapply lit_back; eauto. }
  destruct w, w'; try reflexivity; exfalso; [assert (false = true) by (apply B, C, A; reflexivity)|assert (false = true) by (apply A, C, B; reflexivity)]; discriminate.
Qed.
Lemma xml_name_same n : xml_name_of c' n = xml_name_of c n.
Proof. unfold xml_name_of, get_xml_element_name. now rewrite (ev_namespaces _ _ _ _ _ Ev), (ev_target _ _ _ _ _ Ev), (ev_qualified _ _ _ _ _ Ev). Qed.
Lemma nss_same : element_nss c' = element_nss c.
Proof. unfold element_nss. now rewrite (ev_namespaces _ _ _ _ _ Ev), (ev_target _ _ _ _ _ Ev), (ev_qualified _ _ _ _ _ Ev). Qed.

Ltac binds H := repeat (apply bind_ok in H; let a := fresh "a" in let E := fresh "E" in destruct H as (a & E & H)).

Lemma leaf_agree f f' w w' : same_leaf f f' -> kept (ld_content (lf_def f)) -> leaf_to_xml gfuel c f = Ok w -> leaf_to_xml gfuel' c' f' = Ok w' -> w = w'.
Proof.
  intros S K E E'. pose proof S as (S1 & S2 & S3 & S4 & S5 & S6). unfold leaf_to_xml, def_to_xml in *.
  apply bind_ok in E. destruct E as (i & Ei & E). apply bind_ok in E. destruct E as (x & Ex & E). apply bind_ok in E. destruct E as (y & Ey & E). apply bind_ok in E. destruct E as (u & Eu & E). injection E as <-.
  apply bind_ok in E'. destruct E' as (i' & Ei' & E'). apply bind_ok in E'. destruct E' as (x' & Ex' & E'). apply bind_ok in E'. destruct E' as (y' & Ey' & E'). apply bind_ok in E'. destruct E' as (u' & Eu' & E'). injection E' as <-.
  rewrite S1 in Ei', Ex'. rewrite (wrap_agree _ _ _ _ _ S K Ey Eu Eu'). assert (i' = i) as -> by congruence. rewrite xml_name_same in Ex'. assert (x' = x) as -> by congruence. rewrite S2 in Ey'. rewrite (wx_agree _ _ _ K Ey Ey'). rewrite S4, S5, S6. reflexivity.
Qed.
Lemma leaf_typed f fuel d w q : leaf_to_xml fuel d f = Ok w -> leaf_to_impl fuel d f = Ok q ->
  exists ty, typed_x ty (wf_x w) /\ q = (wf_field w, wrap_opt (wf_opt w) (wrap_vec (wf_vec w) ty)) /\ content_to_impl fuel d (ld_content (lf_def f)) = Ok ty.
Proof.
  intros E E'. unfold leaf_to_xml, leaf_to_impl, def_to_xml, def_to_impl in *.
  apply bind_ok in E. destruct E as (i & Ei & E). apply bind_ok in E. destruct E as (x & Ex & E). apply bind_ok in E. destruct E as (y & Ey & E). apply bind_ok in E. destruct E as (u & Eu & E). injection E as <-.
  apply bind_ok in E'. destruct E' as (i' & Ei' & E'). apply bind_ok in E'. destruct E' as (ty & Et & E'). injection E' as <-. exists ty. split; [eapply tx_agree; eauto|]. split; [|exact Et]. cbn. congruence.
Qed.
Lemma leaf_impl_agree f f' q q' : same_leaf f f' -> kept (ld_content (lf_def f)) -> leaf_to_impl gfuel c f = Ok q -> leaf_to_impl gfuel' c' f' = Ok q' -> q = q'.
Proof.
  intros (S1 & S2 & S3 & S4 & S5 & S6) K E E'. unfold leaf_to_impl, def_to_impl in *.
  apply bind_ok in E. destruct E as (i & Ei & E). apply bind_ok in E. destruct E as (t & Et & E). injection E as <-.
  apply bind_ok in E'. destruct E' as (i' & Ei' & E'). apply bind_ok in E'. destruct E' as (t' & Et' & E'). injection E' as <-.
  rewrite S2 in Et'. rewrite (ty_agree _ _ _ K Et Et'), S5, S6. rewrite S1 in Ei'. congruence.
Qed.
Lemma attr_agree a a' w w' : same_attr a a' -> attr_to_xml c a = Ok w -> attr_to_xml c' a' = Ok w' -> w = w'.
Proof.
  intros (S1 & S2 & S3) E E'. unfold attr_to_xml in *. apply bind_ok in E. destruct E as (i & Ei & E). apply bind_ok in E. destruct E as (t & Et & E). injection E as <-.
  apply bind_ok in E'. destruct E' as (i' & Ei' & E'). apply bind_ok in E'. destruct E' as (t' & Et' & E'). injection E' as <-. rewrite xml_name_same, S1 in Et'. rewrite S1 in Ei'. rewrite S2, S3. congruence.
Qed.
Lemma attr_impl_agree a a' w w' : same_attr a a' -> kept (a_content a) -> attr_to_impl gfuel c a = Ok w -> attr_to_impl gfuel' c' a' = Ok w' -> w = w'.
Proof.
  intros (S1 & S2 & S3) K E E'. unfold attr_to_impl in *. apply bind_ok in E. destruct E as (i & Ei & E). apply bind_ok in E. destruct E as (t & Et & E). injection E as <-.
  apply bind_ok in E'. destruct E' as (i' & Ei' & E'). apply bind_ok in E'. destruct E' as (t' & Et' & E'). injection E' as <-. rewrite S2 in Et'. rewrite (ty_agree _ _ _ K Et Et'). rewrite S1 in Ei'. rewrite S3. congruence.
Qed.
Lemma field_names {A B C} (f : A -> G B) (g : A -> G C) h k l o o' : mapM f l = Ok o -> mapM g l = Ok o' -> (forall x a b, f x = Ok a -> g x = Ok b -> h a = k b) -> map h o = map (B := string) k o'.
Proof. intros M M' H. eapply mapM_pairs; eauto. Qed.

Lemma item_sim n r t r' t' : sc_get c n = Some r -> sc_get c' n = Some r' -> grown_root Ns As wide c' r r' ->
  generate_element gfuel c n = Ok t -> generate_element gfuel' c' n = Ok t' -> decl_ok p' (ti_decl t') ->
  sim_item t t' /\ ti_id t' = ti_id t /\ ti_xml_name t' = ti_xml_name t /\ ti_nss t' = ti_nss t.
Proof.
  intros G0 G0' Gr Et Et' Ok'. apply generate_element_inv in Et. destruct Et as (el & id & d & w & xn & nss & ns & br & lk & G1 & Ei & Ed & Ew & Ex & En & _ & _ & _ & ->).
  apply generate_element_inv in Et'. destruct Et' as (el' & id' & d' & w' & xn' & nss' & ns' & br' & lk' & G1' & Ei' & Ed' & Ew' & Ex' & En' & _ & _ & _ & ->).
  rewrite G0 in G1. injection G1 as <-. rewrite G0' in G1'. injection G1' as <-. cbn [ti_decl] in Ok'.
  split; [|cbn; rewrite xml_name_same in Ex'; rewrite nss_same in En'; repeat split; congruence].
  destruct Gr as [df df' E|names|names more Wd|df df' Gc Ga Gv|df df' W Gv]; cbn [root_to_declaration root_to_xml] in *.
  - assert (K : kept (ld_content df)) by (eapply content_kept; [exact G0|now left]). unfold def_to_impl, def_to_xml in *.
    apply bind_ok in Ed. destruct Ed as (ty & Ty & Ed). injection Ed as <-. apply bind_ok in Ed'. destruct Ed' as (ty' & Ty' & Ed'). injection Ed' as <-.
    apply bind_ok in Ew. destruct Ew as (x & X & Ew). injection Ew as <-. apply bind_ok in Ew'. destruct Ew' as (x' & X' & Ew'). injection Ew' as <-.
    rewrite E in *. rewrite (ty_agree _ _ _ K Ty Ty'), (wx_agree _ _ _ K X X'). eapply si_tuple; try reflexivity. eapply tx_agree; eauto.
  - apply bind_ok in Ed. destruct Ed as (vs & Vs & Ed). injection Ed as <-. apply bind_ok in Ed'. destruct Ed' as (vs' & Vs' & Ed'). injection Ed' as <-. injection Ew as <-. injection Ew' as <-.
    rewrite Vs in Vs'. injection Vs' as <-. apply (si_enum _ _ vs []); try reflexivity. now rewrite app_nil_r.
  - apply bind_ok in Ed. destruct Ed as (vs & Vs & Ed). injection Ed as <-. apply bind_ok in Ed'. destruct Ed' as (vs' & Vs' & Ed'). injection Ed' as <-. injection Ew as <-. injection Ew' as <-.
    destruct (enum_variants_app _ _ _ Vs') as (vs0 & y & Vs0 & ->). rewrite Vs in Vs0. injection Vs0 as <-. apply (si_enum _ _ vs y); reflexivity.
  - unfold element_to_impl in *. unfold element_to_xml in *.
    apply bind_ok in Ed. destruct Ed as (fs & Fs & Ed). apply bind_ok in Ed. destruct Ed as (avs & Avs & Ed). injection Ed as <-.
    apply bind_ok in Ed'. destruct Ed' as (fs' & Fs' & Ed'). apply bind_ok in Ed'. destruct Ed' as (avs' & Avs' & Ed'). injection Ed' as <-.
    apply bind_ok in Ew. destruct Ew as (ats & Ats & Ew). apply bind_ok in Ew. destruct Ew as (b & B & Ew). injection Ew as <-.
    apply bind_ok in Ew'. destruct Ew' as (ats' & Ats' & Ew'). apply bind_ok in Ew'. destruct Ew' as (b' & B' & Ew'). injection Ew' as <-.
    assert (Wa : with_more eq (fun a => wa_opt a = true) ats ats').
    { eapply wm_mapM; [exact Ga|exact Ats|exact Ats'| |].
      - intros x y a a' _ S X Y. eapply attr_agree; eauto.
      - intros y q [O _] Y. unfold attr_to_xml in Y. apply bind_ok in Y. destruct Y as (i & _ & Y). apply bind_ok in Y. destruct Y as (u & _ & Y). injection Y as <-. exact O. }
    assert (Na : forall f e l o o', mapM (attr_to_impl f e) l = Ok o -> mapM (attr_to_xml e) l = Ok o' -> map fst o = map wa_field o').
    { intros f e l o o' M M'. eapply mapM_pairs; eauto. intros x q u X Y. unfold attr_to_impl in X. unfold attr_to_xml in Y. apply bind_ok in X. destruct X as (i & Ii & X). apply bind_ok in X. destruct X as (u1 & _ & X). injection X as <-.
      apply bind_ok in Y. destruct Y as (i' & Ii' & Y). apply bind_ok in Y. destruct Y as (u2 & _ & Y). injection Y as <-. cbn. congruence. }
    assert (Nl : forall f e l o o', mapM (leaf_to_impl f e) l = Ok o -> mapM (leaf_to_xml f e) l = Ok o' -> map fst o = map wf_field o').
    { intros f e l o o' M M'. eapply mapM_pairs; eauto. intros x q u X Y. destruct (leaf_typed _ _ _ _ _ Y X) as (ty & _ & -> & _). reflexivity. }
    assert (Nb : forall f e ec o b0, match ec with None => Ok [] | Some (EcLeaf n0 def) => f0 <- field_ident n0 ;; t <- def_to_impl f e def ;; Ok [(f0, t)] | Some (EcLeaves ls) => mapM (leaf_to_impl f e) ls end = Ok o ->
      match ec with None => Ok WbNone | Some (EcLeaf n0 def) => f0 <- field_ident n0 ;; x <- def_to_xml f e def ;; Ok (WbLeaf f0 x) | Some (EcLeaves ls) => fs1 <- mapM (leaf_to_xml f e) ls ;; Ok (WbLeaves fs1) end = Ok b0 ->
      map fst o = body_names b0).
    { intros f e ec o b0 X Y. destruct ec as [[n0 def|ls]|].
      - apply bind_ok in X. destruct X as (i & Ii & X). apply bind_ok in X. destruct X as (u1 & _ & X). injection X as <-. apply bind_ok in Y. destruct Y as (i' & Ii' & Y). apply bind_ok in Y. destruct Y as (u2 & _ & Y). injection Y as <-.
        cbn. congruence.
      - apply bind_ok in Y. destruct Y as (ws & Ws & Y). injection Y as <-. cbn [body_names]. eauto.
      - injection X as <-. injection Y as <-. reflexivity. }
    assert (Wn : match ed_content df' with Some (EcLeaf _ (mkLeafDef (LcNamed _) _ _)) => true | _ => false end = match ed_content df with Some (EcLeaf _ (mkLeafDef (LcNamed _) _ _)) => true | _ => false end).
    { inversion Gc as [|ls Nw Q1 Q2|n0 d0 d1 E0 Q1 Q2|ls ls' Wm Q1 Q2]; try reflexivity. destruct d0 as [c0 ? ?], d1 as [c1 ? ?]. cbn in E0. subst c1. reflexivity. }
    assert (Nd : NoDup (map fst (fs' ++ avs'))) by (inversion Ok' as [| |fs0 (M & _)|]; subst; exact M).
    cbn zeta in *. rewrite Wn, Gv. eapply si_struct; try reflexivity.
    + exact Wa.
    + inversion Gc as [Q1 Q2|ls Nw Q1 Q2|n0 d0 d1 E0 Q1 Q2|ls ls' Wm Q1 Q2]; rewrite <- Q1 in *; rewrite <- Q2 in *.
      * injection B as <-. injection B' as <-. constructor.
      * injection B as <-. apply bind_ok in B'. destruct B' as (ws & Ws & B'). injection B' as <-. constructor. apply Forall_forall. intros w1 Iw. destruct (mapM_out _ _ _ _ Ws Iw) as (f & Ef & If).
        rewrite Forall_forall in Nw. destruct (Nw f If) as [_ O]. unfold leaf_to_xml in Ef. apply bind_ok in Ef. destruct Ef as (? & _ & Ef). apply bind_ok in Ef. destruct Ef as (? & _ & Ef). apply bind_ok in Ef. destruct Ef as (? & _ & Ef). apply bind_ok in Ef. destruct Ef as (? & _ & Ef). injection Ef as <-. exact O.
      * unfold def_to_xml in *. rewrite E0 in B'. apply bind_ok in B. destruct B as (i & Ii & B). apply bind_ok in B. destruct B as (x & X & B). injection B as <-. apply bind_ok in B'. destruct B' as (i' & Ii' & B'). apply bind_ok in B'. destruct B' as (x' & X' & B'). injection B' as <-.
        assert (K : kept (ld_content d0)) by (eapply content_kept; [exact G0|]; cbn; rewrite <- Q1; now left). rewrite (wx_agree _ _ _ K X X'). assert (i' = i) as -> by congruence. constructor.
      * apply bind_ok in B. destruct B as (ws & Ws & B). injection B as <-. apply bind_ok in B'. destruct B' as (ws' & Ws' & B'). injection B' as <-. constructor. eapply wm_mapM; [exact Wm|exact Ws|exact Ws'| |].
        -- intros x y a a' Ix S X Y. eapply leaf_agree; eauto. eapply content_kept; [exact G0|]. cbn. rewrite <- Q1. now apply (in_map (fun f => ld_content (lf_def f))).
        -- intros y q [_ O] Ef. unfold leaf_to_xml in Ef. apply bind_ok in Ef. destruct Ef as (? & _ & Ef). apply bind_ok in Ef. destruct Ef as (? & _ & Ef). apply bind_ok in Ef. destruct Ef as (? & _ & Ef). apply bind_ok in Ef. destruct Ef as (? & _ & Ef). injection Ef as <-. exact O.
    + rewrite map_app, (Nb _ _ _ _ _ Fs B), (Na _ _ _ _ _ Avs Ats). reflexivity.
    + rewrite map_app, (Nb _ _ _ _ _ Fs' B'), (Na _ _ _ _ _ Avs' Ats'). reflexivity.
    + exact Nd.
    + intros f x ->. inversion Gc as [Q1 Q2|ls Nw Q1 Q2|n0 d0 d1 E0 Q1 Q2|ls ls' Wm Q1 Q2]; rewrite <- Q1 in *; rewrite <- Q2 in *; try discriminate; [|apply bind_ok in B; destruct B as (? & _ & B); discriminate].
      unfold def_to_impl, def_to_xml in *. rewrite E0 in Fs'. assert (K : kept (ld_content d0)) by (eapply content_kept; [exact G0|]; cbn; rewrite <- Q1; now left).
      apply bind_ok in B. destruct B as (i & Ii & B). apply bind_ok in B. destruct B as (x1 & X1 & B). injection B as <- <-. apply bind_ok in Fs. destruct Fs as (i1 & Ii1 & Fs). apply bind_ok in Fs. destruct Fs as (ty & Ty & Fs). injection Fs as <-.
      apply bind_ok in Fs'. destruct Fs' as (i2 & Ii2 & Fs'). apply bind_ok in Fs'. destruct Fs' as (ty' & Ty' & Fs'). injection Fs' as <-. assert (i1 = i) as -> by congruence. assert (i2 = i) as -> by congruence.
      exists ty. split; [eapply tx_agree; eauto|]. rewrite (ty_agree _ _ _ K Ty Ty'). split; now left.
    + intros l Il. destruct b as [| |ws]; cbn in Il; try tauto.
      inversion Gc as [Q1 Q2|ls Nw Q1 Q2|n0 d0 d1 E0 Q1 Q2|ls ls' Wm Q1 Q2]; rewrite <- Q1 in *; rewrite <- Q2 in *; try discriminate.
      { apply bind_ok in B. destruct B as (? & _ & B). apply bind_ok in B. destruct B as (? & _ & B). discriminate. }
      apply bind_ok in B. destruct B as (ws1 & Ws & B). injection B as ->. destruct (mapM_out _ _ _ _ Ws Il) as (f & Ef & If). destruct (mapM_in _ _ _ _ Fs If) as (q & Eq & Iq).
      destruct (leaf_typed _ _ _ _ _ Ef Eq) as (ty & Tx & -> & Ety). exists ty. split; [exact Tx|]. split; [apply in_or_app; now left|].
      destruct (wm_in _ _ _ _ _ Wm If) as (f' & If' & S). destruct (mapM_in _ _ _ _ Fs' If') as (q' & Eq' & Iq'). apply in_or_app. left.
      assert (K : kept (ld_content (lf_def f))) by (eapply content_kept; [exact G0|]; cbn; rewrite <- Q1; now apply (in_map (fun f => ld_content (lf_def f)))). rewrite (leaf_impl_agree _ _ _ _ S K Eq Eq'). exact Iq'.
    + intros a Ia. destruct (mapM_out _ _ _ _ Ats Ia) as (x & Ex1 & Ix). destruct (mapM_in _ _ _ _ Avs Ix) as ([i ty] & Eq & Iq). destruct (wm_in _ _ _ _ _ Ga Ix) as (x' & Ix' & S). destruct (mapM_in _ _ _ _ Avs' Ix') as (q' & Eq' & Iq').
      assert (K : kept (a_content x)) by (eapply attribute_kept; [exact G0|exact Ix]). pose proof (attr_impl_agree _ _ _ _ S K Eq Eq') as <-.
      assert (wa_field a = i) as ->. { unfold attr_to_impl in Eq. unfold attr_to_xml in Ex1. apply bind_ok in Eq. destruct Eq as (j & Ij & Eq). apply bind_ok in Eq. destruct Eq as (? & _ & Eq). injection Eq as <- _. apply bind_ok in Ex1. destruct Ex1 as (j' & Ij' & Ex1). apply bind_ok in Ex1. destruct Ex1 as (? & _ & Ex1). injection Ex1 as <-. cbn. congruence. }
      exists ty. split; apply in_or_app; right; assumption.
  - apply bind_ok in Ed. destruct Ed as (vs & Vs & Ed). injection Ed as <-. apply bind_ok in Ed'. destruct Ed' as (vs' & Vs' & Ed'). injection Ed' as <-.
    apply bind_ok in Ew. destruct Ew as (arms & Ar & Ew). injection Ew as <-. apply bind_ok in Ew'. destruct Ew' as (arms' & Ar' & Ew'). injection Ew' as <-.
    assert (Nd : NoDup (map fst vs')) by (inversion Ok' as [| | |? Ne (M & _)]; subst; exact M).
    assert (K : forall f, In f (cd_variants df) -> kept (ld_content (lf_def f))) by (intros f If; eapply content_kept; [exact G0|]; cbn; now apply (in_map (fun f => ld_content (lf_def f)))).
    rewrite Gv. eapply si_choice; try reflexivity.
    + eapply wm_mapM; [exact W|exact Ar|exact Ar'| |auto]. intros x y a a' Ix S X Y. pose proof S as (S1 & S2 & S3 & S4 & S5 & S6). unfold def_to_xml in *.
      apply bind_ok in X. destruct X as (i & Ii & X). apply bind_ok in X. destruct X as (u & Eu & X). injection X as <-. apply bind_ok in Y. destruct Y as (i' & Ii' & Y). apply bind_ok in Y. destruct Y as (u' & Eu' & Y). injection Y as <-.
      rewrite S1 in *. rewrite S2 in *. rewrite (wx_agree _ _ _ (K x Ix) Eu Eu'), S6. congruence.
    + eapply mapM_pairs; [exact Vs'|exact Ar'|]. intros x q u X Y. apply bind_ok in X. destruct X as (i & Ii & X). apply bind_ok in X. destruct X as (? & _ & X). injection X as <-. apply bind_ok in Y. destruct Y as (i' & Ii' & Y). apply bind_ok in Y. destruct Y as (? & _ & Y). injection Y as <-. cbn. congruence.
    + exact Nd.
    + intros q Iq. destruct (mapM_out _ _ _ _ Vs Iq) as (f & Ef & If). destruct (wm_in _ _ _ _ _ W If) as (f' & If' & (S1 & S2 & S3 & S4 & S5 & S6)). destruct (mapM_in _ _ _ _ Vs' If') as (q' & Eq' & Iq'). unfold def_to_impl in *.
      apply bind_ok in Ef. destruct Ef as (i & Ii & Ef). apply bind_ok in Ef. destruct Ef as (u & Eu & Ef). injection Ef as <-. apply bind_ok in Eq'. destruct Eq' as (i' & Ii' & Eq'). apply bind_ok in Eq'. destruct Eq' as (u' & Eu' & Eq'). injection Eq' as <-.
      rewrite S1, S2 in *. rewrite (ty_agree _ _ _ (K f If) Eu Eu'), S6 in Iq'. assert (i' = i) as -> by congruence. exact Iq'.
    + intros a Ia. destruct (mapM_out _ _ _ _ Ar Ia) as (f & Ef & If). destruct (mapM_in _ _ _ _ Vs If) as (q & Eq & Iq). unfold def_to_impl, def_to_xml in *.
      apply bind_ok in Ef. destruct Ef as (i & Ii & Ef). apply bind_ok in Ef. destruct Ef as (u & Eu & Ef). injection Ef as <-. apply bind_ok in Eq. destruct Eq as (i' & Ii' & Eq). apply bind_ok in Eq. destruct Eq as (ty & Ety & Eq). injection Eq as <-.
      exists ty. cbn. split; [eapply tx_agree; eauto|]. assert (i' = i) as -> by congruence. exact Iq.
Qed.

Lemma modules_sim id t : lookup_item p id = Some t ->
  exists t', lookup_item p' id = Some t' /\ sim_item t t' /\ ti_xml_name t' = ti_xml_name t /\ ti_nss t' = ti_nss t.
Proof.
  intros H. unfold lookup_item in H. apply find_some in H. destruct H as [I E]. apply String.eqb_eq in E. subst id. destruct Gen as [Hp _]. pose proof (mapM_out _ _ _ _ Hp I) as (n & Hn & In).
  apply in_get in In. destruct In as (r & G). destruct (ev_roots _ _ _ _ _ Ev _ _ G) as (r' & G' & Gr). destruct (gen_one gfuel' c' p' Gen' _ _ G') as (t' & Ht' & It').
  rewrite Forall_forall in Dk. destruct (item_sim _ _ _ _ _ G G' Gr Hn Ht' (Dk _ It')) as (S & Ei & Xn & Nn). exists t'. split; [|auto]. rewrite <- Ei. apply lookup_NoDup; [apply Gen'|exact It'].
Qed.
End Gen3.
