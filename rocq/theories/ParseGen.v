(** * ParseGen: what the generator can panic about on parsed schemas *)
From Verif Require Import Base Libs Xml Ast XsdNode Parse Gen ParseSpec MiscSpec MiscProof ParseProof ParseFiles.

Section Gen.
Context {L : Libs}.

Definition gok {A} (m : G A) : Prop := match m with Panic w => identifier_panic w | _ => True end.
Lemma gok_bind {A B} (m : G A) (k : A -> G B) : gok m -> (forall a, gok (k a)) -> gok (bind m k).
Proof. destruct m; simpl; auto. Qed.
Lemma gok_mapM {A B} (g : A -> G B) l : Forall (fun a => gok (g a)) l -> gok (mapM g l).
Proof.
  induction 1 as [|a l Ha Hl IH]; simpl; [exact I|].
  apply gok_bind; [exact Ha|]. intros b. apply gok_bind; [exact IH|]. intros bs. exact I.
Qed.
Lemma gok_format s : gok (format_ident s).
Proof. unfold format_ident. destruct (ident_valid s); simpl; [exact I|]. exists s. now left. Qed.
Lemma gok_escape s : gok (escape_ident s).
Proof.
  unfold escape_ident. destruct (mem _ _ escaped_names); [|apply gok_format].
  unfold format_raw_ident. destruct (mem _ _ _); [exists s; now right|].
  destruct (ident_valid s); simpl; [exact I|]. exists s. now left.
Qed.
Lemma gok_type n : gok (type_ident n). Proof. apply gok_escape. Qed.
Lemma gok_field n : gok (field_ident n). Proof. apply gok_escape. Qed.
Lemma gok_variant n : gok (variant_ident n). Proof. apply gok_format. Qed.
Lemma gok_look n : gok (look_ident n). Proof. apply gok_format. Qed.

Lemma gok_to_impl fuel c ct : gok (content_to_impl fuel c ct).
Proof.
  revert ct. induction fuel as [|fuel IH]; intros [l|n|s]; simpl; try exact I;
    destruct (sc_get c n) as [[dl|ns|e|ch]|]; try exact I; try apply IH; (apply gok_bind; [apply gok_type|intros; exact I]).
Qed.
Lemma gok_to_xml fuel c ct : gok (content_to_xml fuel c ct).
Proof.
  revert ct. induction fuel as [|fuel IH]; intros [l|n|s]; simpl; try exact I;
    destruct (sc_get c n) as [[dl|ns|e|ch]|]; try exact I; try apply IH; (apply gok_bind; [apply gok_type|intros; exact I]).
Qed.
Lemma gok_from_xml fuel c ct : gok (content_from_xml fuel c ct).
Proof.
  revert ct. induction fuel as [|fuel IH]; intros [l|n|s]; simpl; try exact I;
    destruct (sc_get c n) as [[dl|ns|e|ch]|]; try exact I; try apply IH; (apply gok_bind; [apply gok_type|intros; exact I]).
Qed.

Section Ctx.
Variable s : schema.
Let c := s_context s.
Let x := ctx_of s.
Hypothesis HI : Inv x.

Lemma gok_xml_name n : nvalid (nss_of x) (nm_ns n) -> gok (xml_name_of c n).
Proof.
  unfold xml_name_of, get_xml_element_name, nvalid. destruct (nm_ns n) as [|k]; [intros _; exact I|].
  intros H. destruct (andb _ _); [exact I|]. change (nss_of x) with (sc_namespaces c) in H.
  destruct (get_by_id (sc_namespaces c) k); [exact I|tauto].
Qed.
Lemma gok_xml_ns n : nvalid (nss_of x) (nm_ns n) -> gok (xml_ns_of c n).
Proof.
  unfold xml_ns_of, quote_xml_namespace, nvalid. destruct (nm_ns n) as [|k]; [intros _; exact I|].
  intros H. change (nss_of x) with (sc_namespaces c) in H.
  destruct (get_by_id (sc_namespaces c) k); [exact I|tauto].
Qed.
Lemma gok_target l : (exists n, ld_content (lf_def l) = LcNamed n) -> gok (virtual_target l).
Proof. intros [n E]. unfold virtual_target. rewrite E. apply gok_look. Qed.

Ltac gsteps := repeat first
  [ exact I | assumption | apply gok_bind; [|intros ?] | apply gok_field | apply gok_type | apply gok_variant | apply gok_look
  | apply gok_to_impl | apply gok_to_xml | apply gok_from_xml ].

Lemma gok_leaf_to_xml fuel p l : lwf x p l -> gok (leaf_to_xml fuel c l).
Proof.
  intros (H1 & H2 & H3). unfold leaf_to_xml. gsteps; [now apply gok_xml_name|].
  unfold leaf_wrap. destruct (lf_virtual l); [exact I|]. destruct (ld_content _); try exact I.
  destruct (resolve _ _ _) as [[[[[] ? ?]|?|?|?]|]|]; exact I.
Qed.
Lemma gok_leaf_from_xml fuel p l : lwf x p l -> gok (leaf_from_xml fuel c l).
Proof.
  intros (H1 & H2 & H3). unfold leaf_from_xml. gsteps; [now apply gok_xml_ns|]. cbv zeta. gsteps.
  destruct (lf_virtual l); [|exact I]. specialize (H3 eq_refl).
  destruct (lf_is_vec l); [gsteps; now apply gok_target|]. destruct (lf_is_optional l); [gsteps; now apply gok_target|exact I].
Qed.
Lemma gok_leaf_look p l : lwf x p l -> gok (leaf_look c l).
Proof.
  intros (H1 & H2 & H3). unfold leaf_look. destruct (lf_virtual l); gsteps; [now apply gok_target; apply H3|now apply gok_xml_ns].
Qed.

Lemma gok_leaves {B} (g : leaf -> G B) p ls : (forall l, lwf x p l -> gok (g l)) -> Forall (lwf x p) ls -> gok (mapM g ls).
Proof. intros H K. apply gok_mapM. eapply Forall_impl; [|exact K]. exact H. Qed.

Lemma gok_enum ns : gok (enum_variants ns).
Proof.
  unfold enum_variants. destruct (escape_enum_names ns) as [l|]; [|exact I]. apply gok_mapM, Forall_forall.
  intros e _. gsteps. apply gok_format.
Qed.

Lemma gok_decl fuel p r : rwf x p r -> gok (root_to_declaration fuel c r).
Proof.
  destruct r as [dl|ns|e|ch]; simpl; intros H.
  - gsteps.
  - gsteps. apply gok_enum.
  - destruct H as [H1 H2]. unfold element_to_impl. apply gok_bind.
    + destruct (ed_content e) as [[n' d'|ls]|]; gsteps.
      eapply gok_leaves; [|exact H2]. intros l Hl. unfold leaf_to_impl. gsteps.
    + intros fs. gsteps. apply gok_mapM, Forall_forall. intros a _. unfold attr_to_impl. gsteps.
  - gsteps. eapply gok_leaves; [|exact H]. intros l Hl. unfold def_to_impl. gsteps.
Qed.
Lemma gok_rtoxml fuel p r : rwf x p r -> gok (root_to_xml fuel c r).
Proof.
  destruct r as [dl|ns|e|ch]; simpl; intros H.
  - gsteps.
  - gsteps.
  - destruct H as [H1 H2]. unfold element_to_xml. apply gok_bind.
    + apply gok_mapM. eapply Forall_impl; [|exact H1]. intros a [Ha _]. unfold attr_to_xml. gsteps.
      apply gok_xml_name. rewrite Ha. exact I.
    + intros ats. apply gok_bind; [|intros; exact I].
      destruct (ed_content e) as [[n' d'|ls]|]; gsteps.
      eapply gok_leaves; [|exact H2]. intros l Hl. eapply gok_leaf_to_xml, Hl.
  - gsteps. eapply gok_leaves; [|exact H]. intros l Hl. unfold def_to_xml. gsteps.
Qed.
Lemma gok_rfrom fuel p r : rwf x p r -> gok (root_from_xml fuel c r).
Proof.
  destruct r as [dl|ns|e|ch]; simpl; intros H.
  - gsteps.
  - gsteps.
  - destruct H as [H1 H2]. unfold element_from_xml. apply gok_bind.
    + destruct (ed_content e) as [[n' d'|ls]|]; gsteps.
      eapply gok_leaves; [|exact H2]. intros l Hl. eapply gok_leaf_from_xml, Hl.
    + intros fs. gsteps. apply gok_mapM, Forall_forall. intros a _. unfold attr_from_xml. gsteps.
  - gsteps. eapply gok_leaves; [|exact H]. intros l (K1 & K2 & K3). unfold variant_from_xml, def_from_xml. gsteps.
    + now apply gok_xml_ns.
    + destruct (lf_virtual l); [gsteps; now apply gok_target; apply K3|]. destruct (lf_is_vec l); exact I.
Qed.
Lemma gok_rlook p r : rwf x p r -> gok (root_lookahead c r).
Proof.
  destruct r as [dl|ns|e|ch]; simpl; intros H; try exact I.
  - destruct H as [H1 H2]. destruct (ed_content e) as [[n' d'|ls]|]; try exact I.
    apply gok_bind; [|intros; exact I].
    induction H2 as [|l ls Hl Hls IH]; simpl; [exact I|].
    apply gok_bind; [eapply gok_leaf_look, Hl|]. intros k. destruct (lf_is_optional l); gsteps.
  - gsteps. eapply gok_leaves; [|exact H]. intros l. apply gok_leaf_look.
Qed.
Lemma gok_nss : gok (element_nss c).
Proof.
  unfold element_nss. apply gok_bind; [|intros; exact I].
  destruct HI as (_ & Tv & _). change (cx_target x) with (sc_target c) in Tv.
  change (nss_of x) with (sc_namespaces c) in Tv.
  destruct (sc_qualified c); [|exact I]. destruct (sc_target c) as [|k]; [exact I|]. simpl in Tv.
  destruct (get_by_id _ k); [exact I|tauto].
Qed.

Lemma gok_generate fuel n : gok (generate_element fuel c n).
Proof.
  unfold generate_element. destruct (sc_get c n) as [r|] eqn:E; [|exact I].
  apply (aget_In _ name_eqb_eq) in E. destruct HI as (_ & _ & R). rewrite Forall_forall in R.
  destruct (R _ E) as (Hn & p & _ & Hr). cbn [fst snd] in *.
  pose proof gok_nss as KN. gsteps.
  - eapply gok_decl, Hr.
  - eapply gok_rtoxml, Hr.
  - now apply gok_xml_name.
  - now apply gok_xml_ns.
  - eapply gok_rfrom, Hr.
  - eapply gok_rlook, Hr.
Qed.
End Ctx.

Lemma gok_all fuel s : Inv (ctx_of s) -> gok (generate_all fuel s).
Proof. intros HI. apply gok_mapM, Forall_forall. intros e _. now apply gok_generate. Qed.
Lemma gok_closure fuel s n already : Inv (ctx_of s) -> gok (generate_element_and_dependencies fuel s n already).
Proof.
  intros HI. unfold generate_element_and_dependencies. destruct (closure_names _ _ _ _) as [[todo al]|]; [|exact I].
  apply gok_bind; [|intros; exact I]. apply gok_mapM, Forall_forall. intros e _. now apply gok_generate.
Qed.
End Gen.
