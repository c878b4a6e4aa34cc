(** * GenErr: the only error of generation is an unknown name *)
From Verif Require Import Base Libs Xml Ast XsdNode Parse Gen Macro MacroSpec MacroProof ParseSpec MessageSpec Message MessageProof.

Section WithLibs.
Context {L : Libs}.

Definition nerr {A} (m : G A) : Prop := match m with Err _ => False | _ => True end.
Lemma nerr_bind {A B} (m : G A) (k : A -> G B) : nerr m -> (forall a, nerr (k a)) -> nerr (bind m k).
Proof. destruct m; simpl; auto. Qed.
Lemma nerr_mapM {A B} (g : A -> G B) l : (forall a, nerr (g a)) -> nerr (mapM g l).
Proof.
  intros H. induction l as [|a l IH]; simpl; [exact I|].
  apply nerr_bind; [apply H|]. intros b. apply nerr_bind; [exact IH|]. intros bs. exact I.
Qed.
Lemma nerr_format s : nerr (format_ident s).
Proof. unfold format_ident. now destruct (ident_valid s). Qed.
Lemma nerr_escape s : nerr (escape_ident s).
Proof.
  unfold escape_ident. destruct (mem _ _ escaped_names); [|apply nerr_format].
  unfold format_raw_ident. destruct (mem _ _ _); [exact I|]. now destruct (ident_valid s).
Qed.
Lemma nerr_xml_name c n : nerr (xml_name_of c n).
Proof. unfold xml_name_of. now destruct (get_xml_element_name c n). Qed.
Lemma nerr_xml_ns c n : nerr (xml_ns_of c n).
Proof. unfold xml_ns_of. now destruct (quote_xml_namespace c n). Qed.
Lemma nerr_target l : nerr (virtual_target l).
Proof. unfold virtual_target. destruct (ld_content _); try exact I. apply nerr_format. Qed.
Lemma nerr_to_impl fuel c ct : nerr (content_to_impl fuel c ct).
Proof.
  revert ct. induction fuel as [|fuel IH]; intros [l|n|s]; simpl; try exact I;
    destruct (sc_get c n) as [[dl|ns|e|ch]|]; try exact I; try apply IH; (apply nerr_bind; [apply nerr_escape|intros; exact I]).
Qed.
Lemma nerr_to_xml fuel c ct : nerr (content_to_xml fuel c ct).
Proof.
  revert ct. induction fuel as [|fuel IH]; intros [l|n|s]; simpl; try exact I;
    destruct (sc_get c n) as [[dl|ns|e|ch]|]; try exact I; try apply IH; (apply nerr_bind; [apply nerr_escape|intros; exact I]).
Qed.
Lemma nerr_from_xml fuel c ct : nerr (content_from_xml fuel c ct).
Proof.
  revert ct. induction fuel as [|fuel IH]; intros [l|n|s]; simpl; try exact I;
    destruct (sc_get c n) as [[dl|ns|e|ch]|]; try exact I; try apply IH; (apply nerr_bind; [apply nerr_escape|intros; exact I]).
Qed.

Ltac nsteps := repeat first
  [ exact I | assumption | apply nerr_bind; [|intros ?] | apply nerr_mapM; intros ? | apply nerr_escape | apply nerr_format
  | apply nerr_to_impl | apply nerr_to_xml | apply nerr_from_xml | apply nerr_xml_name | apply nerr_xml_ns | apply nerr_target ].

Lemma nerr_wrap fuel c l : nerr (leaf_wrap fuel c l).
Proof.
  unfold leaf_wrap. destruct (lf_virtual l); [exact I|]. destruct (ld_content _); try exact I.
  destruct (resolve _ _ _) as [[[[[] ? ?]|?|?|?]|]|]; exact I.
Qed.
Lemma nerr_leaf_look c l : nerr (leaf_look c l).
Proof. unfold leaf_look. destruct (lf_virtual l); nsteps. Qed.
Lemma nerr_decl fuel c r : nerr (root_to_declaration fuel c r).
Proof.
  destruct r as [dl|ns|e|ch]; simpl; nsteps.
  - unfold enum_variants. destruct (escape_enum_names ns) as [l|]; nsteps.
  - unfold element_to_impl. nsteps.
    destruct (ed_content e) as [[n' d'|ls]|]; nsteps.
Qed.
Lemma nerr_rtoxml fuel c r : nerr (root_to_xml fuel c r).
Proof.
  destruct r as [dl|ns|e|ch]; simpl; nsteps.
  unfold element_to_xml. nsteps. cbv zeta. nsteps.
  destruct (ed_content e) as [[n' d'|ls]|]; nsteps. apply nerr_wrap.
Qed.
Lemma nerr_rfrom fuel c r : nerr (root_from_xml fuel c r).
Proof.
  destruct r as [dl|ns|e|ch]; simpl; nsteps.
  - unfold element_from_xml. nsteps. destruct (ed_content e) as [[n' d'|ls]|]; nsteps.
    destruct (lf_virtual a); [|exact I]. destruct (lf_is_vec a); [nsteps|]. destruct (lf_is_optional a); nsteps.
  - unfold variant_from_xml. nsteps. destruct (lf_virtual a); nsteps. now destruct (lf_is_vec a).
Qed.
Lemma nerr_rlook c r : nerr (root_lookahead c r).
Proof.
  destruct r as [dl|ns|e|ch]; simpl; nsteps.
  - destruct (ed_content e) as [[n' d'|ls]|]; nsteps.
    induction ls as [|l ls IH]; simpl; nsteps; [apply nerr_leaf_look|]. destruct (lf_is_optional l); nsteps.
  - apply nerr_leaf_look.
Qed.
Lemma nerr_nss c : nerr (element_nss c).
Proof.
  unfold element_nss. nsteps. destruct (sc_qualified c); [|exact I]. destruct (sc_target c) as [|k]; [exact I|].
  now destruct (get_by_id _ k).
Qed.
Lemma generate_err fuel c n e : generate_element fuel c n = Err e <-> sc_get c n = None /\ e = SeNotFound (nm n).
Proof.
  unfold generate_element. destruct (sc_get c n) as [r|] eqn:E.
  - split; [|intros [K _]; discriminate]. intros H.
    match type of H with ?m = _ => assert (K : nerr m); [|rewrite H in K; destruct K] end.
    pose proof (nerr_nss c) as KN. nsteps; [apply nerr_decl|apply nerr_rtoxml|apply nerr_rfrom|apply nerr_rlook].
  - split; [intros H; injection H as <-; auto|]. intros [_ ->]. reflexivity.
Qed.
Lemma mapM_err {A B} (g : A -> G B) e : forall l, mapM g l = Err e -> exists a, In a l /\ g a = Err e.
Proof.
  induction l as [|a l IH]; simpl; [discriminate|].
  destruct (g a) as [b|x|w|] eqn:E; simpl; try discriminate.
  - destruct (mapM g l); simpl; try discriminate. intros K. destruct (IH K) as (y & Hy & Ey). eauto.
  - intros K. injection K as ->. eauto.
Qed.
(** All names of the schema are known, so the whole schema is generated without errors. *)
Lemma generate_all_noerr fuel s e : generate_all fuel s <> Err e.
Proof.
  intros H. apply mapM_err in H. destruct H as ([n r] & Hn & E). apply generate_err in E. destruct E as [E _].
  unfold sc_get in E. cbn [fst] in E.
  revert Hn E. generalize (sc_elements (s_context s)). induction l as [|[m q] l IH]; simpl; [tauto|].
  intros [K|K].
  - injection K as -> ->. rewrite (proj2 (name_eqb_eq n n) eq_refl). discriminate.
  - destruct (name_eqb n m); [discriminate|auto].
Qed.

(** The arguments up to the one that is refused. *)
Lemma read_args_err e : forall l acc, read_args l acc = inl e -> exists l1 a l2, l = l1 ++ a :: l2
  /\ (forall b, In b l1 -> exists s, b = mkMarg "schema" (MvStr s))
  /\ ((ma_path a <> "schema" /\ e = MeProperty (ma_path a))
      \/ (ma_path a = "schema" /\ (forall s, ma_value a <> MvStr s) /\ e = MeValue)).
Proof.
  induction l as [|a l IH]; intros acc; simpl; [discriminate|].
  destruct (String.eqb_spec (ma_path a) "schema") as [E|E].
  - destruct a as [p v]. cbn [ma_path ma_value] in *. subst p. destruct v as [s| |].
    + intros H. destruct (IH _ H) as (l1 & b & l2 & -> & F & K).
      exists (mkMarg "schema" (MvStr s) :: l1), b, l2. split; [reflexivity|]. split; [|exact K].
      intros x [<-|Hx]; eauto.
    + intros H. injection H as <-. exists [], (mkMarg "schema" MvOther), l. split; [reflexivity|]. split; [simpl; tauto|].
      right. split; [reflexivity|]. split; [discriminate|reflexivity].
    + intros H. injection H as <-. exists [], (mkMarg "schema" MvMissing), l. split; [reflexivity|]. split; [simpl; tauto|].
      right. split; [reflexivity|]. split; [discriminate|reflexivity].
  - intros H. injection H as <-. exists [], a, l. split; [reflexivity|]. split; [simpl; tauto|]. left. auto.
Qed.
End WithLibs.
