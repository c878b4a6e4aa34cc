(** * GenProof1: enum variants, identifiers, aliases, root check *)
From Coq Require Import Permutation.
From Verif Require Import Base Libs Xml Ast XsdNode Parse Decode Writer Gen Run TextSpec NumProof GenSpec.

(** ** Enum variants *)
Lemma aset_fresh {V} k (v : V) m : aget String.eqb k m = None -> aset String.eqb k v m = m ++ [(k, v)].
Proof.
  induction m as [|[k' v'] m IH]; simpl; [reflexivity|]. destruct (k =?s k'); [discriminate|].
  intros H. now rewrite IH.
Qed.

Lemma variant_inj i j : "Variant" +++ show_nat i = "Variant" +++ show_nat j -> i = j.
Proof. intros H. apply app_s_inj_l, show_nat_inj in H. exact H. Qed.

Section WithLibs.
Context {L : Libs}.

Lemma enum_fresh_ok fuel taken count v w c :
  enum_fresh fuel taken count v = Some (w, c) -> w <> "" /\ aget String.eqb w taken = None.
Proof.
  revert count v. induction fuel as [|fuel IH]; intros count v; simpl.
  - destruct (is_empty v) eqn:E; simpl; [discriminate|].
    destruct (aget String.eqb v taken) eqn:A; simpl; [discriminate|].
    intros H; injection H as <- <-. split; [|exact A]. intros ->. discriminate.
  - destruct (is_empty v) eqn:E; simpl; [apply IH|].
    destruct (aget String.eqb v taken) eqn:A; simpl; [apply IH|].
    intros H; injection H as <- <-. split; [|exact A]. intros ->. discriminate.
Qed.

Lemma enum_fresh_none fuel taken count v :
  enum_fresh fuel taken count v = None ->
  forall i, 1 <= i <= fuel -> In ("Variant" +++ show_nat (count + i)) (map fst taken).
Proof.
  assert (T : forall f c k, enum_fresh f taken c k = None -> k <> "" -> In k (map fst taken)).
  { intros f c k H N. destruct (aget String.eqb k taken) as [x|] eqn:A.
    - apply (aget_In _ String.eqb_eq), (in_map fst) in A. exact A.
    - destruct k as [|a k]; [congruence|]. destruct f; cbn [enum_fresh] in H; rewrite A in H; discriminate. }
  revert count v. induction fuel as [|fuel IH]; intros count v H i Hi; [lia|].
  cbn [enum_fresh] in H. destruct (_ || _); [|discriminate].
  destruct i as [|[|i]]; [lia| |].
  - replace (count + 1) with (S count) by lia. eapply T; [exact H|discriminate].
  - replace (count + S (S i)) with (S count + S i) by lia. eapply IH; [exact H|lia].
Qed.

Lemma enum_fresh_total taken count v : exists r, enum_fresh (S (length taken)) taken count v = Some r.
Proof.
  destruct (enum_fresh (S (length taken)) taken count v) as [r|] eqn:E; [eauto|]. exfalso.
  pose proof (enum_fresh_none _ _ _ _ E) as H.
  set (cands := map (fun i => "Variant" +++ show_nat (count + i)) (seq 1 (S (length taken)))).
  assert (ND : NoDup cands).
  { unfold cands. apply FinFun.Injective_map_NoDup; [|apply seq_NoDup].
    intros i j Hij. apply variant_inj in Hij. lia. }
  assert (I : incl cands (map fst taken)).
  { intros x Hx. apply in_map_iff in Hx. destruct Hx as (i & <- & Hi). apply in_seq in Hi. apply H. lia. }
  pose proof (NoDup_incl_length ND I) as Len. unfold cands in Len. rewrite !map_length, seq_length in Len. lia.
Qed.

Lemma escape_enum_go_spec names : forall taken count,
  NoDup (map fst taken) -> Forall (fun e => fst e <> "") taken ->
  exists l, escape_enum_go names taken count = Some l
    /\ NoDup (map fst l) /\ Forall (fun e => fst e <> "") l
    /\ map snd l = map snd taken ++ names.
Proof.
  induction names as [|n names IH]; intros taken count ND F; cbn [escape_enum_go].
  - exists taken. rewrite app_nil_r. auto.
  - destruct (enum_fresh_total taken count (enum_base_name (nm n))) as [[w c] E]. rewrite E.
    destruct (enum_fresh_ok _ _ _ _ _ _ E) as [Nw A].
    destruct (IH (aset String.eqb w n taken) c) as (l & E' & ND' & F' & S').
    + apply (aset_NoDup _ String.eqb_eq), ND.
    + rewrite aset_fresh by exact A. apply Forall_app. split; [exact F|]. constructor; [exact Nw|constructor].
    + exists l. split; [exact E'|]. split; [exact ND'|]. split; [exact F'|].
      rewrite S', aset_fresh by exact A. rewrite map_app, <- app_assoc. reflexivity.
Qed.

Lemma escape_enum_names_spec names : exists l,
  escape_enum_names names = Some l /\ NoDup (map fst l) /\ Forall (fun v => v <> "") (map fst l)
  /\ map snd l = names.
Proof.
  destruct (escape_enum_go_spec names [] 0) as (l & E & ND & F & S); [constructor|constructor|].
  exists l. split; [exact E|]. split; [exact ND|]. split; [now apply Forall_map|exact S].
Qed.

Lemma name_chars_det l : forall k, name_chars l k -> k = filter_map enum_char l.
Proof.
  unfold filter_map, enum_char. induction 1 as [|ch l k H _ IH|ch l k N1 N2 A _ IH|ch l k N1 N2 A _ IH]; cbn [flat_map]; [reflexivity|..].
  - destruct H as [->| ->]; simpl; now rewrite IH.
  - apply String.eqb_neq in N1, N2. rewrite N1, N2, A. simpl. now rewrite IH.
  - apply String.eqb_neq in N1, N2. rewrite N1, N2, A. simpl. exact IH.
Qed.
Lemma readable_det s v : readable s v -> v = enum_base_name s.
Proof.
  intros (k & Hk & H). apply name_chars_det in Hk. subst k. unfold enum_base_name. cbv zeta in H.
  destruct (utf8_chars (to_pascal_case _)) as [|ch t] eqn:E.
  - destruct H as [[_ ->]|(N & _ & _)]; [reflexivity|]. elim N. rewrite <- (utf8_chars_concat (to_pascal_case _)), E. reflexivity.
  - destruct (char_is_alphabetic ch) eqn:A; simpl.
    + destruct H as [[_ ->]|(_ & N & _)]; [reflexivity|]. elim N. now exists ch, t.
    + destruct H as [[[Z|(c & t' & E' & A')] _]|(_ & _ & ->)]; [rewrite Z in E; discriminate| |reflexivity].
      rewrite E in E'. injection E' as <- <-. congruence.
Qed.
Lemma escape_enum_go_readable names : forall vs taken count,
  Forall2 (fun n v => readable (nm n) v) names vs -> NoDup (map fst taken ++ vs) -> ~ In "" vs ->
  escape_enum_go names taken count = Some (taken ++ combine vs names).
Proof.
  induction names as [|n names IH]; intros vs taken count F N E; inversion F as [|? v ? vs' R F']; subst; cbn [escape_enum_go combine].
  - now rewrite app_nil_r.
  - apply readable_det in R. rewrite <- R.
    assert (A : aget String.eqb v taken = None).
    { destruct (aget String.eqb v taken) as [x|] eqn:A; [|reflexivity]. exfalso.
      apply (aget_In _ String.eqb_eq), (in_map fst) in A. apply NoDup_remove_2 in N. apply N. apply in_app_iff. now left. }
    assert (Fr : enum_fresh (S (length taken)) taken count v = Some (v, count)).
    { cbn [enum_fresh]. rewrite A. destruct v; [elim E; now left|reflexivity]. }
    rewrite Fr, aset_fresh by exact A. rewrite (IH vs').
    + now rewrite <- app_assoc.
    + exact F'.
    + rewrite map_app. cbn [map fst]. now rewrite <- app_assoc.
    + intros K. apply E. now right.
Qed.
Lemma escape_enum_readable names vs : Forall2 (fun n v => readable (nm n) v) names vs -> NoDup vs -> ~ In "" vs ->
  escape_enum_names names = Some (combine vs names).
Proof. intros F N E. unfold escape_enum_names. now rewrite (escape_enum_go_readable names vs). Qed.

Definition v_or_letter (v : string) : Prop := (exists r, v = String "V" r) \/ letter_first v.
Lemma enum_fresh_start fuel taken : forall count v w c, (v <> "" -> v_or_letter v) ->
  enum_fresh fuel taken count v = Some (w, c) -> v_or_letter w.
Proof.
  induction fuel as [|fuel IH]; intros count v w c Hv; cbn [enum_fresh];
    (destruct (_ || _) eqn:B; [|intros K; injection K as <- <-; apply Hv; intros ->; discriminate]).
  - discriminate.
  - apply IH. intros _. left. now eexists.
Qed.
Lemma enum_base_start s : enum_base_name s <> "" -> v_or_letter (enum_base_name s).
Proof.
  unfold enum_base_name. intros N. destruct (utf8_chars (to_pascal_case _)) as [|ch t] eqn:E.
  - elim N. rewrite <- (utf8_chars_concat (to_pascal_case _)), E. reflexivity.
  - destruct (char_is_alphabetic ch) eqn:A; simpl; [right; now exists ch, t|left; now eexists].
Qed.
Lemma escape_enum_go_start names : forall taken count l, Forall (fun e => v_or_letter (fst e)) taken ->
  escape_enum_go names taken count = Some l -> Forall (fun e => v_or_letter (fst e)) l.
Proof.
  induction names as [|n names IH]; intros taken count l F; cbn [escape_enum_go]; [intros H; now injection H as <-|].
  destruct (enum_fresh _ taken count _) as [[w c]|] eqn:E; [|discriminate]. apply IH.
  destruct (enum_fresh_ok _ _ _ _ _ _ E) as [_ A]. rewrite aset_fresh by exact A. apply Forall_app. split; [exact F|].
  constructor; [|constructor]. eapply enum_fresh_start; [|exact E]. apply enum_base_start.
Qed.
Lemma escape_enum_start names l : escape_enum_names names = Some l ->
  forall v, In v (map fst l) -> (exists r, v = String "V" r) \/ letter_first v.
Proof.
  intros H v I. apply escape_enum_go_start in H; [|constructor]. apply in_map_iff in I. destruct I as (e & <- & I).
  rewrite Forall_forall in H. now apply H.
Qed.

Lemma enum_variants_spec names vs : enum_variants names = Ok vs ->
  NoDup (map fst vs) /\ map snd vs = map nm names /\ Forall (fun v => v <> "") (map fst vs).
Proof.
  unfold enum_variants. destruct (escape_enum_names_spec names) as (l & -> & ND & F & S).
  intros H.
  assert (E : vs = map (fun vn => (fst vn, nm (snd vn))) l).
  { clear -H. revert vs H. induction l as [|[v n] l IH]; intros vs H; simpl in H.
    - now injection H as <-.
    - unfold format_ident in H at 1. destruct (ident_valid v); simpl in H; [|discriminate].
      apply bind_ok in H. destruct H as (r & H1 & H2). injection H2 as <-. simpl. now rewrite (IH r). }
  subst vs. rewrite !map_map. simpl. split; [exact ND|]. split; [|exact F].
  rewrite <- S, map_map. reflexivity.
Qed.

Lemma enum_from_str_In vs s : NoDup (map snd vs) ->
  (forall v, In (v, s) vs -> enum_from_str vs s = Ok (VEnum v))
  /\ (~ In s (map snd vs) -> enum_from_str vs s = Err (FeInvalidVariant s)).
Proof.
  induction vs as [|[v l] vs IH]; simpl; intros ND; [tauto|]. inversion ND as [|? ? N1 N2]; subst.
  destruct (IH N2) as [H1 H2]. split.
  - intros v' [E|H]; [injection E as -> ->; now rewrite String.eqb_refl|].
    destruct (String.eqb_spec s l) as [->|N]; [|auto]. exfalso. apply N1. apply (in_map snd) in H. exact H.
  - intros N. destruct (String.eqb_spec s l) as [->|N']; [exfalso; apply N; now left|]. apply H2. tauto.
Qed.

Lemma enum_as_str_aget vs v : enum_as_str vs v = aget String.eqb v vs.
Proof. induction vs as [|[v' l] vs IH]; simpl; [reflexivity|]. now rewrite IH. Qed.

Lemma enum_table vs vs' : NoDup (map fst vs) -> NoDup (map snd vs) -> Permutation vs vs' ->
  (forall v, In v (map fst vs) -> exists s,
     enum_as_str vs' v = Some s /\ enum_from_str vs' s = Ok (VEnum v))
  /\ (forall s, In s (map snd vs) -> exists v,
     enum_from_str vs' s = Ok (VEnum v) /\ enum_as_str vs' v = Some s)
  /\ (forall s, ~ In s (map snd vs) -> enum_from_str vs' s = Err (FeInvalidVariant s)).
Proof.
  intros N1 N2 P.
  assert (N1' : NoDup (map fst vs')) by (eapply Permutation_NoDup; [apply Permutation_map, P|exact N1]).
  assert (N2' : NoDup (map snd vs')) by (eapply Permutation_NoDup; [apply Permutation_map, P|exact N2]).
  assert (T : forall v s, In (v, s) vs -> enum_as_str vs' v = Some s /\ enum_from_str vs' s = Ok (VEnum v)).
  { intros v s H. apply (Permutation_in _ P) in H. split.
    - rewrite enum_as_str_aget. apply (In_aget _ String.eqb_eq); assumption.
    - apply enum_from_str_In; assumption. }
  split; [|split].
  - intros v H. apply in_map_iff in H. destruct H as ([v' s] & <- & H). exists s. simpl. auto.
  - intros s H. apply in_map_iff in H. destruct H as ([v s'] & <- & H). exists v. simpl. apply T in H. tauto.
  - intros s H. apply enum_from_str_In; [exact N2'|]. intros H'. apply H.
    apply (Permutation_in _ (Permutation_sym (Permutation_map snd P))). exact H'.
Qed.

(** ** What [generate_element] yields *)
Lemma generate_element_inv fuel c n t : generate_element fuel c n = Ok t ->
  exists el id d w xn nss ns r lk,
    sc_get c n = Some el /\ type_ident n = Ok id /\ root_to_declaration fuel c el = Ok d
    /\ root_to_xml fuel c el = Ok w /\ xml_name_of c n = Ok xn /\ element_nss c = Ok nss
    /\ xml_ns_of c n = Ok ns /\ root_from_xml fuel c el = Ok r /\ root_lookahead c el = Ok lk
    /\ t = mkTitem id d xn nss w (nm n) ns r lk.
Proof.
  unfold generate_element. destruct (sc_get c n) as [el|]; [|discriminate]. intros H.
  apply bind_ok in H. destruct H as (id & E1 & H).
  apply bind_ok in H. destruct H as (d & E2 & H).
  apply bind_ok in H. destruct H as (w & E3 & H).
  apply bind_ok in H. destruct H as (xn & E4 & H).
  apply bind_ok in H. destruct H as (nss & E5 & H).
  apply bind_ok in H. destruct H as (ns & E6 & H).
  apply bind_ok in H. destruct H as (r & E7 & H).
  apply bind_ok in H. destruct H as (lk & E8 & H).
  injection H as <-. exists el, id, d, w, xn, nss, ns, r, lk. repeat split; assumption.
Qed.

Lemma enum_item fuel c n names t : sc_get c n = Some (RootEnum names) ->
  generate_element fuel c n = Ok t ->
  exists vs, ti_decl t = DEnum vs /\ NoDup (map fst vs) /\ map snd vs = map nm names
    /\ Forall (fun v => v <> "") (map fst vs).
Proof.
  intros G H. apply generate_element_inv in H.
  destruct H as (el & id & d & w & xn & nss & ns & r & lk & E & _ & E2 & _ & _ & _ & _ & _ & _ & ->).
  rewrite G in E. injection E as <-. simpl in E2. apply bind_ok in E2. destruct E2 as (vs & E2 & E).
  injection E as <-. exists vs. split; [reflexivity|]. apply enum_variants_spec, E2.
Qed.

(** ** Root check (C05) *)
Lemma root_check fuel c n t p e dfuel :
  generate_element fuel c n = Ok t -> lookup_item p (ti_id t) = Some t ->
  exists ns, quote_xml_namespace c n = Some ns /\
  (~ (xe_tag e = nm n /\ xe_ns e = ns) ->
     from_xml p dfuel (ti_id t) e = Err (FeMissingElement (nm n) ns))
  /\ (forall v, from_xml p dfuel (ti_id t) e = Ok v -> xe_tag e = nm n /\ xe_ns e = ns).
Proof.
  intros H Lk. apply generate_element_inv in H.
  destruct H as (el & id & d & w & xn & nss & ns & r & lk & E & _ & _ & _ & _ & _ & E6 & _ & _ & Et).
  exists ns. unfold xml_ns_of in E6. destruct (quote_xml_namespace c n) as [ns'|]; [|discriminate].
  injection E6 as ->. split; [reflexivity|].
  unfold from_xml, from_xml_with. rewrite Lk. subst t. simpl ti_read_name. simpl ti_read_ns.
  unfold doc_try_child. pose proof (has_name_spec (nm n) ns e) as HS.
  destruct (has_name (nm n) ns e); split; simpl; intros; try discriminate; tauto.
Qed.

(** ** Identifiers (C43) *)
Lemma mem_s_In s l : mem String.eqb s l = true <-> In s l.
Proof. apply mem_In, String.eqb_eq. Qed.

Lemma escape_ident_cases s : ident_valid s = true ->
  ~ In s not_raw ->
  escape_ident s = Ok (if mem String.eqb s escaped_names then "r#" +++ s else s).
Proof.
  intros V N. unfold escape_ident, format_raw_ident, format_ident. rewrite V.
  destruct (mem String.eqb s not_raw) eqn:M; [apply mem_s_In in M; tauto|].
  destruct (mem String.eqb s escaped_names); reflexivity.
Qed.

Lemma escape_ident_ok s : ident_valid s = true -> ~ In s not_raw ->
  ~ In s ["as"; "break"; "abstract"; "become"; "box"; "do"; "final"; "macro"; "override";
          "priv"; "typeof"; "unsized"; "virtual"; "yield"; "try"] ->
  exists r, escape_ident s = Ok r /\ ~ In r rust_keywords /\ (r = s \/ r = "r#" +++ s).
Proof.
  intros V N U. rewrite escape_ident_cases by assumption.
  destruct (mem String.eqb s escaped_names) eqn:M.
  - exists ("r#" +++ s). split; [reflexivity|]. split; [|auto].
    intros H. simpl in H. repeat (destruct H as [H|H]; [discriminate|]). exact H.
  - exists s. split; [reflexivity|]. split; [|auto]. intros H.
    assert (NE : ~ In s escaped_names) by (rewrite <- mem_s_In; congruence). clear M V.
    simpl in H, NE, U, N. intuition (subst; tauto).
Qed.
End WithLibs.

(** ** Aliases (C45) *)
Section Alias.
Context {L : Libs}.
Variable c : schema_ctx.

Lemma ev_and P Q : eventually P -> eventually Q -> eventually (fun f => P f /\ Q f).
Proof.
  intros [n Hn] [m Hm]. exists (n + m). intros f Hf. split; [apply Hn|apply Hm]; lia.
Qed.
Lemma ev_mono (P Q : nat -> Prop) : (forall f, P f -> Q f) -> eventually P -> eventually Q.
Proof. intros H [n Hn]. exists n. auto. Qed.
Lemma ev_always (P : nat -> Prop) : (forall f, P f) -> eventually P.
Proof. exists 0. auto. Qed.

Definition fine {E A} (m : res E A) : Prop := m <> OutOfFuel.
Lemma fine_bind {E A B} (m : res E A) (k : A -> res E B) : fine m -> (forall a, fine (k a)) -> fine (bind m k).
Proof. unfold fine. destruct m; simpl; try discriminate; auto. Qed.

Lemma ev_mapM {E A B} (g : nat -> A -> res E B) l :
  (forall a, In a l -> eventually (fun f => fine (g f a))) -> eventually (fun f => fine (mapM (g f) l)).
Proof.
  induction l as [|a l IH]; intros H; [apply ev_always; intros f; simpl; discriminate|].
  apply (ev_mono (fun f => fine (g f a) /\ fine (mapM (g f) l))).
  - intros f [H1 H2]. simpl. apply fine_bind; [exact H1|]. intros b. apply fine_bind; [exact H2|].
    intros bs; discriminate.
  - apply ev_and; [apply H; now left|apply IH; intros; apply H; now right].
Qed.

Variable rank : name -> nat.
Hypothesis ranked : forall n m, alias c n m -> rank m < rank n.

Lemma fine_format s : fine (format_ident s).
Proof. unfold format_ident. destruct (ident_valid s); discriminate. Qed.
Lemma fine_escape s : fine (escape_ident s).
Proof.
  unfold escape_ident, format_raw_ident. destruct (mem _ _ _); [|apply fine_format].
  destruct (mem _ _ _); [discriminate|]. destruct (ident_valid s); discriminate.
Qed.
Lemma fine_xml_name n : fine (xml_name_of c n).
Proof. unfold xml_name_of. destruct (get_xml_element_name c n); discriminate. Qed.
Lemma fine_xml_ns n : fine (xml_ns_of c n).
Proof. unfold xml_ns_of. destruct (quote_xml_namespace c n); discriminate. Qed.

Section Content.
  (** The three traversals of leaf_content.rs have the same recursion. *)
  Lemma ev_content ct :
    eventually (fun f => fine (content_to_impl f c ct) /\ fine (content_to_xml f c ct)
      /\ fine (content_from_xml f c ct)
      /\ (forall n, ct = LcNamed n -> resolve f c n <> None)).
  Proof.
    destruct ct as [l|n|s].
    - apply ev_always. intros [|f]; simpl; repeat split; discriminate.
    - remember (rank n) as k eqn:K. assert (Hk : rank n <= k) by lia. clear K.
      revert n Hk. induction k as [k IH] using lt_wf_ind. intros n Hk.
      destruct (sc_get c n) as [r|] eqn:G.
      2: { apply ev_always. intros f.
           destruct f; simpl; rewrite ?G; repeat split; try (apply fine_bind; [apply fine_escape|discriminate]);
           intros m E; injection E as <-; unfold resolve; rewrite G; discriminate. }
      assert (D : (exists d, r = RootLeaf d) \/ (forall d, r <> RootLeaf d)).
      { destruct r; [left; eauto|right; discriminate|right; discriminate|right; discriminate]. }
      destruct D as [[d ->]|D].
      + destruct (ld_content d) as [l|m|s] eqn:C.
        * exists 1. intros [|f] Hf; [lia|]. simpl. rewrite G, C.
          destruct f; simpl; repeat split; try discriminate;
          intros m E; injection E as <-; unfold resolve; rewrite G; simpl; destruct d as [ct0 ? ?]; simpl in C; subst ct0; discriminate.
        * assert (R : rank m < rank n) by (apply ranked; exists d; auto).
          destruct (IH (rank m)) with (n := m) as [N HN]; [lia|lia|].
          exists (S N). intros [|f] Hf; [lia|]. destruct (HN f) as (H1 & H2 & H3 & H4); [lia|].
          simpl. rewrite G, C. repeat split; auto.
          intros m' E; injection E as <-. unfold resolve. rewrite G. destruct d as [ct0 ? ?]. simpl in C. subst ct0.
          simpl. apply (H4 m eq_refl).
        * exists 1. intros [|f] Hf; [lia|]. simpl. rewrite G, C.
          destruct f; simpl; repeat split; try discriminate;
          intros m E; injection E as <-; unfold resolve; rewrite G; simpl; destruct d as [ct0 ? ?]; simpl in C; subst ct0; discriminate.
      + apply ev_always. intros f.
        destruct f; simpl; rewrite G;
          (destruct r; [exfalso; eapply D; reflexivity| | |]);
          repeat split; try (apply fine_bind; [apply fine_escape|discriminate]);
          intros m E; injection E as <-; unfold resolve; rewrite G; discriminate.
    - apply ev_always. intros [|f]; simpl; repeat split; discriminate.
  Qed.
End Content.

Ltac fb := apply fine_bind; [|intros ?].

Lemma ev_leaf l : eventually (fun f =>
  fine (leaf_to_impl f c l) /\ fine (leaf_to_xml f c l) /\ fine (leaf_from_xml f c l)
  /\ fine (variant_from_xml f c l)).
Proof.
  destruct (ev_content (ld_content (lf_def l))) as [N HN]. exists N. intros f Hf.
  destruct (HN f Hf) as (H1 & H2 & H3 & H4).
  assert (V : fine (virtual_target l)).
  { unfold virtual_target. destruct (ld_content (lf_def l)); try discriminate. apply fine_format. }
  repeat split.
  - unfold leaf_to_impl. fb; [apply fine_escape|]. fb; [exact H1|]. discriminate.
  - unfold leaf_to_xml. fb; [apply fine_escape|]. fb; [apply fine_xml_name|]. fb; [exact H2|]. fb; [|discriminate].
    unfold leaf_wrap. destruct (lf_virtual l); [discriminate|]. destruct (ld_content (lf_def l)) as [|n|]; try discriminate.
    specialize (H4 n eq_refl). destruct (resolve f c n) as [[[[[] ? ?]|?|?|?]|]|]; try discriminate. congruence.
  - unfold leaf_from_xml. fb; [apply fine_escape|]. fb; [apply fine_xml_ns|]. fb; [exact H3|].
    destruct (lf_virtual l), (lf_is_vec l); try discriminate; [fb; [exact V|discriminate]|].
    destruct (lf_is_optional l); [fb; [exact V|discriminate]|discriminate].
  - unfold variant_from_xml. fb; [apply fine_format|]. fb; [exact H3|]. fb; [apply fine_xml_ns|].
    destruct (lf_virtual l); [fb; [exact V|discriminate]|]. destruct (lf_is_vec l); discriminate.
Qed.

Lemma ev_attr a : eventually (fun f => fine (attr_to_impl f c a) /\ fine (attr_from_xml f c a)).
Proof.
  destruct (ev_content (a_content a)) as [N HN]. exists N. intros f Hf.
  destruct (HN f Hf) as (H1 & _). split.
  - unfold attr_to_impl. fb; [apply fine_escape|]. fb; [exact H1|]. discriminate.
  - unfold attr_from_xml. fb; [apply fine_escape|]. fb; [exact H1|]. discriminate.
Qed.

Lemma fine_leaf_look l : fine (leaf_look c l).
Proof.
  unfold leaf_look, virtual_target. destruct (lf_virtual l).
  - fb; [|discriminate]. destruct (ld_content (lf_def l)); try discriminate. apply fine_format.
  - fb; [apply fine_xml_ns|discriminate].
Qed.

Lemma fine_mapM {E A B} (g : A -> res E B) l : (forall a, In a l -> fine (g a)) -> fine (mapM g l).
Proof.
  induction l as [|a l IH]; intros H; [discriminate|]. simpl. fb; [apply H; now left|]. fb; [|discriminate].
  apply IH. intros; apply H; now right.
Qed.

Lemma fine_lookahead r : fine (root_lookahead c r).
Proof.
  destruct r as [d|ns|d|d]; simpl; try discriminate.
  - destruct (ed_content d) as [[n ld|ls]|]; try discriminate. fb; [|discriminate].
    induction ls as [|l ls IH]; simpl; [discriminate|]. fb; [apply fine_leaf_look|].
    destruct (lf_is_optional l); [fb; [exact IH|discriminate]|discriminate].
  - fb; [|discriminate]. apply fine_mapM. intros; apply fine_leaf_look.
Qed.

Lemma fine_enum names : fine (enum_variants names).
Proof.
  unfold enum_variants. destruct (escape_enum_names_spec names) as (l & -> & _). apply fine_mapM.
  intros a _. fb; [apply fine_format|discriminate].
Qed.

Lemma fine_nss : fine (element_nss c).
Proof.
  unfold element_nss. fb; [|discriminate]. destruct (sc_qualified c), (sc_target c); try discriminate.
  destruct (get_by_id _ _); discriminate.
Qed.

Lemma ev_root r : eventually (fun f => fine (root_to_declaration f c r) /\ fine (root_to_xml f c r)
  /\ fine (root_from_xml f c r)).
Proof.
  destruct r as [d|ns|d|d].
  - destruct (ev_content (ld_content d)) as [N HN]. exists N. intros f Hf.
    destruct (HN f Hf) as (H1 & H2 & H3 & _). simpl. repeat split; (fb; [eassumption|discriminate]).
  - apply ev_always. intros f. simpl. repeat split; try discriminate. fb; [apply fine_enum|discriminate].
  - assert (A : eventually (fun f => fine (mapM (attr_to_impl f c) (ed_attributes d)) /\ fine (mapM (attr_from_xml f c) (ed_attributes d)))).
    { apply ev_and; apply ev_mapM; intros a _; (eapply ev_mono; [|apply (ev_attr a)]); simpl; tauto. }
    assert (A2 : fine (mapM (attr_to_xml c) (ed_attributes d))).
    { apply fine_mapM. intros a _. unfold attr_to_xml. fb; [apply fine_escape|]. fb; [apply fine_xml_name|discriminate]. }
    destruct (ed_content d) as [[n ld|ls]|] eqn:C.
    + destruct (ev_and _ _ A (ev_content (ld_content ld))) as [N HN]. exists N. intros f Hf.
      destruct (HN f Hf) as ((B1 & B2) & H1 & H2 & H3 & _).
      simpl. unfold element_to_impl, element_to_xml, element_from_xml. rewrite C. repeat split.
      * fb; [fb; [apply fine_escape|]; fb; [exact H1|discriminate]|]. fb; [exact B1|discriminate].
      * fb; [exact A2|]. fb; [|discriminate]. fb; [apply fine_escape|]. fb; [exact H2|discriminate].
      * fb; [fb; [apply fine_escape|]; fb; [exact H3|discriminate]|]. fb; [exact B2|discriminate].
    + assert (B : eventually (fun f => fine (mapM (leaf_to_impl f c) ls) /\ (fine (mapM (leaf_to_xml f c) ls) /\ fine (mapM (leaf_from_xml f c) ls)))).
      { repeat apply ev_and; apply ev_mapM; intros l _; (eapply ev_mono; [|apply (ev_leaf l)]); simpl; tauto. }
      destruct (ev_and _ _ A B) as [N HN]. exists N. intros f Hf.
      destruct (HN f Hf) as ((B1 & B2) & H1 & H2 & H3).
      simpl. unfold element_to_impl, element_to_xml, element_from_xml. rewrite C. repeat split.
      * fb; [exact H1|]. fb; [exact B1|discriminate].
      * fb; [exact A2|]. fb; [|discriminate]. fb; [exact H2|discriminate].
      * fb; [exact H3|]. fb; [exact B2|discriminate].
    + destruct A as [N HN]. exists N. intros f Hf. destruct (HN f Hf) as (B1 & B2).
      simpl. unfold element_to_impl, element_to_xml, element_from_xml. rewrite C. simpl. repeat split.
      * fb; [exact B1|discriminate].
      * fb; [exact A2|discriminate].
      * fb; [exact B2|discriminate].
  - assert (B : eventually (fun f => fine (mapM (fun l => v <- variant_ident (lf_name l) ;;
                           t <- def_to_impl f c (lf_def l) ;;
                           Ok (v, wrap_vec (lf_is_vec l) t)) (cd_variants d))
       /\ (fine (mapM (fun l => v <- variant_ident (lf_name l) ;;
                             x <- def_to_xml f c (lf_def l) ;;
                             Ok (mkWarm v (nm (lf_name l)) (lf_is_vec l)
                                   (match ld_content (lf_def l) with LcLiteral _ => true | _ => false end) x))
                (cd_variants d)) /\ fine (mapM (variant_from_xml f c) (cd_variants d))))).
    { repeat apply ev_and; apply ev_mapM; intros l _.
      - eapply ev_mono; [|apply (ev_content (ld_content (lf_def l)))]. simpl. intros f (H1 & _).
        fb; [apply fine_format|]. fb; [exact H1|discriminate].
      - eapply ev_mono; [|apply (ev_content (ld_content (lf_def l)))]. simpl. intros f (_ & H1 & _).
        fb; [apply fine_format|]. fb; [exact H1|discriminate].
      - eapply ev_mono; [|apply (ev_leaf l)]. simpl. tauto. }
    eapply ev_mono; [|exact B]. intros f (H1 & H2 & H3). simpl. repeat split.
    + fb; [exact H1|discriminate].
    + fb; [exact H2|discriminate].
    + fb; [exact H3|discriminate].
Qed.

Lemma ev_element n : eventually (fun f => fine (generate_element f c n)).
Proof.
  unfold generate_element. destruct (sc_get c n) as [el|]; [|apply ev_always; discriminate].
  eapply ev_mono; [|apply (ev_root el)]. intros f (H1 & H2 & H3). simpl.
  fb; [apply fine_escape|]. fb; [exact H1|]. fb; [exact H2|]. fb; [apply fine_xml_name|]. fb; [apply fine_nss|].
  fb; [apply fine_xml_ns|]. fb; [exact H3|]. fb; [apply fine_lookahead|discriminate].
Qed.
End Alias.

Lemma generate_terminates {L : Libs} s rank :
  (forall n m, alias (s_context s) n m -> rank m < rank n) ->
  eventually (fun f => generate_all f s <> OutOfFuel).
Proof.
  intros H. apply (ev_mapM (fun f e => generate_element f (s_context s) (fst e))). intros e _.
  eapply ev_element, H.
Qed.

(** A generated program means that alias chains starting at declared types end. *)

Lemma content_chain {L : Libs} c fuel : forall n t, content_to_impl fuel c (LcNamed n) = Ok t -> chain_ends c n.
Proof.
  induction fuel as [|fuel IH]; intros n t H.
  - constructor. intros m (d & G & _). simpl in H. rewrite G in H. discriminate.
  - constructor. intros m (d & G & C). simpl in H. rewrite G, C in H. eapply IH, H.
Qed.

Lemma mapM_ok {E A B} (f : A -> res E B) l r : mapM f l = Ok r -> Forall2 (fun a b => f a = Ok b) l r.
Proof.
  revert r. induction l as [|a l IH]; intros r H; simpl in H.
  - injection H as <-. constructor.
  - apply bind_ok in H. destruct H as (b & H1 & H). apply bind_ok in H. destruct H as (bs & H2 & H).
    injection H as <-. constructor; auto.
Qed.

Lemma generate_ok_chains {L : Libs} s fuel p : generate_all fuel s = Ok p ->
  forall n, chain_ends (s_context s) n.
Proof.
  intros H n. constructor. intros m (d & G & C).
  apply mapM_ok in H. unfold sc_get in G. apply (aget_In _ name_eqb_eq) in G as I.
  assert (X : exists t, generate_element fuel (s_context s) n = Ok t).
  { clear -H I. induction H as [|e t l p0 Ht H IH]; [destruct I|].
    destruct I as [->|I]; [exists t; exact Ht|auto]. }
  destruct X as [t Ht]. apply generate_element_inv in Ht.
  destruct Ht as (el & id & dd & w & xn & nss & ns & r & lk & E & _ & E2 & _).
  unfold sc_get in E. rewrite G in E. injection E as <-. simpl in E2. unfold def_to_impl in E2. rewrite C in E2.
  apply bind_ok in E2. destruct E2 as (ty & E2 & _). eapply content_chain, E2.
Qed.
