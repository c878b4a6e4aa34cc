(** * GenProof2: generating a type with its dependencies; literal types *)
From Coq Require Import Permutation.
From Verif Require Import Base Libs Xml Ast XsdNode Parse Decode Gen Run TextSpec NumProof MiscSpec MiscProof LitSpec GenProof1.

Lemma generate_deps_sound {L : Libs} fuel (s : schema) start already p already' :
  generate_element_and_dependencies fuel s start already = Ok (p, already') ->
  exists todo,
    Forall2 (fun x t => generate_element fuel (s_context s) x = Ok t) todo p
    /\ NoDup todo
    /\ (forall x, In x todo <-> reachable (s_dependencies s) start x /\ ~ In x already)
    /\ (forall x, In x already' <-> In x already \/ reachable (s_dependencies s) start x).
Proof.
  unfold generate_element_and_dependencies.
  destruct (closure_names fuel (s_dependencies s) start already) as [[todo al]|] eqn:E; [|discriminate].
  intros H. apply bind_ok in H. destruct H as (q & H & E'). injection E' as <- <-.
  apply closure_sound in E. destruct E as (H1 & H2 & H3).
  exists todo. split; [apply mapM_ok, H|]. auto.
Qed.

(** ** Occurrence attributes (C35) *)
Lemma min_occurs_spec a :
  (forall n, parse_min_occurs (Some a) = Ok n <-> unsigned_text (at_value a) n /\ (n <= 4294967295)%N)
  /\ ((forall n, ~ (unsigned_text (at_value a) n /\ (n <= 4294967295)%N)) ->
      parse_min_occurs (Some a) = Err (XeParseInt (at_range a))).
Proof.
  unfold parse_min_occurs, u32_from_str. split.
  - intros n. rewrite <- (parse_unsigned_iff u32_max).
    destruct (parse_unsigned u32_max (at_value a)); split; intros H; try discriminate; congruence.
  - intros H. destruct (parse_unsigned u32_max (at_value a)) as [n|] eqn:E; [|reflexivity].
    exfalso. apply (H n). apply (parse_unsigned_iff u32_max). exact E.
Qed.

Lemma max_occurs_spec a :
  (forall n, parse_max_occurs (Some a) = Ok (MaxNumber n) <-> unsigned_text (at_value a) n /\ (n <= 4294967295)%N)
  /\ (parse_max_occurs (Some a) = Ok MaxUnbounded <-> at_value a = "unbounded")
  /\ ((forall n, ~ (unsigned_text (at_value a) n /\ (n <= 4294967295)%N)) -> at_value a <> "unbounded" ->
      parse_max_occurs (Some a) = Err (XeParseInt (at_range a))).
Proof.
  unfold parse_max_occurs, u32_from_str.
  assert (U : forall n, ~ unsigned_text "unbounded" n).
  { intros n H. assert (E : parse_unsigned n "unbounded" = Some n).
    { apply parse_unsigned_iff. split; [exact H|lia]. }
    discriminate. }
  split; [|split].
  - intros n. destruct (String.eqb_spec (at_value a) "unbounded") as [E|N].
    + rewrite E. split; [discriminate|]. intros [H _]. exfalso. eapply U, H.
    + rewrite <- (parse_unsigned_iff u32_max).
      destruct (parse_unsigned u32_max (at_value a)); split; intros H; try discriminate; congruence.
  - destruct (String.eqb_spec (at_value a) "unbounded") as [E|N]; [tauto|].
    destruct (parse_unsigned u32_max (at_value a)); split; intros H; try discriminate; congruence.
  - intros H Nu. destruct (String.eqb_spec (at_value a) "unbounded") as [E|N]; [tauto|].
    destruct (parse_unsigned u32_max (at_value a)) as [n|] eqn:E; [|reflexivity].
    exfalso. apply (H n). apply (parse_unsigned_iff u32_max). exact E.
Qed.

(** ** Literal values (C47, C48) *)
Section Lit.
Context {L : Libs}.

Lemma lit_roundtrip l v : in_prim (lit_prim l) v ->
  exists s, value_to_string v = Some s /\ lit_from_str l s = Ok v.
Proof.
  unfold lit_from_str.
  destruct (lit_prim l), v; simpl; try contradiction; intros H; eexists; (split; [reflexivity|]).
  - reflexivity.
  - rewrite bool_from_str_show. reflexivity.
  - rewrite parse_signed_show by exact H. reflexivity.
  - destruct (Z_le_lt_eq_dec 0 z (proj1 H)) as [Hz|Hz].
    + destruct z as [|q|q]; try lia. change (show_Z (Zpos q)) with (show_N (Npos q)).
      rewrite parse_unsigned_show; [reflexivity|]. unfold u64_max. lia.
    + subst z. reflexivity.
  - rewrite parse_signed_show by exact H. reflexivity.
Qed.

Lemma lit_accepts l s : modelled_prim (lit_prim l) = true ->
  (forall v, lit_from_str l s = Ok v <-> denotes (lit_prim l) s v /\ in_prim (lit_prim l) v)
  /\ ((forall v, ~ (denotes (lit_prim l) s v /\ in_prim (lit_prim l) v)) ->
      lit_from_str l s = Err (FeParseType (xsd_name l) s)).
Proof.
  intros M. unfold lit_from_str.
  assert (K : forall v, prim_from_str (lit_prim l) s = Some v <-> denotes (lit_prim l) s v /\ in_prim (lit_prim l) v).
  { intros v. destruct (lit_prim l); try discriminate; simpl.
    - destruct v; simpl; split; intros H; try discriminate; try tauto; [injection H as ->; auto|].
      destruct H as [-> _]. reflexivity.
    - unfold bool_from_str. destruct v; try (split; [|tauto]; destruct (s =?s "true"); [discriminate|]; destruct (s =?s "false"); discriminate).
      destruct (String.eqb_spec s "true") as [->|N1].
      + simpl. destruct b; split; intros H; try discriminate; try tauto; destruct H; discriminate.
      + destruct (String.eqb_spec s "false") as [->|N2].
        * simpl. destruct b; split; intros H; try discriminate; try tauto; destruct H; discriminate.
        * simpl. destruct b; split; intros H; try discriminate; destruct H; congruence.
    - destruct v; simpl; try (split; [|tauto]; destruct (parse_signed _ _ s); discriminate).
      rewrite <- (parse_signed_iff i64_min i64_max). destruct (parse_signed i64_min i64_max s); simpl; split; intros H; try discriminate; congruence.
    - destruct v; simpl; try (split; [|tauto]; destruct (parse_unsigned _ s); discriminate).
      split.
      + destruct (parse_unsigned u64_max s) as [n|] eqn:E; [|discriminate]. simpl. intros H; injection H as <-.
        apply parse_unsigned_iff in E. rewrite N2Z.id. destruct E as [E1 E2]. split; [exact E1|]. unfold u64_max in E2. lia.
      + intros [H1 H2]. assert (E : parse_unsigned u64_max s = Some (Z.to_N z)).
        { apply parse_unsigned_iff. split; [exact H1|]. unfold u64_max. lia. }
        rewrite E. simpl. rewrite Z2N.id by lia. reflexivity.
    - destruct v; simpl; try (split; [|tauto]; destruct (parse_signed _ _ s); discriminate).
      rewrite <- (parse_signed_iff i32_min i32_max). destruct (parse_signed i32_min i32_max s); simpl; split; intros H; try discriminate; congruence. }
  split.
  - intros v. rewrite <- K. destruct (prim_from_str (lit_prim l) s); split; intros H; try discriminate; congruence.
  - intros H. destruct (prim_from_str (lit_prim l) s) as [v|] eqn:E; [|reflexivity].
    exfalso. apply (H v). apply K. reflexivity.
Qed.
End Lit.

Lemma literal_table s l : literal_from_str s = Some l -> literal_from_str (xsd_name l) = Some l.
Proof.
  unfold literal_from_str.
  repeat match goal with
  | |- (if ?b then _ else _) = _ -> _ => destruct b; [intros H; injection H as <-; reflexivity|]
  end. discriminate.
Qed.

Lemma literal_names s l : literal_from_str s = Some l <-> In (s, l) builtin_names.
Proof.
  split.
  - unfold literal_from_str.
    repeat match goal with
    | |- (if ?a =?s ?b then _ else _) = _ -> _ =>
        destruct (String.eqb_spec a b) as [->|]; [intros H; injection H as <-; simpl; tauto|]
    | |- (if (?a =?s ?b) || (?a =?s ?c) then _ else _) = _ -> _ =>
        destruct (String.eqb_spec a b) as [->|]; [intros H; injection H as <-; simpl; tauto|];
        destruct (String.eqb_spec a c) as [->|]; [intros H; injection H as <-; simpl; tauto|]; cbn [orb]
    end. discriminate.
  - simpl. intuition (match goal with H : _ = _ |- _ => injection H as <- <- end; reflexivity).
Qed.

Lemma lit_same_type {L : Libs} l s v : lit_from_str l s = Ok v ->
  prim_value (lit_prim l) v /\ exists t, value_to_string v = Some t.
Proof.
  intros H. destruct (modelled_prim (lit_prim l)) eqn:M.
  - destruct (lit_accepts l s M) as [K _]. apply K in H. destruct H as [_ H].
    destruct (lit_prim l), v; simpl in *; try tauto; try discriminate; eauto.
  - unfold lit_from_str in H. destruct (lit_prim l); try discriminate; simpl in H.
    + destruct (dec_from_str s); [|discriminate]. injection H as <-. simpl. eauto.
    + destruct (f32_from_str s); [|discriminate]. injection H as <-. simpl. eauto.
Qed.

Lemma enum_literals {L : Libs} fuel c n names t :
  sc_get c n = Some (RootEnum names) -> generate_element fuel c n = Ok t ->
  NoDup (map nm names) ->
  exists vs, ti_decl t = DEnum vs /\ map snd vs = map nm names /\
  forall vs', Permutation vs vs' ->
    (forall v, In v (map fst vs) -> exists s,
       enum_as_str vs' v = Some s /\ enum_from_str vs' s = Ok (VEnum v))
    /\ (forall s, In s (map nm names) -> exists v,
       enum_from_str vs' s = Ok (VEnum v) /\ enum_as_str vs' v = Some s)
    /\ (forall s, ~ In s (map nm names) -> enum_from_str vs' s = Err (FeInvalidVariant s)).
Proof.
  intros G H ND. destruct (enum_item fuel c n names t G H) as (vs & E & N1 & E2 & _).
  exists vs. split; [exact E|]. split; [exact E2|]. intros vs' P. rewrite <- E2 in *.
  apply enum_table; assumption.
Qed.

(** The type that is declared for a built-in name, and what a text of it is read as. *)
Lemma lit_rust_type {L : Libs} s p : In (s, p) rust_types -> exists l,
  literal_from_str s = Some l
  /\ (forall gfuel c, content_to_impl gfuel c (LcLiteral l) = Ok (TPrim p))
  /\ (forall t v, lit_from_str l t = Ok v -> prim_value p v)
  /\ (forall t v, modelled_prim p = true -> denotes p t v -> in_prim p v -> lit_from_str l t = Ok v).
Proof.
  intros I. assert (E : exists l, literal_from_str s = Some l /\ lit_prim l = p).
  { simpl in I. repeat destruct I as [I|I]; try contradiction; injection I as <- <-; eexists; split; reflexivity. }
  destruct E as (l & E & <-). exists l. split; [exact E|]. split; [|split].
  - intros [|gfuel] c; reflexivity.
  - intros t v H. apply (lit_same_type l t v H).
  - intros t v M D R. now apply (lit_accepts l t M).
Qed.
