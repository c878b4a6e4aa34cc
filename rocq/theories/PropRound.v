(** * C23-C27, C50: writing a value and reading it back *)
From Coq Require Import DecimalString.
From Verif Require Import Base Libs Xml Ast XsdNode Parse Decode Writer Gen Run Harness Samples CursorSpec LitSpec NumProof
  GenSpec DecSpec ReadSpec RepSpec DecProof1 WriterSpec EncSpec WfSpec WfCheck TypedCheck TermProof LlSpec CanonSpec CanonProof CanonProof2
  StableSpec StableProof TypedCanon RoundSpec RoundProof NumberRound PropDecode PropTerm PropWriter Conformance.

(** C24: for schemas that need one element of lookahead ([unambiguous_b]) and whose
    elements are all written with their tag and namespace ([writable_b], [entry_b]),
    canonical values (CanonSpec.v) are written as a document, and reading that
    document gives the value back, however the document is indented. [vn] says
    whether required repeated members may be empty. *)
Theorem C24_round_trip : forall (L : Libs) gfuel c gs p vn F k n r id v,
  generated gfuel c gs p -> unambiguous_b c gs vn F = true -> writable_b c gs k = true -> entry_b c gs k n = true ->
  In n gs -> sc_get c n = Some r -> type_ident n = Ok id -> canon_root c gs vn n r v ->
  exists evs d, yields (fun fuel => to_xml p fuel id v) (Ok evs) /\ document evs = Some d
    /\ forall d', indented d d' -> yields (fun fuel => from_xml p fuel id d') (Ok v).
Proof. intros L gfuel c gs p vn F k n r id v G. exact (round_trip gfuel c gs p G vn F k n r id v). Qed.
Print Assumptions C24_round_trip.

(** In terms of Rust types: canonical are the values of the type whose texts survive
    XML and that contain no [Some(vec![])] ([clean]). [scalar_laws] is what is
    assumed about the number formats of the libraries. *)
Theorem C24_typed_values : forall (L : Libs) gfuel c gs p F k n r id v,
  scalar_laws L -> generated gfuel c gs p -> compiles c gs -> constants_ok c gs ->
  unambiguous_b c gs true F = true -> writable_b c gs k = true -> entry_b c gs k n = true ->
  In n gs -> sc_get c n = Some r -> type_ident n = Ok id -> has_type p (TRef id) v -> clean v ->
  exists evs d, yields (fun fuel => to_xml p fuel id v) (Ok evs) /\ document evs = Some d
    /\ forall d', indented d d' -> yields (fun fuel => from_xml p fuel id d') (Ok v).
Proof.
  intros L gfuel c gs p F k n r id v La G Cp Cn U W En I Gn Ei T C. apply (round_trip gfuel c gs p G true F k n r id v); auto.
  exact (typed_canon La gfuel c gs p G Cp Cn n r id v I Gn Ei T C).
Qed.
Print Assumptions C24_typed_values.

(** The laws hold for the instance used in examples. *)
Definition plain_char (a : ascii) : bool := let n := N_of_ascii a in ((32 <=? n) && (n <? 127))%N.
Lemma plain_text s : forallb plain_char (list_ascii_of_string s) = true -> text_ok s /\ attr_ok s.
Proof.
  intros H. assert (A : XmlChars.xml_chars s = true /\ XmlChars.eol s = s).
  { induction s as [|a s IH]; [split; reflexivity|]. cbn [list_ascii_of_string forallb] in H. apply andb_true_iff in H. destruct H as [Ha Hs].
    destruct (IH Hs) as [X Y]. unfold plain_char in Ha. apply andb_true_iff in Ha. destruct Ha as [Ha Hb]. split.
    - unfold XmlChars.xml_chars in *. cbn [XmlChars.points]. apply N.leb_le in Ha. apply N.ltb_lt in Hb.
      rewrite (proj2 (N.ltb_lt (N_of_ascii a) 128)) by lia. destruct (XmlChars.points s) as [l|]; [|discriminate]. cbn [option_map forallb]. rewrite X, andb_true_r.
      unfold XmlChars.char_ok, XmlChars.between. cbn [existsb fst snd]. rewrite (proj2 (N.leb_le 32 (N_of_ascii a))) by lia.
      rewrite (proj2 (N.leb_le (N_of_ascii a) 55295)) by lia. cbn [andb orb]. rewrite !orb_true_r. reflexivity.
    - cbn [XmlChars.eol]. destruct (Ascii.eqb a XmlChars.cr) eqn:E; [|now rewrite Y]. apply Ascii.eqb_eq in E. subst. discriminate Ha. }
  destruct A as [A B]. split; unfold text_ok, attr_ok; cbn [xml_text_back xml_attr_back ascii_libs]; unfold XmlChars.text_back, XmlChars.attr_back; rewrite A; [|reflexivity].
  cbn. now rewrite B.
Qed.
Lemma digits_plain s n : parse_digits s = Some n -> forallb plain_char (list_ascii_of_string s) = true.
Proof.
  unfold parse_digits. destruct s as [|a s]; [discriminate|].
  assert (D : forall t d, NilEmpty.uint_of_string t = Some d -> forallb plain_char (list_ascii_of_string t) = true).
  { induction t as [|b t IH]; intros d H; [reflexivity|]. simpl in H. destruct (NilEmpty.uint_of_string t) as [u|] eqn:E.
    - simpl. rewrite (IH _ eq_refl), andb_true_r. destruct b as [[] [] [] [] [] [] [] []]; try discriminate H; reflexivity.
    - destruct b as [[] [] [] [] [] [] [] []]; discriminate H. }
  intros H. destruct (NilZero.uint_of_string (String a s)) as [d|] eqn:E; [|discriminate]. now apply D in E.
Qed.
Lemma show_plain n : forallb plain_char (list_ascii_of_string (show_N n)) = true.
Proof. eapply digits_plain, parse_digits_show_N. Qed.
Lemma plain_app s t : forallb plain_char (list_ascii_of_string s) = true -> forallb plain_char (list_ascii_of_string t) = true ->
  forallb plain_char (list_ascii_of_string (s +++ t)) = true.
Proof. induction s as [|a s IH]; intros A B; [exact B|]. cbn in A |- *. apply andb_true_iff in A. destruct A as [-> A]. now rewrite IH. Qed.
Lemma point_plain d n : forallb plain_char (list_ascii_of_string (show_point d n)) = true.
Proof.
  assert (P : forall k m, forallb plain_char (list_ascii_of_string (pad k m)) = true).
  { induction k as [|k IH]; intros m; [reflexivity|]. cbn [pad]. apply plain_app; [apply IH|]. pose proof (N.mod_lt m 10 ltac:(discriminate)) as R. revert R. generalize (m mod 10)%N. intros x R.
    assert (C : (x = 0 \/ x = 1 \/ x = 2 \/ x = 3 \/ x = 4 \/ x = 5 \/ x = 6 \/ x = 7 \/ x = 8 \/ x = 9)%N) by lia.
    repeat (destruct C as [-> |C]; [reflexivity|]). subst. reflexivity. }
  unfold show_point. apply plain_app; [apply show_plain|]. destruct n; [reflexivity|]. cbn [list_ascii_of_string forallb]. now rewrite P.
Qed.
Lemma f32_plain n : forallb plain_char (list_ascii_of_string (show_f32 n)) = true.
Proof.
  unfold show_f32. cbv zeta. destruct (_ <? _)%N; [reflexivity|]. apply plain_app; [destruct (_ <=? _)%N; reflexivity|].
  destruct (_ =? f32_inf)%N; [reflexivity|]. destruct (_ =? 0)%N; [reflexivity|]. destruct (shortest _) as [d e].
  destruct e; cbn [show_decimal]; try apply show_plain. destruct (strip_zeros _ _). apply point_plain.
Qed.
Lemma ascii_laws : scalar_laws ascii_libs.
Proof.
  constructor.
  - intros v s Sc H. apply plain_text. destruct v; try destruct Sc; injection H as <-.
    + destruct b; reflexivity.
    + destruct z; simpl; try apply show_plain. reflexivity.
    + apply plain_app; [destruct (dec_neg d); reflexivity|apply point_plain].
    + apply f32_plain.
  - reflexivity.
  - intros s d H. apply dec_back. eapply parse_dec_valid, H.
  - intros s n H. apply f32_back. eapply f32_bits, H.
Qed.

(** Finite checks on a concrete schema. *)
Ltac each_type I G :=
  vm_compute in I; repeat (destruct I as [I|I]; [subst; vm_compute in G; first [discriminate G|injection G as <-]|]);
  try (destruct I).

(** The schema of PropDecode.v meets the conditions, and so does its value. *)
Example order_condition :
  let c := ctx_of ex_order in let gs := Samples.names_of ex_order in let n := mkName "order" (NsId 1) in
  unambiguous_b c gs true 20 = true /\ unambiguous_b c gs false 20 = true /\ writable_b c gs 20 = true
  /\ entry_b c gs 20 n = true /\ In n gs /\ type_ident n = Ok "Order".
Proof. cbv zeta. repeat (split; [by_compute|]). split; [vm_compute; tauto|by_compute]. Qed.
Lemma final_fixed {L : Libs} c ct s k : final c ct (LcFixed s) -> match final_b c k ct with
    Some (LcFixed t) => xml_text_back t = Some t | Some _ => True | None => False end -> text_ok s.
Proof.
  destruct (final_b c k ct) as [y|] eqn:E; [|easy]. intros F. apply final_b_ok in E.
  rewrite (DecProof.final_det _ _ _ _ E F). auto.
Qed.
Lemma order_constants : constants_ok (ctx_of ex_order) (Samples.names_of ex_order).
Proof.
  constructor.
  - intros n ns I G. exfalso. each_type I G.
  - intros n r ct s I G Ic F. each_type I G; vm_compute in Ic;
      repeat (destruct Ic as [<-|Ic]; [apply (final_fixed _ _ _ 20 F); vm_compute; auto|]); destruct Ic.
  - intros n r a s I G Ia E. each_type I G; vm_compute in Ia;
      repeat (destruct Ia as [<-|Ia]; [discriminate E|]); destruct Ia.
Qed.
Lemma order_clean : clean ex_order_value.
Proof. repeat (constructor; try discriminate; try reflexivity). Qed.

Example C24_example : exists evs d,
  yields (fun fuel => to_xml (module_of ex_order) fuel "Order" ex_order_value) (Ok evs) /\ document evs = Some d
  /\ forall d', indented d d' -> yields (fun fuel => from_xml (module_of ex_order) fuel "Order" d') (Ok ex_order_value).
Proof.
  destruct order_condition as (A & _ & B & C & D & E).
  assert (Gr : exists r, sc_get (ctx_of ex_order) (mkName "order" (NsId 1)) = Some r) by (eexists; by_compute).
  destruct Gr as [r Gr].
  apply (C24_typed_values _ 40 _ _ _ 20 20 _ r _ _ ascii_laws (proj1 order_generated) (proj1 order_well_formed) order_constants A B C D Gr E).
  - apply (has_type_b_ok 9). by_compute.
  - exact order_clean.
Qed.
(** The document written for it, and an indented version of it. *)
Definition br (n : nat) : kid xelem := KText (String (ascii_of_nat 10) (String.concat "" (repeat " " n))).
Definition txti (t s : string) : xelem := XE t (Some "urn:t") [] [(None, "urn:t")] r0 [KText s].
Example C24_indentation : exists evs d, to_xml (module_of ex_order) 40 "Order" ex_order_value = Ok evs /\ document evs = Some d
  /\ strip d = ex_order_doc
  /\ indented d (XE "order" (Some "urn:t") [at_ "currency" "EUR"] [] (3%N, 9%N)
       [br 2; KElem (txti "id" "7"); br 2; KElem (txti "item" "a"); br 2; KElem (txti "item" "b"); KOther "x"; br 2;
        KElem (txti "version" "1.0"); br 2; KElem (txti "card" "x"); br 0]).
Proof.
  do 2 eexists. split; [by_compute|]. split; [by_compute|]. split; [by_compute|].
  match goal with |- indented ?d _ => let d' := eval vm_compute in d in change d with d' end.
  constructor; [reflexivity|].
  apply ik_laid; [discriminate|]. repeat (constructor; try reflexivity).
Qed.

(** The schemas of the repository's tests: all are writable, and all but two (an
    optional group that may be empty) need one element of lookahead only. *)
Definition condition_of (path : string) : bool * bool :=
  match parse_file (L := ascii_libs) 100 (list_fs files) path with
  | Ok s => let c := s_context s in let gs := map fst (sc_elements c) in
            (unambiguous_b (L := ascii_libs) c gs true 30, writable_b (L := ascii_libs) c gs 30)
  | _ => (false, false)
  end.
Example C24_test_schemas : length files = 52
  /\ forallb (fun f => snd (condition_of (fst f))) files = true
  /\ filter (fun p => negb (fst (condition_of p))) (map fst files)
     = ["tests/xsd/choice_selection_optional.xsd"; "tests/xsd/sequence_optional_with_optionals.xsd"].
Proof. split; [by_compute|]. split; by_compute. Qed.

(** C25: for the same schemas, what was decoded from a document is canonical, is
    written and decodes to itself again. [tidy]: character data and attribute values
    of the document survive being written. Missing: the other schemas and
    documents, for which it is false. *)
Theorem C25_stable_partial : forall (L : Libs) gfuel c gs p F k n r id e fuel v,
  scalar_laws L -> generated gfuel c gs p -> fixed_ok c gs -> choices_ok c gs ->
  unambiguous_b c gs true F = true -> writable_b c gs k = true -> entry_b c gs k n = true ->
  In n gs -> sc_get c n = Some r -> type_ident n = Ok id -> tidy e ->
  from_xml p fuel id e = Ok v ->
  canon_root c gs true n r v
  /\ exists evs d, yields (fun fuel => to_xml p fuel id v) (Ok evs) /\ document evs = Some d
     /\ forall d', indented d d' -> yields (fun fuel => from_xml p fuel id d') (Ok v).
Proof.
  intros L gfuel c gs p F k n r id e fuel v La G Fx Ch U W En I Gn Ei T H.
  assert (C : canon_root c gs true n r v) by (eapply decoded_canon; eauto).
  split; [exact C|]. apply (round_trip gfuel c gs p G true F k n r id v); auto.
Qed.
Print Assumptions C25_stable_partial.

Fixpoint tidy_b {L : Libs} (k : nat) (e : xelem) : bool :=
  match k with
  | O => false
  | S k => forallb (fun x => match x with KText s => opt_eqb String.eqb (xml_text_back s) (Some s) | _ => true end) (xe_kids e)
           && forallb (fun a => opt_eqb String.eqb (xml_attr_back (at_value a)) (Some (at_value a))) (xe_attrs e)
           && forallb (tidy_b k) (xe_children e)
  end.
Lemma tidy_b_ok {L : Libs} k : forall e, tidy_b k e = true -> tidy e.
Proof.
  induction k as [|k IH]; intros e H; [discriminate|]. simpl in H. rewrite !andb_true_iff, !forallb_forall in H.
  destruct H as [[A B] C]. constructor.
  - intros s I. apply A in I. now apply (opt_eqb_eq String.eqb String.eqb_eq) in I.
  - intros a I. apply B in I. now apply (opt_eqb_eq String.eqb String.eqb_eq) in I.
  - auto.
Qed.
(** A document with an undeclared element and a comment in it. *)
Definition ex_order_odd : xelem := XE "order" (Some "urn:t") [at_ "currency" "EUR"] [] r0
  (br 1 :: KOther "c" :: xe_kids ex_order_doc ++ [br 1; KElem (txt "more" "1")]).
Example C25_example : from_xml (module_of ex_order) 40 "Order" ex_order_odd = Ok ex_order_value /\ tidy ex_order_odd
  /\ fixed_ok (ctx_of ex_order) (Samples.names_of ex_order) /\ choices_ok (ctx_of ex_order) (Samples.names_of ex_order).
Proof.
  split; [by_compute|]. split; [apply (tidy_b_ok 9); by_compute|]. split; [exact (co_attr _ _ order_constants)|].
  exact (cp_choices _ _ (proj1 order_well_formed)).
Qed.

(** Decoded, written, decoded again, and different: the attributes of a base type
    are lost when the extension adds a sequence (see C27). *)
Theorem C25_attributes_refuted : exists doc x v evs d w,
  gen_doc doc = Ok (module_of doc) /\ compiles (ctx_of doc) (Samples.names_of doc) /\ tidy x
  /\ read_with doc "P" x = Some (Ok v) /\ write_with doc "P" v = Some (Ok evs) /\ document evs = Some d
  /\ read_with doc "P" d = Some (Ok w) /\ w <> v.
Proof.
  exists (ex_extension [xsequence [xtyped "b" "xs:int"]]), (elq "p" [at_ "id" "7"] [txtq "a" "1"; txtq "b" "2"]).
  do 4 eexists. split; [by_compute|]. split; [apply compiles_b_ok; by_compute|]. split; [apply (tidy_b_ok 9); by_compute|].
  split; [by_compute|]. split; [by_compute|]. split; [by_compute|]. split; [by_compute|]. vm_compute. discriminate.
Qed.
Print Assumptions C25_attributes_refuted.
(** A carriage return, which a document can contain as a character reference, is
    written unescaped and read as a line feed. *)
Theorem C25_carriage_return_refuted : exists doc s t d evs,
  let n := mkName "p" (NsId 1) in
  unambiguous_b (ctx_of doc) (Samples.names_of doc) true 9 = true /\ writable_b (ctx_of doc) (Samples.names_of doc) 9 = true
  /\ entry_b (ctx_of doc) (Samples.names_of doc) 9 n = true
  /\ read_with doc "P" (txtq "p" s) = Some (Ok (VTuple (VStr s))) /\ write_with doc "P" (VTuple (VStr s)) = Some (Ok evs)
  /\ document evs = Some d /\ read_with doc "P" d = Some (Ok (VTuple (VStr t))) /\ s <> t.
Proof.
  exists (xschema qualified_t [xtyped "p" "xs:string"]), (String (ascii_of_nat 13) ""), (String (ascii_of_nat 10) "").
  do 2 eexists. cbv zeta. repeat (split; [by_compute|]). discriminate.
Qed.
Print Assumptions C25_carriage_return_refuted.

(** C23: under the same condition the document written for a canonical value has an
    element for each element occurrence in the value, at its place, and no others
    ([rep_doc] with [exactly]). Missing: other schemas, see above for three shapes. *)
Theorem C23_tags_partial : forall (L : Libs) gfuel c gs p vn k n r id v,
  generated gfuel c gs p -> writable_b c gs k = true -> entry_b c gs k n = true -> In n gs -> sc_get c n = Some r ->
  type_ident n = Ok id -> canon_root c gs vn n r v ->
  exists evs d, yields (fun fuel => to_xml p fuel id v) (Ok evs) /\ document evs = Some d
    /\ rep_doc c gs appended exactly (counted vn) n v d.
Proof.
  intros L gfuel c gs p vn k n r id v G W En I Gn Ei C.
  destruct (canon_doc gfuel c gs p vn k n r id v G W En I Gn Ei C) as (evs & d & A & B & R). exists evs, d.
  split; [exact A|]. split; [exact B|]. apply R. apply CanonProof.indented_refl.
Qed.
Print Assumptions C23_tags_partial.

(** C26: its elements are in the namespaces the decoder expects: the root element in
    that of the type, every other one is an element of the schema, in its namespace. *)
Theorem C26_namespaces_partial : forall (L : Libs) gfuel c gs p vn k n r id v,
  generated gfuel c gs p -> writable_b c gs k = true -> entry_b c gs k n = true -> In n gs -> sc_get c n = Some r ->
  type_ident n = Ok id -> canon_root c gs vn n r v ->
  exists evs d, yields (fun fuel => to_xml p fuel id v) (Ok evs) /\ document evs = Some d
    /\ xe_tag d = nm n /\ quote_xml_namespace c n = Some (xe_ns d) /\ all_schema c gs d.
Proof.
  intros L gfuel c gs p vn k n r id v G W En I Gn Ei C.
  destruct (C23_tags_partial _ _ _ _ _ _ _ _ _ _ _ G W En I Gn Ei C) as (evs & d & A & B & R). exists evs, d.
  split; [exact A|]. split; [exact B|]. eapply doc_all_schema; eauto.
Qed.
Print Assumptions C26_namespaces_partial.

(** C27: an extension without a sequence (content [EcLeaf] of the base type) writes
    the attributes of the base type. *)
Theorem C27_base_attributes_partial : forall (L : Libs) gfuel c gs p vn k n d b d0 m nb db id v,
  generated gfuel c gs p -> writable_b c gs k = true -> entry_b c gs k n = true -> In n gs ->
  sc_get c n = Some (RootElement d) -> ed_content d = Some (EcLeaf b d0) -> ld_content d0 = LcNamed m ->
  type_of c gs m nb (RootElement db) -> final c (LcNamed m) (LcNamed m) ->
  type_ident n = Ok id -> canon_root c gs vn n (RootElement d) v ->
  exists evs x f bvs bavs avs, yields (fun fuel => to_xml p fuel id v) (Ok evs) /\ document evs = Some x
    /\ v = VStruct ((f, VStruct (bvs ++ bavs)) :: avs) /\ field_ident b = Ok f
    /\ rep_attrs c gs (ed_attributes db) bavs x /\ rep_attrs c gs (ed_attributes d) avs x.
Proof.
  intros L gfuel c gs p vn k n d b d0 m nb db id v G W En I Gn Ed Ec T Fm Ei C.
  destruct (C23_tags_partial _ _ _ _ _ _ _ _ _ _ _ G W En I Gn Ei C) as (evs & x & A & B & R).
  destruct (base_attrs gfuel c gs p G vn n v x d b d0 m nb db R Gn Ed Ec T Fm) as (f & bvs & bavs & avs & X).
  exists evs, x, f, bvs, bavs, avs. tauto.
Qed.
Print Assumptions C27_base_attributes_partial.

(** The extension of the example above meets the conditions. *)
Example C27_condition :
  let doc := ex_extension [xs "attribute" [at_ "name" "lang"; at_ "type" "xs:string"] []] in
  let n := mkName "p" (NsId 1) in
  writable_b (ctx_of doc) (Samples.names_of doc) 9 = true /\ entry_b (ctx_of doc) (Samples.names_of doc) 9 n = true
  /\ In n (Samples.names_of doc)
  /\ exists d d0 m db, sc_get (ctx_of doc) n = Some (RootElement d) /\ ed_content d = Some (EcLeaf m d0)
     /\ ld_content d0 = LcNamed m /\ type_of (ctx_of doc) (Samples.names_of doc) m m (RootElement db)
     /\ map (fun a => nm (a_name a)) (ed_attributes db) = ["id"].
Proof.
  cbv zeta. split; [by_compute|]. split; [by_compute|]. split; [vm_compute; tauto|].
  do 4 eexists. split; [by_compute|]. split; [reflexivity|]. split; [reflexivity|]. split.
  - split; [vm_compute; tauto|]. split; [by_compute|]. eexists. split; by_compute.
  - by_compute.
Qed.

(** C50: lookahead recognises a group wherever it can be read, if it looks for all
    elements the group can start with ([sees_starts], computed from the schema) and
    no xs:all is involved. Missing: other groups. *)
Theorem C50_lookahead_partial : forall (L : Libs) gfuel c gs p k m id f e s v s2,
  generated gfuel c gs p -> all_ordered c gs -> sees_starts c gs k m = true ->
  look_ident m = Ok id -> type_ident m = Ok id ->
  run_type real_ops p f id e s = Ok (v, s2) -> remaining s2 <> remaining s ->
  exists N, forall f', N <= f' -> exists s1, run_look real_ops p f' id s = Ok (true, s1) /\ remaining s1 = remaining s.
Proof. exact @starts_recognised. Qed.
Print Assumptions C50_lookahead_partial.

(** The choice group of the order schema, and the group of [C50_lookahead_refuted]. *)
Example C50_example : sees_starts (ctx_of ex_order) (Samples.names_of ex_order) 9 (mkName "OrderCa" (NsId 1)) = true
  /\ all_ordered (ctx_of ex_order) (Samples.names_of ex_order)
  /\ rmap fst (run_look real_ops (module_of ex_order) 9 "OrderCa" (children_new (elq "order" [] [txtq "card" "x"]))) = Ok true
  /\ sees_starts (ctx_of ex_nest) (Samples.names_of ex_nest) 9 (mkName "PYa" NsNone) = true
  /\ sees_starts (ctx_of ex_nest) (Samples.names_of ex_nest) 9 (mkName "PY" NsNone) = false.
Proof. split; [by_compute|]. split; [exact (proj1 C10_example)|]. split; [by_compute|]. split; by_compute. Qed.
