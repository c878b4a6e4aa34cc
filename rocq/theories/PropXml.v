(** * C75: the texts of documents *)
From Verif Require Import Base Libs Xml Ast XsdNode Parse Decode Writer Gen Run Harness Samples CursorSpec LitSpec GenSpec DecSpec ReadSpec RepSpec DecProof WriterSpec EncSpec
  WfSpec WfCheck TypedCheck LlSpec CanonSpec CanonProof StableSpec TypedCanon RoundSpec PropDecode PropTerm PropRound
  XmlChars XmlRead XmlWrite XmlSpec XmlProof5 XmlGen.

(** The text that xml-rs writes for the events of a document is read by roxmltree as that
    document, laid out. *)
Theorem C75_text : forall (L : Libs) em evs x, xml_are em L -> declarations_ok evs -> document evs = Some x ->
  exists text x', write_xml em evs = Some text /\ parse_xml text = Some x' /\ indented x x'.
Proof.
  intros L em evs x XA D H. unfold document in H. destruct (writes_text em evs [] None x (mkWstate 0 [Markup] [] false []) H eq_refl) as (t & E).
  exists ("<?xml version=""1.0"" encoding=""UTF-8""?>" +++ t). assert (W : write_xml em evs = Some ("<?xml version=""1.0"" encoding=""UTF-8""?>" +++ t)).
  { unfold write_xml. now rewrite E. }
  destruct (write_read em evs x _ XA D H W) as (x' & P & I). eauto.
Qed.
Print Assumptions C75_text.

(** Generated code meets the condition if the names of the namespaces of the schema are
    plain and the prefixes not reserved. *)
Definition plain_namespaces {L : Libs} (c : schema_ctx) : Prop :=
  forall nss q u, element_nss c = Ok nss -> In (q, u) nss -> plain_uri u /\ unreserved q u.
Theorem C75_declarations : forall (L : Libs) gfuel c gs p fuel id v evs,
  generated gfuel c gs p -> plain_namespaces c -> to_xml p fuel id v = Ok evs -> declarations_ok evs.
Proof.
  intros L gfuel c gs p fuel id v evs [G _] P H. destruct (element_nss c) as [NSS| | |] eqn:E.
  - assert (S : forall i t, lookup_item p i = Some t -> ti_nss t = NSS).
    { intros i t Q. destruct (item_lookup c gfuel gs p G i t Q) as (n & r & It & _). pose proof (it_nss _ _ _ _ _ _ It) as Z. congruence. }
    apply (known_ok NSS); [eapply to_xml_known; eauto|]. intros q u I. exact (P _ _ _ E I).
  - exfalso. unfold to_xml in H. destruct (lookup_item p id) as [t|] eqn:Q; [|discriminate]. destruct (item_lookup c gfuel gs p G id t Q) as (n & r & It & _).
    pose proof (it_nss _ _ _ _ _ _ It). congruence.
  - exfalso. unfold to_xml in H. destruct (lookup_item p id) as [t|] eqn:Q; [|discriminate]. destruct (item_lookup c gfuel gs p G id t Q) as (n & r & It & _).
    pose proof (it_nss _ _ _ _ _ _ It). congruence.
  - exfalso. unfold to_xml in H. destruct (lookup_item p id) as [t|] eqn:Q; [|discriminate]. destruct (item_lookup c gfuel gs p G id t Q) as (n & r & It & _).
    pose proof (it_nss _ _ _ _ _ _ It). congruence.
Qed.
Print Assumptions C75_declarations.

(** The emitted [from_xml] on a text, xsd-internal/src/xsd/schema.rs:298-302 and xsd/src/decode.rs:51-54: parse, then read the root; [None]:
    the text is no document. *)
Definition from_text {L : Libs} (p : program) (fuel : nat) (id text : string) : option (R value) :=
  match parse_xml text with Some x => Some (from_xml p fuel id x) | None => None end.
(** [to_xml], xsd-internal/src/xsd/schema.rs:258-275; [None]: xml-rs reports an error. *)
Definition to_text {L : Libs} (em : emitter) (p : program) (fuel : nat) (id : string) (v : value) : W (option string) :=
  evs <- to_xml p fuel id v ;; Ok (write_xml em evs).

(** C24 on texts: what [to_xml] writes is a text that [from_xml] reads as the value. *)
Theorem C75_round_trip : forall (L : Libs) em gfuel c gs p F k n r id v,
  xml_are em L -> plain_namespaces c -> scalar_laws L -> generated gfuel c gs p -> compiles c gs -> constants_ok c gs ->
  unambiguous_b c gs true F = true -> writable_b c gs k = true -> entry_b c gs k n = true ->
  In n gs -> sc_get c n = Some r -> type_ident n = Ok id -> has_type p (TRef id) v -> clean v ->
  exists text, (exists N, forall fuel, (N <= fuel)%nat -> to_text em p fuel id v = Ok (Some text))
    /\ exists N, forall fuel, (N <= fuel)%nat -> from_text p fuel id text = Some (Ok v).
Proof.
  intros L em gfuel c gs p F k n r id v XA P La G Cp Cn U W En I Gn Ei T C.
  destruct (C24_typed_values L gfuel c gs p F k n r id v La G Cp Cn U W En I Gn Ei T C) as (evs & d & (N & Y) & D & R).
  assert (X : to_xml p N id v = Ok evs) by (apply Y; lia).
  destruct (C75_text L em evs d XA (C75_declarations L gfuel c gs p N id v evs G P X) D) as (text & x' & Wt & Px & Ix).
  exists text. split.
  - exists N. intros fuel Hf. unfold to_text. rewrite (Y fuel Hf). simpl. now rewrite Wt.
  - destruct (R x' Ix) as (M & Z). exists M. intros fuel Hf. unfold from_text. rewrite Px. now rewrite (Z fuel Hf).
Qed.
Print Assumptions C75_round_trip.

(** Which texts come back as they were. *)
Fixpoint has_char (c : ascii) (s : string) : bool := match s with "" => false | String d r => (Ascii.eqb d c || has_char c r)%bool end.
Theorem C75_kept : forall em s,
  (text_back em s = Some s <-> xml_chars s = true /\ (em_gt em = false -> contains "]]>" s = false) /\ (em_cr em = false -> has_char cr s = false))
  /\ (attr_back em s = Some s <-> xml_chars s = true /\ (em_tab em = false -> has_char tab s = false)).
Proof.
  assert (E : forall s, eol s = s <-> has_char cr s = false).
  { intros s. split.
    - induction s as [|c s IH]; [reflexivity|]. cbn [eol has_char]. destruct (Ascii.eqb c cr) eqn:Q.
      + intros H. exfalso. apply Ascii.eqb_eq in Q. subst c. destruct s as [|d s]; [discriminate H|]. destruct (Ascii.eqb d lf) eqn:Z.
        * apply (f_equal String.length) in H. assert (X : forall t, (String.length (eol t) <= String.length t)%nat).
          { clear. induction t as [|a t IH]; [simpl; lia|]. cbn [eol]. destruct (Ascii.eqb a cr); [destruct t as [|b t]; [simpl; lia|destruct (Ascii.eqb b lf)]|]; cbn [String.length] in *; lia. }
          specialize (X (String d s)). cbn [String.length] in *. lia.
        * discriminate H.
      + intros [= H]. now rewrite IH.
    - induction s as [|c s IH]; [reflexivity|]. cbn [eol has_char]. intros H. apply orb_false_iff in H. destruct H as [-> H]. now rewrite IH. }
  assert (T : forall s, untab s = s <-> has_char tab s = false).
  { induction s as [|c s IH]; [split; reflexivity|]. cbn [untab has_char]. destruct (Ascii.eqb c tab) eqn:Q.
    - apply Ascii.eqb_eq in Q. subst. split; discriminate.
    - cbn [orb]. rewrite <- IH. split; [now intros [= H]|intros H; now rewrite H]. }
  intros em s. unfold text_back, attr_back. split.
  - destruct (xml_chars s); cbn [andb]; [|split; [discriminate|intros [H _]; discriminate]].
    destruct (em_gt em); cbn [orb].
    + destruct (em_cr em); [repeat split; discriminate|]. split.
      * intros [= H]. apply E in H. repeat split; auto. discriminate.
      * intros (_ & _ & H). specialize (H eq_refl). apply E in H. now rewrite H.
    + destruct (contains "]]>" s); cbn [negb]; [split; [discriminate|intros (_ & H & _); now specialize (H eq_refl)]|].
      destruct (em_cr em); [repeat split; discriminate|]. split.
      * intros [= H]. apply E in H. repeat split; auto.
      * intros (_ & _ & H). specialize (H eq_refl). apply E in H. now rewrite H.
  - destruct (xml_chars s); [|split; [discriminate|intros [H _]; discriminate]]. destruct (em_tab em); [repeat split; discriminate|]. split.
    + intros [= H]. apply T in H. auto.
    + intros [_ H]. specialize (H eq_refl). apply T in H. now rewrite H.
Qed.
Print Assumptions C75_kept.

(** The libraries of the examples are those of the models. *)
Theorem C75_ascii : xml_are xml_rs ascii_libs.
Proof. repeat split. Qed.
Print Assumptions C75_ascii.

(** The schema of PropDecode.v: the text written for its value, and reading it. *)
Definition nl : string := String lf "".
Definition order_text : string :=
  "<?xml version=""1.0"" encoding=""UTF-8""?>" +++ nl +++
  "<order xmlns=""urn:t"" currency=""EUR"">" +++ nl +++
  "  <id>7</id>" +++ nl +++ "  <item>a</item>" +++ nl +++ "  <item>b</item>" +++ nl +++ "  <version>1.0</version>" +++ nl +++ "  <card>x</card>" +++ nl +++ "</order>".
Lemma order_plain : plain_namespaces (ctx_of ex_order).
Proof.
  intros nss q u E I. assert (nss = [("", "urn:t")]) as ->.
  { assert (H : element_nss (ctx_of ex_order) = Ok [("", "urn:t")]) by by_compute. rewrite H in E. now injection E. }
  destruct I as [[= <- <-]|[]]. split; [split; by_compute|]. split; [discriminate|]. split; [discriminate|]. split; discriminate.
Qed.
Example C75_example : to_text xml_rs (module_of ex_order) 40 "Order" ex_order_value = Ok (Some order_text)
  /\ from_text (module_of ex_order) 40 "Order" order_text = Some (Ok ex_order_value)
  /\ exists text, (exists N, forall fuel, (N <= fuel)%nat -> to_text xml_rs (module_of ex_order) fuel "Order" ex_order_value = Ok (Some text))
       /\ exists N, forall fuel, (N <= fuel)%nat -> from_text (module_of ex_order) fuel "Order" text = Some (Ok ex_order_value).
Proof.
  split; [by_compute|]. split; [by_compute|].
  destruct order_condition as (A & _ & B & C & D & E).
  assert (Gr : exists r, sc_get (ctx_of ex_order) (mkName "order" (NsId 1)) = Some r) by (eexists; by_compute).
  destruct Gr as [r Gr].
  apply (C75_round_trip _ xml_rs 40 _ _ _ 20 20 _ r _ _ C75_ascii order_plain ascii_laws (proj1 order_generated) (proj1 order_well_formed) order_constants A B C D Gr E).
  - apply (has_type_b_ok 9). by_compute.
  - exact order_clean.
Qed.

(** ** What the conditions are for *)
Definition order_with (item currency : string) : value :=
  VStruct [("id", VInt 7); ("note", VNone); ("item", VVec [VStr item]); ("tag", VNone);
           ("version", VUnit); ("ca", VChoice "Card" (VStr "x")); ("lang", VNone); ("currency", VStr currency)].
Definition sent (em : emitter) (v : value) : option (R value) :=
  match to_text em (module_of ex_order) 40 "Order" v with Ok (Some text) => from_text (module_of ex_order) 40 "Order" text | _ => None end.
(** Values of the type that are written without an error, and the text is no document: text
    with a control character, whatever the version of xml-rs; with [>] not escaped also
    the end of a CDATA section. *)
Theorem C75_unreadable_refuted : exists v w, has_type (module_of ex_order) (TRef "Order") v /\ has_type (module_of ex_order) (TRef "Order") w
  /\ (forall em, exists text, to_text em (module_of ex_order) 40 "Order" v = Ok (Some text) /\ parse_xml text = None)
  /\ (forall em, em_gt em = false -> exists text, to_text em (module_of ex_order) 40 "Order" w = Ok (Some text) /\ parse_xml text = None).
Proof.
  exists (order_with (byte_of 1) "EUR"), (order_with "a]]>b" "EUR"). split; [apply (has_type_b_ok 9); by_compute|]. split; [apply (has_type_b_ok 9); by_compute|]. split.
  - intros [[] [] [] []]; (eexists; split; [by_compute|by_compute]).
  - intros [[] [] [] []] E; try discriminate E; (eexists; split; [by_compute|by_compute]).
Qed.
Print Assumptions C75_unreadable_refuted.
(** Values that come back as others: a carriage return in text, a tab in an attribute, if
    they are not escaped. *)
Theorem C75_changed_refuted : exists v w,
  (forall em, em_cr em = false -> exists v', sent em v = Some (Ok v') /\ v' <> v)
  /\ (forall em, em_tab em = false -> exists w', sent em w = Some (Ok w') /\ w' <> w).
Proof.
  exists (order_with ("a" +++ String cr "b") "EUR"), (order_with "a" ("E" +++ String tab "R")). split.
  - intros [[] [] [] []] E; try discriminate E; eexists; (split; [by_compute|discriminate]).
  - intros [[] [] [] []] E; try discriminate E; eexists; (split; [by_compute|discriminate]).
Qed.
Print Assumptions C75_changed_refuted.
(** A prefix declared anew and back: xml-rs leaves the last declaration out, as it sees
    the first one, and the text means another document. *)
Definition ev_back : list event :=
  [EvStart "p:a" [] [("p", "urn:1")]; EvStart "p:b" [] [("p", "urn:2")]; EvStart "p:c" [] [("p", "urn:1")]; EvEnd; EvEnd; EvEnd].
(** The name of a namespace with quotes, if it is not escaped, is read as attributes. *)
Definition ev_quote : list event := [EvStart "a" [] [("", "urn:1"" b=""2")]; EvEnd].
Lemma indented_inv a b : indented a b -> xe_tag a = xe_tag b /\ xe_ns a = xe_ns b /\ map attr_key (xe_attrs a) = map attr_key (xe_attrs b)
  /\ match elems_of (xe_kids a), elems_of (xe_kids b) with x :: _, y :: _ => indented x y | _, _ => True end.
Proof.
  intros H. inversion H as [t ns ats ats' ss ss' r r' ks ks' E K]; subst. cbn. repeat split; auto. inversion K as [ks0 Z|ks0 ks0' Z I]; subst.
  - now rewrite Z.
  - inversion I; auto.
Qed.
Theorem C75_declared_refuted : (forall em, exists x text x', document ev_back = Some x /\ write_xml em ev_back = Some text /\ parse_xml text = Some x' /\ ~ indented x x')
  /\ (forall em, em_uri em = false -> exists x text x', document ev_quote = Some x /\ write_xml em ev_quote = Some text /\ parse_xml text = Some x' /\ ~ indented x x').
Proof.
  split.
  - intros [[] [] [] []]; do 3 eexists; (split; [by_compute|]); (split; [by_compute|]); (split; [by_compute|]); intros H;
      apply indented_inv in H; destruct H as (_ & _ & _ & H); cbn in H; apply indented_inv in H; destruct H as (_ & _ & _ & H); cbn in H;
      apply indented_inv in H; destruct H as (_ & H & _); discriminate H.
  - intros [[] [] [] []] E; try discriminate E; do 3 eexists; (split; [by_compute|]); (split; [by_compute|]); (split; [by_compute|]); intros H;
      apply indented_inv in H; destruct H as (_ & _ & H & _); discriminate H.
Qed.
Print Assumptions C75_declared_refuted.
