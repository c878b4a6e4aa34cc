(** * PropXmlEnd: C72 on texts (C75) *)
From Verif Require Import Base Libs Xml Ast XsdNode Parse Decode Writer Gen Run Harness Macro MacroSpec Emit Quote Impl LitSpec GenSpec DecSpec ReadSpec RepSpec ValidSpec FaultSpec
  DecProof WriterSpec EncSpec LlSpec RoundSpec CanonSpec StableSpec TypedCanon TypedCheck WfSpec WfProof WfCheck ValidCheck RustSpec RustCheck RustGen Rust RustRules Body BodySpec BodyRead BodyGen GenProof1 SchemaProof
  EmitSpec GramSpec GramItem TypingSpec Samples PropGen PropDecode PropTerm PropRust PropRound PropValid PropBody PropMacro PropFault PropEmit PropGram PropTyping PropEnd
  XmlChars XmlRead XmlWrite XmlSpec PropXml.

(** With the functions of a chain: a call of [from_xml] on a text (xsd-internal/src/xsd/schema.rs:298-302)
    and of [to_xml] for a text (258-275). *)
Definition text_returns {L : Libs} (p : program) fns id text r : Prop := exists x, parse_xml text = Some x /\ call_returns p fns id "from_xml" [Doc x] r.
Definition text_written {L : Libs} (em : emitter) (p : program) fns id v text : Prop :=
  exists evs, call_writes p fns id "to_xml" [D v] (WDoc :: map WEv evs) /\ write_xml em evs = Some text.

(** C72 on texts: the text that the emitted [to_xml] writes is read by the emitted [from_xml]
    as the value. *)
Theorem C75_end_partial : forall (L : Libs) em fuel gfuel k path s p text items fns F d n r id v,
  xml_are em L -> pascal_law L -> scalar_laws L -> chain fuel gfuel k path s p text items fns -> names_apart p ->
  let c := s_context s in let gs := map fst (sc_elements c) in
  plain_namespaces c -> groups_ok c gs -> constants_ok c gs -> unambiguous_b c gs true F = true -> writable_b c gs d = true -> entry_b c gs d n = true ->
  In n gs -> sc_get c n = Some r -> type_ident n = Ok id -> has_type p (TRef id) v -> clean v ->
  exists out, text_written em p fns id v out /\ text_returns p fns id out (ROk (D v)).
Proof.
  intros L em fuel gfuel k path s p text items fns F d n r id v XA PL La Ch Na c gs Pn Go Cn U W En I Gn Ei T C. pose proof (chain_generated _ _ _ _ _ _ _ _ _ Ch) as G.
  pose proof (ch_accepted _ _ _ _ _ _ _ _ _ Ch) as OK. pose proof (C54_compiles L _ _ _ _ (proj1 G) OK Go) as Cp.
  destruct (C24_typed_values L gfuel c gs p F d n r id v La G Cp Cn U W En I Gn Ei T C) as (evs & x & (N & Hw) & Hd & Hr).
  pose proof (Hw N (Nat.le_refl _)) as HN. destruct (C75_text L em evs x XA (C75_declarations L gfuel c gs p N id v evs G Pn HN) Hd) as (out & x' & Wt & Px & Ix).
  exists out. split.
  - exists evs. split; [|exact Wt]. apply (chain_writes _ _ _ _ _ _ _ _ _ Ch Na). exact (C64_writing L p id v evs N OK HN).
  - exists x'. split; [exact Px|]. apply (chain_returns _ _ _ _ _ _ _ _ _ Ch Na). intros st. destruct (Hr x' Ix) as (M & HM).
    pose proof (from_xml_fn p OK (generated_free PL _ _ _ _ (proj1 G)) M id x' st) as H. rewrite (HM M (Nat.le_refl _)) in H. destruct H as (st' & H & _). eauto.
Qed.
Print Assumptions C75_end_partial.

(** From the text of the schema to the text of a document. *)
Definition line (n : nat) (s : string) : string := newline n +++ s.
Definition order_xsd : string :=
  "<?xml version=""1.0""?>" +++
  line 0 "<xs:schema xmlns:xs=""http://www.w3.org/2001/XMLSchema"" targetNamespace=""urn:t"" elementFormDefault=""qualified"">" +++
  line 1 "<!-- an order -->" +++
  line 1 "<xs:element name='order'>" +++
  line 2 "<xs:complexType>" +++
  line 3 "<xs:sequence>" +++
  line 4 "<xs:element name=""id"" type=""xs:int"" />" +++
  line 4 "<xs:element name=""note"" type=""xs:string"" minOccurs=""0"" maxOccurs=""1""/>" +++
  line 4 "<xs:element name=""item"" type=""xs:string"" minOccurs=""1"" maxOccurs=""unbounded""></xs:element>" +++
  line 4 "<xs:element name=""tag"" type=""xs:string"" minOccurs=""0"" maxOccurs=""unbounded"" />" +++
  line 4 "<xs:element name=""version"" type=""xs:string"" fixed=""1&#46;0"" />" +++
  line 4 "<xs:choice><xs:element name=""cash"" type=""xs:boolean"" /><xs:element name=""card"" type=""xs:string"" /></xs:choice>" +++
  line 3 "</xs:sequence>" +++
  line 3 "<xs:attribute name=""lang"" type=""xs:string"" />" +++
  line 3 "<xs:attribute name=""currency"" type=""xs:string"" use=""required"" />" +++
  line 2 "</xs:complexType>" +++
  line 1 "</xs:element>" +++
  line 0 "</xs:schema>".
Definition text_disk : disk := mkDisk (fun path => if path =?s "crate/order.xsd" then Some order_xsd else None) parse_xml
  (fun _ => (1, 1)) (fun a b => a +++ "/" +++ b) (fun path => path).
Lemma text_schema : match parse_file 40 (fs_of text_disk) "crate/order.xsd" with Ok s => s_context s = ctx_of ex_order | _ => False end.
Proof. by_compute. Qed.
Lemma order_rust : rust_ok (module_of ex_order).
Proof. apply rust_accepts; by_compute. Qed.
Example C75_end_example : exists s text items fns,
  expand 40 40 text_disk (Some "crate") order_args (Some order_mod) = Ok order_out
  /\ chain 40 40 text_disk "crate/order.xsd" s (module_of ex_order) text items fns
  /\ exists out, text_written xml_rs (module_of ex_order) fns "Order" ex_order_value out /\ text_returns (module_of ex_order) fns "Order" out (ROk (D ex_order_value)).
Proof.
  assert (Ex : expand 40 40 text_disk (Some "crate") order_args (Some order_mod) = Ok order_out) by by_compute.
  pose proof order_rust as OK.
  assert (A : accepted_output order_out).
  { split; [repeat constructor|]. split; [exact OK|]. apply nodupb_NoDup. by_compute. }
  assert (Na : names_apart (module_of ex_order)) by (vm_compute; repeat constructor; intuition discriminate).
  destruct (C72_chain _ _ _ _ _ _ _ _ Ex A Na) as (dir & arg & s & text & items & fns & Ed & Nm & Ch & T). injection Ed as <-.
  assert (arg = "order.xsd") as ->.
  { destruct Nm as (_ & l & E & _). destruct l as [|a [|b l]]; [now injection E|discriminate|discriminate]. }
  assert (P : dk_push text_disk "crate" "order.xsd" = "crate/order.xsd") by reflexivity. rewrite P in Ch. clear P.
  assert (P : om_types order_out = module_of ex_order) by reflexivity. rewrite P in Ch. clear P.
  assert (Cs : s_context s = ctx_of ex_order) by (pose proof text_schema as Sc; rewrite (ch_schema _ _ _ _ _ _ _ _ _ Ch) in Sc; exact Sc).
  exists s, text, items, fns. split; [exact Ex|]. split; [exact Ch|].
  destruct order_condition as (O1 & _ & O2 & O3 & O4 & O5).
  assert (Gr : exists r, sc_get (ctx_of ex_order) (mkName "order" (NsId 1)) = Some r) by (eexists; by_compute). destruct Gr as [r Gr].
  assert (Ty : has_type (module_of ex_order) (TRef "Order") ex_order_value) by (apply (has_type_b_ok 9); by_compute).
  pose proof (C75_end_partial _ xml_rs _ _ _ _ _ _ _ _ _ 20 20 (mkName "order" (NsId 1)) r "Order" ex_order_value C75_ascii C63_names ascii_laws Ch Na) as H. cbv zeta in H. rewrite Cs in H.
  exact (H order_plain (cp_groups _ _ (proj1 order_well_formed)) order_constants O1 O2 O3 O4 Gr O5 Ty order_clean).
Qed.
