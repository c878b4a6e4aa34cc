(** * C25 on texts: what is read from a text is written as a text that is read as the same *)
From Verif Require Import Base Libs Xml Ast XsdNode Parse Decode Writer Gen Run Harness Samples ParseSpec LitSpec GenSpec DecSpec ReadSpec RepSpec WriterSpec EncSpec WfSpec WfCheck
  LlSpec CanonSpec StableSpec RoundSpec XmlChars XmlRead XmlWrite XmlSpec XmlGrammar
  PlaceSpec PlaceProof GrammarProof1 GrammarProof2 GrammarProof5 PropDecode PropTerm PropRound PropXml PropGrammar.
Local Open Scope N_scope.

Lemma has_char_iff c s : has_char c s = false <-> without c s.
Proof.
  unfold without. induction s as [|d s IH]; cbn; [tauto|]. rewrite orb_false_iff, IH. rewrite <- Bool.not_true_iff_false, Ascii.eqb_eq. tauto.
Qed.
Lemma text_tidy (L : Libs) em text d : xml_are em L -> em_gt em = true -> em_cr em = true /\ em_tab em = true \/ ~ occurs "&#" text ->
  XmlDocument text d -> tidy d.
Proof.
  intros (X1 & X2 & _) Gt Em D.
  assert (T : forall e s, within d e -> In (KText s) (xe_kids e) -> text_ok s).
  { intros e s W I. unfold text_ok. rewrite X1. apply C75_kept. destruct (document_valid _ _ _ D W) as (_ & V & _). rewrite Forall_forall in V.
    split; [apply chars_iff; exact (V _ I)|]. split; [intros K; congruence|]. intros K. destruct Em as [[E _]|E]; [congruence|].
    destruct (document_plain _ _ _ D E W) as (_ & P & _). rewrite Forall_forall in P. apply has_char_iff. exact (P _ I). }
  assert (A : forall e a, within d e -> In a (xe_attrs e) -> attr_ok (at_value a)).
  { intros e a W I. unfold attr_ok. rewrite X2. apply C75_kept. destruct (document_valid _ _ _ D W) as (V & _). rewrite Forall_forall in V.
    split; [apply chars_iff; exact (V _ I)|]. intros K. destruct Em as [[_ E]|E]; [congruence|].
    destruct (document_plain _ _ _ D E W) as (P & _). rewrite Forall_forall in P. apply has_char_iff. exact (P _ I). }
  assert (G : forall n e, (height e <= n)%nat -> within d e -> tidy e).
  { induction n as [|n IH]; intros e H W; [destruct e; cbn in H; lia|]. constructor; [intros s; now apply T|intros a; now apply A|].
    intros x I. apply IH; [|eapply wi_child; eauto]. pose proof (height_child e x I). lia. }
  apply (G (height d) d); [lia|constructor].
Qed.

(** For the schemas of C25: if a text is read as a value, the value is written as a text that is
    read as the same value. Numeric references ([&#13;], [&#9;]) may be lost when xml-rs does
    not escape them. Missing: as for C25. *)
Theorem C25_text_partial : forall (L : Libs) em gfuel c gs p F k n r id text fuel v,
  xml_are em L -> em_gt em = true -> em_cr em = true /\ em_tab em = true \/ ~ occurs "&#" text ->
  plain_namespaces c -> scalar_laws L -> generated gfuel c gs p -> fixed_ok c gs -> choices_ok c gs ->
  unambiguous_b c gs true F = true -> writable_b c gs k = true -> entry_b c gs k n = true ->
  In n gs -> sc_get c n = Some r -> type_ident n = Ok id ->
  from_text p fuel id text = Some (Ok v) ->
  exists out, (exists N, forall fuel, (N <= fuel)%nat -> to_text em p fuel id v = Ok (Some out))
    /\ exists N, forall fuel, (N <= fuel)%nat -> from_text p fuel id out = Some (Ok v).
Proof.
  intros L em gfuel c gs p F k n r id text fuel v XA Gt Em Pn La G Fx Ch U W En I Gn Ei H. unfold from_text in H.
  destruct (parse_xml text) as [e|] eqn:Px; [|discriminate]. injection H as H. apply parse_document in Px.
  destruct (C25_stable_partial L gfuel c gs p F k n r id e fuel v La G Fx Ch U W En I Gn Ei (text_tidy L em text e XA Gt Em Px) H) as (_ & evs & d & (N & Y) & D & R).
  assert (X : to_xml p N id v = Ok evs) by (apply Y; lia).
  destruct (C75_text L em evs d XA (C75_declarations L gfuel c gs p N id v evs G Pn X) D) as (out & x' & Wt & Po & Ix).
  exists out. split.
  - exists N. intros f Hf. unfold to_text. rewrite (Y f Hf). simpl. now rewrite Wt.
  - destruct (R x' Ix) as (M & Z). exists M. intros f Hf. unfold from_text. rewrite Po. now rewrite (Z f Hf).
Qed.
Print Assumptions C25_text_partial.

(** A text with line ends of Windows, a comment, references, a CDATA section and an element that
    the schema does not have: it is read, and another text is written that is read as the same. *)
Definition odd_text : string :=
  ("<?xml version='1.0'?>" +++ crlf +++ "<o:order currency='EUR' xmlns:o='urn:t'><!-- c -->" +++ crlf +++
   "<o:id>7</o:id><o:item><![CDATA[a]]></o:item><o:item>b</o:item><o:version>1.0</o:version><o:card>x</o:card><o:more>&lt;</o:more></o:order>")%string.
Example C25_text : from_text (module_of ex_order) 40 "Order" odd_text = Some (Ok ex_order_value)
  /\ to_text xml_rs (module_of ex_order) 40 "Order" ex_order_value = Ok (Some order_text) /\ order_text <> odd_text
  /\ ~ occurs "&#" odd_text /\ em_gt xml_rs = true.
Proof.
  split; [by_compute|]. split; [by_compute|]. split; [discriminate|]. split; [|reflexivity]. apply occurs_not. by_compute.
Qed.
