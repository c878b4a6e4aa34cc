(** * C77: the texts that are XML documents, and the trees that they are *)
From Verif Require Import Base Libs Xml Writer PropDecode WriterSpec CanonSpec Samples XmlChars XmlRead XmlWrite XmlSpec XmlGrammar GrammarProof5 PropXml.
Local Open Scope N_scope.

(** The reader accepts exactly the texts of the grammar, and gives the tree of the grammar. *)
Theorem C77_reader : forall text x, parse_xml text = Some x <-> XmlDocument text x.
Proof. exact parse_document. Qed.
Print Assumptions C77_reader.

(** A text is one document at most: the grammar is not ambiguous. *)
Theorem C77_unique : forall text x y, XmlDocument text x -> XmlDocument text y -> x = y.
Proof. intros text x y A B. apply parse_document in A, B. congruence. Qed.
Print Assumptions C77_unique.

Theorem C77_rejected : forall text, parse_xml text = None <-> forall x, ~ XmlDocument text x.
Proof.
  intros text. split.
  - intros H x D. apply parse_document in D. congruence.
  - intros H. destruct (parse_xml text) as [x|] eqn:E; [|reflexivity]. apply parse_document in E. now apply H in E.
Qed.
Print Assumptions C77_rejected.

(** C75 with the grammar in the place of the reader. *)
Theorem C77_written : forall (L : Libs) em evs x, xml_are em L -> declarations_ok evs -> document evs = Some x ->
  exists text x', write_xml em evs = Some text /\ XmlDocument text x' /\ indented x x'.
Proof. intros L em evs x XA D H. destruct (C75_text L em evs x XA D H) as (text & x' & W & P & I). exists text, x'. split; [exact W|]. split; [now apply parse_document|exact I]. Qed.
Print Assumptions C77_written.

(** A document with a declaration, comments, a processing instruction, a CDATA section,
    references, line ends of Windows and declarations of namespaces. *)
Definition crlf : string := String cr (String lf "").
Definition sample : string :=
  byte_of 239 +++ byte_of 187 +++ byte_of 191 +++
  "<?xml version='1.0' encoding=""utf-8"" standalone = 'yes' ?>" +++ crlf +++ "<!-- a - b --><?style x=""1""?>" +++
  "<p:a xmlns:p='urn:1' xmlns=""urn:2"" k='&lt;" +++ String tab "" +++ "&#65;&#x42;' p:k = 'v'>" +++ crlf +++
  "<b xmlns=''><![CDATA[<&]]>&amp;x</b ><p:c/><?y?></p:a>" +++ crlf +++ "<!---->".
Definition sample_tree : xelem :=
  XE "a" (Some "urn:1") [mkAttr "k" None "< AB" (127, 147); mkAttr "k" (Some "urn:1") "v" (148, 157)] [(Some "p", "urn:1"); (None, "urn:2")] (92, 214)
    [KText (String lf "");
     KElem (XE "b" None [] [(Some "p", "urn:1"); (None, "")] (160, 197) [KText "<&&x"]);
     KElem (XE "c" (Some "urn:1") [] [(Some "p", "urn:1"); (None, "urn:2")] (197, 203) []);
     KOther "y"].
Example C77_sample : XmlDocument sample sample_tree.
Proof. apply C77_reader. by_compute. Qed.

(** Texts that are no documents, each for one rule. *)
Definition no_documents : list string :=
  [""; "a"; "<a>"; "<a></b>"; "<a/><b/>"; "<a/>x"; "x<a/>"; "<a b='1' b='2'/>"; "<a b=1/>"; "<a b='<'/>"; "<a b='&'/>"; "<a b='1'c='2'/>"; "< a/>"; "<a:b/>";
   "<a x:b='1'/>"; "<a xmlns:p='urn:1' xmlns:q='urn:1' p:k='' q:k=''/>"; "<a xmlns:p=''/>"; "<a xmlns:xmlns='urn:1'/>"; "<a xmlns:xml='urn:1'/>";
   "<a xmlns='http://www.w3.org/2000/xmlns/'/>"; "<a>&b;</a>"; "<a>&#0;</a>"; "<a>&#xD800;</a>"; "<a>]]></a>"; "<a><!-- -- --></a>"; "<a><![CDATA[</a>";
   "<a><?xml x?></a>"; "<a><?XML?></a>"; "<?xml version='1'?><a/>"; "<?xml encoding='utf-8'?><a/>"; "<?xml version='1.0' standalone='maybe'?><a/>";
   "<?xml version='1.0' standalone='no' encoding='utf-8'?><a/>"; " <?xml version='1.0'?><a/>"; "<!DOCTYPE a><a/>"; "<a>" +++ byte_of 1 +++ "</a>";
   "<a>" +++ byte_of 192 +++ byte_of 128 +++ "</a>"; "<1/>"; "<a::b/>"; "<:a/>"]%string.
Example C77_no_documents : Forall (fun t => forall x, ~ XmlDocument t x) no_documents.
Proof.
  apply Forall_forall. intros t I. apply C77_rejected. assert (A : forallb (fun t => match parse_xml t with None => true | Some _ => false end) no_documents = true) by by_compute.
  rewrite forallb_forall in A. specialize (A t I). destruct (parse_xml t); [discriminate A|reflexivity].
Qed.

(** The text that C75_example writes. *)
Example C77_order : exists x, XmlDocument order_text x.
Proof. destruct (parse_xml order_text) as [x|] eqn:E; [exists x; now apply C77_reader|]. exfalso. assert (X : match parse_xml order_text with Some _ => true | None => false end = true) by by_compute. rewrite E in X. discriminate X. Qed.
