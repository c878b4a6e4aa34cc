(** * C78: schema files as texts: the places of elements and attributes, and what is true of all documents *)
From Verif Require Import Base Libs Xml Ast XsdNode Parse ParseSpec DeclSpec ErrSpec Macro MacroSpec Message MessageSpec XmlChars XmlRead XmlGrammar
  PlaceSpec PlaceProof PropDecode PropMacro Samples PropMessage PropErr PropGrammar GrammarProof1 GrammarProof5.
Local Open Scope N_scope.

(** The range of an element is that of its source: the part of the text that is the element ... *)
Theorem C78_element : forall text d e, XmlDocument text d -> within d e ->
  exists src, cut text (xe_range e) src /\ element_source (fst (xe_range e)) e src.
Proof. exact element_cut. Qed.
Print Assumptions C78_element.
(** ... and the range of an attribute that of its name, equals sign and value, inside the tag. *)
Theorem C78_attribute : forall text d e a, XmlDocument text d -> within d e -> In a (xe_attrs e) ->
  exists src, cut text (at_range a) src /\ attribute_source a src
  /\ fst (xe_range e) < fst (at_range a) /\ snd (at_range a) < snd (xe_range e).
Proof. exact attr_place. Qed.
Print Assumptions C78_attribute.
Theorem C78_nested : forall text d e c, XmlDocument text d -> within d e -> In c (xe_children e) ->
  fst (xe_range e) < fst (xe_range c) /\ snd (xe_range c) < snd (xe_range e).
Proof. exact child_place. Qed.
Print Assumptions C78_nested.
(** Names are names without colons, no two attributes of an element have the same name, no
    prefix is declared twice or against the rules for reserved prefixes, and all texts are
    of characters of XML. *)
Theorem C78_document : forall text d e, XmlDocument text d -> within d e ->
  NCName (xe_tag e) /\ (forall a, In a (xe_attrs e) -> NCName (at_name a) /\ exists l, text_of l (at_value a))
  /\ NoDup (map (fun a => (at_name a, at_ns a)) (xe_attrs e))
  /\ NoDup (map fst (xe_nss e)) /\ Forall binding_ok (xe_nss e)
  /\ (forall p u, In (p, u) (xe_nss e) -> exists l, text_of l u)
  /\ (forall s, In (KText s) (xe_kids e) \/ In (KOther s) (xe_kids e) -> exists l, text_of l s).
Proof.
  intros text d e D W. destruct (element_place _ _ _ D W) as (a & src & b & sc & ps & _ & P & E & _).
  destruct (element_names _ _ _ _ _ E P) as (N1 & N2 & N3). destruct (document_scope _ _ _ D W) as [S1 S2].
  destruct (document_valid _ _ _ D W) as (V1 & V2 & V3). rewrite Forall_forall in N2, V1, V2, V3.
  split; [exact N1|]. split; [intros x I; split; [exact (N2 x I)|exact (V1 x I)]|]. split; [exact N3|]. split; [exact S1|]. split; [exact S2|].
  split; [intros p u I; exact (V3 _ I)|]. intros s [I|I]; exact (V2 _ I).
Qed.
Print Assumptions C78_document.

(** The conditions of C31, C38, C59 and C68 on the files hold of texts. *)
Theorem C78_files : forall k, text_files k ->
  texts_sound k /\ ranges_sound k /\ files_bind_once (fs_of k)
  /\ forall text d, dk_xml k text = Some d -> xml_names d.
Proof.
  intros k T. split; [now apply files_sound|]. split; [now apply files_ranges|]. split; [now apply files_once|].
  intros text d E. rewrite (proj2 T) in E. apply parse_document in E. now apply (document_xml_names text).
Qed.
Print Assumptions C78_files.

(** What stands at a place of the text: an element or an attribute of the document. *)
Definition stands (text : string) (d : xelem) (row col : nat) (src : string) : Prop :=
  exists pre post, text = pre +++ src +++ post /\ located text (String.length pre) row col
  /\ exists e, within d e /\ (element_source (len pre) e src \/ exists a, In a (xe_attrs e) /\ attribute_source a src).
Lemma points_stands text d r row col : XmlDocument text d -> points_into d r -> located text (N.to_nat (fst r)) row col ->
  exists src, stands text d row col src.
Proof.
  intros D P Lo. destruct (document_range _ _ _ D P) as (src & (a & b & E & La & _) & e & W & K). exists src, a, b. split; [exact E|].
  rewrite <- La in Lo. rewrite to_nat_len in Lo. split; [exact Lo|]. exists e. split; [exact W|]. destruct K as [[_ K]|(x & I & _ & K)].
  - left. now rewrite La.
  - right. eauto.
Qed.
(** The position of an error in a schema file is the place of an element or attribute that
    the message is about, unless the file is not XML. *)
Theorem C78_position : forall (L : Libs) k fuel path x q, text_files k ->
  parse_file fuel (fs_of k) path = Err (SeXsd x q) -> exists text, dk_text k q = Some text
  /\ ( ((forall d, ~ XmlDocument text d) /\ x = XeXml)
     \/ exists d row col src, XmlDocument text d /\ tells d x /\ error_position k (SeXsd x q) = Some (Some (row, col)) /\ stands text d row col src ).
Proof.
  intros L k fuel path x q T E. destruct (C78_files k T) as (K1 & K2 & K3 & _).
  pose proof (C59_position L k fuel path _ K1 K2 E) as (text & Et & M). exists text. split; [exact Et|].
  destruct (dk_xml k text) as [d|] eqn:Ex.
  - right. destruct M as (r & row & col & Er & Pi & Lo & Ep). assert (D : XmlDocument text d) by (rewrite (proj2 T) in Ex; now apply parse_document).
    destruct (points_stands _ _ _ _ _ D Pi Lo) as (src & S). exists d, row, col, src. split; [exact D|]. split; [|auto].
    pose proof (C67_files L fuel (fs_of k) path _ K3 E) as [[_ Z]|(d' & Z & Q)]; cbn in Z; rewrite Et, Ex in Z; [discriminate|].
    injection Z as <-. exact Q.
  - left. split; [|tauto]. rewrite (proj2 T) in Ex. now apply C77_rejected.
Qed.
Print Assumptions C78_position.
(** C68 for texts: the message is right ... *)
Theorem C78_message : forall (L : Libs) t k fuel path e m row col file txt, text_files k ->
  (forall q, dk_text k q <> None -> file_like q) -> file_like file ->
  parse_file fuel (fs_of k) path = Err e -> schema_message t k e = Some m ->
  m = ("Error on line " +++ show_nat row +++ " (offset " +++ show_nat col +++ " in " +++ file +++ "): " +++ txt)%string ->
  exists text, dk_text k file = Some text
  /\ ( ((forall d, ~ XmlDocument text d) /\ txt = ("XML parsing error: " +++ lt_xml t text)%string)
     \/ exists d x src, XmlDocument text d /\ txt = xsd_text "" x /\ tells d x /\ stands text d row col src ).
Proof.
  intros L t k fuel path e m row col file txt T F Ff E M Em. destruct (C78_files k T) as (K1 & K2 & K3 & _).
  destruct (C68_true L t k fuel path e m row col file txt K1 K2 K3 F Ff E M Em) as (text & Et & H). exists text. split; [exact Et|].
  destruct (dk_xml k text) as [d|] eqn:Ex.
  - right. destruct H as (x & r & Tx & Te & Er & Pi & Lo). assert (D : XmlDocument text d) by (rewrite (proj2 T) in Ex; now apply parse_document).
    destruct (points_stands _ _ _ _ _ D Pi Lo) as (src & S). exists d, x, src. auto.
  - left. split; [rewrite (proj2 T) in Ex; now apply C77_rejected|tauto].
Qed.
Print Assumptions C78_message.
(** ... and says which error it is, if file names have no parentheses and colons. *)
Theorem C78_readable : forall (L : Libs) k fuel path e, text_files k -> (forall q, dk_text k q <> None -> file_like q) ->
  parse_file fuel (fs_of k) path = Err e -> (forall q, e = SeOpen q -> file_like q) -> readable e.
Proof.
  intros L k fuel path e T F E O. destruct (C78_files k T) as (_ & _ & K3 & K4). pose proof (C67_files L fuel (fs_of k) path e K3 E) as H.
  destruct e as [x q|q|n]; [|now apply O|exact I]. cbn in H. destruct H as [[-> H]|(d & H & Te)].
  - split; [constructor|]. apply F. intros Z. now rewrite Z in H.
  - destruct (dk_text k q) as [text|] eqn:Et; [|discriminate]. injection H as H. split; [|apply F; congruence].
    exact (C68_names L d x (K4 text d H) Te).
Qed.
Print Assumptions C78_readable.

(** A schema with an error after a letter of two bytes: the column counts characters. *)
Definition bad_xsd : string :=
  ("<xs:schema xmlns:xs='http://www.w3.org/2001/XMLSchema'>" +++ MacroSpec.newline +++
   "  <xs:element name='" +++ byte_of 195 +++ byte_of 169 +++ "t' type='u:x'/>" +++ MacroSpec.newline +++ "</xs:schema>")%string.
Definition bad_disk : disk := mkDisk (fun path => if path =?s "a.xsd" then Some bad_xsd else None) parse_xml
  (fun _ => (1, 1)%nat) (fun a b => (a +++ "/" +++ b)%string) (fun path => path).
Lemma text_utf8 l s : text_of l s -> utf8_text s.
Proof. induction 1 as [|c l u s C U H IH]; [constructor|]. now apply (ut_cons c u s). Qed.
Lemma bad_files : text_files bad_disk.
Proof.
  split; [|reflexivity]. intros p text E. unfold bad_disk, dk_text in E. destruct (p =?s "a.xsd"); [|discriminate]. injection E as <-.
  assert (H : exists l, text_of l bad_xsd) by (apply chars_iff; by_compute). destruct H as [l H]. exact (text_utf8 l _ H).
Qed.
Example C78_bad : exists x text d src, parse_file (L:=ascii_libs) 40 (fs_of bad_disk) "a.xsd" = Err (SeXsd x "a.xsd")
  /\ dk_text bad_disk "a.xsd" = Some text /\ XmlDocument text d
  /\ schema_message (mkTexts (fun _ => "") (fun _ => "")) bad_disk (SeXsd x "a.xsd")
     = Some "Error on line 2 (offset 25 in a.xsd): Missing namespace for `u`"
  /\ src = "type='u:x'" /\ stands text d 2 25 src.
Proof.
  eexists _, bad_xsd, _, "type='u:x'". split; [by_compute|]. split; [reflexivity|]. split; [apply C77_reader; by_compute|]. split; [by_compute|]. split; [reflexivity|].
  eexists ("<xs:schema xmlns:xs='http://www.w3.org/2001/XMLSchema'>" +++ MacroSpec.newline +++ "  <xs:element name='" +++ byte_of 195 +++ byte_of 169 +++ "t' ")%string, _.
  split; [by_compute|]. split.
  - eapply (loc _ _ _ _ ["<xs:schema xmlns:xs='http://www.w3.org/2001/XMLSchema'>"%string] ("  <xs:element name='" +++ byte_of 195 +++ byte_of 169 +++ "t' ")%string ("type='u:x'/>" +++ MacroSpec.newline +++ "</xs:schema>")); try (by_compute).
    + repeat constructor; intros I; vm_compute in I; repeat (destruct I as [I|I]; [discriminate|]); exact I.
    + intros I; vm_compute in I; repeat (destruct I as [I|I]; [discriminate|]); exact I.
  - eexists. split; [eapply wi_child; [apply wi_root|]; cbn; left; reflexivity|]. right. eexists. split; [cbn; right; left; reflexivity|].
    exists "type", "", "=", "'u:x'". split; [reflexivity|]. split; [|split].
    + constructor. apply ncname_iff. reflexivity.
    + exists "", "". repeat split; constructor.
    + exists "'"%char, "u:x". split; [now left|]. split; [reflexivity|].
      repeat (apply a_char; [intros K; vm_compute in K; repeat (destruct K as [K|K]; [discriminate|]); exact K|intros K; vm_compute in K; repeat (destruct K as [K|K]; [discriminate|]); exact K|]). constructor.
Qed.
