(** * XmlSpec: what the text of a document has to keep

    Specification for PropXml.v. *)
From Verif Require Import Base Libs Xml Writer XmlChars XmlRead.

(** The functions of [Libs] that stand for reading back what was written are those of the
    models of the two libraries. *)
Definition xml_are (em : emitter) (L : Libs) : Prop :=
  (forall s, @xml_text_back L s = text_back em s) /\ (forall s, @xml_attr_back L s = attr_back em s) /\ (forall s, @is_ncname L s = ncname s).

(** A name of a namespace that every version writes as it is. *)
Definition plain_char (c : ascii) : bool :=
  negb (Ascii.eqb c "<" || Ascii.eqb c "&" || Ascii.eqb c """" || Ascii.eqb c tab || Ascii.eqb c lf || Ascii.eqb c cr)%bool.
Fixpoint plain_chars (s : string) : bool := match s with "" => true | String c r => plain_char c && plain_chars r end.
Definition plain_uri (u : string) : Prop := xml_chars u = true /\ plain_chars u = true.
(** Reserved names are used for what they are reserved. *)
Definition unreserved (p u : string) : Prop := p <> "xmlns" /\ u <> NS_XMLNS /\ (p = "xml" <-> u = NS_XML).
(** Each element declares a prefix once, and all that declare it mean the same. *)
Definition declares (evs : list event) (p u : string) : Prop := exists n ats nss, In (EvStart n ats nss) evs /\ In (p, u) nss.
Definition declarations_ok (evs : list event) : Prop :=
  (forall n ats nss, In (EvStart n ats nss) evs -> NoDup (map fst nss))
  /\ (forall p u, declares evs p u -> plain_uri u /\ unreserved p u)
  /\ (forall p u u', declares evs p u -> declares evs p u' -> u = u').
