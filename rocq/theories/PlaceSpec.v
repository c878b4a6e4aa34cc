(** * PlaceSpec: where the elements and attributes of a document stand in its text (C78) *)
From Verif Require Import Base Xml ParseSpec Macro XmlRead XmlGrammar.
Local Open Scope N_scope.

(** [src] is what stands in [text] from byte [fst r] up to byte [snd r]. *)
Definition cut (text : string) (r : range) (src : string) : Prop :=
  exists a b, text = a +++ src +++ b /\ len a = fst r /\ len (a +++ src) = snd r.
(** [src], starting at [pos], is the source of the element [e]: XML of the grammar that
    means [e], in the place of declarations of namespaces [sc]. *)
Definition element_source (pos : N) (e : xelem) (src : string) : Prop :=
  exists sc ps, pieces pos src ps /\ element sc ps e.
(** [src] is the source of the attribute [a]: name, equals sign, quoted value. *)
Definition attribute_source (a : attr) (src : string) : Prop :=
  exists n p e q, src = n +++ e +++ q /\ QName n (p, at_name a) /\ EqSign e /\ AttValue q (at_value a).

(** Texts of characters, Rust's [String] (schema.rs:31 [read_to_string]). *)
Inductive utf8_text : string -> Prop :=
| ut_nil : utf8_text ""
| ut_cons c u s : utf8 c u -> utf8_text s -> utf8_text (u +++ s).
(** Disks of texts, read by the reader of XmlRead.v. *)
Definition text_files (k : disk) : Prop :=
  (forall p text, dk_text k p = Some text -> utf8_text text) /\ forall text, dk_xml k text = parse_xml text.
