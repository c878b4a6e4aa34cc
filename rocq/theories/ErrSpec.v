(** * ErrSpec: what an error of schema parsing says about the document

    [tells d e] is the statement made by the message of [e] (error.rs:3-54,
    node.rs:11-48), read as a statement about the schema document [d]: the element
    or attribute the error points at is there, and what is said to be missing,
    unknown or unreadable about it is so. Nothing here mentions a function of the
    parser; [the_attr], [means] and [builtins] are those of DeclSpec.v. *)
From Verif Require Import Base Libs Xml Ast XsdNode Parse TextSpec ParseSpec DeclSpec.

(** The declarations of a schema, the particles of a group, the facets of a restriction. *)
Definition declarations : list string := ["element"; "complexType"; "simpleType"].
Definition particle_tags : list string := ["element"; "sequence"; "annotation"].
Definition integer_facets : list string := ["length"; "minLength"; "maxLength"; "fractionDigits"; "totalDigits"].
Definition decimal_facets : list string := ["minInclusive"; "maxInclusive"].
Definition facet_tags : list string := ["enumeration"; "pattern"] ++ integer_facets ++ decimal_facets.

(** The children an element must have. *)
Definition required_children : list (string * string) :=
  [("simpleType", "restriction"); ("simpleContent", "extension"); ("complexContent", "extension")].
(** [v] is not the text of a number up to [max]. *)
Definition no_number (v : string) (max : N) : Prop := forall n, unsigned_text v n -> (max < n)%N.

Section Tells.
Context {L : Libs}.
Variable d : xelem.

(** The attributes an element must have. *)
Inductive needs (e : xelem) : string -> Prop :=
| nd_declaration : In e (xsd_children d) -> ~ is_load e -> needs e "name"
| nd_load : In e (xsd_children d) -> is_load e -> needs e "schemaLocation"
| nd_element : xe_tag e = "element" -> no_attr e "ref" -> needs e "name"
| nd_attribute : xe_tag e = "attribute" -> needs e "name"
| nd_type : xe_tag e = "attribute" -> (forall x, In x (xsd_children e) -> xe_tag x <> "simpleType") -> needs e "type"
| nd_base : In (xe_tag e) ["restriction"; "extension"] -> needs e "base"
| nd_value : In (xe_tag e) facet_tags -> needs e "value".

Inductive tells : xsd_err -> Prop :=
(* node.rs:13 "Missing required element {name} ({namespace:?})" *)
| te_no_child e t : within d e -> In (xe_tag e, t) required_children -> (forall x, In x (xsd_children e) -> xe_tag x <> t) ->
    tells (XeNode (NeMissingElement t (Some NS_XSD) (xe_range e)))
(* "Missing required attribute `{name}` on element `{element}`" *)
| te_no_attr e n : within d e -> needs e n -> no_attr e n ->
    tells (XeNode (NeMissingAttribute n (xe_tag e) (xe_range e)))
(* "Expected element {name} to contain text content" *)
| te_no_text e : within d e -> xe_tag e = "documentation" -> (forall s ks, xe_kids e <> KText s :: ks) ->
    tells (XeNode (NeTextExpected (xe_tag e) (xe_range e)))
(* "Encountered unsupported attribute `{name}` in `{element}`" *)
| te_attr e n a : within d e -> the_attr e n a -> at_ns a = None ->
    tells (XeNode (NeUnsupportedAttribute n (xe_tag e) (at_range a)))
(* "Encountered unsupported element `{name}` in `{parent}`" *)
| te_child e x : within d e -> In x (xsd_children e) ->
    tells (XeNode (NeUnsupportedElement (xe_tag x) (xe_tag e) (xe_range x)))
(* error.rs:12 "Encountered unsupported element `{name}` at that location": the root, a declaration, a particle, a facet *)
| te_root : (xe_tag d <> "schema" \/ xe_ns d <> Some NS_XSD) ->
    tells (XeUnsupportedElement (xe_tag d) (xe_range d))
| te_declaration x : In x (xsd_children d) -> ~ In (xe_tag x) declarations ->
    tells (XeUnsupportedElement (xe_tag x) (xe_range x))
| te_particle e x : within d e -> In (xe_tag e) ["sequence"; "all"; "choice"] ->
    In x (xsd_children e) -> ~ In (xe_tag x) particle_tags ->
    (xe_tag x = "choice" -> xe_tag e = "choice") ->
    tells (XeUnsupportedElement (xe_tag x) (xe_range x))
| te_facet e x : within d e -> xe_tag e = "restriction" ->
    In x (xsd_children e) -> ~ In (xe_tag x) facet_tags ->
    tells (XeUnsupportedElement (xe_tag x) (xe_range x))
(* "Encountered unsupported value `{value}` for attribute `{name}` in `{element}`" *)
| te_restriction e a : within d e -> xe_tag e = "restriction" -> the_attr e "base" a ->
    ((exists uri l, means d (at_value a) (MName uri l)) \/ exists l, means d (at_value a) (MBare l)) ->
    tells (XeUnsupportedAttributeValue "base" (at_value a) (xe_tag e) (at_range a))
| te_extension e a lit : within d e -> xe_tag e = "extension" -> the_attr e "base" a ->
    means d (at_value a) (MBuiltin lit) ->
    tells (XeUnsupportedAttributeValue "base" (at_value a) (xe_tag e) (at_range a))
| te_ref e a lit : within d e -> xe_tag e = "element" -> the_attr e "ref" a ->
    means d (at_value a) (MBuiltin lit) ->
    tells (XeUnsupportedAttributeValue "ref" (at_value a) (xe_tag e) (at_range a))
| te_use e a : within d e -> xe_tag e = "attribute" -> the_attr e "use" a ->
    ~ In (at_value a) ["required"; "optional"; "prohibited"] ->
    tells (XeUnsupportedAttributeValue "use" (at_value a) (xe_tag e) (xe_range e))
| te_mixed e a : within d e -> xe_tag e = "complexType" -> the_attr e "mixed" a -> at_value a = "true" ->
    tells (XeUnsupportedAttributeValue "mixed" (at_value a) (xe_tag e) (xe_range e))
(* "Encountered unexpected attribute `{name}` in `{element}`": a default for what is required *)
| te_default e a u : within d e -> xe_tag e = "attribute" -> the_attr e "default" a ->
    the_attr e "use" u -> at_value u = "required" ->
    tells (XeUnexpectedAttribute "default" (xe_tag e) (xe_range e))
(* "Missing element `{name}` in `{parent}`" *)
| te_no_type e : within d e -> xe_tag e = "element" -> no_attr e "type" ->
    (forall x, In x (xsd_children e) -> ~ In (xe_tag x) ["simpleType"; "complexType"]) ->
    tells (XeMissingElement "simpleType|complexType" (xe_tag e) (xe_range e))
(* "Missing namespace for `{prefix}`", "Unsupported XSD type {name}" *)
| te_prefix e n a p : within d e -> In n ["type"; "base"; "ref"] -> the_attr e n a ->
    means d (at_value a) (MUnbound p) -> tells (XeMissingNamespace p (at_range a))
| te_type e n a l : within d e -> In n ["type"; "base"; "ref"] -> the_attr e n a ->
    means d (at_value a) (MUnsupported l) -> tells (XeUnsupportedType l (at_range a))
(* "Failed to parse int value", "Failed to parse decimal value" *)
| te_min e a : within d e -> the_attr e "minOccurs" a -> no_number (at_value a) u32_max ->
    tells (XeParseInt (at_range a))
| te_max e a : within d e -> the_attr e "maxOccurs" a -> at_value a <> "unbounded" ->
    no_number (at_value a) u32_max -> tells (XeParseInt (at_range a))
| te_integer e a : within d e -> In (xe_tag e) integer_facets -> the_attr e "value" a ->
    no_number (at_value a) u64_max -> tells (XeParseInt (at_range a))
| te_decimal e a : within d e -> In (xe_tag e) decimal_facets -> the_attr e "value" a ->
    dec_from_str (at_value a) = None -> tells (XeParseDecimal (at_range a)).
End Tells.

(** An error of a run over several files: the file it names is as it says. *)
Definition tells_files {L : Libs} (f : fs) (e : schema_err) : Prop :=
  match e with
  | SeXsd x p => (x = XeXml /\ fs_read f p = Some None)
                 \/ exists d, fs_read f p = Some (Some d) /\ tells d x
  | SeOpen p => fs_read f p = None
  | SeNotFound _ => False
  end.
