(** * MessageSpec: when a text says which error it is *)
From Verif Require Import Base Libs Xml Ast XsdNode Parse Decode ParseSpec.

(** [s] has none of the characters of [cs]. *)
Definition free_of (cs : list ascii) (s : string) : Prop :=
  forall c, In c cs -> ~ In c (list_ascii_of_string s).
(** Names of elements and attributes: no spaces, no backticks. (XML names have neither.) *)
Definition name_like (s : string) : Prop := free_of [" "%char; "`"%char] s.
Definition file_like (s : string) : Prop := free_of [")"%char; ":"%char] s.

(** The names in an error, without the values of attributes. *)
Definition node_names (e : node_err) : list string :=
  match e with
  | NeMissingElement n _ _ => [n]
  | NeMissingAttribute n el _ => [n; el]
  | NeTextExpected n _ => [n]
  | NeUnsupportedAttribute n el _ => [n; el]
  | NeUnsupportedElement n p _ => [n; p]
  end.
Definition err_names (e : xsd_err) : list string :=
  match e with
  | XeNode e => node_names e
  | XeUnsupportedElement n _ => [n]
  | XeUnsupportedAttributeValue n _ el _ => [n; el]
  | XeUnexpectedAttribute n el _ => [n; el]
  | XeMissingElement n p _ => [n; p]
  | _ => []
  end.

(** The same error but for the source range. *)
Definition same_node (a b : node_err) : Prop :=
  match a, b with
  | NeMissingElement n ns _, NeMissingElement n' ns' _ => n = n' /\ ns = ns'
  | NeMissingAttribute n e _, NeMissingAttribute n' e' _ => n = n' /\ e = e'
  | NeTextExpected n _, NeTextExpected n' _ => n = n'
  | NeUnsupportedAttribute n e _, NeUnsupportedAttribute n' e' _ => n = n' /\ e = e'
  | NeUnsupportedElement n e _, NeUnsupportedElement n' e' _ => n = n' /\ e = e'
  | _, _ => False
  end.
Definition same_err (a b : xsd_err) : Prop :=
  match a, b with
  | XeXml, XeXml => True
  | XeNode a, XeNode b => same_node a b
  | XeUnsupportedElement n _, XeUnsupportedElement n' _ => n = n'
  | XeUnsupportedAttributeValue n v e _, XeUnsupportedAttributeValue n' v' e' _ => n = n' /\ v = v' /\ e = e'
  | XeUnexpectedAttribute n e _, XeUnexpectedAttribute n' e' _ => n = n' /\ e = e'
  | XeMissingElement n e _, XeMissingElement n' e' _ => n = n' /\ e = e'
  | XeMissingNamespace p _, XeMissingNamespace p' _ => p = p'
  | XeParseInt _, XeParseInt _ => True
  | XeParseDecimal _, XeParseDecimal _ => True
  | XeUnsupportedType n _, XeUnsupportedType n' _ => n = n'
  | _, _ => False
  end.
Definition same_schema_err (a b : schema_err) : Prop :=
  match a, b with
  | SeXsd x f, SeXsd y g => same_err x y /\ f = g
  | SeOpen f, SeOpen g => f = g
  | SeNotFound n, SeNotFound m => n = m
  | _, _ => False
  end.
Definition readable (e : schema_err) : Prop :=
  match e with
  | SeXsd x f => Forall name_like (err_names x) /\ file_like f
  | SeOpen f => file_like f
  | SeNotFound _ => True
  end.

(** Decoding: the names come from the schema, the values from the document. *)
Definition readable_fe (e : from_xml_err) : Prop :=
  match e with
  | FeMissingElement n _ => name_like n
  | FeParseType ty v => name_like ty /\ free_of [":"%char] v
  | FeFixedMismatch e _ => free_of ["`"%char] e
  | _ => True
  end.

(** Elements and attributes of the document have names of XML. *)
Definition xml_names (d : xelem) : Prop :=
  forall e, within d e -> name_like (xe_tag e) /\ forall a, In a (xe_attrs e) -> name_like (at_name a).
