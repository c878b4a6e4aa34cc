(** * XsdNode: xsd-internal/src/xsd/node.rs and error.rs *)
From Verif Require Import Base Libs Xml.

Definition NS_XSD : string := "http://www.w3.org/2001/XMLSchema". (* context.rs:38 *)

(** node.rs:11-48 [NodeError] ([ElementNotFound] is only raised by the unused
    [try_find], [MissingNamespace] by unused look-ups; both are left out). *)
Inductive node_err :=
| NeMissingElement (name : string) (ns : option string) (r : range)
| NeMissingAttribute (name element : string) (r : range)
| NeTextExpected (name : string) (r : range)
| NeUnsupportedAttribute (name element : string) (r : range)
| NeUnsupportedElement (name parent : string) (r : range).

(** error.rs:3-54 [XsdError]. The payload of ParseInt/ParseDecimal (the library
    error) is dropped. *)
Inductive xsd_err :=
| XeXml
| XeNode (e : node_err)
| XeUnsupportedElement (name : string) (r : range)
| XeUnsupportedAttributeValue (name value element : string) (r : range)
| XeUnexpectedAttribute (name element : string) (r : range)
| XeMissingElement (name parent : string) (r : range)
| XeMissingNamespace (prefix : string) (r : range)
| XeParseInt (r : range)
| XeParseDecimal (r : range)
| XeUnsupportedType (name : string) (r : range).

(** node.rs:238-251 [NodeError::range]. *)
Definition node_err_range (e : node_err) : range :=
  match e with
  | NeMissingElement _ _ r | NeMissingAttribute _ _ r | NeTextExpected _ r
  | NeUnsupportedAttribute _ _ r | NeUnsupportedElement _ _ r => r
  end.

(** error.rs:56-74 [XsdError::range]. *)
Definition xsd_err_range (e : xsd_err) : option range :=
  match e with
  | XeXml => None
  | XeNode e => Some (node_err_range e)
  | XeUnsupportedElement _ r | XeUnsupportedAttributeValue _ _ _ r | XeUnexpectedAttribute _ _ r
  | XeMissingElement _ _ r | XeMissingNamespace _ r | XeParseInt r | XeParseDecimal r
  | XeUnsupportedType _ r => Some r
  end.

(** node.rs:51-62 [Node]: the element plus the [visited] cells of its attributes
    (the set of local names looked up so far). *)
Record node := mkNode { n_elem : xelem; n_visited : list string }.

(** node.rs:64-87 [From<roxmltree::Node>]. *)
Definition node_of (e : xelem) : node := mkNode e [].

Definition n_name (n : node) : string := xe_tag (n_elem n).        (* node.rs:90-93 *)
Definition n_range (n : node) : range := xe_range (n_elem n).      (* node.rs:104-106 *)

(** The attribute table of node.rs:67-80: keyed by local name, a later attribute
    replaces an earlier one with the same local name. *)
Fixpoint attr_lookup (name : string) (attrs : list attr) : option attr :=
  match attrs with
  | [] => None
  | a :: attrs' => match attr_lookup name attrs' with
                   | Some b => Some b
                   | None => if at_name a =?s name then Some a else None
                   end
  end.

(** node.rs:142-146 [attribute]: look up and mark visited. *)
Definition n_attribute (n : node) (name : string) : option attr * node :=
  (attr_lookup name (xe_attrs (n_elem n)), mkNode (n_elem n) (name :: n_visited n)).

(** node.rs:148-155 [try_attribute]. *)
Definition n_try_attribute (n : node) (name : string) : res xsd_err (attr * node) :=
  match n_attribute n name with
  | (Some a, n') => Ok (a, n')
  | (None, _) => Err (XeNode (NeMissingAttribute name (n_name n) (n_range n)))
  end.

(** node.rs:174-187 [prevent_unvisited_attributes]. The Rust code iterates a hash
    map, so which of several offending attributes is reported is unspecified;
    the model reports the first in document order. An attribute shadowed by a
    later one of the same local name is not in the map. *)
Fixpoint unvisited (all : list attr) (visited : list string) (attrs : list attr) : option attr :=
  match attrs with
  | [] => None
  | a :: attrs' =>
      match attr_lookup (at_name a) all with
      | Some b =>
          if andb (opt_eqb String.eqb (at_ns b) None) (negb (mem String.eqb (at_name b) visited))
          then Some b
          else unvisited all visited attrs'
      | None => unvisited all visited attrs'
      end
  end.

Definition prevent_unvisited_attributes (n : node) : res xsd_err unit :=
  match unvisited (xe_attrs (n_elem n)) (n_visited n) (xe_attrs (n_elem n)) with
  | Some a => Err (XeNode (NeUnsupportedAttribute (at_name a) (n_name n) (at_range a)))
  | None => Ok tt
  end.

(** node.rs:108-120 [child]. *)
Definition n_child (n : node) (name : string) (ns : option string) : option node :=
  option_map node_of (find (has_name name ns) (xe_children (n_elem n))).

(** node.rs:135-140, 273-276, 284-316 [children().namespace(..).iter()] / [collect()] (332-337). *)
Definition n_children (n : node) (ns : string) : list node :=
  map node_of (filter (fun c => opt_eqb String.eqb (xe_ns c) (Some ns)) (xe_children (n_elem n))).

(** node.rs:346-358 [Children::remove]. *)
Fixpoint c_remove (name : string) (ns : option string) (cs : list node) : option node * list node :=
  match cs with
  | [] => (None, [])
  | c :: cs' =>
      if has_name name ns (n_elem c) then (Some c, cs')
      else let '(r, cs'') := c_remove name ns cs' in (r, c :: cs'')
  end.

(** node.rs:360-371 [Children::try_remove]. *)
Definition c_try_remove (parent : node) (name : string) (ns : option string) (cs : list node)
  : res xsd_err (node * list node) :=
  match c_remove name ns cs with
  | (Some c, cs') => Ok (c, cs')
  | (None, _) => Err (XeNode (NeMissingElement name ns (n_range parent)))
  end.

(** node.rs:373-383 [prevent_unvisited_children]. *)
Definition prevent_unvisited_children (parent : node) (cs : list node) : res xsd_err unit :=
  match cs with
  | [] => Ok tt
  | c :: _ => Err (XeNode (NeUnsupportedElement (n_name c) (n_name parent) (n_range c)))
  end.

(** node.rs:157-172 [text], [try_text]: only a first child that is text counts. *)
Definition n_try_text (n : node) : res xsd_err string :=
  match xe_kids (n_elem n) with
  | KText s :: _ => Ok s
  | _ => Err (XeNode (NeTextExpected (n_name n) (n_range n)))
  end.
