(** * Writer: xsd/src/lib.rs (Context), the events handed to xml-rs, and the
    document an XML parser reads back from them *)
From Verif Require Import Base Libs Xml.

(** xml::writer::XmlEvent, as used by xsd/src/lib.rs:68-107 and the generated code. Names are kept in the
    "prefix:local" form given to [Name::from]. *)
Inductive event :=
| EvStart (name : string) (attrs : list (string * string)) (nss : list (string * string))
| EvEnd
| EvChars (s : string).

(** lib.rs:19-23 [ContextInner]; [in_ns] maps a prefix ("" = none) to a URI. *)
Record inner := mkInner {
  in_name : string;
  in_attrs : list (string * string);
  in_ns : list (string * string)
}.

(** lib.rs:14-17 [Context]: owned, or a mutable borrow of another one's inner
    ([wc_virtual = true]). The model passes the inner by value; whoever created
    the borrow takes the changed inner back when the borrow ends. *)
Record wctx := mkWctx { wc_virtual : bool; wc_inner : inner }.

(** lib.rs:27-33 [Context::new]. *)
Definition ctx_create (name : string) : wctx := mkWctx false (mkInner name [] []).
(** lib.rs:35-40 [Context::wrap]. *)
Definition ctx_wrap (c : wctx) : wctx := mkWctx true (wc_inner c).
Definition ctx_unwrap (c : wctx) (i : inner) : wctx := mkWctx (wc_virtual c) i.

(** lib.rs:42-47 [set_attr]. *)
Definition set_attr (name value : string) (c : wctx) : wctx :=
  mkWctx (wc_virtual c)
    (mkInner (in_name (wc_inner c)) (in_attrs (wc_inner c) ++ [(name, value)]) (in_ns (wc_inner c))).

(** xml-rs [Namespace::put], called by xsd/src/lib.rs:45-66: an existing prefix keeps its URI. *)
Definition ns_put (prefix uri : string) (m : list (string * string)) : list (string * string) :=
  match aget String.eqb prefix m with
  | Some _ => m
  | None => m ++ [(prefix, uri)]
  end.

(** lib.rs:49-58 [set_ns], 60-69 [set_default_ns] (prefix ""). *)
Definition set_ns (prefix uri : string) (c : wctx) : wctx :=
  mkWctx (wc_virtual c)
    (mkInner (in_name (wc_inner c)) (in_attrs (wc_inner c)) (ns_put prefix uri (in_ns (wc_inner c)))).

(** lib.rs:71-94 [write_start_element]. *)
Definition write_start_element (c : wctx) : list event * wctx :=
  if wc_virtual c then ([], c)
  else ([EvStart (in_name (wc_inner c)) (in_attrs (wc_inner c)) (in_ns (wc_inner c))],
        mkWctx false (mkInner (in_name (wc_inner c)) [] [])).

(** lib.rs:96-106 [write_end_element]. *)
Definition write_end_element (c : wctx) : list event :=
  if wc_virtual c then [] else [EvEnd].

(** ** What a parser reads back

    [document evs] is the tree roxmltree builds from the text xml-rs writes for
    [evs] (without the indentation xml-rs inserts between the children of
    elements that contain no text, see [ws_variant] in Run.v), or [None] when it
    rejects the text: unbalanced tags, more or less than one root, text outside
    the root, undeclared prefixes, bad names, duplicate attributes, characters
    not allowed in XML. *)
Section WithLibs.
Context {L : Libs}.

Record frame := mkFrame {
  fr_tag : string;
  fr_ns : option string;
  fr_attrs : list attr;
  fr_scope : list (string * string);
  fr_kids : list (kid xelem)      (* in document order *)
}.

(** The namespace of unprefixed elements. *)
Definition lookup_default (scope : list (string * string)) : option string :=
  match aget String.eqb "" scope with
  | Some uri => if is_empty uri then None else Some uri
  | None => None
  end.

(** Expanded name of an element. *)
Definition expand_elem (scope : list (string * string)) (name : string) : option (string * option string) :=
  match split_colon name with
  | None => if is_ncname name then Some (name, lookup_default scope) else None
  | Some (p, l) =>
      if andb (is_ncname p) (is_ncname l) then
        match aget String.eqb p scope with
        | Some uri => Some (l, Some uri)
        | None => None
        end
      else None
  end.

(** Expanded name of an attribute; "xmlns" would be a declaration. *)
Definition expand_attr (scope : list (string * string)) (name : string) : option (string * option string) :=
  match split_colon name with
  | None => if andb (is_ncname name) (negb (name =?s "xmlns")) then Some (name, None) else None
  | Some (p, l) =>
      if andb (is_ncname p) (andb (is_ncname l) (negb (p =?s "xmlns"))) then
        match aget String.eqb p scope with
        | Some uri => Some (l, Some uri)
        | None => None
        end
      else None
  end.

Fixpoint expand_attrs (scope : list (string * string)) (l : list (string * string)) : option (list attr) :=
  match l with
  | [] => Some []
  | (n, v) :: l' =>
      match expand_attr scope n, xml_attr_back v, expand_attrs scope l' with
      | Some (ln, ns), Some v, Some rest =>
          if existsb (fun a => andb (at_name a =?s ln) (opt_eqb String.eqb (at_ns a) ns)) rest then None
          else Some (mkAttr ln ns v (0%N, 0%N) :: rest)
      | _, _, _ => None
      end
  end.

(** Declarations a parser accepts: prefixes are names, and are not undeclared. *)
Definition decls_ok (nss : list (string * string)) : bool :=
  forallb (fun d => orb (is_empty (fst d)) (andb (is_ncname (fst d)) (negb (is_empty (snd d))))) nss.

Definition open_frame (scope : list (string * string)) (name : string)
  (attrs nss : list (string * string)) : option frame :=
  let scope' := nss ++ scope in
  if decls_ok nss then
    match expand_elem scope' name, expand_attrs scope' attrs with
    | Some (t, ns), Some ats => Some (mkFrame t ns ats scope' [])
    | _, _ => None
    end
  else None.

(** Adjacent character data is one text node, empty character data is none. *)
Fixpoint merge_text (ks : list (kid xelem)) : list (kid xelem) :=
  match ks with
  | [] => []
  | KText s :: ks' =>
      match merge_text ks' with
      | KText s' :: r => KText (s +++ s') :: r
      | r => if is_empty s then r else KText s :: r
      end
  | k :: ks' => k :: merge_text ks'
  end.

(** The texts as a parser reads them. *)
Fixpoint texts_back (ks : list (kid xelem)) : option (list (kid xelem)) :=
  match ks with
  | [] => Some []
  | KText s :: ks' =>
      match xml_text_back s, texts_back ks' with
      | Some s', Some r => Some (KText s' :: r)
      | _, _ => None
      end
  | k :: ks' => option_map (cons k) (texts_back ks')
  end.

(** The finished element. *)
Definition close_frame (f : frame) : option xelem :=
  match texts_back (merge_text (fr_kids f)) with
  | Some ks => Some (XE (fr_tag f) (fr_ns f) (fr_attrs f) [] (0%N, 0%N) ks)
  | None => None
  end.

Definition add_kids (f : frame) (ks : list (kid xelem)) : frame :=
  mkFrame (fr_tag f) (fr_ns f) (fr_attrs f) (fr_scope f) (fr_kids f ++ ks).

Fixpoint build (evs : list event) (stack : list frame) (done : option xelem) : option xelem :=
  match evs with
  | [] => match stack with [] => done | _ => None end
  | EvStart n attrs nss :: evs' =>
      match stack, done with
      | [], Some _ => None
      | [], None => match open_frame [] n attrs nss with
                    | Some f => build evs' [f] None
                    | None => None
                    end
      | p :: _, _ => match open_frame (fr_scope p) n attrs nss with
                     | Some f => build evs' (f :: stack) done
                     | None => None
                     end
      end
  | EvEnd :: evs' =>
      match stack with
      | [] => None
      | f :: stack' =>
          match close_frame f with
          | None => None
          | Some e => match stack' with
                      | [] => build evs' [] (Some e)
                      | p :: st => build evs' (add_kids p [KElem e] :: st) done
                      end
          end
      end
  | EvChars s :: evs' =>
      match stack with
      | [] => None
      | f :: st => build evs' (add_kids f [KText s] :: st) done
      end
  end.

(** The document of a complete event sequence; [None] if it is not one. *)
Definition document (evs : list event) : option xelem := build evs [] None.
End WithLibs.
