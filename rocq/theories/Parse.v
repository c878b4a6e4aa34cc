(** * Parse: xsd-internal/src/xsd/{context,schema}.rs and xsd/parse/*.rs

    [&mut Context] becomes a state passed through the monad [P]. The recursive
    descent is on explicit fuel ([OutOfFuel] when exhausted). *)
From Verif Require Import Base Libs Xml Ast XsdNode.

(** context.rs:21-27 [SharedContext]; the dependency sets are lists without duplicates. *)
Record shared_ctx := mkShared {
  sh_namespaces : namespaces;
  sh_dependencies : list (name * list name)
}.
Definition shared_default : shared_ctx := mkShared namespaces_default [].

(** context.rs:12-19 [Context]. *)
Record ctx := mkCtx {
  cx_roots : list (name * root);
  cx_default_ns : option string;
  cx_target : namespace;
  cx_doc_nss : list (string * string);
  cx_qualified : bool;
  cx_shared : shared_ctx
}.

Definition P (A : Type) := ctx -> res xsd_err (A * ctx).
Definition pret {A} (a : A) : P A := fun c => Ok (a, c).
Definition pbind {A B} (m : P A) (k : A -> P B) : P B :=
  fun c => match m c with
           | Ok (a, c') => k a c'
           | Err e => Err e
           | Panic w => Panic w
           | OutOfFuel => OutOfFuel
           end.
Definition plift {A} (m : res xsd_err A) : P A :=
  fun c => match m with
           | Ok a => Ok (a, c)
           | Err e => Err e
           | Panic w => Panic w
           | OutOfFuel => OutOfFuel
           end.
Definition perr {A} (e : xsd_err) : P A := fun _ => Err e.
Definition pget : P ctx := fun c => Ok (c, c).
Definition pmod (f : ctx -> ctx) : P unit := fun c => Ok (tt, f c).
Notation "x <== m ;; k" := (pbind m (fun x => k))
  (at level 61, m at next level, right associativity).
Notation "' p <== m ;; k" := (pbind m (fun x => match x with p => k end))
  (at level 61, p pattern, m at next level, right associativity).
Notation "m ;== k" := (pbind m (fun _ => k)) (at level 61, right associativity).

(** Loop of the form [for child in .. { if let Some(x) = body(child)? { v.push(x) } }],
    as in sequence.rs:23, choice.rs:21, complex_type.rs:120, complex_content.rs:79,
    simple_content.rs:33. *)
Fixpoint pcollect {A B} (f : A -> P (option B)) (l : list A) : P (list B) :=
  match l with
  | [] => pret []
  | a :: l' => o <== f a ;;
               bs <== pcollect f l' ;;
               pret (match o with Some b => b :: bs | None => bs end)
  end.

(** ** context.rs *)
Definition set_shared (s : shared_ctx) (c : ctx) : ctx :=            (* context.rs:67-69 *)
  mkCtx (cx_roots c) (cx_default_ns c) (cx_target c) (cx_doc_nss c) (cx_qualified c) s.
Definition set_roots (r : list (name * root)) (c : ctx) : ctx :=
  mkCtx r (cx_default_ns c) (cx_target c) (cx_doc_nss c) (cx_qualified c) (cx_shared c).

(** context.rs:41-62 [Context::new]. *)
Definition ctx_new (schema : xelem) (target : option string) (shared : shared_ctx) : ctx :=
  let doc_nss := fold_left (fun m ns => match ns with
                                        | (Some p, uri) => aset String.eqb p uri m
                                        | (None, _) => m
                                        end) (xe_nss schema) [] in
  let '(tn, nss) := match target with
                    | Some t => get_or_insert (sh_namespaces shared) t
                    | None => (NsNone, sh_namespaces shared)
                    end in
  mkCtx [] (nss_default (xe_nss schema)) tn doc_nss
    (opt_eqb String.eqb (rox_attribute (xe_attrs schema) "elementFormDefault") (Some "qualified"))
    (mkShared nss (sh_dependencies shared)).

(** context.rs:71-73 [add_root]. *)
Definition add_root (n : name) (r : root) : P unit :=
  pmod (fun c => set_roots (aset name_eqb n r (cx_roots c)) c).

(** context.rs:87-92 [discover_type] (always called with a parent). *)
Definition add_dependency (n parent : name) (deps : list (name * list name)) : list (name * list name) :=
  let old := match aget name_eqb parent deps with Some l => l | None => [] end in
  aset name_eqb parent (if mem name_eqb n old then old else old ++ [n]) deps.
Definition discover_type (n parent : name) : P unit :=
  pmod (fun c => set_shared (mkShared (sh_namespaces (cx_shared c))
                               (add_dependency n parent (sh_dependencies (cx_shared c)))) c).

(** context.rs:94-103 [get_node_name]. *)
Definition get_node_name (c : ctx) (s : string) (top : bool) : name :=
  mkName s (if orb (cx_qualified c) top then cx_target c else NsNone).

(** context.rs:190-211 [literal_from_str]. *)
Definition literal_from_str (s : string) : option literal :=
  if s =?s "string" then Some LString
  else if s =?s "boolean" then Some LBoolean
  else if orb (s =?s "integer") (s =?s "long") then Some LInt64
  else if s =?s "nonNegativeInteger" then Some LUint64
  else if s =?s "positiveInteger" then Some LUint64
  else if s =?s "int" then Some LInt32
  else if s =?s "decimal" then Some LDecimal
  else if s =?s "float" then Some LFloat32
  else if s =?s "time" then Some LTime
  else if s =?s "date" then Some LDate
  else if s =?s "dateTime" then Some LDateTime
  else if s =?s "duration" then Some LDuration
  else if s =?s "base64Binary" then Some LBase64Binary
  else if s =?s "hexBinary" then Some LHexBinary
  else if s =?s "any" then Some LAny
  else if s =?s "anyType" then Some LAny
  else None.

(** context.rs:105-144 [get_type_name]. *)
Definition get_type_name (a : attr) : P leaf_content := fun c =>
  match split_colon (at_value a) with
  | Some (prefix, local) =>
      match aget String.eqb prefix (cx_doc_nss c) with
      | None => Err (XeMissingNamespace prefix (at_range a))
      | Some uri =>
          if uri =?s NS_XSD then
            match literal_from_str local with
            | Some l => Ok (LcLiteral l, c)
            | None => Err (XeUnsupportedType local (at_range a))
            end
          else
            let '(ns, nss) := get_or_insert (sh_namespaces (cx_shared c)) uri in
            Ok (LcNamed (mkName local ns),
                set_shared (mkShared nss (sh_dependencies (cx_shared c))) c)
      end
  | None =>
      if opt_eqb String.eqb (cx_default_ns c) (Some NS_XSD) then
        match literal_from_str (at_value a) with
        | Some l => Ok (LcLiteral l, c)
        | None => Err (XeUnsupportedType (at_value a) (at_range a))
        end
      else Ok (LcNamed (mkName (at_value a) NsNone), c)
  end.

(** ** parse/annotation.rs *)
(** [char::is_whitespace], used through annotation.rs:30: Unicode White_Space, a char given by its UTF-8 bytes. *)
Definition bytes_of (s : string) : list nat := map nat_of_ascii (list_ascii_of_string s).
Definition char_is_whitespace (c : string) : bool :=
  match bytes_of c with
  | [b] => orb (andb (Nat.leb 9 b) (Nat.leb b 13)) (Nat.eqb b 32)
  | [194; b] => orb (Nat.eqb b 133) (Nat.eqb b 160)
  | [225; 154; b] => Nat.eqb b 128
  | [226; 128; b] => orb (andb (Nat.leb 128 b) (Nat.leb b 138))
                       (orb (Nat.eqb b 168) (orb (Nat.eqb b 169) (Nat.eqb b 175)))
  | [226; 129; b] => Nat.eqb b 159
  | [227; 128; b] => Nat.eqb b 128
  | _ => false
  end.

(** [str::split_whitespace], annotation.rs:30; [cur] is the word being read. *)
Fixpoint words_go (cs : list string) (cur : string) : list string :=
  match cs with
  | [] => if is_empty cur then [] else [cur]
  | c :: cs' =>
      if char_is_whitespace c then
        if is_empty cur then words_go cs' "" else cur :: words_go cs' ""
      else words_go cs' (cur +++ c)
  end.
Definition split_whitespace (s : string) : list string := words_go (utf8_chars s) "".

(** parse/annotation.rs:29-31 [cleanup_docs]. *)
Definition cleanup_docs (s : string) : string := join_space (split_whitespace s).

Definition remove_all (name : string) (cs : list node) : list node :=
  filter (fun c => negb (has_name name (Some NS_XSD) (n_elem c))) cs.
Definition select_all (name : string) (cs : list node) : list node :=
  filter (fun c => has_name name (Some NS_XSD) (n_elem c)) cs.

(** parse/annotation.rs:5-27 [annotation::parse]. The [while remove] loop is
    written as the removal of all "documentation" children. *)
Definition annotation_parse (n : node) : res xsd_err (option string) :=
  let children := n_children n NS_XSD in
  let '(doc, children) := c_remove "documentation" (Some NS_XSD) children in
  docs <- match doc with
          | None => Ok None
          | Some d => t <- n_try_text d ;;
                      Ok (if is_empty t then None else Some (cleanup_docs t))
          end ;;
  prevent_unvisited_children n (remove_all "documentation" children) ;;;
  prevent_unvisited_attributes n ;;;
  Ok docs.

(** parse/mod.rs:109-111 [parse_annotation]. *)
Definition parse_annotation (n : option node) : res xsd_err (option string) :=
  match n with Some n => annotation_parse n | None => Ok None end.

(** ** parse/mod.rs: derived names *)
Section WithLibs.
Context {L : Libs}.

(** The [zip .. take_while] of mod.rs:73-80 on character lists. *)
Fixpoint common_chars (a b : list string) : list string :=
  match a, b with
  | x :: a', y :: b' =>
      if andb (x =?s y) (andb (negb (x =?s "_")) (negb (y =?s "_"))) then x :: common_chars a' b' else []
  | _, _ => []
  end.

(** mod.rs:73-80 [mutal_prefix], 96-107 [mutal_suffix]. *)
Definition mutal_prefix (l r : string) : string :=
  concat_str (common_chars (utf8_chars (to_snake_case l)) (utf8_chars (to_snake_case r))).
Definition mutal_suffix (l r : string) : string :=
  concat_str (rev (common_chars (rev (utf8_chars (to_snake_case l))) (rev (utf8_chars (to_snake_case r))))).

(** mod.rs:59-71, 82-94 [derive_mutal_prefix], [derive_mutal_suffix]. *)
Definition derive_mutal (f : string -> string -> string) (names : list string) : option string :=
  match names with
  | [] => None
  | first :: rest =>
      let n := fold_left f rest first in
      if is_empty n then None else Some n
  end.
Definition derive_mutal_prefix := derive_mutal mutal_prefix.
Definition derive_mutal_suffix := derive_mutal mutal_suffix.

(** mod.rs:48-54: upper-case the first byte of each name and concatenate; slicing
    [name[0..1]] panics when the first character is longer than one byte. *)
Fixpoint concat_upper (names : list string) : res xsd_err string :=
  match names with
  | [] => Ok ""
  | EmptyString :: names' => concat_upper names'
  | String c rest :: names' =>
      if starts_with_cont rest then Panic "byte index 1 is not a char boundary"
      else t <- concat_upper names' ;; Ok (String (ascii_upper c) rest +++ t)
  end.

(** mod.rs:19-57 [derive_virtual_name]. *)
Definition derive_virtual_name (names : list name) (shorten : bool) : P name := fun c =>
  let strs := map nm names in
  let short := if shorten then
                 match derive_mutal_prefix strs, derive_mutal_suffix strs with
                 | Some p, Some s => Some (if Nat.ltb (String.length s) (String.length p) then p else s)
                 | Some p, None => Some p
                 | None, Some s => Some s
                 | None, None => None
                 end
               else None in
  match short with
  | Some s => Ok (get_node_name c s false, c)
  | None => v <- concat_upper strs ;; Ok (get_node_name c v false, c)
  end.

(** ** parse/element.rs:186-215 [parse_min_occurs], [parse_max_occurs] *)
Definition parse_min_occurs (o : option attr) : res xsd_err N :=
  match o with
  | Some a => match u32_from_str (at_value a) with
              | Some n => Ok n
              | None => Err (XeParseInt (at_range a))
              end
  | None => Ok min_default
  end.
Definition parse_max_occurs (o : option attr) : res xsd_err max_occurs :=
  match o with
  | Some a => if at_value a =?s "unbounded" then Ok MaxUnbounded
              else match u32_from_str (at_value a) with
                   | Some n => Ok (MaxNumber n)
                   | None => Err (XeParseInt (at_range a))
                   end
  | None => Ok max_default
  end.

(** ** parse/simple_type.rs:43-119: one child of a restriction *)
Inductive facet := FEnum (n : name) | FRestr (r : restriction).
Definition parse_facet (child : node) : res xsd_err facet :=
  let usize k := '(a, _) <- n_try_attribute child "value" ;;
                 match usize_from_str (at_value a) with
                 | Some n => Ok (FRestr (k n))
                 | None => Err (XeParseInt (at_range a))
                 end in
  let decimal k := '(a, _) <- n_try_attribute child "value" ;;
                   match dec_from_str (at_value a) with
                   | Some d => Ok (FRestr (k d))
                   | None => Err (XeParseDecimal (at_range a))
                   end in
  let t := n_name child in
  if t =?s "enumeration" then
    '(a, _) <- n_try_attribute child "value" ;; Ok (FEnum (mkName (at_value a) NsNone))
  else if t =?s "length" then usize RsLength
  else if t =?s "minLength" then usize RsMinLength
  else if t =?s "maxLength" then usize RsMaxLength
  else if t =?s "pattern" then
    '(a, _) <- n_try_attribute child "value" ;; Ok (FRestr (RsPattern (at_value a)))
  else if t =?s "minInclusive" then decimal RsMinInclusive
  else if t =?s "maxInclusive" then decimal RsMaxInclusive
  else if t =?s "fractionDigits" then usize RsFractionDigits
  else if t =?s "totalDigits" then usize RsTotalDigits
  else Err (XeUnsupportedElement t (n_range child)).

Definition facet_names (fs : list facet) : list name :=
  flat_map (fun f => match f with FEnum n => [n] | _ => [] end) fs.
Definition facet_restrs (fs : list facet) : list restriction :=
  flat_map (fun f => match f with FRestr r => [r] | _ => [] end) fs.

(** parse/simple_type.rs:10-130 [simple_type::parse]. *)
Definition simple_type_parse (n : node) : P root :=
  plift (prevent_unvisited_attributes n) ;==
  let children := n_children n NS_XSD in
  let '(an, children) := c_remove "annotation" (Some NS_XSD) children in
  docs <== plift (parse_annotation an) ;;
  '(restr, children) <== plift (c_try_remove n "restriction" (Some NS_XSD) children) ;;
  '(a, restr) <== plift (n_try_attribute restr "base") ;;
  tn <== get_type_name a ;;
  match tn with
  | LcNamed _ | LcFixed _ =>
      perr (XeUnsupportedAttributeValue "base" (at_value a) "restriction" (at_range a))
  | LcLiteral lit =>
      plift (prevent_unvisited_children n children) ;==
      facets <== plift (mapM parse_facet (n_children restr NS_XSD)) ;;
      pret (match facet_names facets with
            | [] => RootLeaf (mkLeafDef (LcLiteral lit) (facet_restrs facets) docs)
            | ns => RootEnum ns
            end)
  end.

(** A [match &mut content] shared by element.rs:24-33, 115-123 and
    attribute.rs:43-51: record the dependency, or turn a literal with a [fixed]
    attribute into [Fixed]. *)
Definition content_of_type (n : node) (parent : name) (content : leaf_content)
  : P (leaf_content * node) :=
  match content with
  | LcNamed t => discover_type t parent ;== pret (content, n)
  | LcLiteral _ =>
      let '(f, n) := n_attribute n "fixed" in
      pret (match f with Some a => LcFixed (at_value a) | None => content end, n)
  | LcFixed _ => pret (content, n)
  end.

(** ** parse/attribute.rs:6-89 [attribute::parse] *)
Definition attribute_parse (parent : name) (n : node) : P (option attribute) :=
  '(na, n) <== plift (n_try_attribute n "name") ;;
  let aname := mkName (at_value na) NsNone in
  let children := n_children n NS_XSD in
  let '(an, children) := c_remove "annotation" (Some NS_XSD) children in
  docs <== plift (parse_annotation an) ;;
  let '(st, children) := c_remove "simpleType" (Some NS_XSD) children in
  '(content, n) <==
    match st with
    | Some st =>
        r <== simple_type_parse st ;;
        match r with
        | RootLeaf (mkLeafDef (LcLiteral l) _ _) => pret (LcLiteral l, n)
        | _ =>
            c <== pget ;;
            vn <== derive_virtual_name [parent; aname; get_node_name c "Data" false] false ;;
            add_root vn r ;== discover_type vn parent ;== pret (LcNamed vn, n)
        end
    | None =>
        '(ta, n) <== plift (n_try_attribute n "type") ;;
        content <== get_type_name ta ;;
        content_of_type n parent content
    end ;;
  plift (prevent_unvisited_children n children) ;==
  let '(def, n) := n_attribute n "default" in
  let '(use, n) := n_attribute n "use" in
  let finish (opt : bool) : P (option attribute) :=
    if andb (is_some def) (negb opt) then
      perr (XeUnexpectedAttribute "default" (n_name n) (n_range n))
    else
      plift (prevent_unvisited_attributes n) ;==
      pret (Some (mkAttribute aname content (option_map at_value def) opt docs)) in
  match use with
  | None => finish true
  | Some u =>
      if at_value u =?s "required" then finish false
      else if at_value u =?s "optional" then finish true
      else if at_value u =?s "prohibited" then pret None
      else perr (XeUnsupportedAttributeValue "use" (at_value u) (n_name n) (n_range n))
  end.

(** ** parse/simple_content.rs:6-54 [simple_content::parse] *)
Definition simple_content_parse (n : node) (parent : name) : P element_def :=
  plift (prevent_unvisited_attributes n) ;==
  '(ext, rest) <== plift (c_try_remove n "extension" (Some NS_XSD) (n_children n NS_XSD)) ;;
  plift (prevent_unvisited_children n rest) ;==
  '(base, ext) <== plift (n_try_attribute ext "base") ;;
  content <== get_type_name base ;;
  leaf_name <== match content with
                | LcNamed t => discover_type t parent ;== pret t
                | _ => pret parent
                end ;;
  let children := n_children ext NS_XSD in
  attributes <== pcollect (attribute_parse parent) (select_all "attribute" children) ;;
  plift (prevent_unvisited_children ext (remove_all "attribute" children)) ;==
  pret (mkElementDef attributes (Some (EcLeaf leaf_name (mkLeafDef content [] None))) false None).

Definition named_leaf (n : name) (root_name : name) (docs : option string)
  (min : N) (max : max_occurs) : leaf :=
  mkLeaf n (mkLeafDef (LcNamed root_name) [] docs) false true min max.
Definition plain_leaf (n : name) (content : leaf_content) (docs : option string)
  (min : N) (max : max_occurs) : leaf :=
  mkLeaf n (mkLeafDef content [] docs) false false min max.
Definition set_unordered (l : leaf) : leaf :=
  mkLeaf (lf_name l) (lf_def l) true (lf_virtual l) (lf_min l) (lf_max l).
Definition virtual_root (leaves : list leaf) : root :=
  RootElement (mkElementDef [] (Some (EcLeaves leaves)) true None).

(** ** The recursive descent

    parse/root.rs:6-23 [root::parse]; parse/element.rs:10-61 [parse_root], 63-184
    [parse_child]; parse/complex_type.rs:11-134; parse/complex_content.rs:11-118;
    parse/sequence.rs:12-104; parse/choice.rs:10-74. *)
Fixpoint root_parse (fuel : nat) (n : node) (parent : name) : P root :=
  match fuel with
  | O => fun _ => OutOfFuel
  | S fuel =>
      if n_name n =?s "element" then parse_root fuel n parent
      else if n_name n =?s "complexType" then complex_type_parse fuel n parent
      else if n_name n =?s "simpleType" then simple_type_parse n
      else perr (XeUnsupportedElement (n_name n) (n_range n))
  end

with parse_root (fuel : nat) (n : node) (parent : name) : P root :=
  match fuel with
  | O => fun _ => OutOfFuel
  | S fuel =>
      let children := n_children n NS_XSD in
      let '(an, children) := c_remove "annotation" (Some NS_XSD) children in
      docs <== plift (parse_annotation an) ;;
      let '(ty, n) := n_attribute n "type" in
      match ty with
      | Some a =>
          content <== get_type_name a ;;
          '(content, n) <== content_of_type n parent content ;;
          plift (prevent_unvisited_attributes n) ;==
          plift (prevent_unvisited_children n children) ;==
          pret (RootLeaf (mkLeafDef content [] docs))
      | None =>
          plift (prevent_unvisited_attributes n) ;==
          let '(ct, children') := c_remove "complexType" (Some NS_XSD) children in
          '(result, children) <==
            match ct with
            | Some ct => r <== complex_type_parse fuel ct parent ;; pret (r, children')
            | None =>
                let '(st, children') := c_remove "simpleType" (Some NS_XSD) children' in
                match st with
                | Some st => r <== simple_type_parse st ;; pret (r, children')
                | None => perr (XeMissingElement "simpleType|complexType" (n_name n) (n_range n))
                end
            end ;;
          plift (prevent_unvisited_children n children) ;==
          pret (root_with_docs result docs)
      end
  end

with parse_child (fuel : nat) (n : node) (parent : name) : P leaf :=
  match fuel with
  | O => fun _ => OutOfFuel
  | S fuel =>
      let '(mi, n) := n_attribute n "minOccurs" in
      min <== plift (parse_min_occurs mi) ;;
      let '(ma, n) := n_attribute n "maxOccurs" in
      max <== plift (parse_max_occurs ma) ;;
      let '(rf, n) := n_attribute n "ref" in
      match rf with
      | Some a =>
          plift (prevent_unvisited_attributes n) ;==
          content <== get_type_name a ;;
          match content with
          | LcNamed t =>
              discover_type t parent ;==
              pret (plain_leaf t (LcNamed t) None min max)
          | _ => perr (XeUnsupportedAttributeValue "ref" (at_value a) "element" (at_range a))
          end
      | None =>
          '(na, n) <== plift (n_try_attribute n "name") ;;
          c <== pget ;;
          let ename := get_node_name c (at_value na) false in
          let '(_, n) := n_attribute n "default" in
          let '(_, n) := n_attribute n "form" in
          docs <== plift (parse_annotation (n_child n "annotation" (Some NS_XSD))) ;;
          let '(ty, n) := n_attribute n "type" in
          match ty with
          | Some a =>
              content <== get_type_name a ;;
              '(content, n) <== content_of_type n parent content ;;
              plift (prevent_unvisited_attributes n) ;==
              pret (plain_leaf ename content docs min max)
          | None =>
              plift (prevent_unvisited_attributes n) ;==
              match n_child n "simpleType" (Some NS_XSD), n_child n "complexType" (Some NS_XSD) with
              | None, None => pret (plain_leaf ename (LcLiteral LAny) docs min max)
              | _, _ =>
                  vn <== derive_virtual_name [parent; ename; get_node_name c "Data" false] false ;;
                  r <== root_parse fuel n vn ;;
                  add_root vn r ;==
                  discover_type vn parent ;==
                  pret (plain_leaf ename (LcNamed vn) docs min max)
              end
          end
      end
  end

with complex_type_parse (fuel : nat) (n : node) (parent : name) : P root :=
  match fuel with
  | O => fun _ => OutOfFuel
  | S fuel =>
      let '(mixed, n) := n_attribute n "mixed" in
      if match mixed with Some a => at_value a =?s "true" | None => false end then
        perr (XeUnsupportedAttributeValue "mixed" "true" (n_name n) (n_range n))
      else
      plift (prevent_unvisited_attributes n) ;==
      let children := n_children n NS_XSD in
      let '(an, children) := c_remove "annotation" (Some NS_XSD) children in
      docs <== plift (parse_annotation an) ;;
      let '(sc, children) := c_remove "simpleContent" (Some NS_XSD) children in
      match sc with
      | Some child =>
          plift (prevent_unvisited_children n children) ;==
          d <== simple_content_parse child parent ;;
          pret (RootElement (ed_with_docs d docs))
      | None =>
      let '(cc, children) := c_remove "complexContent" (Some NS_XSD) children in
      match cc with
      | Some child =>
          plift (prevent_unvisited_children n children) ;==
          d <== complex_content_parse fuel child parent ;;
          pret (RootElement (ed_with_docs d docs))
      | None =>
          let '(sq, children) := c_remove "sequence" (Some NS_XSD) children in
          let '(sq, children) := match sq with
                                 | Some _ => (sq, children)
                                 | None => c_remove "all" (Some NS_XSD) children
                                 end in
          '(content, children) <==
            match sq with
            | Some child =>
                let is_unordered := n_name child =?s "all" in
                let '(mi, child) := n_attribute child "minOccurs" in
                min <== plift (parse_min_occurs mi) ;;
                let '(ma, child) := n_attribute child "maxOccurs" in
                max <== plift (parse_max_occurs ma) ;;
                leaves <== sequence_parse fuel child parent ;;
                let leaves := if is_unordered then map set_unordered leaves else leaves in
                if orb (max_is_vec max) (negb (N.eqb min min_default)) then
                  leaf_name <== derive_virtual_name (map lf_name leaves) true ;;
                  root_name <== derive_virtual_name [parent; leaf_name] false ;;
                  add_root root_name (virtual_root leaves) ;==
                  discover_type root_name parent ;==
                  pret (Some (EcLeaves [named_leaf leaf_name root_name None min max]), children)
                else pret (Some (EcLeaves leaves), children)
            | None =>
                let '(ch, children) := c_remove "choice" (Some NS_XSD) children in
                match ch with
                | Some child =>
                    variants <== choice_parse fuel child parent ;;
                    c <== pget ;;
                    root_name <== derive_virtual_name [parent; get_node_name c "Data" false] false ;;
                    add_root root_name (RootChoice (mkChoiceDef variants false None)) ;==
                    discover_type root_name parent ;==
                    pret (Some (EcLeaf root_name (mkLeafDef (LcNamed root_name) [] None)), children)
                | None => pret (None, children)
                end
            end ;;
          attributes <== pcollect (attribute_parse parent) (select_all "attribute" children) ;;
          plift (prevent_unvisited_children n (remove_all "attribute" children)) ;==
          pret (RootElement (mkElementDef attributes content false docs))
      end
      end
  end

with complex_content_parse (fuel : nat) (n : node) (parent : name) : P element_def :=
  match fuel with
  | O => fun _ => OutOfFuel
  | S fuel =>
      plift (prevent_unvisited_attributes n) ;==
      '(ext, rest) <== plift (c_try_remove n "extension" (Some NS_XSD) (n_children n NS_XSD)) ;;
      plift (prevent_unvisited_children n rest) ;==
      '(base, ext) <== plift (n_try_attribute ext "base") ;;
      content <== get_type_name base ;;
      match content with
      | LcLiteral _ | LcFixed _ =>
          perr (XeUnsupportedAttributeValue "base" (at_value base) "extension" (at_range base))
      | LcNamed base_name =>
          discover_type base_name parent ;==
          let children := n_children ext NS_XSD in
          let '(sq, children) := c_remove "sequence" (Some NS_XSD) children in
          virtual_leaves <==
            match sq with
            | Some child =>
                let '(mi, child) := n_attribute child "minOccurs" in
                min <== plift (parse_min_occurs mi) ;;
                leaves <== sequence_parse fuel child parent ;;
                c <== pget ;;
                let leaf_name := get_node_name c (nm base_name) false in
                root_name <== derive_virtual_name [parent; leaf_name] false ;;
                add_root root_name (virtual_root leaves) ;==
                discover_type root_name parent ;==
                pret [named_leaf leaf_name root_name None min max_default]
            | None => pret []
            end ;;
          attributes <== pcollect (attribute_parse parent) (select_all "attribute" children) ;;
          plift (prevent_unvisited_children ext (remove_all "attribute" children)) ;==
          c <== pget ;;
          pret (mkElementDef attributes
                  (Some (match virtual_leaves with
                         | [] => EcLeaf base_name (mkLeafDef content [] None)
                         | _ => EcLeaves
                                  (mkLeaf (get_node_name c "base" false) (mkLeafDef content [] None)
                                     false true min_default max_default :: virtual_leaves)
                         end))
                  false None)
      end
  end

with sequence_parse (fuel : nat) (n : node) (parent : name) : P (list leaf) :=
  match fuel with
  | O => fun _ => OutOfFuel
  | S fuel =>
      plift (prevent_unvisited_attributes n) ;==
      pcollect (fun child =>
        if n_name child =?s "element" then
          l <== parse_child fuel child parent ;; pret (Some l)
        else if n_name child =?s "choice" then
          let '(mi, child) := n_attribute child "minOccurs" in
          min <== plift (parse_min_occurs mi) ;;
          let '(ma, child) := n_attribute child "maxOccurs" in
          max <== plift (parse_max_occurs ma) ;;
          variants <== choice_parse fuel child parent ;;
          leaf_name <== derive_virtual_name (map lf_name variants) true ;;
          root_name <== derive_virtual_name [parent; leaf_name] false ;;
          add_root root_name (RootChoice (mkChoiceDef variants true None)) ;==
          discover_type root_name parent ;==
          pret (Some (named_leaf leaf_name root_name None min max))
        else if n_name child =?s "sequence" then
          docs <== plift (parse_annotation (n_child child "annotation" (Some NS_XSD))) ;;
          let '(mi, child) := n_attribute child "minOccurs" in
          min <== plift (parse_min_occurs mi) ;;
          leaves <== sequence_parse fuel child parent ;;
          leaf_name <== derive_virtual_name (map lf_name leaves) true ;;
          root_name <== derive_virtual_name [parent; leaf_name] false ;;
          add_root root_name (virtual_root leaves) ;==
          discover_type root_name parent ;==
          pret (Some (named_leaf leaf_name root_name docs min max_default))
        else if n_name child =?s "annotation" then pret None
        else perr (XeUnsupportedElement (n_name child) (n_range child)))
        (n_children n NS_XSD)
  end

with choice_parse (fuel : nat) (n : node) (parent : name) : P (list leaf) :=
  match fuel with
  | O => fun _ => OutOfFuel
  | S fuel =>
      plift (prevent_unvisited_attributes n) ;==
      pcollect (fun child =>
        if n_name child =?s "element" then
          l <== parse_child fuel child parent ;; pret (Some l)
        else if n_name child =?s "sequence" then
          docs <== plift (parse_annotation (n_child child "annotation" (Some NS_XSD))) ;;
          let '(mi, child) := n_attribute child "minOccurs" in
          min <== plift (parse_min_occurs mi) ;;
          let '(ma, child) := n_attribute child "maxOccurs" in
          max <== plift (parse_max_occurs ma) ;;
          leaves <== sequence_parse fuel child parent ;;
          leaf_name <== derive_virtual_name (map lf_name leaves) true ;;
          c <== pget ;;
          root_name <== derive_virtual_name [parent; leaf_name; get_node_name c "Variant" false] false ;;
          add_root root_name (virtual_root leaves) ;==
          discover_type root_name parent ;==
          pret (Some (named_leaf leaf_name root_name docs min max))
        else if n_name child =?s "annotation" then pret None
        else perr (XeUnsupportedElement (n_name child) (n_range child)))
        (n_children n NS_XSD)
  end.

(** ** schema.rs: files *)

(** What the parser sees of the file system (schema.rs:28-45, 93-130): [fs_read] gives [None] when the
    file cannot be opened, [Some None] when it is not well-formed XML, otherwise
    the root element; paths are joined and cut by [fs_push], [fs_parent]. *)
Record fs := mkFs {
  fs_read : string -> option (option xelem);
  fs_push : string -> string -> string;
  fs_parent : string -> string
}.

(** schema.rs:329-347 [SchemaError]; row and column are represented by the error
    itself (its range), the text position is computed from it in Macro.v. *)
Inductive schema_err :=
| SeXsd (e : xsd_err) (file : string)
| SeOpen (file : string)
| SeNotFound (name : string).

(** schema.rs:349-355 [ParseError]. *)
Inductive parse_err := PeSchema (e : schema_err) | PeXsd (e : xsd_err).

(** schema.rs:17-21 [Schema]. *)
Record schema := mkSchema {
  s_dependencies : list (name * list name);
  s_context : schema_ctx
}.

(** context.rs:75-85 [into_schema]. *)
Definition into_schema (c : ctx) : schema :=
  mkSchema (sh_dependencies (cx_shared c))
    (mkSchemaCtx (cx_roots c) (cx_target c) (cx_qualified c) (sh_namespaces (cx_shared c))).

(** schema.rs:141-146 [into_shared]. *)
Definition into_shared (s : schema) : shared_ctx :=
  mkShared (sc_namespaces (s_context s)) (s_dependencies s).

(** One child of the schema element, schema.rs:114-136. [load path shared] parses
    another file. *)
Definition schema_child (tree_fuel : nat) (load : string -> shared_ctx -> res schema_err schema)
  (f : fs) (base_path : string) (child : node) (c : ctx) : res parse_err ctx :=
  if orb (n_name child =?s "include") (n_name child =?s "import") then
    '(a, _) <- map_err PeXsd (n_try_attribute child "schemaLocation") ;;
    s <- map_err PeSchema (load (fs_push f base_path (at_value a)) (cx_shared c)) ;;
    Ok (set_shared (into_shared s)
          (set_roots (fold_left (fun m nr => aset name_eqb (fst nr) (snd nr) m)
                        (sc_elements (s_context s)) (cx_roots c)) c))
  else
    '(a, child) <- map_err PeXsd (n_try_attribute child "name") ;;
    let nm := mkName (at_value a) (cx_target c) in
    '(r, c) <- map_err PeXsd (root_parse tree_fuel child nm c) ;;
    Ok (set_roots (aset name_eqb nm r (cx_roots c)) c).

Fixpoint schema_children (tree_fuel : nat) (load : string -> shared_ctx -> res schema_err schema)
  (f : fs) (base_path : string) (cs : list node) (c : ctx) : res parse_err ctx :=
  match cs with
  | [] => Ok c
  | child :: cs' =>
      c <- schema_child tree_fuel load f base_path child c ;;
      schema_children tree_fuel load f base_path cs' c
  end.

(** schema.rs:93-139 [parse_schema_with_context]. *)
Definition parse_schema_with (tree_fuel : nat) (load : string -> shared_ctx -> res schema_err schema)
  (f : fs) (root : xelem) (base_path : string) (shared : option shared_ctx) : res parse_err schema :=
  if negb (has_name "schema" (Some NS_XSD) root) then
    Err (PeXsd (XeUnsupportedElement (xe_tag root) (xe_range root)))
  else
    let n := node_of root in
    let '(tn, n) := n_attribute n "targetNamespace" in
    let c := ctx_new root (option_map at_value tn)
               (match shared with Some s => s | None => shared_default end) in
    c <- schema_children tree_fuel load f base_path (n_children n NS_XSD) c ;;
    Ok (into_schema c).

(** schema.rs:51-87 [parse_with_context], on already parsed XML. *)
Definition parse_with (tree_fuel : nat) (load : string -> shared_ctx -> res schema_err schema)
  (f : fs) (doc : option xelem) (path : string) (shared : option shared_ctx) : res schema_err schema :=
  match doc with
  | None => Err (SeXsd XeXml path)
  | Some root =>
      map_err (fun e => match e with PeSchema e => e | PeXsd e => SeXsd e path end)
        (parse_schema_with tree_fuel load f root (fs_parent f path) shared)
  end.

(** schema.rs:28-45 [parse_file_with_context]. [fuel] bounds the include depth
    and the tree depth. *)
Fixpoint parse_file_with_context (fuel : nat) (f : fs) (path : string) (shared : option shared_ctx)
  : res schema_err schema :=
  match fuel with
  | O => OutOfFuel
  | S fuel =>
      match fs_read f path with
      | None => Err (SeOpen path)
      | Some doc =>
          parse_with fuel (fun p s => parse_file_with_context fuel f p (Some s)) f doc path shared
      end
  end.

(** schema.rs:24-26 [Schema::parse_file]; 47-49 [Schema::parse]; 89-91 [parse_schema]. *)
Definition parse_file (fuel : nat) (f : fs) (path : string) := parse_file_with_context fuel f path None.
Definition schema_parse (fuel : nat) (f : fs) (doc : option xelem) (path : string) : res schema_err schema :=
  parse_with fuel (fun p s => parse_file_with_context fuel f p (Some s)) f doc path None.

(** schema.rs:162-202 [generate_element_and_dependencies]: the closure loop. *)
Definition next_names (deps : list (name * list name)) (names new_names : list name) : list name :=
  fold_left (fun acc n =>
    match aget name_eqb n deps with
    | None => acc
    | Some ds => fold_left (fun acc d =>
        if orb (mem name_eqb d names) (orb (mem name_eqb d new_names) (mem name_eqb d acc)) then acc
        else acc ++ [d]) ds acc
    end) new_names [].

Fixpoint closure_loop (fuel : nat) (deps : list (name * list name)) (names new_names : list name)
  : option (list name) :=
  match new_names with
  | [] => Some names
  | _ => match fuel with
         | O => None
         | S fuel =>
             closure_loop fuel deps (names ++ new_names) (next_names deps names new_names)
         end
  end.

(** schema.rs:162-202: the names that get generated, in order, and the new [already_generated] set;
    [None] = out of fuel. *)
Definition closure_names (fuel : nat) (deps : list (name * list name)) (start : name)
  (already : list name) : option (list name * list name) :=
  match closure_loop fuel deps [] [start] with
  | None => None
  | Some names =>
      let todo := filter (fun n => negb (mem name_eqb n already)) names in
      Some (todo, already ++ todo)
  end.

End WithLibs.
