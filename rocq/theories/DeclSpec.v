(** * DeclSpec: what a schema document means, as a relation

    [declared] relates an XSD declaration to the definition it stands for, and at
    the same time says which documents are accepted. It is written from the
    schema language as the code supports it, over [xelem] trees, and uses none of
    the parser's functions; the only shared vocabulary are the AST data types, the
    number and decimal readers of TextSpec.v / [Libs], and [cleanup_docs] for
    documentation texts (which has its own specification in MiscSpec.v). *)
From Verif Require Import Base Libs Xml Ast XsdNode Parse TextSpec ParseSpec.

(** ** Attributes *)
(** The attribute [n] of [e]: the last one with that local name. (XML allows
    several attributes with one local name only in different namespaces.) *)
Definition the_attr (e : xelem) (n : string) (a : attr) : Prop :=
  exists l r, xe_attrs e = l ++ a :: r /\ at_name a = n /\ Forall (fun b => at_name b <> n) r.
(** Every attribute without namespace is one of [known]. *)
Definition only_attrs (e : xelem) (known : list string) : Prop :=
  forall n a, the_attr e n a -> at_ns a = None -> In n known.

(** ** Children *)
(** [take t l o rest]: [o] is the first element named [t] of [l], [rest] the others. *)
Inductive take (t : string) : list xelem -> option xelem -> list xelem -> Prop :=
| tk_none l : Forall (fun x => xe_tag x <> t) l -> take t l None l
| tk_some l x r : Forall (fun x => xe_tag x <> t) l -> xe_tag x = t -> take t (l ++ x :: r) (Some x) (l ++ r).
Definition is_annotation (e : xelem) : bool := xe_tag e =?s "annotation".
(** The XSD children of a group that stand for something. *)
Definition particles (e : xelem) : list xelem := filter (fun x => negb (is_annotation x)) (xsd_children e).

(** ** Names of types (C34) *)
Definition plain (s : string) : Prop := ~ In ":"%char (list_ascii_of_string s).
(** [v] is "p:l". *)
Definition qname (v p l : string) : Prop := v = p +++ String ":" l /\ plain p.
(** What the schema element binds a prefix / the default namespace to. *)
Definition binds (d : xelem) (p : option string) (uri : string) : Prop := In (p, uri) (xe_nss d).
Definition prefixes_once (d : xelem) : Prop := NoDup (map fst (xe_nss d)).

Definition builtins : list (string * literal) :=
  [("string", LString); ("boolean", LBoolean); ("integer", LInt64); ("long", LInt64);
   ("nonNegativeInteger", LUint64); ("positiveInteger", LUint64); ("int", LInt32);
   ("decimal", LDecimal); ("float", LFloat32); ("time", LTime); ("date", LDate);
   ("dateTime", LDateTime); ("duration", LDuration); ("base64Binary", LBase64Binary);
   ("hexBinary", LHexBinary); ("any", LAny); ("anyType", LAny)].

Inductive meaning :=
| MBuiltin (l : literal)            (* a built-in type *)
| MUnsupported (local : string)     (* an XSD type without counterpart *)
| MName (uri local : string)        (* a name in a namespace *)
| MBare (local : string)            (* a name without namespace *)
| MUnbound (prefix : string).       (* the prefix is not bound *)
Inductive means (d : xelem) (v : string) : meaning -> Prop :=
| mn_builtin p l lit : qname v p l -> binds d (Some p) NS_XSD -> In (l, lit) builtins -> means d v (MBuiltin lit)
| mn_unsupported p l : qname v p l -> binds d (Some p) NS_XSD -> ~ In l (map fst builtins) ->
    means d v (MUnsupported l)
| mn_name p l uri : qname v p l -> binds d (Some p) uri -> uri <> NS_XSD -> means d v (MName uri l)
| mn_unbound p l : qname v p l -> (forall uri, ~ binds d (Some p) uri) -> means d v (MUnbound p)
| mn_plain_builtin lit : plain v -> binds d None NS_XSD -> In (v, lit) builtins -> means d v (MBuiltin lit)
| mn_plain_unsupported : plain v -> binds d None NS_XSD -> ~ In v (map fst builtins) -> means d v (MUnsupported v)
| mn_plain_bare : plain v -> ~ binds d None NS_XSD -> means d v (MBare v).

(** Numbers of namespaces. *)
Definition ns_uri (s : namespaces) (ns : namespace) (uri : string) : Prop :=
  exists id def, ns = NsId id /\ get_by_id s id = Some def /\ nd_uri def = uri.

(** ** Occurrence bounds *)
Definition min_of (e : xelem) (n : N) : Prop :=
  (exists a, the_attr e "minOccurs" a /\ unsigned_text (at_value a) n /\ (n <= u32_max)%N)
  \/ (no_attr e "minOccurs" /\ n = 1%N).
Definition max_of (e : xelem) (m : max_occurs) : Prop :=
  (exists a, the_attr e "maxOccurs" a /\ at_value a = "unbounded" /\ m = MaxUnbounded)
  \/ (exists a n, the_attr e "maxOccurs" a /\ at_value a <> "unbounded" /\ unsigned_text (at_value a) n
        /\ (n <= u32_max)%N /\ m = MaxNumber n)
  \/ (no_attr e "maxOccurs" /\ m = MaxNumber 1).
(** Neither repeated nor optional: such a group needs no type of its own. *)
Definition exactly_once (min : N) (max : max_occurs) : Prop :=
  min = 1%N /\ exists n, max = MaxNumber n /\ (n <= 1)%N.

(** ** Made-up names: the parts, each with its first letter in upper case *)
Definition capital (s : string) : string :=
  match s with EmptyString => EmptyString | String c r => String (ascii_upper c) r end.
Fixpoint joined (parts : list string) : string :=
  match parts with [] => "" | s :: parts => capital s +++ joined parts end.

(** ** Documentation *)
Definition docs_of (an : option xelem) (docs : option string) : Prop :=
  match an with
  | None => docs = None
  | Some a => only_attrs a []
      /\ exists doc rest, take "documentation" (xsd_children a) doc rest
         /\ Forall (fun x => xe_tag x = "documentation") rest
         /\ match doc with
            | None => docs = None
            | Some x => exists t ks, xe_kids x = KText t :: ks
                        /\ docs = (if is_empty t then None else Some (cleanup_docs t))
            end
  end.

Section Decl.
Context {L : Libs}.
(** The schema element; the numbers of namespaces; the namespace of made-up names
    and local elements; the definitions stored along the way. *)
Variable d : xelem.
Variable nss : namespaces.
Variable vns : namespace.
Variable stored : list (name * root).

(** ** Type references *)
Definition type_of (v : string) (lc : leaf_content) : Prop :=
  (exists lit, means d v (MBuiltin lit) /\ lc = LcLiteral lit)
  \/ (exists uri l ns, means d v (MName uri l) /\ lc = LcNamed (mkName l ns) /\ ns_uri nss ns uri)
  \/ (exists l, means d v (MBare l) /\ lc = LcNamed (mkName l NsNone)).
(** A [type] attribute together with [fixed]; [known] are the attributes looked at. *)
Definition typed (e : xelem) (lc : leaf_content) (known : list string) : Prop :=
  exists a t, the_attr e "type" a /\ type_of (at_value a) t
  /\ match t with
     | LcLiteral _ => known = ["type"; "fixed"]
         /\ ((exists x, the_attr e "fixed" x /\ lc = LcFixed (at_value x)) \/ (no_attr e "fixed" /\ lc = t))
     | _ => known = ["type"] /\ lc = t
     end.

(** ** Simple types *)
Inductive facet_of (x : xelem) : name + restriction -> Prop :=
| fc_enum a : xe_tag x = "enumeration" -> the_attr x "value" a -> facet_of x (inl (mkName (at_value a) NsNone))
| fc_pattern a : xe_tag x = "pattern" -> the_attr x "value" a -> facet_of x (inr (RsPattern (at_value a)))
| fc_count a n k : In (xe_tag x, k)
      [("length", RsLength); ("minLength", RsMinLength); ("maxLength", RsMaxLength);
       ("fractionDigits", RsFractionDigits); ("totalDigits", RsTotalDigits)] ->
    the_attr x "value" a -> unsigned_text (at_value a) n -> (n <= u64_max)%N -> facet_of x (inr (k n))
| fc_bound a n k : In (xe_tag x, k) [("minInclusive", RsMinInclusive); ("maxInclusive", RsMaxInclusive)] ->
    the_attr x "value" a -> dec_from_str (at_value a) = Some n -> facet_of x (inr (k n)).
Definition lefts {A B} (l : list (A + B)) : list A := flat_map (fun x => match x with inl a => [a] | inr _ => [] end) l.
Definition rights {A B} (l : list (A + B)) : list B := flat_map (fun x => match x with inr a => [a] | inl _ => [] end) l.

(** A simple type: a restriction of a built-in type. With enumeration values it
    is an enumeration of exactly those, in order. *)
Inductive simple_type (seen : list string) (e : xelem) : root -> Prop :=
| st_type an rest docs rs a lit fs :
    only_attrs e seen ->
    take "annotation" (xsd_children e) an rest -> docs_of an docs ->
    take "restriction" rest (Some rs) [] ->
    the_attr rs "base" a -> means d (at_value a) (MBuiltin lit) ->
    Forall2 facet_of (xsd_children rs) fs ->
    simple_type seen e (match lefts fs with
                        | [] => RootLeaf (mkLeafDef (LcLiteral lit) (rights fs) docs)
                        | names => RootEnum names
                        end).

(** ** Attribute declarations; [None] for a prohibited attribute *)
Inductive attribute_content (p : name) (e : xelem) (v : string) :
  option xelem -> leaf_content -> list string -> Prop :=
| ac_type lc known : typed e lc known -> attribute_content p e v None lc known
| ac_simple st lit rs ds : simple_type [] st (RootLeaf (mkLeafDef (LcLiteral lit) rs ds)) ->
    attribute_content p e v (Some st) (LcLiteral lit) []
| ac_enum st ns : simple_type [] st (RootEnum ns) ->
    In (mkName (joined [nm p; v; "Data"]) vns, RootEnum ns) stored ->
    attribute_content p e v (Some st) (LcNamed (mkName (joined [nm p; v; "Data"]) vns)) [].
Definition use_of (e : xelem) (optional : bool) : Prop :=
  (exists a, the_attr e "use" a /\ at_value a = "required" /\ optional = false)
  \/ (exists a, the_attr e "use" a /\ at_value a = "optional" /\ optional = true)
  \/ (no_attr e "use" /\ optional = true).
Inductive attribute_decl (p : name) (e : xelem) : option attribute -> Prop :=
| ad_decl na an r1 docs st lc known optional def :
    the_attr e "name" na ->
    take "annotation" (xsd_children e) an r1 -> docs_of an docs ->
    take "simpleType" r1 st [] ->
    attribute_content p e (at_value na) st lc known ->
    use_of e optional ->
    ((exists a, the_attr e "default" a /\ def = Some (at_value a) /\ optional = true)
     \/ (no_attr e "default" /\ def = None)) ->
    only_attrs e (["name"; "default"; "use"] ++ known) ->
    attribute_decl p e (Some (mkAttribute (mkName (at_value na) NsNone) lc def optional docs))
| ad_prohibited na an r1 docs st lc known a :
    the_attr e "name" na ->
    take "annotation" (xsd_children e) an r1 -> docs_of an docs ->
    take "simpleType" r1 st [] ->
    attribute_content p e (at_value na) st lc known ->
    the_attr e "use" a -> at_value a = "prohibited" ->
    attribute_decl p e None.
Definition somes {A} (l : list (option A)) : list A := flat_map (fun o => match o with Some a => [a] | None => [] end) l.
(** The attributes among [cs]; nothing else may be left. *)
Definition attributes_of (p : name) (cs : list xelem) (ats : list attribute) : Prop :=
  Forall (fun x => xe_tag x = "attribute") cs
  /\ exists os, Forall2 (attribute_decl p) cs os /\ ats = somes os.

Definition simple_leaf (n : name) (lc : leaf_content) (docs : option string) (min : N) (max : max_occurs) : leaf :=
  mkLeaf n (mkLeafDef lc [] docs) false false min max.
Definition group_leaf (n : name) (root : name) (docs : option string) (min : N) (max : max_occurs) : leaf :=
  mkLeaf n (mkLeafDef (LcNamed root) [] docs) false true min max.
Definition group_type (ls : list leaf) : root := RootElement (mkElementDef [] (Some (EcLeaves ls)) true None).
Definition made_up (parts : list string) : name := mkName (joined parts) vns.
Definition with_docs (r : root) (docs : option string) : root :=
  match docs, r with
  | None, _ => r
  | Some _, RootLeaf l => RootLeaf (mkLeafDef (ld_content l) (ld_restrictions l) docs)
  | Some _, RootEnum ns => RootEnum ns
  | Some _, RootElement e => RootElement (mkElementDef (ed_attributes e) (ed_content e) (ed_virtual e) docs)
  | Some _, RootChoice c => RootChoice (mkChoiceDef (cd_variants c) (cd_virtual c) docs)
  end.
Definition unordered (l : leaf) : leaf := mkLeaf (lf_name l) (lf_def l) true (lf_virtual l) (lf_min l) (lf_max l).

(** ** Declarations. [p] is the name of the enclosing type; [seen] are attributes
    already looked at (the name of a top-level declaration, the attributes of an
    element with an anonymous type). *)
Inductive declared : list string -> xelem -> name -> root -> Prop :=
| dc_element seen e p r : xe_tag e = "element" -> element_decl seen e p r -> declared seen e p r
| dc_complex seen e p r : xe_tag e = "complexType" -> complex_type seen e p r -> declared seen e p r
| dc_simple seen e p r : xe_tag e = "simpleType" -> simple_type seen e r -> declared seen e p r

with element_decl : list string -> xelem -> name -> root -> Prop :=
| ed_typed seen e p an docs lc known :
    take "annotation" (xsd_children e) an [] -> docs_of an docs ->
    typed e lc known -> only_attrs e (known ++ seen) ->
    element_decl seen e p (RootLeaf (mkLeafDef lc [] docs))
| ed_complex seen e p an rest docs ct r :
    take "annotation" (xsd_children e) an rest -> docs_of an docs ->
    no_attr e "type" -> only_attrs e ("type" :: seen) ->
    take "complexType" rest (Some ct) [] -> complex_type [] ct p r ->
    element_decl seen e p (with_docs r docs)
| ed_simple seen e p an rest docs st r :
    take "annotation" (xsd_children e) an rest -> docs_of an docs ->
    no_attr e "type" -> only_attrs e ("type" :: seen) ->
    take "complexType" rest None rest -> take "simpleType" rest (Some st) [] -> simple_type [] st r ->
    element_decl seen e p (with_docs r docs)

with complex_type : list string -> xelem -> name -> root -> Prop :=
| ct_simple_content seen e p an rest docs x ext rest' base lc n ats :
    (forall a, the_attr e "mixed" a -> at_value a <> "true") -> only_attrs e ("mixed" :: seen) ->
    take "annotation" (xsd_children e) an rest -> docs_of an docs ->
    take "simpleContent" rest (Some x) [] ->
    only_attrs x [] -> take "extension" (xsd_children x) (Some ext) [] ->
    the_attr ext "base" base -> type_of (at_value base) lc ->
    n = match lc with LcNamed t => t | _ => p end ->
    xsd_children ext = rest' -> attributes_of p rest' ats ->
    complex_type seen e p (RootElement (mkElementDef ats (Some (EcLeaf n (mkLeafDef lc [] None))) false docs))
| ct_complex_content seen e p an rest rest1 docs x ext base t sq rest' content ats :
    (forall a, the_attr e "mixed" a -> at_value a <> "true") -> only_attrs e ("mixed" :: seen) ->
    take "annotation" (xsd_children e) an rest -> docs_of an docs ->
    take "simpleContent" rest None rest1 -> take "complexContent" rest1 (Some x) [] ->
    only_attrs x [] -> take "extension" (xsd_children x) (Some ext) [] ->
    the_attr ext "base" base -> type_of (at_value base) (LcNamed t) ->
    take "sequence" (xsd_children ext) sq rest' ->
    extension_content p t sq content -> attributes_of p rest' ats ->
    complex_type seen e p (RootElement (mkElementDef ats (Some content) false docs))
| ct_particles seen e p an rest rest1 docs rest2 content ats :
    (forall a, the_attr e "mixed" a -> at_value a <> "true") -> only_attrs e ("mixed" :: seen) ->
    take "annotation" (xsd_children e) an rest -> docs_of an docs ->
    take "simpleContent" rest None rest -> take "complexContent" rest None rest1 ->
    content_model p rest1 content rest2 -> attributes_of p rest2 ats ->
    complex_type seen e p (RootElement (mkElementDef ats content false docs))

(** The content of an extension: the base alone, or the base and a group for the
    added sequence. *)
with extension_content : name -> name -> option xelem -> element_content -> Prop :=
| xc_none p t : extension_content p t None (EcLeaf t (mkLeafDef (LcNamed t) [] None))
| xc_sequence p t sq min ls :
    min_of sq min -> sequence_of ["minOccurs"] sq p ls ->
    In (made_up [nm p; nm t], group_type ls) stored ->
    extension_content p t (Some sq)
      (EcLeaves [mkLeaf (mkName "base" vns) (mkLeafDef (LcNamed t) [] None) false true 1 (MaxNumber 1);
                 group_leaf (mkName (nm t) vns) (made_up [nm p; nm t]) None min (MaxNumber 1)])

(** The particle of a complex type. *)
with content_model : name -> list xelem -> option element_content -> list xelem -> Prop :=
| cm_none p cs : take "sequence" cs None cs -> take "all" cs None cs -> take "choice" cs None cs ->
    content_model p cs None cs
| cm_choice p cs x rest ls : take "sequence" cs None cs -> take "all" cs None cs -> take "choice" cs (Some x) rest ->
    choice_of [] x p ls ->
    In (made_up [nm p; "Data"], RootChoice (mkChoiceDef ls false None)) stored ->
    content_model p cs
      (Some (EcLeaf (made_up [nm p; "Data"]) (mkLeafDef (LcNamed (made_up [nm p; "Data"])) [] None))) rest
| cm_sequence p cs x rest content : take "sequence" cs (Some x) rest ->
    group_content x p (fun l => l) content -> content_model p cs (Some content) rest
| cm_all p cs x rest content : take "sequence" cs None cs -> take "all" cs (Some x) rest ->
    group_content x p unordered content -> content_model p cs (Some content) rest

with group_content : xelem -> name -> (leaf -> leaf) -> element_content -> Prop :=
| gc_inline x p f min max ls : min_of x min -> max_of x max -> exactly_once min max ->
    sequence_of ["minOccurs"; "maxOccurs"] x p ls -> group_content x p f (EcLeaves (map f ls))
| gc_group x p f min max ls g : min_of x min -> max_of x max -> ~ exactly_once min max ->
    sequence_of ["minOccurs"; "maxOccurs"] x p ls ->
    In (made_up [nm p; g], group_type (map f ls)) stored ->
    group_content x p f (EcLeaves [group_leaf (mkName g vns) (made_up [nm p; g]) None min max])

(** The members of a sequence (or all) and the variants of a choice: one for each
    child that is not an annotation, in order. *)
with sequence_of : list string -> xelem -> name -> list leaf -> Prop :=
| sq_of known x p ls : only_attrs x known -> Forall2 (sequence_member p) (particles x) ls -> sequence_of known x p ls

with choice_of : list string -> xelem -> name -> list leaf -> Prop :=
| ch_of known x p ls : only_attrs x known -> Forall2 (choice_member p) (particles x) ls -> choice_of known x p ls

with sequence_member : name -> xelem -> leaf -> Prop :=
| sm_element p x l : xe_tag x = "element" -> element_member p x l -> sequence_member p x l
| sm_choice p x min max ls g : xe_tag x = "choice" -> min_of x min -> max_of x max ->
    choice_of ["minOccurs"; "maxOccurs"] x p ls ->
    In (made_up [nm p; g], RootChoice (mkChoiceDef ls true None)) stored ->
    sequence_member p x (group_leaf (mkName g vns) (made_up [nm p; g]) None min max)
| sm_sequence p x an rest docs min ls g : xe_tag x = "sequence" ->
    take "annotation" (xsd_children x) an rest -> docs_of an docs -> min_of x min ->
    sequence_of ["minOccurs"] x p ls ->
    In (made_up [nm p; g], group_type ls) stored ->
    sequence_member p x (group_leaf (mkName g vns) (made_up [nm p; g]) docs min (MaxNumber 1))

with choice_member : name -> xelem -> leaf -> Prop :=
| cmb_element p x l : xe_tag x = "element" -> element_member p x l -> choice_member p x l
| cmb_sequence p x an rest docs min max ls g : xe_tag x = "sequence" ->
    take "annotation" (xsd_children x) an rest -> docs_of an docs -> min_of x min -> max_of x max ->
    sequence_of ["minOccurs"; "maxOccurs"] x p ls ->
    In (made_up [nm p; g; "Variant"], group_type ls) stored ->
    choice_member p x (group_leaf (mkName g vns) (made_up [nm p; g; "Variant"]) docs min max)

(** An element inside a sequence or choice. *)
with element_member : name -> xelem -> leaf -> Prop :=
| em_ref p x a t min max : the_attr x "ref" a -> min_of x min -> max_of x max ->
    only_attrs x ["minOccurs"; "maxOccurs"; "ref"] -> type_of (at_value a) (LcNamed t) ->
    element_member p x (simple_leaf t (LcNamed t) None min max)
| em_typed p x na an rest docs lc known min max : no_attr x "ref" -> the_attr x "name" na ->
    min_of x min -> max_of x max ->
    take "annotation" (xsd_children x) an rest -> docs_of an docs ->
    typed x lc known ->
    only_attrs x (["minOccurs"; "maxOccurs"; "ref"; "name"; "default"; "form"] ++ known) ->
    element_member p x (simple_leaf (mkName (at_value na) vns) lc docs min max)
| em_any p x na an rest docs min max : no_attr x "ref" -> the_attr x "name" na ->
    min_of x min -> max_of x max ->
    take "annotation" (xsd_children x) an rest -> docs_of an docs -> no_attr x "type" ->
    only_attrs x ["minOccurs"; "maxOccurs"; "ref"; "name"; "default"; "form"; "type"] ->
    Forall (fun c => xe_tag c <> "simpleType" /\ xe_tag c <> "complexType") (xsd_children x) ->
    element_member p x (simple_leaf (mkName (at_value na) vns) (LcLiteral LAny) docs min max)
| em_anonymous p x na an rest docs min max r : no_attr x "ref" -> the_attr x "name" na ->
    min_of x min -> max_of x max ->
    take "annotation" (xsd_children x) an rest -> docs_of an docs -> no_attr x "type" ->
    only_attrs x ["minOccurs"; "maxOccurs"; "ref"; "name"; "default"; "form"; "type"] ->
    Exists (fun c => xe_tag c = "simpleType" \/ xe_tag c = "complexType") (xsd_children x) ->
    declared ["minOccurs"; "maxOccurs"; "ref"; "name"; "default"; "form"; "type"] x
      (made_up [nm p; at_value na; "Data"]) r ->
    In (made_up [nm p; at_value na; "Data"], r) stored ->
    element_member p x
      (simple_leaf (mkName (at_value na) vns) (LcNamed (made_up [nm p; at_value na; "Data"])) docs min max).
End Decl.

(** ** Whole documents and sets of files *)
(** The target namespace and the namespace of local elements. *)
Definition target_of (d : xelem) (nss : namespaces) (t : namespace) : Prop :=
  (exists a, the_attr d "targetNamespace" a /\ ns_uri nss t (at_value a))
  \/ (no_attr d "targetNamespace" /\ t = NsNone).
Definition qualified_form (d : xelem) : Prop :=
  exists l a r, xe_attrs d = l ++ a :: r /\ at_name a = "elementFormDefault" /\ at_ns a = None
    /\ at_value a = "qualified" /\ Forall (fun b => ~ (at_name b = "elementFormDefault" /\ at_ns b = None)) l.
Definition local_ns (d : xelem) (t v : namespace) : Prop :=
  (qualified_form d /\ v = t) \/ (~ qualified_form d /\ v = NsNone).

(** A log of definitions; later ones replace earlier ones of the same name. *)
Definition last_def (n : name) (log : list (name * root)) (r : root) : Prop :=
  exists l rest, log = l ++ (n, r) :: rest /\ Forall (fun e => fst e <> n) rest.
(** [es] are the definitions left at the end, in any order. *)
Definition listing (log es : list (name * root)) : Prop :=
  NoDup (map fst es) /\ forall n r, In (n, r) es <-> last_def n log r.

Section Files.
Context {L : Libs}.
Variable f : fs.
Variable nss : namespaces.

(** The log of a schema document: its children in order. An include or import
    contributes the definitions left at the end of the other file; a declaration
    contributes the types made up inside it and then itself. *)
Inductive defines : string -> xelem -> list (name * root) -> Prop :=
| df_doc path d t v ess : target_of d nss t -> local_ns d t v ->
    Forall2 (child_defines path d t v) (xsd_children d) ess -> defines path d (concat ess)
with child_defines : string -> xelem -> namespace -> namespace -> xelem -> list (name * root) -> Prop :=
| cd_load path d t v x a d' log es : is_load x -> the_attr x "schemaLocation" a ->
    fs_read f (fs_push f (fs_parent f path) (at_value a)) = Some (Some d') ->
    defines (fs_push f (fs_parent f path) (at_value a)) d' log -> listing log es ->
    child_defines path d t v x es
| cd_decl path d t v x a made r : ~ is_load x -> the_attr x "name" a ->
    declared d nss v made ["name"] x (mkName (at_value a) t) r ->
    Forall (fun e => nm_ns (fst e) = v) made ->
    child_defines path d t v x (made ++ [(mkName (at_value a) t, r)]).
End Files.
(** No element binds a prefix twice (part of being well-formed XML). *)
Definition files_bind_once (f : fs) : Prop := forall p d, fs_read f p = Some (Some d) -> prefixes_once d.

(** ** What is checked (C31) *)
(** Opening an element of the schema language: [y] is a child of [x] the
    generator looks into. It does not look into elements that have a [type] or a
    [ref], nor into annotations. *)
Definition opens (x y : xelem) : Prop :=
  (xe_tag x = "element" /\ no_attr x "type" /\ no_attr x "ref" /\ In (xe_tag y) ["complexType"; "simpleType"])
  \/ (In (xe_tag x) ["complexType"; "sequence"; "all"; "choice"] /\ xe_tag y <> "annotation")
  \/ In (xe_tag x) ["simpleContent"; "complexContent"; "extension"]
  \/ (xe_tag x = "attribute" /\ xe_tag y = "simpleType").
Inductive reached (d : xelem) : xelem -> Prop :=
| re_top x : In x (xsd_children d) -> ~ is_load x -> reached d x
| re_down x y : reached d x -> In y (xsd_children x) -> opens x y -> reached d y.
(** The attributes and children known for each kind of element. *)
Definition known_parts : list (string * (list string * list string)) :=
  [("element", (["name"; "type"; "fixed"; "minOccurs"; "maxOccurs"; "ref"; "default"; "form"],
                ["annotation"; "complexType"; "simpleType"]));
   ("attribute", (["name"; "type"; "fixed"; "default"; "use"], ["annotation"; "simpleType"]));
   ("complexType", (["name"; "mixed"],
                    ["annotation"; "simpleContent"; "complexContent"; "sequence"; "all"; "choice"; "attribute"]));
   ("sequence", (["minOccurs"; "maxOccurs"], ["annotation"; "element"; "choice"; "sequence"]));
   ("all", (["minOccurs"; "maxOccurs"], ["annotation"; "element"; "choice"; "sequence"]));
   ("choice", (["minOccurs"; "maxOccurs"], ["annotation"; "element"; "sequence"]));
   ("simpleType", (["name"], ["annotation"; "restriction"]));
   ("simpleContent", ([], ["extension"]));
   ("complexContent", ([], ["extension"]));
   ("extension", ([], ["sequence"; "attribute"]))].
(** The two exceptions: attributes of a prohibited attribute and of an extension;
    children of an element that has a type or a ref, or no anonymous type. *)
Definition attrs_exempt (x : xelem) : Prop :=
  xe_tag x = "extension"
  \/ (xe_tag x = "attribute" /\ exists a, the_attr x "use" a /\ at_value a = "prohibited").
Definition children_exempt (x : xelem) : Prop :=
  xe_tag x = "element"
  /\ (~ no_attr x "type" \/ ~ no_attr x "ref"
      \/ Forall (fun y => ~ In (xe_tag y) ["complexType"; "simpleType"]) (xsd_children x)).
Definition checked (x : xelem) : Prop :=
  exists attrs kids, In (xe_tag x, (attrs, kids)) known_parts
  /\ (attrs_exempt x \/ only_attrs x attrs)
  /\ (children_exempt x \/ Forall (fun y => In (xe_tag y) kids) (xsd_children x)).

(** ** Particles and their leaves (C36) *)
Definition refers (v l : string) : Prop := (exists p, qname v p l) \/ (plain v /\ l = v).
Definition kept (x : xelem) (l : leaf) : Prop :=
  min_of x (lf_min l)
  /\ (xe_tag x = "element" /\ max_of x (lf_max l)
      /\ ((exists a, the_attr x "ref" a /\ refers (at_value a) (nm (lf_name l)))
          \/ (no_attr x "ref" /\ exists a, the_attr x "name" a /\ at_value a = nm (lf_name l)))
     \/ xe_tag x = "choice" /\ max_of x (lf_max l) /\ lf_virtual l = true
     \/ xe_tag x = "sequence" /\ (max_of x (lf_max l) \/ lf_max l = MaxNumber 1) /\ lf_virtual l = true).
