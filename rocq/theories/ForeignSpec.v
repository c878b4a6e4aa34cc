(** * ForeignSpec: adding foreign markup to a schema document (C32) *)
From Verif Require Import Base Libs Xml XsdNode Parse.

(** The attributes of the schema language that are looked at. *)
Definition xsd_attr_names : list string :=
  ["name"; "type"; "ref"; "fixed"; "minOccurs"; "maxOccurs"; "default"; "form"; "use"; "base"; "mixed"; "value";
   "targetNamespace"; "elementFormDefault"; "schemaLocation"].

(** Attributes that differ at most in their position. *)
Definition same_attr (a b : attr) : Prop := at_name b = at_name a /\ at_ns b = at_ns a /\ at_value b = at_value a.

(** ... whose positions are related. *)
Definition moved_attr (At : range -> range -> Prop) (a b : attr) : Prop := same_attr a b /\ At (at_range a) (at_range b).

(** The second list of attributes is the first one with attributes of other
    namespaces added, whose local names are neither attribute names of the schema
    language nor local names of attributes without namespace ([bare]) of the same
    element. *)
Inductive more_attrs (At : range -> range -> Prop) (bare : list string) : list attr -> list attr -> Prop :=
| ma_nil : more_attrs At bare [] []
| ma_keep a b l l' : moved_attr At a b -> more_attrs At bare l l' -> more_attrs At bare (a :: l) (b :: l')
| ma_add a l l' : at_ns a <> None -> ~ In (at_name a) xsd_attr_names -> ~ In (at_name a) bare ->
    more_attrs At bare l l' -> more_attrs At bare l (a :: l').
Definition bare_names (l : list attr) : list string :=
  map at_name (filter (fun a => match at_ns a with None => true | Some _ => false end) l).
(** The text an element starts with. *)
Definition first_text (ks : list (kid xelem)) : option string :=
  match ks with KText s :: _ => Some s | _ => None end.

(** The second element is the first one with foreign attributes added and foreign
    elements, texts and comments put between the children, at any depth, except
    that documentation still starts with the same text. Everything may be at
    another position, related by [At], the namespace declarations of the element may
    differ, and so may what stands in a comment. *)
Inductive dressed (At : range -> range -> Prop) : xelem -> xelem -> Prop :=
| dr_elem t ns ats ats' nss nss' r r' ks ks' :
    more_attrs At (bare_names ats) ats ats' -> (t = "documentation" -> first_text ks' = first_text ks) -> At r r' -> dressed_kids At ks ks' ->
    dressed At (XE t ns ats nss r ks) (XE t ns ats' nss' r' ks')
with dressed_kids (At : range -> range -> Prop) : list (kid xelem) -> list (kid xelem) -> Prop :=
| dk_nil : dressed_kids At [] []
| dk_elem e e' ks ks' : dressed At e e' -> dressed_kids At ks ks' -> dressed_kids At (KElem e :: ks) (KElem e' :: ks')
| dk_text s ks ks' : dressed_kids At ks ks' -> dressed_kids At (KText s :: ks) (KText s :: ks')
| dk_other s s' ks ks' : dressed_kids At ks ks' -> dressed_kids At (KOther s :: ks) (KOther s' :: ks')
| dk_add k ks ks' : (forall e, k = KElem e -> xe_ns e <> Some NS_XSD) -> dressed_kids At ks ks' -> dressed_kids At ks (k :: ks').

(** Documents: the schema element may declare further prefixes, or ([strict])
    declares the same ones. *)
Definition more_prefixes (d d' : xelem) : Prop :=
  NoDup (map fst (xe_nss d)) /\ NoDup (map fst (xe_nss d'))
  /\ (forall p uri, In (Some p, uri) (xe_nss d) -> In (Some p, uri) (xe_nss d'))
  /\ (forall uri, In (None, uri) (xe_nss d) <-> In (None, uri) (xe_nss d')).
Definition moved_doc (At : range -> range -> Prop) (strict : Prop) (d d' : xelem) : Prop :=
  dressed At d d' /\ more_prefixes d d' /\ (strict -> xe_nss d = xe_nss d').
Definition moved_files (At : string -> range -> range -> Prop) (strict : Prop) (f f' : fs) : Prop :=
  (forall p q, fs_push f p q = fs_push f' p q) /\ (forall p, fs_parent f p = fs_parent f' p)
  /\ forall p, match fs_read f p, fs_read f' p with
               | Some (Some d), Some (Some d') => moved_doc (At p) strict d d'
               | Some None, Some None | None, None => True
               | _, _ => False
               end.
(** At any positions. *)
Definition anywhere (r r' : range) : Prop := True.
Definition dressed_doc : Prop -> xelem -> xelem -> Prop := moved_doc anywhere.
Definition dressed_files : Prop -> fs -> fs -> Prop := moved_files (fun _ => anywhere).

(** Outcomes without the positions in errors. *)
Definition no_range : range := (0, 0)%N.
Definition node_err_text (e : node_err) : node_err :=
  match e with
  | NeMissingElement a b _ => NeMissingElement a b no_range
  | NeMissingAttribute a b _ => NeMissingAttribute a b no_range
  | NeTextExpected a _ => NeTextExpected a no_range
  | NeUnsupportedAttribute a b _ => NeUnsupportedAttribute a b no_range
  | NeUnsupportedElement a b _ => NeUnsupportedElement a b no_range
  end.
Definition err_text (e : xsd_err) : xsd_err :=
  match e with
  | XeXml => XeXml
  | XeNode e => XeNode (node_err_text e)
  | XeUnsupportedElement a _ => XeUnsupportedElement a no_range
  | XeUnsupportedAttributeValue a b c _ => XeUnsupportedAttributeValue a b c no_range
  | XeUnexpectedAttribute a b _ => XeUnexpectedAttribute a b no_range
  | XeMissingElement a b _ => XeMissingElement a b no_range
  | XeMissingNamespace a _ => XeMissingNamespace a no_range
  | XeParseInt _ => XeParseInt no_range
  | XeParseDecimal _ => XeParseDecimal no_range
  | XeUnsupportedType a _ => XeUnsupportedType a no_range
  end.
Definition schema_err_text (e : schema_err) : schema_err :=
  match e with SeXsd e f => SeXsd (err_text e) f | SeOpen f => SeOpen f | SeNotFound n => SeNotFound n end.
Definition outcome {A} (m : res schema_err A) : res schema_err A := map_err schema_err_text m.

(** The same outcome, with errors at related positions. *)
Definition moved_err (At : range -> range -> Prop) (e e' : xsd_err) : Prop :=
  err_text e' = err_text e /\ forall r r', xsd_err_range e = Some r -> xsd_err_range e' = Some r' -> At r r'.
Definition moved_schema_err (At : string -> range -> range -> Prop) (e e' : schema_err) : Prop :=
  match e, e' with
  | SeXsd x p, SeXsd x' p' => p' = p /\ moved_err (At p) x x'
  | _, _ => e' = e
  end.
Definition moved {A} (At : string -> range -> range -> Prop) (m m' : res schema_err A) : Prop :=
  match m, m' with
  | Ok a, Ok a' => a' = a
  | Err e, Err e' => moved_schema_err At e e'
  | Panic w, Panic w' => w' = w
  | OutOfFuel, OutOfFuel => True
  | _, _ => False
  end.

(** Any foreign attributes and elements added, without the restrictions above. *)
Inductive foreign_attrs : list attr -> list attr -> Prop :=
| fa_nil : foreign_attrs [] []
| fa_keep a b l l' : same_attr a b -> foreign_attrs l l' -> foreign_attrs (a :: l) (b :: l')
| fa_add a l l' uri : at_ns a = Some uri -> foreign_attrs l l' -> foreign_attrs l (a :: l').
Inductive foreign_added : xelem -> xelem -> Prop :=
| fo_elem t ns ats ats' nss r r' ks ks' : foreign_attrs ats ats' -> foreign_kids ks ks' ->
    foreign_added (XE t ns ats nss r ks) (XE t ns ats' nss r' ks')
with foreign_kids : list (kid xelem) -> list (kid xelem) -> Prop :=
| fk_nil : foreign_kids [] []
| fk_elem e e' ks ks' : foreign_added e e' -> foreign_kids ks ks' -> foreign_kids (KElem e :: ks) (KElem e' :: ks')
| fk_keep k ks ks' : foreign_kids ks ks' -> foreign_kids (k :: ks) (k :: ks')
| fk_add e uri ks ks' : xe_ns e = Some uri -> uri <> NS_XSD -> foreign_kids ks ks' -> foreign_kids ks (KElem e :: ks').
