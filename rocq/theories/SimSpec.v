(** * SimSpec: documents that differ only where the types do not look *)
From Coq Require Import Permutation.
From Verif Require Import Base Libs Xml Ast Decode Gen Run CursorSpec DecSpec ReadSpec RepSpec.

Section Spec.
Context {L : Libs}.
Variable c : schema_ctx.
Variable gs : list name.

(** An element of that name is declared in some type. *)
Definition declared (n : string) (ns : option string) : Prop :=
  exists m r f, In m gs /\ sc_get c m = Some r /\ In f (leaves_of r) /\ lf_virtual f = false
    /\ nm (lf_name f) = n /\ quote_xml_namespace c (lf_name f) = Some ns.

(** An attribute of that name is declared in some type. *)
Definition declared_attr (n : string) : Prop :=
  exists m d a, In m gs /\ sc_get c m = Some (RootElement d) /\ In a (ed_attributes d) /\ nm (a_name a) = n.

(** Elements with that content have character data. *)
Inductive has_text : leaf_content -> Prop :=
| ht_lit ct lit : final c ct (LcLiteral lit) -> has_text ct
| ht_fixed ct s : final c ct (LcFixed s) -> has_text ct
| ht_named ct m n r : final c ct (LcNamed m) -> type_of c gs m n r -> root_text r -> has_text ct
with root_text : root -> Prop :=
| rt_leaf d : has_text (ld_content d) -> root_text (RootLeaf d)
| rt_enum ns : root_text (RootEnum ns)
| rt_simple d n ld : ed_content d = Some (EcLeaf n ld) -> has_text (ld_content ld) -> root_text (RootElement d)
| rt_group r f : In f (leaves_of r) -> lf_virtual f = true -> has_text (ld_content (lf_def f)) -> root_text r.

(** Some type reads the text of elements of that name. *)
Definition text_name (n : string) (ns : option string) : Prop :=
  (exists m r f, In m gs /\ sc_get c m = Some r /\ In f (leaves_of r) /\ lf_virtual f = false
     /\ nm (lf_name f) = n /\ quote_xml_namespace c (lf_name f) = Some ns
     /\ has_text (ld_content (lf_def f)))
  \/ (exists m r, In m gs /\ sc_get c m = Some r /\ nm m = n /\ quote_xml_namespace c m = Some ns /\ root_text r).

(** The content of every type by which elements of that name are read is an xs:all
    whose members are required. *)
Definition all_root (r : root) : Prop :=
  exists d ls, r = RootElement d /\ ed_content d = Some (EcLeaves ls) /\ Forall all_leaf ls.
Definition all_content (ct : leaf_content) : Prop :=
  (exists m, final c ct (LcNamed m)) /\ forall m n r, final c ct (LcNamed m) -> type_of c gs m n r -> all_root r.
Definition all_name (t : string) (ns : option string) : Prop :=
  (forall m r f, In m gs -> sc_get c m = Some r -> In f (leaves_of r) -> lf_virtual f = false ->
     nm (lf_name f) = t -> quote_xml_namespace c (lf_name f) = Some ns -> all_content (ld_content (lf_def f)))
  /\ (forall n r, In n gs -> sc_get c n = Some r -> nm n = t -> quote_xml_namespace c n = Some ns ->
     all_root r \/ exists d, r = RootLeaf d /\ all_content (ld_content d)).

(** [similar e e']: same name; same text if it matters; the same declared
    attributes; the children are similar one by one, except that either side may
    have further children, of names no type declares, after the others. Or the
    children are similar in another order, if that does not matter. *)
Inductive similar : xelem -> xelem -> Prop :=
| similar_intro e e' l1 x1 l2 x2 :
    xe_tag e = xe_tag e' -> xe_ns e = xe_ns e' ->
    (forall a, declared_attr a -> d_attribute e a = d_attribute e' a) ->
    (text_name (xe_tag e) (xe_ns e) -> d_text e = d_text e') ->
    xe_children e = l1 ++ x1 -> xe_children e' = l2 ++ x2 ->
    Forall2 similar l1 l2 ->
    Forall (fun x => ~ declared (xe_tag x) (xe_ns x)) x1 ->
    Forall (fun x => ~ declared (xe_tag x) (xe_ns x)) x2 ->
    similar e e'
| similar_all e e' l :
    xe_tag e = xe_tag e' -> xe_ns e = xe_ns e' ->
    (forall a, declared_attr a -> d_attribute e a = d_attribute e' a) ->
    (text_name (xe_tag e) (xe_ns e) -> d_text e = d_text e') ->
    all_name (xe_tag e) (xe_ns e) -> NoDup (map kid_name (xe_children e)) ->
    Forall2 similar (xe_children e) l -> Permutation l (xe_children e') ->
    similar e e'.

(** Attributes added anywhere: in a namespace, or of a name no type declares. *)
Inductive more_attrs : list attr -> list attr -> Prop :=
| ma_nil : more_attrs [] []
| ma_keep a l l' : more_attrs l l' -> more_attrs (a :: l) (a :: l')
| ma_add a l l' : at_ns a <> None \/ ~ declared_attr (at_name a) -> more_attrs l l' -> more_attrs l (a :: l').

(** [extended e e']: [e'] is [e] with attributes added as above and children of
    undeclared names appended, here and in the children. *)
Inductive extended : xelem -> xelem -> Prop :=
| ext_intro t ns ats ats' ss r ks ks' extra :
    more_attrs ats ats' -> ext_kids ks ks' ->
    Forall (fun x => ~ declared (xe_tag x) (xe_ns x)) (elems_of extra) ->
    (text_name t ns -> ks = [] -> extra = []) ->
    extended (XE t ns ats ss r ks) (XE t ns ats' ss r (ks' ++ extra))
with ext_kids : list (kid xelem) -> list (kid xelem) -> Prop :=
| ek_nil : ext_kids [] []
| ek_elem x x' ks ks' : extended x x' -> ext_kids ks ks' -> ext_kids (KElem x :: ks) (KElem x' :: ks')
| ek_text s ks ks' : ext_kids ks ks' -> ext_kids (KText s :: ks) (KText s :: ks')
| ek_other s ks ks' : ext_kids ks ks' -> ext_kids (KOther s :: ks) (KOther s :: ks').

(** [reordered e e']: [e'] is [e] with the children of some elements read as xs:all in
    another order (with any text and comments in between, unless the text is read). *)
Inductive reordered : xelem -> xelem -> Prop :=
| ro_same e : reordered e e
| ro_inside t ns ats ss r ks ks' : Forall2 reordered (elems_of ks) (elems_of ks') ->
    (text_name t ns -> d_text (XE t ns ats ss r ks) = d_text (XE t ns ats ss r ks')) ->
    reordered (XE t ns ats ss r ks) (XE t ns ats ss r ks')
| ro_all t ns ats ss r ks ks' l : all_name t ns -> NoDup (map kid_name (elems_of ks)) ->
    Forall2 reordered (elems_of ks) l -> Permutation l (elems_of ks') ->
    (text_name t ns -> d_text (XE t ns ats ss r ks) = d_text (XE t ns ats ss r ks')) ->
    reordered (XE t ns ats ss r ks) (XE t ns ats ss r ks').

(** [relaid e e']: [e'] differs from [e] by character data, comments and
    processing instructions between the children of elements whose text no type
    reads. *)
Inductive relaid : xelem -> xelem -> Prop :=
| rl_same e : relaid e e
| rl_inside t ns ats ss r ks ks' : ~ text_name t ns -> relaid_kids ks ks' ->
    relaid (XE t ns ats ss r ks) (XE t ns ats ss r ks')
with relaid_kids : list (kid xelem) -> list (kid xelem) -> Prop :=
| rk_nil : relaid_kids [] []
| rk_elem x x' ks ks' : relaid x x' -> relaid_kids ks ks' -> relaid_kids (KElem x :: ks) (KElem x' :: ks')
| rk_drop k ks ks' : (forall x, k <> KElem x) -> relaid_kids ks ks' -> relaid_kids (k :: ks) ks'
| rk_add k ks ks' : (forall x, k <> KElem x) -> relaid_kids ks ks' -> relaid_kids ks (k :: ks').
End Spec.

Scheme extended_mut := Minimality for extended Sort Prop with ext_kids_mut := Minimality for ext_kids Sort Prop.
Combined Scheme extended_ind2 from extended_mut, ext_kids_mut.
Scheme relaid_mut := Minimality for relaid Sort Prop with relaid_kids_mut := Minimality for relaid_kids Sort Prop.
Combined Scheme relaid_ind2 from relaid_mut, relaid_kids_mut.
