(** * EvoSpec: schemas that grow, values and documents of the old schema under the new one

    Stated on the types of two schemas: no generated code, no decoder, no writer. *)
From Verif Require Import Base Libs Xml Ast Decode Gen Run DecSpec.

(** [l'] is [l], each member kept as [same] has it, with members [new] in between. *)
Inductive with_more {A} (same : A -> A -> Prop) (new : A -> Prop) : list A -> list A -> Prop :=
| wm_nil : with_more same new [] []
| wm_keep x y l l' : same x y -> with_more same new l l' -> with_more same new (x :: l) (y :: l')
| wm_new y l l' : new y -> with_more same new l l' -> with_more same new l (y :: l').

(** Names of the types of a schema. *)
Definition names_in (c : schema_ctx) : list name := map fst (sc_elements c).

(** ** Values *)
(** The value [v'] is [v] with further members that are absent. *)
Inductive grown : value -> value -> Prop :=
| gr_str s : grown (VStr s) (VStr s)
| gr_bool b : grown (VBool b) (VBool b)
| gr_int z : grown (VInt z) (VInt z)
| gr_dec d : grown (VDec d) (VDec d)
| gr_f32 b : grown (VF32 b) (VF32 b)
| gr_unit : grown VUnit VUnit
| gr_none : grown VNone VNone
| gr_some v v' : grown v v' -> grown (VSome v) (VSome v')
| gr_vec vs vs' : grown_list vs vs' -> grown (VVec vs) (VVec vs')
| gr_tuple v v' : grown v v' -> grown (VTuple v) (VTuple v')
| gr_enum x : grown (VEnum x) (VEnum x)
| gr_struct fs fs' : grown_fields fs fs' -> grown (VStruct fs) (VStruct fs')
| gr_choice x v v' : grown v v' -> grown (VChoice x v) (VChoice x v')
with grown_list : list value -> list value -> Prop :=
| gl_nil : grown_list [] []
| gl_cons v v' vs vs' : grown v v' -> grown_list vs vs' -> grown_list (v :: vs) (v' :: vs')
with grown_fields : list (string * value) -> list (string * value) -> Prop :=
| gf_nil : grown_fields [] []
| gf_keep f v v' fs fs' : grown v v' -> grown_fields fs fs' -> grown_fields ((f, v) :: fs) ((f, v') :: fs')
| gf_new f fs fs' : grown_fields fs fs' -> grown_fields fs ((f, VNone) :: fs').

Scheme grown_mut := Minimality for grown Sort Prop
  with grown_list_mut := Minimality for grown_list Sort Prop
  with grown_fields_mut := Minimality for grown_fields Sort Prop.
Combined Scheme grown_ind2 from grown_mut, grown_list_mut, grown_fields_mut.

(** ** Schemas *)
Section Schemas.
Variable Ns : list (string * option string).   (* the names of added elements *)
Variable As : list string.                     (* the names of added attributes *)
Variable wide : bool.                          (* may enumerations get more values? *)

(** The same but for documentation, restrictions and the bounds of repeated elements. *)
Definition same_leaf (f f' : leaf) : Prop :=
  lf_name f' = lf_name f /\ ld_content (lf_def f') = ld_content (lf_def f) /\ lf_unordered f' = lf_unordered f
  /\ lf_virtual f' = lf_virtual f /\ lf_is_optional f' = lf_is_optional f /\ lf_is_vec f' = lf_is_vec f.
Definition same_attr (a a' : attribute) : Prop :=
  a_name a' = a_name a /\ a_content a' = a_content a /\ a_optional a' = a_optional a.

Section Grown.
Variable c' : schema_ctx.                      (* the new schema *)

(** An added element (of a choice, or an optional one), an added attribute. *)
Definition new_element (f : leaf) : Prop :=
  lf_virtual f = false /\ exists ns, quote_xml_namespace c' (lf_name f) = Some ns /\ In (nm (lf_name f), ns) Ns.
Definition new_optional (f : leaf) : Prop := new_element f /\ lf_is_optional f = true.
Definition new_attr (a : attribute) : Prop := a_optional a = true /\ In (nm (a_name a)) As.

Inductive grown_content : option element_content -> option element_content -> Prop :=
| gc_empty : grown_content None None
| gc_none ls : Forall new_optional ls -> grown_content None (Some (EcLeaves ls))
| gc_leaf n d d' : ld_content d' = ld_content d -> grown_content (Some (EcLeaf n d)) (Some (EcLeaf n d'))
| gc_leaves ls ls' : with_more same_leaf new_optional ls ls' ->
    grown_content (Some (EcLeaves ls)) (Some (EcLeaves ls')).

Inductive grown_root : root -> root -> Prop :=
| go_leaf d d' : ld_content d' = ld_content d -> grown_root (RootLeaf d) (RootLeaf d')
| go_enum names : grown_root (RootEnum names) (RootEnum names)
| go_values names more : wide = true -> grown_root (RootEnum names) (RootEnum (names ++ more))
| go_element d d' : grown_content (ed_content d) (ed_content d') ->
    with_more same_attr new_attr (ed_attributes d) (ed_attributes d') ->
    ed_virtual d' = ed_virtual d -> grown_root (RootElement d) (RootElement d')
| go_choice d d' : with_more same_leaf new_element (cd_variants d) (cd_variants d') ->
    cd_virtual d' = cd_virtual d -> grown_root (RootChoice d) (RootChoice d').
End Grown.

(** The schema [c'] has the types of [c], grown, and perhaps more types. *)
Record evolves (c c' : schema_ctx) : Prop := mkEvolves {
  ev_roots : forall n r, sc_get c n = Some r -> exists r', sc_get c' n = Some r' /\ grown_root c' r r';
  ev_target : sc_target c' = sc_target c;
  ev_qualified : sc_qualified c' = sc_qualified c;
  ev_namespaces : sc_namespaces c' = sc_namespaces c }.

(** ** Documents *)
(** Nothing in the element has a name of something added. *)
Inductive unaware : xelem -> Prop :=
| un e : (forall a, In a As -> d_attribute e a = None) ->
    Forall (fun x => ~ In (xe_tag x, xe_ns x) Ns /\ unaware x) (xe_children e) -> unaware e.
End Schemas.
