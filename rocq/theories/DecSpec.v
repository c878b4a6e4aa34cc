(** * DecSpec: what decoding should do, stated on the schema

    A big-step description of decoding on the schema's types ([root], [leaf]),
    with the children still to be read as a plain list: no generated code, no
    cursor, no fuel. [read_root n r e l o]: reading a value of the type [n] (whose
    definition is [r]) from the element [e], the children [l] of [e] being still
    unread, ends with [o]: a value and the children left, or an error. *)
From Verif Require Import Base Libs Xml Ast Decode Gen Run.

Definition rmap {E A B} (f : A -> B) (o : res E A) : res E B := a <- o ;; Ok (f a).
Definition with_rest {A B} (f : A -> B) (x : A * list xelem) : B * list xelem :=
  let '(a, l) := x in (f a, l).

(** An outcome: a value or an error. *)
Definition fin {E A} (o : res E A) : Prop :=
  match o with Ok _ | Err _ => True | _ => False end.

(** Is the first unread child an element of that name? *)
Definition first_is (n : string) (ns : option string) (l : list xelem) : bool :=
  match l with x :: _ => has_name n ns x | [] => false end.

Section Spec.
Context {L : Libs}.
Variable c : schema_ctx.
Variable gs : list name.      (* the names types were generated for *)

(** Other names of a type ([<xs:element name="m" type="..."/>], simple types
    without enumeration) are followed. *)
Inductive final : leaf_content -> leaf_content -> Prop :=
| fi_lit lit : final (LcLiteral lit) (LcLiteral lit)
| fi_fixed s : final (LcFixed s) (LcFixed s)
| fi_named m : (forall d, sc_get c m <> Some (RootLeaf d)) -> final (LcNamed m) (LcNamed m)
| fi_alias m d ct : sc_get c m = Some (RootLeaf d) -> final (ld_content d) ct -> final (LcNamed m) ct.

(** The generated type that the Rust name made from [m] refers to. *)
Definition type_of (m n : name) (r : root) : Prop :=
  In n gs /\ sc_get c n = Some r /\ exists id, type_ident m = Ok id /\ type_ident n = Ok id.
Definition group_of (m n : name) (r : root) : Prop :=
  In n gs /\ sc_get c n = Some r /\ exists id, look_ident m = Ok id /\ type_ident n = Ok id.

(** ** Does a group start with the next child? *)
Inductive look_group : name -> list xelem -> bool -> Prop :=
| lg_leaf m n d l : group_of m n (RootLeaf d) -> look_group m l true
| lg_enum m n ns l : group_of m n (RootEnum ns) -> look_group m l true
| lg_other m n d l : group_of m n (RootElement d) ->
    (forall ls, ed_content d <> Some (EcLeaves ls)) -> look_group m l false
| lg_leaves m n d ls l b : group_of m n (RootElement d) ->
    ed_content d = Some (EcLeaves ls) -> look_seq ls l b -> look_group m l b
| lg_choice m n d l b : group_of m n (RootChoice d) ->
    look_any (cd_variants d) l b -> look_group m l b
with look_leaf : leaf -> list xelem -> bool -> Prop :=
| ll_virtual f m l b : lf_virtual f = true -> ld_content (lf_def f) = LcNamed m ->
    look_group m l b -> look_leaf f l b
| ll_plain f ns l : lf_virtual f = false -> quote_xml_namespace c (lf_name f) = Some ns ->
    look_leaf f l (first_is (nm (lf_name f)) ns l)
with look_seq : list leaf -> list xelem -> bool -> Prop :=
| ls_nil l : look_seq [] l false
| ls_yes f fs l : look_leaf f l true -> look_seq (f :: fs) l true
| ls_required f fs l : look_leaf f l false -> lf_is_optional f = false -> look_seq (f :: fs) l false
| ls_optional f fs l b : look_leaf f l false -> lf_is_optional f = true ->
    look_seq fs l b -> look_seq (f :: fs) l b
with look_any : list leaf -> list xelem -> bool -> Prop :=
| la_nil l : look_any [] l false
| la_yes f fs l : look_leaf f l true -> look_any (f :: fs) l true
| la_no f fs l b : look_leaf f l false -> look_any fs l b -> look_any (f :: fs) l b.

(** ** Attributes *)
Definition alias_string (m : name) : Prop :=
  exists lit, final (LcNamed m) (LcLiteral lit) /\ lit_prim lit = PString.

(** The value of an attribute from its text. *)
Inductive converts : leaf_content -> string -> R value -> Prop :=
| cv_lit lit s : converts (LcLiteral lit) s (lit_from_str lit s)
| cv_fixed f s : converts (LcFixed f) s (Ok VUnit)
| cv_string m s : alias_string m -> converts (LcNamed m) s (Ok (VStr s))
| cv_enum m m' n names vs s : final (LcNamed m) (LcNamed m') -> type_of m' n (RootEnum names) ->
    enum_variants names = Ok vs -> converts (LcNamed m) s (enum_from_str vs s).

Inductive read_attr : attribute -> xelem -> R value -> Prop :=
| ra_absent_opt a e : d_attribute e (nm (a_name a)) = None -> a_optional a = true ->
    read_attr a e (Ok VNone)
| ra_absent_req a e : d_attribute e (nm (a_name a)) = None -> a_optional a = false ->
    read_attr a e (Err (FeMissingAttribute (nm (a_name a))))
| ra_present_opt a e s o : d_attribute e (nm (a_name a)) = Some s -> a_optional a = true ->
    converts (a_content a) s o -> read_attr a e (rmap VSome o)
| ra_present_req a e s o : d_attribute e (nm (a_name a)) = Some s -> a_optional a = false ->
    converts (a_content a) s o -> read_attr a e o.

Inductive read_attrs : list attribute -> xelem -> R (list (string * value)) -> Prop :=
| rs_nil e : read_attrs [] e (Ok [])
| rs_err a ats e x : read_attr a e (Err x) -> read_attrs (a :: ats) e (Err x)
| rs_cons a ats e f v o : read_attr a e (Ok v) -> field_ident (a_name a) = Ok f ->
    read_attrs ats e o -> read_attrs (a :: ats) e (rmap (cons (f, v)) o).

(** ** Content *)
Inductive read_content : leaf_content -> xelem -> list xelem -> R (value * list xelem) -> Prop :=
| rc_lit ct lit e l : final ct (LcLiteral lit) ->
    read_content ct e l (s <- d_text e ;; v <- lit_from_str lit s ;; Ok (v, l))
| rc_fixed ct s e l : final ct (LcFixed s) ->
    read_content ct e l
      (t <- d_text e ;; if t =?s s then Ok (VUnit, l) else Err (FeFixedMismatch s t))
| rc_named ct m n r e l o : final ct (LcNamed m) -> type_of m n r ->
    read_root n r e l o -> read_content ct e l o

(** The content of a child element of its own. *)
with read_sub : leaf_content -> xelem -> R value -> Prop :=
| rb_sub ct x o : read_content ct x (xe_children x) o -> read_sub ct x (rmap fst o)

with read_root : name -> root -> xelem -> list xelem -> R (value * list xelem) -> Prop :=
| rr_leaf n d e l o : read_content (ld_content d) e l o ->
    read_root n (RootLeaf d) e l (rmap (with_rest VTuple) o)
| rr_enum n names vs e l : enum_variants names = Ok vs ->
    read_root n (RootEnum names) e l (s <- d_text e ;; v <- enum_from_str vs s ;; Ok (v, l))
| rr_element_err n d e l x : read_fields (ed_content d) e l (Err x) ->
    read_root n (RootElement d) e l (Err x)
| rr_element n d e l l' vs oa : read_fields (ed_content d) e l (Ok (vs, l')) ->
    read_attrs (ed_attributes d) e oa ->
    read_root n (RootElement d) e l (avs <- oa ;; Ok (VStruct (vs ++ avs), l'))
| rr_choice n d e l o : read_choice n (cd_variants d) e l o ->
    read_root n (RootChoice d) e l o

with read_fields : option element_content -> xelem -> list xelem ->
                   R (list (string * value) * list xelem) -> Prop :=
| rf_none e l : read_fields None e l (Ok ([], l))
| rf_leaf n d f e l o : field_ident n = Ok f -> read_content (ld_content d) e l o ->
    read_fields (Some (EcLeaf n d)) e l (rmap (with_rest (fun v => [(f, v)])) o)
| rf_leaves ls e l o : read_leaves ls e l o -> read_fields (Some (EcLeaves ls)) e l o

(** The members of a sequence one after the other. *)
with read_leaves : list leaf -> xelem -> list xelem ->
                   R (list (string * value) * list xelem) -> Prop :=
| rv_nil e l : read_leaves [] e l (Ok ([], l))
| rv_err f fs e l x : read_leaf f e l (Err x) -> read_leaves (f :: fs) e l (Err x)
| rv_cons f fs e l l' i v o : read_leaf f e l (Ok (v, l')) -> field_ident (lf_name f) = Ok i ->
    read_leaves fs e l' o -> read_leaves (f :: fs) e l (rmap (with_rest (cons (i, v))) o)

with read_leaf : leaf -> xelem -> list xelem -> R (value * list xelem) -> Prop :=
(* groups: read from the same element *)
| rl_group f e l o : lf_virtual f = true -> lf_is_vec f = false -> lf_is_optional f = false ->
    read_content (ld_content (lf_def f)) e l o -> read_leaf f e l o
| rl_group_no f m e l : lf_virtual f = true -> lf_is_vec f = false -> lf_is_optional f = true ->
    ld_content (lf_def f) = LcNamed m -> look_group m l false -> read_leaf f e l (Ok (VNone, l))
| rl_group_yes f m e l o : lf_virtual f = true -> lf_is_vec f = false -> lf_is_optional f = true ->
    ld_content (lf_def f) = LcNamed m -> look_group m l true ->
    read_content (ld_content (lf_def f)) e l o -> read_leaf f e l (rmap (with_rest VSome) o)
| rl_groups f m e l o : lf_virtual f = true -> lf_is_vec f = true ->
    ld_content (lf_def f) = LcNamed m -> read_groups m e l o ->
    read_leaf f e l (rmap (with_rest (vec_value (lf_is_optional f))) o)
(* elements *)
| rl_run f ns e l o : lf_virtual f = false -> lf_is_vec f = true ->
    quote_xml_namespace c (lf_name f) = Some ns ->
    read_run (nm (lf_name f)) ns (ld_content (lf_def f)) l o ->
    read_leaf f e l (rmap (with_rest (vec_value (lf_is_optional f))) o)
| rl_optional_no f ns e l : lf_virtual f = false -> lf_is_vec f = false -> lf_is_optional f = true ->
    quote_xml_namespace c (lf_name f) = Some ns -> first_is (nm (lf_name f)) ns l = false ->
    read_leaf f e l (Ok (VNone, l))
| rl_optional_yes f ns e x l o : lf_virtual f = false -> lf_is_vec f = false -> lf_is_optional f = true ->
    quote_xml_namespace c (lf_name f) = Some ns -> has_name (nm (lf_name f)) ns x = true ->
    read_sub (ld_content (lf_def f)) x o ->
    read_leaf f e (x :: l) (rmap (fun v => (VSome v, l)) o)
| rl_missing f ns e l : lf_virtual f = false -> lf_is_vec f = false -> lf_is_optional f = false ->
    lf_unordered f = false ->
    quote_xml_namespace c (lf_name f) = Some ns -> first_is (nm (lf_name f)) ns l = false ->
    read_leaf f e l (Err (FeMissingElement (nm (lf_name f)) ns))
| rl_next f ns e x l o : lf_virtual f = false -> lf_is_vec f = false -> lf_is_optional f = false ->
    lf_unordered f = false ->
    quote_xml_namespace c (lf_name f) = Some ns -> has_name (nm (lf_name f)) ns x = true ->
    read_sub (ld_content (lf_def f)) x o ->
    read_leaf f e (x :: l) (rmap (fun v => (v, l)) o)
| rl_nowhere f ns e l : lf_virtual f = false -> lf_is_vec f = false -> lf_is_optional f = false ->
    lf_unordered f = true ->
    quote_xml_namespace c (lf_name f) = Some ns ->
    Forall (fun y => has_name (nm (lf_name f)) ns y = false) l ->
    read_leaf f e l (Err (FeMissingElement (nm (lf_name f)) ns))
| rl_anywhere f ns e l1 x l2 o : lf_virtual f = false -> lf_is_vec f = false -> lf_is_optional f = false ->
    lf_unordered f = true ->
    quote_xml_namespace c (lf_name f) = Some ns ->
    Forall (fun y => has_name (nm (lf_name f)) ns y = false) l1 ->
    has_name (nm (lf_name f)) ns x = true ->
    read_sub (ld_content (lf_def f)) x o ->
    read_leaf f e (l1 ++ x :: l2) (rmap (fun v => (v, l1 ++ l2)) o)

(** Repeated groups, repeated elements. *)
with read_groups : name -> xelem -> list xelem -> R (list value * list xelem) -> Prop :=
| rg_stop m e l : look_group m l false -> read_groups m e l (Ok ([], l))
| rg_err m e l x : look_group m l true -> read_content (LcNamed m) e l (Err x) -> read_groups m e l (Err x)
| rg_more m e l l' v o : look_group m l true -> read_content (LcNamed m) e l (Ok (v, l')) ->
    read_groups m e l' o -> read_groups m e l (rmap (with_rest (cons v)) o)

with read_run : string -> option string -> leaf_content -> list xelem ->
                R (list value * list xelem) -> Prop :=
| ru_stop n ns ct l : first_is n ns l = false -> read_run n ns ct l (Ok ([], l))
| ru_err n ns ct x l y : has_name n ns x = true -> read_sub ct x (Err y) ->
    read_run n ns ct (x :: l) (Err y)
| ru_more n ns ct x l v o : has_name n ns x = true -> read_sub ct x (Ok v) ->
    read_run n ns ct l o -> read_run n ns ct (x :: l) (rmap (with_rest (cons v)) o)

(** The variants of a choice, tried in order. *)
with read_choice : name -> list leaf -> xelem -> list xelem -> R (value * list xelem) -> Prop :=
| rh_none n id e l : type_ident n = Ok id -> read_choice n [] e l (Err (FeMissingVariant id))
| rh_group_no n f fs m e l o : lf_virtual f = true -> ld_content (lf_def f) = LcNamed m ->
    look_group m l false -> read_choice n fs e l o -> read_choice n (f :: fs) e l o
| rh_group n f fs m i e l o : lf_virtual f = true -> ld_content (lf_def f) = LcNamed m ->
    look_group m l true -> variant_ident (lf_name f) = Ok i ->
    read_content (LcNamed m) e l o -> read_choice n (f :: fs) e l (rmap (with_rest (VChoice i)) o)
| rh_elem_no n f fs ns e l o : lf_virtual f = false -> quote_xml_namespace c (lf_name f) = Some ns ->
    first_is (nm (lf_name f)) ns l = false -> read_choice n fs e l o -> read_choice n (f :: fs) e l o
| rh_run n f fs ns i e l o : lf_virtual f = false -> quote_xml_namespace c (lf_name f) = Some ns ->
    lf_is_vec f = true -> first_is (nm (lf_name f)) ns l = true -> variant_ident (lf_name f) = Ok i ->
    read_run (nm (lf_name f)) ns (ld_content (lf_def f)) l o ->
    read_choice n (f :: fs) e l (rmap (with_rest (fun ws => VChoice i (VVec ws))) o)
| rh_elem n f fs ns i e x l o : lf_virtual f = false -> quote_xml_namespace c (lf_name f) = Some ns ->
    lf_is_vec f = false -> has_name (nm (lf_name f)) ns x = true -> variant_ident (lf_name f) = Ok i ->
    read_sub (ld_content (lf_def f)) x o ->
    read_choice n (f :: fs) e (x :: l) (rmap (fun w => (VChoice i w, l)) o).

(** A whole document. *)
Inductive read_doc : name -> xelem -> R value -> Prop :=
| rd_other n ns e : In n gs -> quote_xml_namespace c n = Some ns -> has_name (nm n) ns e = false ->
    read_doc n e (Err (FeMissingElement (nm n) ns))
| rd_root n ns r e o : In n gs -> quote_xml_namespace c n = Some ns -> has_name (nm n) ns e = true ->
    sc_get c n = Some r -> read_root n r e (xe_children e) o -> read_doc n e (rmap fst o).
End Spec.

Scheme look_group_mut := Minimality for look_group Sort Prop
  with look_leaf_mut := Minimality for look_leaf Sort Prop
  with look_seq_mut := Minimality for look_seq Sort Prop
  with look_any_mut := Minimality for look_any Sort Prop.
Combined Scheme look_ind from look_group_mut, look_leaf_mut, look_seq_mut, look_any_mut.

Scheme read_content_mut := Minimality for read_content Sort Prop
  with read_sub_mut := Minimality for read_sub Sort Prop
  with read_root_mut := Minimality for read_root Sort Prop
  with read_fields_mut := Minimality for read_fields Sort Prop
  with read_leaves_mut := Minimality for read_leaves Sort Prop
  with read_leaf_mut := Minimality for read_leaf Sort Prop
  with read_groups_mut := Minimality for read_groups Sort Prop
  with read_run_mut := Minimality for read_run Sort Prop
  with read_choice_mut := Minimality for read_choice Sort Prop.
Combined Scheme read_ind from read_content_mut, read_sub_mut, read_root_mut, read_fields_mut,
  read_leaves_mut, read_leaf_mut, read_groups_mut, read_run_mut, read_choice_mut.
