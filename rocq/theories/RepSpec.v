(** * RepSpec: which elements a value stands for

    [rep_doc n v e]: the value [v] of the type [n] describes the document [e].
    Stated on the schema: every part of the value is matched with the child
    elements it was made from, and with nothing else. Nothing is said about how
    one would find that matching (no lookahead, no greedy runs). *)
From Verif Require Import Base Libs Xml Ast Decode Gen Run CursorSpec DecSpec.

(** [shuffle a b l]: [l] is made of the elements of [a] and of [b], each in order. *)
Inductive shuffle {A} : list A -> list A -> list A -> Prop :=
| sh_nil : shuffle [] [] []
| sh_left x a b l : shuffle a b l -> shuffle (x :: a) b (x :: l)
| sh_right x a b l : shuffle a b l -> shuffle a (x :: b) (x :: l).

Definition appended {A} (a b l : list A) : Prop := l = a ++ b.

(** What else an element may contain besides the children [l] accounted for: more
    children ([leftovers]) or nothing ([exactly]). *)
Definition leftovers {A} (J : list A -> list A -> list A -> Prop) (l all : list A) : Prop := exists rest, J l rest all.
Definition exactly {A} (l all : list A) : Prop := all = l.

(** How many values a repeated member may have: any number, or at least one unless
    it is optional ([counted false]). *)
Definition any_number (f : leaf) (vs : list value) : Prop := True.
Definition counted (empty_ok : bool) (f : leaf) (vs : list value) : Prop :=
  empty_ok = false -> lf_is_optional f = false -> vs <> [].

Definition leaves_of (r : root) : list leaf :=
  match r with
  | RootElement d => match ed_content d with Some (EcLeaves ls) => ls | _ => [] end
  | RootChoice d => cd_variants d
  | _ => []
  end.
(** No member of an xs:all among the types. *)
Definition all_ordered (c : schema_ctx) (gs : list name) : Prop :=
  forall n r f, In n gs -> sc_get c n = Some r -> In f (leaves_of r) -> lf_unordered f = false.

Section Spec.
Context {L : Libs}.
Variable c : schema_ctx.
Variable gs : list name.
(** How the elements of two neighbouring parts make up the whole: [appended], or
    [shuffle] when xs:all is around. *)
Variable J : list xelem -> list xelem -> list xelem -> Prop.
Variable K : list xelem -> list xelem -> Prop.
Variable V : leaf -> list value -> Prop.

(** The value of an attribute present with the text [s]. *)
Inductive rep_attr : attribute -> value -> xelem -> Prop :=
| pa_absent a e : d_attribute e (nm (a_name a)) = None -> a_optional a = true -> rep_attr a VNone e
| pa_opt a e s v : d_attribute e (nm (a_name a)) = Some s -> a_optional a = true ->
    converts c gs (a_content a) s (Ok v) -> rep_attr a (VSome v) e
| pa_req a e s v : d_attribute e (nm (a_name a)) = Some s -> a_optional a = false ->
    converts c gs (a_content a) s (Ok v) -> rep_attr a v e.

Definition rep_attrs (ats : list attribute) (avs : list (string * value)) (e : xelem) : Prop :=
  Forall2 (fun a fv => field_ident (a_name a) = Ok (fst fv) /\ rep_attr a (snd fv) e) ats avs.

(** [rep_content ct v e l]: [v], content of kind [ct] of the element [e],
    accounts for the children [l] of [e]. *)
Inductive rep_content : leaf_content -> value -> xelem -> list xelem -> Prop :=
| pc_lit ct lit s v e : final c ct (LcLiteral lit) -> d_text e = Ok s -> lit_from_str lit s = Ok v ->
    rep_content ct v e []
| pc_fixed ct s e : final c ct (LcFixed s) -> d_text e = Ok s -> rep_content ct VUnit e []
| pc_named ct m n r v e l : final c ct (LcNamed m) -> type_of c gs m n r -> rep_root n r v e l ->
    rep_content ct v e l

(** A child element of its own. *)
with rep_sub : leaf_content -> value -> xelem -> Prop :=
| pb_sub ct v x l : rep_content ct v x l -> K l (xe_children x) -> rep_sub ct v x

with rep_root : name -> root -> value -> xelem -> list xelem -> Prop :=
| pr_leaf n d v e l : rep_content (ld_content d) v e l -> rep_root n (RootLeaf d) (VTuple v) e l
| pr_enum n names vs s v e : enum_variants names = Ok vs -> d_text e = Ok s -> enum_from_str vs s = Ok v ->
    rep_root n (RootEnum names) v e []
| pr_element n d vs avs e l : rep_fields (ed_content d) vs e l -> rep_attrs (ed_attributes d) avs e ->
    rep_root n (RootElement d) (VStruct (vs ++ avs)) e l
| pr_choice n d f i w e l : In f (cd_variants d) -> variant_ident (lf_name f) = Ok i ->
    rep_variant f w e l -> rep_root n (RootChoice d) (VChoice i w) e l

with rep_fields : option element_content -> list (string * value) -> xelem -> list xelem -> Prop :=
| pf_none e : rep_fields None [] e []
| pf_leaf n d f v e l : field_ident n = Ok f -> rep_content (ld_content d) v e l ->
    rep_fields (Some (EcLeaf n d)) [(f, v)] e l
| pf_leaves ls vs e l : rep_leaves ls vs e l -> rep_fields (Some (EcLeaves ls)) vs e l

with rep_leaves : list leaf -> list (string * value) -> xelem -> list xelem -> Prop :=
| pv_nil e : rep_leaves [] [] e []
| pv_cons f fs i v vs e l1 l2 l : rep_leaf f v e l1 -> field_ident (lf_name f) = Ok i ->
    rep_leaves fs vs e l2 -> J l1 l2 l -> rep_leaves (f :: fs) ((i, v) :: vs) e l

with rep_leaf : leaf -> value -> xelem -> list xelem -> Prop :=
| pl_group f v e l : lf_virtual f = true -> lf_is_vec f = false -> lf_is_optional f = false ->
    rep_content (ld_content (lf_def f)) v e l -> rep_leaf f v e l
| pl_group_no f e : lf_virtual f = true -> lf_is_vec f = false -> lf_is_optional f = true ->
    rep_leaf f VNone e []
| pl_group_yes f v e l : lf_virtual f = true -> lf_is_vec f = false -> lf_is_optional f = true ->
    rep_content (ld_content (lf_def f)) v e l -> rep_leaf f (VSome v) e l
| pl_groups f vs e l : lf_virtual f = true -> lf_is_vec f = true ->
    rep_groups (ld_content (lf_def f)) vs e l -> V f vs -> rep_leaf f (vec_value (lf_is_optional f) vs) e l
| pl_run f ns vs e l : lf_virtual f = false -> lf_is_vec f = true ->
    quote_xml_namespace c (lf_name f) = Some ns ->
    rep_run (nm (lf_name f)) ns (ld_content (lf_def f)) vs l -> V f vs ->
    rep_leaf f (vec_value (lf_is_optional f) vs) e l
| pl_none f e : lf_virtual f = false -> lf_is_vec f = false -> lf_is_optional f = true ->
    rep_leaf f VNone e []
| pl_some f ns v x e : lf_virtual f = false -> lf_is_vec f = false -> lf_is_optional f = true ->
    quote_xml_namespace c (lf_name f) = Some ns -> matches (nm (lf_name f)) ns x ->
    rep_sub (ld_content (lf_def f)) v x -> rep_leaf f (VSome v) e [x]
| pl_one f ns v x e : lf_virtual f = false -> lf_is_vec f = false -> lf_is_optional f = false ->
    quote_xml_namespace c (lf_name f) = Some ns -> matches (nm (lf_name f)) ns x ->
    rep_sub (ld_content (lf_def f)) v x -> rep_leaf f v e [x]

with rep_groups : leaf_content -> list value -> xelem -> list xelem -> Prop :=
| pg_nil ct e : rep_groups ct [] e []
| pg_cons ct v vs e l1 l2 l : rep_content ct v e l1 -> rep_groups ct vs e l2 -> J l1 l2 l ->
    rep_groups ct (v :: vs) e l

with rep_run : string -> option string -> leaf_content -> list value -> list xelem -> Prop :=
| pu_nil n ns ct : rep_run n ns ct [] []
| pu_cons n ns ct v vs x l : matches n ns x -> rep_sub ct v x -> rep_run n ns ct vs l ->
    rep_run n ns ct (v :: vs) (x :: l)

with rep_variant : leaf -> value -> xelem -> list xelem -> Prop :=
| px_group f w e l : lf_virtual f = true -> rep_content (ld_content (lf_def f)) w e l -> rep_variant f w e l
| px_run f ns w ws e l : lf_virtual f = false -> lf_is_vec f = true ->
    quote_xml_namespace c (lf_name f) = Some ns ->
    rep_run (nm (lf_name f)) ns (ld_content (lf_def f)) (w :: ws) l ->
    rep_variant f (VVec (w :: ws)) e l
| px_one f ns w x e : lf_virtual f = false -> lf_is_vec f = false ->
    quote_xml_namespace c (lf_name f) = Some ns -> matches (nm (lf_name f)) ns x ->
    rep_sub (ld_content (lf_def f)) w x -> rep_variant f w e [x].

(** A document: the root element has the type's name; its children are those the
    value accounts for and permitted leftovers. *)
Inductive rep_doc : name -> value -> xelem -> Prop :=
| pd n ns r v e l : In n gs -> quote_xml_namespace c n = Some ns -> matches (nm n) ns e ->
    sc_get c n = Some r -> rep_root n r v e l -> K l (xe_children e) -> rep_doc n v e.
End Spec.

Scheme rep_content_mut := Minimality for rep_content Sort Prop
  with rep_sub_mut := Minimality for rep_sub Sort Prop
  with rep_root_mut := Minimality for rep_root Sort Prop
  with rep_fields_mut := Minimality for rep_fields Sort Prop
  with rep_leaves_mut := Minimality for rep_leaves Sort Prop
  with rep_leaf_mut := Minimality for rep_leaf Sort Prop
  with rep_groups_mut := Minimality for rep_groups Sort Prop
  with rep_run_mut := Minimality for rep_run Sort Prop
  with rep_variant_mut := Minimality for rep_variant Sort Prop.
Combined Scheme rep_ind from rep_content_mut, rep_sub_mut, rep_root_mut, rep_fields_mut,
  rep_leaves_mut, rep_leaf_mut, rep_groups_mut, rep_run_mut, rep_variant_mut.
