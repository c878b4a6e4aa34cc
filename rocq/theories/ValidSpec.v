(** * ValidSpec: documents that are valid by the schema

    Validity in the sense of XML Schema, on the types of the schema: content models
    as concatenation, choice and counted repetition; no values, no decoder. With
    parameters for what the decoder is less strict about, so that there are two
    instances: [valid_document], as XML Schema has it, and [checked_document], with
    only the checks that the decoder makes. Differences to XML Schema: the lexical
    forms of the built-in types are those Rust parses; in [valid_document] members of
    xs:all are in the declared order; undeclared attributes are allowed. *)
From Verif Require Import Base Libs Xml Ast Decode Gen Run CursorSpec LitSpec DecSpec RepSpec.

(** The element contains nothing but character data [s] (and comments after it). *)
Definition only_text (e : xelem) (s : string) : Prop :=
  (xe_kids e = [] /\ s = "") \/
  exists ks, xe_kids e = KText s :: ks /\ Forall (fun k => exists t, k = KOther t) ks.
(** It starts with the character data [s]. *)
Definition first_text (e : xelem) (s : string) : Prop :=
  (xe_kids e = [] /\ s = "") \/ exists ks, xe_kids e = KText s :: ks.

(** [k] occurrences are allowed. *)
Definition allowed (f : leaf) (k : nat) : Prop :=
  (lf_min f <= N.of_nat k)%N /\ match lf_max f with MaxNumber m => (N.of_nat k <= m)%N | MaxUnbounded => True end.
(** The number of occurrences of repeated members is not checked; maxOccurs="0" is
    taken as 1. *)
Definition loosely (f : leaf) (k : nat) : Prop :=
  match lf_max f with MaxNumber 0 | MaxNumber 1 => k <= 1 /\ (lf_min f <> 0%N -> k = 1) | _ => True end.

Section Valid.
Context {L : Libs}.
Variable c : schema_ctx.
Variable gs : list name.
Variable J : list xelem -> list xelem -> list xelem -> Prop.   (* how two parts make up the whole *)
Variable K : list xelem -> list xelem -> Prop.                 (* what else an element may contain *)
Variable A : leaf -> nat -> Prop.                              (* how often *)
Variable T : xelem -> string -> Prop.                          (* the text of an element *)
Variable X : bool.                                             (* are fixed attribute values checked? *)

Inductive lexical : leaf_content -> string -> Prop :=
| lx_literal ct lit s v : final c ct (LcLiteral lit) -> lit_from_str lit s = Ok v -> lexical ct s
| lx_fixed ct s : final c ct (LcFixed s) -> lexical ct s
| lx_enum ct m n names s : final c ct (LcNamed m) -> type_of c gs m n (RootEnum names) -> In s (map nm names) ->
    lexical ct s.

Definition valid_attr (a : attribute) (e : xelem) : Prop :=
  match d_attribute e (nm (a_name a)) with
  | None => a_optional a = true
  | Some s => lexical (a_content a) s \/ (X = false /\ exists t, a_content a = LcFixed t)
  end.

(** [valid_content ct e l]: the children [l] of [e] (and its text and attributes) are
    valid content of kind [ct]. *)
Inductive valid_content : leaf_content -> xelem -> list xelem -> Prop :=
| va_text ct e s : lexical ct s -> T e s -> valid_content ct e []
| va_type ct m n r e l : final c ct (LcNamed m) -> type_of c gs m n r -> valid_type r e l -> valid_content ct e l

with valid_type : root -> xelem -> list xelem -> Prop :=
| vt_alias d e l : valid_content (ld_content d) e l -> valid_type (RootLeaf d) e l
| vt_enum names e s : In s (map nm names) -> T e s -> valid_type (RootEnum names) e []
| vt_element d e l : valid_fields (ed_content d) e l -> (forall a, In a (ed_attributes d) -> valid_attr a e) ->
    valid_type (RootElement d) e l
| vt_choice d f e l : In f (cd_variants d) -> valid_particle f e l -> valid_type (RootChoice d) e l

with valid_fields : option element_content -> xelem -> list xelem -> Prop :=
| vf_empty e : valid_fields None e []
| vf_simple n d e l : valid_content (ld_content d) e l -> valid_fields (Some (EcLeaf n d)) e l
| vf_sequence ls e l : valid_sequence ls e l -> valid_fields (Some (EcLeaves ls)) e l

with valid_sequence : list leaf -> xelem -> list xelem -> Prop :=
| vs_nil e : valid_sequence [] e []
| vs_cons f fs e l1 l2 l : valid_particle f e l1 -> valid_sequence fs e l2 -> J l1 l2 l -> valid_sequence (f :: fs) e l

with valid_particle : leaf -> xelem -> list xelem -> Prop :=
| vp f k e l : A f k -> valid_times f k e l -> valid_particle f e l

with valid_times : leaf -> nat -> xelem -> list xelem -> Prop :=
| vn_none f e : valid_times f 0 e []
| vn_more f k e l1 l2 l : valid_once f e l1 -> valid_times f k e l2 -> J l1 l2 l -> valid_times f (S k) e l

with valid_once : leaf -> xelem -> list xelem -> Prop :=
| vo_group f e l : lf_virtual f = true -> valid_content (ld_content (lf_def f)) e l -> valid_once f e l
| vo_element f ns x e l : lf_virtual f = false -> quote_xml_namespace c (lf_name f) = Some ns ->
    matches (nm (lf_name f)) ns x -> valid_content (ld_content (lf_def f)) x l -> K l (xe_children x) -> valid_once f e [x].

Inductive valid_doc : name -> xelem -> Prop :=
| vd n ns r e l : In n gs -> quote_xml_namespace c n = Some ns -> matches (nm n) ns e ->
    sc_get c n = Some r -> valid_type r e l -> K l (xe_children e) -> valid_doc n e.

(** Alternatives of choices occur at least once. *)
Definition variants_required : Prop := forall n d f, In n gs -> sc_get c n = Some (RootChoice d) ->
  In f (cd_variants d) -> lf_is_optional f = false.
End Valid.

Definition valid_document {L : Libs} c gs := valid_doc c gs appended exactly allowed only_text true.
Definition checked_document {L : Libs} c gs J := valid_doc c gs J (leftovers J) loosely first_text false.

Scheme valid_content_mut := Minimality for valid_content Sort Prop
  with valid_type_mut := Minimality for valid_type Sort Prop
  with valid_fields_mut := Minimality for valid_fields Sort Prop
  with valid_sequence_mut := Minimality for valid_sequence Sort Prop
  with valid_particle_mut := Minimality for valid_particle Sort Prop
  with valid_times_mut := Minimality for valid_times Sort Prop
  with valid_once_mut := Minimality for valid_once Sort Prop.
Combined Scheme valid_ind from valid_content_mut, valid_type_mut, valid_fields_mut, valid_sequence_mut,
  valid_particle_mut, valid_times_mut, valid_once_mut.
