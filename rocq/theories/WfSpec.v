(** * WfSpec: schemas whose generated module makes sense, and typed values *)
From Verif Require Import Base Libs Xml Ast Decode Gen Run LitSpec DecSpec RepSpec.

(** The contents a type reads from the element it is itself read from (aliases,
    simple content, groups), and all contents it reads. *)
Definition here_contents (r : root) : list leaf_content :=
  match r with
  | RootLeaf d => [ld_content d]
  | RootEnum _ => []
  | RootElement d =>
      match ed_content d with
      | Some (EcLeaf _ d) => [ld_content d]
      | Some (EcLeaves ls) => map (fun f => ld_content (lf_def f)) (filter lf_virtual ls)
      | None => []
      end
  | RootChoice d => map (fun f => ld_content (lf_def f)) (filter lf_virtual (cd_variants d))
  end.
Definition contents (r : root) : list leaf_content :=
  match r with
  | RootLeaf d => [ld_content d]
  | RootEnum _ => []
  | RootElement d =>
      match ed_content d with
      | Some (EcLeaf _ d) => [ld_content d]
      | Some (EcLeaves ls) => map (fun f => ld_content (lf_def f)) ls
      | None => []
      end
  | RootChoice d => map (fun f => ld_content (lf_def f)) (cd_variants d)
  end.
Definition attributes_of (r : root) : list attribute :=
  match r with RootElement d => ed_attributes d | _ => [] end.

Section Wf.
Context {L : Libs}.
Variable c : schema_ctx.
Variable gs : list name.

(** [m] names a sequence or choice for which a type was generated. *)
Definition is_group (m : name) : Prop :=
  In m gs /\ (exists id, type_ident m = Ok id /\ look_ident m = Ok id) /\
  ((exists d, sc_get c m = Some (RootElement d)) \/ (exists d, sc_get c m = Some (RootChoice d))).

(** Nested sequences and choices refer to such names. *)
Definition groups_ok : Prop := forall n r f, In n gs -> sc_get c n = Some r ->
  In f (leaves_of r) -> lf_virtual f = true -> exists m, ld_content (lf_def f) = LcNamed m /\ is_group m.

(** Every type mentioned was generated. *)
Definition refs_ok : Prop := forall n r ct m, In n gs -> sc_get c n = Some r ->
  In ct (contents r) -> final c ct (LcNamed m) -> exists n' r', type_of c gs m n' r'.

(** Attributes have built-in, fixed, string or enumerated types. *)
Definition attribute_ok (a : attribute) : Prop :=
  match a_content a with
  | LcNamed m => alias_string c m \/
      exists m' n names, final c (LcNamed m) (LcNamed m') /\ type_of c gs m' n (RootEnum names)
  | _ => True
  end.
Definition attrs_ok : Prop := forall n r a, In n gs -> sc_get c n = Some r -> In a (attributes_of r) -> attribute_ok a.

(** No repeated group directly inside a choice. *)
Definition choices_ok : Prop := forall n d f, In n gs -> sc_get c n = Some (RootChoice d) ->
  In f (cd_variants d) -> lf_virtual f = true -> lf_is_vec f = false.

Record compiles : Prop := mkCompiles {
  cp_groups : groups_ok;
  cp_refs : refs_ok;
  cp_attrs : attrs_ok;
  cp_choices : choices_ok
}.

(** No type contains itself without an element in between. *)
Definition grounded : Prop := exists rank : name -> nat, forall n r ct m n' r',
  In n gs -> sc_get c n = Some r -> In ct (here_contents r) -> final c ct (LcNamed m) -> type_of c gs m n' r' ->
  rank n' < rank n.
End Wf.

(** ** Values of the declared types *)
Section Typed.
Variable p : program.

Inductive has_type : rty -> value -> Prop :=
| ht_prim q v : prim_value q v -> has_type (TPrim q) v
| ht_unit : has_type TUnit VUnit
| ht_vec t vs : Forall (has_type t) vs -> has_type (TVec t) (VVec vs)
| ht_none t : has_type (TOpt t) VNone
| ht_some t v : has_type t v -> has_type (TOpt t) (VSome v)
| ht_ref id t v : lookup_item p id = Some t -> has_decl (ti_decl t) v -> has_type (TRef id) v
with has_decl : decl -> value -> Prop :=
| hd_tuple t b v : has_type t v -> has_decl (DTuple t b) (VTuple v)
| hd_enum vs x : In x (map fst vs) -> has_decl (DEnum vs) (VEnum x)
| hd_struct fs vs : Forall2 (fun f v => fst f = fst v /\ has_type (snd f) (snd v)) fs vs ->
    has_decl (DStruct fs) (VStruct vs)
| hd_choice vs i t v : In (i, t) vs -> has_type t v -> has_decl (DChoice vs) (VChoice i v).
End Typed.
