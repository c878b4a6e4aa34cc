(** * SchemaSpec: schemas whose declarations the Rust compiler accepts (C54)

    Conditions on the types [gs] of a schema, in terms of names, members and
    references; no generated module is involved. The Rust name of a type, field or
    variant is that of Gen.v ([type_ident], [field_ident], [variant_ident]: C43),
    the names of enumeration variants are those of C44. *)
From Verif Require Import Base Libs Xml Ast Gen DecSpec RustSpec.

(** A field or variant: its name, its type, and whether its values are kept in place
    (not in a vector). *)
Definition member := (name * leaf_content * bool)%type.
Definition mb_name (m : member) : name := fst (fst m).
Definition mb_content (m : member) : leaf_content := snd (fst m).
Definition mb_in_place (m : member) : bool := snd m.
Definition leaf_member (f : leaf) : member := (lf_name f, ld_content (lf_def f), negb (lf_is_vec f)).
Definition fields_of (d : element_def) : list member :=
  match ed_content d with
  | None => []
  | Some (EcLeaf n def) => [(n, ld_content def, true)]
  | Some (EcLeaves ls) => map leaf_member ls
  end ++ map (fun a => (a_name a, a_content a, true)) (ed_attributes d).
Definition members_of (r : root) : list member :=
  match r with
  | RootLeaf d => [(mkName "0" NsNone, ld_content d, true)]
  | RootEnum _ => []
  | RootElement d => fields_of d
  | RootChoice d => map leaf_member (cd_variants d)
  end.

Section Schema.
Context {L : Libs}.
Variable c : schema_ctx.
Variable gs : list name.

(** The names [ms] become pairwise different Rust names, none of them a keyword. *)
Definition named_apart (ident : name -> G string) (ms : list name) : Prop :=
  exists fs, Forall2 (fun m f => ident m = Ok f) ms fs /\ NoDup fs /\ Forall plain_ident fs.

Inductive members_named : root -> Prop :=
| mn_leaf d : members_named (RootLeaf d)
| mn_enum vs : vs <> [] -> (forall v, In v vs -> plain_ident (enum_base_name (nm v))) -> members_named (RootEnum vs)
| mn_element d : named_apart field_ident (map mb_name (fields_of d)) -> members_named (RootElement d)
| mn_choice d : cd_variants d <> [] -> named_apart variant_ident (map lf_name (cd_variants d)) -> members_named (RootChoice d).

Record schema_ok : Prop := mkSchemaOk {
  (* different types have different Rust names *)
  so_distinct : forall n n' id, In n gs -> In n' gs -> type_ident n = Ok id -> type_ident n' = Ok id -> n = n';
  (* which are neither keywords nor those of the prelude *)
  so_names : forall n id, In n gs -> type_ident n = Ok id -> plain_ident id /\ ~ In id prelude_types
    /\ ((exists d, sc_get c n = Some (RootLeaf d)) -> ~ In id prelude_values);
  (* so are fields and variants *)
  so_members : forall n r, In n gs -> sc_get c n = Some r -> members_named r;
  (* the types referred to exist *)
  so_types : forall n r m t, In n gs -> sc_get c n = Some r -> In m (members_of r) -> final c (mb_content m) (LcNamed t) ->
    exists n' r', type_of c gs t n' r';
  (* and no type contains itself in place *)
  so_sized : exists rank : name -> nat, forall n r m t n' r', In n gs -> sc_get c n = Some r -> In m (members_of r) ->
    mb_in_place m = true -> final c (mb_content m) (LcNamed t) -> type_of c gs t n' r' -> rank n' < rank n
}.
End Schema.
