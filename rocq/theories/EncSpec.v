(** * EncSpec: which types write a tag of their own *)
From Verif Require Import Base Libs Xml Ast Writer Gen Run DecSpec.

Section Spec.
Context {L : Libs}.
Variable c : schema_ctx.
Variable gs : list name.

(** Named content writes its tag through the type it ends up with. *)
Definition named_content (ec : option element_content) : option name :=
  match ec with
  | Some (EcLeaf _ d) => match ld_content d with LcNamed m => Some m | _ => None end
  | _ => None
  end.

(** [tagged n]: a value of the type [n] is written inside a tag. Not so: nested
    sequences and choices, and names of a built-in type given through another
    named simple type. *)
Inductive tagged : name -> Prop :=
| tg_leaf n d : sc_get c n = Some (RootLeaf d) -> (forall m, ld_content d <> LcNamed m) -> tagged n
| tg_alias n d m m' n' r : sc_get c n = Some (RootLeaf d) -> ld_content d = LcNamed m ->
    final c (LcNamed m) (LcNamed m') -> type_of c gs m' n' r -> tagged n' -> tagged n
| tg_enum n names : sc_get c n = Some (RootEnum names) -> tagged n
| tg_element n d : sc_get c n = Some (RootElement d) -> ed_virtual d = false ->
    named_content (ed_content d) = None -> tagged n
| tg_named n d m m' n' r : sc_get c n = Some (RootElement d) -> named_content (ed_content d) = Some m ->
    final c (LcNamed m) (LcNamed m') -> type_of c gs m' n' r -> tagged n' -> tagged n
| tg_choice n d : sc_get c n = Some (RootChoice d) -> cd_virtual d = false -> tagged n.
End Spec.
