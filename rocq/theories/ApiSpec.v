(** * ApiSpec: the types a user of a generated module sees

    Specification for PropApi.v, in terms of the types of the schema (Ast.v): how a type,
    its fields and its variants are called and which types they have. *)
From Verif Require Import Base Libs Ast Gen GenSpec RustSpec.

Section Api.
Context {L : Libs}.
Variable c : schema_ctx.

(** A name is written as it is, a keyword as a raw identifier. *)
Definition called (s i : string) : Prop := (plain_ident s /\ i = s) \/ (~ plain_ident s /\ i = "r#" +++ s).
Definition type_called (n : name) (i : string) : Prop := called (to_pascal_case (nm n)) i.
Definition field_called (n : name) (i : string) : Prop := called (to_snake_case (nm n)) i.

(** The type of a content: that of the built-in type, the unit type for a fixed value, else
    the type of that name, or what it is just another name of. *)
Definition literal_types : list (literal * prim) :=
  [(LString, PString); (LBoolean, PBool); (LInt64, PI64); (LUint64, PU64); (LInt32, PI32); (LDecimal, PDecimal); (LFloat32, PF32);
   (LTime, PString); (LDate, PString); (LDateTime, PString); (LDuration, PString); (LBase64Binary, PString); (LHexBinary, PString); (LAny, PString)].
Inductive content_type : leaf_content -> rty -> Prop :=
| ct_literal l q : In (l, q) literal_types -> content_type (LcLiteral l) (TPrim q)
| ct_fixed s : content_type (LcFixed s) TUnit
| ct_alias n d t : sc_get c n = Some (RootLeaf d) -> content_type (ld_content d) t -> content_type (LcNamed n) t
| ct_named n i : (forall d, sc_get c n <> Some (RootLeaf d)) -> type_called n i -> content_type (LcNamed n) (TRef i).
(** A member that may occur more than once is a list, one that may be absent optional. *)
Definition once (m : max_occurs) : Prop := m = MaxNumber 0 \/ m = MaxNumber 1.
Inductive occurring (min : N) (max : max_occurs) (t : rty) : rty -> Prop :=
| oc_one : min <> 0%N -> once max -> occurring min max t t
| oc_opt : min = 0%N -> once max -> occurring min max t (TOpt t)
| oc_vec : min <> 0%N -> ~ once max -> occurring min max t (TVec t)
| oc_opt_vec : min = 0%N -> ~ once max -> occurring min max t (TOpt (TVec t)).

Definition member (l : leaf) (f : string * rty) : Prop :=
  field_called (lf_name l) (fst f) /\ exists t, content_type (ld_content (lf_def l)) t /\ occurring (lf_min l) (lf_max l) t (snd f).
Definition attribute_field (a : attribute) (f : string * rty) : Prop :=
  field_called (a_name a) (fst f) /\ exists t, content_type (a_content a) t /\ snd f = (if a_optional a then TOpt t else t).
(** A variant of a choice is not optional. *)
Definition variant (l : leaf) (v : string * rty) : Prop :=
  type_called (lf_name l) (fst v) /\ exists t, content_type (ld_content (lf_def l)) t /\ occurring 1 (lf_max l) t (snd v).

(** The variants of an enumeration: the readable name of the literal if it is not empty and
    not used before, else the word Variant with the next number that gives a new name. *)
Definition numbered (k : nat) : string := "Variant" +++ show_nat k.
Inductive variants : list string -> nat -> list name -> list (string * string) -> Prop :=
| vs_nil used k : variants used k [] []
| vs_own used k n v ns vs : readable (nm n) v -> v <> "" -> ~ In v used ->
    variants (used ++ [v]) k ns vs -> variants used k (n :: ns) ((v, nm n) :: vs)
| vs_numbered used k n v j ns vs : readable (nm n) v -> v = "" \/ In v used ->
    k < j -> ~ In (numbered j) used -> (forall i, k < i < j -> In (numbered i) used) ->
    variants (used ++ [numbered j]) j ns vs -> variants used k (n :: ns) ((numbered j, nm n) :: vs).

(** Fields come in the order of the content, then those of attributes. A tuple struct is
    read from and written to strings if it is a built-in type. *)
Inductive declared : root -> decl -> Prop :=
| dc_leaf d t b : content_type (ld_content d) t -> (b = true <-> exists l, ld_content d = LcLiteral l) -> declared (RootLeaf d) (DTuple t b)
| dc_enum names vs : variants [] 0 names vs -> declared (RootEnum names) (DEnum vs)
| dc_element d fs ats :
    match ed_content d with
    | None => fs = []
    | Some (EcLeaf n b) => exists i t, fs = [(i, t)] /\ field_called n i /\ content_type (ld_content b) t
    | Some (EcLeaves ls) => Forall2 member ls fs
    end -> Forall2 attribute_field (ed_attributes d) ats -> declared (RootElement d) (DStruct (fs ++ ats))
| dc_choice d vs : Forall2 variant (cd_variants d) vs -> declared (RootChoice d) (DChoice vs).
End Api.
