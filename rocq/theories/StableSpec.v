(** * StableSpec: documents and libraries for which decoded values are canonical *)
From Verif Require Import Base Libs Xml Ast Gen Run DecSpec WfSpec CanonSpec.

(** Booleans and numbers. *)
Definition scalar (v : value) : Prop :=
  match v with VBool _ | VInt _ | VDec _ | VF32 _ => True | _ => False end.

(** What is assumed about library functions: scalars are displayed as text that
    survives XML, and what [from_str] returned is what it returns for the
    displayed value. *)
Record scalar_laws {L : Libs} : Prop := mkLaws {
  sl_text : forall v s, scalar v -> value_to_string v = Some s -> text_ok s /\ attr_ok s;
  sl_empty : text_ok "";
  sl_dec : forall s d, dec_from_str s = Some d -> dec_from_str (dec_to_string d) = Some d;
  sl_f32 : forall s n, f32_from_str s = Some n -> f32_from_str (f32_to_string n) = Some n
}.
Arguments scalar_laws : clear implicits.

(** Character data and attribute values of the document survive being written and
    read again. *)
Inductive tidy {L : Libs} : xelem -> Prop :=
| td e : (forall s, In (KText s) (xe_kids e) -> text_ok s) ->
    (forall a, In a (xe_attrs e) -> attr_ok (at_value a)) ->
    (forall x, In x (xe_children e) -> tidy x) -> tidy e.

(** The fixed attribute values of the schema survive, too. *)
Definition fixed_ok {L : Libs} (c : schema_ctx) (gs : list name) : Prop :=
  forall n r a s, In n gs -> sc_get c n = Some r -> In a (attributes_of r) -> a_content a = LcFixed s -> attr_ok s.

(** ** Values of the generated types

    [clean v]: strings survive XML, decimals and floats are ones that reading gives
    back, no option holds an empty list and no choice variant is an empty list. *)
Inductive clean {L : Libs} : value -> Prop :=
| cn_str s : text_ok s -> attr_ok s -> clean (VStr s)
| cn_bool b : clean (VBool b)
| cn_int z : clean (VInt z)
| cn_dec d : dec_from_str (dec_to_string d) = Some d -> clean (VDec d)
| cn_f32 n : f32_from_str (f32_to_string n) = Some n -> clean (VF32 n)
| cn_unit : clean VUnit
| cn_none : clean VNone
| cn_some v : v <> VVec [] -> clean v -> clean (VSome v)
| cn_vec vs : Forall clean vs -> clean (VVec vs)
| cn_tuple v : clean v -> clean (VTuple v)
| cn_enum x : clean (VEnum x)
| cn_struct fs : Forall (fun f => clean (snd f)) fs -> clean (VStruct fs)
| cn_choice i v : v <> VVec [] -> clean v -> clean (VChoice i v).

(** Enumerations list distinct texts that survive XML; fixed values survive XML. *)
Record constants_ok {L : Libs} (c : schema_ctx) (gs : list name) : Prop := mkConstants {
  co_enum : forall n names, In n gs -> sc_get c n = Some (RootEnum names) ->
    NoDup (map nm names) /\ Forall (fun x => text_ok (nm x) /\ attr_ok (nm x)) names;
  co_fixed : forall n r ct s, In n gs -> sc_get c n = Some r -> In ct (contents r) -> final c ct (LcFixed s) -> text_ok s;
  co_attr : fixed_ok c gs
}.
