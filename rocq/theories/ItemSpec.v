(** * ItemSpec: Rust's rules for items (C74)

    What rustc checks of the structs, enums and implementations of a module besides the
    bodies of functions (TypingSpec.v), written from the Rust reference ("Items",
    "Implementations", "Derive", "Type paths") and the error index, over the items read
    from the text by GramSpec.v. It knows neither the templates nor the IR. The module
    imports nothing, and a declared type hides what the prelude or the language calls so. *)
From Verif Require Import Base Libs Xml Ast Gen Emit RustSpec EmitSpec GramSpec.

(** ** Types *)
(** Fields are sized: no [str]. *)
Definition plain_types : list string := ["bool"; "char"; "i8"; "i16"; "i32"; "i64"; "i128"; "isize"; "u8"; "u16"; "u32"; "u64"; "u128"; "usize"; "f32"; "f64"; "String"].
Definition generic_types : list string := ["Vec"; "Option"; "Box"].
(** The traits that can be derived, as far as [f32] and [f64] have them. *)
Definition common_traits : list string := ["Debug"; "Clone"; "PartialEq"].

(** The types of the fields; the names of fields or variants. *)
Definition shape_types (s : shape) : list ty :=
  match s with
  | ShTuple fs => map snd fs
  | ShStruct fs => map fd_ty fs
  | ShEnum vs => flat_map va_fields vs
  end.
Definition shape_names (s : shape) : list string :=
  match s with
  | ShTuple _ => []
  | ShStruct fs => map fd_name fs
  | ShEnum vs => map va_name vs
  end.

(** ** Functions *)
Fixpoint lifes (t : pty) : list string :=
  match t with
  | PtPath _ args => flat_map lifes args
  | PtRef _ t | PtImpl t => lifes t
  | PtUnit => []
  | PtLife x => [x]
  end.
(** [E0415, E0403, E0261]; [self] comes first. *)
Record fn_wf (q : pfn) : Prop := mkFnWf {
  fw_params : NoDup (map fst (pf_params q));
  fw_generics : NoDup (map fst (pf_generics q));
  fw_lifes : forall t x, In t (map snd (pf_params q)) \/ pf_ret q = Some t -> In x (lifes t) -> In x (map fst (pf_generics q));
  fw_self : ~ In "self" (tl (map fst (pf_params q)))
}.

(** ** Traits: the associated types, and the functions with the types of their parameters
    and results (std::str::FromStr, std::fmt::Display) *)
Definition std_trait (l : list string) : option (list string * list (string * list pty * option pty)) :=
  let s := show l in
  let path l := PtPath l [] in
  if s =?s "::std::str::FromStr" then
    Some (["Err"], [("from_str", [PtRef false (path ["str"])], Some (PtPath ["Result"] [path ["Self"]; path ["Self"; "Err"]]))])
  else if s =?s "::std::fmt::Display" then
    Some ([], [("fmt", [PtRef false (path ["Self"]); PtRef true (path [""; "std"; "fmt"; "Formatter"])], Some (path [""; "std"; "fmt"; "Result"]))])
  else None.
Definition sig_of (q : pfn) : string * list pty * option pty := (pf_name q, map snd (pf_params q), pf_ret q).
(** [E0046, E0407, E0437, E0050, E0053, E0449, E0195]. *)
Definition conforms (i : pimpl) (l : list string) : Prop := exists types fns,
  std_trait l = Some (types, fns)
  /\ NoDup (map fst (pi_types i)) /\ (forall x, In x (map fst (pi_types i)) <-> In x types)
  /\ NoDup (map pf_name (pi_fns i)) /\ (forall s, In s (map sig_of (pi_fns i)) <-> In s fns)
  /\ forall q, In q (pi_fns i) -> pf_pub q = false /\ pf_generics q = [].

Section Items.
Variable items : list pitem.

Definition type_names : list string := flat_map (fun it => match it with IType y => [yi_name y] | IImpl _ => [] end) items.
Definition impls : list pimpl := flat_map (fun it => match it with IImpl i => [i] | IType _ => [] end) items.
Definition known (id : string) : Prop := In id type_names.

(** Every type mentioned exists and has the right number of arguments [E0412, E0107]. *)
Inductive type_wf : ty -> Prop :=
| tw_unit : type_wf TyUnit
| tw_known id : known id -> type_wf (TyPath [id] [])
| tw_plain x : In x plain_types -> ~ known x -> type_wf (TyPath [x] [])
| tw_generic x t : In x generic_types -> ~ known x -> type_wf t -> type_wf (TyPath [x] [t])
| tw_decimal : ~ known "rust_decimal" -> type_wf (TyPath ["rust_decimal"; "Decimal"] []).
(** A value of the type may contain one of the type [id] in place. *)
Inductive in_place : ty -> string -> Prop :=
| ip_known id : known id -> in_place (TyPath [id] []) id
| ip_option t id : ~ known "Option" -> in_place t id -> in_place (TyPath ["Option"] [t]) id.
(** The type has the trait [tr]. *)
Inductive has_trait (tr : string) : ty -> Prop :=
| ht_unit : In tr common_traits -> has_trait tr TyUnit
| ht_derived y : In (IType y) items -> In tr (yi_derives y) -> has_trait tr (TyPath [yi_name y] [])
| ht_plain x : In tr common_traits -> In x plain_types -> ~ known x -> has_trait tr (TyPath [x] [])
| ht_generic x t : In tr common_traits -> In x generic_types -> ~ known x -> has_trait tr t -> has_trait tr (TyPath [x] [t])
| ht_decimal : In tr common_traits -> ~ known "rust_decimal" -> has_trait tr (TyPath ["rust_decimal"; "Decimal"] []).

Definition trait_keys : list (list string * string) :=
  flat_map (fun i => match pi_trait i with Some l => [(l, pi_type i)] | None => [] end) impls.
Definition inherent_keys : list (string * string) :=
  flat_map (fun i => match pi_trait i with Some _ => [] | None => map (fun q => (pi_type i, pf_name q)) (pi_fns i) end) impls.

(** The declarations of types ... *)
Record types_wf : Prop := mkTypesWf {
  tf_distinct : NoDup type_names;                                                                   (* E0428 *)
  tf_idents : Forall plain_ident type_names;
  tf_members : forall y, In (IType y) items -> NoDup (shape_names (yi_shape y))                     (* E0124, E0428 *)
    /\ Forall plain_ident (shape_names (yi_shape y)) /\ Forall type_wf (shape_types (yi_shape y));
  tf_sized : exists rank : string -> nat, forall y t id, In (IType y) items -> In t (shape_types (yi_shape y)) ->
    in_place t id -> rank id < rank (yi_name y)                                                     (* E0072 *)
}.
(** ... their derives and implementations. *)
Record impls_wf : Prop := mkImplsWf {
  if_derives : forall y, In (IType y) items -> NoDup (yi_derives y)                                 (* E0119 *)
    /\ forall tr t, In tr (yi_derives y) -> In t (shape_types (yi_shape y)) -> has_trait tr t;      (* E0277, E0369 *)
  if_type : forall i, In i impls -> known (pi_type i);                                              (* E0412, E0116, E0117 *)
  if_traits : forall i l, In i impls -> pi_trait i = Some l -> conforms i l;
  if_coherent : NoDup trait_keys;                                                                   (* E0119 *)
  if_derived : forall i l y tr, In i impls -> pi_trait i = Some l -> In (IType y) items -> yi_name y = pi_type i ->
    In tr (yi_derives y) -> last l "" <> tr;                                                        (* E0119 *)
  if_inherent : NoDup inherent_keys;                                                                (* E0592 *)
  if_assoc : forall i, In i impls -> pi_trait i = None -> pi_types i = [];                          (* E0658 *)
  if_functions : forall i q, In i impls -> In q (pi_fns i) -> fn_wf q
}.
End Items.
