(** * RustSpec: what the Rust compiler checks of a generated module

    A static semantics of the IR of Gen.v: names, declarations, and the types of
    the bodies of [from_xml_node], [to_xml_writer] and [lookahead], written from
    the templates and the rules of Rust (the codes in brackets are rustc's). Not
    represented: that identifiers have the shape of identifiers (proc_macro2
    panics otherwise, see C30), lints, and the items the user wrote into the
    module. *)
From Verif Require Import Base Libs Xml Ast Gen.

(** Strict and reserved keywords of the 2021 edition, and [_]. *)
Definition rust_keywords : list string :=
  ["_"; "as"; "break"; "const"; "continue"; "crate"; "else"; "enum"; "extern"; "false"; "fn";
   "for"; "if"; "impl"; "in"; "let"; "loop"; "match"; "mod"; "move"; "mut"; "pub"; "ref";
   "return"; "self"; "Self"; "static"; "struct"; "super"; "trait"; "true"; "type"; "unsafe";
   "use"; "where"; "while"; "async"; "await"; "dyn"; "abstract"; "become"; "box"; "do";
   "final"; "macro"; "override"; "priv"; "try"; "typeof"; "unsized"; "virtual"; "yield"].
Definition plain_ident (s : string) : Prop := ~ In s rust_keywords.

(** Names of the standard prelude which the templates use unqualified. A type of the
    module with such a name hides the prelude's; a tuple struct also hides the
    constructors. (A module that defines one of them without any template using it
    would be accepted by rustc; it is counted as rejected here.) *)
Definition prelude_types : list string := ["Vec"; "Result"; "Option"; "String"; "Box"].
Definition prelude_values : list string := ["Ok"; "Err"; "Some"; "None"].

Section Rust.
Variable p : program.

Definition defined (id : string) : Prop := In id (map ti_id p).
(** The types of the fields or variants of a declaration. *)
Definition member_types (d : decl) : list rty :=
  match d with
  | DTuple t _ => [t]
  | DEnum _ => []
  | DStruct fs | DChoice fs => map snd fs
  end.

(** Every type mentioned exists [E0412]. *)
Inductive type_ok : rty -> Prop :=
| to_prim q : type_ok (TPrim q)
| to_unit : type_ok TUnit
| to_ref id : defined id -> type_ok (TRef id)
| to_vec t : type_ok t -> type_ok (TVec t)
| to_opt t : type_ok t -> type_ok (TOpt t).

(** [by_value t id]: a value of type [t] may contain one of type [id] in place. A
    [Vec] keeps its elements elsewhere. *)
Inductive by_value : rty -> string -> Prop :=
| bv_ref id : by_value (TRef id) id
| bv_opt t id : by_value t id -> by_value (TOpt t) id.
(** No type contains itself in place [E0072]. *)
Definition sized : Prop := exists rank : string -> nat, forall t u id,
  In t p -> In u (member_types (ti_decl t)) -> by_value u id -> rank id < rank (ti_id t).

(** ** Declarations *)
Definition members_ok (fs : list (string * rty)) : Prop :=
  NoDup (map fst fs) /\ Forall plain_ident (map fst fs) /\ Forall type_ok (map snd fs).
(** Fields and variants have different names [E0124, E0428] which are no keywords. A
    [match self {}] on a reference to an empty enum is not exhaustive [E0004]. *)
Inductive decl_ok : decl -> Prop :=
| do_tuple t b : type_ok t -> (b = true -> exists q, t = TPrim q) -> decl_ok (DTuple t b)
| do_enum vs : vs <> [] -> NoDup (map fst vs) -> Forall plain_ident (map fst vs) -> decl_ok (DEnum vs)
| do_struct fs : members_ok fs -> decl_ok (DStruct fs)
| do_choice vs : vs <> [] -> members_ok vs -> decl_ok (DChoice vs).

(** ** Expressions of [from_xml_node] [E0308, E0277] *)
Inductive rx_type : rx -> rty -> Prop :=
| rt_text l : rx_type (RxText l) (TPrim (lit_prim l))
| rt_fixed s : rx_type (RxFixed s) TUnit
| rt_call id : defined id -> rx_type (RxCall id) (TRef id).
Inductive fr_type : fr -> rty -> Prop :=
| ft_here x t : rx_type x t -> fr_type (FrHere x) t
| ft_while_look id x opt t : defined id -> rx_type x t -> fr_type (FrWhileLook id x opt) (wrap_opt opt (TVec t))
| ft_if_look id x t : defined id -> rx_type x t -> fr_type (FrIfLook id x) (TOpt t)
| ft_while_next n ns x opt t : rx_type x t -> fr_type (FrWhileNext n ns x opt) (wrap_opt opt (TVec t))
| ft_if_next n ns x t : rx_type x t -> fr_type (FrIfNext n ns x) (TOpt t)
| ft_try_child n ns x t : rx_type x t -> fr_type (FrTryChild n ns x) t
| ft_try_next n ns x t : rx_type x t -> fr_type (FrTryNext n ns x) t.

Definition is_enum_type (id : string) : Prop := exists t vs, In t p /\ ti_id t = id /\ ti_decl t = DEnum vs.

(** [FromStr::from_str(val)?] at type [t]: [t] implements [FromStr] and its error converts
    into [FromXmlError]. That is so for [String] (error [Infallible]) and the generated
    enums, not for [i64], [bool] and the like. *)
Inductive ax_type : ax -> rty -> Prop :=
| at_lit l : ax_type (AxLit l) (TPrim (lit_prim l))
| at_unit : ax_type AxUnit TUnit
| at_string : ax_type (AxFromStr (TPrim PString)) (TPrim PString)
| at_enum id : is_enum_type id -> ax_type (AxFromStr (TRef id)) (TRef id).

Definition ra_type (a : ra) (t : rty) : Prop :=
  if ra_opt a then exists u, t = TOpt u /\ ax_type (ra_conv a) u else ax_type (ra_conv a) t.

Inductive arm_type (vs : list (string * rty)) : arm -> Prop :=
| mt_look v id x t : defined id -> In (v, t) vs -> rx_type x t -> arm_type vs (ArmLook v id x)
| mt_vec v n ns x t : In (v, TVec t) vs -> rx_type x t -> arm_type vs (ArmVec v n ns x)
| mt_one v n ns x t : In (v, t) vs -> rx_type x t -> arm_type vs (ArmOne v n ns x).

(** A struct expression initialises every field once [E0062, E0063]; in the order of the
    declaration (Rust would allow any). *)
Inductive read_ok : decl -> br -> Prop :=
| ro_tuple t b x : rx_type x t -> read_ok (DTuple t b) (BrTuple x)
| ro_enum vs : read_ok (DEnum vs) BrEnum
| ro_struct ds1 ds2 fs ats :
    Forall2 (fun d f => fst d = fst f /\ fr_type (snd f) (snd d)) ds1 fs ->
    Forall2 (fun d a => fst d = ra_field a /\ ra_type a (snd d)) ds2 ats ->
    read_ok (DStruct (ds1 ++ ds2)) (BrStruct fs ats)
| ro_choice vs arms : Forall (arm_type vs) arms -> read_ok (DChoice vs) (BrChoice arms).

(** ** Statements of [to_xml_writer] *)
Inductive wx_type : wx -> rty -> Prop :=
| wt_text q : wx_type WxText (TPrim q)
| wt_fixed s t : wx_type (WxFixed s) t
| wt_call id : defined id -> wx_type (WxCall id) (TRef id).
(** A call gives the context away; it cannot be used for the end tag afterwards [E0382]. *)
Definition keeps_context (x : wx) : Prop := match x with WxCall _ => False | _ => True end.
Definition closes (wrap : bool) (x : wx) : Prop := wrap = true -> keeps_context x.

Definition wf_ok (fs : list (string * rty)) (w : wf) : Prop := exists t,
  In (wf_field w, wrap_opt (wf_opt w) (wrap_vec (wf_vec w) t)) fs
  /\ wx_type (wf_x w) t /\ closes (wf_wrap w) (wf_x w).

(** Types with [Display]. *)
Inductive shown : rty -> Prop :=
| sh_prim q : shown (TPrim q)
| sh_enum id : is_enum_type id -> shown (TRef id).
Definition wa_ok (fs : list (string * rty)) (a : wa) : Prop := exists t,
  In (wa_field a, wrap_opt (wa_opt a) t) fs /\ (wa_fixed a = None -> shown t).

Definition body_ok (fs : list (string * rty)) (wrap : bool) (b : wbody) : Prop :=
  match b with
  | WbNone => True
  | WbLeaf f x => exists t, In (f, t) fs /\ wx_type x t /\ closes wrap x
  | WbLeaves ws => Forall (wf_ok fs) ws
  end.

Definition warm_ok (vs : list (string * rty)) (a : warm) : Prop := exists t,
  In (wm_variant a, wrap_vec (wm_vec a) t) vs /\ wx_type (wm_x a) t /\ closes (wm_wrap a) (wm_x a).

(** The match over the variants is exhaustive [E0004]. *)
Inductive write_ok : decl -> tw -> Prop :=
| wo_tuple t b wrap x : wx_type x t -> closes wrap x -> write_ok (DTuple t b) (TwTuple wrap x)
| wo_enum vs : write_ok (DEnum vs) TwEnum
| wo_struct fs ats wrap b : Forall (wa_ok fs) ats -> body_ok fs wrap b -> write_ok (DStruct fs) (TwStruct ats wrap b)
| wo_choice vs wrap arms : incl (map fst vs) (map wm_variant arms) -> Forall (warm_ok vs) arms ->
    write_ok (DChoice vs) (TwChoice wrap arms).

Inductive look_ok : lk -> Prop :=
| lo_true : look_ok LkTrue
| lo_or l : (forall id, In (LkCall id) l -> defined id) -> look_ok (LkOr l).

(** ** Items and modules *)
Definition is_tuple (d : decl) : Prop := exists t b, d = DTuple t b.
Definition item_name_ok (t : titem) : Prop :=
  plain_ident (ti_id t) /\ ~ In (ti_id t) prelude_types
  /\ (is_tuple (ti_decl t) -> ~ In (ti_id t) prelude_values).

(** What rustc checks of the type declarations ... *)
Record decls_ok : Prop := mkDeclsOk {
  ds_distinct : NoDup (map ti_id p);                       (* E0428 *)
  ds_names : Forall item_name_ok p;
  ds_decls : Forall (fun t => decl_ok (ti_decl t)) p;
  ds_sized : sized
}.
(** ... and of the functions. *)
Definition functions_ok (t : titem) : Prop :=
  read_ok (ti_decl t) (ti_read t) /\ write_ok (ti_decl t) (ti_write t) /\ look_ok (ti_look t).

Definition rust_ok : Prop := decls_ok /\ Forall functions_ok p.
End Rust.
