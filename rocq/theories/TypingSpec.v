(** * TypingSpec: the types of Rust expressions (C71)

    Typing rules for the functions that GramSpec.v reads from the text, written from the
    Rust reference ("Expressions", "Patterns", "Type coercions", "Method calls") and from
    the signatures of the crates xsd, xml and std. Nothing here knows the templates. A
    derivation also inserts what the meaning of an expression takes from its type (Rust.v):
    the type at which [FromStr::from_str] is called, and the type of the module whose
    method is called. Variables whose value is moved away are tracked. Not represented:
    lifetimes and borrows, mutability, visibility. *)
From Verif Require Import Base Libs Xml Ast Gen Emit Rust RustSpec EmitSpec GramSpec.
From Coq Require Import Permutation.

(** ** Types *)
Inductive typ :=
| YPrim (q : prim)
| YUnit
| YNamed (id : string)            (* a type of the module *)
| YVec (t : typ)
| YOpt (t : typ)
| YRes (t e : typ)
| YRef (t : typ)
| YStr                            (* str *)
| YBox (t : typ)
| YDyn                            (* dyn Error + Sync + Send *)
| YErr (q : prim)                 (* <q as FromStr>::Err; Infallible for String *)
| YLib (path : string)            (* another type of a crate *)
| YWriter (w : typ)               (* EventWriter<w> *)
| YText                           (* impl AsRef<str> *)
| YVar (x : string).              (* a type parameter *)
Fixpoint up (t : rty) : typ :=
  match t with
  | TPrim q => YPrim q
  | TUnit => YUnit
  | TRef id => YNamed id
  | TVec t => YVec (up t)
  | TOpt t => YOpt (up t)
  end.
Definition YBool := YPrim PBool.
Definition YString := YPrim PString.
Definition str_ref : typ := YRef YStr.
Definition Node : typ := YLib "::xsd::decode::Node".
Definition Document : typ := YLib "::xsd::decode::Document".
Definition DecodeError : typ := YLib "::xsd::decode::FromXmlError".
Definition Context : typ := YLib "::xsd::Context".
Definition WriterError : typ := YLib "::xsd::xml::writer::Error".
Definition EmitterConfig : typ := YLib "::xsd::xml::writer::EmitterConfig".
Definition Event : typ := YLib "::xsd::xml::writer::events::XmlEvent".
Definition Version : typ := YLib "::xsd::xml::common::XmlVersion".
Definition Formatter : typ := YLib "::std::fmt::Formatter".
Definition FmtError : typ := YLib "::std::fmt::Error".
Definition Byte : typ := YLib "u8".

(** Values of these types are copied, others are moved. A [&mut] that is passed on is
    borrowed again, not moved. *)
Inductive copy : typ -> Prop :=
| cp_prim q : q <> PString -> copy (YPrim q)
| cp_unit : copy YUnit
| cp_ref t : copy (YRef t)
| cp_opt t : copy t -> copy (YOpt t).

(** [*t], [**t], .. *)
Inductive derefs : typ -> typ -> Prop :=
| dr_refl t : derefs t t
| dr_ref t u : derefs t u -> derefs (YRef t) u
| dr_box t u : derefs t u -> derefs (YBox t) u
| dr_string u : derefs YStr u -> derefs YString u.
(** Types with [Error + Sync + Send]. *)
Inductive is_error : typ -> Prop :=
| ie_parse q : is_error (YErr q)
| ie_decode : is_error DecodeError.
(** Coercions of arguments, fields and results. *)
Inductive coerces : typ -> typ -> Prop :=
| co_refl t : coerces t t
| co_deref t u : derefs t u -> coerces (YRef t) (YRef u)
| co_unsize t : is_error t -> coerces (YBox t) (YBox YDyn).

(** [From<a> for b], so that [a: Into<b>]; decode.rs:35-36. *)
Inductive converts : typ -> typ -> Prop :=
| cv_refl t : converts t t
| cv_infallible : converts (YErr PString) DecodeError.
(** [Into<Name>], [Into<Cow<str>>], [Into<String>] for arguments (xml, std). *)
Inductive stringy : typ -> Prop :=
| sy_str : stringy str_ref
| sy_string : stringy YString.
(** [std::io::Write]. *)
Inductive writes : typ -> Prop :=
| wr_vec : writes (YVec Byte)
| wr_var x : writes (YVar x)                    (* the only bound there is *)
| wr_ref t : writes t -> writes (YRef t).

Section Typing.
Variable items : list pitem.      (* of the module *)

Definition declared (id : string) (d : decl) : Prop := exists y docs,
  In (IType y) items /\ yi_name y = id /\ declares (yi_shape y) docs d.
Definition no_type (id : string) : Prop := forall d, ~ declared id d.
Definition no_tuple (id : string) : Prop := forall t b, ~ declared id (DTuple t b).
Definition inherent (id f : string) (i : pimpl) (q : pfn) : Prop :=
  In (IImpl i) items /\ pi_trait i = None /\ pi_type i = id /\ In q (pi_fns i) /\ pf_name q = f.
Definition implements (id : string) (tr : list string) (i : pimpl) : Prop :=
  In (IImpl i) items /\ pi_type i = id /\ pi_trait i = Some tr.

(** ** Types as they are written; [assoc] are the associated types, [gs] the type parameters *)
Fixpoint written (self : string) (assoc : list (string * typ)) (gs : list string) (t : pty) : option typ :=
  match t with
  | PtUnit => Some YUnit
  | PtRef _ t => option_map YRef (written self assoc gs t)
  | PtImpl t => match t with
                | PtPath segs [PtPath s []] => if ((show segs =?s "AsRef") && (show s =?s "str"))%bool then Some YText else None
                | _ => None
                end
  | PtLife _ => None
  | PtPath segs args =>
      let s := show segs in
      match segs, args with
      | [x], [] =>
          if x =?s "Self" then Some (YNamed self)
          else if x =?s "str" then Some YStr
          else if x =?s "bool" then Some YBool
          else if x =?s "u8" then Some Byte
          else if mem String.eqb x gs then Some (YVar x)
          else None
      | [x; y], [] => if x =?s "Self" then aget String.eqb y assoc else None
      | [x], [a] => if x =?s "Vec" then option_map YVec (written self assoc gs a) else None
      | [x], [a; b] =>
          if x =?s "Result" then
            match written self assoc gs a, written self assoc gs b with
            | Some t, Some e => Some (YRes t e)
            | _, _ => None
            end
          else None
      | _, [] =>
          if s =?s "::xsd::decode::Node" then Some Node
          else if s =?s "::xsd::decode::FromXmlError" then Some DecodeError
          else if s =?s "::xsd::xml::writer::Error" then Some WriterError
          else if s =?s "::std::fmt::Formatter" then Some Formatter
          else if s =?s "::std::fmt::Result" then Some (YRes YUnit FmtError)
          else None
      | _, [w] =>
          if s =?s "::xsd::xml::writer::EventWriter" then option_map YWriter (written self assoc gs w) else None
      | _, [PtLife _; PtLife _] => if s =?s "::xsd::Context" then Some Context else None
      | _, _ => None
      end
  end.
Definition assoc_of (i : pimpl) : list (string * typ) :=
  flat_map (fun a => match written (pi_type i) [] [] (snd a) with Some t => [(fst a, t)] | None => [] end) (pi_types i).
Fixpoint all {A} (l : list (option A)) : option (list A) :=
  match l with
  | [] => Some []
  | Some a :: l => option_map (cons a) (all l)
  | None :: _ => None
  end.
(** Parameters and result of a function. *)
Definition sig_of (i : pimpl) (q : pfn) : option (list typ * typ) :=
  let w := written (pi_type i) (assoc_of i) (map fst (pf_generics q)) in
  match all (map (fun x => w (snd x)) (pf_params q)), pf_ret q with
  | Some ts, Some r => option_map (pair ts) (w r)
  | Some ts, None => Some (ts, YUnit)
  | None, _ => None
  end.
(** Type parameters are replaced by types within their bounds. *)
Fixpoint subst (s : list (string * typ)) (t : typ) : typ :=
  match t with
  | YVar x => match aget String.eqb x s with Some u => u | None => t end
  | YVec t => YVec (subst s t)
  | YOpt t => YOpt (subst s t)
  | YRes t e => YRes (subst s t) (subst s e)
  | YRef t => YRef (subst s t)
  | YBox t => YBox (subst s t)
  | YWriter w => YWriter (subst s w)
  | _ => t
  end.
Definition within (q : pfn) (s : list (string * typ)) : Prop :=
  Forall (fun g => snd g <> None -> exists w, aget String.eqb (fst g) s = Some w /\ writes w) (pf_generics q).

(** ** Traits *)
Definition display_path : list string := [""; "std"; "fmt"; "Display"].
Definition from_str_path : list string := [""; "std"; "str"; "FromStr"].
Inductive displays : typ -> Prop :=
| ds_prim q : displays (YPrim q)
| ds_str : displays YStr
| ds_own id i : implements id display_path i -> displays (YNamed id).
(** [T: FromStr<Err = e>]. *)
Inductive from_str : rty -> typ -> Prop :=
| fs_prim q : from_str (TPrim q) (YErr q)
| fs_own id i e : implements id from_str_path i -> aget String.eqb "Err" (assoc_of i) = Some e -> from_str (TRef id) e.

(** ** Methods of libraries: receiver, name, arguments, result *)
Inductive method_of : typ -> string -> list typ -> typ -> Prop :=
(* xsd/src/decode.rs:67-73 *)
| me_doc : method_of Document "try_child" [str_ref; YOpt str_ref] (YRes Node DecodeError)
(* decode.rs:88-188 *)
| me_peek : method_of Node "peek_child" [str_ref; YOpt str_ref] YBool
| me_next : method_of Node "next_child" [str_ref; YOpt str_ref] (YOpt Node)
| me_try_next : method_of Node "try_next_child" [str_ref; YOpt str_ref] (YRes Node DecodeError)
| me_child : method_of Node "child" [str_ref; YOpt str_ref] (YOpt Node)
| me_try_child : method_of Node "try_child" [str_ref; YOpt str_ref] (YRes Node DecodeError)
| me_attribute : method_of Node "attribute" [str_ref] (YOpt str_ref)
| me_try_attribute : method_of Node "try_attribute" [str_ref] (YRes str_ref DecodeError)
| me_text : method_of Node "text" [] (YRes str_ref DecodeError)
(* xsd/src/lib.rs:43-105 *)
| me_set_attr b : stringy b -> method_of Context "set_attr" [str_ref; b] YUnit
| me_set_ns a b : stringy a -> stringy b -> method_of Context "set_ns" [a; b] YUnit
| me_set_default_ns a : stringy a -> method_of Context "set_default_ns" [a] YUnit
| me_start w : writes w -> method_of Context "write_start_element" [YRef (YWriter w)] (YRes YUnit WriterError)
| me_end w : writes w -> method_of Context "write_end_element" [YRef (YWriter w)] (YRes YUnit WriterError)
(* xml *)
| me_write w : writes w -> method_of (YWriter w) "write" [Event] (YRes YUnit WriterError)
| me_indent : method_of EmitterConfig "perform_indent" [YBool] EmitterConfig
| me_create w : writes w -> method_of EmitterConfig "create_writer" [w] (YWriter w)
(* std *)
| me_to_string t : displays t -> method_of t "to_string" [] YString
| me_fmt t : displays t -> method_of t "fmt" [YRef Formatter] (YRes YUnit FmtError)
| me_write_str : method_of Formatter "write_str" [str_ref] (YRes YUnit FmtError)
| me_empty_string : method_of YString "is_empty" [] YBool
| me_empty_str : method_of YStr "is_empty" [] YBool
| me_empty_vec t : method_of (YVec t) "is_empty" [] YBool
| me_as_ref t : method_of (YOpt t) "as_ref" [] (YOpt (YRef t))
| me_as_str : method_of YText "as_ref" [] str_ref
| me_into a b : converts a b -> method_of a "into" [] b.

(** ** Functions and structs of libraries *)
Inductive function_of : string -> list typ -> typ -> Prop :=
| fu_decode : function_of "::xsd::decode::decode" [str_ref] (YRes Document DecodeError)
| fu_new : function_of "::xsd::Context::new" [str_ref] Context
| fu_wrap : function_of "::xsd::Context::wrap" [YRef Context] Context
| fu_characters : function_of "::xsd::xml::writer::events::XmlEvent::characters" [str_ref] Event
| fu_config : function_of "::xsd::xml::writer::EmitterConfig::new" [] EmitterConfig.
Definition struct_of (v : string) : option (list (string * typ) * typ) :=
  if v =?s "::xsd::decode::FromXmlError::ParseType" then
    Some ([("type_", YString); ("value", YString); ("err", YBox YDyn)], DecodeError)
  else if v =?s "::xsd::decode::FromXmlError::FixedMismatch" then
    Some ([("expected", str_ref); ("received", YString)], DecodeError)
  else if v =?s "::xsd::decode::FromXmlError::InvalidVariant" then Some ([("name", YString)], DecodeError)
  else if v =?s "::xsd::decode::FromXmlError::MissingVariant" then Some ([("name", YString)], DecodeError)
  else if v =?s "::xsd::xml::writer::events::XmlEvent::StartDocument" then
    Some ([("version", Version); ("encoding", YOpt str_ref); ("standalone", YOpt YBool)], Event)
  else None.
Definition from_str_fn (f : string) : bool :=
  ((f =?s "::std::str::FromStr::from_str") || (f =?s "std::str::FromStr::from_str"))%bool.

(** ** Variables *)
(** The type, or moved away. *)
Definition tenv := list (string * option typ).
Definition var (G : tenv) (x : string) (t : typ) : Prop := aget String.eqb x G = Some (Some t).
Definition moved (x : string) (G : tenv) : tenv := aset String.eqb x None G.
(** The end of a scope. *)
Definition out (G G' : tenv) : tenv := skipn (length G' - length G) G'.
(** After either of two ways. *)
Fixpoint join (a b : tenv) : tenv :=
  match a, b with
  | (x, s) :: a, (_, t) :: b => (x, match s, t with Some s, Some _ => Some s | _, _ => None end) :: join a b
  | _, _ => []
  end.

(** What is iterated over by [for]. *)
Inductive iterates : typ -> typ -> Prop :=
| it_vec t : iterates (YVec t) t
| it_vec_ref t : iterates (YRef (YVec t)) (YRef t)
| it_opt t : iterates (YOpt t) t
| it_opt_ref t : iterates (YRef (YOpt t)) (YRef t).

(** ** Patterns; behind a reference, variables are bound to references *)
Inductive binds (self : string) : pat -> typ -> tenv -> Prop :=
| bi_some x t : binds self (PSome x) (YOpt t) [(x, Some t)]
| bi_some_ref x t : binds self (PSome x) (YRef (YOpt t)) [(x, Some (YRef t))]
| bi_case v x vs t : declared self (DChoice vs) -> In (v, t) vs -> binds self (PCase v x) (YNamed self) [(x, Some (up t))]
| bi_case_ref v x vs t : declared self (DChoice vs) -> In (v, t) vs ->
    binds self (PCase v x) (YRef (YNamed self)) [(x, Some (YRef (up t)))]
| bi_unit v vs : declared self (DEnum vs) -> In v (map fst vs) -> binds self (PUnit v) (YNamed self) []
| bi_unit_ref v vs : declared self (DEnum vs) -> In v (map fst vs) -> binds self (PUnit v) (YRef (YNamed self)) []
| bi_lit s : binds self (PLit s) str_ref []
| bi_any t : binds self PAny t [].
(** A match covers all values. *)
Inductive exhaustive (self : string) (t : typ) (ps : list pat) : Prop :=
| ex_any : In PAny ps -> exhaustive self t ps
| ex_choice vs : derefs t (YNamed self) -> declared self (DChoice vs) -> ps <> [] ->
    (forall v, In v (map fst vs) -> exists x, In (PCase v x) ps) -> exhaustive self t ps
| ex_enum vs : derefs t (YNamed self) -> declared self (DEnum vs) -> ps <> [] ->
    (forall v, In v (map fst vs) -> In (PUnit v) ps) -> exhaustive self t ps.

(** ** Expressions *)
Definition is_place (e : ex) : bool := match e with EVar _ | EField _ _ => true | _ => false end.
(** Statements of this form have no value, or else they end with a semicolon. *)
Definition block_like (e : ex) : bool :=
  match e with
  | EBlock _ _ | EIf _ _ _ | EIfLet _ _ _ _ | EWhile _ _ | EWhileLet _ _ _ | EFor _ _ _ | EMatch _ _ => true
  | _ => false
  end.
Definition type_name (self t : string) : string := if t =?s "Self" then self else t.
Definition own_type_of (t : typ) : option rty := match t with YNamed id => Some (TRef id) | _ => None end.

(** [val self r G e e' t G']: in an implementation for [self] and a function with result [r],
    with the variables [G], the expression [e] has type [t] and is understood as [e'];
    [G'] are the variables afterwards. [place] is for operands that are not moved. *)
Inductive val (self : string) : typ -> tenv -> ex -> ex -> typ -> tenv -> Prop :=
| v_copy r G x t : var G x t -> copy t -> val self r G (EVar x) (EVar x) t G
| v_move r G x t : var G x t -> ~ copy t -> val self r G (EVar x) (EVar x) t (moved x G)
| v_str r G s : val self r G (EStr s) (EStr s) str_ref G
| v_bool r G b : val self r G (EBool b) (EBool b) YBool G
| v_unit r G : val self r G EUnit EUnit YUnit G
| v_none r G t : no_tuple "None" -> val self r G (EPath (PName "None")) (EPath (PName "None")) (YOpt t) G
| v_variant r G t w vs : declared (type_name self t) (DEnum vs) -> In w (map fst vs) ->
    val self r G (EPath (PAssoc t w)) (EPath (PAssoc t w)) (YNamed (type_name self t)) G
| v_version r G :
    val self r G (EPath (PLib "::xsd::xml::common::XmlVersion::Version10")) (EPath (PLib "::xsd::xml::common::XmlVersion::Version10")) Version G
| v_ref r G e e' t G' : place self r G e e' t G' -> val self r G (ERef e) (ERef e') (YRef t) G'
| v_block r G l l' e e' t G1 G2 : stms self r G l l' G1 -> val self r G1 e e' t G2 ->
    val self r G (EBlock l e) (EBlock l' e') t (out G G2)
| v_if r G c c' a a' b b' t G1 G2 G3 : val self r G c c' YBool G1 -> val self r G1 a a' t G2 -> val self r G1 b b' t G3 ->
    val self r G (EIf c a b) (EIf c' a' b') t (join G2 G3)
| v_if_let r G q x x' a a' b b' u t B G1 G2 G3 : val self r G x x' u G1 -> binds self q u B ->
    val self r (B ++ G1) a a' t G2 -> val self r G1 b b' t G3 ->
    val self r G (EIfLet q x a b) (EIfLet q x' a' b') t (join (out G1 G2) G3)
| v_while r G c c' b b' : val self r G c c' YBool G -> val self r G b b' YUnit G ->
    val self r G (EWhile c b) (EWhile c' b') YUnit G
| v_while_let r G q x x' b b' u B G2 : val self r G x x' u G -> binds self q u B ->
    val self r (B ++ G) b b' YUnit G2 -> out G G2 = G ->
    val self r G (EWhileLet q x b) (EWhileLet q x' b') YUnit G
| v_for r G x e e' b b' u t G1 G2 : val self r G e e' u G1 -> iterates u t ->
    val self r ((x, Some t) :: G1) b b' YUnit G2 -> out G1 G2 = G1 ->
    val self r G (EFor x e b) (EFor x e' b') YUnit G1
| v_match r G e e' ms ms' u t G1 G2 : val self r G e e' u G1 -> exhaustive self u (map fst ms) ->
    arms self r G1 u ms ms' t G2 -> val self r G (EMatch e ms) (EMatch e' ms') t G2
(* calls *)
| v_tuple r G x t b es es' G' : declared x (DTuple t b) -> args self r G es es' [up t] G' ->
    val self r G (ECall (PName x) None es) (ECall (PName x) None es') (YNamed x) G'
| v_some r G t es es' G' : no_tuple "Some" -> args self r G es es' [t] G' ->
    val self r G (ECall (PName "Some") None es) (ECall (PName "Some") None es') (YOpt t) G'
| v_ok r G t e es es' G' : no_tuple "Ok" -> args self r G es es' [t] G' ->
    val self r G (ECall (PName "Ok") None es) (ECall (PName "Ok") None es') (YRes t e) G'
| v_err r G t e es es' G' : no_tuple "Err" -> args self r G es es' [e] G' ->
    val self r G (ECall (PName "Err") None es) (ECall (PName "Err") None es') (YRes t e) G'
| v_case r G t w vs u es es' G' : declared (type_name self t) (DChoice vs) -> In (w, u) vs -> args self r G es es' [up u] G' ->
    val self r G (ECall (PAssoc t w) None es) (ECall (PAssoc t w) None es') (YNamed (type_name self t)) G'
| v_own r G t f i q ts u s es es' G' : inherent (type_name self t) f i q -> sig_of i q = Some (ts, u) -> within q s ->
    args self r G es es' (map (subst s) ts) G' ->
    val self r G (ECall (PAssoc t f) None es) (ECall (PAssoc t f) None es') (subst s u) G'
| v_vec_new r G t : no_type "Vec" -> val self r G (ECall (PAssoc "Vec" "new") None []) (ECall (PAssoc "Vec" "new") None []) (YVec t) G
| v_box_new r G t es es' G' : no_type "Box" -> args self r G es es' [t] G' ->
    val self r G (ECall (PAssoc "Box" "new") None es) (ECall (PAssoc "Box" "new") None es') (YBox t) G'
| v_function r G f ts u es es' G' : function_of f ts u -> args self r G es es' ts G' ->
    val self r G (ECall (PLib f) None es) (ECall (PLib f) None es') u G'
| v_from_str r G f t e es es' G' : from_str_fn f = true -> from_str t e -> args self r G es es' [str_ref] G' ->
    val self r G (ECall (PLib f) None es) (ECall (PLib f) (Some t) es') (YRes (up t) e) G'
(* methods *)
| v_method r G e e' m t u ts w es es' G1 G2 : place self r G e e' t G1 -> derefs t u -> method_of u m ts w ->
    args self r G1 es es' ts G2 -> val self r G (EMethod e None m es) (EMethod e' (own_type_of u) m es') w G2
| v_own_method r G e e' m t id i q ts u s es es' G1 G2 : place self r G e e' t G1 -> derefs t (YNamed id) ->
    inherent id m i q -> sig_of i q = Some (YRef (YNamed id) :: ts, u) -> within q s ->
    args self r G1 es es' (map (subst s) ts) G2 ->
    val self r G (EMethod e None m es) (EMethod e' (Some (TRef id)) m es') (subst s u) G2
| v_push r G x e e' t u G' : val self r G e e' u G' -> coerces u t -> var G' x (YVec t) ->
    val self r G (EPush x e) (EPush x e') YUnit G'
| v_map r G e e' x b b' t u G1 G2 : val self r G e e' (YOpt t) G1 -> val self u ((x, Some t) :: G1) b b' u G2 -> out G1 G2 = G1 ->
    val self r G (EMapped e "map" x b) (EMapped e' "map" x b') (YOpt u) G1
| v_map_err r G e e' x b b' t w u G1 G2 : val self r G e e' (YRes t w) G1 -> val self u ((x, Some w) :: G1) b b' u G2 -> out G1 G2 = G1 ->
    val self r G (EMapped e "map_err" x b) (EMapped e' "map_err" x b') (YRes t u) G1
(* the rest *)
| v_field r G e e' f t G' : place self r G (EField e f) e' t G' -> copy t -> val self r G (EField e f) e' t G'
| v_try r G e e' t w a b G' : val self r G e e' (YRes t w) G' -> r = YRes a b -> converts w b -> val self r G (ETry e) (ETry e') t G'
| v_return r G e e' u t G' : val self r G e e' u G' -> coerces u r -> val self r G (EReturn e) (EReturn e') t G'
| v_not r G e e' G' : val self r G e e' YBool G' -> val self r G (ENot e) (ENot e') YBool G'
| v_or r G a a' b b' G1 G2 : val self r G a a' YBool G1 -> val self r G1 b b' YBool G2 ->
    val self r G (EOr a b) (EOr a' b') YBool (join G1 G2)
| v_ne r G a a' b b' G1 G2 : val self r G a a' str_ref G1 -> val self r G1 b b' str_ref G2 ->
    val self r G (ENe a b) (ENe a' b') YBool G2
| v_struct r G x ds fs fs' ts G' : declared x (DStruct ds) -> fields self r G fs fs' ts G' ->
    Permutation (combine (map fst fs) ts) (map (fun d => (fst d, up (snd d))) ds) ->
    val self r G (EStruct (PName x) fs) (EStruct (PName x) fs') (YNamed x) G'
| v_lib_struct r G x ds u fs fs' ts G' : struct_of x = Some (ds, u) -> fields self r G fs fs' ts G' ->
    Permutation (combine (map fst fs) ts) ds -> val self r G (EStruct (PLib x) fs) (EStruct (PLib x) fs') u G'
with place (self : string) : typ -> tenv -> ex -> ex -> typ -> tenv -> Prop :=
| p_var r G x t : var G x t -> place self r G (EVar x) (EVar x) t G
| p_field r G e e' f t id ds u G' : place self r G e e' t G' -> derefs t (YNamed id) -> declared id (DStruct ds) -> In (f, u) ds ->
    place self r G (EField e f) (EField e' f) (up u) G'
| p_first r G e e' t id u b G' : place self r G e e' t G' -> derefs t (YNamed id) -> declared id (DTuple u b) ->
    place self r G (EField e "0") (EField e' "0") (up u) G'
| p_val r G e e' t G' : is_place e = false -> val self r G e e' t G' -> place self r G e e' t G'
with stms (self : string) : typ -> tenv -> list stm -> list stm -> tenv -> Prop :=
| ss_nil r G : stms self r G [] [] G
| ss_let r G x e e' t l l' G1 G2 : val self r G e e' t G1 -> stms self r ((x, Some t) :: G1) l l' G2 ->
    stms self r G (SLet x e :: l) (SLet x e' :: l') G2
| ss_expr r G e e' t l l' G1 G2 : val self r G e e' t G1 -> (block_like e = true -> t = YUnit) -> stms self r G1 l l' G2 ->
    stms self r G (SExpr e :: l) (SExpr e' :: l') G2
with args (self : string) : typ -> tenv -> list ex -> list ex -> list typ -> tenv -> Prop :=
| ar_nil r G : args self r G [] [] [] G
| ar_cons r G e e' u t es es' ts G1 G2 : val self r G e e' u G1 -> coerces u t -> args self r G1 es es' ts G2 ->
    args self r G (e :: es) (e' :: es') (t :: ts) G2
with fields (self : string) : typ -> tenv -> list (string * ex) -> list (string * ex) -> list typ -> tenv -> Prop :=
| fi_nil r G : fields self r G [] [] [] G
| fi_cons r G f e e' u t fs fs' ts G1 G2 : val self r G e e' u G1 -> coerces u t -> fields self r G1 fs fs' ts G2 ->
    fields self r G ((f, e) :: fs) ((f, e') :: fs') (t :: ts) G2
with arms (self : string) : typ -> tenv -> typ -> list (pat * ex) -> list (pat * ex) -> typ -> tenv -> Prop :=
| am_one r G u q b b' t B G1 : binds self q u B -> val self r (B ++ G) b b' t G1 ->
    arms self r G u [(q, b)] [(q, b')] t (out G G1)
| am_cons r G u q b b' t B ms ms' G1 G2 : binds self q u B -> val self r (B ++ G) b b' t G1 -> arms self r G u ms ms' t G2 ->
    arms self r G u ((q, b) :: ms) ((q, b') :: ms') t (join (out G G1) G2).

(** ** Functions and modules *)
(** The body has the result type; [b] is how it is understood. *)
Definition fn_typed (i : pimpl) (q : pfn) (b : ex) : Prop := exists ts r u G,
  sig_of i q = Some (ts, r)
  /\ val (pi_type i) r (rev (combine (map fst (pf_params q)) (map Some ts))) (pf_body q) b u G /\ coerces u r.
Definition typed : Prop := forall i q, In (IImpl i) items -> In q (pi_fns i) -> exists b, fn_typed i q b.
End Typing.
