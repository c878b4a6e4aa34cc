(** * Rust: a semantics of the Rust in which the generated functions are written

    Syntax and evaluation of the subset of Rust that the [quote!] templates use, written
    from the Rust reference: blocks with [let] and shadowing, [if], [if let], [while],
    [while let], [for], [match], [?], [return], calls, methods, struct expressions. Nothing
    here knows the templates (Body.v) or the IR of Gen.v; the functions of the crate xsd
    are those of Decode.v and Writer.v, applied to a heap: nodes and contexts are
    locations, so that sharing is explicit. References are transparent. What type
    inference adds is written into the syntax: the [Self] type of a trait function and
    the type of a receiver, where it matters. *)
From Verif Require Import Base Libs Xml Ast Decode Writer Gen Run.

(** ** Syntax *)
Inductive rpath :=
| PName (x : string)              (* one segment: a type or a function of the prelude *)
| PAssoc (t f : string)           (* T::f, Self::f *)
| PLib (x : string).              (* a path into a crate *)
Inductive pat :=
| PSome (x : string)              (* Some(x) *)
| PCase (v x : string)            (* T::V(x) *)
| PUnit (v : string)              (* T::V *)
| PLit (s : string)               (* "..." *)
| PAny.                           (* _ *)
Inductive ex :=
| EVar (x : string)
| EStr (s : string)
| EBool (b : bool)
| EUnit
| EPath (p : rpath)
| ERef (e : ex)                                   (* &e, &mut e *)
| EBlock (l : list stm) (e : ex)                  (* { l e } *)
| EIf (c t e : ex)
| EIfLet (p : pat) (x t e : ex)
| EWhile (c b : ex)
| EWhileLet (p : pat) (x b : ex)
| EFor (x : string) (e b : ex)
| EMatch (e : ex) (arms : list (pat * ex))
| ECall (p : rpath) (t : option rty) (args : list ex)
| EMethod (e : ex) (t : option rty) (m : string) (args : list ex)
| EMapped (e : ex) (m : string) (x : string) (b : ex)   (* e.m(|x| b) *)
| EPush (x : string) (e : ex)                     (* x.push(e), x a Vec *)
| EField (e : ex) (f : string)
| ETry (e : ex)                                   (* e? *)
| EReturn (e : ex)
| ENot (e : ex)
| EOr (a b : ex)
| ENe (a b : ex)
| EStruct (p : rpath) (fs : list (string * ex))   (* p { f: e, .. } *)
with stm :=
| SLet (x : string) (e : ex)
| SExpr (e : ex).
Record fn := mkFn { fn_params : list string; fn_body : ex }.

(** ** Values and state *)
Inductive rv :=
| D (v : value)                   (* data, owned or borrowed *)
| Nd (l : nat)                    (* a decode::Node *)
| SomeNd (l : nat)                (* Option<Node> *)
| NoneOf                          (* None, of any type *)
| Cx (virtual : bool) (l : nat)   (* a Context: Virtual or Context, and where its inner is *)
| Doc (e : xelem)                 (* a decode::Document *)
| ROk (r : rv)
| RErr (r : rv)
| Er (e : from_xml_err)
| ParseErr                        (* an error of a library's FromStr *)
| Wr | Cfg | Fm                   (* EventWriter, EmitterConfig, Formatter *)
| Chars (s : string)              (* XmlEvent::characters(s) *)
| Version10                       (* XmlVersion::Version10 *)
| StartDoc.                       (* XmlEvent::StartDocument { .. } *)

(** What reaches the writer. *)
Inductive wevent := WDoc | WEv (e : event).

Record state := mkState {
  s_nodes : list (xelem * children);
  s_inners : list inner;
  s_out : list wevent;
  s_text : string                 (* what the formatter has collected *)
}.
Fixpoint set_nth {A} (k : nat) (a : A) (l : list A) : list A :=
  match l, k with
  | [], _ => []
  | _ :: l, O => a :: l
  | x :: l, S k => x :: set_nth k a l
  end.
Definition set_node (l : nat) (n : xelem * children) (s : state) : state :=
  mkState (set_nth l n (s_nodes s)) (s_inners s) (s_out s) (s_text s).
Definition new_node (e : xelem) (s : state) : nat * state :=
  (length (s_nodes s), mkState (s_nodes s ++ [(e, children_new e)]) (s_inners s) (s_out s) (s_text s)).
Definition set_inner (l : nat) (i : inner) (s : state) : state :=
  mkState (s_nodes s) (set_nth l i (s_inners s)) (s_out s) (s_text s).
Definition new_inner (i : inner) (s : state) : nat * state :=
  (length (s_inners s), mkState (s_nodes s) (s_inners s ++ [i]) (s_out s) (s_text s)).
Definition put (evs : list wevent) (s : state) : state :=
  mkState (s_nodes s) (s_inners s) (s_out s ++ evs) (s_text s).
Definition set_text (t : string) (s : state) : state := mkState (s_nodes s) (s_inners s) (s_out s) t.

(** Variables, innermost first. *)
Definition env := list (string * rv).
Inductive outcome :=
| Val (r : rv) (E : env) (s : state)
| Ret (r : rv) (s : state)        (* [return], [?] *)
| Stuck                           (* ill-typed *)
| Fuel.
Definition obind (o : outcome) (k : rv -> env -> state -> outcome) : outcome :=
  match o with Val r E s => k r E s | Ret r s => Ret r s | Stuck => Stuck | Fuel => Fuel end.
(** The end of a scope. *)
Definition leave (E : env) (o : outcome) : outcome :=
  obind o (fun r E' s => Val r (skipn (length E' - length E) E') s).

(** Options and results, with data inside where possible. *)
Definition some_of (r : rv) : option rv :=
  match r with D v => Some (D (VSome v)) | Nd l => Some (SomeNd l) | _ => None end.
Definition none_like (r : rv) : bool := match r with NoneOf | D VNone => true | _ => false end.
(** [None] as data. *)
Definition data (r : rv) : option value := match r with D v => Some v | NoneOf => Some VNone | _ => None end.
Definition opt_str (r : rv) : option (option string) :=
  match r with
  | D (VSome (VStr s)) => Some (Some s)
  | D VNone | NoneOf => Some None
  | _ => None
  end.

(** Patterns: the variables bound, or no match. *)
Inductive matched := Yes (E : env) | No | Never.
Definition matches_pat (q : pat) (r : rv) : matched :=
  match q, r with
  | PSome x, D (VSome v) => Yes [(x, D v)]
  | PSome x, SomeNd l => Yes [(x, Nd l)]
  | PSome _, D VNone => No
  | PSome _, NoneOf => No
  | PCase v x, D (VChoice w a) => if w =?s v then Yes [(x, D a)] else No
  | PUnit v, D (VEnum w) => if w =?s v then Yes [] else No
  | PLit s, D (VStr t) => if t =?s s then Yes [] else No
  | PAny, _ => Yes []
  | _, _ => Never
  end.

Section Eval.
Context {L : Libs}.
Variable p : program.
(** The functions of the module: type, name. *)
Variable fns : string -> string -> option fn.

Definition ret (r : rv) (E : env) (s : state) : outcome := Val r E s.
Definition result (E : env) (s : state) (r : res from_xml_err rv) : outcome :=
  match r with Ok r => Val (ROk r) E s | Err e => Val (RErr (Er e)) E s | _ => Stuck end.

(** ** The library *)
(** xsd::decode::FromXmlError { .. }. *)
Definition error_of (v : string) (fs : list (string * rv)) : option from_xml_err :=
  match fs with
  | [(a, D (VStr x))] =>
      if a =?s "name" then
        if v =?s "::xsd::decode::FromXmlError::InvalidVariant" then Some (FeInvalidVariant x)
        else if v =?s "::xsd::decode::FromXmlError::MissingVariant" then Some (FeMissingVariant x)
        else None
      else None
  | [(a, D (VStr x)); (b, D (VStr y))] =>
      if ((v =?s "::xsd::decode::FromXmlError::FixedMismatch") && (a =?s "expected") && (b =?s "received"))%bool
      then Some (FeFixedMismatch x y) else None
  | [(a, D (VStr x)); (b, D (VStr y)); (c, ParseErr)] =>
      if ((v =?s "::xsd::decode::FromXmlError::ParseType") && (a =?s "type_") && (b =?s "value") && (c =?s "err"))%bool
      then Some (FeParseType x y) else None
  | _ => None
  end.

(** A struct of the libraries. *)
Definition lib_struct (v : string) (fs : list (string * rv)) : option rv :=
  match fs with
  | [(a, Version10); (b, D (VSome (VStr u))); (c, NoneOf)] =>
      if ((v =?s "::xsd::xml::writer::events::XmlEvent::StartDocument")
          && (a =?s "version") && (b =?s "encoding") && (u =?s "UTF-8") && (c =?s "standalone"))%bool
      then Some StartDoc else None
  | _ => option_map Er (error_of v fs)
  end.

(** Methods of [Node]; the heap cell of the receiver is updated. *)
Definition node_method (l : nat) (m : string) (args : list rv) (E : env) (s : state) : outcome :=
  match nth_error (s_nodes s) l with
  | None => Stuck
  | Some (e, c) =>
      match args with
      | [] => if m =?s "text" then result E s (t <- d_text e ;; Ok (D (VStr t))) else Stuck
      | [D (VStr n)] =>
          if m =?s "attribute" then
            Val (match d_attribute e n with Some v => D (VSome (VStr v)) | None => NoneOf end) E s
          else if m =?s "try_attribute" then result E s (v <- d_try_attribute e n ;; Ok (D (VStr v)))
          else Stuck
      | [D (VStr n); a] =>
          match opt_str a with
          | None => Stuck
          | Some ns =>
              if m =?s "peek_child" then
                let '(b, c') := peek_child n ns c in Val (D (VBool b)) E (set_node l (e, c') s)
              else if m =?s "next_child" then
                let '(o, c') := next_child n ns c in
                let s := set_node l (e, c') s in
                match o with
                | Some k => let '(l', s) := new_node k s in Val (SomeNd l') E s
                | None => Val NoneOf E s
                end
              else if m =?s "try_next_child" then
                let '(o, c') := try_next_child n ns c in
                let s := set_node l (e, c') s in
                match o with
                | Ok k => let '(l', s) := new_node k s in Val (ROk (Nd l')) E s
                | Err x => Val (RErr (Er x)) E s
                | _ => Stuck
                end
              else if m =?s "try_child" then
                let '(o, c') := try_child n ns c in
                let s := set_node l (e, c') s in
                match o with
                | Ok k => let '(l', s) := new_node k s in Val (ROk (Nd l')) E s
                | Err x => Val (RErr (Er x)) E s
                | _ => Stuck
                end
              else Stuck
          end
      | _ => Stuck
      end
  end.

(** Methods of [Context]. *)
Definition context_method (virtual : bool) (l : nat) (m : string) (args : list rv) (E : env) (s : state) : outcome :=
  match nth_error (s_inners s) l with
  | None => Stuck
  | Some i =>
      let c := mkWctx virtual i in
      match args with
      | [Wr] =>
          if m =?s "write_start_element" then
            let '(ev, c') := write_start_element c in
            Val (ROk (D VUnit)) E (put (map WEv ev) (set_inner l (wc_inner c') s))
          else if m =?s "write_end_element" then
            Val (ROk (D VUnit)) E (put (map WEv (write_end_element c)) s)
          else Stuck
      | [D (VStr u)] =>
          if m =?s "set_default_ns" then Val (D VUnit) E (set_inner l (wc_inner (set_ns "" u c)) s) else Stuck
      | [D (VStr n); D (VStr v)] =>
          if m =?s "set_attr" then Val (D VUnit) E (set_inner l (wc_inner (set_attr n v c)) s)
          else if m =?s "set_ns" then Val (D VUnit) E (set_inner l (wc_inner (set_ns n v c)) s)
          else Stuck
      | _ => Stuck
      end
  end.

(** The other methods, by the receiver. *)
Definition lib_method (r : rv) (m : string) (args : list rv) (E : env) (s : state) : outcome :=
  match r, args with
  | Nd l, _ => node_method l m args E s
  | Cx b l, _ => context_method b l m args E s
  | Doc e, [D (VStr n); a] =>
      match opt_str a with
      | Some ns => if m =?s "try_child" then
                     match doc_try_child e n ns with
                     | Ok k => let '(l, s) := new_node k s in Val (ROk (Nd l)) E s
                     | Err x => Val (RErr (Er x)) E s
                     | _ => Stuck
                     end
                   else Stuck
      | None => Stuck
      end
  | Doc _, [] => if m =?s "as_ref" then Val r E s else Stuck     (* the text of the document *)
  | Wr, [Chars t] => if m =?s "write" then Val (ROk (D VUnit)) E (put [WEv (EvChars t)] s) else Stuck
  | Wr, [StartDoc] => if m =?s "write" then Val (ROk (D VUnit)) E (put [WDoc] s) else Stuck
  | Cfg, [D (VBool _)] => if m =?s "perform_indent" then Val Cfg E s else Stuck
  | Cfg, [D (VVec [])] => if m =?s "create_writer" then Val Wr E s else Stuck
  | Fm, [D (VStr t)] => if m =?s "write_str" then Val (ROk (D VUnit)) E (set_text (s_text s +++ t) s) else Stuck
  | Er _, [] => if m =?s "into" then Val r E s else Stuck
  | D (VVec vs), [] => if m =?s "is_empty" then Val (D (VBool (match vs with [] => true | _ => false end))) E s else Stuck
  | D (VStr t), [] => if m =?s "is_empty" then Val (D (VBool (is_empty t))) E s
                      else if m =?s "to_string" then Val r E s
                      else Stuck
  | D v, [] => if m =?s "as_ref" then Val r E s
               else if m =?s "to_string" then match value_to_string v with Some t => Val (D (VStr t)) E s | None => Stuck end
               else Stuck
  | NoneOf, [] => if m =?s "as_ref" then Val r E s else Stuck
  | D v, [Fm] => if m =?s "fmt" then                           (* Display of the literals *)
                   match value_to_string v with Some t => Val (ROk (D VUnit)) E (set_text (s_text s +++ t) s) | None => Stuck end
                 else Stuck
  | _, _ => Stuck
  end.

(** Functions of libraries. *)
Definition lib_call (f : string) (t : option rty) (args : list rv) (E : env) (s : state) : outcome :=
  match args with
  | [] => if f =?s "::xsd::xml::writer::EmitterConfig::new" then Val Cfg E s
          else Stuck
  | [Doc e] => if f =?s "::xsd::decode::decode" then Val (ROk (Doc e)) E s else Stuck
  | [D (VStr x)] =>
      if ((f =?s "::std::str::FromStr::from_str") || (f =?s "std::str::FromStr::from_str"))%bool then
        match t with
        | Some (TPrim q) => match prim_from_str q x with Some v => Val (ROk (D v)) E s | None => Val (RErr ParseErr) E s end
        | _ => Stuck
        end
      else if f =?s "::xsd::Context::new" then
        let '(l, s) := new_inner (mkInner x [] []) s in Val (Cx false l) E s
      else if f =?s "::xsd::xml::writer::events::XmlEvent::characters" then Val (Chars x) E s
      else Stuck
  | [Cx _ l] => if f =?s "::xsd::Context::wrap" then Val (Cx true l) E s else Stuck
  | _ => Stuck
  end.

(** The tuple structs of the module: the only items in the value namespace. *)
Definition is_tuple_struct (x : string) : bool :=
  match lookup_item p x with
  | Some t => match ti_decl t with DTuple _ _ => true | _ => false end
  | None => false
  end.
(** A path with one segment that is called: a tuple struct of the module, else the prelude. *)
Definition name_call (x : string) (args : list rv) (E : env) (s : state) : outcome :=
  match args with
  | [r] =>
      if is_tuple_struct x then match data r with Some v => Val (D (VTuple v)) E s | None => Stuck end
      else if x =?s "Some" then match some_of r with Some r => Val r E s | None => Stuck end
      else if x =?s "Ok" then Val (ROk r) E s
      else if x =?s "Err" then Val (RErr r) E s
      else Stuck
  | _ => Stuck
  end.
(** Functions of the types of the prelude. *)
Definition prelude_call (t f : string) (args : list rv) (E : env) (s : state) : outcome :=
  match args with
  | [] => if ((t =?s "Vec") && (f =?s "new"))%bool then Val (D (VVec [])) E s else Stuck
  | [ParseErr] => if ((t =?s "Box") && (f =?s "new"))%bool then Val ParseErr E s else Stuck
  | _ => Stuck
  end.

Section Open.
  (** Evaluation with less fuel. *)
  Variable ev : ex -> env -> state -> outcome.
  Fixpoint eval_stms (l : list stm) (E : env) (s : state) (k : env -> state -> outcome) : outcome :=
    match l with
    | [] => k E s
    | SLet x e :: l => obind (ev e E s) (fun r E s => eval_stms l ((x, r) :: E) s k)
    | SExpr e :: l => obind (ev e E s) (fun _ E s => eval_stms l E s k)
    end.
  Fixpoint eval_args (l : list ex) (E : env) (s : state) (k : list rv -> env -> state -> outcome) : outcome :=
    match l with
    | [] => k [] E s
    | e :: l => obind (ev e E s) (fun r E s => eval_args l E s (fun rs => k (r :: rs)))
    end.
  Fixpoint eval_fields (l : list (string * ex)) (E : env) (s : state) (k : list (string * rv) -> env -> state -> outcome) : outcome :=
    match l with
    | [] => k [] E s
    | (f, e) :: l => obind (ev e E s) (fun r E s => eval_fields l E s (fun rs => k ((f, r) :: rs)))
    end.
  Fixpoint eval_arms (r : rv) (arms : list (pat * ex)) (E : env) (s : state) : outcome :=
    match arms with
    | [] => Stuck
    | (q, b) :: arms =>
        match matches_pat q r with
        | Yes B => leave E (ev b (B ++ E) s)
        | No => eval_arms r arms E s
        | Never => Stuck
        end
    end.
  Fixpoint eval_each (x : string) (b : ex) (vs : list value) (E : env) (s : state) : outcome :=
    match vs with
    | [] => Val (D VUnit) E s
    | v :: vs => obind (leave E (ev b ((x, D v) :: E) s)) (fun _ E s => eval_each x b vs E s)
    end.
  (** A function of the module: its own variables, its own [return]. *)
  Definition call_fn (ev : string -> ex -> env -> state -> outcome) (t f : string) (args : list rv) (E : env) (s : state) : outcome :=
    match fns t f with
    | None => Stuck
    | Some g =>
        if Nat.eqb (length (fn_params g)) (length args) then
          match ev t (fn_body g) (rev (combine (fn_params g) args)) s with
          | Val r _ s | Ret r s => Val r E s
          | o => o
          end
        else Stuck
    end.
End Open.

Definition fields_data (fs : list (string * rv)) : option (list (string * value)) :=
  fold_right (fun f o => match data (snd f), o with Some v, Some l => Some ((fst f, v) :: l) | _, _ => None end) (Some []) fs.
Definition variant_of (t v : string) : bool :=
  match lookup_item p t with
  | Some i => match ti_decl i with
              | DEnum vs => mem String.eqb v (map fst vs)
              | DChoice vs => mem String.eqb v (map fst vs)
              | _ => false
              end
  | None => false
  end.

(** ** Evaluation; [self] is what [Self] stands for *)
Fixpoint eval (n : nat) (self : string) (e : ex) (E : env) (s : state) : outcome :=
  match n with
  | O => Fuel
  | S n =>
      let ev := eval n self in
      match e with
      | EVar x => match aget String.eqb x E with Some r => Val r E s | None => Stuck end
      | EStr t => Val (D (VStr t)) E s
      | EBool b => Val (D (VBool b)) E s
      | EUnit => Val (D VUnit) E s
      | EPath (PName x) => if x =?s "None" then if is_tuple_struct x then Stuck else Val NoneOf E s else Stuck
      | EPath (PAssoc t v) => if variant_of (if t =?s "Self" then self else t) v then Val (D (VEnum v)) E s else Stuck
      | EPath (PLib x) => if x =?s "::xsd::xml::common::XmlVersion::Version10" then Val Version10 E s else Stuck
      | ERef e => ev e E s
      | EBlock l e => leave E (eval_stms ev l E s (fun E s => ev e E s))
      | EIf c t e => obind (ev c E s) (fun r E s =>
          match r with D (VBool true) => ev t E s | D (VBool false) => ev e E s | _ => Stuck end)
      | EIfLet q x t e => obind (ev x E s) (fun r E s =>
          match matches_pat q r with Yes B => leave E (ev t (B ++ E) s) | No => ev e E s | Never => Stuck end)
      | EWhile c b => obind (ev c E s) (fun r E s =>
          match r with
          | D (VBool true) => obind (ev b E s) (fun _ E s => ev (EWhile c b) E s)
          | D (VBool false) => Val (D VUnit) E s
          | _ => Stuck
          end)
      | EWhileLet q x b => obind (ev x E s) (fun r E s =>
          match matches_pat q r with
          | Yes B => obind (leave E (ev b (B ++ E) s)) (fun _ E s => ev (EWhileLet q x b) E s)
          | No => Val (D VUnit) E s
          | Never => Stuck
          end)
      | EFor x e b => obind (ev e E s) (fun r E s =>
          match r with D (VVec vs) => eval_each ev x b vs E s | _ => Stuck end)
      | EMatch e arms => obind (ev e E s) (fun r E s => eval_arms ev r arms E s)
      | ECall q t args => eval_args ev args E s (fun rs E s =>
          match q with
          | PName x => name_call x rs E s
          | PAssoc t0 f =>
              let t0 := if t0 =?s "Self" then self else t0 in
              if variant_of t0 f then
                match rs with [r] => match data r with Some v => Val (D (VChoice f v)) E s | None => Stuck end | _ => Stuck end
              else match lookup_item p t0 with
                   | Some _ => call_fn (eval n) t0 f rs E s
                   | None => prelude_call t0 f rs E s
                   end
          | PLib x =>
              match t with
              | Some (TRef id) => call_fn (eval n) id "from_str" rs E s
              | _ => lib_call x t rs E s
              end
          end)
      | EPush x a => obind (ev a E s) (fun r E s =>
          match aget String.eqb x E, data r with
          | Some (D (VVec vs)), Some v => Val (D VUnit) (aset String.eqb x (D (VVec (vs ++ [v]))) E) s
          | _, _ => Stuck
          end)
      | EMethod e t m args => obind (ev e E s) (fun r E s => eval_args ev args E s (fun rs E s =>
          match t with
          | Some (TRef id) =>
              if m =?s "to_string" then                       (* ToString: Display into a new String *)
                let old := s_text s in
                obind (call_fn (eval n) id "fmt" [r; Fm] E (set_text "" s))
                  (fun r E s => match r with ROk _ => Val (D (VStr (s_text s))) E (set_text old s) | _ => Stuck end)
              else call_fn (eval n) id m (r :: rs) E s
          | _ => lib_method r m rs E s
          end))
      | EMapped e m x b => obind (ev e E s) (fun r E s =>
          if m =?s "map" then
            match r with
            | D (VSome v) => obind (leave E (ev b ((x, D v) :: E) s))
                (fun r E s => match some_of r with Some r => Val r E s | None => Stuck end)
            | D VNone | NoneOf => Val NoneOf E s
            | _ => Stuck
            end
          else if m =?s "map_err" then
            match r with
            | RErr y => obind (leave E (ev b ((x, y) :: E) s)) (fun r E s => Val (RErr r) E s)
            | ROk _ => Val r E s
            | _ => Stuck
            end
          else Stuck)
      | EField e f => obind (ev e E s) (fun r E s =>
          match r with
          | D (VTuple v) => if f =?s "0" then Val (D v) E s else Stuck
          | D (VStruct fs) => match aget String.eqb f fs with Some v => Val (D v) E s | None => Stuck end
          | _ => Stuck
          end)
      | ETry e => obind (ev e E s) (fun r E s =>
          match r with
          | ROk r => Val r E s
          | RErr (Er x) => Ret (RErr (Er x)) s
          | _ => Stuck
          end)
      | EReturn e => obind (ev e E s) (fun r E s => Ret r s)
      | ENot e => obind (ev e E s) (fun r E s => match r with D (VBool b) => Val (D (VBool (negb b))) E s | _ => Stuck end)
      | EOr a b => obind (ev a E s) (fun r E s =>
          match r with D (VBool true) => Val r E s | D (VBool false) => ev b E s | _ => Stuck end)
      | ENe a b => obind (ev a E s) (fun r E s => obind (ev b E s) (fun r' E s =>
          match r, r' with D (VStr x), D (VStr y) => Val (D (VBool (negb (x =?s y)))) E s | _, _ => Stuck end))
      | EStruct q fs => eval_fields ev fs E s (fun rs E s =>
          match q with
          | PName x => match lookup_item p x with
                       | Some t => match ti_decl t, fields_data rs with
                                   | DStruct _, Some vs => Val (D (VStruct vs)) E s
                                   | _, _ => Stuck
                                   end
                       | None => Stuck
                       end
          | PLib x => match lib_struct x rs with Some r => Val r E s | None => Stuck end
          | PAssoc _ _ => Stuck
          end)
      end
  end.
End Eval.
