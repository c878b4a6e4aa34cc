(** * Run: what the emitted Rust does

    An interpreter of the IR of Gen.v: [from_xml], [from_xml_node], [lookahead],
    [to_xml], [to_xml_writer] (templates in ast/*.rs and xsd/schema.rs:256-318).
    [Panic] marks a state the Rust compiler would have rejected (missing type,
    wrong type); [OutOfFuel] an unfinished computation. *)
From Verif Require Import Base Libs Xml Ast Decode Writer Gen.

(** ** Values of the types declared by ast/root.rs:52-164 *)
Inductive value :=
| VStr (s : string)
| VBool (b : bool)
| VInt (z : Z)            (* i64, u64, i32 *)
| VDec (d : dec)
| VF32 (bits : N)
| VUnit
| VNone
| VSome (v : value)
| VVec (vs : list value)
| VTuple (v : value)
| VEnum (variant : string)
| VStruct (fields : list (string * value))
| VChoice (variant : string) (v : value).

(** The item of the generated module with a given name. *)
Definition lookup_item (p : program) (id : string) : option titem :=
  find (fun t => ti_id t =?s id) p.

Section WithLibs.
Context {L : Libs}.

(** ** Literals: [FromStr] and [Display] of the Rust types (std and rust_decimal), as
    called by the templates of leaf_content.rs:26-85 and literal_type.rs:67-83 *)
Definition prim_from_str (p : prim) (s : string) : option value :=
  match p with
  | PString => Some (VStr s)
  | PBool => option_map VBool (bool_from_str s)
  | PI64 => option_map VInt (parse_signed i64_min i64_max s)
  | PU64 => option_map (fun n => VInt (Z.of_N n)) (parse_unsigned u64_max s)
  | PI32 => option_map VInt (parse_signed i32_min i32_max s)
  | PDecimal => option_map VDec (dec_from_str s)
  | PF32 => option_map VF32 (f32_from_str s)
  end.

(** [val.to_string()] of a literal value, literal_type.rs:67-69. *)
Definition value_to_string (v : value) : option string :=
  match v with
  | VStr s => Some s
  | VBool b => Some (show_bool b)
  | VInt z => Some (show_Z z)
  | VDec d => Some (dec_to_string d)
  | VF32 n => Some (f32_to_string n)
  | _ => None
  end.

(** ast/literal_type.rs:71-82 [from_str_impl]. *)
Definition lit_from_str (l : literal) (s : string) : res from_xml_err value :=
  match prim_from_str (lit_prim l) s with
  | Some v => Ok v
  | None => Err (FeParseType (xsd_name l) s)
  end.

(** [FromStr]/[as_str] of a generated enum, ast/root.rs:85-134. *)
Fixpoint enum_from_str (vs : list (string * string)) (s : string) : res from_xml_err value :=
  match vs with
  | [] => Err (FeInvalidVariant s)
  | (v, lit) :: vs' => if s =?s lit then Ok (VEnum v) else enum_from_str vs' s
  end.
Fixpoint enum_as_str (vs : list (string * string)) (v : string) : option string :=
  match vs with
  | [] => None
  | (v', lit) :: vs' => if v =?s v' then Some lit else enum_as_str vs' v
  end.

(** ** Cursors

    The decoder is written against an abstract cursor so that the same code can
    be run on the real one ([real_ops], Decode.v) and on a plain list. *)
Record cursor_ops (C : Type) := mkOps {
  op_new : xelem -> C;
  op_peek : string -> option string -> C -> bool * C;
  op_next : string -> option string -> C -> option xelem * C;
  op_child : string -> option string -> C -> option xelem * C
}.
Arguments op_new {C}. Arguments op_peek {C}. Arguments op_next {C}. Arguments op_child {C}.

(** xsd/src/decode.rs:76-167. *)
Definition real_ops : cursor_ops children := mkOps _ children_new peek_child next_child child.

Section Decoder.
Context {C : Type} (ops : cursor_ops C) (p : program).

Definition R (A : Type) := res from_xml_err A.

Section Open.
  (** [call id e c]: [Id::from_xml_node(node)]; [look id c]: [Id::lookahead(node)]. *)
  Variable call : string -> xelem -> C -> R (value * C).
  Variable look : string -> C -> R (bool * C).

  Definition run_rx (x : rx) (e : xelem) (c : C) : R (value * C) :=
    match x with
    | RxText l => s <- d_text e ;; v <- lit_from_str l s ;; Ok (v, c)
    | RxFixed s => t <- d_text e ;; if t =?s s then Ok (VUnit, c) else Err (FeFixedMismatch s t)
    | RxCall id => call id e c
    end.

  (** Reading the content of a child just taken: a fresh cursor on it. *)
  Definition run_sub (x : rx) (e : xelem) : R value :=
    '(v, _) <- run_rx x e (op_new ops e) ;; Ok v.

  (** [while Id::lookahead(node) { vec.push(..) }], leaf.rs:159-167. *)
  Fixpoint while_look (fuel : nat) (id : string) (x : rx) (e : xelem) (c : C) : R (list value * C) :=
    match fuel with
    | O => OutOfFuel
    | S fuel =>
        '(b, c) <- look id c ;;
        if (b : bool) then
          '(v, c) <- run_rx x e c ;;
          '(vs, c) <- while_look fuel id x e c ;; Ok (v :: vs, c)
        else Ok ([], c)
    end.

  (** [while let Some(node) = node.next_child(..) { vec.push(..) }], leaf.rs:199-207. *)
  Fixpoint while_next (fuel : nat) (n : string) (ns : option string) (x : rx) (c : C)
    : R (list value * C) :=
    match fuel with
    | O => OutOfFuel
    | S fuel =>
        match op_next ops n ns c with
        | (Some k, c) =>
            v <- run_sub x k ;;
            '(vs, c) <- while_next fuel n ns x c ;; Ok (v :: vs, c)
        | (None, c) => Ok ([], c)
        end
    end.

  Definition vec_value (opt : bool) (vs : list value) : value :=
    if opt then match vs with [] => VNone | _ => VSome (VVec vs) end else VVec vs.

  Definition run_fr (fuel : nat) (f : fr) (e : xelem) (c : C) : R (value * C) :=
    match f with
    | FrHere x => run_rx x e c
    | FrWhileLook id x opt =>
        '(vs, c) <- while_look fuel id x e c ;; Ok (vec_value opt vs, c)
    | FrIfLook id x =>
        '(b, c) <- look id c ;;
        if (b : bool) then '(v, c) <- run_rx x e c ;; Ok (VSome v, c) else Ok (VNone, c)
    | FrWhileNext n ns x opt =>
        '(vs, c) <- while_next fuel n ns x c ;; Ok (vec_value opt vs, c)
    | FrIfNext n ns x =>
        match op_next ops n ns c with
        | (Some k, c) => v <- run_sub x k ;; Ok (VSome v, c)
        | (None, c) => Ok (VNone, c)
        end
    | FrTryChild n ns x =>
        match op_child ops n ns c with
        | (Some k, c) => v <- run_sub x k ;; Ok (v, c)
        | (None, _) => Err (FeMissingElement n ns)
        end
    | FrTryNext n ns x =>
        match op_next ops n ns c with
        | (Some k, c) => v <- run_sub x k ;; Ok (v, c)
        | (None, _) => Err (FeMissingElement n ns)
        end
    end.

  Fixpoint run_fields (fuel : nat) (fs : list (string * fr)) (e : xelem) (c : C)
    : R (list (string * value) * C) :=
    match fs with
    | [] => Ok ([], c)
    | (f, x) :: fs' =>
        '(v, c) <- run_fr fuel x e c ;;
        '(vs, c) <- run_fields fuel fs' e c ;; Ok ((f, v) :: vs, c)
    end.

  (** [FromStr::from_str(val)?] at the type of an attribute field. Only [String]
      and generated enums have an error type that converts. *)
  Definition run_ax (a : ax) (s : string) : R value :=
    match a with
    | AxLit l => lit_from_str l s
    | AxUnit => Ok VUnit
    | AxFromStr (TPrim PString) => Ok (VStr s)
    | AxFromStr (TRef id) =>
        match lookup_item p id with
        | Some t => match ti_decl t with
                    | DEnum vs => enum_from_str vs s
                    | _ => Panic "no FromStr"
                    end
        | None => Panic "unknown type"
        end
    | AxFromStr _ => Panic "error type does not convert"
    end.

  Definition run_ra (a : ra) (e : xelem) : R (string * value) :=
    match ra_opt a with
    | true => match d_attribute e (ra_xml a) with
              | Some s => v <- run_ax (ra_conv a) s ;; Ok (ra_field a, VSome v)
              | None => Ok (ra_field a, VNone)
              end
    | false => s <- d_try_attribute e (ra_xml a) ;;
               v <- run_ax (ra_conv a) s ;; Ok (ra_field a, v)
    end.

  (** The if/else-if chain of ast/root.rs:324-331. *)
  Fixpoint run_arms (fuel : nat) (self : string) (arms : list arm) (e : xelem) (c : C) : R (value * C) :=
    match arms with
    | [] => Err (FeMissingVariant self)
    | ArmLook v id x :: arms' =>
        '(b, c) <- look id c ;;
        if (b : bool) then '(w, c) <- run_rx x e c ;; Ok (VChoice v w, c)
        else run_arms fuel self arms' e c
    | ArmVec v n ns x :: arms' =>
        let '(b, c) := op_peek ops n ns c in
        if (b : bool) then
          '(ws, c) <- while_next fuel n ns x c ;; Ok (VChoice v (VVec ws), c)
        else run_arms fuel self arms' e c
    | ArmOne v n ns x :: arms' =>
        match op_next ops n ns c with
        | (Some k, c) => w <- run_sub x k ;; Ok (VChoice v w, c)
        | (None, c) => run_arms fuel self arms' e c
        end
    end.

  Definition run_body (fuel : nat) (t : titem) (e : xelem) (c : C) : R (value * C) :=
    match ti_read t with
    | BrTuple x => '(v, c) <- run_rx x e c ;; Ok (VTuple v, c)
    | BrEnum =>
        s <- d_text e ;;
        match ti_decl t with
        | DEnum vs => v <- enum_from_str vs s ;; Ok (v, c)
        | _ => Panic "no FromStr"
        end
    | BrStruct fs ats =>
        '(vs, c) <- run_fields fuel fs e c ;;
        avs <- mapM (fun a => run_ra a e) ats ;;
        Ok (VStruct (vs ++ avs), c)
    | BrChoice arms => run_arms fuel (ti_id t) arms e c
    end.

  (** [false || a || b ..]: short-circuit. *)
  Fixpoint run_lk (l : list lk1) (c : C) : R (bool * C) :=
    match l with
    | [] => Ok (false, c)
    | LkCall id :: l' =>
        '(b, c) <- look id c ;; if (b : bool) then Ok (true, c) else run_lk l' c
    | LkPeek n ns :: l' =>
        let '(b, c) := op_peek ops n ns c in
        if (b : bool) then Ok (true, c) else run_lk l' c
    end.
End Open.

(** schema.rs:310-318 [lookahead] of a type. *)
Fixpoint run_look (fuel : nat) (id : string) (c : C) : R (bool * C) :=
  match fuel with
  | O => OutOfFuel
  | S fuel =>
      match lookup_item p id with
      | None => Panic "unknown type"
      | Some t => match ti_look t with
                  | LkTrue => Ok (true, c)
                  | LkOr l => run_lk (run_look fuel) l c
                  end
      end
  end.

(** schema.rs:304-306 [from_xml_node] of a type. *)
Fixpoint run_type (fuel : nat) (id : string) (e : xelem) (c : C) : R (value * C) :=
  match fuel with
  | O => OutOfFuel
  | S fuel =>
      match lookup_item p id with
      | None => Panic "unknown type"
      | Some t => run_body (run_type fuel) (run_look fuel) fuel t e c
      end
  end.

(** schema.rs:298-302 [from_xml], on the parsed document. *)
Definition from_xml_with (fuel : nat) (id : string) (root : xelem) : R value :=
  match lookup_item p id with
  | None => Panic "unknown type"
  | Some t =>
      e <- doc_try_child root (ti_read_name t) (ti_read_ns t) ;;
      '(v, _) <- run_type fuel id e (op_new ops e) ;; Ok v
  end.
End Decoder.

(** The generated [Id::from_xml]. *)
Definition from_xml (p : program) (fuel : nat) (id : string) (root : xelem) : R value :=
  from_xml_with real_ops p fuel id root.

(** ** Encoding *)
Definition W (A : Type) := res unit A.

Definition vfield (v : value) (f : string) : W value :=
  match v with
  | VStruct fs => match aget String.eqb f fs with
                  | Some x => Ok x
                  | None => Panic "no such field"
                  end
  | _ => Panic "not a struct"
  end.

Section Encoder.
Variable p : program.

Section Open.
  (** [call id v ctx]: [v.to_xml_writer(ctx, writer)], returning the events and
      the inner of the context as left behind. *)
  Variable call : string -> value -> wctx -> W (list event * inner).

  Definition write_wx (x : wx) (v : value) (c : wctx) : W (list event * inner) :=
    match x with
    | WxText => match value_to_string v with
                | Some s => Ok (if is_empty s then [] else [EvChars s], wc_inner c)
                | None => Panic "no Display"
                end
    | WxFixed s => Ok ([EvChars s], wc_inner c)
    | WxCall id => call id v c
    end.

  (** The innermost block of leaf.rs:77-117: create or wrap a context, maybe
      write the tag around the content. Returns the enclosing context. *)
  Definition write_leaf_one (w : wf) (v : value) (c : wctx) : W (list event * wctx) :=
    match wf_new w with
    | Some n =>
        let c1 := ctx_create n in
        if wf_wrap w then
          let '(ev0, c1) := write_start_element c1 in
          '(ev1, i) <- write_wx (wf_x w) v c1 ;;
          Ok (ev0 ++ ev1 ++ write_end_element (ctx_unwrap c1 i), c)
        else
          '(ev, _) <- write_wx (wf_x w) v c1 ;; Ok (ev, c)
    | None =>
        let c1 := ctx_wrap c in
        if wf_wrap w then
          let '(ev0, c1) := write_start_element c1 in
          '(ev1, i) <- write_wx (wf_x w) v c1 ;;
          Ok (ev0 ++ ev1 ++ write_end_element (ctx_unwrap c1 i), ctx_unwrap c i)
        else
          '(ev, i) <- write_wx (wf_x w) v c1 ;; Ok (ev, ctx_unwrap c i)
    end.

  Fixpoint write_each (w : wf) (vs : list value) (c : wctx) : W (list event * wctx) :=
    match vs with
    | [] => Ok ([], c)
    | v :: vs' =>
        '(e1, c) <- write_leaf_one w v c ;;
        '(e2, c) <- write_each w vs' c ;; Ok (e1 ++ e2, c)
    end.

  (** leaf.rs:119-139. *)
  Definition write_leaf (w : wf) (self : value) (c : wctx) : W (list event * wctx) :=
    val <- vfield self (wf_field w) ;;
    let inner_vec v := if wf_vec w then
                         match v with
                         | VVec vs => write_each w vs c
                         | _ => Panic "not a Vec"
                         end
                       else write_leaf_one w v c in
    if wf_opt w then
      match val with
      | VSome v => inner_vec v
      | VNone => Ok ([], c)
      | _ => Panic "not an Option"
      end
    else inner_vec val.

  Fixpoint write_leaves (ws : list wf) (self : value) (c : wctx) : W (list event * wctx) :=
    match ws with
    | [] => Ok ([], c)
    | w :: ws' =>
        '(e1, c) <- write_leaf w self c ;;
        '(e2, c) <- write_leaves ws' self c ;; Ok (e1 ++ e2, c)
    end.

  (** [val.to_string()] of an attribute (attribute.rs:39-43), by the type of the field: generated
      enums (root.rs:119-131) and literals. *)
  Definition attr_to_string (v : value) (t : option rty) : W string :=
    match t with
    | Some (TRef id) =>
        match lookup_item p id with
        | Some ti => match ti_decl ti, v with
                     | DEnum vs, VEnum x => match enum_as_str vs x with
                                            | Some s => Ok s
                                            | None => Panic "no such variant"
                                            end
                     | _, _ => Panic "no Display"
                     end
        | None => Panic "unknown type"
        end
    | _ => match value_to_string v with Some s => Ok s | None => Panic "no Display" end
    end.

  Definition strip_opt (t : rty) : rty := match t with TOpt t => t | _ => t end.
  Definition field_type (t : titem) (f : string) : option rty :=
    match ti_decl t with
    | DStruct fs => option_map strip_opt (aget String.eqb f fs)
    | _ => None
    end.

  (** attribute.rs:44-59. *)
  Definition write_attr (t : titem) (a : wa) (self : value) (c : wctx) : W wctx :=
    val <- vfield self (wa_field a) ;;
    let conv v := match wa_fixed a with
                  | Some s => Ok s
                  | None => attr_to_string v (field_type t (wa_field a))
                  end in
    if wa_opt a then
      match val with
      | VSome v => s <- conv v ;; Ok (set_attr (wa_xml a) s c)
      | VNone => Ok c
      | _ => Panic "not an Option"
      end
    else s <- conv val ;; Ok (set_attr (wa_xml a) s c).

  Fixpoint write_attrs (t : titem) (l : list wa) (self : value) (c : wctx) : W wctx :=
    match l with
    | [] => Ok c
    | a :: l' => c <- write_attr t a self c ;; write_attrs t l' self c
    end.

  (** Content between the optional start and end tag. *)
  Definition wrapped (wrap : bool) (c : wctx) (body : wctx -> W (list event * inner))
    : W (list event * inner) :=
    if wrap then
      let '(e0, c) := write_start_element c in
      '(e1, i) <- body c ;;
      Ok (e0 ++ e1 ++ write_end_element (ctx_unwrap c i), i)
    else body c.

  Definition write_body (b : wbody) (self : value) (c : wctx) : W (list event * inner) :=
    match b with
    | WbNone => Ok ([], wc_inner c)
    | WbLeaf f x => val <- vfield self f ;; write_wx x val c
    | WbLeaves ws => '(e, c) <- write_leaves ws self c ;; Ok (e, wc_inner c)
    end.

  (** One arm of the match in root.rs:208-239. *)
  Definition write_arm_one (a : warm) (v : value) : W (list event) :=
    let c := ctx_create (wm_xml a) in
    if wm_wrap a then
      let '(e0, c) := write_start_element c in
      '(e1, i) <- write_wx (wm_x a) v c ;; Ok (e0 ++ e1 ++ write_end_element (ctx_unwrap c i))
    else '(e, _) <- write_wx (wm_x a) v c ;; Ok e.

  Fixpoint write_arm_each (a : warm) (vs : list value) : W (list event) :=
    match vs with
    | [] => Ok []
    | v :: vs' => e1 <- write_arm_one a v ;; e2 <- write_arm_each a vs' ;; Ok (e1 ++ e2)
    end.

  Definition write_choice (arms : list warm) (self : value) : W (list event) :=
    match self with
    | VChoice x v =>
        match find (fun a => wm_variant a =?s x) arms with
        | Some a => if wm_vec a then
                      match v with
                      | VVec vs => write_arm_each a vs
                      | _ => Panic "not a Vec"
                      end
                    else write_arm_one a v
        | None => Panic "no such variant"
        end
    | _ => Panic "not a choice"
    end.

  Definition set_nss (nss : list (string * string)) (c : wctx) : wctx :=
    fold_left (fun c d => set_ns (fst d) (snd d) c) nss c.

  (** The body of [to_xml_writer], schema.rs:284-285. *)
  Definition write_item (t : titem) (v : value) (c : wctx) : W (list event * inner) :=
    let c := set_nss (ti_nss t) c in
    match ti_write t with
    | TwTuple wrap x =>
        match v with
        | VTuple v => wrapped wrap c (fun c => write_wx x v c)
        | _ => Panic "not a tuple struct"
        end
    | TwEnum =>
        match v, ti_decl t with
        | VEnum x, DEnum vs =>
            match enum_as_str vs x with
            | Some s => wrapped true c (fun c => Ok (if is_empty s then [] else [EvChars s], wc_inner c))
            | None => Panic "no such variant"
            end
        | _, _ => Panic "not an enum"
        end
    | TwStruct ats wrap b =>
        c <- write_attrs t ats v c ;;
        wrapped wrap c (write_body b v)
    | TwChoice wrap arms =>
        wrapped wrap c (fun c => e <- write_choice arms v ;; Ok (e, wc_inner c))
    end.
End Open.

Fixpoint write_type (fuel : nat) (id : string) (v : value) (c : wctx) : W (list event * inner) :=
  match fuel with
  | O => OutOfFuel
  | S fuel =>
      match lookup_item p id with
      | None => Panic "unknown type"
      | Some t => write_item (write_type fuel) t v c
      end
  end.

(** schema.rs:258-275 [to_xml], as the events given to the writer. *)
Definition to_xml (fuel : nat) (id : string) (v : value) : W (list event) :=
  match lookup_item p id with
  | None => Panic "unknown type"
  | Some t => '(e, _) <- write_type fuel id v (ctx_create (ti_xml_name t)) ;; Ok e
  end.
End Encoder.
End WithLibs.
Arguments op_new {C}. Arguments op_peek {C}. Arguments op_next {C}. Arguments op_child {C}.
