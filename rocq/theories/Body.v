(** * Body: the bodies of the generated functions

    The [quote!] templates of the functions, written out as Rust (Rust.v), for each
    constructor of the IR of Gen.v, which records the choice of the template and what is
    spliced into it. *)
From Verif Require Import Base Libs Xml Ast Gen Run Rust.

Definition v (x : string) : ex := EVar x.
(** A method of a library type. *)
Definition call (e : ex) (m : string) (args : list ex) : ex := EMethod e None m args.
(** Expressions that end with a block, of type (). *)
Fixpoint unit_tail (e : ex) : bool :=
  match e with
  | EFor _ _ _ | EWhile _ _ | EWhileLet _ _ _ => true
  | EIf _ t EUnit | EIfLet _ _ t EUnit => match t with EBlock _ EUnit => true | EBlock _ e => unit_tail e | _ => false end
  | _ => false
  end.
(** [{ l }]: without a semicolon, such an expression at the end is the value of the block
    ("Block expressions"). *)
Definition unit_block (l : list stm) : ex :=
  match rev l with
  | SExpr e :: r => if unit_tail e then EBlock (rev r) e else EBlock l EUnit
  | _ => EBlock l EUnit
  end.
Definition value_block (e : ex) : ex := EBlock [] e.
Definition none : ex := EPath (PName "None").
Definition some (e : ex) : ex := ECall (PName "Some") None [e].
Definition err_struct (variant : string) (fs : list (string * ex)) : ex :=
  EStruct (PLib ("::xsd::decode::FromXmlError::" +++ variant)) fs.
Definition str_of (e : ex) : ex := call e "to_string" [].

(** xsd/context.rs:166-175 [quote_xml_namespace]. *)
Definition ns_code (ns : option string) : ex := match ns with Some u => some (EStr u) | None => none end.

(** ** Reading *)
(** ast/literal_type.rs:71-82 [from_str_impl]. *)
Definition lit_code (l : literal) : ex :=
  ETry (EMapped (ECall (PLib "std::str::FromStr::from_str") (Some (TPrim (lit_prim l))) [v "val"]) "map_err" "err"
    (value_block (err_struct "ParseType"
      [("type_", str_of (EStr (xsd_name l))); ("value", str_of (v "val")); ("err", ECall (PAssoc "Box" "new") None [v "err"])]))).
(** ast/leaf_content.rs:47-76 [from_xml_impl], ast/name.rs:39-44. *)
Definition rx_code (x : rx) : ex :=
  match x with
  | RxText l => EBlock [SLet "val" (ETry (call (v "node") "text" []))] (lit_code l)
  | RxFixed s =>
      EBlock [SLet "val" (ETry (call (v "node") "text" []))]
        (EIf (ENe (v "val") (EStr s))
           (unit_block [SExpr (EReturn (ECall (PName "Err") None
              [call (err_struct "FixedMismatch" [("expected", EStr s); ("received", str_of (v "val"))]) "into" []]))])
           EUnit)
  | RxCall id => ETry (ECall (PAssoc id "from_xml_node") None [ERef (v "node")])
  end.

(** ast/leaf.rs:159-167. *)
Definition while_look_code (id : string) (x : rx) : ex :=
  EBlock [SLet "vec" (ECall (PAssoc "Vec" "new") None []);
          SExpr (EWhile (ECall (PAssoc id "lookahead") None [v "node"]) (unit_block [SExpr (EPush "vec" (rx_code x))]))]
    (v "vec").
(** ast/leaf.rs:199-207; root.rs:306-310. *)
Definition next_stms (n : string) (ns : option string) (x : rx) : list stm :=
  [SLet "vec" (ECall (PAssoc "Vec" "new") None []);
   SExpr (EWhileLet (PSome "node") (call (v "node") "next_child" [EStr n; ns_code ns]) (unit_block [SExpr (EPush "vec" (rx_code x))]))].
Definition while_next_code (n : string) (ns : option string) (x : rx) : ex := EBlock (next_stms n ns x) (v "vec").
(** ast/leaf.rs:169-178, 209-218. *)
Definition vec_code (opt : bool) (e : ex) : ex :=
  if opt then
    EBlock [SLet "val" e] (EIf (call (v "val") "is_empty" []) (value_block none) (value_block (some (v "val"))))
  else value_block e.
(** ast/leaf.rs:142-245 [from_xml_impl], the value of the field; element_content.rs:62-70. *)
Definition fr_code (f : fr) : ex :=
  match f with
  | FrHere x => value_block (rx_code x)
  | FrWhileLook id x opt => vec_code opt (while_look_code id x)
  | FrIfLook id x =>
      value_block (EIf (ECall (PAssoc id "lookahead") None [v "node"])
                       (value_block (some (rx_code x))) (value_block none))
  | FrWhileNext n ns x opt => vec_code opt (while_next_code n ns x)
  | FrIfNext n ns x =>
      value_block (EIfLet (PSome "node") (call (v "node") "next_child" [EStr n; ns_code ns])
                     (value_block (some (rx_code x))) (value_block none))
  | FrTryChild n ns x =>
      EBlock [SLet "node" (ETry (call (v "node") "try_child" [EStr n; ns_code ns]))] (rx_code x)
  | FrTryNext n ns x =>
      EBlock [SLet "node" (ETry (call (v "node") "try_next_child" [EStr n; ns_code ns]))] (rx_code x)
  end.

(** ast/leaf_content.rs:78-84, name.rs:46-50 [from_str_impl], at the type of the field. *)
Definition ax_code (a : ax) : ex :=
  match a with
  | AxLit l => lit_code l
  | AxFromStr t => ETry (ECall (PLib "::std::str::FromStr::from_str") (Some t) [v "val"])
  | AxUnit => EUnit
  end.
(** ast/attribute.rs:62-85 [from_xml_impl]. *)
Definition ra_code (a : ra) : ex :=
  if ra_opt a then
    value_block (EIfLet (PSome "val") (call (v "node") "attribute" [EStr (ra_xml a)])
                   (value_block (some (ax_code (ra_conv a)))) (value_block none))
  else EBlock [SLet "val" (ETry (call (v "node") "try_attribute" [EStr (ra_xml a)]))] (ax_code (ra_conv a)).

(** ast/root.rs:284-331: the chain of [if .. else if .. else]. *)
Fixpoint arms_code (self : string) (l : list arm) : ex :=
  match l with
  | [] => value_block (EReturn (ECall (PName "Err") None
            [call (err_struct "MissingVariant" [("name", str_of (EStr self))]) "into" []]))
  | ArmLook w id x :: l =>
      EIf (ECall (PAssoc id "lookahead") None [v "node"])
        (value_block (ECall (PAssoc "Self" w) None [rx_code x])) (arms_code self l)
  | ArmVec w n ns x :: l =>
      EIf (call (v "node") "peek_child" [EStr n; ns_code ns])
        (EBlock (next_stms n ns x) (ECall (PAssoc "Self" w) None [v "vec"])) (arms_code self l)
  | ArmOne w n ns x :: l =>
      EIfLet (PSome "node") (call (v "node") "next_child" [EStr n; ns_code ns])
        (value_block (ECall (PAssoc "Self" w) None [rx_code x])) (arms_code self l)
  end.

(** ast/root.rs:259-333, element_definition.rs:66-79 [from_xml_impl]; schema.rs:304-306. *)
Definition read_code (t : titem) : ex :=
  ECall (PName "Ok") None
    [match ti_read t with
     | BrTuple x => ECall (PName (ti_id t)) None [rx_code x]
     | BrEnum =>
         EBlock [SLet "val" (ETry (call (v "node") "text" []))]
           (ETry (ECall (PLib "::std::str::FromStr::from_str") (Some (TRef (ti_id t))) [v "val"]))
     | BrStruct fs ats =>
         EStruct (PName (ti_id t))
           (map (fun f => (fst f, fr_code (snd f))) fs ++ map (fun a => (ra_field a, ra_code a)) ats)
     | BrChoice arms => arms_code (ti_id t) arms
     end].

(** ast/root.rs:336-419 [lookahead_impl]: [false || ..], which associates to the left. *)
Definition lk1_code (k : lk1) : ex :=
  match k with
  | LkCall id => ECall (PAssoc id "lookahead") None [v "node"]
  | LkPeek n ns => call (v "node") "peek_child" [EStr n; ns_code ns]
  end.
Definition look_code (k : lk) : ex :=
  match k with
  | LkTrue => EBool true
  | LkOr l => fold_left (fun e k => EOr e (lk1_code k)) l (EBool false)
  end.

(** xsd/schema.rs:298-302. *)
Definition from_xml_code (t : titem) : ex :=
  EBlock [SLet "doc" (ETry (ECall (PLib "::xsd::decode::decode") None [call (v "input") "as_ref" []]));
          SLet "node" (ETry (call (v "doc") "try_child" [EStr (ti_read_name t); ns_code (ti_read_ns t)]))]
    (ECall (PAssoc "Self" "from_xml_node") None [ERef (v "node")]).

(** ** Writing *)
Definition start_tag : stm := SExpr (ETry (call (v "ctx") "write_start_element" [v "writer"])).
Definition end_tag : stm := SExpr (ETry (call (v "ctx") "write_end_element" [v "writer"])).
(** schema.rs:258, 282: [use ::xsd::xml::writer::events::XmlEvent]. *)
Definition xml_event (v : string) : string := "::xsd::xml::writer::events::XmlEvent::" +++ v.
Definition characters (e : ex) : stm :=
  SExpr (ETry (call (v "writer") "write" [ECall (PLib (xml_event "characters")) None [e]])).
(** ast/leaf_content.rs:30-35, root.rs:195-198. *)
Definition text_stms (e : ex) : list stm :=
  [SLet "val" e;
   SExpr (EIf (ENot (call (v "val") "is_empty" [])) (unit_block [characters (ERef (v "val"))]) EUnit)].
(** ast/leaf_content.rs:26-45 [to_xml_impl], literal_type.rs:67-69, name.rs:33-37. *)
Definition wx_code (x : wx) : list stm :=
  match x with
  | WxText => text_stms (str_of (v "val"))
  | WxFixed s => [characters (EStr s)]
  | WxCall id => [SExpr (ETry (EMethod (v "val") (Some (TRef id)) "to_xml_writer" [v "ctx"; v "writer"]))]
  end.
Definition tagged (wrap : bool) (l : list stm) : list stm := if wrap then start_tag :: l ++ [end_tag] else l.

(** ast/leaf.rs:72-140 [to_xml_impl]. *)
Definition wf_code (w : wf) : list stm :=
  let ctx := match wf_new w with
             | Some n => SLet "ctx" (ECall (PLib "::xsd::Context::new") None [EStr n])
             | None => SLet "ctx" (ECall (PLib "::xsd::Context::wrap") None [ERef (v "ctx")])
             end in
  let tn := ctx :: tagged (wf_wrap w) (wx_code (wf_x w)) in
  let tn := if wf_vec w then [SExpr (EFor "val" (v "val") (unit_block tn))] else tn in
  let tn := if wf_opt w then [SExpr (EIfLet (PSome "val") (v "val") (unit_block tn) EUnit)] else tn in
  [SLet "val" (ERef (EField (v "self") (wf_field w))); SExpr (unit_block tn)].

(** The type of the module whose method is called, if it is one. *)
Definition own_type (t : option rty) : option rty := match t with Some (TRef id) => Some (TRef id) | _ => None end.
(** ast/attribute.rs:36-60 [to_xml_impl]; [val] has the type of the field. *)
Definition wa_code (t : titem) (a : wa) : list stm :=
  let conv := match wa_fixed a with
              | Some s => EStr s
              | None => EMethod (v "val") (own_type (field_type t (wa_field a))) "to_string" []
              end in
  if wa_opt a then
    [SLet "val" (EMapped (call (EField (v "self") (wa_field a)) "as_ref" []) "map" "val" (value_block conv));
     SExpr (EIfLet (PSome "val") (v "val") (value_block (call (v "ctx") "set_attr" [EStr (wa_xml a); v "val"])) EUnit)]
  else
    [SLet "val" (ERef (EField (v "self") (wa_field a)));
     SLet "val" conv;
     SExpr (call (v "ctx") "set_attr" [EStr (wa_xml a); v "val"])].

(** ast/element_content.rs:39-58 [to_xml_impl]. *)
Definition wb_code (b : wbody) : list stm :=
  match b with
  | WbNone => []
  | WbLeaf f x => SLet "val" (ERef (EField (v "self") f)) :: wx_code x
  | WbLeaves l => flat_map wf_code l
  end.

(** ast/root.rs:206-239. *)
Definition warm_code (a : warm) : pat * ex :=
  let tn := SLet "ctx" (ECall (PLib "::xsd::Context::new") None [EStr (wm_xml a)])
            :: tagged (wm_wrap a) (wx_code (wm_x a)) in
  (PCase (wm_variant a) "val",
   unit_block (if wm_vec a then [SExpr (EFor "val" (v "val") (unit_block tn))] else tn)).

(** ast/root.rs:166-256, element_definition.rs:36-64 [to_xml_impl]. *)
Definition write_code (t : titem) : list stm :=
  match ti_write t with
  | TwTuple wrap x => tagged wrap (SLet "val" (ERef (EField (v "self") "0")) :: wx_code x)
  | TwEnum => tagged true (text_stms (EMethod (v "self") (Some (TRef (ti_id t))) "to_string" []))
  | TwStruct ats wrap b => flat_map (wa_code t) ats ++ tagged wrap (wb_code b)
  | TwChoice wrap arms => tagged wrap [SExpr (EMatch (v "self") (map warm_code arms))]
  end.
(** xsd/schema.rs:236-252: the namespace declarations ([set_ns] with an empty prefix would do
    the same as [set_default_ns]). *)
Definition ns_stm (d : string * string) : stm :=
  if is_empty (fst d) then SExpr (call (v "ctx") "set_default_ns" [EStr (snd d)])
  else SExpr (call (v "ctx") "set_ns" [EStr (fst d); EStr (snd d)]).
(** xsd/schema.rs:277-289 [to_xml_writer]. *)
Definition writer_code (t : titem) : ex :=
  EBlock (map ns_stm (ti_nss t) ++ write_code t) (ECall (PName "Ok") None [EUnit]).
(** xsd/schema.rs:256-275 [to_xml]. *)
Definition to_xml_code (t : titem) : ex :=
  EBlock [SLet "body" (ECall (PAssoc "Vec" "new") None []);
          SLet "writer" (call (call (ECall (PLib "::xsd::xml::writer::EmitterConfig::new") None [])
                                 "perform_indent" [EBool true]) "create_writer" [ERef (v "body")]);
          SExpr (ETry (call (v "writer") "write" [EStruct (PLib (xml_event "StartDocument"))
            [("version", EPath (PLib "::xsd::xml::common::XmlVersion::Version10")); ("encoding", some (EStr "UTF-8")); ("standalone", none)]]));
          SLet "ctx" (ECall (PLib "::xsd::Context::new") None [EStr (ti_xml_name t)]);
          SExpr (ETry (EMethod (v "self") (Some (TRef (ti_id t))) "to_xml_writer" [v "ctx"; ERef (v "writer")]))]
    (ECall (PName "Ok") None [v "body"]).

(** ** Enumerations and tuple structs: [FromStr], [as_str], [Display] *)
(** ast/root.rs:106-117. *)
Definition enum_from_str_code (id : string) (vs : list (string * string)) : ex :=
  ECall (PName "Ok") None
    [EMatch (v "s") (map (fun d => (PLit (snd d), EPath (PAssoc id (fst d)))) vs
       ++ [(PAny, EReturn (ECall (PName "Err") None [err_struct "InvalidVariant" [("name", str_of (v "s"))]]))])].
(** ast/root.rs:119-125. *)
Definition enum_as_str_code (vs : list (string * string)) : ex :=
  EMatch (v "self") (map (fun d => (PUnit (fst d), EStr (snd d))) vs).
(** ast/root.rs:127-131. *)
Definition enum_fmt_code (id : string) : ex :=
  call (v "f") "write_str" [EMethod (v "self") (Some (TRef id)) "as_str" []].
(** ast/root.rs:62-75. *)
Definition tuple_from_str_code (id : string) (t : rty) : ex :=
  ECall (PName "Ok") None
    [ECall (PName id) None
       [ETry (EMapped (ECall (PLib "::std::str::FromStr::from_str") (Some t) [v "s"]) "map_err" "err"
          (value_block (err_struct "ParseType"
            [("type_", str_of (EStr id)); ("value", str_of (v "s")); ("err", ECall (PAssoc "Box" "new") None [v "err"])])))]].
(** ast/root.rs:77-81. *)
Definition tuple_fmt_code (t : rty) : ex :=
  EMethod (EField (v "self") "0") (own_type (Some t)) "fmt" [v "f"].

(** ** The functions of a type, by name *)
Definition item_fn (t : titem) (f : string) : option fn :=
  if f =?s "from_xml" then Some (mkFn ["input"] (from_xml_code t))
  else if f =?s "from_xml_node" then Some (mkFn ["node"] (read_code t))
  else if f =?s "lookahead" then Some (mkFn ["node"] (look_code (ti_look t)))
  else if f =?s "to_xml" then Some (mkFn ["self"] (to_xml_code t))
  else if f =?s "to_xml_writer" then Some (mkFn ["self"; "ctx"; "writer"] (writer_code t))
  else match ti_decl t with
       | DEnum vs =>
           if f =?s "from_str" then Some (mkFn ["s"] (enum_from_str_code (ti_id t) vs))
           else if f =?s "as_str" then Some (mkFn ["self"] (enum_as_str_code vs))
           else if f =?s "fmt" then Some (mkFn ["self"; "f"] (enum_fmt_code (ti_id t)))
           else None
       | DTuple ty true =>
           if f =?s "from_str" then Some (mkFn ["s"] (tuple_from_str_code (ti_id t) ty))
           else if f =?s "fmt" then Some (mkFn ["self"; "f"] (tuple_fmt_code ty))
           else None
       | _ => None
       end.
(** The functions of a module, schema.rs:204-322. *)
Definition module_fn (p : program) (id f : string) : option fn :=
  match lookup_item p id with Some t => item_fn t f | None => None end.
