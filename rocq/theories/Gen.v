(** * Gen: code generation

    xsd-internal/src/utils.rs, ast/*.rs ([to_impl], [to_declaration],
    [to_xml_impl], [from_xml_impl], [from_str_impl], [lookahead_impl]) and
    xsd/schema.rs:152-160, 204-322. The token streams are represented by a small
    IR with one constructor per [quote!] template that matters for behaviour;
    doc attributes, derives and the textual form are not represented. *)
From Verif Require Import Base Libs Xml Ast Parse.

(** ** IR of the emitted Rust *)

(** Rust types of literals, ast/literal_type.rs:45-65 [to_impl]. *)
Inductive prim := PString | PBool | PI64 | PU64 | PI32 | PDecimal | PF32.

Definition lit_prim (l : literal) : prim :=
  match l with
  | LString => PString
  | LBoolean => PBool
  | LInt64 => PI64
  | LUint64 => PU64
  | LInt32 => PI32
  | LDecimal => PDecimal
  | LFloat32 => PF32
  | LAny => PString
  | LDateTime | LTime | LDate | LDuration | LBase64Binary | LHexBinary => PString
  end.

Inductive rty :=
| TPrim (p : prim)
| TUnit
| TRef (id : string)
| TVec (t : rty)
| TOpt (t : rty).

(** Item declarations, ast/root.rs:52-164 [to_declaration]. *)
Inductive decl :=
| DTuple (t : rty) (from_str : bool)          (* (pub T); with FromStr/Display when [from_str] *)
| DEnum (variants : list (string * string))    (* variant, XML literal *)
| DStruct (fields : list (string * rty))
| DChoice (variants : list (string * rty)).

(** Reading the content of an element, ast/leaf_content.rs:47-76. *)
Inductive rx :=
| RxText (l : literal)      (* { let val = node.text()?; FromStr::from_str(val).map_err(..)? } *)
| RxFixed (s : string)      (* { let val = node.text()?; if val != s { return Err(..) } } *)
| RxCall (id : string).     (* Id::from_xml_node(&node)? *)

(** Reading a field, ast/leaf.rs:142-245; [opt] adds the is_empty test. *)
Inductive fr :=
| FrHere (x : rx)
| FrWhileLook (look : string) (x : rx) (opt : bool)
| FrIfLook (look : string) (x : rx)
| FrWhileNext (n : string) (ns : option string) (x : rx) (opt : bool)
| FrIfNext (n : string) (ns : option string) (x : rx)
| FrTryChild (n : string) (ns : option string) (x : rx)
| FrTryNext (n : string) (ns : option string) (x : rx).

(** Converting an attribute value, ast/leaf_content.rs:78-84. *)
Inductive ax :=
| AxLit (l : literal)
| AxFromStr (t : rty)       (* FromStr::from_str(val)?, at the field's type *)
| AxUnit.

Inductive arm :=            (* ast/root.rs:284-321 *)
| ArmLook (v : string) (look : string) (x : rx)
| ArmVec (v : string) (n : string) (ns : option string) (x : rx)
| ArmOne (v : string) (n : string) (ns : option string) (x : rx).

Record ra := mkRa { ra_field : string; ra_xml : string; ra_opt : bool; ra_conv : ax }.

Inductive br :=
| BrTuple (x : rx)
| BrEnum                      (* text, then FromStr of the type itself *)
| BrStruct (fields : list (string * fr)) (attrs : list ra)
| BrChoice (arms : list arm).

Inductive lk1 := LkCall (id : string) | LkPeek (n : string) (ns : option string).
Inductive lk := LkTrue | LkOr (l : list lk1).

(** Writing the content of a value, ast/leaf_content.rs:26-45. *)
Inductive wx :=
| WxText                     (* let val = val.to_string(); if !val.is_empty() { characters } *)
| WxFixed (s : string)
| WxCall (id : string).      (* val.to_xml_writer(ctx, writer)?, val : Id *)

Record wf := mkWf {          (* ast/leaf.rs:72-140 *)
  wf_field : string;
  wf_opt : bool;
  wf_vec : bool;
  wf_new : option string;    (* Some name: Context::new(name); None: Context::wrap *)
  wf_wrap : bool;
  wf_x : wx
}.

Record wa := mkWa { wa_field : string; wa_opt : bool; wa_xml : string; wa_fixed : option string }.

Inductive wbody :=
| WbNone
| WbLeaf (field : string) (x : wx)
| WbLeaves (l : list wf).

Record warm := mkWarm { wm_variant : string; wm_xml : string; wm_vec : bool; wm_wrap : bool; wm_x : wx }.

Inductive tw :=
| TwTuple (wrap : bool) (x : wx)
| TwEnum
| TwStruct (attrs : list wa) (wrap : bool) (b : wbody)
| TwChoice (wrap : bool) (arms : list warm).

Record titem := mkTitem {
  ti_id : string;
  ti_decl : decl;
  ti_xml_name : string;                       (* Context::new(..) in to_xml *)
  ti_nss : list (string * string);            (* set_default_ns ("" prefix) / set_ns calls *)
  ti_write : tw;
  ti_read_name : string;                      (* doc.try_child(name, ns) in from_xml *)
  ti_read_ns : option string;
  ti_read : br;
  ti_look : lk
}.

Definition program := list titem.

(** ** utils.rs:3-13 [escape_ident] *)
Definition escaped_names : list string :=
  [" break"; "const"; "continue"; "crate"; "else"; "enum"; "extern"; "false"; "fn";
   "for"; "if"; "impl"; "in"; "let"; "loop"; "match"; "mod"; "move"; "mut";
   "pub"; "ref"; "return"; "self"; "Self"; "static"; "struct"; "super"; "trait";
   "true"; "type"; "unsafe"; "use"; "where"; "while"; "async"; "await"; "dyn"].

(** Names [proc_macro2::Ident::new_raw] refuses (called by utils.rs:9). *)
Definition not_raw : list string := ["_"; "super"; "self"; "Self"; "crate"].

Section WithLibs.
Context {L : Libs}.

(** Generation: [NotFound] of schema.rs:343-344 or a panic. *)
Definition G (A : Type) := res schema_err A.

(** quote's [format_ident!("{}", s)], utils.rs:11. *)
Definition format_ident (s : string) : G string :=
  if ident_valid s then Ok s else Panic ("not a valid identifier: " +++ s).
(** [format_ident!("r#{}", s)], utils.rs:9. *)
Definition format_raw_ident (s : string) : G string :=
  if mem String.eqb s not_raw then Panic ("cannot be a raw identifier: " +++ s)
  else if ident_valid s then Ok ("r#" +++ s) else Panic ("not a valid identifier: " +++ s).

(** utils.rs:3-13 [escape_ident]. *)
Definition escape_ident (s : string) : G string :=
  if mem String.eqb s escaped_names then format_raw_ident s else format_ident s.

(** name.rs:29, 40; schema.rs:216: the Rust name of a type. *)
Definition type_ident (n : name) : G string := escape_ident (to_pascal_case (nm n)).
(** leaf.rs:51, 73, 143; attribute.rs:19, 37, 63; element_content.rs:19, 42, 64: field names. *)
Definition field_ident (n : name) : G string := escape_ident (to_snake_case (nm n)).
(** leaf.rs:158, 188; root.rs:291, 368, 400: the type whose [lookahead] is called. *)
Definition look_ident (n : name) : G string := format_ident (to_pascal_case (nm n)).
(** root.rs:147, 209, 285: variants of a choice. *)
Definition variant_ident (n : name) : G string := format_ident (to_pascal_case (nm n)).

(** context.rs:152-164 [get_xml_element_name], with the panic of namespaces.rs:45-49. *)
Definition xml_name_of (c : schema_ctx) (n : name) : G string :=
  match get_xml_element_name c n with
  | Some s => Ok s
  | None => Panic "inconsistent namespace state, namespace for id is missing"
  end.
(** context.rs:166-175 [quote_xml_namespace], with the panic of namespaces.rs:45-49. *)
Definition xml_ns_of (c : schema_ctx) (n : name) : G (option string) :=
  match quote_xml_namespace c n with
  | Some o => Ok o
  | None => Panic "inconsistent namespace state, namespace for id is missing"
  end.

(** ** ast/leaf_content.rs *)

(** leaf_content.rs:15-24 [to_impl]. *)
Fixpoint content_to_impl (fuel : nat) (c : schema_ctx) (ct : leaf_content) : G rty :=
  match ct with
  | LcLiteral l => Ok (TPrim (lit_prim l))
  | LcNamed n =>
      match sc_get c n with
      | Some (RootLeaf d) =>
          match fuel with
          | O => OutOfFuel
          | S fuel => content_to_impl fuel c (ld_content d)
          end
      | _ => id <- type_ident n ;; Ok (TRef id)
      end
  | LcFixed _ => Ok TUnit
  end.

(** leaf_content.rs:26-45 [to_xml_impl]. The call is dispatched on the static
    type of [val], which is the type named by [to_impl]. *)
Fixpoint content_to_xml (fuel : nat) (c : schema_ctx) (ct : leaf_content) : G wx :=
  match ct with
  | LcLiteral _ => Ok WxText
  | LcNamed n =>
      match sc_get c n with
      | Some (RootLeaf d) =>
          match fuel with
          | O => OutOfFuel
          | S fuel => content_to_xml fuel c (ld_content d)
          end
      | _ => id <- type_ident n ;; Ok (WxCall id)
      end
  | LcFixed s => Ok (WxFixed s)
  end.

(** leaf_content.rs:47-76 [from_xml_impl]. *)
Fixpoint content_from_xml (fuel : nat) (c : schema_ctx) (ct : leaf_content) : G rx :=
  match ct with
  | LcLiteral l => Ok (RxText l)
  | LcNamed n =>
      match sc_get c n with
      | Some (RootLeaf d) =>
          match fuel with
          | O => OutOfFuel
          | S fuel => content_from_xml fuel c (ld_content d)
          end
      | _ => id <- type_ident n ;; Ok (RxCall id)
      end
  | LcFixed s => Ok (RxFixed s)
  end.

(** leaf_content.rs:78-84 [from_str_impl]; [t] is the type of the field it fills. *)
Definition content_from_str (ct : leaf_content) (t : rty) : ax :=
  match ct with
  | LcLiteral l => AxLit l
  | LcNamed _ => AxFromStr t
  | LcFixed _ => AxUnit
  end.

(** leaf_definition.rs:28-38 just delegate to the content. *)
Definition def_to_impl fuel c (d : leaf_def) := content_to_impl fuel c (ld_content d).
Definition def_to_xml fuel c (d : leaf_def) := content_to_xml fuel c (ld_content d).
Definition def_from_xml fuel c (d : leaf_def) := content_from_xml fuel c (ld_content d).

(** ** ast/leaf.rs *)
Definition wrap_vec (b : bool) (t : rty) := if b then TVec t else t.
Definition wrap_opt (b : bool) (t : rty) := if b then TOpt t else t.

(** leaf.rs:50-70 [Leaf::to_impl]. *)
Definition leaf_to_impl (fuel : nat) (c : schema_ctx) (l : leaf) : G (string * rty) :=
  f <- field_ident (lf_name l) ;;
  t <- def_to_impl fuel c (lf_def l) ;;
  Ok (f, wrap_opt (lf_is_optional l) (wrap_vec (lf_is_vec l) t)).

(** leaf.rs:88-103: does the leaf itself write the tag? *)
Definition leaf_wrap (fuel : nat) (c : schema_ctx) (l : leaf) : G bool :=
  if lf_virtual l then Ok false
  else match ld_content (lf_def l) with
       | LcNamed n =>
           match resolve fuel c n with
           | None => OutOfFuel
           | Some (Some (RootLeaf (mkLeafDef (LcLiteral _) _ _))) => Ok true
           | Some _ => Ok false
           end
       | _ => Ok true
       end.

(** leaf.rs:72-140 [Leaf::to_xml_impl]. *)
Definition leaf_to_xml (fuel : nat) (c : schema_ctx) (l : leaf) : G wf :=
  f <- field_ident (lf_name l) ;;
  name_xml <- xml_name_of c (lf_name l) ;;
  x <- def_to_xml fuel c (lf_def l) ;;
  w <- leaf_wrap fuel c l ;;
  Ok (mkWf f (lf_is_optional l) (lf_is_vec l) (if lf_virtual l then None else Some name_xml) w x).

Definition virtual_target (l : leaf) : G string :=
  match ld_content (lf_def l) with
  | LcNamed n => look_ident n
  | _ => Panic "internal error: entered unreachable code"
  end.

(** leaf.rs:142-245 [Leaf::from_xml_impl]. *)
Definition leaf_from_xml (fuel : nat) (c : schema_ctx) (l : leaf) : G (string * fr) :=
  f <- field_ident (lf_name l) ;;
  ns <- xml_ns_of c (lf_name l) ;;
  let n := nm (lf_name l) in
  x <- def_from_xml fuel c (lf_def l) ;;
  if lf_virtual l then
    if lf_is_vec l then
      id <- virtual_target l ;; Ok (f, FrWhileLook id x (lf_is_optional l))
    else if lf_is_optional l then
      id <- virtual_target l ;; Ok (f, FrIfLook id x)
    else Ok (f, FrHere x)
  else
    Ok (f, if lf_is_vec l then FrWhileNext n ns x (lf_is_optional l)
           else if lf_is_optional l then FrIfNext n ns x
           else if lf_unordered l then FrTryChild n ns x
           else FrTryNext n ns x).

(** ** ast/attribute.rs *)
(** attribute.rs:18-34 [to_impl]. *)
Definition attr_to_impl (fuel : nat) (c : schema_ctx) (a : attribute) : G (string * rty) :=
  f <- field_ident (a_name a) ;;
  t <- content_to_impl fuel c (a_content a) ;;
  Ok (f, wrap_opt (a_optional a) t).

(** attribute.rs:36-60 [to_xml_impl]. *)
Definition attr_to_xml (c : schema_ctx) (a : attribute) : G wa :=
  f <- field_ident (a_name a) ;;
  name_xml <- xml_name_of c (a_name a) ;;
  Ok (mkWa f (a_optional a) name_xml
        (match a_content a with LcFixed s => Some s | _ => None end)).

(** attribute.rs:62-85 [from_xml_impl]. *)
Definition attr_from_xml (fuel : nat) (c : schema_ctx) (a : attribute) : G ra :=
  f <- field_ident (a_name a) ;;
  t <- content_to_impl fuel c (a_content a) ;;
  Ok (mkRa f (nm (a_name a)) (a_optional a) (content_from_str (a_content a) t)).

(** ** ast/element_content.rs, ast/element_definition.rs *)
(** element_content.rs:16-37, element_definition.rs:25-34 [to_impl]. *)
Definition element_to_impl (fuel : nat) (c : schema_ctx) (d : element_def) : G decl :=
  fields <- match ed_content d with
            | None => Ok []
            | Some (EcLeaf n def) =>
                f <- field_ident n ;; t <- def_to_impl fuel c def ;; Ok [(f, t)]
            | Some (EcLeaves ls) => mapM (leaf_to_impl fuel c) ls
            end ;;
  attrs <- mapM (attr_to_impl fuel c) (ed_attributes d) ;;
  Ok (DStruct (fields ++ attrs)).

(** element_content.rs:39-59, element_definition.rs:36-65 [to_xml_impl]. *)
Definition element_to_xml (fuel : nat) (c : schema_ctx) (d : element_def) : G tw :=
  attrs <- mapM (attr_to_xml c) (ed_attributes d) ;;
  let is_named_leaf := match ed_content d with
                       | Some (EcLeaf _ (mkLeafDef (LcNamed _) _ _)) => true
                       | _ => false
                       end in
  let wrap := andb (negb (ed_virtual d)) (negb is_named_leaf) in
  body <- match ed_content d with
          | None => Ok WbNone
          | Some (EcLeaf n def) =>
              f <- field_ident n ;; x <- def_to_xml fuel c def ;; Ok (WbLeaf f x)
          | Some (EcLeaves ls) => fs <- mapM (leaf_to_xml fuel c) ls ;; Ok (WbLeaves fs)
          end ;;
  Ok (TwStruct attrs wrap body).

(** element_content.rs:61-80, element_definition.rs:67-80 [from_xml_impl]. *)
Definition element_from_xml (fuel : nat) (c : schema_ctx) (d : element_def) : G br :=
  fields <- match ed_content d with
            | None => Ok []
            | Some (EcLeaf n def) =>
                f <- field_ident n ;; x <- def_from_xml fuel c def ;; Ok [(f, FrHere x)]
            | Some (EcLeaves ls) => mapM (leaf_from_xml fuel c) ls
            end ;;
  attrs <- mapM (attr_from_xml fuel c) (ed_attributes d) ;;
  Ok (BrStruct fields attrs).

(** ** ast/root.rs:421-464 [escape_enum_names]

    The resulting map is a list in insertion order; Rust iterates it in
    arbitrary order. *)
Definition enum_char (ch : string) : option string :=
  if orb (ch =?s "_") (ch =?s "-") then Some "_"
  else if char_is_alphanumeric ch then Some ch else None.
Definition filter_map {A B} (f : A -> option B) (l : list A) : list B :=
  flat_map (fun a => match f a with Some b => [b] | None => [] end) l.

Definition enum_base_name (s : string) : string :=
  let v := to_pascal_case (concat_str (filter_map enum_char (utf8_chars s))) in
  match utf8_chars v with
  | ch :: _ => if negb (char_is_alphabetic ch) then "V" +++ v else v
  | [] => v
  end.

(** The renaming [loop] of root.rs:451-458; [None] = out of fuel. *)
Fixpoint enum_fresh (fuel : nat) (taken : list (string * name)) (count : nat) (v : string)
  : option (string * nat) :=
  if orb (is_empty v) (is_some (aget String.eqb v taken)) then
    match fuel with
    | O => None
    | S fuel => enum_fresh fuel taken (S count) ("Variant" +++ show_nat (S count))
    end
  else Some (v, count).

Fixpoint escape_enum_go (names : list name) (taken : list (string * name)) (count : nat)
  : option (list (string * name)) :=
  match names with
  | [] => Some taken
  | n :: names' =>
      match enum_fresh (S (length taken)) taken count (enum_base_name (nm n)) with
      | None => None
      | Some (v, count) => escape_enum_go names' (aset String.eqb v n taken) count
      end
  end.
Definition escape_enum_names (names : list name) : option (list (string * name)) :=
  escape_enum_go names [] 0.

(** ** ast/root.rs *)
Definition enum_variants (names : list name) : G (list (string * string)) :=
  match escape_enum_names names with
  | None => OutOfFuel
  | Some l => mapM (fun vn => v <- format_ident (fst vn) ;; Ok (v, nm (snd vn))) l
  end.

(** root.rs:52-164 [to_declaration]. *)
Definition root_to_declaration (fuel : nat) (c : schema_ctx) (r : root) : G decl :=
  match r with
  | RootLeaf d =>
      t <- def_to_impl fuel c d ;;
      Ok (DTuple t (match ld_content d with LcLiteral _ => true | _ => false end))
  | RootEnum names => vs <- enum_variants names ;; Ok (DEnum vs)
  | RootElement d => element_to_impl fuel c d
  | RootChoice d =>
      vs <- mapM (fun l => v <- variant_ident (lf_name l) ;;
                           t <- def_to_impl fuel c (lf_def l) ;;
                           Ok (v, wrap_vec (lf_is_vec l) t)) (cd_variants d) ;;
      Ok (DChoice vs)
  end.

(** root.rs:166-258 [to_xml_impl]. *)
Definition root_to_xml (fuel : nat) (c : schema_ctx) (r : root) : G tw :=
  match r with
  | RootLeaf d =>
      x <- def_to_xml fuel c d ;;
      Ok (TwTuple (match ld_content d with LcNamed _ => false | _ => true end) x)
  | RootEnum _ => Ok TwEnum
  | RootElement d => element_to_xml fuel c d
  | RootChoice d =>
      arms <- mapM (fun l => v <- variant_ident (lf_name l) ;;
                             x <- def_to_xml fuel c (lf_def l) ;;
                             Ok (mkWarm v (nm (lf_name l)) (lf_is_vec l)
                                   (match ld_content (lf_def l) with LcLiteral _ => true | _ => false end) x))
                (cd_variants d) ;;
      Ok (TwChoice (negb (cd_virtual d)) arms)
  end.

(** root.rs:260-334 [from_xml_impl]. *)
Definition variant_from_xml (fuel : nat) (c : schema_ctx) (l : leaf) : G arm :=
  v <- variant_ident (lf_name l) ;;
  x <- def_from_xml fuel c (lf_def l) ;;
  ns <- xml_ns_of c (lf_name l) ;;
  if lf_virtual l then id <- virtual_target l ;; Ok (ArmLook v id x)
  else if lf_is_vec l then Ok (ArmVec v (nm (lf_name l)) ns x)
  else Ok (ArmOne v (nm (lf_name l)) ns x).

Definition root_from_xml (fuel : nat) (c : schema_ctx) (r : root) : G br :=
  match r with
  | RootLeaf d => x <- def_from_xml fuel c d ;; Ok (BrTuple x)
  | RootEnum _ => Ok BrEnum
  | RootElement d => element_from_xml fuel c d
  | RootChoice d => arms <- mapM (variant_from_xml fuel c) (cd_variants d) ;; Ok (BrChoice arms)
  end.

(** root.rs:336-418 [lookahead_impl]; [scan] stops after the first required leaf. *)
Definition leaf_look (c : schema_ctx) (l : leaf) : G lk1 :=
  if lf_virtual l then id <- virtual_target l ;; Ok (LkCall id)
  else ns <- xml_ns_of c (lf_name l) ;; Ok (LkPeek (nm (lf_name l)) ns).

Fixpoint leaves_look (c : schema_ctx) (ls : list leaf) : G (list lk1) :=
  match ls with
  | [] => Ok []
  | l :: ls' =>
      k <- leaf_look c l ;;
      if lf_is_optional l then ks <- leaves_look c ls' ;; Ok (k :: ks) else Ok [k]
  end.

Definition root_lookahead (c : schema_ctx) (r : root) : G lk :=
  match r with
  | RootLeaf _ | RootEnum _ => Ok LkTrue
  | RootElement d =>
      match ed_content d with
      | Some (EcLeaves ls) => ks <- leaves_look c ls ;; Ok (LkOr ks)
      | _ => Ok (LkOr [])
      end
  | RootChoice d => ks <- mapM (leaf_look c) (cd_variants d) ;; Ok (LkOr ks)
  end.

(** ** schema.rs:204-322 [generate_element] *)
Definition element_nss (c : schema_ctx) : G (list (string * string)) :=
  def <- match sc_qualified c, sc_target c with
         | true, NsId id =>
             match get_by_id (sc_namespaces c) id with
             | Some d => Ok [("", nd_uri d)]
             | None => Panic "inconsistent namespace state, namespace for id is missing"
             end
         | _, _ => Ok []
         end ;;
  Ok (def ++ flat_map (fun e =>
        if andb (sc_qualified c) (namespace_eqb (NsId (fst e)) (sc_target c)) then []
        else [(nd_prefix (snd e), nd_uri (snd e))]) (by_id (sc_namespaces c))).

Definition generate_element (fuel : nat) (c : schema_ctx) (n : name) : G titem :=
  match sc_get c n with
  | None => Err (SeNotFound (nm n))
  | Some el =>
      id <- type_ident n ;;
      decl <- root_to_declaration fuel c el ;;
      w <- root_to_xml fuel c el ;;
      xn <- xml_name_of c n ;;
      nss <- element_nss c ;;
      ns <- xml_ns_of c n ;;
      r <- root_from_xml fuel c el ;;
      lk <- root_lookahead c el ;;
      Ok (mkTitem id decl xn nss w (nm n) ns r lk)
  end.

(** schema.rs:152-160 [generate_all]. *)
Definition generate_all (fuel : nat) (s : schema) : G program :=
  mapM (fun e => generate_element fuel (s_context s) (fst e)) (sc_elements (s_context s)).

(** schema.rs:162-202 [generate_element_and_dependencies]. *)
Definition generate_element_and_dependencies (fuel : nat) (s : schema) (n : name) (already : list name)
  : G (program * list name) :=
  match closure_names fuel (s_dependencies s) n already with
  | None => OutOfFuel
  | Some (todo, already') =>
      p <- mapM (generate_element fuel (s_context s)) todo ;; Ok (p, already')
  end.
End WithLibs.
