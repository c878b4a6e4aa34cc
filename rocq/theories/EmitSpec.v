(** * EmitSpec: reading type declarations (C61), documentation (C62)

    A parser for the declarations of structs and enums, written from the Rust
    reference ("Items", "Structs", "Enumerations", "Attributes", "Types"), restricted to
    paths with generic arguments and the unit type. Identifiers are no keywords. *)
From Verif Require Import Base Libs Xml Ast XsdNode Parse Gen Emit RustSpec ParseSpec DeclSpec.

(** ** Syntax *)
Inductive ty := TyUnit | TyPath (segs : list string) (args : list ty).
Record field := mkField { fd_docs : list string; fd_pub : bool; fd_name : string; fd_ty : ty }.
Record variant := mkVariant { va_docs : list string; va_name : string; va_fields : list ty }.
Inductive shape :=
| ShTuple (fs : list (bool * ty))
| ShStruct (fs : list field)
| ShEnum (vs : list variant).
Record type_item := mkTypeItem { yi_docs : list string; yi_derives : list string; yi_pub : bool; yi_name : string; yi_shape : shape }.

(** ** Parser *)
Definition keyword (s : string) : bool := existsb (String.eqb s) rust_keywords.
Definition ident (ts : list tok) : option (string * list tok) :=
  match ts with Id s :: ts => if keyword s then None else Some (s, ts) | _ => None end.
Fixpoint path (fuel : nat) (ts : list tok) : option (list string * list tok) :=
  match fuel, ident ts with
  | S fuel, Some (s, Pu p :: ts') =>
      if p =?s "::" then match path fuel ts' with Some (segs, r) => Some (s :: segs, r) | None => None end
      else Some ([s], Pu p :: ts')
  | S _, Some (s, ts') => Some ([s], ts')
  | _, _ => None
  end.
Fixpoint ty_at (fuel : nat) (ts : list tok) : option (ty * list tok) :=
  match fuel with
  | O => None
  | S fuel =>
      match ts with
      | Gr o l :: ts' => if o =?s "(" then match l with [] => Some (TyUnit, ts') | _ => None end else None
      | _ =>
          match path (S fuel) ts with
          | Some (segs, Pu p :: ts') =>
              if p =?s "<" then
                match tys_at fuel ts' with
                | Some (args, Pu q :: r) => if q =?s ">" then Some (TyPath segs args, r) else None
                | _ => None
                end
              else Some (TyPath segs [], Pu p :: ts')
          | Some (segs, ts') => Some (TyPath segs [], ts')
          | None => None
          end
      end
  end
with tys_at (fuel : nat) (ts : list tok) : option (list ty * list tok) :=   (* separated by commas *)
  match fuel with
  | O => None
  | S fuel =>
      match ty_at fuel ts with
      | Some (t, Pu p :: r) =>
          if p =?s "," then match tys_at fuel r with Some (us, r') => Some (t :: us, r') | None => None end
          else Some ([t], Pu p :: r)
      | Some (t, r) => Some ([t], r)
      | None => None
      end
  end.
Definition vis (ts : list tok) : bool * list tok :=
  match ts with Id s :: ts' => if s =?s "pub" then (true, ts') else (false, ts) | _ => (false, ts) end.

(** Outer attributes: documentation and derives; others are skipped. *)
Fixpoint commas (l : list tok) : option (list string) :=
  match l with
  | [] => Some []
  | [Id s] => Some [s]
  | Id s :: Pu p :: l => if p =?s "," then option_map (cons s) (commas l) else None
  | _ => None
  end.
Fixpoint attributes (ts : list tok) : option (list string * list string * list tok) :=
  match ts with
  | Pu h :: Gr b l :: ts' =>
      if ((h =?s "#") && (b =?s "["))%bool then
        match attributes ts' with
        | None => None
        | Some (docs, derives, r) =>
            match l with
            | [Id a; Pu e; St s] => if ((a =?s "doc") && (e =?s "="))%bool then Some (s :: docs, derives, r) else Some (docs, derives, r)
            | [Id a; Gr o ds] => if ((a =?s "derive") && (o =?s "("))%bool
                                 then match commas ds with Some xs => Some (docs, xs ++ derives, r) | None => None end
                                 else Some (docs, derives, r)
            | _ => Some (docs, derives, r)
            end
        end
      else None
  | _ => Some ([], [], ts)
  end.

(** A list of things separated by commas; the last comma may be missing. *)
Section Commas.
  Context {A : Type} (one : list tok -> option (A * list tok)).
  Fixpoint comma_list (fuel : nat) (ts : list tok) : option (list A) :=
    match fuel, ts with
    | _, [] => Some []
    | O, _ => None
    | S fuel, _ =>
        match one ts with
        | Some (a, []) => Some [a]
        | Some (a, Pu p :: r) => if p =?s "," then option_map (cons a) (comma_list fuel r) else None
        | _ => None
        end
    end.
End Commas.
Definition struct_field (ts : list tok) : option (field * list tok) :=
  match attributes ts with
  | Some (docs, [], ts1) =>
      let '(pub, ts2) := vis ts1 in
      match ident ts2 with
      | Some (f, Pu p :: ts3) =>
          if p =?s ":" then match ty_at (length ts3) ts3 with Some (t, r) => Some (mkField docs pub f t, r) | None => None end
          else None
      | _ => None
      end
  | _ => None
  end.
Definition tuple_field (ts : list tok) : option (bool * ty * list tok) :=
  let '(pub, ts1) := vis ts in
  match ty_at (length ts1) ts1 with Some (t, r) => Some (pub, t, r) | None => None end.
Definition enum_variant (ts : list tok) : option (variant * list tok) :=
  match attributes ts with
  | Some (docs, [], ts1) =>
      match ident ts1 with
      | Some (v, Gr o l :: r) =>
          if o =?s "(" then match comma_list (fun ts => ty_at (length ts) ts) (length l) l with
                            | Some ts' => Some (mkVariant docs v ts', r)
                            | None => None
                            end
          else None
      | Some (v, r) => Some (mkVariant docs v [], r)
      | None => None
      end
  | _ => None
  end.
(** [struct X { .. }], [struct X ( .. );], [enum X { .. }]. *)
Definition type_item_of (ts : list tok) : option type_item :=
  match attributes ts with
  | None => None
  | Some (docs, derives, ts1) =>
      let '(pub, ts2) := vis ts1 in
      match ts2 with
      | Id k :: ts3 =>
          match ident ts3 with
          | Some (x, [Gr o l]) =>
              if negb (o =?s "{") then None
              else if k =?s "struct" then option_map (fun fs => mkTypeItem docs derives pub x (ShStruct fs)) (comma_list struct_field (length l) l)
              else if k =?s "enum" then option_map (fun vs => mkTypeItem docs derives pub x (ShEnum vs)) (comma_list enum_variant (length l) l)
              else None
          | Some (x, [Gr o l; Pu s]) =>
              if ((o =?s "(") && (s =?s ";") && (k =?s "struct"))%bool
              then option_map (fun fs => mkTypeItem docs derives pub x (ShTuple fs)) (comma_list tuple_field (length l) l)
              else None
          | _ => None
          end
      | _ => None
      end
  end.

(** Names of primitive types, and of the crate of decimals. *)
Definition primitive_names : list string := ["bool"; "i64"; "u64"; "i32"; "f32"; "rust_decimal"].

(** ** Meaning: the type of the module that a type expression denotes *)
Inductive denotes : ty -> rty -> Prop :=
| dn_unit : denotes TyUnit TUnit
| dn_string : denotes (TyPath ["String"] []) (TPrim PString)
| dn_bool : denotes (TyPath ["bool"] []) (TPrim PBool)
| dn_i64 : denotes (TyPath ["i64"] []) (TPrim PI64)
| dn_u64 : denotes (TyPath ["u64"] []) (TPrim PU64)
| dn_i32 : denotes (TyPath ["i32"] []) (TPrim PI32)
| dn_f32 : denotes (TyPath ["f32"] []) (TPrim PF32)
| dn_decimal : denotes (TyPath ["rust_decimal"; "Decimal"] []) (TPrim PDecimal)
| dn_ref id : ~ In id (primitive_names ++ prelude_types) -> denotes (TyPath [id] []) (TRef id)
| dn_vec t u : denotes t u -> denotes (TyPath ["Vec"] [t]) (TVec u)
| dn_option t u : denotes t u -> denotes (TyPath ["Option"] [t]) (TOpt u).

(** The shape of the declaration [d], with the doc comments [docs] at its fields. *)
Inductive declares : shape -> list (list string) -> decl -> Prop :=
| dl_tuple t u b : denotes t u -> declares (ShTuple [(true, t)]) [] (DTuple u b)
| dl_enum vs vs' : Forall2 (fun v v' => va_name v = fst v' /\ va_fields v = [] /\ va_docs v = []) vs vs' ->
    declares (ShEnum vs) [] (DEnum vs')
| dl_struct fs docs fs' : Forall2 (fun f f' => fd_pub f = true /\ fd_name f = fst f' /\ denotes (fd_ty f) (snd f')) fs fs' ->
    map fd_docs fs = docs -> declares (ShStruct fs) docs (DStruct fs')
| dl_choice vs vs' : Forall2 (fun v v' => va_name v = fst v' /\ (exists t, va_fields v = [t] /\ denotes t (snd v')) /\ va_docs v = []) vs vs' ->
    declares (ShEnum vs) [] (DChoice vs').

(** The doc comment for a documentation text; none for an empty text. *)
Definition doc_comment (docs : option string) : list string :=
  match docs with Some s => if s =?s "" then [] else [s] | None => [] end.
(** The doc comments of a type and of its fields. *)
Definition type_docs (r : root) : list string :=
  doc_comment (match r with
               | RootLeaf d => ld_docs d
               | RootElement d => ed_docs d
               | RootChoice d => cd_docs d
               | RootEnum _ => None
               end).
Definition content_docs (ec : option element_content) : list (list string) :=
  match ec with
  | None => []
  | Some (EcLeaf _ d) => [doc_comment (ld_docs d)]
  | Some (EcLeaves ls) => map (fun l => doc_comment (ld_docs (lf_def l))) ls
  end.
Definition fields_docs (r : root) : list (list string) :=
  match r with
  | RootElement d => content_docs (ed_content d) ++ map (fun a => doc_comment (a_docs a)) (ed_attributes d)
  | _ => []
  end.

(** The tokens declare, publicly, the type [t] of the module, as documented in [r]. *)
Definition reads_as (ts : list tok) (r : root) (t : titem) : Prop := exists sh,
  type_item_of ts = Some (mkTypeItem (type_docs r) ["Debug"; "Clone"; "PartialEq"] true (ti_id t) sh)
  /\ declares sh (fields_docs r) (ti_decl t).

(** ** Documentation in schemas *)
(** [s] is the text of a documentation element inside an annotation of [e], white space
    normalised (C41). *)
Definition doc_text (x : xelem) (s : string) : Prop :=
  exists t ks, xe_kids x = KText t :: ks /\ s = cleanup_docs t.
Definition documents (e : xelem) (s : string) : Prop :=
  exists an x, In an (xsd_children e) /\ xe_tag an = "annotation"
  /\ In x (xsd_children an) /\ xe_tag x = "documentation" /\ doc_text x s.
(** [e] has one annotation with one documentation, saying [s]. *)
Definition documented (e : xelem) (s : string) : Prop :=
  exists an x l r l' r', xsd_children e = l ++ an :: r /\ xe_tag an = "annotation"
  /\ Forall (fun y => xe_tag y <> "annotation") (l ++ r)
  /\ xsd_children an = l' ++ x :: r' /\ xe_tag x = "documentation"
  /\ Forall (fun y => xe_tag y <> "documentation") (l' ++ r') /\ doc_text x s /\ s <> "".
(** [e] has no annotation. *)
Definition undocumented (e : xelem) : Prop := Forall (fun y => xe_tag y <> "annotation") (xsd_children e).
(** The doc comment [ds] is right for [e]. *)
Definition explains (e : xelem) (ds : list string) : Prop :=
  (forall s, documented e s -> ds = [s]) /\ (undocumented e -> ds = []).
(** An element that is declared here, not referred to. *)
Definition own_element (x : xelem) : Prop := xe_tag x = "element" /\ no_attr x "ref".
Definition prohibited (x : xelem) : Prop := exists a, the_attr x "use" a /\ at_value a = "prohibited".

(** The string literals among tokens. *)
Fixpoint literals (t : tok) : list string :=
  match t with
  | St s => [s]
  | Gr _ l => (fix go l := match l with [] => [] | t :: l => literals t ++ go l end) l
  | _ => []
  end.
(** [s] is written into the declaration of one of the generated types. *)
Definition written_into (c : schema_ctx) (gs : list name) (p : program) (s : string) : Prop :=
  exists n r t, In (n, t) (combine gs p) /\ sc_get c n = Some r /\ In s (flat_map literals (item_tokens r t)).
