(** * Emit: the tokens of the emitted type declarations

    Gen.v computes the names and types that are interpolated into the [quote!]
    templates; this file transcribes the templates of the declarations themselves,
    with their documentation. Tokens as in proc_macro2, except that "::" is one token
    and that the spacing of punctuation is not represented. The [impl] blocks that
    follow a declaration are represented by [ti_read], [ti_write], [ti_look]. *)
From Verif Require Import Base Libs Xml Ast Gen.

(** proc_macro2 token trees; the delimiter of a group is its opening bracket (quote!, e.g. xsd/schema.rs:228). *)
Inductive tok :=
| Id (s : string)
| Pu (s : string)
| St (s : string)
| Nu (s : string)
| Gr (open : string) (l : list tok).

(** ast/root.rs:43-50 [Root::docs]. *)
Definition root_docs (r : root) : option string :=
  match r with
  | RootLeaf d => ld_docs d
  | RootEnum _ => None
  | RootElement d => ed_docs d
  | RootChoice d => cd_docs d
  end.

(** xsd/schema.rs:223-227; leaf.rs:59-65; attribute.rs:24-29; element_content.rs:20-25: the [doc] attribute. *)
Definition doc_tokens (docs : option string) : list tok :=
  match docs with
  | Some s => if is_empty s then [] else [Pu "#"; Gr "[" [Id "doc"; Pu "="; St s]]
  | None => []
  end.

(** ast/literal_type.rs:45-65 [to_impl]. *)
Definition prim_tokens (p : prim) : list tok :=
  match p with
  | PString => [Id "String"]
  | PBool => [Id "bool"]
  | PI64 => [Id "i64"]
  | PU64 => [Id "u64"]
  | PI32 => [Id "i32"]
  | PDecimal => [Id "rust_decimal"; Pu "::"; Id "Decimal"]
  | PF32 => [Id "f32"]
  end.
(** leaf_content.rs:15-24; name.rs:28-31; leaf.rs:53-58; attribute.rs:20-23; root.rs:148-151. *)
Fixpoint rty_tokens (t : rty) : list tok :=
  match t with
  | TPrim p => prim_tokens p
  | TUnit => [Gr "(" []]
  | TRef id => [Id id]
  | TVec t => [Id "Vec"; Pu "<"] ++ rty_tokens t ++ [Pu ">"]
  | TOpt t => [Id "Option"; Pu "<"] ++ rty_tokens t ++ [Pu ">"]
  end.

(** leaf.rs:66-69 with the comma of element_content.rs:34; attribute.rs:30-33; element_content.rs:27-30. *)
Definition field_tokens (docs : option string) (f : string * rty) : list tok :=
  doc_tokens docs ++ [Id "pub"; Id (fst f); Pu ":"] ++ rty_tokens (snd f) ++ [Pu ","].
(** The documentation of the fields, in the order of element_content.rs:16-37 and element_definition.rs:25-34. *)
Definition field_docs (d : element_def) : list (option string) :=
  match ed_content d with
  | None => []
  | Some (EcLeaf _ def) => [ld_docs def]
  | Some (EcLeaves ls) => map (fun l => ld_docs (lf_def l)) ls
  end ++ map a_docs (ed_attributes d).

(** root.rs:152-154: a variant of a choice has no documentation. *)
Definition variant_tokens (v : string * rty) : list tok :=
  [Id (fst v); Gr "(" (rty_tokens (snd v)); Pu ","].

(** root.rs:52-164 [to_declaration], up to the [impl] blocks. *)
Definition declaration_tokens (r : root) (d : decl) : list tok :=
  match d with
  | DTuple t _ => [Gr "(" (Id "pub" :: rty_tokens t); Pu ";"]
  | DEnum vs => [Gr "{" (flat_map (fun v => [Id (fst v); Pu ","]) vs)]
  | DStruct fs =>
      [Gr "{" (concat (map (fun x => field_tokens (fst x) (snd x))
         (combine (match r with RootElement e => field_docs e | _ => [] end) fs)))]
  | DChoice vs => [Gr "{" (flat_map variant_tokens vs)]
  end.

(** xsd/schema.rs:214-234, root.rs:39-41 [is_enum]: the declaration of a type. *)
Definition item_tokens (r : root) (t : titem) : list tok :=
  doc_tokens (root_docs r)
  ++ [Pu "#"; Gr "[" [Id "derive"; Gr "(" [Id "Debug"; Pu ","; Id "Clone"; Pu ","; Id "PartialEq"]]]
  ++ [Pu "#"; Gr "[" [Id "allow"; Gr "(" [Id "clippy"; Pu "::"; Id "derive_partial_eq_without_eq"]]]
  ++ [Id "pub"; Id (match r with RootEnum _ | RootChoice _ => "enum" | _ => "struct" end); Id (ti_id t)]
  ++ declaration_tokens r (ti_decl t).
