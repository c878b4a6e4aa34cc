(** * Ast: xsd-internal/src/ast data types, namespaces, schema context *)
From Verif Require Import Base Libs.

(** xsd-internal/src/ast/name.rs:7-12 [Namespace]. *)
Inductive namespace := NsNone | NsId (id : nat).

(** xsd-internal/src/ast/name.rs:14-26 [Name]. *)
Record name := mkName { nm : string; nm_ns : namespace }.

Definition namespace_eqb (a b : namespace) : bool :=
  match a, b with
  | NsNone, NsNone => true
  | NsId i, NsId j => Nat.eqb i j
  | _, _ => false
  end.
Definition name_eqb (a b : name) : bool :=
  andb (nm a =?s nm b) (namespace_eqb (nm_ns a) (nm_ns b)).

Lemma namespace_eqb_eq a b : namespace_eqb a b = true <-> a = b.
Proof.
  destruct a, b; simpl; rewrite ?Nat.eqb_eq; split; congruence.
Qed.
Lemma name_eqb_eq a b : name_eqb a b = true <-> a = b.
Proof.
  unfold name_eqb. rewrite andb_true_iff, String.eqb_eq, namespace_eqb_eq.
  destruct a, b; simpl; split; [intros [-> ->]; reflexivity | intros H; injection H; auto].
Qed.
Lemma name_eqb_refl a : name_eqb a a = true.
Proof. now apply name_eqb_eq. Qed.

(** xsd-internal/src/ast/literal_type.rs:4-20 [LiteralType]. *)
Inductive literal :=
| LString | LBoolean | LInt64 | LUint64 | LInt32 | LDecimal | LFloat32
| LDateTime | LTime | LDate | LDuration | LBase64Binary | LHexBinary | LAny.

(** xsd-internal/src/ast/literal_type.rs:23-41 [LiteralType::xsd_name]. *)
Definition xsd_name (l : literal) : string :=
  match l with
  | LString => "string"
  | LBoolean => "boolean"
  | LInt64 => "long"
  | LUint64 => "nonNegativeInteger"
  | LInt32 => "int"
  | LDecimal => "decimal"
  | LFloat32 => "float"
  | LDateTime => "dateTime"
  | LTime => "time"
  | LDate => "date"
  | LDuration => "duration"
  | LBase64Binary => "base64Binary"
  | LHexBinary => "hexBinary"
  | LAny => "any"
  end.

(** xsd-internal/src/ast/leaf_content.rs:7-12 [LeafContent]. *)
Inductive leaf_content :=
| LcLiteral (l : literal)
| LcNamed (n : name)
| LcFixed (s : string).

(** xsd-internal/src/ast/leaf_definition.rs:15-25 [Restriction]. *)
Inductive restriction :=
| RsLength (n : N) | RsMinLength (n : N) | RsMaxLength (n : N) | RsPattern (s : string)
| RsMinInclusive (d : dec) | RsMaxInclusive (d : dec)
| RsFractionDigits (n : N) | RsTotalDigits (n : N).

(** xsd-internal/src/ast/leaf_definition.rs:7-13 [LeafDefinition]. *)
Record leaf_def := mkLeafDef {
  ld_content : leaf_content;
  ld_restrictions : list restriction;
  ld_docs : option string
}.

(** xsd-internal/src/ast/leaf.rs:22-26 [MaxOccurs]; [MinOccurs] (19-20) is its number. *)
Inductive max_occurs := MaxNumber (n : N) | MaxUnbounded.

(** xsd-internal/src/ast/leaf.rs:9-17 [Leaf]. *)
Record leaf := mkLeaf {
  lf_name : name;
  lf_def : leaf_def;
  lf_unordered : bool;
  lf_virtual : bool;
  lf_min : N;
  lf_max : max_occurs
}.

(** xsd-internal/src/ast/leaf.rs:28-35 [MaxOccurs::is_vec] and 42-48 [Leaf::is_vec]. *)
Definition max_is_vec (m : max_occurs) : bool :=
  match m with MaxNumber n => N.ltb 1 n | MaxUnbounded => true end.
Definition lf_is_vec (l : leaf) : bool := max_is_vec (lf_max l).
(** xsd-internal/src/ast/leaf.rs:38-40 [Leaf::is_optional]. *)
Definition lf_is_optional (l : leaf) : bool := N.eqb (lf_min l) 0.

(** xsd-internal/src/ast/leaf.rs:248-258 defaults. *)
Definition min_default : N := 1.
Definition max_default : max_occurs := MaxNumber 1.

(** xsd-internal/src/ast/attribute.rs:8-15 [Attribute]. *)
Record attribute := mkAttribute {
  a_name : name;
  a_content : leaf_content;
  a_default : option string;
  a_optional : bool;
  a_docs : option string
}.

(** xsd-internal/src/ast/element_content.rs:9-13 [ElementContent]. *)
Inductive element_content :=
| EcLeaf (n : name) (d : leaf_def)
| EcLeaves (ls : list leaf).

(** xsd-internal/src/ast/element_definition.rs:9-15 [ElementDefinition]. *)
Record element_def := mkElementDef {
  ed_attributes : list attribute;
  ed_content : option element_content;
  ed_virtual : bool;
  ed_docs : option string
}.

(** xsd-internal/src/ast/root.rs:19-24 [ChoiceDefinition]. *)
Record choice_def := mkChoiceDef {
  cd_variants : list leaf;
  cd_virtual : bool;
  cd_docs : option string
}.

(** xsd-internal/src/ast/root.rs:11-17 [Root]. *)
Inductive root :=
| RootLeaf (d : leaf_def)
| RootEnum (names : list name)
| RootElement (d : element_def)
| RootChoice (d : choice_def).

Definition is_some {A} (o : option A) : bool := match o with Some _ => true | None => false end.

(** xsd-internal/src/ast/element_definition.rs:18-23 [with_docs]. *)
Definition ed_with_docs (d : element_def) (docs : option string) : element_def :=
  if is_some docs then mkElementDef (ed_attributes d) (ed_content d) (ed_virtual d) docs else d.

(** xsd-internal/src/ast/root.rs:27-37 [Root::with_docs]. *)
Definition root_with_docs (r : root) (docs : option string) : root :=
  if is_some docs then
    match r with
    | RootLeaf d => RootLeaf (mkLeafDef (ld_content d) (ld_restrictions d) docs)
    | RootEnum ns => RootEnum ns
    | RootElement d => RootElement (mkElementDef (ed_attributes d) (ed_content d) (ed_virtual d) docs)
    | RootChoice d => RootChoice (mkChoiceDef (cd_variants d) (cd_virtual d) docs)
    end
  else r.

(** ** xsd-internal/src/ast/namespaces.rs *)
(** namespaces.rs:5-9 [NamespaceDefinition]. *)
Record ns_def := mkNsDef { nd_uri : string; nd_prefix : string }.

(** namespaces.rs:11-15 [Namespaces]. *)
Record namespaces := mkNamespaces {
  by_namespace : list (string * nat);
  by_id : list (nat * ns_def)
}.
Definition namespaces_default : namespaces := mkNamespaces [] [].

(** namespaces.rs:18-34 [get_or_insert]. *)
Definition get_or_insert (n : namespaces) (uri : string) : namespace * namespaces :=
  match aget String.eqb uri (by_namespace n) with
  | Some id => (NsId id, n)
  | None =>
      let id := length (by_namespace n) + 1 in
      (NsId id,
       mkNamespaces (aset String.eqb uri id (by_namespace n))
         (aset Nat.eqb id (mkNsDef uri ("ns" +++ show_nat id)) (by_id n)))
  end.

(** namespaces.rs:45-49 [get_by_id]: [None] models the panic of [expect]. *)
Definition get_by_id (n : namespaces) (id : nat) : option ns_def := aget Nat.eqb id (by_id n).

(** ** xsd-internal/src/xsd/context.rs:29-36 [SchemaContext] *)
Record schema_ctx := mkSchemaCtx {
  sc_elements : list (name * root);
  sc_target : namespace;
  sc_qualified : bool;
  sc_namespaces : namespaces
}.

Definition sc_get (c : schema_ctx) (n : name) : option root := aget name_eqb n (sc_elements c).

(** context.rs:152-164 [get_xml_element_name]; [None] models the panic. *)
Definition get_xml_element_name (c : schema_ctx) (n : name) : option string :=
  match nm_ns n with
  | NsNone => Some (nm n)
  | NsId id =>
      if andb (sc_qualified c) (namespace_eqb (nm_ns n) (sc_target c)) then Some (nm n)
      else match get_by_id (sc_namespaces c) id with
           | Some d => Some (nd_prefix d +++ ":" +++ nm n)
           | None => None
           end
  end.

(** context.rs:166-175 [quote_xml_namespace]; outer [None] models the panic. *)
Definition quote_xml_namespace (c : schema_ctx) (n : name) : option (option string) :=
  match nm_ns n with
  | NsNone => Some None
  | NsId id => match get_by_id (sc_namespaces c) id with
               | Some d => Some (Some (nd_uri d))
               | None => None
               end
  end.

(** context.rs:177-187 [resolve]. The Rust loop has no bound; [None] = out of fuel. *)
Fixpoint resolve_from (fuel : nat) (c : schema_ctx) (next : option root) : option (option root) :=
  match next with
  | Some (RootLeaf (mkLeafDef (LcNamed n) _ _)) =>
      match fuel with
      | O => None
      | S fuel' => resolve_from fuel' c (sc_get c n)
      end
  | _ => Some next
  end.
Definition resolve (fuel : nat) (c : schema_ctx) (n : name) : option (option root) :=
  resolve_from fuel c (sc_get c n).
