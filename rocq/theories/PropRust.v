(** * PropRust: which generated modules rustc accepts, and what that guarantees (C53, C54) *)
From Verif Require Import Base Libs Xml Ast Parse Decode Writer Gen Run LitSpec GenSpec DecSpec RepSpec WfSpec WfCheck
  RustSpec RustLook RustProof RustWrite RustGen RustCheck SchemaSpec SchemaProof ParseSpec DeclSpec DeclCor DeclMain Harness Samples Conformance PropDecode.

(** C53. *)
Theorem C53_reading_sound : forall (L : Libs) (p : program) (fuel : nat) (id : string) (e : xelem),
  rust_ok p -> defined p id ->
  (forall s, from_xml p fuel id e <> Panic s) /\
  (forall v, from_xml p fuel id e = Ok v -> has_type p (TRef id) v).
Proof.
  intros L p fuel id e OK D. pose proof (from_xml_sound p OK real_ops fuel id e D) as S.
  unfold from_xml. destruct (from_xml_with real_ops p fuel id e) as [v|er|s|]; simpl in S.
  - split; [discriminate|]. intros v' E. now injection E as <-.
  - split; discriminate.
  - destruct S.
  - split; discriminate.
Qed.
Print Assumptions C53_reading_sound.

Theorem C53_writing_total : forall (L : Libs) (p : program) (id : string) (v : value),
  rust_ok p -> defined p id -> has_type p (TRef id) v ->
  exists evs enough, forall fuel, enough <= fuel -> to_xml p fuel id v = Ok evs.
Proof. intros L p id v OK D T. destruct (to_xml_yields p id v OK D T) as (evs & H). eauto. Qed.
Print Assumptions C53_writing_total.

(** The modules of the repository's own tests are accepted (they are compiled there). *)
Definition accepted (f : string) : bool :=
  match gen_file 60 files f with Ok p => rust_b p && sized_b p | _ => false end.
Example C54_repository : forallb accepted (map fst files) = true /\ length files = 52.
Proof. split; by_compute. Qed.

Example C53_example : rust_ok (module_of ex_order) /\ defined (module_of ex_order) "Order"
  /\ from_xml (module_of ex_order) 40 "Order" ex_order_doc = Ok ex_order_value
  /\ has_type (module_of ex_order) (TRef "Order") ex_order_value
  /\ exists evs enough, forall fuel, enough <= fuel -> to_xml (module_of ex_order) fuel "Order" ex_order_value = Ok evs.
Proof.
  assert (OK : rust_ok (module_of ex_order)) by (apply rust_accepts; by_compute).
  assert (D : defined (module_of ex_order) "Order") by (apply defined_b_iff; by_compute).
  assert (E : from_xml (module_of ex_order) 40 "Order" ex_order_doc = Ok ex_order_value) by by_compute.
  assert (T := proj2 (C53_reading_sound _ _ _ _ _ OK D) _ E).
  repeat (split; [assumption|]). exact (C53_writing_total _ _ _ _ OK D T).
Qed.

(** C54, partial: the declarations are taken as accepted; then the functions are, except for
    three reasons. That the declarations are accepted does not follow from the schema being
    accepted, see the refutations. *)
Theorem C54_functions_partial : forall (L : Libs) gfuel c gs p,
  mapM (generate_element gfuel c) gs = Ok p -> decls_ok p ->
  (rust_ok p <-> attrs_ok c gs /\ choices_ok c gs /\ looks_ok c gs).
Proof.
  intros L gfuel c gs p Hp Hd. rewrite <- (functions_iff gfuel c gs p Hp Hd). unfold rust_ok. tauto.
Qed.
Print Assumptions C54_functions_partial.

(** The exact condition on the schema: Rust names are pairwise different and none is a
    keyword or hides the prelude, referenced types exist, no type contains itself in place
    ([schema_ok]), and the three conditions above. *)
Theorem C54_exact : forall (L : Libs) gfuel c gs p,
  mapM (generate_element gfuel c) gs = Ok p -> NoDup gs ->
  (rust_ok p <-> schema_ok c gs /\ attrs_ok c gs /\ choices_ok c gs /\ looks_ok c gs).
Proof.
  intros L gfuel c gs p Hp ND. rewrite <- (declarations_iff gfuel c gs p Hp ND). split.
  - intros H. split; [apply H|]. apply (C54_functions_partial _ _ _ _ _ Hp); apply H.
  - intros [Hd H]. now apply (C54_functions_partial _ _ _ _ _ Hp Hd).
Qed.
Print Assumptions C54_exact.
(** So for every accepted schema document and every set of files. *)
Theorem C54_schema : forall (L : Libs) fuel f d path s gfuel p, files_bind_once f -> prefixes_once d ->
  schema_parse fuel f (Some d) path = Ok s -> generate_all gfuel s = Ok p ->
  (rust_ok p <-> schema_ok (s_context s) (map fst (sc_elements (s_context s)))
     /\ attrs_ok (s_context s) (map fst (sc_elements (s_context s)))
     /\ choices_ok (s_context s) (map fst (sc_elements (s_context s)))
     /\ looks_ok (s_context s) (map fst (sc_elements (s_context s)))).
Proof.
  intros L fuel f d path s gfuel p BO PO E H. apply (C54_exact L gfuel).
  - rewrite mapM_map. exact H.
  - destruct (parse_log _ _ _ _ _ BO PO E) as (log & _ & ND & _). exact ND.
Qed.
Print Assumptions C54_schema.

(** The conditions of the theorems on decoding and encoding hold for accepted modules. *)
Theorem C54_compiles : forall (L : Libs) gfuel c gs p,
  mapM (generate_element gfuel c) gs = Ok p -> rust_ok p -> groups_ok c gs -> compiles c gs.
Proof. exact @accepted_compiles. Qed.
Print Assumptions C54_compiles.

Example C54_example : mapM (generate_element 40 (ctx_of ex_order)) (Samples.names_of ex_order) = Ok (module_of ex_order)
  /\ decls_ok (module_of ex_order) /\ attrs_ok (ctx_of ex_order) (Samples.names_of ex_order)
  /\ choices_ok (ctx_of ex_order) (Samples.names_of ex_order)
  /\ looks_ok (ctx_of ex_order) (Samples.names_of ex_order).
Proof.
  assert (G : mapM (generate_element 40 (ctx_of ex_order)) (Samples.names_of ex_order) = Ok (module_of ex_order)) by by_compute.
  assert (OK : rust_ok (module_of ex_order)) by (apply rust_accepts; by_compute).
  split; [exact G|]. split; [apply OK|]. apply (C54_functions_partial _ _ _ _ _ G); apply OK.
Qed.

Example C54_exact_example : schema_ok (ctx_of ex_order) (Samples.names_of ex_order)
  /\ ~ schema_ok (ctx_of (xschema [] [xtyped "foo-bar" "xs:int"; xtyped "fooBar" "xs:int"]))
      (Samples.names_of (xschema [] [xtyped "foo-bar" "xs:int"; xtyped "fooBar" "xs:int"])).
Proof.
  split.
  - apply (C54_exact _ 40 (ctx_of ex_order) (Samples.names_of ex_order) (module_of ex_order)); [by_compute| |apply rust_accepts; by_compute].
    vm_compute. repeat constructor; simpl; intuition discriminate.
  - intros [H _ _ _ _]. assert (E := H (mkName "foo-bar" NsNone) (mkName "fooBar" NsNone) "FooBar"). vm_compute in E.
    assert (X : {| nm := "foo-bar"; nm_ns := NsNone |} = {| nm := "fooBar"; nm_ns := NsNone |}) by (apply E; auto). discriminate.
Qed.

(** C54 in full is false. Each time: an accepted schema, generation succeeds, and rustc
    rejects the module. *)
Definition rejected (doc : xelem) : Prop := exists s p,
  parse_doc doc = Ok s /\ generate_all 40 s = Ok p /\ ~ rust_ok p.
Ltac rejected_by_compute :=
  eexists; eexists; split; [by_compute|]; split; [by_compute|]; apply rust_rejects; by_compute.

(** Two names with the same Rust name [E0428]. *)
Theorem C54_names_refuted : rejected (xschema [] [xtyped "foo-bar" "xs:int"; xtyped "fooBar" "xs:int"]).
Proof. rejected_by_compute. Qed.
Print Assumptions C54_names_refuted.

(** An attribute with the name of a child [E0124]. *)
Theorem C54_fields_refuted : rejected (xschema [] [xelement [at_ "name" "a"]
  [xcomplex [xsequence [xtyped "id" "xs:int"]; xs "attribute" [at_ "name" "id"; at_ "type" "xs:string"] []]]]).
Proof. rejected_by_compute. Qed.
Print Assumptions C54_fields_refuted.

(** A type with the name of a type of the prelude. *)
Theorem C54_prelude_refuted : rejected (xschema [] [xelement [at_ "name" "option"]
  [xcomplex [xsequence [xelement ([at_ "name" "a"; at_ "type" "xs:int"] ++ occ "0" "1") []]]]]).
Proof. rejected_by_compute. Qed.
Print Assumptions C54_prelude_refuted.

(** A keyword that [escape_ident] does not list. *)
Theorem C54_keyword_refuted : rejected (xschema [] [xelement [at_ "name" "a"]
  [xcomplex [xsequence [xtyped "as" "xs:int"]]]]).
Proof. rejected_by_compute. Qed.
Print Assumptions C54_keyword_refuted.

(** A reference to a type that is declared nowhere [E0412]. *)
Theorem C54_missing_refuted : rejected (xschema [] [xelement [at_ "name" "a"]
  [xcomplex [xsequence [xtyped "b" "nowhere"]]]]).
Proof. rejected_by_compute. Qed.
Print Assumptions C54_missing_refuted.

(** An attribute of a named simple type that is not a string [E0277]. *)
Theorem C54_attribute_refuted : rejected (xschema []
  [xs "simpleType" [at_ "name" "n"] [xs "restriction" [at_ "base" "xs:int"] []];
   xelement [at_ "name" "a"] [xcomplex [xs "attribute" [at_ "name" "k"; at_ "type" "n"] []]]]).
Proof. rejected_by_compute. Qed.
Print Assumptions C54_attribute_refuted.

(** A repeated sequence in a choice [E0308]. *)
Theorem C54_group_refuted : rejected (xschema [] [xelement [at_ "name" "a"]
  [xcomplex [xs "choice" [] [xs "sequence" (occ "0" "unbounded") [xtyped "x" "xs:int"]; xtyped "y" "xs:int"]]]]).
Proof. rejected_by_compute. Qed.
Print Assumptions C54_group_refuted.

(** A choice without alternatives [E0004]. *)
Theorem C54_empty_refuted : rejected (xschema [] [xelement [at_ "name" "a"] [xcomplex [xs "choice" [] []]]]).
Proof. rejected_by_compute. Qed.
Print Assumptions C54_empty_refuted.

(** An optional child of the type itself: a type of infinite size [E0072]. *)
Theorem C54_recursion_refuted : rejected (xschema [] [xs "complexType" [at_ "name" "tree"]
  [xsequence [xelement ([at_ "name" "left"; at_ "type" "tree"] ++ occ "0" "1") []; xtyped "leaf" "xs:int"]]]).
Proof.
  eexists; eexists; split; [by_compute|]; split; [by_compute|]. intros H. apply rust_b_iff in H. destruct H as [_ H].
  revert H. apply (cycle_unsized _ "Tree" []). by_compute.
Qed.
Print Assumptions C54_recursion_refuted.
