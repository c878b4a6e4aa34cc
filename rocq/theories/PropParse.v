(** * C28, C29, C30, C38: termination of schema parsing, its errors, and the
    panics of the generator on parsed schemas *)
From Verif Require Import Base Libs Xml Ast XsdNode Parse Gen ParseSpec ParseMain Harness Samples PropDecode.

(** Decide [no_loads], [ascii_attrs] on concrete documents. *)
Ltac no_loads :=
  let c := fresh in let H := fresh in
  intros c H; repeat (destruct H as [<-|H]; [let E := fresh in intros [E|E]; discriminate E|]); destruct H.
Fixpoint ascii_string (s : string) : bool :=
  match s with EmptyString => true | String c s' => andb (Nat.ltb (nat_of_ascii c) 128) (ascii_string s') end.
Lemma ascii_string_ok s : ascii_string s = true -> ascii_only s.
Proof.
  induction s as [|c s IH]; intros H; [apply Forall_nil|]. apply andb_true_iff in H. destruct H as [A B].
  apply Forall_cons; [now apply Nat.ltb_lt in A|now apply IH].
Qed.
Fixpoint ascii_tree (fuel : nat) (e : xelem) : bool :=
  match fuel with
  | O => false
  | S fuel => andb (forallb (fun a => ascii_string (at_value a)) (xe_attrs e)) (forallb (ascii_tree fuel) (xe_children e))
  end.
Lemma ascii_tree_ok fuel d : ascii_tree fuel d = true -> ascii_attrs d.
Proof.
  intros H e a W. assert (K : exists n, ascii_tree n e = true).
  { induction W as [|e c W [n IH] I]; [eauto|]. destruct n as [|n]; [discriminate|]. simpl in IH.
    apply andb_true_iff in IH. exists n. apply (proj1 (forallb_forall _ _) (proj2 IH)), I. }
  destruct K as [[|n] K]; [discriminate|]. simpl in K. apply andb_true_iff in K. intros I.
  apply ascii_string_ok, (proj1 (forallb_forall _ _) (proj1 K)), I.
Qed.

(** A document with nested groups, an anonymous type and an attribute. *)
Definition ex_nested : xelem := xschema [at_ "targetNamespace" "urn:t"]
  [xelement [at_ "name" "book"] [xcomplex
     [xsequence [xtyped "title" "xs:string";
                 xs "choice" [at_ "maxOccurs" "unbounded"] [xtyped "isbn" "xs:string"; xtyped "issn" "xs:string"];
                 xelement [at_ "name" "author"] [xcomplex [xsequence [xtyped "name" "xs:string"]]]];
      xs "attribute" [at_ "name" "lang"; at_ "type" "xs:string"] []]]].
(** Reading it as a document without a file of its own. *)
Definition no_files : fs := mkFs (fun _ => None) (fun b p => b +++ p) (fun _ => "").

(** C28. For every XML document without include/import, parsing comes to an end:
    from some recursion depth on the result no longer changes and is not
    [OutOfFuel]. *)
Theorem C28_terminates : forall (L : Libs) f d path,
  no_loads d -> settles (fun fuel => schema_parse fuel f (Some d) path).
Proof. exact @parse_settles. Qed.
Print Assumptions C28_terminates.

(** It returns [Ok] or [Err] if the attribute values are ASCII. *)
Theorem C28_returns_partial : forall (L : Libs) f d path,
  no_loads d -> ascii_attrs d -> snake_keeps_ascii L ->
  exists bound r, ((exists s, r = Ok s) \/ (exists e, r = Err e))
    /\ forall fuel, bound <= fuel -> schema_parse fuel f (Some d) path = r.
Proof. exact @parse_returns. Qed.
Print Assumptions C28_returns_partial.

Example C28_example : exists bound r, ((exists s, r = Ok s) \/ (exists e, r = Err e))
  /\ forall fuel, bound <= fuel -> schema_parse fuel no_files (Some ex_nested) "m.xsd" = r.
Proof.
  apply (C28_returns_partial ascii_libs); [no_loads|apply (ascii_tree_ok 10); by_compute|exact ascii_libs_snake].
Qed.
Example C28_example_ok : exists s, schema_parse 40 no_files (Some ex_nested) "m.xsd" = Ok s
  /\ length (sc_elements (s_context s)) = 3.
Proof. eexists. split; by_compute. Qed.
(** An error is also a result. *)
Example C28_example_err : schema_parse 40 no_files
  (Some (xschema [] [xelement [at_ "name" "a"; at_ "abstract" "true"] []])) "m.xsd"
  = Err (SeXsd (XeNode (NeUnsupportedAttribute "abstract" "element" r0)) "m.xsd").
Proof. by_compute. Qed.

(** Without the restriction to ASCII it fails: an element whose type has a name
    starting with a multi-byte character panics ([name\[0..1\]] in
    derive_virtual_name), whatever the libraries do. *)
Theorem C28_panic_refuted : forall (L : Libs), exists f d path fuel w,
  no_loads d /\ schema_parse fuel f (Some d) path = Panic w.
Proof.
  intros L. exists no_files, (xschema [] [xs "complexType" [at_ "name" "état"]
    [xsequence [xelement [at_ "name" "a"] [xcomplex []]]]]), "m.xsd", 20, "byte index 1 is not a char boundary".
  split; [no_loads|by_compute].
Qed.
Print Assumptions C28_panic_refuted.

(** C29. Reading a file comes to an end if no chain of includes goes on for ever. *)
Theorem C29_terminates_partial : forall (L : Libs) f path,
  includes_end f path -> settles (fun fuel => parse_file fuel f path).
Proof. exact @file_parse_settles. Qed.
Print Assumptions C29_terminates_partial.

Definition ex_files : list (string * xelem) :=
  [("a.xsd", xschema [] [xs "include" [at_ "schemaLocation" "b.xsd"] []; xtyped "x" "xs:string"]);
   ("b.xsd", xschema [] [xtyped "y" "xs:int"; xs "include" [at_ "schemaLocation" "c.xsd"] []])].
Example C29_example : settles (fun fuel => parse_file fuel (list_fs ex_files) "a.xsd").
Proof.
  apply C29_terminates_partial.
  assert (E : forall p, aget String.eqb p ex_files = None -> includes_end (list_fs ex_files) p).
  { intros p H. constructor. intros q (d & c & a & R & _). cbn [fs_read list_fs] in R. rewrite H in R. discriminate. }
  assert (B : includes_end (list_fs ex_files) "b.xsd").
  { constructor. intros q (d & c & a & R & I & Hl & (Ia & _) & ->). vm_compute in R. injection R as <-.
    destruct I as [<-|[<-|[]]]; [destruct Hl; discriminate|]. destruct Ia as [<-|[]]. now apply E. }
  constructor. intros q (d & c & a & R & I & Hl & (Ia & _) & ->). vm_compute in R. injection R as <-.
  destruct I as [<-|[<-|[]]]; [|destruct Hl; discriminate]. destruct Ia as [<-|[]]. exact B.
Qed.
(** Here the third file does not exist. *)
Example C29_example_err : parse_file 40 (list_fs ex_files) "a.xsd" = Err (SeOpen "c.xsd").
Proof. by_compute. Qed.

(** A file that includes itself is never finished. *)
Theorem C29_cycle_refuted : forall (L : Libs), exists f path, forall fuel, parse_file fuel f path = OutOfFuel.
Proof.
  intros L.
  exists (list_fs [("m.xsd", xschema [] [xs "include" [at_ "schemaLocation" "m.xsd"] []])]), "m.xsd".
  unfold parse_file. intros fuel. generalize (@None shared_ctx) as sh.
  induction fuel as [|fuel IH]; intros sh; [reflexivity|].
  assert (Step : forall f p, parse_file_with_context (S fuel) f p sh =
    match fs_read f p with
    | None => Err (SeOpen p)
    | Some doc => parse_with fuel (fun q s => parse_file_with_context fuel f q (Some s)) f doc p sh
    end) by reflexivity.
  rewrite Step. clear Step.
  cbn [fs_read list_fs aget]. rewrite String.eqb_refl. cbn [option_map].
  unfold parse_with, parse_schema_with.
  match goal with |- context [negb (has_name ?a ?b ?c)] => change (negb (has_name a b c)) with false end. cbv iota.
  match goal with |- context [n_attribute ?a ?b] => change (n_attribute a b) with
    (@None attr, mkNode (n_elem a) (b :: n_visited a)) end. cbv iota zeta.
  match goal with |- context [n_children ?a ?b] => let x := eval vm_compute in (n_children a b) in change (n_children a b) with x end.
  unfold schema_children, schema_child.
  match goal with |- context [orb ?a ?b] => change (orb a b) with true end. cbv iota.
  match goal with |- context [map_err PeXsd (n_try_attribute ?a ?b)] =>
    let x := eval vm_compute in (n_try_attribute a b) in change (n_try_attribute a b) with x end.
  cbn [map_err bind at_value].
  match goal with |- context [fs_push ?a ?b ?c] => change (fs_push a b c) with "m.xsd" end.
  rewrite IH. reflexivity.
Qed.
Print Assumptions C29_cycle_refuted.

(** C30. On a schema that was accepted, the generator panics only about
    identifiers Rust does not accept. *)
Theorem C30_generate_all : forall (L : Libs) fuel f d path s gfuel w,
  schema_parse fuel f (Some d) path = Ok s -> generate_all gfuel s = Panic w -> identifier_panic w.
Proof. intros L fuel f d path s gfuel w H. apply generate_panics, (parsed_inv _ _ _ _ _ H). Qed.
Print Assumptions C30_generate_all.
(** The same for schemas read from files, and for the other entry point. *)
Theorem C30_files : forall (L : Libs) fuel f path s gfuel,
  parse_file fuel f path = Ok s ->
  (forall w, generate_all gfuel s = Panic w -> identifier_panic w)
  /\ (forall n already w, generate_element_and_dependencies gfuel s n already = Panic w -> identifier_panic w).
Proof.
  intros L fuel f path s gfuel H. apply parsed_file_inv in H. split; intros; [eapply generate_panics|eapply closure_panics]; eauto.
Qed.
Print Assumptions C30_files.

(** In particular neither of the two panics the property is about. *)
Theorem C30_never_unreachable : forall (L : Libs) fuel f d path s gfuel,
  schema_parse fuel f (Some d) path = Ok s ->
  generate_all gfuel s <> Panic "internal error: entered unreachable code"
  /\ generate_all gfuel s <> Panic "inconsistent namespace state, namespace for id is missing".
Proof.
  intros L fuel f d path s gfuel H. split; intros E; apply (C30_generate_all _ _ _ _ _ _ _ _ H) in E;
    destruct E as [id [E|E]]; discriminate.
Qed.
Print Assumptions C30_never_unreachable.

(** Both panics exist in the generator: contexts that no schema leads to. *)
Example C30_reachable_in_general :
  generate_all 5 (mkSchema [] (mkSchemaCtx [(mkName "a" NsNone, virtual_root
    [mkLeaf (mkName "b" NsNone) (mkLeafDef (LcLiteral LString) [] None) false true 1 (MaxNumber 1)])]
      NsNone false namespaces_default)) = Panic "internal error: entered unreachable code"
  /\ generate_all 5 (mkSchema [] (mkSchemaCtx [(mkName "a" (NsId 3), RootEnum [mkName "b" NsNone])]
      NsNone false namespaces_default)) = Panic "inconsistent namespace state, namespace for id is missing".
Proof. split; by_compute. Qed.
Example C30_example : exists s p, schema_parse 40 no_files (Some ex_nested) "m.xsd" = Ok s
  /\ generate_all 40 s = Ok p /\ length p = 3.
Proof. eexists. eexists. split; [by_compute|]. split; by_compute. Qed.
(** The remaining panics do occur. *)
Example C30_identifier : exists s w, schema_parse 40 no_files (Some (xschema [] [xtyped "self" "xs:string"])) "m.xsd" = Ok s
  /\ generate_all 40 s = Panic w /\ identifier_panic w.
Proof.
  eexists. eexists. split; [by_compute|]. split; [by_compute|]. exists "Self". right. reflexivity.
Qed.

(** C38. Every error on a document without include/import carries a range of it. *)
Theorem C38_located : forall (L : Libs) fuel f d path e, no_loads d ->
  schema_parse fuel f (Some d) path = Err e -> exists x, e = SeXsd x path /\ error_in d x.
Proof. exact @parse_error_located. Qed.
Print Assumptions C38_located.
(** With several files: the error names the file, and the range is one of that
    file's document, unless that file cannot be opened or is not XML. *)
Theorem C38_files : forall (L : Libs) fuel f path e,
  parse_file fuel f path = Err e -> error_in_files f e.
Proof. exact @file_error_located. Qed.
Print Assumptions C38_files.

(** An error deep inside, with ranges that can be told apart. *)
Example C38_example :
  let bad := XE "element" (Some NS_XSD) [mkAttr "name" None "b" (61, 69)%N; mkAttr "type" None "q:b" (70, 80)%N] [] (60, 90)%N [] in
  let d := XE "schema" (Some NS_XSD) [] [(Some "xs", NS_XSD)] (0, 200)%N
    [KElem (XE "complexType" (Some NS_XSD) [mkAttr "name" None "a" (20, 28)%N] [] (10, 100)%N
       [KElem (XE "sequence" (Some NS_XSD) [] [] (50, 95)%N [KElem bad])])] in
  schema_parse 20 no_files (Some d) "m.xsd" = Err (SeXsd (XeMissingNamespace "q" (70, 80)%N) "m.xsd")
  /\ error_in d (XeMissingNamespace "q" (70, 80)%N).
Proof.
  cbv zeta.
  assert (E : schema_parse 20 no_files (Some (XE "schema" (Some NS_XSD) [] [(Some "xs", NS_XSD)] (0, 200)%N
    [KElem (XE "complexType" (Some NS_XSD) [mkAttr "name" None "a" (20, 28)%N] [] (10, 100)%N
       [KElem (XE "sequence" (Some NS_XSD) [] [] (50, 95)%N
          [KElem (XE "element" (Some NS_XSD) [mkAttr "name" None "b" (61, 69)%N; mkAttr "type" None "q:b" (70, 80)%N] []
             (60, 90)%N [])])])])) "m.xsd" = Err (SeXsd (XeMissingNamespace "q" (70, 80)%N) "m.xsd")) by by_compute.
  split; [exact E|]. apply (C38_located ascii_libs 20 no_files _ "m.xsd") in E; [|no_loads].
  destruct E as (x & X & K). injection X as <-. exact K.
Qed.
(** A document that includes a missing file is rejected without a range. *)
Theorem C38_refuted : forall (L : Libs), exists f d path fuel p,
  schema_parse fuel f (Some d) path = Err (SeOpen p).
Proof.
  intros L. exists no_files, (xschema [] [xs "include" [at_ "schemaLocation" "b.xsd"] []]), "m.xsd", 5, "b.xsd". by_compute.
Qed.
Print Assumptions C38_refuted.
