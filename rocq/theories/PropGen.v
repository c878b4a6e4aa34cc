(** * C05, C19, C35, C43-C45, C47, C48: code generation *)
From Coq Require Import Permutation.
From Verif Require Import Base Libs Xml Ast XsdNode Parse Decode Gen Run Harness Samples
  TextSpec GenSpec LitSpec GenProof1 GenProof2.

(** C05: the generated [from_xml] of the type generated for the name [n]. *)
Theorem C05_root_checked : forall (L : Libs) fuel c n t p e dfuel,
  generate_element fuel c n = Ok t -> lookup_item p (ti_id t) = Some t ->
  exists ns, quote_xml_namespace c n = Some ns /\
  (~ (xe_tag e = nm n /\ xe_ns e = ns) ->
     from_xml p dfuel (ti_id t) e = Err (FeMissingElement (nm n) ns))
  /\ (forall v, from_xml p dfuel (ti_id t) e = Ok v -> xe_tag e = nm n /\ xe_ns e = ns).
Proof. exact @root_check. Qed.
Print Assumptions C05_root_checked.

Definition ex_foo : xelem :=
  xschema [at_ "targetNamespace" "urn:t"]
    [xelement [at_ "name" "foo"] [xcomplex [xsequence [xtyped "bar" "xs:int"]]]].
Example C05_example :
  read_with ex_foo "Foo" (elq "foo" [] [txt "bar" "7"]) = Some (Ok (VStruct [("bar", VInt 7)]))
  /\ read_with ex_foo "Foo" (el "foo" [] [txt "bar" "7"]) = Some (Err (FeMissingElement "foo" (Some "urn:t")))
  /\ read_with ex_foo "Foo" (elq "baz" [] [txt "bar" "7"]) = Some (Err (FeMissingElement "foo" (Some "urn:t"))).
Proof. repeat split; vm_compute; reflexivity. Qed.

(** C19: [vs] is the table the generated enum is built from, [vs'] any order the
    hash map may list it in. *)
Theorem C19_enum_literals : forall (L : Libs) fuel c n names t,
  sc_get c n = Some (RootEnum names) -> generate_element fuel c n = Ok t ->
  NoDup (map nm names) ->
  exists vs, ti_decl t = DEnum vs /\ map snd vs = map nm names /\
  forall vs', Permutation vs vs' ->
    (forall v, In v (map fst vs) -> exists s,
       enum_as_str vs' v = Some s /\ enum_from_str vs' s = Ok (VEnum v))
    /\ (forall s, In s (map nm names) -> exists v,
       enum_from_str vs' s = Ok (VEnum v) /\ enum_as_str vs' v = Some s)
    /\ (forall s, ~ In s (map nm names) -> enum_from_str vs' s = Err (FeInvalidVariant s)).
Proof. exact @enum_literals. Qed.
Print Assumptions C19_enum_literals.

(** Two literals with the same Rust spelling still get different variants. *)
Definition ex_enum : xelem :=
  xschema [] [xs "simpleType" [at_ "name" "state"]
    [xs "restriction" [at_ "base" "xs:string"]
      [xs "enumeration" [at_ "value" "on-line"] []; xs "enumeration" [at_ "value" "onLine"] [];
       xs "enumeration" [at_ "value" "+"] []]]].
Example C19_example :
  match gen_doc ex_enum with
  | Ok [t] => ti_decl t = DEnum [("OnLine", "on-line"); ("Variant1", "onLine"); ("Variant2", "+")]
  | _ => False
  end
  /\ read_with ex_enum "State" (txt "state" "onLine") = Some (Ok (VEnum "Variant1"))
  /\ read_with ex_enum "State" (txt "state" "offline") = Some (Err (FeInvalidVariant "offline")).
Proof. repeat split; vm_compute; reflexivity. Qed.

(** Without "pairwise different" the statement is false: reading a repeated
    literal depends on the iteration order. *)
Theorem C19_duplicates_refuted : exists (names : list name) vs vs' s,
  enum_variants names = Ok vs /\ Permutation vs vs' /\ enum_from_str vs s <> enum_from_str vs' s.
Proof.
  exists [mkName "a" NsNone; mkName "a" NsNone], [("A", "a"); ("Variant1", "a")], [("Variant1", "a"); ("A", "a")], "a".
  split; [reflexivity|]. split; [apply perm_swap|]. discriminate.
Qed.
Print Assumptions C19_duplicates_refuted.

(** C35 *)
Theorem C35_min_occurs : forall a : attr,
  parse_min_occurs None = Ok 1%N
  /\ (forall n, parse_min_occurs (Some a) = Ok n <-> unsigned_text (at_value a) n /\ (n <= 4294967295)%N)
  /\ ((forall n, ~ (unsigned_text (at_value a) n /\ (n <= 4294967295)%N)) ->
      parse_min_occurs (Some a) = Err (XeParseInt (at_range a))).
Proof. intros a. split; [reflexivity|apply min_occurs_spec]. Qed.
Print Assumptions C35_min_occurs.

Theorem C35_max_occurs : forall a : attr,
  parse_max_occurs None = Ok (MaxNumber 1)
  /\ (forall n, parse_max_occurs (Some a) = Ok (MaxNumber n)
        <-> unsigned_text (at_value a) n /\ (n <= 4294967295)%N)
  /\ (parse_max_occurs (Some a) = Ok MaxUnbounded <-> at_value a = "unbounded")
  /\ ((forall n, ~ (unsigned_text (at_value a) n /\ (n <= 4294967295)%N)) -> at_value a <> "unbounded" ->
      parse_max_occurs (Some a) = Err (XeParseInt (at_range a))).
Proof. intros a. split; [reflexivity|apply max_occurs_spec]. Qed.
Print Assumptions C35_max_occurs.

Example C35_example :
  map (fun s => parse_max_occurs (Some (at_ "maxOccurs" s))) ["12"; "unbounded"; "4294967296"; "-1"; ""]
  = [Ok (MaxNumber 12); Ok MaxUnbounded; Err (XeParseInt r0); Err (XeParseInt r0); Err (XeParseInt r0)].
Proof. reflexivity. Qed.

(** C43, the part that holds: identifier-shaped names except the ones listed.
    Missing for the full statement: the listed ones, see
    [C43_escape_ident_refuted]. *)
Theorem C43_escape_ident_partial : forall (L : Libs) s,
  ident_valid s = true -> ~ In s ["_"; "super"; "self"; "Self"; "crate"] ->
  ~ In s ["as"; "break"; "abstract"; "become"; "box"; "do"; "final"; "macro"; "override";
          "priv"; "typeof"; "unsized"; "virtual"; "yield"; "try"] ->
  exists r, escape_ident s = Ok r /\ ~ In r rust_keywords /\ (r = s \/ r = "r#" +++ s).
Proof. exact @escape_ident_ok. Qed.
Print Assumptions C43_escape_ident_partial.

Example C43_example : map escape_ident ["type"; "name"; "match"; "foo_1"]
  = [Ok "r#type"; Ok "name"; Ok "r#match"; Ok "foo_1"].
Proof. reflexivity. Qed.

(** C43 in full is false, also for fields of accepted schemas: a field called
    [break] and a macro panic for an element called [self]. *)
Definition kw_schema (field : string) : xelem :=
  xschema [] [xelement [at_ "name" "foo"] [xcomplex [xsequence [xtyped field "xs:string"]]]].
Theorem C43_escape_ident_refuted :
  (exists doc t f, gen_doc doc = Ok [t] /\ ti_decl t = DStruct [(f, TPrim PString)] /\ In f rust_keywords)
  /\ (exists doc s w, parse_doc doc = Ok s /\ generate_all 40 s = Panic w).
Proof.
  split.
  - exists (kw_schema "break"). eexists. exists "break".
    split; [vm_compute; reflexivity|]. split; [reflexivity|]. simpl. tauto.
  - exists (kw_schema "self"). eexists. eexists.
    split; [vm_compute; reflexivity|]. vm_compute. reflexivity.
Qed.
Print Assumptions C43_escape_ident_refuted.

(** C44 *)
Theorem C44_variant_names : forall (L : Libs) (names : list name),
  exists l, escape_enum_names names = Some l
    /\ NoDup (map fst l) /\ Forall (fun v => v <> "") (map fst l) /\ map snd l = names.
Proof. exact @escape_enum_names_spec. Qed.
Print Assumptions C44_variant_names.

(** A literal that already looks like a generated name is renamed around. *)
Example C44_example :
  escape_enum_names (map (fun s => mkName s NsNone) ["variant 1"; "!"; "!!"; "1a"; "V1a"])
  = Some [("Variant1", mkName "variant 1" NsNone); ("Variant2", mkName "!" NsNone);
          ("Variant3", mkName "!!" NsNone); ("V1A", mkName "1a" NsNone); ("Variant4", mkName "V1a" NsNone)].
Proof. reflexivity. Qed.

(** Literals whose readable names differ get these names. *)
Theorem C44_readable : forall (L : Libs) names vs,
  Forall2 (fun n v => readable (nm n) v) names vs -> NoDup vs -> ~ In "" vs ->
  escape_enum_names names = Some (combine vs names).
Proof. exact @escape_enum_readable. Qed.
Print Assumptions C44_readable.
(** Every variant starts with a letter. *)
Theorem C44_letter_first : forall (L : Libs) names l, escape_enum_names names = Some l ->
  forall v, In v (map fst l) -> (exists r, v = String "V" r) \/ letter_first v.
Proof. exact @escape_enum_start. Qed.
Print Assumptions C44_letter_first.

Example C44_example_readable : readable "on-line" "OnLine" /\ readable "2nd (old)" "V2Ndold"
  /\ escape_enum_names [mkName "on-line" NsNone; mkName "2nd (old)" NsNone]
     = Some [("OnLine", mkName "on-line" NsNone); ("V2Ndold", mkName "2nd (old)" NsNone)].
Proof.
  assert (A : readable "on-line" "OnLine").
  { exists ["o"; "n"; "_"; "l"; "i"; "n"; "e"]. split; [|left; split; [right; exists "O", ["n"; "L"; "i"; "n"; "e"]; split; (vm_compute; reflexivity)|(vm_compute; reflexivity)]].
    repeat (apply nc_keep; [discriminate|discriminate|(vm_compute; reflexivity)|]). apply nc_dash; [now left|].
    repeat (apply nc_keep; [discriminate|discriminate|(vm_compute; reflexivity)|]). constructor. }
  assert (B : readable "2nd (old)" "V2Ndold").
  { exists ["2"; "n"; "d"; "o"; "l"; "d"]. split; [|right; split; [|split; [intros (ch & t & E & H)|]]].
    - repeat first [apply nc_keep; [discriminate|discriminate|(vm_compute; reflexivity)|] | apply nc_drop; [discriminate|discriminate|(vm_compute; reflexivity)|]].
      constructor.
    - vm_compute. discriminate.
    - vm_compute in E. injection E as <- <-. vm_compute in H. discriminate.
    - (vm_compute; reflexivity). }
  split; [exact A|]. split; [exact B|].
  apply (C44_readable ascii_libs [mkName "on-line" NsNone; mkName "2nd (old)" NsNone] ["OnLine"; "V2Ndold"]).
  - constructor; [exact A|]. constructor; [exact B|constructor].
  - apply nodupb_NoDup. (vm_compute; reflexivity).
  - intros [K|[K|[]]]; discriminate.
Qed.

(** C45, the part that holds: generation terminates when the aliases can be
    ranked (no cycle). Missing for the full statement: schemas with alias
    cycles, for which it is false, see [C45_aliases_refuted]; and the condition
    is necessary: if generation succeeds, all alias chains end. *)
Theorem C45_aliases_partial : forall (L : Libs) (s : schema) (rank : name -> nat),
  (forall n m, alias (s_context s) n m -> rank m < rank n) ->
  eventually (fun fuel => generate_all fuel s <> OutOfFuel).
Proof. exact @generate_terminates. Qed.
Print Assumptions C45_aliases_partial.

Theorem C45_necessary : forall (L : Libs) (s : schema) fuel p,
  generate_all fuel s = Ok p -> forall n, chain_ends (s_context s) n.
Proof. exact @generate_ok_chains. Qed.
Print Assumptions C45_necessary.

Definition ex_alias : xelem :=
  xschema [] [xelement [at_ "name" "a"; at_ "type" "b"] []; xelement [at_ "name" "b"; at_ "type" "c"] [];
              xtyped "c" "xs:string"].
Definition rank_len (n : name) : nat :=
  if nm n =?s "a" then 2 else if nm n =?s "b" then 1 else 0.
Example C45_example :
  match parse_doc ex_alias with
  | Ok s => alias (s_context s) (mkName "a" NsNone) (mkName "b" NsNone)
            /\ (forall n m, alias (s_context s) n m -> rank_len m < rank_len n)
            /\ is_ok (generate_all 40 s) = true
  | _ => False
  end.
Proof.
  vm_compute parse_doc. split; [|split].
  - eexists. split; reflexivity.
  - intros [n ns] m (d & G & C). unfold sc_get in G. simpl in G.
    unfold name_eqb in G. simpl in G.
    destruct (String.eqb_spec n "a") as [->|Na].
    { destruct ns; simpl in G; [injection G as <-; simpl in C; injection C as <-; vm_compute; repeat constructor|].
      rewrite ?andb_false_r in G. discriminate. }
    destruct (String.eqb_spec n "b") as [->|Nb].
    { destruct ns; simpl in G; [injection G as <-; simpl in C; injection C as <-; vm_compute; repeat constructor|].
      rewrite ?andb_false_r in G. discriminate. }
    destruct (String.eqb_spec n "c") as [->|Nc].
    { destruct ns; simpl in G; [injection G as <-; simpl in C; discriminate|].
      rewrite ?andb_false_r in G. discriminate. }
    discriminate.
  - vm_compute. reflexivity.
Qed.

(** C45 in full is false: an accepted schema with an element whose type has the
    element's own name; no amount of fuel suffices. *)
Theorem C45_aliases_refuted : exists doc s,
  parse_doc doc = Ok s /\ forall fuel, generate_all fuel s = OutOfFuel.
Proof.
  exists (xschema [] [xtyped "a" "a"]). eexists. split; [vm_compute; reflexivity|].
  intros fuel. unfold generate_all. cbn [s_context sc_elements mapM fst].
  match goal with |- bind (generate_element _ ?c _) _ = _ => set (cc := c) end.
  assert (X : content_to_impl fuel cc (LcNamed (mkName "a" NsNone)) = OutOfFuel).
  { induction fuel as [|fuel IH]; [reflexivity|]. exact IH. }
  unfold generate_element. cbn [sc_get]. change (sc_get cc (mkName "a" NsNone))
    with (Some (RootLeaf (mkLeafDef (LcNamed (mkName "a" NsNone)) [] None))).
  change (type_ident (mkName "a" NsNone)) with (Ok "A" : G string).
  cbn [bind root_to_declaration]. unfold def_to_impl. cbn [ld_content]. rewrite X. reflexivity.
Qed.
Print Assumptions C45_aliases_refuted.

(** C47 (integer, boolean and string types; decimals and floats are library code). *)
Theorem C47_roundtrip : forall (L : Libs) (l : literal) (v : value),
  in_prim (lit_prim l) v ->
  exists s, value_to_string v = Some s /\ lit_from_str l s = Ok v.
Proof. exact @lit_roundtrip. Qed.
Print Assumptions C47_roundtrip.

Theorem C47_accepts : forall (L : Libs) (l : literal) (s : string),
  modelled_prim (lit_prim l) = true ->
  (forall v, lit_from_str l s = Ok v <-> denotes (lit_prim l) s v /\ in_prim (lit_prim l) v)
  /\ ((forall v, ~ (denotes (lit_prim l) s v /\ in_prim (lit_prim l) v)) ->
      lit_from_str l s = Err (FeParseType (xsd_name l) s)).
Proof. exact @lit_accepts. Qed.
Print Assumptions C47_accepts.

Example C47_example :
  lit_from_str LInt32 "-2147483648" = Ok (VInt (-2147483648))
  /\ lit_from_str LInt32 "2147483648" = Err (FeParseType "int" "2147483648")
  /\ lit_from_str LUint64 "-1" = Err (FeParseType "nonNegativeInteger" "-1")
  /\ in_prim (lit_prim LInt64) (VInt (-5)) /\ value_to_string (VInt (-5)) = Some "-5".
Proof. repeat split; try reflexivity; vm_compute; discriminate. Qed.

(** C48: exactly these names are accepted; the XSD name of a type is accepted as
    that type; and what the decoder makes of a text is a value of the declared
    Rust type, which the encoder can print. *)
Theorem C48_builtin_names : forall s l, literal_from_str s = Some l <-> In (s, l) builtin_names.
Proof. exact literal_names. Qed.
Print Assumptions C48_builtin_names.

Theorem C48_xsd_name : forall s l, literal_from_str s = Some l -> literal_from_str (xsd_name l) = Some l.
Proof. exact literal_table. Qed.
Print Assumptions C48_xsd_name.

Theorem C48_same_type : forall (L : Libs) l s v, lit_from_str l s = Ok v ->
  prim_value (lit_prim l) v /\ exists t, value_to_string v = Some t.
Proof. exact @lit_same_type. Qed.
Print Assumptions C48_same_type.

(** The Rust type of each name, and what is read by it. *)
Theorem C48_rust_type : forall (L : Libs) s p, In (s, p) rust_types -> exists l,
  literal_from_str s = Some l
  /\ (forall gfuel c, content_to_impl gfuel c (LcLiteral l) = Ok (TPrim p))
  /\ (forall t v, lit_from_str l t = Ok v -> prim_value p v)
  /\ (forall t v, modelled_prim p = true -> denotes p t v -> in_prim p v -> lit_from_str l t = Ok v).
Proof. exact @lit_rust_type. Qed.
Print Assumptions C48_rust_type.

Example C48_example : literal_from_str "positiveInteger" = Some LUint64 /\ xsd_name LUint64 = "nonNegativeInteger"
  /\ literal_from_str "double" = None.
Proof. repeat split. Qed.
