(** * C08, C09, C16, C50: typing, termination and lookahead of the generated decoder *)
From Verif Require Import Base Libs Xml Ast XsdNode Parse Decode Gen Run Harness Samples CursorSpec
  GenSpec DecSpec ReadSpec RepSpec DecProof1 WfSpec WfProof TotalProof TypeProof WfCheck TermProof PropDecode.

(** The schema of the examples meets the conditions used below. *)
Example order_well_formed : compiles (ctx_of ex_order) (names_of ex_order) /\ grounded (ctx_of ex_order) (names_of ex_order).
Proof.
  split; [apply compiles_b_ok; by_compute|]. apply grounded_b_ok; [|by_compute|by_compute].
  exact (same_ident 40 _ _ (module_of ex_order) (proj1 order_generated)).
Qed.

(** C08: what [from_xml] returns has the declared type ([has_type], WfSpec.v).
    A repeated group directly inside a choice is excluded: the code generated for
    it does not type-check. *)
Theorem C08_typed : forall (L : Libs) gfuel c gs p n id e fuel v,
  generated gfuel c gs p -> choices_ok c gs -> In n gs -> type_ident n = Ok id ->
  from_xml p fuel id e = Ok v -> has_type p (TRef id) v.
Proof. exact @decoded_typed. Qed.
Print Assumptions C08_typed.

(** The decoder never gets stuck ([Panic]: a missing type, no conversion). *)
Theorem C08_never_stuck : forall (L : Libs) gfuel c gs p n id e fuel w,
  generated gfuel c gs p -> compiles c gs -> grounded c gs -> In n gs -> type_ident n = Ok id ->
  from_xml p fuel id e <> Panic w.
Proof. exact @decoding_never_stuck. Qed.
Print Assumptions C08_never_stuck.

Example C08_example : has_type (module_of ex_order) (TRef "Order") ex_order_value.
Proof.
  apply (C08_typed _ 40 (ctx_of ex_order) (names_of ex_order) _ (mkName "order" (NsId 1)) _ ex_order_doc 40).
  - exact (proj1 order_generated).
  - exact (cp_choices _ _ (proj1 order_well_formed)).
  - vm_compute. auto 10.
  - by_compute.
  - by_compute.
Qed.
(** [has_type] is not trivially true. *)
Example C08_not_typed : ~ has_type (module_of ex_order) (TRef "Order") (VStruct [("id", VStr "7")]).
Proof.
  intros H. inversion H as [| | | | |? t ? Lk D]; subst.
  assert (length (match ti_decl t with DStruct fs => fs | _ => [] end) = 8).
  { vm_compute in Lk. injection Lk as <-. reflexivity. }
  inversion D as [| |fs vs F E|]; subst. rewrite <- E in H0. simpl in H0.
  inversion F as [|? ? ? ? _ F']; subst. inversion F'; subst. discriminate.
Qed.
(** Without the exclusion it fails: a group repeated inside a choice is decoded to
    the group alone where a [Vec] is declared. *)
Theorem C08_typed_refuted : exists doc v,
  gen_doc doc = Ok (module_of doc) /\ NoDup (map ti_id (module_of doc))
  /\ read_with doc "P" (el "p" [] [txt "xa" "1"; txt "xb" "2"]) = Some (Ok v)
  /\ ~ has_type (module_of doc) (TRef "P") v.
Proof.
  exists (xschema [] [xelement [at_ "name" "p"] [xcomplex [xs "choice" []
    [xs "sequence" (occ "1" "unbounded") [xtyped "xa" "xs:int"; xtyped "xb" "xs:int"]]]]]).
  exists (VStruct [("p_data", VChoice "X" (VStruct [("xa", VInt 1); ("xb", VInt 2)]))]).
  split; [by_compute|]. split; [apply nodupb_NoDup; by_compute|]. split; [by_compute|].
  intros H. inversion H as [| | | | |? t ? Lk D]; subst. vm_compute in Lk. injection Lk as <-. simpl in D.
  inversion D as [| |fs vs F|]; subst. inversion F as [|? ? ? ? [_ T] _]; subst. simpl in T.
  inversion T as [| | | | |? t ? Lk D']; subst. vm_compute in Lk. injection Lk as <-. simpl in D'.
  inversion D' as [| | |? ? t ? Iv T']; subst. destruct Iv as [Iv|[]]. injection Iv as <-.
  inversion T'.
Qed.
Print Assumptions C08_typed_refuted.

(** C09: decoding ends with a value or an error, on every document. [compiles]:
    the references of the schema are resolved as intended (in particular the name
    of a group is not the name of something else); [grounded]: no type contains
    itself without an element in between. Missing for the full statement: schemas
    that are not of this kind, see [C09_refuted]. *)
Theorem C09_decoding_ends_partial : forall (L : Libs) gfuel c gs p n id e,
  generated gfuel c gs p -> compiles c gs -> grounded c gs -> In n gs -> type_ident n = Ok id ->
  exists o, fin o /\ eventually (fun fuel => from_xml p fuel id e = o).
Proof. exact @decoding_ends. Qed.
Print Assumptions C09_decoding_ends_partial.

Example C09_example : exists o, fin o /\
  eventually (fun fuel => from_xml (module_of ex_order) fuel "Order" (elq "order" [] [txtq "id" "x"]) = o).
Proof.
  apply (C09_decoding_ends_partial _ 40 (ctx_of ex_order) (names_of ex_order) _ (mkName "order" (NsId 1))).
  - exact (proj1 order_generated).
  - apply order_well_formed.
  - apply order_well_formed.
  - vm_compute. auto 10.
  - by_compute.
Qed.

(** C09 in full is false: the name given to a repeated sequence is the name of a
    simple type of the schema; its lookahead is always true and the loop never
    ends. *)
Definition ex_spin : xelem := xschema []
  [xelement [at_ "name" "p"] [xcomplex [xs "sequence" (occ "0" "unbounded") [xtyped "xa" "xs:int"; xtyped "xb" "xs:int"]]];
   xs "simpleType" [at_ "name" "PX"] [xs "restriction" [at_ "base" "xs:string"] []]].
Lemma spin p f e s : d_text e = Ok "" -> lookup_item p "Px" = lookup_item (module_of ex_spin) "Px" -> forall k,
  while_look (run_type real_ops p f) (run_look real_ops p f) k "Px" (RxText LString) e s = OutOfFuel.
Proof.
  intros T E. induction k as [|k IH]; [reflexivity|]. simpl. destruct f as [|f]; [reflexivity|].
  cbn [run_look]. rewrite E.
  replace (lookup_item (module_of ex_spin) "Px") with
    (Some (mkTitem "Px" (DTuple (TPrim PString) true) "PX" [] (TwTuple true WxText) "PX" None (BrTuple (RxText LString)) LkTrue))
    by by_compute.
  cbn [ti_look bind run_rx]. rewrite T. cbn [bind lit_from_str prim_from_str lit_prim].
  cbn [run_look] in IH. rewrite IH. reflexivity.
Qed.
Theorem C09_decoding_refuted : exists doc e, NoDup (map ti_id (module_of doc)) /\ In "P" (map ti_id (module_of doc))
  /\ gen_doc doc = Ok (module_of doc) /\ forall fuel, from_xml (module_of doc) fuel "P" e = OutOfFuel.
Proof.
  exists ex_spin, (el "p" [] []). split; [apply nodupb_NoDup; by_compute|]. split; [vm_compute; auto|].
  split; [by_compute|]. intros fuel. unfold from_xml, from_xml_with.
  set (q := module_of ex_spin).
  assert (Lk : lookup_item q "P" = Some (mkTitem "P" (DStruct [("x", TOpt (TVec (TPrim PString)))]) "p" []
    (TwStruct [] true (WbLeaves [mkWf "x" true true None false WxText])) "p" None
    (BrStruct [("x", FrWhileLook "Px" (RxText LString) true)] []) (LkOr [LkCall "Px"]))) by by_compute.
  rewrite Lk. cbn [ti_read_name ti_read_ns].
  replace (doc_try_child (el "p" [] []) "p" None) with (@Ok from_xml_err _ (el "p" [] [])) by by_compute.
  cbn [bind]. destruct fuel as [|fuel]; [reflexivity|]. cbn [run_type]. rewrite Lk.
  unfold run_body. cbn [ti_read run_fields run_fr]. rewrite spin; reflexivity.
Qed.
Print Assumptions C09_decoding_refuted.

(** C16: a group that lookahead recognised is read by taking at least one child,
    or not at all. *)
Theorem C16_progress_partial : forall (L : Libs) gfuel c gs p m id f f' e s s1 v s2,
  generated gfuel c gs p -> groups_ok c gs -> is_group c gs m -> look_ident m = Ok id ->
  run_look real_ops p f id s = Ok (true, s1) -> run_type real_ops p f' id e s1 = Ok (v, s2) ->
  remaining s1 = remaining s /\ length (remaining s2) < length (remaining s).
Proof. exact @group_progress. Qed.
Print Assumptions C16_progress_partial.

(** If it is not recognised, an optional (or repeated) group is left out, and no child is used. *)
Theorem C16_skipped : forall (L : Libs) gfuel c gs p l fld r m id f k call e s s1,
  generated gfuel c gs p -> leaf_from_xml gfuel c l = Ok (fld, r) ->
  lf_virtual l = true -> (optional l \/ repeated l) ->
  ld_content (lf_def l) = LcNamed m -> look_ident m = Ok id -> run_look real_ops p f id s = Ok (false, s1) ->
  run_fr real_ops call (run_look real_ops p f) (S k) r e s
    = Ok (if lf_is_optional l then VNone else VVec [], s1) /\ remaining s1 = remaining s.
Proof. exact @group_skipped. Qed.
Print Assumptions C16_skipped.

(** A sequence group in a sequence group, with optional members. *)
Definition ex_nest : xelem := xschema [] [xelement [at_ "name" "p"] [xcomplex [xsequence
  [xs "sequence" [at_ "minOccurs" "0"]
     [xs "sequence" [] [xelement ([at_ "name" "ya"; at_ "type" "xs:int"] ++ occ "0" "1") []]; xtyped "yb" "xs:int"];
   xelement ([at_ "name" "yc"; at_ "type" "xs:int"] ++ occ "0" "1") []]]]].
Example C16_example :
  let y := mkName "PY" NsNone in
  groups_ok (ctx_of ex_nest) (names_of ex_nest) /\ is_group (ctx_of ex_nest) (names_of ex_nest) y
  /\ look_ident y = Ok "Py"
  /\ rmap fst (run_look real_ops (module_of ex_nest) 9 "Py" (children_new (el "p" [] [txt "ya" "1"; txt "yb" "2"; txt "yc" "3"]))) = Ok true
  /\ seen (run_type real_ops (module_of ex_nest) 9 "Py" (el "p" [] []) (children_new (el "p" [] [txt "ya" "1"; txt "yb" "2"; txt "yc" "3"])))
     = Ok (VStruct [("ya", VStruct [("ya", VSome (VInt 1))]); ("yb", VInt 2)], [txt "yc" "3"])
  /\ rmap fst (run_look real_ops (module_of ex_nest) 9 "Py" (children_new (el "p" [] [txt "yc" "3"]))) = Ok false
  /\ read_with ex_nest "P" (el "p" [] [txt "yc" "3"]) = Some (Ok (VStruct [("y", VNone); ("yc", VSome (VInt 3))])).
Proof.
  cbv zeta. split; [apply cp_groups, compiles_b_ok; by_compute|].
  split; [apply is_group_b_ok; by_compute|].
  split; [by_compute|]. split; [by_compute|]. split; [by_compute|]. split; by_compute.
Qed.

(** C16 needs the group to be a group: the loop of [C09_decoding_refuted] makes no progress. *)
Theorem C16_progress_refuted : exists doc e s1 v s2, gen_doc doc = Ok (module_of doc)
  /\ NoDup (map ti_id (module_of doc))
  /\ run_look real_ops (module_of doc) 1 "Px" (children_new e) = Ok (true, s1)
  /\ run_type real_ops (module_of doc) 1 "Px" e s1 = Ok (v, s2) /\ remaining s2 = remaining (children_new e).
Proof.
  exists ex_spin, (el "p" [] []). do 3 eexists. split; [by_compute|]. split; [apply nodupb_NoDup; by_compute|].
  split; [by_compute|]. split; by_compute.
Qed.
Print Assumptions C16_progress_refuted.

(** C50: lookahead does not recognise every start of a group: it stops at the
    first required member even if that is itself a group that may be empty. The
    sequence [(ya?), yb] can start with yb and can be read from there, but an
    optional sequence of that form is taken to be absent, and yb is ignored. *)
Theorem C50_lookahead_refuted : exists doc v,
  let kids := children_new (el "p" [] [txt "yb" "2"]) in
  gen_doc doc = Ok (module_of doc) /\ compiles (ctx_of doc) (names_of doc) /\ grounded (ctx_of doc) (names_of doc)
  /\ seen (run_type real_ops (module_of doc) 9 "Py" (el "p" [] [txt "yb" "2"]) kids) = Ok (v, [])
  /\ rmap fst (run_look real_ops (module_of doc) 9 "Py" kids) = Ok false
  /\ read_with doc "P" (el "p" [] [txt "yb" "2"]) = Some (Ok (VStruct [("y", VNone); ("yc", VNone)])).
Proof.
  exists ex_nest, (VStruct [("ya", VStruct [("ya", VNone)]); ("yb", VInt 2)]). cbv zeta.
  split; [by_compute|]. split; [apply compiles_b_ok; by_compute|].
  split. { apply grounded_b_ok; [|by_compute|by_compute].
    apply (same_ident 40 (ctx_of ex_nest) (names_of ex_nest) (module_of ex_nest)). split; [by_compute|apply nodupb_NoDup; by_compute]. }
  split; [by_compute|]. split; by_compute.
Qed.
Print Assumptions C50_lookahead_refuted.
