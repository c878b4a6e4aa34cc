(** * PropValid: documents that are valid by the schema are decoded (C55) *)
From Verif Require Import Base Libs Xml Ast Parse Decode Gen Run CursorSpec GenSpec GenProof1 DecSpec RepSpec WfSpec WfCheck LlSpec RoundSpec
  ReadSpec DecProof2 RustSpec RustCheck ValidSpec ValidProof ValidCheck Harness Samples PropDecode.

(** C55, partial: on schemas that can be read with one element of lookahead
    ([unambiguous_b]), whose generated module compiles and whose choices have no optional
    alternatives, every valid document is decoded, to a value that accounts for exactly its
    children. Without these conditions it is false, see below. Members of xs:all must be in
    the declared order. *)
Theorem C55_valid_decoded_partial : forall (L : Libs) gfuel c gs p F n id e,
  generated gfuel c gs p -> rust_ok p -> variants_required c gs -> unambiguous_b c gs false F = true ->
  valid_document c gs n e -> type_ident n = Ok id ->
  exists v, rep_doc c gs appended exactly (counted false) n v e /\ yields (fun fuel => from_xml p fuel id e) (Ok v).
Proof. exact @valid_decoded. Qed.
Print Assumptions C55_valid_decoded_partial.

Definition ex_many : xelem := elq "order" [at_ "currency" "EUR"; at_ "lang" "de"]
  [txtq "id" "-7"; txtq "note" ""; txtq "item" "a"; txtq "item" "b"; txtq "tag" "t"; txtq "version" "1.0"; txtq "cash" "true"].
Example C55_example : valid_document (ctx_of ex_order) (Samples.names_of ex_order) (mkName "order" (NsId 1)) ex_many
  /\ exists v, yields (fun fuel => from_xml (module_of ex_order) fuel "Order" ex_many) (Ok v).
Proof.
  assert (V : valid_document (ctx_of ex_order) (Samples.names_of ex_order) (mkName "order" (NsId 1)) ex_many)
    by (apply (valid_doc_b_ok _ _ 9); by_compute).
  split; [exact V|].
  assert (Y : exists v, rep_doc (ctx_of ex_order) (Samples.names_of ex_order) appended exactly (counted false) (mkName "order" (NsId 1)) v ex_many
    /\ yields (fun fuel => from_xml (module_of ex_order) fuel "Order" ex_many) (Ok v)).
  { refine (C55_valid_decoded_partial _ 40 (ctx_of ex_order) (Samples.names_of ex_order) (module_of ex_order) 9
      (mkName "order" (NsId 1)) "Order" ex_many (proj1 order_generated) _ _ _ V _).
    - apply rust_accepts; by_compute.
    - apply required_ok. by_compute.
    - by_compute.
    - by_compute. }
  destruct Y as (v & _ & Y). exists v. exact Y.
Qed.

(** A schema, a valid document, and the error it is rejected with. *)
Definition rejects_valid (doc : xelem) (n : name) (id : string) (e : xelem) (err : from_xml_err) : Prop :=
  generated 40 (ctx_of doc) (Samples.names_of doc) (module_of doc) /\ rust_ok (module_of doc) /\ type_ident n = Ok id
  /\ valid_document (ctx_of doc) (Samples.names_of doc) n e
  /\ forall fuel, 40 <= fuel -> from_xml (module_of doc) fuel id e = Err err.
Ltac rejects_by_compute :=
  split; [split; [by_compute|apply nodupb_NoDup; by_compute]|]; split; [apply rust_accepts; by_compute|];
  split; [by_compute|]; split; [apply (valid_doc_b_ok _ _ 9); by_compute|];
  intros fuel Hf; apply (from_xml_stable _ _ _ 40 fuel); [by_compute|exact I|exact Hf].

(** C55 in full is false. A choice with an optional alternative, none of them there. *)
Definition ex_nothing : xelem := xschema [] [xelement [at_ "name" "p"] [xcomplex
  [xs "choice" [] [xelement ([at_ "name" "a"; at_ "type" "xs:int"] ++ occ "0" "1") []; xtyped "b" "xs:int"]]]].
Theorem C55_choice_refuted : rejects_valid ex_nothing (mkName "p" NsNone) "P" (el "p" [] []) (FeMissingVariant "Pdata").
Proof. rejects_by_compute. Qed.
Print Assumptions C55_choice_refuted.

(** An optional group that starts with a group that may be empty: the lookahead does not
    see that the outer group is there. *)
Definition ex_inner : xelem := xschema [] [xelement [at_ "name" "p"] [xcomplex [xsequence
  [xs "choice" (occ "0" "1")
     [xsequence [xsequence [xelement ([at_ "name" "a"; at_ "type" "xs:int"] ++ occ "0" "1") []]; xtyped "b" "xs:int"]];
   xtyped "c" "xs:int"]]]].
Theorem C55_group_refuted : rejects_valid ex_inner (mkName "p" NsNone) "P" (el "p" [] [txt "b" "1"; txt "c" "2"])
  (FeMissingElement "c" None).
Proof. rejects_by_compute. Qed.
Print Assumptions C55_group_refuted.

(** C56, partial: a document that is decoded is valid as far as the decoder checks:
    as C55 has it, except that there may be more children in any element, texts may be
    followed by anything, the number of occurrences is only checked for members that occur
    at most once, and the text of fixed attributes is not looked at. Children are in the
    declared order if there is no xs:all. *)
Theorem C56_checked_partial : forall (L : Libs) gfuel c gs p n id e fuel v,
  generated gfuel c gs p -> In n gs -> type_ident n = Ok id -> from_xml p fuel id e = Ok v ->
  checked_document c gs shuffle n e /\ (all_ordered c gs -> checked_document c gs appended n e).
Proof. exact @decoded_checked. Qed.
Print Assumptions C56_checked_partial.

Example C56_example : checked_document (ctx_of ex_order) (Samples.names_of ex_order) appended (mkName "order" (NsId 1))
    (elq "order" [at_ "currency" "EUR"; at_ "more" "1"] (xe_children ex_order_doc ++ [txt "more" "1"; elq "more" [] []])).
Proof.
  refine (proj2 (C56_checked_partial _ 40 (ctx_of ex_order) (Samples.names_of ex_order) (module_of ex_order)
    (mkName "order" (NsId 1)) "Order" _ 40 ex_order_value (proj1 order_generated) _ _ _) _); try by_compute.
  - vm_compute. auto.
  - exact (proj1 C10_example).
Qed.

(** C56 in full is false. A schema, a document that is not valid, and its value. *)
Definition accepts_invalid (doc : xelem) (n : name) (id : string) (e : xelem) (v : value) : Prop :=
  generated 40 (ctx_of doc) (Samples.names_of doc) (module_of doc) /\ rust_ok (module_of doc) /\ type_ident n = Ok id
  /\ ~ valid_document (ctx_of doc) (Samples.names_of doc) n e
  /\ forall fuel, 40 <= fuel -> from_xml (module_of doc) fuel id e = Ok v.
Definition ex_bounds (mn mx : string) : xelem := xschema [] [xelement [at_ "name" "p"] [xcomplex
  [xsequence [xelement ([at_ "name" "a"; at_ "type" "xs:int"] ++ occ mn mx) []]]]].
Ltac accepts_by_compute tac :=
  split; [split; [by_compute|apply nodupb_NoDup; by_compute]|]; split; [apply rust_accepts; by_compute|];
  split; [by_compute|]; split; [tac|];
  intros fuel Hf; apply (from_xml_stable _ _ _ 40 fuel); [by_compute|exact I|exact Hf].
Ltac count_differs :=
  let H := fresh in intros H; eapply valid_count in H; [|vm_compute; reflexivity|vm_compute; reflexivity|vm_compute; reflexivity];
  destruct H as [H1 H2]; vm_compute in H1, H2; congruence.

(** Too few, too many, none of a required repeated member; one where none is allowed; one
    more than one. *)
Theorem C56_too_few_refuted : accepts_invalid (ex_bounds "2" "3") (mkName "p" NsNone) "P" (el "p" [] [txt "a" "1"])
  (VStruct [("a", VVec [VInt 1])]).
Proof. accepts_by_compute count_differs. Qed.
Print Assumptions C56_too_few_refuted.
Theorem C56_too_many_refuted : accepts_invalid (ex_bounds "0" "2") (mkName "p" NsNone) "P"
  (el "p" [] [txt "a" "1"; txt "a" "2"; txt "a" "3"]) (VStruct [("a", VSome (VVec [VInt 1; VInt 2; VInt 3]))]).
Proof. accepts_by_compute count_differs. Qed.
Print Assumptions C56_too_many_refuted.
Theorem C56_none_refuted : accepts_invalid (ex_bounds "1" "unbounded") (mkName "p" NsNone) "P" (el "p" [] [])
  (VStruct [("a", VVec [])]).
Proof. accepts_by_compute count_differs. Qed.
Print Assumptions C56_none_refuted.
Theorem C56_prohibited_refuted : accepts_invalid (ex_bounds "0" "0") (mkName "p" NsNone) "P" (el "p" [] [txt "a" "1"])
  (VStruct [("a", VSome (VInt 1))]).
Proof. accepts_by_compute count_differs. Qed.
Print Assumptions C56_prohibited_refuted.
Theorem C56_trailing_refuted : accepts_invalid (ex_bounds "1" "1") (mkName "p" NsNone) "P" (el "p" [] [txt "a" "1"; txt "z" "2"])
  (VStruct [("a", VInt 1)]).
Proof. accepts_by_compute count_differs. Qed.
Print Assumptions C56_trailing_refuted.

(** A fixed attribute with another value. *)
Definition ex_fixed_attr : xelem := xschema [] [xelement [at_ "name" "p"] [xcomplex
  [xs "attribute" [at_ "name" "k"; at_ "type" "xs:string"; at_ "fixed" "x"] []]]].
Theorem C56_fixed_refuted : accepts_invalid ex_fixed_attr (mkName "p" NsNone) "P" (el "p" [at_ "k" "y"] [])
  (VStruct [("k", VSome VUnit)]).
Proof.
  accepts_by_compute ltac:(let H := fresh in intros H;
    eapply (valid_fixed _ _ _ _ _ "x" "y") in H; [|vm_compute; reflexivity|vm_compute; left; reflexivity|vm_compute; reflexivity|vm_compute; reflexivity];
    discriminate).
Qed.
Print Assumptions C56_fixed_refuted.
