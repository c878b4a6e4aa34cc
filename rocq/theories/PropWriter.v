(** * C06, C07, C22, C23, C26, C27: contexts, tags and namespaces of the output *)
From Verif Require Import Base Libs Xml Ast XsdNode Parse Decode Writer Gen Run Harness Samples CursorSpec
  GenSpec DecSpec ReadSpec RepSpec DecProof1 WriterSpec WriterProof EncSpec EncProof WfSpec TypedCheck PropDecode PieceProof.

(** C06: a history of calls on a context and on contexts borrowed from it writes
    what [tags] says: only calls on the context itself write, and a start tag
    carries everything set since the last one, at any depth, in call order, the
    first declaration of a prefix winning. *)
Theorem C06_context_calls : forall name ks, nested 0 ks = true ->
  exists pending, tags name 0 [] ks (fst (ccalls ks [ctx_create name])) pending.
Proof. exact context_calls. Qed.
Print Assumptions C06_context_calls.

(** Exactly once: the attributes written, and those still pending, are the ones set. *)
Theorem C06_exactly_once : forall name ks evs pending, tags name 0 [] ks evs pending ->
  attrs_written evs ++ attrs_set pending = attrs_set ks.
Proof. intros name ks evs pending H. exact (tags_attrs name 0 [] ks evs pending H). Qed.
Print Assumptions C06_exactly_once.

(** A borrowed context writes no tag. *)
Theorem C06_borrowed_silent : forall c, fst (write_start_element (ctx_wrap c)) = []
  /\ write_end_element (ctx_wrap c) = [].
Proof. intros c. split; reflexivity. Qed.
Print Assumptions C06_borrowed_silent.

Example C06_example :
  fst (ccalls [CAttr "a" "1"; CWrap; CNs "" "u"; CAttr "b" "2"; CStart; CWrap; CNs "" "w"; CAttr "c" "3"; CUnwrap; CUnwrap;
               CStart; CEnd] [ctx_create "n"])
  = [EvStart "n" [("a", "1"); ("b", "2"); ("c", "3")] [("", "u")]; EvEnd].
Proof. by_compute. Qed.

(** C07: all that is set before the last start tag is written. Missing: what is
    set afterwards, see [C07_late_refuted]. *)
Theorem C07_before_start_partial : forall name pre post,
  depth 0 pre = Some 0 -> nested 0 post = true -> attrs_set post = [] ->
  attrs_written (fst (ccalls (pre ++ CStart :: post) [ctx_create name])) = attrs_set pre.
Proof. exact all_written. Qed.
Print Assumptions C07_before_start_partial.

Theorem C07_late_refuted : exists name ks, nested 0 ks = true /\ In CStart ks /\
  exists a, In a (attrs_set ks) /\ ~ In a (attrs_written (fst (ccalls ks [ctx_create name]))).
Proof.
  exists "n", [CStart; CWrap; CAttr "a" "1"; CUnwrap; CEnd]. split; [reflexivity|]. split; [now left|].
  exists ("a", "1"). split; [now left|]. vm_compute. tauto.
Qed.
Print Assumptions C07_late_refuted.

Example C07_example :
  attrs_written (fst (ccalls [CAttr "a" "1"; CWrap; CAttr "b" "2"; CUnwrap; CStart; CEnd] [ctx_create "n"]))
  = [("a", "1"); ("b", "2")].
Proof. by_compute. Qed.

(** C22: the output is balanced, for every value. *)
Theorem C22_balanced : forall (L : Libs) p fuel id v evs, to_xml p fuel id v = Ok evs -> balanced evs.
Proof. exact @balanced_to_xml. Qed.
Print Assumptions C22_balanced.

(** Character data written in pieces is read as one text. *)
Theorem C22_pieces : forall (L : Libs) a s s' b,
  document (a ++ EvChars s :: EvChars s' :: b) = document (a ++ EvChars (s +++ s') :: b).
Proof. exact @document_pieces. Qed.
Print Assumptions C22_pieces.
Example C22_pieces_example :
  document [EvStart "a" [] []; EvChars "x"; EvChars ""; EvChars "yz"; EvStart "b" [] []; EvEnd; EvChars "w"; EvEnd]
  = Some (XE "a" None [] [] r0 [KText "xyz"; KElem (XE "b" None [] [] r0 []); KText "w"]).
Proof. by_compute. Qed.

(** It is one element with the name of the type when the type writes a tag
    ([tagged], EncSpec.v). Missing: the other types, see [C22_no_tag_refuted]. That
    [to_xml] succeeds is part of C24. *)
Theorem C22_one_element_partial : forall (L : Libs) p gfuel c gs n id xn fuel v evs,
  generated gfuel c gs p -> In n gs -> type_ident n = Ok id -> tagged c gs n -> xml_name_of c n = Ok xn ->
  to_xml p fuel id v = Ok evs -> one_element xn evs.
Proof. intros L p gfuel c gs n id xn fuel v evs G. exact (tagged_to_xml p gfuel c gs G n id xn fuel v evs). Qed.
Print Assumptions C22_one_element_partial.

Example C22_example : exists evs, to_xml (module_of ex_order) 40 "Order" ex_order_value = Ok evs
  /\ one_element "order" evs /\ length evs = 17.
Proof.
  eexists. split; [by_compute|]. split; [|reflexivity].
  apply (C22_one_element_partial _ (module_of ex_order) 40 (ctx_of ex_order) (names_of ex_order)
    (mkName "order" (NsId 1)) "Order" "order" 40 ex_order_value).
  - exact (proj1 order_generated).
  - vm_compute. auto 10.
  - by_compute.
  - eapply tg_element; [vm_compute; reflexivity|reflexivity|reflexivity].
  - by_compute.
  - by_compute.
Qed.

Definition qualified_t := [at_ "targetNamespace" "urn:t"; at_ "elementFormDefault" "qualified"].
Definition xsimple (n b : string) : xelem := xs "simpleType" [at_ "name" n] [xs "restriction" [at_ "base" b] []].

(** [<xs:element name="a" type="t:code"/>] with a simple type [code]: only the text is written. *)
Definition ex_alias : xelem :=
  xschema qualified_t [xsimple "code" "xs:string"; xelement [at_ "name" "a"; at_ "type" "t:code"] []].
Theorem C22_no_tag_refuted : exists doc ty v evs,
  gen_doc doc = Ok (module_of doc) /\ has_type (module_of doc) (TRef ty) v
  /\ write_with doc ty v = Some (Ok evs) /\ (forall xn, ~ one_element xn evs) /\ document evs = None.
Proof.
  exists ex_alias, "A", (VTuple (VStr "x")), [EvChars "x"]. split; [by_compute|].
  split; [apply (has_type_b_ok 5); by_compute|]. split; [by_compute|]. split; [|by_compute].
  intros xn (ats & nss & b & E & _). discriminate.
Qed.
Print Assumptions C22_no_tag_refuted.

(** C23: tags missing inside a document. *)
Definition start_names (evs : list event) : list string :=
  flat_map (fun e => match e with EvStart n _ _ => [n] | _ => [] end) evs.
(** A choice variant whose type is a named simple type; a reference to an element
    with a fixed value; an element whose simpleContent extends a named simple type. *)
Definition ex_variant : xelem :=
  xschema qualified_t [xsimple "code" "xs:string";
    xelement [at_ "name" "p"] [xcomplex [xs "choice" [] [xtyped "a" "t:code"; xtyped "b" "xs:int"]]]].
Definition ex_fixed_ref : xelem :=
  xschema qualified_t [xelement [at_ "name" "v"; at_ "type" "xs:string"; at_ "fixed" "1.0"] [];
    xelement [at_ "name" "p"] [xcomplex [xsequence [xs "element" [at_ "ref" "t:v"] []; xtyped "b" "xs:int"]]]].
Definition ex_simple_ext : xelem :=
  xschema qualified_t [xsimple "code" "xs:string";
    xelement [at_ "name" "p"] [xcomplex [xs "simpleContent" [] [xs "extension" [at_ "base" "t:code"]
      [xs "attribute" [at_ "name" "lang"; at_ "type" "xs:string"] []]]]]].

(** A value whose output decodes with an error or is no document at all, because a
    tag is missing. *)
Definition loses_tag (doc : xelem) (ty : string) (v : value) (names : list string) : Prop :=
  gen_doc doc = Ok (module_of doc) /\ has_type (module_of doc) (TRef ty) v
  /\ exists evs, write_with doc ty v = Some (Ok evs) /\ start_names evs = names
     /\ match document evs with
        | Some d => exists e, read_with doc ty d = Some (Err e)
        | None => True
        end.

Theorem C23_variant_refuted : loses_tag ex_variant "P" (VStruct [("p_data", VChoice "A" (VStr "x"))]) ["p"].
Proof.
  split; [by_compute|]. split; [apply (has_type_b_ok 9); by_compute|]. eexists. split; [by_compute|].
  split; [by_compute|]. eexists. by_compute.
Qed.
Print Assumptions C23_variant_refuted.
Theorem C23_fixed_ref_refuted : loses_tag ex_fixed_ref "P" (VStruct [("v", VUnit); ("b", VInt 1)]) ["p"; "b"].
Proof.
  split; [by_compute|]. split; [apply (has_type_b_ok 9); by_compute|]. eexists. split; [by_compute|].
  split; [by_compute|]. eexists. by_compute.
Qed.
Print Assumptions C23_fixed_ref_refuted.
Theorem C23_simple_extension_refuted :
  loses_tag ex_simple_ext "P" (VStruct [("code", VStr "x"); ("lang", VSome (VStr "en"))]) [].
Proof.
  split; [by_compute|]. split; [apply (has_type_b_ok 9); by_compute|]. eexists. split; [by_compute|].
  split; by_compute.
Qed.
Print Assumptions C23_simple_extension_refuted.

(** C26: elements written into the wrong namespace. *)
Definition child_names (e : xelem) : list (string * option string) := map (fun x => (xe_tag x, xe_ns x)) (xe_children e).
(** The generated decoder expects a child in one namespace, the generated encoder
    writes it in another one. *)
Definition wrong_namespace (p : program) (ty : string) (v : value) : Prop :=
  has_type p (TRef ty) v
  /\ exists x, from_xml p 40 ty x = Ok v
  /\ exists evs d, to_xml p 40 ty v = Ok evs /\ document evs = Some d
  /\ map fst (child_names d) = map fst (child_names x) /\ child_names d <> child_names x
  /\ exists e, from_xml p 40 ty d = Err e.

(** A reference as a choice variant, in a schema with unqualified local elements:
    written without the prefix of its namespace. *)
Definition ex_choice_ref : xelem :=
  xschema [at_ "targetNamespace" "urn:t"]
    [xelement [at_ "name" "q"] [xcomplex [xsequence [xtyped "x" "xs:int"]]];
     xelement [at_ "name" "p"] [xcomplex [xs "choice" [] [xs "element" [at_ "ref" "t:q"] []; xtyped "b" "xs:int"]]]].
Theorem C26_choice_refuted : gen_doc ex_choice_ref = Ok (module_of ex_choice_ref)
  /\ exists v, wrong_namespace (module_of ex_choice_ref) "P" v.
Proof.
  split; [by_compute|]. exists (VStruct [("p_data", VChoice "Q" (VStruct [("x", VInt 1)]))]).
  split; [apply (has_type_b_ok 9); by_compute|].
  exists (elq "p" [] [elq "q" [] [txt "x" "1"]]). split; [by_compute|].
  do 2 eexists. split; [by_compute|]. split; [by_compute|]. split; [by_compute|].
  split; [vm_compute; discriminate|]. eexists. by_compute.
Qed.
Print Assumptions C26_choice_refuted.

(** A type from an imported schema with unqualified local elements, used in a
    schema with qualified ones: its local elements end up in the default namespace. *)
Definition ex_import_main : xelem :=
  XE "schema" (Some NS_XSD) qualified_t [(Some "xs", NS_XSD); (Some "t", "urn:t"); (Some "u", "urn:u")] r0
    (map KElem [xs "import" [at_ "namespace" "urn:u"; at_ "schemaLocation" "u.xsd"] [];
      xelement [at_ "name" "p"] [xcomplex [xs "complexContent" [] [xs "extension" [at_ "base" "u:q"] []]]]]).
Definition ex_import_u : xelem :=
  XE "schema" (Some NS_XSD) [at_ "targetNamespace" "urn:u"] [(Some "xs", NS_XSD)] r0
    (map KElem [xs "complexType" [at_ "name" "q"] [xsequence [xtyped "x" "xs:int"]]]).
Definition ex_import : program :=
  match gen_file 40 [("m.xsd", ex_import_main); ("u.xsd", ex_import_u)] "m.xsd" with Ok p => p | _ => [] end.
Theorem C26_import_refuted : map ti_id ex_import = ["Q"; "P"] /\ exists v, wrong_namespace ex_import "P" v.
Proof.
  split; [by_compute|]. exists (VStruct [("q", VStruct [("x", VInt 1)])]).
  split; [apply (has_type_b_ok 9); by_compute|].
  exists (elq "p" [] [txt "x" "1"]). split; [by_compute|].
  do 2 eexists. split; [by_compute|]. split; [by_compute|]. split; [by_compute|].
  split; [vm_compute; discriminate|]. eexists. by_compute.
Qed.
Print Assumptions C26_import_refuted.

(** C27: an extension that adds a sequence loses the attributes of its base type. *)
Definition ex_extension (more : list xelem) : xelem :=
  xschema qualified_t
    [xs "complexType" [at_ "name" "parent"]
       [xsequence [xtyped "a" "xs:int"]; xs "attribute" [at_ "name" "id"; at_ "type" "xs:string"] []];
     xelement [at_ "name" "p"] [xcomplex [xs "complexContent" [] [xs "extension" [at_ "base" "t:parent"] more]]]].
Theorem C27_sequence_refuted : exists doc v x evs d,
  gen_doc doc = Ok (module_of doc) /\ NoDup (map ti_id (module_of doc)) /\ has_type (module_of doc) (TRef "P") v
  /\ read_with doc "P" x = Some (Ok v) /\ d_attribute x "id" = Some "7"
  /\ write_with doc "P" v = Some (Ok evs) /\ document evs = Some d /\ attrs_written evs = []
  /\ d_attribute d "id" = None
  /\ exists w, read_with doc "P" d = Some (Ok w) /\ w <> v.
Proof.
  exists (ex_extension [xsequence [xtyped "b" "xs:int"]]).
  exists (VStruct [("base", VStruct [("a", VInt 1); ("id", VSome (VStr "7"))]); ("parent", VStruct [("b", VInt 2)])]).
  exists (elq "p" [at_ "id" "7"] [txtq "a" "1"; txtq "b" "2"]). do 2 eexists.
  split; [by_compute|]. split; [apply nodupb_NoDup; by_compute|]. split; [apply (has_type_b_ok 9); by_compute|].
  split; [by_compute|]. split; [by_compute|]. split; [by_compute|]. split; [by_compute|].
  split; [by_compute|]. split; [by_compute|]. eexists. split; [by_compute|]. discriminate.
Qed.
Print Assumptions C27_sequence_refuted.
(** Without one they are kept. *)
Example C27_example :
  let doc := ex_extension [xs "attribute" [at_ "name" "lang"; at_ "type" "xs:string"] []] in
  let v := VStruct [("parent", VStruct [("a", VInt 1); ("id", VSome (VStr "7"))]); ("lang", VSome (VStr "en"))] in
  exists evs d, write_with doc "P" v = Some (Ok evs) /\ document evs = Some d
    /\ attrs_written evs = [("lang", "en"); ("id", "7")] /\ read_with doc "P" d = Some (Ok v).
Proof. do 2 eexists. split; [by_compute|]. split; [by_compute|]. split; by_compute. Qed.
