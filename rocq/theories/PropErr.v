(** * PropErr: errors of schema parsing tell the truth (C67) *)
From Verif Require Import Base Libs Xml Ast XsdNode Parse TextSpec ParseSpec DeclSpec Harness Samples PropDecode PropParse ErrSpec ErrProof.

(** C67. A schema document is rejected for a reason it has: the error is a true
    statement about the document, or about a file it includes. *)
Theorem C67_true : forall (L : Libs) fuel f d path e, files_bind_once f -> prefixes_once d ->
  schema_parse fuel f (Some d) path = Err e ->
  (exists x, e = SeXsd x path /\ tells d x) \/ (~ no_loads d /\ tells_files f e).
Proof. exact @doc_tells. Qed.
Print Assumptions C67_true.
Theorem C67_files : forall (L : Libs) fuel f path e, files_bind_once f ->
  parse_file fuel f path = Err e -> tells_files f e.
Proof. intros L fuel f path e B. exact (file_tells fuel f B path None e). Qed.
Print Assumptions C67_files.

(** One document for each kind of statement. All ranges are different: element [k]
    spans [(10 k, 10 k + 9)], its [j]-th attribute starts at [10 k + j]. *)
Definition ra (k j : N) (n v : string) : attr := mkAttr n None v (10 * k + j, 10 * k + 9)%N.
Definition rx (k : N) (t : string) (ats : list attr) (ks : list xelem) : xelem :=
  XE t (Some NS_XSD) ats [] (10 * k, 10 * k + 9)%N (map KElem ks).
Definition rschema (ks : list xelem) : xelem :=
  XE "schema" (Some NS_XSD) [] [(Some "xs", NS_XSD); (Some "t", "urn:t")] (0, 9)%N (map KElem ks).
Definition fault (d : xelem) : option xsd_err :=
  match schema_parse 20 no_files (Some d) "m.xsd" with Err (SeXsd x _) => Some x | _ => None end.
Definition in_element (ks : list xelem) := rschema [rx 1 "element" [ra 1 1 "name" "r"] ks].
Definition in_sequence (ks : list xelem) := in_element [rx 2 "complexType" [] [rx 3 "sequence" [] ks]].
Definition in_restriction (ks : list xelem) :=
  rschema [rx 1 "simpleType" [ra 1 1 "name" "r"] [rx 2 "restriction" [ra 2 1 "base" "xs:int"] ks]].
Definition faults : list (xelem * xsd_err) :=
  [ (rschema [rx 1 "simpleType" [ra 1 1 "name" "r"] []], XeNode (NeMissingElement "restriction" (Some NS_XSD) (10, 19)%N));
    (rschema [rx 1 "element" [] []], XeNode (NeMissingAttribute "name" "element" (10, 19)%N));
    (in_element [rx 2 "annotation" [] [rx 3 "documentation" [] []]], XeNode (NeTextExpected "documentation" (30, 39)%N));
    (rschema [rx 1 "element" [ra 1 1 "name" "r"; ra 1 2 "type" "xs:int"; ra 1 3 "nillable" "true"] []],
     XeNode (NeUnsupportedAttribute "nillable" "element" (13, 19)%N));
    (in_element [rx 2 "complexType" [] [rx 3 "anyAttribute" [] []]], XeNode (NeUnsupportedElement "anyAttribute" "complexType" (30, 39)%N));
    (XE "scheme" (Some NS_XSD) [] [] (0, 9)%N [], XeUnsupportedElement "scheme" (0, 9)%N);
    (rschema [rx 1 "group" [ra 1 1 "name" "g"] []], XeUnsupportedElement "group" (10, 19)%N);
    (in_sequence [rx 4 "any" [] []], XeUnsupportedElement "any" (40, 49)%N);
    (in_restriction [rx 3 "whiteSpace" [ra 3 1 "value" "collapse"] []], XeUnsupportedElement "whiteSpace" (30, 39)%N);
    (rschema [rx 1 "simpleType" [ra 1 1 "name" "r"] [rx 2 "restriction" [ra 2 1 "base" "t:x"] []]],
     XeUnsupportedAttributeValue "base" "t:x" "restriction" (21, 29)%N);
    (in_element [rx 2 "complexType" [] [rx 3 "complexContent" [] [rx 4 "extension" [ra 4 1 "base" "xs:int"] []]]],
     XeUnsupportedAttributeValue "base" "xs:int" "extension" (41, 49)%N);
    (in_sequence [rx 4 "element" [ra 4 1 "ref" "xs:int"] []], XeUnsupportedAttributeValue "ref" "xs:int" "element" (41, 49)%N);
    (in_element [rx 2 "complexType" [] [rx 3 "attribute" [ra 3 1 "name" "a"; ra 3 2 "type" "xs:int"; ra 3 3 "use" "maybe"] []]],
     XeUnsupportedAttributeValue "use" "maybe" "attribute" (30, 39)%N);
    (in_element [rx 2 "complexType" [ra 2 1 "mixed" "true"] []], XeUnsupportedAttributeValue "mixed" "true" "complexType" (20, 29)%N);
    (in_element [rx 2 "complexType" [] [rx 3 "attribute"
       [ra 3 1 "name" "a"; ra 3 2 "type" "xs:int"; ra 3 3 "use" "required"; ra 3 4 "default" "1"] []]],
     XeUnexpectedAttribute "default" "attribute" (30, 39)%N);
    (in_element [], XeMissingElement "simpleType|complexType" "element" (10, 19)%N);
    (in_sequence [rx 4 "element" [ra 4 1 "name" "a"; ra 4 2 "type" "u:x"] []], XeMissingNamespace "u" (42, 49)%N);
    (in_sequence [rx 4 "element" [ra 4 1 "name" "a"; ra 4 2 "type" "xs:gYear"] []], XeUnsupportedType "gYear" (42, 49)%N);
    (in_sequence [rx 4 "element" [ra 4 1 "name" "a"; ra 4 2 "type" "xs:int"; ra 4 3 "minOccurs" "one"] []], XeParseInt (43, 49)%N);
    (in_sequence [rx 4 "element" [ra 4 1 "name" "a"; ra 4 2 "type" "xs:int"; ra 4 3 "maxOccurs" "4294967296"] []], XeParseInt (43, 49)%N);
    (in_restriction [rx 3 "minLength" [ra 3 1 "value" "-1"] []], XeParseInt (31, 39)%N);
    (in_restriction [rx 3 "minInclusive" [ra 3 1 "value" "x"] []], XeParseDecimal (31, 39)%N) ].
Example C67_faults : map (fun x => fault (fst x)) faults = map (fun x => Some (snd x)) faults.
Proof. by_compute. Qed.
(** ... and so each of these errors is a true statement about its document. *)
Example C67_faults_true : Forall (fun x => tells (fst x) (snd x)) faults.
Proof.
  assert (H := C67_faults). assert (O : Forall (fun x => prefixes_once (fst x)) faults).
  { repeat constructor; simpl; intuition discriminate. }
  assert (N : Forall (fun x => no_loads (fst x)) faults).
  { repeat constructor; intros c I [E|E]; cbn in I; (destruct I as [<-|[]] || destruct I); discriminate. }
  revert H O N. generalize faults. induction l as [|[d x] l IH]; [constructor|]. cbn [map fst snd]. intros H O N.
  injection H as H1 H2. inversion O; subst. inversion N; subst. constructor; [|auto]. cbn [fst snd] in *.
  unfold fault in H1. destruct (schema_parse _ _ _ _) as [s|[y p|p|m]|w|] eqn:E; try discriminate. injection H1 as ->.
  apply C67_true in E; [|intros p' d' R; discriminate|assumption].
  destruct E as [(y & Y & T)|[X _]]; [now injection Y as <- _|now elim X].
Qed.
(** The statements can be false: nothing is wrong with the name here. *)
Example C67_not_told : ~ tells (in_element []) (XeNode (NeMissingAttribute "name" "element" (10, 19)%N)).
Proof.
  assert (G : forall x, tells (in_element []) x -> x = XeNode (NeMissingAttribute "name" "element" (10, 19)%N) -> False).
  { intros x T. destruct T as [|e n W Nd N| | | | | | | | | | | | | | | | | | | |]; try discriminate. intros E. injection E as -> E3 E4.
  assert (V : e = in_element [] \/ e = rx 1 "element" [ra 1 1 "name" "r"] []).
  { clear - W. induction W as [|e c _ IH I]; [auto|]. destruct IH as [->| ->]; cbn in I; [|destruct I].
    destruct I as [<-|[]]. auto. }
  destruct V as [->| ->]; [discriminate E3|]. apply (N (ra 1 1 "name" "r")); [now left|reflexivity]. }
  intros T. exact (G _ T eq_refl).
Qed.

(** An error in an included file is about that file. *)
Example C67_included :
  let f := list_fs [("m.xsd", rschema [rx 1 "include" [ra 1 1 "schemaLocation" "b.xsd"] []]); ("b.xsd", in_element [])] in
  exists x p d, parse_file 20 f "m.xsd" = Err (SeXsd x p) /\ fs_read f p = Some (Some d) /\ tells d x
                /\ x = XeMissingElement "simpleType|complexType" "element" (10, 19)%N.
Proof.
  cbv zeta. set (f := list_fs _).
  assert (E : parse_file 20 f "m.xsd" = Err (SeXsd (XeMissingElement "simpleType|complexType" "element" (10, 19)%N) (fs_push f (fs_parent f "m.xsd") "b.xsd"))) by by_compute.
  eexists _, _, (in_element []). split; [exact E|]. split; [by_compute|]. split; [|reflexivity].
  apply C67_files in E.
  - destruct E as [[E _]|(d & R & T)]; [discriminate|]. assert (d = in_element []) as <-; [|exact T].
    assert (R2 : fs_read f (fs_push f (fs_parent f "m.xsd") "b.xsd") = Some (Some (in_element []))) by by_compute. congruence.
  - intros p d. cbn. repeat match goal with |- context [String.eqb ?a ?b] => destruct (String.eqb a b) end; intros X; try discriminate;
      injection X as <-; repeat constructor; simpl; intuition discriminate.
Qed.

(** "Missing namespace" is about the schema element only: a prefix bound by the
    element that uses it is reported as missing (context.rs:41-62 reads the
    declarations of the root). *)
Theorem C67_scope_refuted : forall (L : Libs), exists d e a p uri fuel f path,
  within d e /\ the_attr e "type" a /\ In (Some p, uri) (xe_nss e)
  /\ schema_parse fuel f (Some d) path = Err (SeXsd (XeMissingNamespace p (at_range a)) path).
Proof.
  intros L.
  exists (rschema [XE "element" (Some NS_XSD) [ra 1 1 "name" "r"; ra 1 2 "type" "u:x"] [(Some "u", "urn:u")] (10, 19)%N []]),
    (XE "element" (Some NS_XSD) [ra 1 1 "name" "r"; ra 1 2 "type" "u:x"] [(Some "u", "urn:u")] (10, 19)%N []),
    (ra 1 2 "type" "u:x"), "u", "urn:u", 9, no_files, "m.xsd".
  split; [eapply wi_child; [apply wi_root|now left]|]. split; [exists [ra 1 1 "name" "r"], []; auto|].
  split; [now left|]. by_compute.
Qed.
Print Assumptions C67_scope_refuted.
