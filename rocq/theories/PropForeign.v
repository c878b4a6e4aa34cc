(** * C32: foreign markup in a schema *)
From Verif Require Import Base Libs Xml Ast XsdNode Parse ParseSpec DeclSpec ForeignSpec ForeignProof ForeignMain Harness Samples PropDecode PropParse PropDecl.

(** Markup of other namespaces does not change the outcome, in the main document
    and in the files it loads, positions in errors aside. Not covered: foreign
    attributes with the local name of an attribute the parser looks at, or of an
    attribute without namespace on the same element; markup in front of the text
    of a documentation element. These do change the outcome, see below. *)
Theorem C32_ignored_partial : forall (L : Libs) fuel f f' d d' path, dressed_files True f f' -> dressed_doc True d d' ->
  outcome (schema_parse fuel f' (Some d') path) = outcome (schema_parse fuel f (Some d) path).
Proof. exact @foreign_ignored. Qed.
Print Assumptions C32_ignored_partial.
(** If the positions of what is kept are related (in the file [p] by [At p]), so are the positions
    of the errors: an error is reported at the same element or attribute, wherever it stands
    now. *)
Theorem C32_moved_partial : forall (L : Libs) At fuel f f' d d' path, moved_files At True f f' -> moved_doc (At path) True d d' ->
  moved At (schema_parse fuel f (Some d) path) (schema_parse fuel f' (Some d') path).
Proof. exact @foreign_moved. Qed.
Print Assumptions C32_moved_partial.
(** The schema element may declare further prefixes: what was accepted is
    accepted with the same result. *)
Theorem C32_accepted_partial : forall (L : Libs) fuel f f' d d' path s, dressed_files False f f' -> dressed_doc False d d' ->
  schema_parse fuel f (Some d) path = Ok s -> schema_parse fuel f' (Some d') path = Ok s.
Proof. exact @foreign_accepted. Qed.
Print Assumptions C32_accepted_partial.

(** ** Examples *)
Definition foreign_ns := "urn:x".
Definition xat (n v : string) : attr := mkAttr n (Some foreign_ns) v (7%N, 9%N).
Definition xel (t : string) : xelem := XE t (Some foreign_ns) [at_ "name" "z"] [] r0 [KText "text"].
(** A global element with documentation and a sequence of two. *)
Definition fx_doc (ats : list attr) (pre : list (kid xelem)) : xelem :=
  XE "schema" (Some NS_XSD) (at_ "targetNamespace" "urn:t" :: ats) [(Some "xs", NS_XSD); (Some "x", foreign_ns)] r0
    (pre ++ [KElem (XE "element" (Some NS_XSD) (at_ "name" "root" :: ats) [] r0
      (pre ++ [KElem (XE "annotation" (Some NS_XSD) ats [] r0 (pre ++ [KElem (XE "documentation" (Some NS_XSD) [] [] r0 (KText "about" :: pre))]));
               KElem (XE "complexType" (Some NS_XSD) ats [] r0
                 [KElem (XE "sequence" (Some NS_XSD) ats [] r0
                   (pre ++ [KElem (xtyped "a" "xs:int")] ++ pre ++ [KElem (xtyped "b" "xs:string")]))])]))]).
Ltac dress := repeat first
  [ match goal with |- same_attr _ _ => repeat split end
  | match goal with |- _ -> _ => let E := fresh in intros E; first [discriminate E|reflexivity] end
  | match goal with |- ~ In _ _ => simpl; intuition discriminate end
  | match goal with |- at_ns _ <> None => discriminate end
  | match goal with |- forall e, _ = KElem e -> _ => let H := fresh in intros ? H; try discriminate H; injection H as <-; discriminate end
  | match goal with |- moved_attr anywhere _ _ => split; [repeat split|exact I] end
  | match goal with |- anywhere _ _ => exact I end
  | match goal with |- dressed anywhere (xtyped _ _) _ => apply dressed_refl; intros ?; exact I end
  | match goal with |- dressed _ _ _ => apply dr_elem end
  | match goal with |- dressed_kids _ (KElem (XE ?t (Some NS_XSD) _ _ _ _) :: _) (KElem (XE ?t (Some NS_XSD) _ _ _ _) :: _) => apply dk_elem end
  | match goal with |- dressed_kids _ (KElem ?e :: _) (KElem ?e :: _) => apply dk_elem end
  | match goal with |- dressed_kids _ (KText ?e :: _) (KText ?e :: _) => apply dk_text end
  | match goal with |- dressed_kids _ [] [] => apply dk_nil end
  | match goal with |- dressed_kids _ _ (_ :: _) => apply dk_add end
  | match goal with |- more_attrs _ _ (?a :: _) (?a :: _) => apply ma_keep end
  | match goal with |- more_attrs _ _ [] [] => apply ma_nil end
  | match goal with |- more_attrs _ _ _ (_ :: _) => apply ma_add end ].
(** Foreign attributes and foreign elements, comments and texts all over, with
    the same result. *)
Example C32_example : let d := fx_doc [] [] in let d' := fx_doc [xat "note" "xs:date"; xat "id" "1"] [KElem (xel "appinfo"); KOther "comment"; KText " "] in
  dressed_doc True d d' /\ d <> d' /\ (exists s, schema_parse 40 no_files (Some d') "m.xsd" = Ok s /\ schema_parse 40 no_files (Some d) "m.xsd" = Ok s
    /\ exists e, sc_get (s_context s) (mkName "root" (NsId 1)) = Some (RootElement e) /\ ed_docs e = Some "about").
Proof.
  cbv zeta. split; [|split; [discriminate|]].
  - split; [cbv [fx_doc app]; dress|]. split; [|reflexivity]. unfold more_prefixes. simpl.
    split; [repeat constructor; simpl; intuition discriminate|]. split; [repeat constructor; simpl; intuition discriminate|].
    split; [tauto|]. intros uri. tauto.
  - eexists. split; [by_compute|]. split; [by_compute|]. eexists. split; by_compute.
Qed.
(** The other way round: without the foreign markup an error, with it the same error. *)
Example C32_example_error : forall pre, (forall e, In (KElem e) pre -> xe_ns e = Some foreign_ns) ->
  outcome (schema_parse 40 no_files (Some (xschema [] [XE "element" (Some NS_XSD) [xat "id" "1"] [] (3%N, 5%N) pre])) "m.xsd")
  = Err (SeXsd (XeNode (NeMissingAttribute "name" "element" no_range)) "m.xsd").
Proof. intros pre _. by_compute. Qed.

(** Two elements without a name, behind 100 bytes of foreign markup: the error is at the first one. *)
Definition nameless (at1 at2 : range) (pre : list xelem) : xelem :=
  xschema [] (pre ++ [XE "element" (Some NS_XSD) [] [] at1 []; XE "element" (Some NS_XSD) [] [] at2 []]).
Definition shifted (r r' : range) : Prop := r' = r \/ r' = ((fst r + 100)%N, (snd r + 100)%N).
Example C32_moved_example : let d := nameless (3, 5)%N (5, 7)%N [] in let d' := nameless (103, 105)%N (105, 107)%N [xel "appinfo"] in
  moved_doc shifted True d d'
  /\ schema_parse 40 no_files (Some d) "m.xsd" = Err (SeXsd (XeNode (NeMissingAttribute "name" "element" (3, 5)%N)) "m.xsd")
  /\ schema_parse 40 no_files (Some d') "m.xsd" = Err (SeXsd (XeNode (NeMissingAttribute "name" "element" (103, 105)%N)) "m.xsd").
Proof.
  cbv zeta. split; [|split; by_compute]. split; [|split; [|reflexivity]].
  - apply dr_elem; [constructor|discriminate|now left|]. apply dk_add; [intros e [= <-]; discriminate|].
    apply dk_elem; [apply dr_elem; [constructor|discriminate|now right|constructor]|]. apply dk_elem; [apply dr_elem; [constructor|discriminate|now right|constructor]|]. constructor.
  - unfold more_prefixes. simpl. split; [repeat constructor; simpl; intuition discriminate|]. split; [repeat constructor; simpl; intuition discriminate|]. split; [tauto|]. intros uri. tauto.
Qed.

(** ** What is not ignored *)
Ltac foreign := repeat first
  [ match goal with |- same_attr _ _ => repeat split end
  | match goal with |- _ <> _ => discriminate end
  | match goal with |- foreign_added _ _ => apply fo_elem end
  | match goal with |- foreign_kids (KElem (XE ?t (Some NS_XSD) _ _ _ _) :: _) (KElem (XE ?t (Some NS_XSD) _ _ _ _) :: _) => apply fk_elem end
  | match goal with |- foreign_kids (KText ?e :: _) (KText ?e :: _) => apply fk_keep end
  | match goal with |- foreign_kids [] [] => apply fk_nil end
  | match goal with |- foreign_kids _ (_ :: _) => apply (fk_add _ foreign_ns); [reflexivity| |] end
  | match goal with |- foreign_attrs (?a :: _) (?a :: _) => apply fa_keep end
  | match goal with |- foreign_attrs [] [] => apply fa_nil end
  | match goal with |- foreign_attrs _ (_ :: _) => apply (fa_add _ _ _ foreign_ns); [reflexivity|] end ].
(** A foreign attribute [x:type] is taken for the type: the element becomes
    another one without any error (node.rs keys attributes by local name). *)
Theorem C32_attribute_refuted : exists d d' s s' l l', foreign_added d d'
  /\ schema_parse 40 no_files (Some d) "m.xsd" = Ok s /\ schema_parse 40 no_files (Some d') "m.xsd" = Ok s'
  /\ sc_get (s_context s) (mkName "a" NsNone) = Some (RootLeaf l) /\ ld_content l = LcLiteral LInt32
  /\ sc_get (s_context s') (mkName "a" NsNone) = Some (RootLeaf l') /\ ld_content l' = LcLiteral LString.
Proof.
  exists (xschema [] [XE "element" (Some NS_XSD) [at_ "name" "a"; at_ "type" "xs:int"] [] r0 []]),
    (xschema [] [XE "element" (Some NS_XSD) [at_ "name" "a"; at_ "type" "xs:int"; xat "type" "xs:string"] [] r0 []]).
  do 4 eexists. split; [unfold xschema; simpl map; foreign|]. split; [by_compute|]. split; [by_compute|]. split; [by_compute|].
  split; [by_compute|]. split; by_compute.
Qed.
Print Assumptions C32_attribute_refuted.
(** A foreign attribute hides an attribute that is not understood: a rejected
    schema is accepted. *)
Theorem C32_hidden_refuted : exists d d' s, foreign_added d d'
  /\ outcome (schema_parse 40 no_files (Some d) "m.xsd") = Err (SeXsd (XeNode (NeUnsupportedAttribute "abstract" "element" no_range)) "m.xsd")
  /\ schema_parse 40 no_files (Some d') "m.xsd" = Ok s.
Proof.
  exists (xschema [] [XE "element" (Some NS_XSD) [at_ "name" "a"; at_ "type" "xs:int"; at_ "abstract" "true"] [] r0 []]),
    (xschema [] [XE "element" (Some NS_XSD) [at_ "name" "a"; at_ "type" "xs:int"; at_ "abstract" "true"; xat "abstract" "?"] [] r0 []]).
  eexists. split; [unfold xschema; simpl map; foreign|]. split; by_compute.
Qed.
Print Assumptions C32_hidden_refuted.
(** Markup in front of the text of a documentation element makes an accepted
    schema rejected. *)
Definition documented (ks : list (kid xelem)) : xelem := xschema []
  [XE "element" (Some NS_XSD) [at_ "name" "a"; at_ "type" "xs:int"] [] r0
     [KElem (XE "annotation" (Some NS_XSD) [] [] r0 [KElem (XE "documentation" (Some NS_XSD) [] [] r0 ks)])]].
Theorem C32_documentation_refuted : exists d d' s, foreign_added d d'
  /\ schema_parse 40 no_files (Some d) "m.xsd" = Ok s
  /\ outcome (schema_parse 40 no_files (Some d') "m.xsd") = Err (SeXsd (XeNode (NeTextExpected "documentation" no_range)) "m.xsd").
Proof.
  exists (documented [KText "about a"]), (documented [KElem (xel "b"); KText "about a"]). eexists.
  split; [unfold documented, xschema; simpl map; foreign|]. split; by_compute.
Qed.
Print Assumptions C32_documentation_refuted.
