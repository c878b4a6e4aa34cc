(** * C31, C34, C36, C37: what declarations are read as *)
From Verif Require Import Base Libs Xml Ast XsdNode Parse MiscSpec MiscProof ParseSpec DeclSpec DeclProof1 DeclProof2 DeclProof3 DeclMain DeclCheck DeclCor
  Harness Samples PropDecode PropParse.

(** ** C34: type names *)
(** What a value means is determined by the namespace declarations of the schema
    element. *)
Theorem C34_meaning : forall d v, prefixes_once d ->
  exists m, means d v m /\ forall m', means d v m' -> m' = m.
Proof.
  intros d v PO. destruct (means_total d v) as [m M]. exists m. split; [exact M|]. intros m' M'. exact (means_det d v m' m PO M' M).
Qed.
Print Assumptions C34_meaning.
(** In every context that occurs while a document is read, type, ref and base
    resolve to that meaning. *)
Theorem C34_resolves : forall d c a m, prefixes_once d -> reading d c -> means d (at_value a) m ->
  match m with
  | MBuiltin lit => get_type_name a c = Ok (LcLiteral lit, c)
  | MUnsupported l => get_type_name a c = Err (XeUnsupportedType l (at_range a))
  | MName uri l => exists ns c', get_type_name a c = Ok (LcNamed (mkName l ns), c')
                     /\ ns_uri (sh_namespaces (cx_shared c')) ns uri
  | MBare l => get_type_name a c = Ok (LcNamed (mkName l NsNone), c)
  | MUnbound p => get_type_name a c = Err (XeMissingNamespace p (at_range a))
  end.
Proof. exact @resolves. Qed.
Print Assumptions C34_resolves.

Definition ex_prefixes : xelem :=
  XE "schema" (Some NS_XSD) [] [(Some "xs", NS_XSD); (Some "o", "urn:other"); (None, "urn:default")] r0 [].
Definition ex_ctx : ctx := ctx_new ex_prefixes None shared_default.
Example C34_example_reading : prefixes_once ex_prefixes /\ reading ex_prefixes ex_ctx.
Proof.
  split.
  - repeat constructor; simpl; intuition discriminate.
  - exists shared_default, [], shared_default. split; [exact ns_wf_default|]. split; [exact ns_wf_default|reflexivity].
Qed.
Example C34_example_builtin : means ex_prefixes "xs:date" (MBuiltin LDate)
  /\ get_type_name (at_ "type" "xs:date") ex_ctx = Ok (LcLiteral LDate, ex_ctx).
Proof.
  assert (M : means ex_prefixes "xs:date" (MBuiltin LDate)).
  { apply (mn_builtin _ _ "xs" "date"); [split; [reflexivity|intros [H|[H|[]]]; discriminate]|now left|simpl; auto 20]. }
  split; [exact M|]. destruct C34_example_reading as [PO Rd].
  exact (C34_resolves _ _ (at_ "type" "xs:date") _ PO Rd M).
Qed.
Example C34_example_other : exists ns c', get_type_name (at_ "type" "o:thing") ex_ctx = Ok (LcNamed (mkName "thing" ns), c')
  /\ ns_uri (sh_namespaces (cx_shared c')) ns "urn:other".
Proof.
  assert (M : means ex_prefixes "o:thing" (MName "urn:other" "thing")).
  { apply (mn_name _ _ "o"); [split; [reflexivity|intros [H|[]]; discriminate]|right; now left|discriminate]. }
  destruct C34_example_reading as [PO Rd]. exact (C34_resolves _ _ (at_ "type" "o:thing") _ PO Rd M).
Qed.
Example C34_example_errors :
  get_type_name (at_ "type" "zz:thing") ex_ctx = Err (XeMissingNamespace "zz" r0)
  /\ get_type_name (at_ "type" "xs:QName") ex_ctx = Err (XeUnsupportedType "QName" r0).
Proof. split; by_compute. Qed.

(** ** C36: sequences and choices *)
Theorem C36_sequence : forall (L : Libs) fuel d x seen p c ls c', prefixes_once d -> reading d c ->
  sequence_parse fuel (mkNode x seen) p c = Ok (ls, c') -> Forall2 kept (particles x) ls.
Proof. exact @sequence_parse_kept. Qed.
Print Assumptions C36_sequence.
Theorem C36_choice : forall (L : Libs) fuel d x seen p c ls c', prefixes_once d -> reading d c ->
  choice_parse fuel (mkNode x seen) p c = Ok (ls, c') -> Forall2 kept (particles x) ls.
Proof. exact @choice_parse_kept. Qed.
Print Assumptions C36_choice.

Definition ex_sequence : xelem := xsequence
  [xs "annotation" [] []; xtyped "b" "xs:string"; xelement [at_ "ref" "o:c"; at_ "maxOccurs" "unbounded"] [];
   xs "choice" [at_ "minOccurs" "0"; at_ "maxOccurs" "3"] [xtyped "d" "xs:int"; xtyped "e" "xs:int"]].
Example C36_example : exists ls c', sequence_parse 10 (mkNode ex_sequence []) (mkName "p" NsNone) ex_ctx = Ok (ls, c')
  /\ Forall2 kept (particles ex_sequence) ls
  /\ map (fun l => (nm (lf_name l), lf_min l, lf_max l)) ls
     = [("b", 1%N, MaxNumber 1); ("c", 1%N, MaxUnbounded); ("DE", 0%N, MaxNumber 3)].
Proof.
  destruct (sequence_parse 10 (mkNode ex_sequence []) (mkName "p" NsNone) ex_ctx) as [[ls c']|e|w|] eqn:E;
    [|vm_compute in E; discriminate|vm_compute in E; discriminate|vm_compute in E; discriminate].
  exists ls, c'. split; [reflexivity|]. split.
  - destruct C34_example_reading as [PO Rd]. exact (C36_sequence _ _ _ _ _ _ _ _ _ PO Rd E).
  - vm_compute in E. injection E as <- _. reflexivity.
Qed.

(** ** C37: declarations and types *)
(** The types of a parsed schema are exactly the definitions of its log: the
    declarations in order with the types made up inside them, and the types of
    included files, where a later definition replaces an earlier one of the same
    name. *)
Theorem C37_definitions : forall (L : Libs) fuel f d path s, files_bind_once f -> prefixes_once d ->
  schema_parse fuel f (Some d) path = Ok s ->
  exists log, defines f (sc_namespaces (s_context s)) path d log /\ listing log (sc_elements (s_context s)).
Proof. exact @parse_log. Qed.
Print Assumptions C37_definitions.
(** Every declaration leaves a type of its name. *)
Theorem C37_named : forall (L : Libs) fuel f d path s x, files_bind_once f -> prefixes_once d ->
  schema_parse fuel f (Some d) path = Ok s -> In x (xsd_children d) -> ~ is_load x ->
  exists a n r, the_attr x "name" a /\ nm n = at_value a /\ target_of d (sc_namespaces (s_context s)) (nm_ns n)
    /\ sc_get (s_context s) n = Some r.
Proof. exact @declaration_typed. Qed.
Print Assumptions C37_named.
(** It is the one generated from this declaration if no later declaration has the
    same name, nothing is included later, and made-up names cannot collide because
    they are in no namespace. *)
Theorem C37_represented_partial : forall (L : Libs) fuel f d path s l x rest a, files_bind_once f -> prefixes_once d ->
  schema_parse fuel f (Some d) path = Ok s ->
  xsd_children d = l ++ x :: rest -> ~ is_load x -> the_attr x "name" a ->
  Forall (fun y => ~ is_load y /\ forall b, the_attr y "name" b -> at_value b <> at_value a) rest ->
  ~ qualified_form d -> ~ no_attr d "targetNamespace" ->
  exists n r made, nm n = at_value a /\ target_of d (sc_namespaces (s_context s)) (nm_ns n)
    /\ sc_get (s_context s) n = Some r
    /\ declared d (sc_namespaces (s_context s)) NsNone made ["name"] x n r.
Proof. exact @declaration_kept. Qed.
Print Assumptions C37_represented_partial.

Lemma xschema_once ats ks : prefixes_once (xschema ats ks).
Proof. repeat constructor; simpl; intuition discriminate. Qed.
Lemma no_files_once : files_bind_once no_files.
Proof. intros p d H. discriminate. Qed.
Example C37_example : exists s n r made, schema_parse 40 no_files (Some ex_nested) "m.xsd" = Ok s
  /\ nm n = "book" /\ sc_get (s_context s) n = Some r
  /\ declared ex_nested (sc_namespaces (s_context s)) NsNone made ["name"] (hd ex_nested (xsd_children ex_nested)) n r.
Proof.
  destruct (schema_parse 40 no_files (Some ex_nested) "m.xsd") as [s|e|w|] eqn:E;
    [|vm_compute in E; discriminate|vm_compute in E; discriminate|vm_compute in E; discriminate].
  destruct (C37_represented_partial ascii_libs 40 no_files ex_nested "m.xsd" s [] (hd ex_nested (xsd_children ex_nested)) []
              (at_ "name" "book") no_files_once (xschema_once _ _) E) as (n & r & made & H1 & _ & H2 & H3).
  - reflexivity.
  - intros [H|H]; discriminate.
  - exists [], []. split; [reflexivity|]. split; [reflexivity|constructor].
  - constructor.
  - intros (l & a & r & Ea & Na & _). destruct l as [|b l]; [injection Ea as <- _; discriminate|].
    destruct l; discriminate.
  - intros N. apply (N (at_ "targetNamespace" "urn:t")); [now left|reflexivity].
  - exists s, n, r, made. auto.
Qed.

(** Elements and types share one symbol space: of an element and a complex type
    of the same name only the later one is left. *)
Definition ex_clash : xelem := xschema [at_ "targetNamespace" "urn:t"]
  [xtyped "thing" "xs:string"; xs "complexType" [at_ "name" "thing"] []].
Theorem C37_symbol_spaces_refuted : forall (L : Libs), exists d s x a, prefixes_once d
  /\ schema_parse 40 no_files (Some d) "m.xsd" = Ok s /\ In x (xsd_children d) /\ ~ is_load x /\ the_attr x "name" a
  /\ forall n r nss v made, nm n = at_value a -> sc_get (s_context s) n = Some r -> ~ declared d nss v made ["name"] x n r.
Proof.
  intros L.
  assert (E : exists s, schema_parse 40 no_files (Some ex_clash) "m.xsd" = Ok s
    /\ sc_elements (s_context s) = [(mkName "thing" (NsId 1), RootElement (mkElementDef [] None false None))]).
  { eexists. split; by_compute. }
  destruct E as (s & E & El). exists ex_clash, s, (xtyped "thing" "xs:string"), (at_ "name" "thing").
  split; [apply xschema_once|]. split; [exact E|]. split; [now left|]. split; [intros [H|H]; discriminate|].
  split. { exists [], [at_ "type" "xs:string"]. split; [reflexivity|]. split; [reflexivity|]. constructor; [discriminate|constructor]. }
  intros n r nss v made Hn G D. unfold sc_get in G. rewrite El in G. simpl in G.
  destruct (name_eqb n _); [|discriminate]. injection G as <-.
  inversion D as [? ? ? ? T De|? ? ? ? T De|? ? ? ? T De]; [|discriminate|discriminate].
  inversion De as [|? ? ? ? ? ? ? ? ? ? N|? ? ? ? ? ? ? ? ? ? N]; apply (N (at_ "type" "xs:string")); [right; now left|reflexivity|right; now left|reflexivity].
Qed.
Print Assumptions C37_symbol_spaces_refuted.

(** A made-up name replaces the type the user declared under that name. *)
Definition ex_overwrite : xelem := xschema [at_ "targetNamespace" "urn:t"; at_ "elementFormDefault" "qualified"]
  [xs "simpleType" [at_ "name" "OrderItemData"] [xs "restriction" [at_ "base" "xs:string"] []];
   xs "complexType" [at_ "name" "order"] [xsequence [xelement [at_ "name" "item"] [xcomplex [xsequence [xtyped "n" "xs:int"]]]]]].
Theorem C37_overwritten_refuted : forall (L : Libs), exists d s x a, prefixes_once d
  /\ schema_parse 40 no_files (Some d) "m.xsd" = Ok s /\ In x (xsd_children d) /\ ~ is_load x /\ the_attr x "name" a
  /\ (forall y b, In y (xsd_children d) -> y <> x -> the_attr y "name" b -> at_value b <> at_value a)
  /\ forall n r nss v made, nm n = at_value a -> sc_get (s_context s) n = Some r -> ~ declared d nss v made ["name"] x n r.
Proof.
  intros L.
  assert (E : exists s r2 ls, schema_parse 40 no_files (Some ex_overwrite) "m.xsd" = Ok s
    /\ sc_elements (s_context s) = [(mkName "OrderItemData" (NsId 1), RootElement (mkElementDef [] (Some (EcLeaves ls)) false None));
                                    (mkName "order" (NsId 1), r2)]).
  { do 3 eexists. split; by_compute. }
  destruct E as (s & r2 & ls & E & El). eexists ex_overwrite, s, _, (at_ "name" "OrderItemData").
  split; [apply xschema_once|]. split; [exact E|]. split; [now left|]. split; [intros [H|H]; discriminate|].
  split. { exists [], []. split; [reflexivity|]. split; [reflexivity|constructor]. }
  split.
  { intros y b [<-|[<-|[]]] N Hb; [contradiction|]. apply attr_lookup_iff in Hb. vm_compute in Hb. injection Hb as <-. discriminate. }
  intros n r nss v made Hn G D. unfold sc_get in G. rewrite El in G. simpl in G.
  destruct (name_eqb n _) eqn:En.
  - injection G as <-. inversion D as [? ? ? ? T De|? ? ? ? T De|? ? ? ? T De]; [discriminate|discriminate|].
    inversion De as [an rest docs rs a lit fs O T1 D1 T2 A M F R]. destruct (lefts fs); discriminate.
  - destruct (name_eqb n (mkName "order" _)) eqn:E2; [|discriminate]. apply name_eqb_eq in E2. subst n. discriminate.
Qed.
Print Assumptions C37_overwritten_refuted.

(** ** C31: unsupported constructs *)
(** Whatever the generator looks into is checked: apart from the exemptions of
    [attrs_exempt] and [children_exempt] every un-namespaced attribute and every
    XSD child is one it knows; otherwise the schema is not accepted. *)
Theorem C31_checked_partial : forall (L : Libs) fuel f d path s x, files_bind_once f -> prefixes_once d ->
  schema_parse fuel f (Some d) path = Ok s -> reached d x -> checked x.
Proof. exact @checked_all. Qed.
Print Assumptions C31_checked_partial.

Lemma C31_rejects (L : Libs) fuel f d path x : files_bind_once f -> prefixes_once d ->
  reached d x -> ~ checked x -> forall s, schema_parse fuel f (Some d) path <> Ok s.
Proof. intros BO PO R N s E. exact (N (C31_checked_partial L fuel f d path s x BO PO E R)). Qed.
(** An unknown child deep inside. *)
Definition ex_unknown : xelem := xs "sequence" [] [xtyped "a" "xs:string"; xs "any" [] []].
Definition ex_rejected : xelem := xschema [at_ "targetNamespace" "urn:t"]
  [xelement [at_ "name" "top"] [xcomplex [xsequence [xs "choice" [] [ex_unknown]]]]].
Example C31_example : forall fuel s, schema_parse fuel no_files (Some ex_rejected) "m.xsd" <> Ok s.
Proof.
  intros fuel s. apply (C31_rejects ascii_libs) with (x := ex_unknown); [exact no_files_once|apply xschema_once| |].
  - eapply re_down; [eapply re_down; [eapply re_down; [eapply re_down; [eapply re_top|..]|..]|..]|..].
    1: { now left. } 1: { intros [H|H]; discriminate. } 1: { now left. }
    1: { left. split; [reflexivity|]. split; [intros a [<-|[]]; discriminate|]. split; [intros a [<-|[]]; discriminate|]. now left. }
    1: { now left. } 1: { right. left. split; [now left|discriminate]. }
    1: { now left. } 1: { right. left. split; [right; now left|discriminate]. }
    1: { now left. } right. left. split; [simpl; auto|discriminate].
  - intros (attrs & kids & I & _ & K). simpl in I.
    repeat (destruct I as [I|I]; [first [discriminate I|injection I as <- <-]|]); try contradiction.
    destruct K as [[K _]|K]; [discriminate|]. inversion K as [|? ? _ K2]. inversion K2 as [|? ? K3 _].
    simpl in K3. intuition discriminate.
Qed.

(** Without the exemptions it is false: children of an element that has a type
    are never looked at, *)
Theorem C31_typed_children_refuted : forall (L : Libs), exists d s x, prefixes_once d
  /\ schema_parse 40 no_files (Some d) "m.xsd" = Ok s /\ reached d x /\ xe_tag x = "element"
  /\ exists y, In y (xsd_children x) /\ xe_tag y = "nonsense".
Proof.
  intros L. eexists (xschema [] [xs "complexType" [at_ "name" "t"]
    [xsequence [xelement [at_ "name" "a"; at_ "type" "xs:string"] [xs "nonsense" [] []]]]]).
  eexists _, (xelement [at_ "name" "a"; at_ "type" "xs:string"] [xs "nonsense" [] []]). split; [apply xschema_once|]. split; [by_compute|]. split; [|split; [|eexists; split; [now left|reflexivity]]].
  - eapply re_down; [eapply re_down; [eapply re_top|..]|..].
    1: { now left. } 1: { intros [H|H]; discriminate. }
    1: { now left. } 1: { right. left. split; [now left|discriminate]. }
    1: { now left. } right. left. split; [right; now left|discriminate].
  - reflexivity.
Qed.
Print Assumptions C31_typed_children_refuted.
(** unknown children of an element without a type are ignored, *)
Theorem C31_untyped_children_refuted : forall (L : Libs), exists d s x, prefixes_once d
  /\ schema_parse 40 no_files (Some d) "m.xsd" = Ok s /\ reached d x /\ xe_tag x = "element" /\ no_attr x "type" /\ no_attr x "ref"
  /\ exists y, In y (xsd_children x) /\ xe_tag y = "nonsense".
Proof.
  intros L. eexists (xschema [] [xs "complexType" [at_ "name" "t"]
    [xsequence [xelement [at_ "name" "a"] [xs "nonsense" [] []]]]]).
  eexists _, (xelement [at_ "name" "a"] [xs "nonsense" [] []]). split; [apply xschema_once|]. split; [by_compute|]. split; [|split; [|split; [|split; [|eexists; split; [now left|reflexivity]]]]].
  - eapply re_down; [eapply re_down; [eapply re_top|..]|..].
    1: { now left. } 1: { intros [H|H]; discriminate. }
    1: { now left. } 1: { right. left. split; [now left|discriminate]. }
    1: { now left. } right. left. split; [right; now left|discriminate].
  - reflexivity.
  - intros a [<-|[]]; discriminate.
  - intros a [<-|[]]; discriminate.
Qed.
Print Assumptions C31_untyped_children_refuted.
(** the attributes of a prohibited attribute are not checked, *)
Theorem C31_prohibited_refuted : forall (L : Libs), exists d s x, prefixes_once d
  /\ schema_parse 40 no_files (Some d) "m.xsd" = Ok s /\ reached d x /\ xe_tag x = "attribute"
  /\ exists a, In a (xe_attrs x) /\ at_ns a = None /\ at_name a = "nonsense".
Proof.
  intros L. eexists (xschema [] [xs "complexType" [at_ "name" "t"]
    [xs "attribute" [at_ "nonsense" "1"; at_ "name" "a"; at_ "type" "xs:string"; at_ "use" "prohibited"] []]]).
  eexists _, (xs "attribute" [at_ "nonsense" "1"; at_ "name" "a"; at_ "type" "xs:string"; at_ "use" "prohibited"] []). split; [apply xschema_once|]. split; [by_compute|]. split; [|split; [|eexists; split; [now left|auto]]].
  - eapply re_down; [eapply re_top|..].
    1: { now left. } 1: { intros [H|H]; discriminate. }
    1: { now left. } right. left. split; [now left|discriminate].
  - reflexivity.
Qed.
Print Assumptions C31_prohibited_refuted.
(** and an unknown attribute is hidden by a foreign one of the same local name. *)
Theorem C31_shadowed_refuted : forall (L : Libs), exists d s x, prefixes_once d
  /\ schema_parse 40 no_files (Some d) "m.xsd" = Ok s /\ reached d x /\ xe_tag x = "complexType"
  /\ exists a, In a (xe_attrs x) /\ at_ns a = None /\ at_name a = "nonsense".
Proof.
  intros L. eexists (xschema [] [xs "complexType" [at_ "name" "t"; at_ "nonsense" "1"; mkAttr "nonsense" (Some "urn:x") "2" r0] []]).
  eexists _, (xs "complexType" [at_ "name" "t"; at_ "nonsense" "1"; mkAttr "nonsense" (Some "urn:x") "2" r0] []). split; [apply xschema_once|]. split; [by_compute|]. split; [|split; [|eexists; split; [right; now left|auto]]].
  - eapply re_top; [now left|]. intros [H|H]; discriminate.
  - reflexivity.
Qed.
Print Assumptions C31_shadowed_refuted.
