(** * PropEmit: the text of the generated declarations (C61), documentation (C62) *)
From Verif Require Import Base Libs Xml Ast XsdNode Parse Decode Writer Gen Run Harness ParseSpec DeclSpec RustSpec SchemaSpec RustCheck
  Emit EmitSpec EmitProof DocProof Samples PropDecode PropDecl PropRust.

(** C61. What is emitted for an accepted module reads, by the grammar of Rust, as the
    declarations of the model, with the documentation of the AST as doc comments. *)
Theorem C61_declarations : forall (L : Libs) gfuel c gs p,
  mapM (generate_element gfuel c) gs = Ok p -> decls_ok p ->
  Forall (fun t => ~ In (ti_id t) primitive_names) p ->
  Forall2 (fun n t => exists r, sc_get c n = Some r /\ reads_as (item_tokens r t) r t) gs p.
Proof.
  intros L gfuel c gs p G D P. pose proof (module_reads _ _ _ _ G D P) as F. clear G D P.
  induction F as [|n t gs p (r & S & R & _) _ IH]; constructor; eauto.
Qed.
Print Assumptions C61_declarations.
(** The reading is unique: [type_item_of] is a function, and the types denoted are unique. *)
Theorem C61_denotes_unique : forall t u v, denotes t u -> denotes t v -> u = v.
Proof.
  intros t u v H. revert v. induction H; intros v K; inversion K; subst; try reflexivity;
    try (exfalso; match goal with N : ~ In _ _ |- _ => apply N; simpl; tauto end);
    f_equal; auto.
Qed.
Print Assumptions C61_denotes_unique.

Definition doc (s : string) : xelem := xs "annotation" [] [XE "documentation" (Some NS_XSD) [] [] r0 [KText s]].
Definition ex_docs : xelem := xschema [at_ "targetNamespace" "urn:t"]
  [xtyped "other" "xs:string";
   xs "simpleType" [at_ "name" "code"] [doc "a  code"; xs "restriction" [at_ "base" "xs:decimal"] []];
   xs "complexType" [at_ "name" "thing"]
     [doc "any thing";
      xsequence [xelement [at_ "name" "part"; at_ "type" "xs:string"; at_ "minOccurs" "0"; at_ "maxOccurs" "9"] [doc "its parts"];
                 xtyped "code" "t:code"; xelement [at_ "ref" "t:other"] [doc "lost"]];
      xs "attribute" [at_ "name" "old"; at_ "type" "xs:string"; at_ "use" "prohibited"] [doc "gone"];
      xs "attribute" [at_ "name" "id"; at_ "type" "xs:string"; at_ "use" "required"] [doc "a key"]];
   xs "element" [at_ "name" "state"]
     [doc "lost"; xs "simpleType" [] [xs "restriction" [at_ "base" "xs:string"] [xs "enumeration" [at_ "value" "on"] [doc "lost"]]]];
   xs "complexType" [at_ "name" "either"]
     [xs "choice" [] [xelement [at_ "name" "a"; at_ "type" "xs:int"] [doc "lost"]; xtyped "b" "xs:boolean"]];
   xs "complexType" [at_ "name" "twice"]
     [xs "annotation" [] [XE "documentation" (Some NS_XSD) [] [] r0 [KText "first"]; XE "documentation" (Some NS_XSD) [] [] r0 [KText "second"]]]].
(** The items that the emitted tokens of a schema read as. *)
Definition items_of {L : Libs} (d : xelem) : list (option type_item) :=
  map (fun x => match sc_get (ctx_of d) (fst x) with Some r => type_item_of (item_tokens r (snd x)) | None => None end)
    (combine (Samples.names_of d) (module_of d)).
Definition std : list string := ["Debug"; "Clone"; "PartialEq"].
Example C61_example :
  @items_of ascii_libs ex_docs = map Some
    [mkTypeItem [] std true "Other" (ShTuple [(true, TyPath ["String"] [])]);
     mkTypeItem ["a code"] std true "Code" (ShTuple [(true, TyPath ["rust_decimal"; "Decimal"] [])]);
     mkTypeItem ["any thing"] std true "Thing" (ShStruct
       [mkField ["its parts"] true "part" (TyPath ["Option"] [TyPath ["Vec"] [TyPath ["String"] []]]);
        mkField [] true "code" (TyPath ["rust_decimal"; "Decimal"] []);
        mkField [] true "other" (TyPath ["String"] []);
        mkField ["a key"] true "id" (TyPath ["String"] [])]);
     mkTypeItem [] std true "State" (ShEnum [mkVariant [] "On" []]);
     mkTypeItem [] std true "EitherData" (ShEnum [mkVariant [] "A" [TyPath ["i32"] []]; mkVariant [] "B" [TyPath ["bool"] []]]);
     mkTypeItem [] std true "Either" (ShStruct [mkField [] true "either_data" (TyPath ["EitherData"] [])]);
     mkTypeItem ["first"] std true "Twice" (ShStruct [])].
Proof. by_compute. Qed.
(** The hypotheses hold for it. *)
Example C61_example_ok : mapM (@generate_element ascii_libs 40 (@ctx_of ascii_libs ex_docs)) (@Samples.names_of ascii_libs ex_docs) = Ok (@module_of ascii_libs ex_docs)
  /\ decls_ok (@module_of ascii_libs ex_docs)
  /\ Forall (fun t => ~ In (ti_id t) primitive_names) (@module_of ascii_libs ex_docs).
Proof.
  split; [by_compute|]. split.
  - assert (H : rust_ok (@module_of ascii_libs ex_docs)) by (apply rust_accepts; by_compute). apply H.
  - apply Forall_forall. intros t Ht.
    assert (I : In (ti_id t) ["Other"; "Code"; "Thing"; "State"; "EitherData"; "Either"; "Twice"]).
    { assert (E : map ti_id (@module_of ascii_libs ex_docs) = ["Other"; "Code"; "Thing"; "State"; "EitherData"; "Either"; "Twice"]) by by_compute.
      rewrite <- E. exact (in_map ti_id _ _ Ht). }
    clear Ht. simpl in I. intros J. simpl in J. intuition congruence.
Qed.
(** A keyword as the name of a field does not read as a declaration. *)
Example C61_keyword : type_item_of [Id "pub"; Id "struct"; Id "A"; Gr "{" [Id "pub"; Id "type"; Pu ":"; Id "u64"; Pu ","]] = None
  /\ type_item_of [Id "pub"; Id "struct"; Id "A"; Gr "{" [Id "pub"; Id "a"; Pu ":"; Id "u64"; Id "pub"; Id "b"; Pu ":"; Id "u64"]] = None
  /\ type_item_of [Id "pub"; Id "struct"; Id "A"; Gr "(" [Id "pub"; Id "u64"]] = None.
Proof. repeat split. Qed.

(** C62. The documentation of a declaration is the doc comment of the type generated from
    it, unless that is an enumeration. *)
Theorem C62_type_partial : forall (L : Libs) gfuel c gs p d nss v made seen x n r s,
  mapM (generate_element gfuel c) gs = Ok p -> decls_ok p -> Forall (fun t => ~ In (ti_id t) primitive_names) p ->
  In n gs -> sc_get c n = Some r -> declared d nss v made seen x n r -> (forall ns, r <> RootEnum ns) ->
  documented x s ->
  exists t item, In t p /\ type_item_of (item_tokens r t) = Some item /\ yi_name item = ti_id t /\ yi_docs item = [s].
Proof.
  intros L gfuel c gs p d nss v made seen x n r s G D P I S Dc NE Ds.
  pose proof (module_reads _ _ _ _ G D P) as F. clear - F I S Dc NE Ds.
  induction F as [|n' t gs p (r' & S' & (sh & R & _) & _) _ IH]; [contradiction|]. destruct I as [->|I].
  - rewrite S in S'. injection S' as <-. exists t. eexists. split; [now left|]. split; [exact R|]. split; [reflexivity|].
    cbn [yi_docs]. eapply declared_docs; [exact Dc| |exact Ds]. intros [ns E]. now apply (NE ns).
  - destruct (IH I) as (t' & item & It & R'). exists t', item. split; [now right|exact R'].
Qed.
Print Assumptions C62_type_partial.
(** No documentation, no doc comment. *)
Theorem C62_undocumented : forall (L : Libs) d nss v made seen x n r, declared d nss v made seen x n r -> undocumented x ->
  (forall y, In y (xsd_children x) -> In (xe_tag y) ["complexType"; "simpleType"] -> undocumented y) -> type_docs r = [].
Proof. exact @declared_undocumented. Qed.
Print Assumptions C62_undocumented.
(** For a complex type with a sequence (or all) without bounds: the doc comment of a field
    is the documentation of its element, if that is declared there, or of its attribute. *)
Theorem C62_fields_partial : forall (L : Libs) gfuel c gs p d nss v made seen x n r l g q,
  mapM (generate_element gfuel c) gs = Ok p -> decls_ok p -> Forall (fun t => ~ In (ti_id t) primitive_names) p ->
  In n gs -> sc_get c n = Some r -> complex_type d nss v made seen x n r ->
  xsd_children x = l ++ g :: q -> Forall (fun y => In (xe_tag y) ["annotation"; "attribute"]) (l ++ q) ->
  In (xe_tag g) ["sequence"; "all"] -> no_attr g "minOccurs" -> no_attr g "maxOccurs" ->
  exists t item fs ds os, In t p /\ type_item_of (item_tokens r t) = Some item /\ yi_name item = ti_id t
    /\ yi_shape item = ShStruct fs /\ map fd_docs fs = ds ++ somes os
    /\ Forall2 (fun y ds => own_element y -> explains y ds) (particles g) ds
    /\ Forall2 (fun y o => match o with Some ds => explains y ds | None => prohibited y end)
         (filter (fun y => xe_tag y =?s "attribute") (l ++ q)) os.
Proof.
  intros L gfuel c gs p d nss v made seen x n r l g q G D P I S Dc E F T Nmin Nmax.
  destruct (fields_explained d nss v made seen x n r l g q Dc E F T Nmin Nmax) as (ds & os & Ef & Fd & Fo).
  pose proof (module_reads _ _ _ _ G D P) as R. clear - R I S Dc Ef Fd Fo.
  induction R as [|n' t gs p (r' & S' & (sh & R & Dl) & M) _ IH]; [contradiction|]. destruct I as [->|I].
  - rewrite S in S'. injection S' as <-.
    assert (Sh : exists fs, sh = ShStruct fs /\ map fd_docs fs = fields_docs r).
    { assert (Er : exists e, r = RootElement e) by (inversion Dc; eexists; reflexivity).
      destruct Er as [e ->]. destruct (ti_decl t) as [|?|?|?]; try contradiction. inversion Dl; subst. eexists. split; reflexivity || assumption. }
    destruct Sh as (fs & -> & Ed).
    exists t. eexists. exists fs, ds, os. split; [now left|]. split; [exact R|]. repeat split; try assumption. now rewrite Ed.
  - destruct (IH I) as (t' & item & fs & ds' & os' & It & R'). exists t', item, fs, ds', os'. split; [now right|exact R'].
Qed.
Print Assumptions C62_fields_partial.

(** The hypotheses hold for the types "thing" and "twice" above. *)
Example C62_example : exists x t, In x (xsd_children ex_docs) /\ xe_tag x = "complexType"
  /\ documented x "any thing" /\ In t (@module_of ascii_libs ex_docs) /\ ti_id t = "Thing"
  /\ exists l g q, xsd_children x = l ++ g :: q /\ Forall (fun y => In (xe_tag y) ["annotation"; "attribute"]) (l ++ q)
     /\ In (xe_tag g) ["sequence"; "all"] /\ no_attr g "minOccurs" /\ no_attr g "maxOccurs"
     /\ exists y, In y (particles g) /\ own_element y /\ documented y "its parts".
Proof.
  eexists (nth 2 (xsd_children ex_docs) ex_docs), (nth 2 (@module_of ascii_libs ex_docs) (mkTitem "" (DEnum []) "" [] TwEnum "" None BrEnum LkTrue)).
  split; [right; right; left; reflexivity|]. split; [reflexivity|]. split.
  { eexists _, _, [], _, [], []. split; [by_compute|]. split; [by_compute|]. split; [repeat constructor; discriminate|].
    split; [by_compute|]. split; [by_compute|]. split; [constructor|]. split; [|discriminate]. eexists _, []. split; by_compute. }
  split; [apply nth_In; assert (E : length (@module_of ascii_libs ex_docs) = 7) by by_compute; rewrite E; lia|]. split; [by_compute|].
  eexists [_], _, _. split; [by_compute|]. split; [repeat (apply Forall_cons; [simpl; auto|]); apply Forall_nil|]. split; [now left|].
  split; [intros a []|]. split; [intros a []|].
  eexists. split; [left; reflexivity|]. split.
  { split; [reflexivity|]. intros a Ha E. simpl in Ha. intuition (subst; discriminate). }
  eexists _, _, [], [], [], []. split; [by_compute|]. split; [by_compute|]. split; [constructor|].
  split; [by_compute|]. split; [by_compute|]. split; [constructor|]. split; [|discriminate]. eexists _, []. split; by_compute.
Qed.

(** Documentation that is lost: the module mentions it nowhere. *)
Definition lost {L : Libs} (d x : xelem) (s : string) : Prop :=
  prefixes_once d /\ (exists s0, parse_doc d = Ok s0) /\ gen_doc d = Ok (module_of d) /\ rust_ok (module_of d)
  /\ reached d x /\ documents x s /\ s <> ""
  /\ ~ written_into (ctx_of d) (Samples.names_of d) (module_of d) s.
Definition strings_of {L : Libs} (d : xelem) : list string :=
  flat_map (fun x => match sc_get (ctx_of d) (fst x) with Some r => flat_map literals (item_tokens r (snd x)) | None => [] end)
    (combine (Samples.names_of d) (module_of d)).
Lemma lost_from {L : Libs} d x s : prefixes_once d -> (exists s0, parse_doc d = Ok s0) -> gen_doc d = Ok (module_of d) ->
  rust_ok (module_of d) -> reached d x -> documents x s -> s <> "" -> existsb (String.eqb s) (strings_of d) = false -> lost d x s.
Proof.
  intros H1 H2 H3 H4 H5 H6 H7 H8. repeat split; try assumption; try apply H4. intros (n & r & t & I & S & J).
  assert (existsb (String.eqb s) (strings_of d) = true); [|congruence]. apply existsb_exists. exists s. split; [|apply String.eqb_refl].
  unfold strings_of. apply in_flat_map. exists (n, t). split; [exact I|]. cbn [fst snd]. now rewrite S.
Qed.
Ltac documents_this := eexists _, _; split; [left; reflexivity|]; split; [reflexivity|]; split; [left; reflexivity|]; split; [reflexivity|]; eexists _, []; split; by_compute.
Ltac lost_by := apply lost_from; [apply xschema_once|eexists; by_compute|by_compute|apply rust_accepts; by_compute| | |discriminate|by_compute].

(** Of an enumeration, *)
Theorem C62_enumeration_refuted : exists L d x s, @lost L d x s /\ xe_tag x = "simpleType" /\ documented x s.
Proof.
  exists ascii_libs.
  eexists (xschema [] [xs "simpleType" [at_ "name" "state"] [doc "on or off"; xs "restriction" [at_ "base" "xs:string"] [xs "enumeration" [at_ "value" "on"] []]]]).
  eexists (xs "simpleType" _ [doc "on or off"; _]), "on or off".
  split; [|split; [reflexivity|]].
  - lost_by; [|documents_this]. apply re_top; [now left|]. intros [H|H]; discriminate.
  - eexists _, _, [], _, [], []. split; [reflexivity|]. split; [reflexivity|]. split; [repeat constructor; discriminate|].
    split; [reflexivity|]. split; [reflexivity|]. split; [constructor|]. split; [|discriminate]. eexists _, []. split; by_compute.
Qed.
Print Assumptions C62_enumeration_refuted.
(** of an alternative of a choice, *)
Theorem C62_choice_refuted : exists L d x s, @lost L d x s /\ own_element x /\ documented x s.
Proof.
  exists ascii_libs.
  eexists (xschema [] [xs "complexType" [at_ "name" "either"] [xs "choice" [] [xelement [at_ "name" "a"; at_ "type" "xs:int"] [doc "the first"]; xtyped "b" "xs:boolean"]]]).
  eexists (xelement [at_ "name" "a"; at_ "type" "xs:int"] [doc "the first"]), "the first".
  split; [|split; [split; [reflexivity|]|]].
  - lost_by; [|documents_this]. eapply re_down; [eapply re_down; [apply re_top; [now left|intros [H|H]; discriminate]|now left|]|now left|].
    + right; left. split; [simpl; auto|discriminate].
    + right; left. split; [simpl; auto|discriminate].
  - intros a Ha E. simpl in Ha. intuition (subst; discriminate).
  - eexists _, _, [], _, [], []. split; [reflexivity|]. split; [reflexivity|]. split; [repeat constructor; discriminate|].
    split; [reflexivity|]. split; [reflexivity|]. split; [constructor|]. split; [|discriminate]. eexists _, []. split; by_compute.
Qed.
Print Assumptions C62_choice_refuted.
(** of a reference, *)
Theorem C62_reference_refuted : exists L d x s, @lost L d x s /\ xe_tag x = "element" /\ ~ no_attr x "ref" /\ documented x s.
Proof.
  exists ascii_libs.
  eexists (xschema [at_ "targetNamespace" "urn:t"] [xtyped "a" "xs:int"; xs "complexType" [at_ "name" "b"] [xsequence [xelement [at_ "ref" "t:a"] [doc "the a"]]]]).
  eexists (xelement [at_ "ref" "t:a"] [doc "the a"]), "the a".
  split; [|split; [reflexivity|split]].
  - lost_by; [|documents_this]. eapply re_down; [eapply re_down; [apply re_top; [right; now left|intros [H|H]; discriminate]|now left|]|now left|].
    + right; left. split; [simpl; auto|discriminate].
    + right; left. split; [simpl; auto|discriminate].
  - intros N. apply (N (at_ "ref" "t:a")); [now left|reflexivity].
  - eexists _, _, [], _, [], []. split; [reflexivity|]. split; [reflexivity|]. split; [repeat constructor; discriminate|].
    split; [reflexivity|]. split; [reflexivity|]. split; [constructor|]. split; [|discriminate]. eexists _, []. split; by_compute.
Qed.
Print Assumptions C62_reference_refuted.
(** and everything after the first documentation element of an annotation. *)
Theorem C62_second_refuted : exists L d x s, @lost L d x s /\ xe_tag x = "complexType".
Proof.
  exists ascii_libs.
  eexists (xschema [] [xs "complexType" [at_ "name" "t"] [xs "annotation" []
    [XE "documentation" (Some NS_XSD) [] [] r0 [KText "first"]; XE "documentation" (Some NS_XSD) [] [] r0 [KText "second"]]]]).
  eexists (xs "complexType" [at_ "name" "t"] _), "second". split; [|reflexivity].
  lost_by.
  - apply re_top; [now left|]. intros [H|H]; discriminate.
  - eexists _, _. split; [left; reflexivity|]. split; [reflexivity|]. split; [right; left; reflexivity|]. split; [reflexivity|]. eexists _, []. split; by_compute.
Qed.
Print Assumptions C62_second_refuted.
