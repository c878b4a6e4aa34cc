(** * C46, C51, C52: included files and default namespaces *)
From Coq Require Import Permutation.
From Verif Require Import Base Libs Xml Ast XsdNode Parse MiscSpec MiscProof ParseSpec DeclSpec DeclCor MergeSpec MergeProof
  Harness Samples PropDecode PropParse PropDecl.

(** ** C46 *)
(** A file loaded by an include or import: what it defines is kept unless
    something after the include defines the same name. The definitions of the
    file use the namespace table of the whole schema. *)
Theorem C46_keeps : forall (L : Libs) fuel f d path s l x rest, files_bind_once f -> prefixes_once d ->
  schema_parse fuel f (Some d) path = Ok s -> xsd_children d = l ++ x :: rest -> is_load x ->
  exists a d' log t v later, the_attr x "schemaLocation" a
    /\ fs_read f (fs_push f (fs_parent f path) (at_value a)) = Some (Some d')
    /\ defines f (sc_namespaces (s_context s)) (fs_push f (fs_parent f path) (at_value a)) d' log
    /\ Forall2 (child_defines f (sc_namespaces (s_context s)) path d t v) rest later
    /\ forall n r, last_def n log r ->
         sc_get (s_context s) n = Some r \/ exists r', In (n, r') (concat later).
Proof. exact @include_keeps. Qed.
Print Assumptions C46_keeps.
(** One number per namespace, in all files. *)
Theorem C46_ids : forall (L : Libs) fuel f d path s a b u, schema_parse fuel f (Some d) path = Ok s ->
  ns_uri (sc_namespaces (s_context s)) a u -> ns_uri (sc_namespaces (s_context s)) b u -> a = b.
Proof. exact @uri_ids. Qed.
Print Assumptions C46_ids.
(** The order in which the types of the loaded files are visited does not matter. *)
Theorem C46_order : forall (L : Libs) ord f fuel path, shuffles ord ->
  same_result (parse_file fuel f path) (parse_file_in_order ord fuel f path None).
Proof. exact @file_order_same. Qed.
Print Assumptions C46_order.

Definition ex_lib : xelem := XE "schema" (Some NS_XSD) [at_ "targetNamespace" "urn:lib"] [(Some "xs", NS_XSD); (Some "l", "urn:lib")] r0
  [KElem (xs "simpleType" [at_ "name" "code"] [xs "restriction" [at_ "base" "xs:int"] []]);
   KElem (xs "simpleType" [at_ "name" "label"] [xs "restriction" [at_ "base" "xs:string"] []]);
   KElem (xtyped "thing" "l:code")].
Definition ex_main : xelem := XE "schema" (Some NS_XSD) [at_ "targetNamespace" "urn:m"] [(Some "xs", NS_XSD); (Some "lib", "urn:lib")] r0
  [KElem (xs "import" [at_ "namespace" "urn:lib"; at_ "schemaLocation" "lib.xsd"] []);
   KElem (xtyped "a" "lib:code"); KElem (xtyped "b" "xs:int")].
Definition ex_two : fs := list_fs [("main.xsd", ex_main); ("lib.xsd", ex_lib)].
(** The imported types are there, under one number for urn:lib; the main file is
    parsed to the same five types when the files' types are visited backwards. *)
Example C46_example : exists s, schema_parse 40 ex_two (Some ex_main) "main.xsd" = Ok s
  /\ map fst (sc_elements (s_context s))
     = [mkName "code" (NsId 2); mkName "label" (NsId 2); mkName "thing" (NsId 2); mkName "a" (NsId 1); mkName "b" (NsId 1)]
  /\ option_map nd_uri (get_by_id (sc_namespaces (s_context s)) 2) = Some "urn:lib"
  /\ (exists l, sc_get (s_context s) (mkName "a" (NsId 1)) = Some (RootLeaf l) /\ ld_content l = LcNamed (mkName "code" (NsId 2))).
Proof.
  eexists. split; [by_compute|]. split; [by_compute|]. split; [by_compute|]. eexists. split; by_compute.
Qed.
Example C46_example_order : exists s s', shuffles (fun _ l => rev l)
  /\ parse_file 40 ex_two "main.xsd" = Ok s /\ parse_file_in_order (fun _ l => rev l) 40 ex_two "main.xsd" None = Ok s'
  /\ sc_elements (s_context s) <> sc_elements (s_context s')
  /\ Permutation (sc_elements (s_context s)) (sc_elements (s_context s')).
Proof.
  destruct (parse_file 40 ex_two "main.xsd") as [s|e|w|] eqn:E; [|vm_compute in E; discriminate..].
  destruct (parse_file_in_order (fun _ l => rev l) 40 ex_two "main.xsd" None) as [s'|e|w|] eqn:E'; [|vm_compute in E'; discriminate..].
  assert (Sh : shuffles (fun _ l => rev l)) by (intros p l; apply Permutation_sym, Permutation_rev).
  exists s, s'. split; [exact Sh|]. split; [reflexivity|]. split; [reflexivity|].
  pose proof (C46_order ascii_libs _ ex_two 40 "main.xsd" Sh) as O. rewrite E, E' in O. destruct O as (_ & P & _).
  split; [|exact P]. vm_compute in E, E'. injection E as <-. injection E' as <-. simpl. discriminate.
Qed.

(** ** C51: unprefixed references *)
(** With no default namespace declared, an unprefixed reference names a type in
    no namespace, as XML Schema says. *)
Theorem C51_unprefixed_partial : forall d c a, prefixes_once d -> reading d c -> plain (at_value a) ->
  ~ In None (map fst (xe_nss d)) ->
  get_type_name a c = Ok (LcNamed (mkName (at_value a) NsNone), c).
Proof.
  intros d c a PO Rd Pl Nd. apply (C34_resolves d c a (MBare (at_value a)) PO Rd). apply mn_plain_bare; [exact Pl|].
  intros B. apply Nd. apply in_map_iff. now exists (None, NS_XSD).
Qed.
Print Assumptions C51_unprefixed_partial.
Example C51_example : get_type_name (at_ "type" "code") (ctx_new (xschema [] []) None shared_default)
  = Ok (LcNamed (mkName "code" NsNone), ctx_new (xschema [] []) None shared_default).
Proof.
  apply (C51_unprefixed_partial (xschema [] [])).
  - apply xschema_once.
  - exists shared_default, [], shared_default. split; [exact ns_wf_default|]. split; [exact ns_wf_default|reflexivity].
  - simpl. unfold plain. simpl. intuition discriminate.
  - simpl. intuition discriminate.
Qed.
(** With a default namespace it does not name the type of that namespace: here
    the type "code" exists, and the element referring to it refers to a name that
    has no type. *)
Theorem C51_default_refuted : forall (L : Libs), exists d s t l, prefixes_once d
  /\ In (None, "urn:m") (xe_nss d)
  /\ schema_parse 40 no_files (Some d) "m.xsd" = Ok s
  /\ ns_uri (sc_namespaces (s_context s)) t "urn:m"
  /\ (exists r, sc_get (s_context s) (mkName "code" t) = Some r)
  /\ sc_get (s_context s) (mkName "a" t) = Some (RootLeaf l)
  /\ exists n, ld_content l = LcNamed n /\ nm n = "code" /\ sc_get (s_context s) n = None.
Proof.
  intros L. exists (XE "schema" (Some NS_XSD) [at_ "targetNamespace" "urn:m"] [(Some "xs", NS_XSD); (None, "urn:m")] r0
    [KElem (xs "simpleType" [at_ "name" "code"] [xs "restriction" [at_ "base" "xs:int"] []]); KElem (xtyped "a" "code")]).
  eexists _, (NsId 1), _. split; [repeat constructor; simpl; intuition discriminate|]. split; [right; now left|]. split; [by_compute|].
  split; [exists 1; eexists; split; [reflexivity|]; split; by_compute|].
  split; [eexists; by_compute|]. split; [by_compute|]. eexists. split; [reflexivity|]. split; by_compute.
Qed.
Print Assumptions C51_default_refuted.

(** A prefix declared below the schema element is not known. *)
Theorem C51_nested_refuted : forall (L : Libs), exists d x p uri, prefixes_once d /\ In x (xsd_children d)
  /\ In (Some p, uri) (xe_nss x) /\ uri = NS_XSD
  /\ exists a, the_attr x "type" a /\ at_value a = p +++ ":string"
  /\ schema_parse 40 no_files (Some d) "m.xsd" = Err (SeXsd (XeMissingNamespace p (at_range a)) "m.xsd").
Proof.
  intros L. exists (xschema [] [XE "element" (Some NS_XSD) [at_ "name" "a"; at_ "type" "q:string"] [(Some "q", NS_XSD)] r0 []]).
  exists (XE "element" (Some NS_XSD) [at_ "name" "a"; at_ "type" "q:string"] [(Some "q", NS_XSD)] r0 []), "q", NS_XSD.
  split; [apply xschema_once|]. split; [now left|]. split; [now left|]. split; [reflexivity|].
  exists (at_ "type" "q:string"). split; [exists [at_ "name" "a"], []; repeat split; constructor|]. split; [reflexivity|]. by_compute.
Qed.
Print Assumptions C51_nested_refuted.

(** ** C52: including a file without a target namespace *)
(** Its types are meant to become types of the including namespace. They stay in
    no namespace, so a reference to one of them has no type. *)
Theorem C52_chameleon_refuted : forall (L : Libs), exists f d d' s t l, prefixes_once d /\ prefixes_once d'
  /\ fs_read f "lib.xsd" = Some (Some d') /\ no_attr d' "targetNamespace"
  /\ schema_parse 40 f (Some d) "main.xsd" = Ok s
  /\ ns_uri (sc_namespaces (s_context s)) t "urn:m"
  /\ sc_get (s_context s) (mkName "a" t) = Some (RootLeaf l)
  /\ ld_content l = LcNamed (mkName "code" t) /\ sc_get (s_context s) (mkName "code" t) = None
  /\ exists r, sc_get (s_context s) (mkName "code" NsNone) = Some r.
Proof.
  intros L.
  pose (d' := xschema [] [xs "simpleType" [at_ "name" "code"] [xs "restriction" [at_ "base" "xs:int"] []]]).
  pose (d := XE "schema" (Some NS_XSD) [at_ "targetNamespace" "urn:m"] [(Some "xs", NS_XSD); (Some "m", "urn:m")] r0
    [KElem (xs "include" [at_ "schemaLocation" "lib.xsd"] []); KElem (xtyped "a" "m:code")]).
  exists (list_fs [("lib.xsd", d')]), d, d'. eexists _, (NsId 1), _.
  split; [repeat constructor; simpl; intuition discriminate|]. split; [repeat constructor; simpl; intuition discriminate|].
  split; [reflexivity|]. split; [intros a []|]. split; [by_compute|].
  split; [exists 1; eexists; split; [reflexivity|]; split; by_compute|].
  split; [by_compute|]. split; [reflexivity|]. split; [by_compute|]. eexists. by_compute.
Qed.
Print Assumptions C52_chameleon_refuted.

(** What the code does instead: the declarations of a loaded file give types in the
    target namespace of that file, in no namespace if it has none. *)
Theorem C52_own_namespace : forall (L : Libs) fuel f d path s x, files_bind_once f -> prefixes_once d ->
  schema_parse fuel f (Some d) path = Ok s -> In x (xsd_children d) -> is_load x ->
  exists a d', the_attr x "schemaLocation" a
    /\ fs_read f (fs_push f (fs_parent f path) (at_value a)) = Some (Some d')
    /\ forall y, In y (xsd_children d') -> ~ is_load y ->
       exists b n r, the_attr y "name" b /\ nm n = at_value b
         /\ target_of d' (sc_namespaces (s_context s)) (nm_ns n) /\ sc_get (s_context s) n = Some r.
Proof. exact @include_named. Qed.
Print Assumptions C52_own_namespace.

(** C52, partial: if both files have the same target namespace, or both have none,
    these are types of the including schema's target namespace. Missing: an including
    schema with, and an included one without a target namespace, where it is false. *)
Definition same_target (d d' : xelem) : Prop :=
  (exists a b, the_attr d "targetNamespace" a /\ the_attr d' "targetNamespace" b /\ at_value a = at_value b)
  \/ (no_attr d "targetNamespace" /\ no_attr d' "targetNamespace").
Theorem C52_same_partial : forall (L : Libs) fuel f d path s x a d' y, files_bind_once f -> prefixes_once d ->
  schema_parse fuel f (Some d) path = Ok s -> In x (xsd_children d) -> is_load x -> the_attr x "schemaLocation" a ->
  fs_read f (fs_push f (fs_parent f path) (at_value a)) = Some (Some d') -> same_target d d' ->
  In y (xsd_children d') -> ~ is_load y ->
  exists b n r, the_attr y "name" b /\ nm n = at_value b
    /\ target_of d (sc_namespaces (s_context s)) (nm_ns n) /\ sc_get (s_context s) n = Some r.
Proof.
  intros L fuel f d path s x a d' y BO PO E I Ld Ha Rd St Iy Ny.
  destruct (C52_own_namespace L fuel f d path s x BO PO E I Ld) as (a0 & d0 & Ha0 & Rd0 & K).
  rewrite (the_attr_det _ _ _ _ Ha0 Ha), Rd in Rd0. injection Rd0 as <-.
  destruct (K y Iy Ny) as (b & n & r & Hb & Hn & Tg & G). exists b, n, r. split; [exact Hb|]. split; [exact Hn|]. split; [|exact G].
  destruct St as [(ta & tb & H1 & H2 & Ev)|[N1 N2]], Tg as [(tc & H3 & U)|[N3 U]].
  - left. exists ta. split; [exact H1|]. rewrite Ev, (the_attr_det _ _ _ _ H2 H3). exact U.
  - exfalso. destruct H2 as (l & rr & El & En & _). apply (N3 tb); [rewrite El; apply in_or_app; right; now left|exact En].
  - exfalso. destruct H3 as (l & rr & El & En & _). apply (N2 tc); [rewrite El; apply in_or_app; right; now left|exact En].
  - right. auto.
Qed.
Print Assumptions C52_same_partial.
(** An included file of the same namespace, and one without namespace. *)
Definition ex_inc_lib (ats : list attr) : xelem :=
  xschema ats [xs "simpleType" [at_ "name" "code"] [xs "restriction" [at_ "base" "xs:int"] []]; xtyped "thing" "xs:string"].
Definition ex_inc (ats : list attr) : xelem :=
  xschema ats [xs "include" [at_ "schemaLocation" "lib.xsd"] []; xtyped "b" "xs:int"].
Definition inc_files (ats : list attr) : fs := list_fs [("main.xsd", ex_inc ats); ("lib.xsd", ex_inc_lib ats)].
Example C52_example : forall ats, In ats [[at_ "targetNamespace" "urn:m"]; []] ->
  exists s, schema_parse 40 (inc_files ats) (Some (ex_inc ats)) "main.xsd" = Ok s
  /\ same_target (ex_inc ats) (ex_inc_lib ats)
  /\ forall y, In y (xsd_children (ex_inc_lib ats)) ->
     exists b n r, the_attr y "name" b /\ nm n = at_value b
       /\ target_of (ex_inc ats) (sc_namespaces (s_context s)) (nm_ns n) /\ sc_get (s_context s) n = Some r.
Proof.
  intros ats I.
  assert (BO : files_bind_once (inc_files ats)).
  { intros p d H. unfold inc_files, list_fs in H. simpl in H.
    repeat match type of H with context [if ?b then _ else _] => destruct b end; try discriminate; injection H as <-; apply xschema_once. }
  assert (St : same_target (ex_inc ats) (ex_inc_lib ats)).
  { destruct I as [<-|[<-|[]]].
    - left. exists (at_ "targetNamespace" "urn:m"), (at_ "targetNamespace" "urn:m").
      repeat split; exists [], []; repeat split; constructor.
    - right. split; intros a []. }
  assert (E : exists s, schema_parse 40 (inc_files ats) (Some (ex_inc ats)) "main.xsd" = Ok s).
  { destruct I as [<-|[<-|[]]]; eexists; by_compute. }
  destruct E as (s & E). exists s. split; [exact E|]. split; [exact St|]. intros y Iy.
  eapply (C52_same_partial _ 40 (inc_files ats) (ex_inc ats) "main.xsd" s
    (xs "include" [at_ "schemaLocation" "lib.xsd"] []) (at_ "schemaLocation" "lib.xsd") (ex_inc_lib ats) y BO);
    [apply xschema_once|exact E|now left|left; reflexivity|exists [], []; repeat split; constructor|by_compute|exact St|exact Iy|].
  simpl in Iy. destruct Iy as [<-|[<-|[]]]; intros [H|H]; discriminate.
Qed.
