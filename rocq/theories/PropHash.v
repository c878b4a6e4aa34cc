(** * C57: the order in which hash maps are visited *)
From Coq Require Import Permutation.
From Verif Require Import Base Libs Xml Ast XsdNode Parse Decode Writer Gen Run Harness Samples MergeSpec
  MiscProof HashSpec HashProof HashGen PropDecode PropMerge.

(** Two builds of the same schema visit the hash maps in different orders. Their decoders
    agree on every document if no enumeration lists a value twice (the identifiers of the
    types are distinct in every module that compiles). *)
Theorem C57_decoding : forall (L : Libs) fuel gfuel f path s p p',
  parse_file fuel f path = Ok s -> emits fuel gfuel f path p -> emits fuel gfuel f path p' ->
  NoDup (map ti_id p) ->
  (forall n names, sc_get (s_context s) n = Some (RootEnum names) -> NoDup (map nm names)) ->
  forall dfuel id e, from_xml p dfuel id e = from_xml p' dfuel id e.
Proof.
  intros L fuel gfuel f path s p p' E H H' N Hl. apply (hash_decoding fuel gfuel f path); try assumption.
  eapply emitted_literals; eassumption.
Qed.
Print Assumptions C57_decoding.

(** Their encoders emit the same events up to the order of namespace declarations, which
    xml-rs sorts, and fail on the same values. *)
Theorem C57_encoding : forall (L : Libs) fuel gfuel f path p p',
  emits fuel gfuel f path p -> emits fuel gfuel f path p' -> NoDup (map ti_id p) ->
  forall dfuel id v, same_output (to_xml p dfuel id v) (to_xml p' dfuel id v).
Proof. intros L fuel gfuel f path p p' H H' N. now apply (hash_encoding fuel gfuel f path). Qed.
Print Assumptions C57_encoding.
(** A reader makes the same document of them. *)
Theorem C57_documents : forall (L : Libs) fuel gfuel f path p p' dfuel id v evs,
  emits fuel gfuel f path p -> emits fuel gfuel f path p' -> NoDup (map ti_id p) ->
  to_xml p dfuel id v = Ok evs -> exists evs', to_xml p' dfuel id v = Ok evs' /\ document evs = document evs'.
Proof.
  intros L fuel gfuel f path p p' dfuel id v evs H H' N E. pose proof (C57_encoding L _ _ _ _ _ _ H H' N dfuel id v) as K.
  rewrite E in K. destruct (to_xml p' dfuel id v) as [evs'| | |]; try contradiction. exists evs'. split; [reflexivity|].
  now apply document_same.
Qed.
Print Assumptions C57_documents.

(** ** Examples *)
(** Everything the other way round. *)
Definition backwards (t : titem) : titem :=
  mkTitem (ti_id t) (match ti_decl t with DEnum vs => DEnum (rev vs) | d => d end) (ti_xml_name t) (rev (ti_nss t))
    (ti_write t) (ti_read_name t) (ti_read_ns t) (ti_read t) (ti_look t).
Lemma backwards_same p : same_module p (rev (map backwards p)).
Proof.
  apply same_module_trans with (map backwards p); [|apply same_module_perm, Permutation_rev].
  exists p. split; [reflexivity|]. induction p as [|t p IH]; constructor; [|exact IH].
  repeat split; [|apply Permutation_rev]. simpl. destruct (ti_decl t); try apply sd_same. apply sd_enum, Permutation_rev.
Qed.
Lemma emits_backwards {L : Libs} fuel gfuel f path s q : parse_file fuel f path = Ok s -> generate_all gfuel s = Ok q ->
  emits fuel gfuel f path q /\ emits fuel gfuel f path (rev (map backwards q)).
Proof.
  intros E G. assert (Sh : shuffles (fun _ l => l)) by (intros p l; apply Permutation_refl).
  pose proof (MergeProof.file_order_same _ f fuel path Sh) as K. rewrite E in K.
  destruct (parse_file_in_order (fun _ l => l) fuel f path None) as [s'| | |] eqn:E'; try contradiction.
  destruct (generate_same _ _ _ _ K G) as (q' & G' & P).
  split; exists (fun _ l => l), s', q'; (split; [exact Sh|split; [exact E'|split; [exact G'|]]]).
  - apply same_module_perm, Permutation_sym, P.
  - eapply same_module_trans; [apply same_module_perm, Permutation_sym, P|apply backwards_same].
Qed.

Definition ex_side (vs : list string) : xelem := xschema [at_ "targetNamespace" "urn:t"; at_ "elementFormDefault" "qualified"]
  [xs "simpleType" [at_ "name" "side"] [xs "restriction" [at_ "base" "xs:string"]
     (map (fun v => xs "enumeration" [at_ "value" v] []) vs)];
   xelement [at_ "name" "a"] [xcomplex [xsequence [xtyped "s" "t:side"; xtyped "n" "xs:int"]]]].
Definition ex_side_fs (vs : list string) : fs := list_fs [("m.xsd", ex_side vs)].
Definition ex_side_doc : xelem :=
  XE "a" (Some "urn:t") [] [] r0 [KElem (XE "s" (Some "urn:t") [] [] r0 [KText "left"]); KElem (XE "n" (Some "urn:t") [] [] r0 [KText "4"])].

Lemma two_modules {L : Libs} fuel gfuel f path : (exists q, bind (parse_file fuel f path) (generate_all gfuel) = Ok q) ->
  exists q, bind (parse_file fuel f path) (generate_all gfuel) = Ok q
  /\ emits fuel gfuel f path q /\ emits fuel gfuel f path (rev (map backwards q)).
Proof.
  intros (q & E). exists q. split; [exact E|]. apply bind_ok in E. destruct E as (s & Es & Eq).
  eapply emits_backwards; eassumption.
Qed.

(** The two modules differ, and read the same value from the document. *)
Example C57_example : exists p p', p <> p' /\ emits 40 40 (ex_side_fs ["left"; "right"]) "m.xsd" p
  /\ emits 40 40 (ex_side_fs ["left"; "right"]) "m.xsd" p'
  /\ (forall dfuel id e, from_xml p dfuel id e = from_xml p' dfuel id e)
  /\ from_xml p' 40 "A" ex_side_doc = Ok (VStruct [("s", VEnum "Left"); ("n", VInt 4)]).
Proof.
  destruct (parse_file 40 (ex_side_fs ["left"; "right"]) "m.xsd") as [s|e|w|] eqn:Es; [|vm_compute in Es; discriminate..].
  destruct (two_modules 40 40 (ex_side_fs ["left"; "right"]) "m.xsd") as (q & E & H & H'); [eexists; by_compute|].
  exists q, (rev (map backwards q)).
  assert (Eq : forall dfuel id e, from_xml q dfuel id e = from_xml (rev (map backwards q)) dfuel id e).
  { apply (C57_decoding ascii_libs 40 40 (ex_side_fs ["left"; "right"]) "m.xsd" s); try assumption.
    - vm_compute in E. injection E as <-. apply nodupb_NoDup. by_compute.
    - intros n names. vm_compute in Es. injection Es as <-. unfold sc_get. simpl.
      repeat (match goal with |- context [name_eqb ?a ?b] => destruct (name_eqb a b) end; try discriminate).
      intros K. injection K as <-. apply nodupb_NoDup. by_compute. }
  split; [|split; [exact H|split; [exact H'|split; [exact Eq|]]]].
  - vm_compute in E. injection E as <-. simpl. discriminate.
  - rewrite <- Eq. clear Eq H H' Es. vm_compute in E. injection E as <-. by_compute.
Qed.
(** Two namespaces are declared in either order; the documents are the same. *)
Example C57_example_encoding : exists p p' v evs evs', emits 40 40 ex_two "main.xsd" p /\ emits 40 40 ex_two "main.xsd" p'
  /\ to_xml p 40 "B" v = Ok evs /\ to_xml p' 40 "B" v = Ok evs' /\ evs <> evs'
  /\ document evs = document evs' /\ document evs <> None.
Proof.
  destruct (two_modules 40 40 ex_two "main.xsd") as (q & E & H & H'); [eexists; by_compute|].
  exists q, (rev (map backwards q)), (VTuple (VInt 7)).
  destruct (to_xml q 40 "B" (VTuple (VInt 7))) as [evs|e|w|] eqn:Ev; [|vm_compute in E; injection E as <-; vm_compute in Ev; discriminate..].
  destruct (C57_documents ascii_libs 40 40 ex_two "main.xsd" _ _ 40 "B" (VTuple (VInt 7)) evs H H') as (evs' & Ev' & D);
    [vm_compute in E; injection E as <-; apply nodupb_NoDup; by_compute|exact Ev|].
  exists evs, evs'. split; [exact H|]. split; [exact H'|]. split; [reflexivity|]. split; [exact Ev'|].
  clear H H'. vm_compute in E. injection E as <-. vm_compute in Ev, Ev'. injection Ev as <-. injection Ev' as <-.
  split; [discriminate|]. split; [exact D|]. vm_compute. discriminate.
Qed.

(** With a value listed twice, the variant that is read depends on the order. *)
Theorem C57_duplicates_refuted : exists f path p p' e, emits 40 40 f path p /\ emits 40 40 f path p' /\ NoDup (map ti_id p)
  /\ from_xml p 40 "A" e = Ok (VStruct [("s", VEnum "Left"); ("n", VInt 4)])
  /\ from_xml p' 40 "A" e = Ok (VStruct [("s", VEnum "Variant1"); ("n", VInt 4)]).
Proof.
  destruct (two_modules 40 40 (ex_side_fs ["left"; "left"]) "m.xsd") as (q & E & H & H'); [eexists; by_compute|].
  exists (ex_side_fs ["left"; "left"]), "m.xsd", q, (rev (map backwards q)), ex_side_doc.
  split; [exact H|]. split; [exact H'|]. clear H H'. vm_compute in E. injection E as <-.
  split; [apply nodupb_NoDup; by_compute|]. split; by_compute.
Qed.
Print Assumptions C57_duplicates_refuted.
