(** * PropDepth: how deep the generated functions call each other (C83) *)
From Verif Require Import Base Libs Xml Ast XsdNode Parse Decode Gen Run Harness Samples GenSpec DecSpec ReadSpec RepSpec DecProof1 WfSpec WfProof WfCheck TotalProof TypeProof
  RustSpec RustWrite RustCheck DepthSpec DepthProof DepthGen PropDecode PropTerm PropRust.
From Coq Require Import Lia.

(** C83. Reading an element never has more than [number of types * (height + 1)] generated
    functions open at once: the stack it needs grows with the nesting of the document, and not
    with the number of its elements, its attributes or the length of its texts. *)
Theorem C83_depth : forall (L : Libs) gfuel c gs p n id e,
  generated gfuel c gs p -> compiles c gs -> grounded c gs -> In n gs -> type_ident n = Ok id ->
  exists o, fin o /\ eventually (fun fuel => from_xml p fuel id e = o)
    /\ eventually (fun rounds => forall depth, length gs * S (height e) <= depth -> from_xml_within p rounds depth id e = o).
Proof.
  intros L gfuel c gs p n id e Hg Hc Hr I T. destruct (decoding_ends gfuel c gs p n id e Hg Hc Hr I T) as (o & F & N & E).
  exists o. split; [exact F|]. split; [now exists N|]. exists N. intros rounds R depth D.
  destruct (grounded_layers gfuel c gs p Hg Hc Hr) as (layer & top & Ly & Le); [intros ->; destruct I|].
  rewrite (depth_enough p layer top Ly rounds N depth id e R).
  - now apply E.
  - nia.
  - rewrite E by auto. intros ->. exact F.
Qed.
Print Assumptions C83_depth.

(** The same for any module whose types lie in layers, whatever the document: an answer or an
    error is found with this depth if it is found at all. *)
Theorem C83_layers : forall (L : Libs) p layer top rounds fuel depth id e, layered p layer top ->
  fuel <= rounds -> S top * S (height e) <= depth -> from_xml p fuel id e <> OutOfFuel ->
  from_xml_within p rounds depth id e = from_xml p fuel id e.
Proof. intros L p layer top rounds fuel depth id e Ly. now apply depth_enough with (layer := layer). Qed.
Print Assumptions C83_layers.

(** Writing what was read needs no more than one call more. The fuel of [to_xml] is the number
    of calls open at once: the functions that write have no loop that takes from it. *)
Theorem C83_writing : forall (L : Libs) p rounds depth id e v, rust_ok p -> In id (map ti_id p) ->
  from_xml_within p rounds depth id e = Ok v -> has_type p (TRef id) v ->
  exists evs, to_xml p (S depth) id v = Ok evs.
Proof.
  intros L p rounds depth id e v OK D H T. apply (to_xml_total p OK id v D T). eapply from_value_depth, H.
Qed.
Print Assumptions C83_writing.

(** No depth is enough for all documents: elements can be nested in a schema that refers to itself. *)
Definition ex_chain : xelem := xschema [] [xelement [at_ "name" "n"] [xcomplex [xsequence
  [xs "element" [at_ "ref" "n"; at_ "minOccurs" "0"] []]]]].
Fixpoint chain (k : nat) : xelem := match k with O => el "n" [] [] | S k => el "n" [] [chain k] end.
Fixpoint chain_value (k : nat) : value := match k with O => VStruct [("n", VNone)] | S k => VStruct [("n", VSome (chain_value k))] end.
Lemma chain_item : exists t, lookup_item (module_of ex_chain) "N" = Some t /\ ti_read t = BrStruct [("n", FrIfNext "n" None (RxCall "N"))] []
  /\ ti_read_name t = "n" /\ ti_read_ns t = None.
Proof. eexists. split; [by_compute|]. repeat split. Qed.
Lemma chain_named k : has_name "n" None (chain k) = true.
Proof. destruct k; reflexivity. Qed.
Lemma chain_runs k : forall f, k < f -> exists c, run_type real_ops (module_of ex_chain) f "N" (chain k) (children_new (chain k)) = Ok (chain_value k, c).
Proof.
  destruct chain_item as (t & Lk & R & _). induction k as [|k IH]; intros f Lt; (destruct f as [|f]; [lia|]); cbn [run_type]; rewrite Lk; unfold run_body; rewrite R;
    cbn [run_fields run_fr real_ops op_next].
  - eexists. reflexivity.
  - destruct (IH f ltac:(lia)) as (c & E). unfold children_new at 1, next_child. cbn [ch_next pop_peeked_or_next ch_rest ch_peeked chain el xe_children xe_kids map elems_of].
    fold (children_new (chain k)). rewrite chain_named. unfold run_sub. cbn [run_rx real_ops op_new]. rewrite E. eexists. reflexivity.
Qed.
Lemma chain_stuck rounds k : forall d, d <= k -> node_within (module_of ex_chain) rounds d "N" (chain k) (children_new (chain k)) = OutOfFuel.
Proof.
  destruct chain_item as (t & Lk & R & _). induction k as [|k IH]; intros d Le; (destruct d as [|d]; [reflexivity|]); [lia|]. cbn [node_within]. rewrite Lk. unfold run_body. rewrite R.
  cbn [run_fields run_fr real_ops op_next].
  unfold children_new at 1, next_child. cbn [ch_next pop_peeked_or_next ch_rest ch_peeked chain el xe_children xe_kids map elems_of].
  rewrite chain_named. unfold run_sub. cbn [run_rx real_ops op_new]. rewrite (IH d ltac:(lia)). reflexivity.
Qed.
Theorem C83_constant_refuted : exists doc, gen_doc doc = Ok (module_of doc) /\ compiles (ctx_of doc) (names_of doc) /\ grounded (ctx_of doc) (names_of doc)
  /\ forall depth, exists e v, from_xml (module_of doc) (S depth) "N" e = Ok v
    /\ forall rounds, from_xml_within (module_of doc) rounds depth "N" e = OutOfFuel.
Proof.
  exists ex_chain. split; [by_compute|]. split; [apply compiles_b_ok; by_compute|].
  split. { apply grounded_b_ok; [|by_compute|by_compute].
    apply (same_ident 40 (ctx_of ex_chain) (names_of ex_chain) (module_of ex_chain)). split; [by_compute|apply nodupb_NoDup; by_compute]. }
  intros depth. exists (chain depth), (chain_value depth). destruct chain_item as (t & Lk & _ & N1 & N2).
  unfold from_xml, from_xml_with, from_xml_within. rewrite Lk, N1, N2. unfold doc_try_child. rewrite chain_named. cbn [bind real_ops op_new]. split.
  - destruct (chain_runs depth (S depth) ltac:(lia)) as (c & ->). reflexivity.
  - intros rounds. now rewrite (chain_stuck rounds depth depth (le_n _)).
Qed.
Print Assumptions C83_constant_refuted.

(** A hundred siblings are read with two calls open, and need a hundred rounds; four nested
    elements need four calls. *)
Definition ex_tree : xelem := xschema [] [xelement [at_ "name" "n"] [xcomplex [xsequence
  [xs "element" [at_ "ref" "n"; at_ "minOccurs" "0"; at_ "maxOccurs" "unbounded"] []]]]].
Definition wide : xelem := el "n" [] (repeat (el "n" [] []) 100).
Definition answers (r : R value) : bool := match r with Ok _ => true | _ => false end.
Example C83_example :
  let p := module_of ex_tree in
  answers (from_xml_within p 101 2 "N" wide) = true /\ answers (from_xml_within p 100 2 "N" wide) = false
  /\ answers (from_xml_within p 101 1 "N" wide) = false
  /\ answers (from_xml_within p 9 4 "N" (chain 3)) = true /\ answers (from_xml_within p 9 3 "N" (chain 3)) = false
  /\ answers (from_xml_within p 9 9 "N" (el "n" [] [])) = true.
Proof. cbv zeta. repeat match goal with |- _ /\ _ => split end; by_compute. Qed.
(** Groups are read by functions of their own on the same element: here three calls for one element. *)
Example C83_groups :
  let p := module_of ex_nest in
  length p = 3 /\ layered p (fun id => if id =?s "P" then 2 else if id =?s "Py" then 1 else 0) 2.
Proof. cbv zeta. split; [by_compute|]. unfold layered. vm_compute. repeat constructor. Qed.
