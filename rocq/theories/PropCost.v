(** * PropCost: how many steps reading takes (C84) *)
From Verif Require Import Base Libs Xml Ast XsdNode Parse Decode Gen Run Harness Samples GenSpec DecSpec ReadSpec RepSpec DecProof1 WfSpec WfProof WfCheck TotalProof TypeProof TermProof
  DepthSpec CostSpec CostProof CostGen PropDecode PropTerm PropDepth.
From Coq Require Import Lia.

(** C84. For every schema there is a number so that reading a document takes at most that many
    steps for each of its elements. A step is a call of a generated function, the reading of a
    text or an attribute, a round of a loop, or a question to the cursor. *)
Theorem C84_steps : forall (L : Libs) gfuel c gs p, generated gfuel c gs p -> compiles c gs -> grounded c gs ->
  exists k, forall fuel id e, snd (count_from_xml p fuel id e) <= k * size e.
Proof. exact @steps_linear. Qed.
Print Assumptions C84_steps.

(** The counting interpreter returns what the interpreter returns. *)
Theorem C84_counts : forall (L : Libs) p fuel id e, fst (count_from_xml p fuel id e) = from_xml p fuel id e.
Proof. exact @from_counts. Qed.
Print Assumptions C84_counts.

(** The bound that the proof gives for a module, from the number of fields and variants of its
    types and how many types lie on top of each other. *)
Theorem C84_rate : forall (L : Libs) gfuel c gs p layer top m, generated gfuel c gs p -> compiles c gs -> layered p layer top ->
  Forall (fun t => CostBound.items t <= m /\ looked t <= m) p ->
  forall fuel id e, snd (count_from_xml p fuel id e) <= rate top m * size e.
Proof.
  intros L gfuel c gs p layer top m Hg Hc Ly W fuel id e. apply steps_bound with (layer := layer); auto. eapply group_moves; eassumption.
Qed.
Print Assumptions C84_rate.

(** Without the conditions there is no bound at all: the schema of C09_decoding_refuted. *)
Lemma steps_first {A B} (m : counted A) (f : A -> counted B) : snd m <= snd (andthen m f).
Proof. unfold andthen. destruct (fst m); cbn [snd]; lia. Qed.
Lemma steps_then {A B} (m : counted A) (f : A -> counted B) a : fst m = Ok a -> snd (andthen m f) = snd m + snd (f a).
Proof. unfold andthen. now intros ->. Qed.
Lemma spin_steps f e c : d_text e = Ok "" -> forall k, k <= snd (count_while_look (count_type (module_of ex_spin) (S f)) (count_look (module_of ex_spin) (S f)) k "Px" (RxText LString) e c).
Proof.
  intros T. induction k as [|k IH]; [cbn; lia|]. cbn [count_while_look].
  assert (Lk : count_look (module_of ex_spin) (S f) "Px" c = (Ok (true, c), 1)).
  { cbn [count_look]. replace (lookup_item (module_of ex_spin) "Px") with
      (Some (mkTitem "Px" (DTuple (TPrim PString) true) "PX" [] (TwTuple true WxText) "PX" None (BrTuple (RxText LString)) LkTrue)) by by_compute. reflexivity. }
  assert (Rx : fst (count_rx (count_type (module_of ex_spin) (S f)) (RxText LString) e c) = Ok (VStr "", c)).
  { unfold count_rx. cbn [tick fst free run_rx]. rewrite T. reflexivity. }
  cbn [tick snd]. rewrite Lk. rewrite (steps_then _ _ (true, c)) by reflexivity. cbn [fst snd]. rewrite (steps_then _ _ _ Rx). cbn [fst snd].
  match goal with |- S k <= S (1 + (_ + snd (andthen ?w ?f))) => pose proof (steps_first w f) end. lia.
Qed.
Theorem C84_spin_refuted : exists doc e, gen_doc doc = Ok (module_of doc) /\ NoDup (map ti_id (module_of doc))
  /\ forall n, exists fuel, n <= snd (count_from_xml (module_of doc) fuel "P" e).
Proof.
  exists ex_spin, (el "p" [] []). split; [by_compute|]. split; [apply nodupb_NoDup; by_compute|]. intros n. exists (S (S n)).
  unfold count_from_xml.
  assert (Lk : lookup_item (module_of ex_spin) "P" = Some (mkTitem "P" (DStruct [("x", TOpt (TVec (TPrim PString)))]) "p" []
    (TwStruct [] true (WbLeaves [mkWf "x" true true None false WxText])) "p" None
    (BrStruct [("x", FrWhileLook "Px" (RxText LString) true)] []) (LkOr [LkCall "Px"]))) by by_compute.
  rewrite Lk. cbn [ti_read_name ti_read_ns]. rewrite (steps_then _ _ (el "p" [] [])) by by_compute. cbn [free snd]. rewrite Nat.add_0_l.
  assert (B : n <= snd (count_type (module_of ex_spin) (S (S n)) "P" (el "p" [] []) (children_new (el "p" [] [])))).
  { cbn [count_type tick snd]. rewrite Lk. unfold count_body. cbn [ti_read count_fields count_fr].
    pose proof (spin_steps n (el "p" [] []) (children_new (el "p" [] [])) eq_refl (S n)) as S.
    etransitivity; [|apply le_S, steps_first]. etransitivity; [|apply steps_first]. etransitivity; [|apply steps_first]. etransitivity; [|exact S]. auto. }
  etransitivity; [exact B|apply steps_first].
Qed.
Print Assumptions C84_spin_refuted.

(** Steps taken for documents of 1, 101 and 1001 elements, and for 101 elements one inside the other. *)
Definition siblings (k : nat) : xelem := el "n" [] (repeat (el "n" [] []) k).
Definition steps (p : program) (e : xelem) : nat := snd (count_from_xml p 2000 "N" e).
Example C84_example : let p := module_of ex_tree in
  map (fun k => (size (siblings k), steps p (siblings k))) [0; 100; 1000] = [(1, 2); (101, 402); (1001, 4002)]
  /\ (size (chain 100), steps p (chain 100)) = (101, 402).
Proof. cbv zeta. split; by_compute. Qed.
(** A document of the order schema: the steps it takes. *)
Example C84_order : let p := module_of ex_order in
  size ex_order_doc = 6 /\ snd (count_from_xml p 40 "Order" ex_order_doc) = 19.
Proof. cbv zeta. split; by_compute. Qed.
