(** * C69: decoding errors tell the truth *)
From Verif Require Import Base Libs Xml Ast XsdNode Parse Decode Gen Run Harness Samples CursorSpec
  GenSpec DecSpec ReadSpec RepSpec ValidSpec ParseSpec FaultSpec FaultProof PropDecode.

(** C69: if decoding ends with an error, the error is a true statement about the document
    (FaultSpec.v): what is said to be missing is required at that point and not there, a
    text said to be wrong is there and not of the declared kind. *)
Theorem C69_true : forall (L : Libs) gfuel c gs p n id e fuel err,
  generated gfuel c gs p -> In n gs -> type_ident n = Ok id -> from_xml p fuel id e = Err err ->
  wrong c gs shuffle n e err /\ (all_ordered c gs -> wrong c gs appended n e err).
Proof. exact @fault_true. Qed.
Print Assumptions C69_true.

(** In short: there are an element and a declaration the error is about. *)
Theorem C69_about : forall (L : Libs) gfuel c gs p n id e fuel err,
  generated gfuel c gs p -> In n gs -> type_ident n = Ok id -> from_xml p fuel id e = Err err -> about c gs n e err.
Proof. intros L gfuel c gs p n id e fuel err G I T F. apply wrong_about. exact (proj1 (fault_true gfuel c gs p n id e fuel err G I T F)). Qed.
Print Assumptions C69_about.

(** Errors of every kind. *)
Definition order_n : name := mkName "order" (NsId 1).
Definition ex_fault (ats : list attr) (ks : list xelem) : xelem := elq "order" ats ks.
Definition eur : list attr := [at_ "currency" "EUR"].
Definition fault_of (x : xelem) : option (res from_xml_err value) := read_with ex_order "Order" x.
Example C69_examples :
  map fault_of
    [el "order" eur [];                                                                                (* other namespace *)
     ex_fault eur [txtq "note" "n"];
     ex_fault eur [txtq "id" "seven"];
     ex_fault eur [elq "id" [] [elq "b" [] []]];
     ex_fault eur [txtq "id" "7"; txtq "item" "a"; txtq "version" "1.1"];
     ex_fault eur [txtq "id" "7"; txtq "item" "a"; txtq "version" "1.0"; txtq "cheque" "true"];
     ex_fault [at_ "lang" "de"] (xe_children ex_order_doc)]
  = map (fun x => Some (Err x))
    [FeMissingElement "order" (Some "urn:t"); FeMissingElement "id" (Some "urn:t"); FeParseType "int" "seven"; FeTextExpected "id";
     FeFixedMismatch "1.0" "1.1"; FeMissingVariant "OrderCa"; FeMissingAttribute "currency"].
Proof. by_compute. Qed.
Example C69_example : forall x err, from_xml (module_of ex_order) 40 "Order" x = Err err ->
  wrong (ctx_of ex_order) (names_of ex_order) appended order_n x err.
Proof.
  intros x err H. refine (proj2 (C69_true _ 40 (ctx_of ex_order) (names_of ex_order) (module_of ex_order) order_n "Order" x 40 err (proj1 order_generated) _ _ H) _);
    [vm_compute; auto|by_compute|exact (proj1 C10_example)].
Qed.

(** Not everything is a true statement about a document that is not decoded: nothing is said to be
    missing that may be missing, no text is complained about that is not there. *)
Example C69_not_wrong : forall x,
  ~ wrong (ctx_of ex_order) (names_of ex_order) shuffle order_n x (FeMissingAttribute "lang")
  /\ ~ wrong (ctx_of ex_order) (names_of ex_order) shuffle order_n x (FeMissingElement "note" (Some "urn:t"))
  /\ ~ wrong (ctx_of ex_order) (names_of ex_order) shuffle order_n x (FeInvalidVariant "a")
  /\ ~ wrong (ctx_of ex_order) (names_of ex_order) shuffle order_n x (FeMissingVariant "Order")
  /\ ~ wrong (ctx_of ex_order) (names_of ex_order) shuffle order_n (ex_fault eur [txtq "id" "seven"]) (FeParseType "int" "eight").
Proof.
  assert (K : forall n r, In n (names_of ex_order) -> sc_get (ctx_of ex_order) n = Some r ->
    (n = order_n /\ Some r = sc_get (ctx_of ex_order) order_n) \/ (exists d, r = RootChoice d /\ type_ident n <> Ok "Order")).
  { intros n r I G. vm_compute in I. destruct I as [<-|[<-|[]]]; [|auto]. right. vm_compute in G. injection G as <-.
    eexists. split; [reflexivity|]. vm_compute. discriminate. }
  intros x. split; [|split; [|split; [|split]]]; intros W; apply wrong_about in W; simpl in W.
  - destruct W as [(d & a & (n & I & G) & Ia & E & O) _]. destruct (K _ _ I G) as [[-> H]|(d' & H & _)]; [|discriminate].
    vm_compute in H. injection H as ->. vm_compute in Ia. destruct Ia as [<-|[<-|[]]]; vm_compute in E, O; discriminate.
  - destruct W as [[E _]|(d & ls & f & (n & I & G) & Ec & If & R & X & _)]; [discriminate|].
    destruct (K _ _ I G) as [[-> H]|(d' & H & _)]; [|discriminate]. vm_compute in H. injection H as ->. vm_compute in Ec. injection Ec as <-.
    unfold required in R. repeat (destruct If as [<-|If]; [vm_compute in X, R; discriminate|]). destruct If.
  - destruct W as (_ & names & (n & I & G) & _). destruct (K _ _ I G) as [[-> H]|(d' & H & _)]; [|discriminate]. vm_compute in H. discriminate.
  - destruct W as (n & d & I & G & T). destruct (K _ _ I G) as [[-> H]|(d' & H & N)]; [vm_compute in H; discriminate|contradiction].
  - destruct W as (y & Wi & T). clear K x.
    assert (H : y = ex_fault eur [txtq "id" "seven"] \/ y = txtq "id" "seven").
    { induction Wi as [|z y Wz IH I]; [now left|]. right. clear T.
      assert (Hz : z = ex_fault eur [txtq "id" "seven"] \/ z = txtq "id" "seven").
      { clear -Wz. induction Wz as [|w z Ww IH I]; [now left|]. destruct IH as [->| ->]; [destruct I as [<-|[]]; now right|destruct I]. }
      destruct Hz as [->| ->]; [destruct I as [<-|[]]; reflexivity|destruct I]. }
    destruct H as [->| ->]; destruct T as [[[E _]|(ks & E)]|(k & a & l1 & l2 & E & _ & _ & V & _)]; try discriminate.
    + destruct l1 as [|b [|b' l1]]; [|discriminate|discriminate]. injection E as <- _. discriminate.
    + destruct l1; discriminate.
Qed.

(** In types that are an xs:all of elements of different names, what is said to be missing is not
    there at all. *)
Theorem C69_absent : forall (L : Libs) gfuel c gs p n id e fuel k ns,
  generated gfuel c gs p -> In n gs -> type_ident n = Ok id -> flat_all c gs ->
  from_xml p fuel id e = Err (FeMissingElement k ns) ->
  (k = nm n /\ quote_xml_namespace c n = Some ns /\ ~ matches k ns e)
  \/ exists x, within e x /\ Forall (fun y => ~ matches k ns y) (xe_children x).
Proof.
  intros L gfuel c gs p n id e fuel k ns G I T FA F.
  exact (absent _ _ _ _ _ _ _ FA (proj1 (fault_true gfuel c gs p n id e fuel _ G I T F)) eq_refl).
Qed.
Print Assumptions C69_absent.

Example C69_absent_example : flat_all (ctx_of (ex_all [])) (names_of (ex_all []))
  /\ generated 40 (ctx_of (ex_all [])) (names_of (ex_all [])) (module_of (ex_all []))
  /\ read_with (ex_all []) "P" (el "p" [] [txt "z" "3"; txt "x" "1"]) = Some (Err (FeMissingElement "y" None)).
Proof.
  split; [|split; [split; [by_compute|apply nodupb_NoDup; by_compute]|by_compute]].
  intros n r I G. vm_compute in I. destruct I as [<-|[]]. vm_compute in G. injection G as <-. split.
  - repeat constructor.
  - repeat constructor; vm_compute; intuition discriminate.
Qed.

(** In a sequence the element may be there, later. *)
Theorem C69_absent_refuted : exists doc x k ns,
  read_with doc "Order" x = Some (Err (FeMissingElement k ns)) /\ has_name "order" ns x = true
  /\ exists y, In y (xe_children x) /\ matches k ns y.
Proof.
  exists ex_order, (ex_fault eur [txtq "item" "a"; txtq "id" "7"]), "id", (Some "urn:t").
  split; [by_compute|]. split; [by_compute|]. exists (txtq "id" "7"). split; [right; now left|split; reflexivity].
Qed.
Print Assumptions C69_absent_refuted.
