(** * C87: the written document is as long as the value is large *)
From Verif Require Import Base Libs Xml Ast XsdNode Parse Decode Writer Gen Run RustSpec GenSpec GenProof1 EvoProof3 OutSpec OutProof Harness Samples PropDecode.
From Coq Require Import Lia.

Lemma mapM_source {E A B} (g : A -> res E B) l : forall bs b, mapM g l = Ok bs -> In b bs -> exists a, g a = Ok b.
Proof.
  induction l as [|a l IH]; intros bs b M I; cbn [mapM] in M; [injection M as <-; destruct I|]. apply bind_ok in M. destruct M as (b1 & E1 & M). apply bind_ok in M. destruct M as (bs1 & E2 & M). injection M as <-.
  destruct I as [<-|I]; [now exists a|eauto].
Qed.

(** C87. In a module that compiles, writing a value gives at most five events (start tags, end
    tags and texts) for each value in it. *)
Theorem C87_events : forall (L : Libs) gfuel c gs p,
  mapM (generate_element gfuel c) gs = Ok p -> decls_ok p ->
  forall fuel id v es, to_xml p fuel id v = Ok es -> length es + 2 <= 5 * nodes v.
Proof.
  intros L gfuel c gs p M D fuel id v es K. unfold to_xml in K. destruct (lookup_item p id) as [t|]; [|discriminate]. apply bind_ok in K. destruct K as ([e i] & E & K). injection K as <-.
  eapply type_out; [|exact E]. apply Forall_forall. intros u Iu. destruct (mapM_source _ _ _ _ M Iu) as (n & En). eapply generated_once; [exact En|].
  pose proof (ds_decls p D) as Dd. rewrite Forall_forall in Dd. exact (Dd u Iu).
Qed.
Print Assumptions C87_events.

(** Exactly five for an enumeration value in an element of its own. *)
Definition ex_enum : xelem := xschema [] [xs "simpleType" [at_ "name" "u"] [xs "restriction" [at_ "base" "xs:string"] [xs "enumeration" [at_ "value" "one"] []; xs "enumeration" [at_ "value" "two"] []]]].
Example C87_reached : to_xml (module_of ex_enum) 5 "U" (VEnum "Two") = Ok [EvStart "u" [] []; EvChars "two"; EvEnd] /\ nodes (VEnum "Two") = 1.
Proof. split; by_compute. Qed.
Definition ex_order_value : value :=
  VStruct [("id", VInt 7); ("note", VNone); ("item", VVec [VStr "a"; VStr "b"; VStr "c"]); ("tag", VSome (VVec [VStr "x"])); ("version", VUnit);
           ("ca", VChoice "Cash" (VBool true)); ("lang", VSome (VStr "en")); ("currency", VStr "EUR")].
Example C87_example : exists es, to_xml (module_of ex_order) 9 "Order" ex_order_value = Ok es /\ length es = 23 /\ nodes ex_order_value = 16.
Proof. eexists. split; [by_compute|]. split; by_compute. Qed.

(** Without the condition it is false: elements of the same name in a sequence make one field
    that is written several times. (Rust does not accept this module.) *)
Definition ex_same : xelem := xschema [] [xelement [at_ "name" "r"] [xcomplex [xsequence (repeat (xtyped "a" "xs:string") 6)]]].
Theorem C87_same_names_refuted : exists (L : Libs) d s p fuel id v es,
  parse_doc d = Ok s /\ generate_all 40 s = Ok p /\ to_xml p fuel id v = Ok es /\ 5 * nodes v < length es + 2.
Proof.
  exists ascii_libs, ex_same. eexists. exists (module_of ex_same), 9, "R", (VStruct [("a", VStr "x")]). eexists.
  split; [by_compute|]. split; [by_compute|]. split; [by_compute|]. vm_compute. lia.
Qed.
Print Assumptions C87_same_names_refuted.
