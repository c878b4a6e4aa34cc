(** * PropEvo: modules generated for two versions of a schema (C81) *)
From Verif Require Import Base Libs Xml Ast Parse Decode Writer Gen Run CursorSpec CursorProof GenSpec GenProof1 DecSpec DecSim DecProof ReadSpec DecProof1 DecProof2 RepSpec RepProof
  WfSpec WfProof WfCheck TypeProof TermProof LlSpec LlProof RoundSpec CanonSpec StableSpec RustSpec RustGen RustCheck ValidSpec ValidProof ValidCheck Harness Samples
  EvoSpec EvoProof EvoProof2 EvoWrite EvoProof3 PropDecode PropTerm PropRound.
From Verif Require CanonProof2 TypedCanon TypedCheck.

(** ** Decoding *)
(** C81: what the old module decodes, the new one decodes, to the value with the added
    members absent; enumerations may have got further values. *)
Theorem C81_decoded : forall (L : Libs) Ns As wide gfuel gfuel' c c' p p' n id e v,
  generated gfuel c (names_in c) p -> generated gfuel' c' (names_in c') p' -> evolves Ns As wide c c' ->
  In n (names_in c) -> type_ident n = Ok id -> unaware Ns As e ->
  yields (fun fuel => from_xml p fuel id e) (Ok v) ->
  exists v', grown v v' /\ yields (fun fuel => from_xml p' fuel id e) (Ok v').
Proof.
  intros L Ns As wide gfuel gfuel' c c' p p' n id e v G G' Ev I Ei U [N H].
  destruct (decode_kept Ns As wide gfuel gfuel' c c' p p' G G' Ev n id e N (Ok v) I Ei U (H N (Nat.le_refl _)) Logic.I) as (o' & A & Y); [right; eauto|].
  destruct o' as [v'| | |]; cbn in A; try contradiction. eauto.
Qed.
Print Assumptions C81_decoded.

(** Without further values of enumerations, the errors are the same too. *)
Theorem C81_errors : forall (L : Libs) Ns As gfuel gfuel' c c' p p' n id e x,
  generated gfuel c (names_in c) p -> generated gfuel' c' (names_in c') p' -> evolves Ns As false c c' ->
  In n (names_in c) -> type_ident n = Ok id -> unaware Ns As e ->
  yields (fun fuel => from_xml p fuel id e) (Err x) -> yields (fun fuel => from_xml p' fuel id e) (Err x).
Proof.
  intros L Ns As gfuel gfuel' c c' p p' n id e x G G' Ev I Ei U [N H].
  destruct (decode_kept Ns As false gfuel gfuel' c c' p p' G G' Ev n id e N (Err x) I Ei U (H N (Nat.le_refl _)) Logic.I) as (o' & A & Y); [now left|].
  destruct o' as [|x'| |]; cbn in A; try contradiction. now subst x'.
Qed.
Print Assumptions C81_errors.

(** ... so that the new module decodes no document of the old schema that the old one
    does not, and not to anything else. *)
Theorem C81_back : forall (L : Libs) Ns As gfuel gfuel' c c' p p' n id e v',
  generated gfuel c (names_in c) p -> generated gfuel' c' (names_in c') p' -> evolves Ns As false c c' ->
  compiles c (names_in c) -> grounded c (names_in c) ->
  In n (names_in c) -> type_ident n = Ok id -> unaware Ns As e ->
  yields (fun fuel => from_xml p' fuel id e) (Ok v') ->
  exists v, grown v v' /\ yields (fun fuel => from_xml p fuel id e) (Ok v).
Proof.
  intros L Ns As gfuel gfuel' c c' p p' n id e v' G G' Ev Cp Gr I Ei U [N' H'].
  destruct (C09_decoding_ends_partial L gfuel c (names_in c) p n id e G Cp Gr I Ei) as (o & Fo & N & H).
  destruct (decode_kept Ns As false gfuel gfuel' c c' p p' G G' Ev n id e N o I Ei U (H N (Nat.le_refl _)) Fo) as (o' & A & M & Y); [now left|].
  pose proof (H' (N' + M) ltac:(lia)) as E. rewrite (Y (N' + M) ltac:(lia)) in E. subst o'.
  destruct o as [v| | |]; cbn in A; try contradiction. exists v. split; [exact A|]. exists N. exact H.
Qed.
Print Assumptions C81_back.

(** A document that a value of the old schema stands for stands for the value with the added
    members absent by the new one, and is decoded to it if the new schema is unambiguous. *)
Lemma stands {L : Libs} Ns As wide gfuel' c c' p' vn F n id v e : generated gfuel' c' (names_in c') p' -> evolves Ns As wide c c' ->
  unambiguous_b c' (names_in c') vn F = true -> rep_doc c (names_in c) appended exactly (counted vn) n v e -> unaware [] As e -> type_ident n = Ok id ->
  exists v', grown v v' /\ rep_doc c' (names_in c') appended exactly (counted vn) n v' e /\ yields (fun fuel => from_xml p' fuel id e) (Ok v').
Proof.
  intros G' Ev U' R P Ei.
  destruct (rep_doc_kept Ns As wide c c' Ev (same_ident gfuel' c' _ p' G') (gen_fields gfuel' c' p' G') (gen_attrs gfuel' c' p' G') (gen_enum gfuel' c' p' G') appended exactly (counted vn)) with (n := n) (v := v) (e := e) as (v' & R' & A); auto.
  - intros l. reflexivity.
  - intros a b l x -> H. apply in_or_app. exact H.
  - intros l all x -> H. exact H.
  - intros f O _ H. congruence.
  - intros f f' vs vs' (_ & _ & _ & _ & O & _) Len H E1 E2. rewrite O in E2. specialize (H E1 E2). destruct vs, vs'; try discriminate; congruence.
  - exists v'. split; [exact A|]. split; [exact R'|]. apply (ll_doc c' _ (same_ident gfuel' c' _ p' G') vn F U') in R'. destruct G' as [Hp Hnd]. exact (read_doc_complete c' gfuel' _ p' Hp Hnd _ _ _ _ Ei R').
Qed.

(** A document that is valid by the old schema, whatever the names of the added elements,
    is decoded by the module of an unambiguous new schema. *)
Theorem C81_valid_partial : forall (L : Libs) Ns As wide gfuel gfuel' c c' p p' F n id e,
  generated gfuel c (names_in c) p -> generated gfuel' c' (names_in c') p' -> evolves Ns As wide c c' ->
  rust_ok p -> variants_required c (names_in c) -> unambiguous_b c (names_in c) false F = true -> unambiguous_b c' (names_in c') false F = true ->
  valid_document c (names_in c) n e -> unaware [] As e -> type_ident n = Ok id ->
  exists v v', grown v v' /\ yields (fun fuel => from_xml p fuel id e) (Ok v) /\ yields (fun fuel => from_xml p' fuel id e) (Ok v').
Proof.
  intros L Ns As wide gfuel gfuel' c c' p p' F n id e G G' Ev Rk Vr U U' Vd P Ei.
  destruct (valid_decoded gfuel c (names_in c) p F n id e G Rk Vr U Vd Ei) as (v & R & Y).
  destruct (stands Ns As wide gfuel' c c' p' false F n id v e G' Ev U' R P Ei) as (v' & A & _ & Y'). eauto 6.
Qed.
Print Assumptions C81_valid_partial.

(** ** Writing *)
(** A value of the old module and the same value with the added members absent are written
    the same, event by event, to anything that has the names of the old schema. *)
Theorem C81_written : forall (L : Libs) Ns As wide gfuel gfuel' c c' p p' fuel id v v' evs,
  generated gfuel c (names_in c) p -> generated gfuel' c' (names_in c') p' -> evolves Ns As wide c c' ->
  compiles c (names_in c) -> rust_ok p' ->
  has_type p (TRef id) v -> has_type p' (TRef id) v' -> grown v v' ->
  to_xml p fuel id v = Ok evs -> to_xml p' fuel id v' = Ok evs.
Proof.
  intros L Ns As wide gfuel gfuel' c c' p p' fuel id v v' evs G G' Ev Cp [Dk _] T T' A E.
  eapply (document_written p p'); eauto. intros id0 t. exact (modules_sim Ns As wide gfuel gfuel' c c' p p' G G' Ev Cp (ds_decls _ Dk) id0 t).
Qed.
Print Assumptions C81_written.

(** A document that the old module reads, and writes back as [evs], the new one reads and
    writes back as [evs]. *)
Theorem C81_exchange : forall (L : Libs) Ns As wide gfuel gfuel' c c' p p' n id e v evs,
  generated gfuel c (names_in c) p -> generated gfuel' c' (names_in c') p' -> evolves Ns As wide c c' ->
  compiles c (names_in c) -> rust_ok p' ->
  In n (names_in c) -> type_ident n = Ok id -> unaware Ns As e ->
  yields (fun fuel => from_xml p fuel id e) (Ok v) -> yields (fun fuel => to_xml p fuel id v) (Ok evs) ->
  exists v', grown v v' /\ yields (fun fuel => from_xml p' fuel id e) (Ok v') /\ yields (fun fuel => to_xml p' fuel id v') (Ok evs).
Proof.
  intros L Ns As wide gfuel gfuel' c c' p p' n id e v evs G G' Ev Cp Rk I Ei U Y [N W].
  destruct (C81_decoded L Ns As wide gfuel gfuel' c c' p p' n id e v G G' Ev I Ei U Y) as (v' & A & Y'). exists v'. split; [exact A|]. split; [exact Y'|].
  assert (I' : In n (names_in c')) by (apply (gs_kept Ns As wide c c' Ev); exact I).
  exists N. intros fuel Le. apply (C81_written L Ns As wide gfuel gfuel' c c' p p' fuel id v v' evs G G' Ev Cp Rk); auto.
  - destruct Y as [M Y]. exact (C08_typed L gfuel c _ p n id e M v G (cp_choices _ _ Cp) I Ei (Y M (Nat.le_refl _))).
  - destruct Rk as [Dk Fk]. apply (functions_iff gfuel' c' _ p' (proj1 G') Dk) in Fk. destruct Y' as [M Y']. exact (C08_typed L gfuel' c' _ p' n id e M v' G' (proj1 (proj2 Fk)) I' Ei (Y' M (Nat.le_refl _))).
Qed.
Print Assumptions C81_exchange.

(** Both ways: what the old module writes, the new one reads, with the added members absent,
    and writes as before. *)
Theorem C81_exchange_partial : forall (L : Libs) Ns As wide gfuel gfuel' c c' p p' vn F k n r id v,
  generated gfuel c (names_in c) p -> generated gfuel' c' (names_in c') p' -> evolves Ns As wide c c' ->
  compiles c (names_in c) -> rust_ok p' -> unambiguous_b c (names_in c) vn F = true -> unambiguous_b c' (names_in c') vn F = true ->
  writable_b c (names_in c) k = true -> entry_b c (names_in c) k n = true ->
  In n (names_in c) -> sc_get c n = Some r -> type_ident n = Ok id -> canon_root c (names_in c) vn n r v ->
  exists evs d, yields (fun fuel => to_xml p fuel id v) (Ok evs) /\ document evs = Some d
    /\ forall d', indented d d' -> unaware [] As d' ->
         yields (fun fuel => from_xml p fuel id d') (Ok v)
         /\ exists v', grown v v' /\ yields (fun fuel => from_xml p' fuel id d') (Ok v') /\ yields (fun fuel => to_xml p' fuel id v') (Ok evs).
Proof.
  intros L Ns As wide gfuel gfuel' c c' p p' vn F k n r id v G G' Ev Cp Rk U U' W En I Gn Ei C.
  destruct (CanonProof2.canon_doc gfuel c _ p vn k n r id v G W En I Gn Ei C) as (evs & d & [N Hw] & Hd & R). exists evs, d. split; [exists N; exact Hw|]. split; [exact Hd|].
  intros d' Id P. specialize (R d' Id). split.
  - pose proof (ll_doc c _ (same_ident gfuel c _ p G) vn F U _ _ _ R) as Rd. destruct G as [Hp Hnd]. exact (read_doc_complete c gfuel _ p Hp Hnd _ _ _ _ Ei Rd).
  - destruct (stands Ns As wide gfuel' c c' p' vn F n id v d' G' Ev U' R P Ei) as (v' & A & R' & Y'). exists v'. split; [exact A|]. split; [exact Y'|]. exists N. intros fuel Le.
    apply (C81_written L Ns As wide gfuel gfuel' c c' p p' fuel id v v' evs G G' Ev Cp Rk); auto.
    + eapply (doc_typed gfuel c _ p G (cp_choices _ _ Cp)); eauto.
    + destruct Rk as [Dk Fk]. apply (functions_iff gfuel' c' _ p' (proj1 G') Dk) in Fk. eapply (doc_typed gfuel' c' _ p' G' (proj1 (proj2 Fk))); eauto.
Qed.
Print Assumptions C81_exchange_partial.

(** ** Two versions of a schema *)
Definition colors (l : list string) : xelem := xs "simpleType" [at_ "name" "color"]
  [xs "restriction" [at_ "base" "xs:string"] (map (fun s => xs "enumeration" [at_ "value" s] []) l)].
Definition shop (values : list string) (more : list xelem) (alt : list xelem) (ats : list xelem) (types : list xelem) : xelem :=
  xschema [at_ "targetNamespace" "urn:t"; at_ "elementFormDefault" "qualified"]
    ([colors values;
      xelement [at_ "name" "order"]
       [xcomplex ([xsequence
         ([xtyped "id" "xs:int"; xelement ([at_ "name" "note"; at_ "type" "xs:string"] ++ occ "0" "1") []] ++ more ++
          [xelement ([at_ "name" "item"; at_ "type" "xs:string"] ++ occ "1" "unbounded") [];
           xs "choice" [] ([xtyped "cash" "xs:boolean"; xtyped "card" "xs:string"] ++ alt)])] ++ ats ++
         [xs "attribute" [at_ "name" "currency"; at_ "type" "xs:string"; at_ "use" "required"] []])]] ++ types).
Definition opt (n t : string) : xelem := xelement ([at_ "name" n; at_ "type" t] ++ occ "0" "1") [].
Definition ex_v1 : xelem := shop ["red"; "blue"] [opt "color" "t:color"] [] [] [].
(** A color more, two optional elements (one of a new type), a way to pay, an attribute. *)
Definition ex_v2 : xelem := shop ["red"; "blue"; "green"] [opt "color" "t:color"; opt "weight" "xs:decimal"; opt "gift" "t:gift"] [xtyped "cable" "xs:string"]
  [xs "attribute" [at_ "name" "channel"; at_ "type" "xs:string"] []]
  [xs "complexType" [at_ "name" "gift"] [xsequence [xtyped "to" "xs:string"]]].
Definition Ns2 : list (string * option string) := [("weight", Some "urn:t"); ("gift", Some "urn:t"); ("cable", Some "urn:t")].
Lemma evolves_each Ns As wide c c' : Forall (fun e => exists r', sc_get c' (fst e) = Some r' /\ grown_root Ns As wide c' (snd e) r') (sc_elements c) ->
  sc_target c' = sc_target c -> sc_qualified c' = sc_qualified c -> sc_namespaces c' = sc_namespaces c -> evolves Ns As wide c c'.
Proof.
  intros H T Q N. split; auto. intros n r G. unfold sc_get in G. revert G. induction H as [|[n0 r0] l X F IH]; cbn [aget fst snd] in *; [discriminate|].
  destruct (name_eqb n n0) eqn:E; [|exact IH]. intros G. injection G as <-. apply name_eqb_eq in E. subst. exact X.
Qed.
Ltac evolves_by_compute :=
  apply evolves_each; [|by_compute|by_compute|by_compute];
  match goal with |- Forall ?P ?l => let l' := eval vm_compute in l in change (Forall P l') end;
  repeat (constructor; [eexists; split; [by_compute|]|]); [..|constructor]; cbn [snd];
  [> first [apply go_enum | (match goal with |- grown_root _ _ _ _ (RootEnum ?a) (RootEnum ?b) => let m := eval vm_compute in (skipn (length a) b) in apply (go_values _ _ _ _ a m); reflexivity end)
          | apply go_leaf; reflexivity
          | apply go_choice; [|reflexivity]; cbn [cd_variants]
          | apply go_element; [cbn [ed_content]; first [apply gc_empty|apply gc_leaf; reflexivity|apply gc_leaves|apply gc_none]|cbn [ed_attributes]|reflexivity]] ..];
  repeat first [apply wm_nil | apply wm_keep; [repeat split; reflexivity|] | apply wm_new; [repeat split; try reflexivity; try (eexists; split; [by_compute|]); cbn; tauto|]].
Example v2_evolves : evolves Ns2 ["channel"] true (ctx_of ex_v1) (ctx_of ex_v2).
Proof. evolves_by_compute. Qed.
Example v1_generated : generated 40 (ctx_of ex_v1) (names_in (ctx_of ex_v1)) (module_of ex_v1).
Proof. split; [by_compute|apply nodupb_NoDup; by_compute]. Qed.
Example v2_generated : generated 40 (ctx_of ex_v2) (names_in (ctx_of ex_v2)) (module_of ex_v2).
Proof. split; [by_compute|apply nodupb_NoDup; by_compute]. Qed.
Definition order1 : xelem := elq "order" [at_ "currency" "EUR"] [txtq "id" "7"; txtq "color" "blue"; txtq "item" "a"; txtq "item" "b"; txtq "card" "x"].
Definition value1 : value := VStruct [("id", VInt 7); ("note", VNone); ("color", VSome (VEnum "Blue")); ("item", VVec [VStr "a"; VStr "b"]); ("ca", VChoice "Card" (VStr "x")); ("currency", VStr "EUR")].
Definition value2 : value := VStruct [("id", VInt 7); ("note", VNone); ("color", VSome (VEnum "Blue")); ("weight", VNone); ("gift", VNone);
  ("item", VVec [VStr "a"; VStr "b"]); ("ca", VChoice "Card" (VStr "x")); ("channel", VNone); ("currency", VStr "EUR")].
Lemma order1_unaware Ns : (forall t, In t ["id"; "color"; "item"; "card"] -> ~ In (t, Some "urn:t") Ns) -> unaware Ns ["channel"] order1.
Proof.
  intros H. constructor; [intros a [<-|[]]; reflexivity|]. cbn. repeat (constructor; [split; [apply H; cbn; tauto|constructor; [intros a [<-|[]]; reflexivity|constructor]]|]). constructor.
Qed.
Example C81_example : read_with ex_v1 "Order" order1 = Some (Ok value1) /\ read_with ex_v2 "Order" order1 = Some (Ok value2) /\ grown value1 value2
  /\ (forall evs, write_with ex_v1 "Order" value1 = Some (Ok evs) -> write_with ex_v2 "Order" value2 = Some (Ok evs)).
Proof.
  split; [by_compute|]. split; [by_compute|]. split; [repeat constructor|]. intros evs H. rewrite <- H. by_compute.
Qed.
(** ... by the theorem: some value is read by the new module, and it is [value2]. *)
Example C81_decoded_example : exists v', grown value1 v' /\ yields (fun fuel => from_xml (module_of ex_v2) fuel "Order" order1) (Ok v').
Proof.
  apply (C81_decoded _ Ns2 ["channel"] true 40 40 (ctx_of ex_v1) (ctx_of ex_v2) (module_of ex_v1) (module_of ex_v2) (mkName "order" (NsId 1)) "Order" order1 value1
    v1_generated v2_generated v2_evolves).
  - vm_compute. tauto.
  - by_compute.
  - apply order1_unaware. cbn. intuition congruence.
  - exists 40. intros fuel Le. apply (from_xml_stable _ _ _ 40 fuel); [by_compute|exact Logic.I|exact Le].
Qed.
(** An order with everything that is new; the old module ignores the attribute and stops
    at the element it does not know. *)
Definition order2 : xelem := elq "order" [at_ "channel" "web"; at_ "currency" "EUR"]
  [txtq "id" "7"; txtq "color" "green"; txtq "weight" "1.5"; elq "gift" [] [txtq "to" "Ann"]; txtq "item" "a"; txtq "cable" "y"].
Example C81_new_example :
  read_with ex_v2 "Order" order2 = Some (Ok (VStruct [("id", VInt 7); ("note", VNone); ("color", VSome (VEnum "Green")); ("weight", VSome (VDec (mkDec false 15 1)));
    ("gift", VSome (VStruct [("to", VStr "Ann")])); ("item", VVec [VStr "a"]); ("ca", VChoice "Cable" (VStr "y")); ("channel", VSome (VStr "web")); ("currency", VStr "EUR")]))
  /\ read_with ex_v1 "Order" order2 = Some (Err (FeInvalidVariant "green")).
Proof. split; by_compute. Qed.

(** The conditions of the other theorems. *)
Lemma v1_constants : constants_ok (ctx_of ex_v1) (names_in (ctx_of ex_v1)).
Proof.
  constructor.
  - intros n ns I G. each_type I G. split; [apply nodupb_NoDup; reflexivity|]. repeat (constructor; [apply plain_text; reflexivity|]). constructor.
  - intros n r ct s I G Ic F. each_type I G; vm_compute in Ic;
      repeat (destruct Ic as [<-|Ic]; [apply (final_fixed _ _ _ 20 F); vm_compute; auto|]); destruct Ic.
  - intros n r a s I G Ia E. each_type I G; vm_compute in Ia;
      repeat (destruct Ia as [<-|Ia]; [discriminate E|]); destruct Ia.
Qed.
Lemma value1_clean : clean value1.
Proof. repeat (constructor; try discriminate; try reflexivity). Qed.
Example C81_exchange_example : exists evs d,
  yields (fun fuel => to_xml (module_of ex_v1) fuel "Order" value1) (Ok evs) /\ document evs = Some d
  /\ forall d', indented d d' -> unaware [] ["channel"] d' ->
       yields (fun fuel => from_xml (module_of ex_v1) fuel "Order" d') (Ok value1)
       /\ exists v', grown value1 v' /\ yields (fun fuel => from_xml (module_of ex_v2) fuel "Order" d') (Ok v')
            /\ yields (fun fuel => to_xml (module_of ex_v2) fuel "Order" v') (Ok evs).
Proof.
  assert (I : In (mkName "order" (NsId 1)) (names_in (ctx_of ex_v1))) by (vm_compute; tauto).
  assert (Ei : type_ident (mkName "order" (NsId 1)) = Ok "Order") by by_compute.
  assert (Gr : exists r, sc_get (ctx_of ex_v1) (mkName "order" (NsId 1)) = Some r) by (eexists; by_compute). destruct Gr as [r Gr].
  assert (Cp : compiles (ctx_of ex_v1) (names_in (ctx_of ex_v1))) by (apply compiles_b_ok; by_compute).
  assert (R : rust_ok (module_of ex_v2)) by (apply rust_accepts; by_compute).
  apply (C81_exchange_partial _ Ns2 ["channel"] true 40 40 (ctx_of ex_v1) (ctx_of ex_v2) (module_of ex_v1) (module_of ex_v2) true 20 20 (mkName "order" (NsId 1)) r "Order" value1
    v1_generated v2_generated v2_evolves Cp R); [by_compute|by_compute|by_compute|by_compute|exact I|exact Gr|exact Ei|].
  apply (TypedCanon.typed_canon ascii_laws 40 _ _ _ v1_generated Cp v1_constants _ r "Order"); [exact I|exact Gr|exact Ei| |].
  - apply (TypedCheck.has_type_b_ok 9). by_compute.
  - exact value1_clean.
Qed.

(** ** What is not kept *)
(** The name of a choice without a name is made from the names of its alternatives. With one
    more of them, a member gets another name and the values differ. *)
Definition ex_paypal : xelem := shop ["red"; "blue"] [opt "color" "t:color"] [xtyped "paypal" "xs:string"] [] [].
Theorem C81_choice_names_refuted : exists v v',
  read_with ex_v1 "Order" order1 = Some (Ok v) /\ read_with ex_paypal "Order" order1 = Some (Ok v') /\ ~ grown v v'.
Proof.
  do 2 eexists. split; [by_compute|]. split; [by_compute|]. intros H. inversion H as [| | | | | | | | | | |fs fs' F|]; subst. clear H.
  repeat (match goal with F : grown_fields _ _ |- _ => inversion F; clear F; subst end; try discriminate).
Qed.
Print Assumptions C81_choice_names_refuted.

(** A document that already had, after what the old module reads, an element called as one
    that is added later (which the old module ignores), is read differently or no more. *)
Definition ends (more : list xelem) : xelem := xschema [at_ "targetNamespace" "urn:t"; at_ "elementFormDefault" "qualified"]
  [xelement [at_ "name" "p"] [xcomplex [xsequence (xtyped "a" "xs:int" :: more)]]].
Theorem C81_known_names_refuted : exists v,
  evolves [("b", Some "urn:t")] [] false (ctx_of (ends [])) (ctx_of (ends [opt "b" "xs:int"]))
  /\ read_with (ends []) "P" (elq "p" [] [txtq "a" "1"; txtq "b" "x"]) = Some (Ok v)
  /\ read_with (ends [opt "b" "xs:int"]) "P" (elq "p" [] [txtq "a" "1"; txtq "b" "x"]) = Some (Err (FeParseType "int" "x")).
Proof. eexists. split; [evolves_by_compute|]. split; by_compute. Qed.
Print Assumptions C81_known_names_refuted.
