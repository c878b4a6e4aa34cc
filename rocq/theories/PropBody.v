(** * PropBody: the emitted function bodies, run as Rust code (C63-C65) *)
From Coq Require Import Permutation.
From Verif Require Import Base Libs Xml Ast Decode Writer Gen Run LitSpec GenSpec DecSpec ReadSpec RepSpec DecProof WriterSpec EncSpec LlSpec
  RoundSpec CanonSpec StableSpec TypedCanon TypedCheck WfSpec WfProof WfCheck GenProof1 RustSpec RustWrite RustCheck Rust Body RustRules BodySpec BodyRead BodyWrite BodyGen
  Harness Samples PropGen PropDecode PropTerm PropRust PropRound.

(** A call has at most one result. *)
Lemma returns_once {L : Libs} p id f args r r' : returns p id f args r -> returns p id f args r' -> r = r'.
Proof.
  intros H H'. destruct (H (mkState [] [] [] "")) as (s1 & F1 & H1). destruct (H' (mkState [] [] [] "")) as (s2 & F2 & H2).
  assert (E := H1 (F1 + F2) (Nat.le_add_r _ _) []). rewrite (H2 (F1 + F2) (Nat.le_add_l _ _) []) in E. now injection E.
Qed.

(** C63. The functions [from_xml] emitted for a schema, run as Rust, return what the
    schema-level rules of DecSpec.v give. *)
Theorem C63_reading : forall (L : Libs) gfuel c gs p n id e o,
  pascal_law L -> generated gfuel c gs p -> rust_ok p -> In n gs -> type_ident n = Ok id ->
  fin o -> read_doc c gs n e o ->
  exists r, result_of o r /\ returns p id "from_xml" [Doc e] r /\ forall r', returns p id "from_xml" [Doc e] r' -> r' = r.
Proof.
  intros L gfuel c gs p n id e o PL G OK I Ei Fo R. destruct (proj2 (C49_decoder_meets_spec L gfuel c gs p n id e o G I Ei Fo) R) as (fuel & Hx).
  assert (H : exists r, result_of o r /\ returns p id "from_xml" [Doc e] r).
  { pose proof (generated_free PL _ _ _ _ (proj1 G)) as Nv.
    destruct o as [v|x| |]; try contradiction; (eexists; split; [reflexivity|]; intros s; pose proof (from_xml_fn p OK Nv fuel id e s) as H;
      rewrite Hx in H; destruct H as (s' & H); exists s'; apply H || apply (proj1 H)). }
  destruct H as (r & Hr & H). exists r. split; auto. split; auto. intros r' H'. eapply returns_once; eauto.
Qed.
Print Assumptions C63_reading.

(** Together with C09 and C53: every document gets an answer, a value of the type or an error. *)
Theorem C63_answers : forall (L : Libs) gfuel c gs p n id e,
  pascal_law L -> generated gfuel c gs p -> rust_ok p -> compiles c gs -> grounded c gs -> In n gs -> type_ident n = Ok id ->
  (exists v, returns p id "from_xml" [Doc e] (ROk (D v)) /\ has_type p (TRef id) v)
  \/ (exists x, returns p id "from_xml" [Doc e] (RErr (Er x))).
Proof.
  intros L gfuel c gs p n id e PL G OK Cp Gr I Ei.
  destruct (C09_decoding_ends_partial L gfuel c gs p n id e G Cp Gr I Ei) as (o & Fo & N & H). specialize (H N (Nat.le_refl _)).
  pose proof (generated_free PL _ _ _ _ (proj1 G)) as Nv.
  assert (Df : defined p id).
  { unfold from_xml, from_xml_with in H. destruct (lookup_item p id) as [t|] eqn:Lk; [|now subst o].
    destruct (found p _ _ Lk) as [It <-]. now apply in_map. }
  pose proof (fun s => from_xml_fn p OK Nv N id e s) as F.
  destruct o as [v|x| |]; try contradiction; rewrite H in F.
  - left. exists v. split; [intros s; destruct (F s) as (s' & Hs & _); eauto|]. exact (proj2 (C53_reading_sound L p N id e OK Df) v H).
  - right. exists x. intros s. destruct (F s) as (s' & Hs); eauto.
Qed.
Print Assumptions C63_answers.

(** What is asked of the names holds for the PascalCase of ASCII names. *)
Theorem C63_names : pascal_law ascii_libs.
Proof. exact ascii_pascal_law. Qed.
Print Assumptions C63_names.

Example C63_example : returns (module_of ex_order) "Order" "from_xml" [Doc ex_order_doc] (ROk (D ex_order_value))
  /\ returns (module_of ex_order) "Order" "from_xml" [Doc (elq "order" [] [txtq "id" "x"])] (RErr (Er (FeParseType "int" "x"))).
Proof.
  assert (OK : rust_ok (module_of ex_order)) by (apply rust_accepts; by_compute).
  assert (G := proj1 order_generated). assert (I : In (mkName "order" (NsId 1)) (Samples.names_of ex_order)) by (vm_compute; auto 10).
  assert (Ei : type_ident (mkName "order" (NsId 1)) = Ok "Order") by by_compute.
  assert (X : forall e o, fin o -> from_xml (module_of ex_order) 40 "Order" e = o -> exists r, result_of o r /\ returns (module_of ex_order) "Order" "from_xml" [Doc e] r).
  { intros e o Fo H. destruct (C63_reading _ 40 _ _ _ _ _ e o C63_names G OK I Ei Fo) as (r & Hr & H' & _); [|eauto].
    apply (C49_decoder_meets_spec _ _ _ _ _ _ _ _ _ G I Ei Fo). now exists 40. }
  split.
  - destruct (X ex_order_doc (Ok ex_order_value)) as (r & -> & H); [exact Logic.I|by_compute|exact H].
  - destruct (X (elq "order" [] [txtq "id" "x"]) (Err (FeParseType "int" "x"))) as (r & -> & H); [exact Logic.I|by_compute|exact H].
Qed.
(** The same by running the code. *)
Definition run_fn (p : program) (id f : string) (args : list rv) : outcome :=
  call_fn (module_fn p) (fun t => eval p (module_fn p) 60 t) id f args [] (mkState [] [] [] "").
Example C63_run :
  match run_fn (module_of ex_order) "Order" "from_xml" [Doc ex_order_doc] with Val r _ _ => r = ROk (D ex_order_value) | _ => False end
  /\ match run_fn (module_of ex_order) "Order" "from_xml" [Doc (elq "order" [] [txtq "id" "x"])] with
     | Val r _ _ => r = RErr (Er (FeParseType "int" "x")) | _ => False end.
Proof. split; by_compute. Qed.

(** C64. The emitted [to_xml] of a value of the type, run as Rust, returns [Ok] and writes the
    start of a document and what the model of writing (Run.v) says. *)
Theorem C64_writing : forall (L : Libs) p id v evs fuel,
  rust_ok p -> to_xml p fuel id v = Ok evs -> writes p id "to_xml" [D v] (WDoc :: map WEv evs).
Proof.
  intros L p id v evs fuel OK H s. destruct (to_xml_fn p OK fuel id v evs s H) as (s' & r & F & _ & _ & O & _). eauto.
Qed.
Print Assumptions C64_writing.

Theorem C64_typed : forall (L : Libs) p id v,
  rust_ok p -> defined p id -> has_type p (TRef id) v ->
  exists evs, writes p id "to_xml" [D v] (WDoc :: map WEv evs) /\ yields (fun fuel => to_xml p fuel id v) (Ok evs).
Proof.
  intros L p id v OK Df T. destruct (C53_writing_total L p id v OK Df T) as (evs & N & H). exists evs. split.
  - eapply C64_writing; [exact OK|exact (H N (Nat.le_refl _))].
  - exists N. exact H.
Qed.
Print Assumptions C64_typed.

(** Rust to Rust: what [to_xml] writes is a document that [from_xml] reads as the value. *)
Theorem C64_round_trip : forall (L : Libs) gfuel c gs p F k n r id v,
  pascal_law L -> scalar_laws L -> generated gfuel c gs p -> rust_ok p -> compiles c gs -> constants_ok c gs ->
  unambiguous_b c gs true F = true -> writable_b c gs k = true -> entry_b c gs k n = true ->
  In n gs -> sc_get c n = Some r -> type_ident n = Ok id -> has_type p (TRef id) v -> clean v ->
  exists evs d, writes p id "to_xml" [D v] (WDoc :: map WEv evs) /\ document evs = Some d
    /\ forall d', indented d d' -> returns p id "from_xml" [Doc d'] (ROk (D v)).
Proof.
  intros L gfuel c gs p F k n r id v PL La G OK Cp Cn U W En I Gn Ei T C.
  destruct (C24_typed_values L gfuel c gs p F k n r id v La G Cp Cn U W En I Gn Ei T C) as (evs & d & (N & Hw) & Hd & Hr).
  exists evs, d. split; [eapply C64_writing; [exact OK|exact (Hw N (Nat.le_refl _))]|]. split; auto.
  intros d' Id s. destruct (Hr d' Id) as (M & HM). pose proof (from_xml_fn p OK (generated_free PL _ _ _ _ (proj1 G)) M id d' s) as H.
  rewrite (HM M (Nat.le_refl _)) in H. destruct H as (s' & H & _). eauto.
Qed.
Print Assumptions C64_round_trip.

Example C64_example : exists evs d, writes (module_of ex_order) "Order" "to_xml" [D ex_order_value] (WDoc :: map WEv evs)
  /\ document evs = Some d /\ strip d = ex_order_doc
  /\ forall d', indented d d' -> returns (module_of ex_order) "Order" "from_xml" [Doc d'] (ROk (D ex_order_value)).
Proof.
  destruct order_condition as (A & _ & B & C & D & E).
  assert (Gr : exists r, sc_get (ctx_of ex_order) (mkName "order" (NsId 1)) = Some r) by (eexists; by_compute).
  destruct Gr as [r Gr].
  assert (OK : rust_ok (module_of ex_order)) by (apply rust_accepts; by_compute).
  assert (T : has_type (module_of ex_order) (TRef "Order") ex_order_value) by (apply (has_type_b_ok 9); by_compute).
  destruct (C64_round_trip _ 40 _ _ _ 20 20 _ r _ _ C63_names ascii_laws (proj1 order_generated) OK (proj1 order_well_formed) order_constants A B C D Gr E T order_clean)
    as (evs & d & W & Hd & R).
  exists evs, d. repeat (split; [assumption|]). split; auto.
  destruct C24_indentation as (evs' & d' & Hw & Hd' & S & _).
  assert (W' := C64_writing _ _ _ _ _ _ OK Hw). destruct (W (mkState [] [] [] "")) as (s1 & r1 & (F1 & H1) & O1).
  destruct (W' (mkState [] [] [] "")) as (s2 & r2 & (F2 & H2) & O2).
  assert (X := H1 (F1 + F2) (Nat.le_add_r _ _) []). rewrite (H2 (F1 + F2) (Nat.le_add_l _ _) []) in X. injection X as _ <-.
  rewrite O1 in O2. injection O2 as O2. assert (evs = evs') as ->.
  { clear - O2. revert evs' O2. induction evs as [|x l IH]; intros [|y l'] H; try discriminate; auto. injection H as -> H. f_equal. auto. }
  rewrite Hd in Hd'. injection Hd' as ->. exact S.
Qed.
(** By running the code. *)
Example C64_run : exists evs, to_xml (module_of ex_order) 40 "Order" ex_order_value = Ok evs /\ length evs = 17
  /\ match run_fn (module_of ex_order) "Order" "to_xml" [D ex_order_value] with Val (ROk _) _ s => s_out s = WDoc :: map WEv evs | _ => False end.
Proof. eexists. split; [by_compute|]. split; by_compute. Qed.

(** C65. [to_string] on a value of the type [id]. *)
Definition displays {L : Libs} (p : program) (id : string) (w : value) (y : string) : Prop := forall self E s,
  aget String.eqb "x" E = Some (D w) ->
  evals p (module_fn p) self (EMethod (EVar "x") (Some (TRef id)) "to_string" []) E s (Val (D (VStr y)) E s).
Lemma displays_fmt {L : Libs} p id w y : (forall st, fn_to p (module_fn p) id "fmt" [D w; Fm] st (ROk (D VUnit)) (set_text (s_text st +++ y) st)) ->
  displays p id w y.
Proof.
  intros H self E s Hx. pose proof (ev_to_string p (module_fn p) self _ _ _ _ _ _ _ _ _ (ev_var p (module_fn p) self "x" E s (D w) Hx) (H (set_text "" s))) as X.
  destruct s. exact X.
Qed.

(** Enumerations: [from_str] accepts exactly the literals of the schema, [to_string] is its
    inverse. *)
Theorem C65_enumerations : forall (L : Libs) gfuel c gs p n names id,
  pascal_law L -> generated gfuel c gs p -> rust_ok p -> In n gs -> sc_get c n = Some (RootEnum names) -> type_ident n = Ok id ->
  NoDup (map nm names) ->
  (forall s, In s (map nm names) -> exists x, returns p id "from_str" [D (VStr s)] (ROk (D (VEnum x))) /\ displays p id (VEnum x) s)
  /\ (forall s, ~ In s (map nm names) -> returns p id "from_str" [D (VStr s)] (RErr (Er (FeInvalidVariant s))))
  /\ (forall x, has_type p (TRef id) (VEnum x) -> exists s, displays p id (VEnum x) s /\ returns p id "from_str" [D (VStr s)] (ROk (D (VEnum x)))).
Proof.
  intros L gfuel c gs p n names id PL G OK I Gn Ei Nd. pose proof (generated_free PL _ _ _ _ (proj1 G)) as Nv.
  destruct (gen_item _ _ _ _ G n _ I Gn) as (t & It & Lk). assert (ti_id t = id) as Ti by (pose proof (it_id _ _ _ _ _ _ It); congruence).
  rewrite Ti in Lk. pose proof (it_decl _ _ _ _ _ _ It) as Dc. simpl in Dc. apply bind_ok in Dc. destruct Dc as (vs & Ev & Dc). injection Dc as Dc.
  symmetry in Dc. destruct (enum_variants_spec _ _ Ev) as (N1 & S & _). assert (N2 : NoDup (map snd vs)) by now rewrite S.
  destruct (enum_table vs vs N1 N2 (Permutation_refl _)) as (T1 & T2 & T3). rewrite S in T2, T3.
  assert (Ds : forall x s, enum_as_str vs x = Some s -> displays p id (VEnum x) s).
  { intros x s E. apply displays_fmt. intros st. eapply fmt_fn; eauto. }
  assert (Fs : forall s o r, enum_from_str vs s = o -> result_of o r -> returns p id "from_str" [D (VStr s)] r).
  { intros s o r E R st. exists st. pose proof (from_str_fn p OK id t vs s st Lk Dc) as H. rewrite E in H. destruct o; simpl in R; try contradiction; rewrite R; exact H. }
  split; [|split].
  - intros s Is. destruct (T2 s Is) as (x & E1 & E2). exists x. split; [eapply Fs; [exact E1|reflexivity]|auto].
  - intros s Is. eapply Fs; [exact (T3 s Is)|reflexivity].
  - intros x Hx. inversion Hx as [| | | | |id' t' w Lk' D']; subst. rewrite Lk in Lk'. injection Lk' as <-. rewrite Dc in D'. inversion D' as [|vs' x' Ix| |]; subst.
    destruct (T1 x Ix) as (s & E1 & E2). exists s. split; [auto|eapply Fs; [exact E2|reflexivity]].
Qed.
Print Assumptions C65_enumerations.

(** Types made from a built-in type: [from_str] accepts exactly the texts of the Rust type,
    [to_string] is its inverse. *)
Theorem C65_literals : forall (L : Libs) gfuel c gs p n d lit id,
  pascal_law L -> generated gfuel c gs p -> rust_ok p -> In n gs -> sc_get c n = Some (RootLeaf d) -> ld_content d = LcLiteral lit ->
  type_ident n = Ok id -> modelled_prim (lit_prim lit) = true ->
  (forall s, (exists v, denotes (lit_prim lit) s v /\ in_prim (lit_prim lit) v /\ returns p id "from_str" [D (VStr s)] (ROk (D (VTuple v))))
     \/ ((forall v, ~ (denotes (lit_prim lit) s v /\ in_prim (lit_prim lit) v))
         /\ returns p id "from_str" [D (VStr s)] (RErr (Er (FeParseType id s)))))
  /\ (forall v, in_prim (lit_prim lit) v -> exists s, displays p id (VTuple v) s /\ returns p id "from_str" [D (VStr s)] (ROk (D (VTuple v)))).
Proof.
  intros L gfuel c gs p n d lit id PL G OK I Gn El Ei Mp. pose proof (generated_free PL _ _ _ _ (proj1 G)) as Nv.
  destruct (gen_item _ _ _ _ G n _ I Gn) as (t & It & Lk). assert (ti_id t = id) as Ti by (pose proof (it_id _ _ _ _ _ _ It); congruence).
  rewrite Ti in Lk. pose proof (it_decl _ _ _ _ _ _ It) as Dc. simpl in Dc. apply bind_ok in Dc. destruct Dc as (ty & Ty & Dc). injection Dc as Dc.
  rewrite El in Dc. assert (ty = TPrim (lit_prim lit)) as -> by (unfold def_to_impl in Ty; rewrite El in Ty; destruct gfuel; simpl in Ty; now injection Ty).
  symmetry in Dc.
  assert (Fs : forall s, returns p id "from_str" [D (VStr s)]
    (match prim_from_str (lit_prim lit) s with Some w => ROk (D (VTuple w)) | None => RErr (Er (FeParseType id s)) end)).
  { intros s st. exists st. apply (tuple_from_str_fn p OK id t _ s st Lk Dc). }
  assert (Ok_ : forall s v, lit_from_str lit s = Ok v -> prim_from_str (lit_prim lit) s = Some v).
  { intros s v. unfold lit_from_str. destruct (prim_from_str (lit_prim lit) s); intros H; congruence. }
  split.
  - intros s. destruct (C47_accepts L lit s Mp) as [A _]. specialize (Fs s). destruct (prim_from_str (lit_prim lit) s) as [v|] eqn:E.
    + left. exists v. assert (X : lit_from_str lit s = Ok v) by (unfold lit_from_str; now rewrite E). apply A in X. tauto.
    + right. split; auto. intros v X. apply A, Ok_ in X. congruence.
  - intros v Pv. destruct (C47_roundtrip L lit v Pv) as (s & V & R). exists s. split.
    + apply displays_fmt. intros st. exact (tuple_fmt_fn p id t _ v s st Lk Dc V).
    + specialize (Fs s). now rewrite (Ok_ _ _ R) in Fs.
Qed.
Print Assumptions C65_literals.

(** A simple type with an enumeration, and one that renames a number. *)
Definition ex_words : xelem := xschema [] [xs "simpleType" [at_ "name" "size"]
    [xs "restriction" [at_ "base" "xs:string"] [xs "enumeration" [at_ "value" "extra-large"] []; xs "enumeration" [at_ "value" "2nd"] []]];
  xs "simpleType" [at_ "name" "count"] [xs "restriction" [at_ "base" "xs:int"] []]].
Definition gives (id f : string) (args : list rv) (r : rv) : Prop :=
  match run_fn (module_of ex_words) id f args with Val r' _ _ => r' = r | _ => False end.
Definition shows (id : string) (w : value) (y : string) : Prop :=
  match run_fn (module_of ex_words) id "fmt" [D w; Fm] with Val (ROk _) _ s => s_text s = y | _ => False end.
Example C65_run :
  gives "Size" "from_str" [D (VStr "2nd")] (ROk (D (VEnum "V2Nd"))) /\ shows "Size" (VEnum "ExtraLarge") "extra-large"
  /\ gives "Size" "from_str" [D (VStr "small")] (RErr (Er (FeInvalidVariant "small")))
  /\ shows "Count" (VTuple (VInt (-5))) "-5" /\ gives "Count" "from_str" [D (VStr "+12")] (ROk (D (VTuple (VInt 12))))
  /\ gives "Count" "from_str" [D (VStr "1e3")] (RErr (Er (FeParseType "Count" "1e3"))).
Proof. do 5 (split; [by_compute|]). by_compute. Qed.
Example C65_example :
  (exists x, returns (module_of ex_words) "Size" "from_str" [D (VStr "2nd")] (ROk (D (VEnum x))) /\ displays (module_of ex_words) "Size" (VEnum x) "2nd")
  /\ returns (module_of ex_words) "Size" "from_str" [D (VStr "small")] (RErr (Er (FeInvalidVariant "small")))
  /\ exists s, displays (module_of ex_words) "Count" (VTuple (VInt (-5))) s /\ returns (module_of ex_words) "Count" "from_str" [D (VStr s)] (ROk (D (VTuple (VInt (-5))))).
Proof.
  assert (OK : rust_ok (module_of ex_words)) by (apply rust_accepts; by_compute).
  assert (G : generated 40 (ctx_of ex_words) (Samples.names_of ex_words) (module_of ex_words)).
  { split; [by_compute|apply nodupb_NoDup; by_compute]. }
  destruct (C65_enumerations _ 40 _ _ _ (mkName "size" NsNone) [mkName "extra-large" NsNone; mkName "2nd" NsNone] "Size" C63_names G OK) as (E1 & E2 & E3);
    [vm_compute; auto|by_compute|by_compute|apply nodupb_NoDup; by_compute|].
  assert (Gc : exists d, sc_get (ctx_of ex_words) (mkName "count" NsNone) = Some (RootLeaf d) /\ ld_content d = LcLiteral LInt32) by (eexists; split; by_compute).
  destruct Gc as (d & Gc & Gl).
  destruct (C65_literals _ 40 _ _ _ (mkName "count" NsNone) d LInt32 "Count" C63_names G OK) as (F1 & F2);
    [vm_compute; auto|exact Gc|exact Gl|by_compute|reflexivity|].
  split; [apply E1; vm_compute; auto|]. split; [apply E2; simpl; intuition discriminate|]. apply F2. simpl. split; discriminate.
Qed.
