(** * PropEnd: from the attribute macro to the results of the generated code (C72) *)
From Verif Require Import Base Libs Xml Ast XsdNode Parse Decode Writer Gen Run Harness Macro MacroSpec Emit Quote Impl LitSpec GenSpec DecSpec ReadSpec RepSpec ValidSpec FaultSpec
  DecProof WriterSpec EncSpec LlSpec RoundSpec CanonSpec StableSpec TypedCanon TypedCheck WfSpec WfProof WfCheck ValidCheck RustSpec RustCheck RustGen Rust RustRules Body BodySpec BodyRead BodyGen GenProof1 SchemaProof
  EmitSpec GramSpec GramItem TypingSpec Samples PropGen PropDecode PropTerm PropRust PropRound PropValid PropBody PropMacro PropFault PropEmit PropGram PropTyping.
From Coq Require Import Lia.

(** ** The chain
    [s] is the schema read from the file [path], [p] the types generated for it, [text] the
    tokens the macro emits for them, [items] what the grammar of Rust reads in these tokens
    and [fns] what the functions in them mean by the typing rules of Rust. *)
Record chain {L : Libs} (fuel gfuel : nat) (k : disk) (path : string) (s : schema) (p : program)
  (text : list tok) (items : list pitem) (fns : string -> string -> option fn) : Prop := mkChain {
  ch_schema : parse_file fuel (fs_of k) path = Ok s;
  ch_types : generate_all gfuel s = Ok p;
  ch_accepted : rust_ok p;
  ch_text : exists rs, Forall2 (fun n r => sc_get (s_context s) n = Some r) (map fst (sc_elements (s_context s))) rs
    /\ text = module_tokens (combine rs p);
  ch_items : exists enough, forall n, enough <= n -> file n text = Some items;
  ch_fns : understood items fns }.
(** No generated name is that of a primitive type or of something the emitted code names. *)
Definition names_apart (p : program) : Prop := Forall (fun t => ~ In (ti_id t) (primitive_names ++ taken)) p.

(** With the functions of [fns]: a call returns [r], and a call writes [out]. *)
Definition call_returns {L : Libs} (p : program) fns id f args r : Prop := forall st, exists st', fn_to p fns id f args st r st'.
Definition call_writes {L : Libs} (p : program) fns id f args out : Prop :=
  forall st, exists st' r, fn_to p fns id f args st (ROk r) st' /\ s_out st' = s_out st ++ out.

Lemma chain_generated {L : Libs} fuel gfuel k path s p text items fns : chain fuel gfuel k path s p text items fns ->
  generated gfuel (s_context s) (map fst (sc_elements (s_context s))) p.
Proof.
  intros [_ G [D _] _ _ _]. assert (M : mapM (generate_element gfuel (s_context s)) (map fst (sc_elements (s_context s))) = Ok p) by (rewrite mapM_map; exact G).
  split; [exact M|exact (ds_distinct p D)].
Qed.
Lemma F2_same {A B} (g : A -> option B) l : forall rs rs', Forall2 (fun n r => g n = Some r) l rs -> Forall2 (fun n r => g n = Some r) l rs' -> rs = rs'.
Proof.
  induction l as [|n l IH]; intros rs rs' H H'; inversion H; inversion H'; subst; [reflexivity|]. f_equal; [congruence|auto].
Qed.

(** C72. A use of the macro whose output Rust accepts starts such a chain; there is one
    only, and the functions in it have types. *)
Theorem C72_chain : forall (L : Libs) fuel gfuel k manifest args i o,
  expand fuel gfuel k manifest args (Some i) = Ok o -> accepted_output o -> names_apart (om_types o) ->
  exists dir arg s text items fns, manifest = Some dir /\ names_schema args arg
    /\ chain fuel gfuel k (dk_push k dir arg) s (om_types o) text items fns /\ typed items.
Proof.
  intros L fuel gfuel k manifest args i o E A N. apply (C58_expansion L) in E. destruct E as (dir & arg & s & p & -> & Ns & Pf & G & ->). destruct A as (_ & OK & _). cbn [om_types] in *.
  assert (M : mapM (generate_element gfuel (s_context s)) (map fst (sc_elements (s_context s))) = Ok p) by (rewrite mapM_map; exact G).
  destruct (C71_text L gfuel _ _ p M OK N) as (rs & items & fns & F & Fi & T & U & _).
  exists dir, arg, s, (module_tokens (combine rs p)), items, fns. do 2 (split; [auto|]). split; [|exact T]. constructor; eauto.
Qed.
Print Assumptions C72_chain.

Theorem C72_one_chain : forall (L : Libs) fuel gfuel k path s p text items fns s' p' text' items' fns',
  chain fuel gfuel k path s p text items fns -> chain fuel gfuel k path s' p' text' items' fns' ->
  s' = s /\ p' = p /\ text' = text /\ items' = items /\ forall id f, fns' id f = fns id f.
Proof.
  intros L fuel gfuel k path s p text items fns s' p' text' items' fns' [A1 A2 _ (rs & A3 & A4) (n & A5) A6] [B1 B2 _ (rs' & B3 & B4) (n' & B5) B6].
  rewrite A1 in B1. injection B1 as <-. rewrite A2 in B2. injection B2 as <-. assert (rs' = rs) as -> by (eapply F2_same; eauto). assert (text' = text) as -> by congruence.
  specialize (A5 (n + n') ltac:(lia)). specialize (B5 (n + n') ltac:(lia)). assert (items' = items) as -> by congruence. do 4 (split; [reflexivity|]).
  intros id f. destruct (fns id f) as [g|] eqn:E; [now apply B6, A6|]. destruct (fns' id f) as [g|] eqn:E'; [|reflexivity]. apply B6, A6 in E'. congruence.
Qed.
Print Assumptions C72_one_chain.

Section Results.
Context {L : Libs}.
Variables (fuel gfuel : nat) (k : disk) (path : string) (s : schema) (p : program) (text : list tok) (items : list pitem) (fns : string -> string -> option fn).
Hypothesis Ch : chain fuel gfuel k path s p text items fns.
Hypothesis Na : names_apart p.

Lemma chain_fn id f args st r st' : fn_to p fns id f args st r st' <-> fn_to p (module_fn p) id f args st r st'.
Proof.
  pose proof (chain_generated _ _ _ _ _ _ _ _ _ Ch) as [G _]. destruct Ch as [_ _ OK (rs & F & Et) (n & Fi) U].
  destruct (C70_module L gfuel _ _ p G OK Na) as (rs' & items' & F' & Hh & n' & Fi'). assert (rs' = rs) as -> by (eapply F2_same; eauto).
  specialize (Fi (n + n') ltac:(lia)). specialize (Fi' (n + n') ltac:(lia)). rewrite Et in Fi. assert (items' = items) as -> by congruence.
  assert (Le : length rs = length p). { apply mapM_ok in G. apply F2_length in G. apply F2_length in F. congruence. }
  destruct (C71_meaning L p rs items OK Le Hh) as (_ & M). exact (M fns U id f args st r st').
Qed.
Lemma chain_returns id f args r : call_returns p fns id f args r <-> BodySpec.returns p id f args r.
Proof. split; intros H st; destruct (H st) as (st' & K); exists st'; now apply chain_fn. Qed.
Lemma chain_writes id f args out : call_writes p fns id f args out <-> BodySpec.writes p id f args out.
Proof. split; intros H st; destruct (H st) as (st' & r & K & O); exists st', r; (split; [now apply chain_fn|exact O]). Qed.
Lemma run_returns id e n o : pascal_law L -> from_xml p n id e = o -> fin o -> exists r, result_of o r /\ returns p id "from_xml" [Doc e] r.
Proof.
  intros PL Hx Fo. pose proof (chain_generated _ _ _ _ _ _ _ _ _ Ch) as [G _]. pose proof (generated_free PL _ _ _ _ G) as Nv.
  destruct o as [v|x| |]; try contradiction; (eexists; split; [reflexivity|]; intros st; pose proof (from_xml_fn p (ch_accepted _ _ _ _ _ _ _ _ _ Ch) Nv n id e st) as H;
    rewrite Hx in H; destruct H as (st' & H); exists st'; apply H || apply (proj1 H)).
Qed.
(** What a call of [from_xml] returns was computed by Run.v. *)
Lemma returns_run n id e r : pascal_law L -> let c := s_context s in let gs := map fst (sc_elements c) in
  groups_ok c gs -> grounded c gs -> In n gs -> type_ident n = Ok id -> returns p id "from_xml" [Doc e] r ->
  exists N o, from_xml p N id e = o /\ fin o /\ result_of o r.
Proof.
  intros PL c gs Go Gr I Ei R. pose proof (chain_generated _ _ _ _ _ _ _ _ _ Ch) as G. pose proof (C54_compiles L _ _ _ _ (proj1 G) (ch_accepted _ _ _ _ _ _ _ _ _ Ch) Go) as Cp.
  destruct (C09_decoding_ends_partial L gfuel c gs p n id e G Cp Gr I Ei) as (o & Fo & N & H). specialize (H N (Nat.le_refl _)).
  exists N, o. split; [exact H|]. split; [exact Fo|]. destruct (run_returns id e N o PL H Fo) as (r' & Ro & R'). now rewrite (returns_once _ _ _ _ _ _ R R').
Qed.
End Results.

(** Every document gets one answer: a value of the type, or an error. *)
Theorem C72_answers : forall (L : Libs) fuel gfuel k path s p text items fns n id e,
  pascal_law L -> chain fuel gfuel k path s p text items fns -> names_apart p ->
  let c := s_context s in let gs := map fst (sc_elements c) in
  groups_ok c gs -> grounded c gs -> In n gs -> type_ident n = Ok id ->
  exists r, call_returns p fns id "from_xml" [Doc e] r /\ (forall r', call_returns p fns id "from_xml" [Doc e] r' -> r' = r)
    /\ ((exists v, r = ROk (D v) /\ has_type p (TRef id) v) \/ exists x, r = RErr (Er x)).
Proof.
  intros L fuel gfuel k path s p text items fns n id e PL Ch Na c gs Go Gr I Ei. pose proof (chain_generated _ _ _ _ _ _ _ _ _ Ch) as G.
  pose proof (ch_accepted _ _ _ _ _ _ _ _ _ Ch) as OK. pose proof (C54_compiles L _ _ _ _ (proj1 G) OK Go) as Cp.
  destruct (C63_answers L gfuel c gs p n id e PL G OK Cp Gr I Ei) as [(v & R & T)|(x & R)];
    (eexists; split; [apply (chain_returns _ _ _ _ _ _ _ _ _ Ch Na); exact R|]; split; [intros r' R'; eapply returns_once; [apply (chain_returns _ _ _ _ _ _ _ _ _ Ch Na); auto|exact R]|]); eauto.
Qed.
Print Assumptions C72_answers.

(** A valid document is decoded, and the value is the one the document stands for. *)
Theorem C72_valid_partial : forall (L : Libs) fuel gfuel k path s p text items fns F n id e,
  pascal_law L -> chain fuel gfuel k path s p text items fns -> names_apart p ->
  let c := s_context s in let gs := map fst (sc_elements c) in
  variants_required c gs -> unambiguous_b c gs false F = true -> valid_document c gs n e -> type_ident n = Ok id ->
  exists v, rep_doc c gs appended exactly (counted false) n v e /\ call_returns p fns id "from_xml" [Doc e] (ROk (D v)).
Proof.
  intros L fuel gfuel k path s p text items fns F n id e PL Ch Na c gs V U Vd Ei. pose proof (chain_generated _ _ _ _ _ _ _ _ _ Ch) as G.
  destruct (C55_valid_decoded_partial L gfuel c gs p F n id e G (ch_accepted _ _ _ _ _ _ _ _ _ Ch) V U Vd Ei) as (v & R & N & H).
  exists v. split; [exact R|]. apply (chain_returns _ _ _ _ _ _ _ _ _ Ch Na); auto. destruct (run_returns _ _ _ _ _ _ _ _ _ Ch id e N (Ok v) PL (H N (Nat.le_refl _)) I) as (r & -> & K). exact K.
Qed.
Print Assumptions C72_valid_partial.

(** A document that is decoded is valid as far as the decoder checks (C56). *)
Theorem C72_checked_partial : forall (L : Libs) fuel gfuel k path s p text items fns n id e v,
  pascal_law L -> chain fuel gfuel k path s p text items fns -> names_apart p ->
  let c := s_context s in let gs := map fst (sc_elements c) in
  groups_ok c gs -> grounded c gs -> In n gs -> type_ident n = Ok id ->
  call_returns p fns id "from_xml" [Doc e] (ROk (D v)) ->
  checked_document c gs shuffle n e /\ (all_ordered c gs -> checked_document c gs appended n e).
Proof.
  intros L fuel gfuel k path s p text items fns n id e v PL Ch Na c gs Go Gr I Ei R. apply (chain_returns _ _ _ _ _ _ _ _ _ Ch Na) in R.
  destruct (returns_run _ _ _ _ _ _ _ _ _ Ch n id e _ PL Go Gr I Ei R) as (N & o & H & Fo & Ro). destruct o as [w|x| |]; try contradiction; [|discriminate].
  eapply (C56_checked_partial L); eauto. eapply chain_generated; eauto.
Qed.
Print Assumptions C72_checked_partial.

(** An error is a true statement about the document and the schema (C69). *)
Theorem C72_errors : forall (L : Libs) fuel gfuel k path s p text items fns n id e x,
  pascal_law L -> chain fuel gfuel k path s p text items fns -> names_apart p ->
  let c := s_context s in let gs := map fst (sc_elements c) in
  groups_ok c gs -> grounded c gs -> In n gs -> type_ident n = Ok id ->
  call_returns p fns id "from_xml" [Doc e] (RErr (Er x)) ->
  wrong c gs shuffle n e x /\ (all_ordered c gs -> wrong c gs appended n e x).
Proof.
  intros L fuel gfuel k path s p text items fns n id e x PL Ch Na c gs Go Gr I Ei R. apply (chain_returns _ _ _ _ _ _ _ _ _ Ch Na) in R.
  destruct (returns_run _ _ _ _ _ _ _ _ _ Ch n id e _ PL Go Gr I Ei R) as (N & o & H & Fo & Ro). destruct o as [w|y| |]; try contradiction; [discriminate|].
  injection Ro as ->. eapply (C69_true L); eauto. eapply chain_generated; eauto.
Qed.
Print Assumptions C72_errors.

(** What [to_xml] writes is a document that [from_xml] reads as the value. *)
Theorem C72_round_trip_partial : forall (L : Libs) fuel gfuel k path s p text items fns F d n r id v,
  pascal_law L -> scalar_laws L -> chain fuel gfuel k path s p text items fns -> names_apart p ->
  let c := s_context s in let gs := map fst (sc_elements c) in
  groups_ok c gs -> constants_ok c gs -> unambiguous_b c gs true F = true -> writable_b c gs d = true -> entry_b c gs d n = true ->
  In n gs -> sc_get c n = Some r -> type_ident n = Ok id -> has_type p (TRef id) v -> clean v ->
  exists evs x, call_writes p fns id "to_xml" [D v] (WDoc :: map WEv evs) /\ document evs = Some x
    /\ forall x', indented x x' -> call_returns p fns id "from_xml" [Doc x'] (ROk (D v)).
Proof.
  intros L fuel gfuel k path s p text items fns F d n r id v PL La Ch Na c gs Go Cn U W En I Gn Ei T C. pose proof (chain_generated _ _ _ _ _ _ _ _ _ Ch) as G.
  pose proof (ch_accepted _ _ _ _ _ _ _ _ _ Ch) as OK. pose proof (C54_compiles L _ _ _ _ (proj1 G) OK Go) as Cp.
  destruct (C64_round_trip L gfuel c gs p F d n r id v PL La G OK Cp Cn U W En I Gn Ei T C) as (evs & x & Hw & Hd & R).
  exists evs, x. split; [apply (chain_writes _ _ _ _ _ _ _ _ _ Ch Na); auto|]. split; [exact Hd|]. intros x' Ix. apply (chain_returns _ _ _ _ _ _ _ _ _ Ch Na); auto.
Qed.
Print Assumptions C72_round_trip_partial.

(** A use of the macro, from the file to results: a valid document, a wrong one, and a
    value that is written and read. *)
Definition order_disk : disk := mkDisk (fun path => if path =?s "crate/order.xsd" then Some "order" else None)
  (fun text => if text =?s "order" then Some ex_order else None) (fun _ => (1, 1)) (fun a b => a +++ "/" +++ b) (fun path => path).
Definition order_args : meta_args := mkMargs [mkMarg "schema" (MvStr "order.xsd")] true.
Definition order_mod : item_mod := read_as (ex_written [] [profile]).
Definition order_out : out_mod := mkOmod (im_attrs order_mod) (im_vis order_mod) (im_ident order_mod) [profile] (module_of ex_order).
Definition order_schema : schema := match parse_file 40 (fs_of order_disk) "crate/order.xsd" with Ok s => s | _ => mkSchema [] (ctx_of ex_order) end.
Lemma ok_inj {E A} (a b : A) : @Ok E A a = Ok b -> a = b.
Proof. now intros [= ->]. Qed.
Example C72_example : exists text items fns,
  expand 40 40 order_disk (Some "crate") order_args (Some order_mod) = Ok order_out
  /\ chain 40 40 order_disk "crate/order.xsd" order_schema (module_of ex_order) text items fns /\ typed items
  /\ (exists v, call_returns (module_of ex_order) fns "Order" "from_xml" [Doc ex_many] (ROk (D v)))
  /\ call_returns (module_of ex_order) fns "Order" "from_xml" [Doc (ex_fault [] [])] (RErr (Er (FeMissingElement "id" (Some "urn:t"))))
  /\ (exists evs x, call_writes (module_of ex_order) fns "Order" "to_xml" [D ex_order_value] (WDoc :: map WEv evs) /\ document evs = Some x
      /\ forall x', indented x x' -> call_returns (module_of ex_order) fns "Order" "from_xml" [Doc x'] (ROk (D ex_order_value))).
Proof.
  assert (Ex : expand 40 40 order_disk (Some "crate") order_args (Some order_mod) = Ok order_out) by by_compute.
  assert (Sc : parse_file 40 (fs_of order_disk) "crate/order.xsd" = Ok order_schema) by by_compute.
  assert (Cs : s_context order_schema = ctx_of ex_order) by by_compute.
  assert (OK : rust_ok (module_of ex_order)) by (apply rust_accepts; by_compute).
  assert (A : accepted_output order_out).
  { split; [repeat constructor|]. split; [exact OK|]. apply nodupb_NoDup. by_compute. }
  assert (Na : names_apart (module_of ex_order)) by (vm_compute; repeat constructor; intuition discriminate).
  destruct (C72_chain _ _ _ _ _ _ _ _ Ex A Na) as (dir & arg & s & text & items & fns & Ed & Nm & Ch & T). injection Ed as <-.
  assert (arg = "order.xsd") as ->.
  { destruct Nm as (_ & l & E & _). destruct l as [|a [|b l]]; [now injection E|discriminate|discriminate]. }
  assert (P : dk_push order_disk "crate" "order.xsd" = "crate/order.xsd") by reflexivity. rewrite P in Ch. clear P.
  assert (P : om_types order_out = module_of ex_order) by reflexivity. rewrite P in Ch. clear P.
  assert (s = order_schema) as -> by exact (ok_inj _ _ (eq_trans (eq_sym (ch_schema _ _ _ _ _ _ _ _ _ Ch)) Sc)).
  generalize dependent order_schema. intros s Sc Cs Ch.
  exists text, items, fns. split; [exact Ex|]. split; [exact Ch|]. split; [exact T|].
  destruct order_condition as (O1 & _ & O2 & O3 & O4 & O5).
  assert (Gr : exists r, sc_get (ctx_of ex_order) (mkName "order" (NsId 1)) = Some r) by (eexists; by_compute). destruct Gr as [r Gr].
  assert (Ty : has_type (module_of ex_order) (TRef "Order") ex_order_value) by (apply (has_type_b_ok 9); by_compute).
  split; [|split].
  - pose proof (C72_valid_partial _ _ _ _ _ _ _ _ _ _ 9 (mkName "order" (NsId 1)) "Order" ex_many C63_names Ch Na) as H. cbv zeta in H. rewrite Cs in H.
    destruct H as (v & _ & R); [apply required_ok; by_compute|by_compute|exact (proj1 C55_example)|exact O5|]. exists v. exact R.
  - destruct (run_returns _ _ _ _ _ _ _ _ _ Ch "Order" (ex_fault [] []) 40 (Err (FeMissingElement "id" (Some "urn:t"))) C63_names) as (r1 & -> & R1); [by_compute|exact I|].
    apply (chain_returns _ _ _ _ _ _ _ _ _ Ch Na). exact R1.
  - pose proof (C72_round_trip_partial _ _ _ _ _ _ _ _ _ _ 20 20 (mkName "order" (NsId 1)) r "Order" ex_order_value C63_names ascii_laws Ch Na) as H. cbv zeta in H. rewrite Cs in H.
    exact (H (cp_groups _ _ (proj1 order_well_formed)) order_constants O1 O2 O3 O4 Gr O5 Ty order_clean).
Qed.
