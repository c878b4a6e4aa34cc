(** * C86: how long the text of the generated module is *)
From Verif Require Import Base Libs Xml Ast XsdNode Parse Gen Emit Quote Impl ParseSpec EndlessSpec CostSpec AmountSpec AmountProof MiscProof SchemaProof ParseProof ParseMain ParseRoots BulkSpec BulkProof BulkNames BulkMany
  Harness Samples PropDecode PropAmount PropEmit PropGram.
From Coq Require Import Lia.

Lemma module_bulk {L : Libs} k c gs : forall p rs, mapM (generate_element k c) gs = Ok p -> Forall2 (fun n r => sc_get c n = Some r) gs rs ->
  bulk (module_tokens (combine rs p)) <= 1300 * length gs + 380 * list_sum (map parts rs) + 12 * (length gs * namespaces_of c).
Proof.
  induction gs as [|n gs IH]; intros p rs G F; inversion F as [|? r ? rs' E F']; subst.
  { cbn. lia. }
  cbn [mapM] in G. destruct (generate_element k c n) as [t| | |] eqn:Et; try discriminate. cbn [bind] in G.
  destruct (mapM (generate_element k c) gs) as [p'| | |] eqn:Ep; try discriminate. cbn [bind] in G. injection G as <-.
  specialize (IH p' rs' eq_refl F'). pose proof (item_bulk k c n r t E Et). unfold module_tokens in *. cbn [combine flat_map fst snd]. rewrite bulk_app.
  cbn [map length]. change (list_sum (parts r :: map parts rs')) with (parts r + list_sum (map parts rs')). cbn [Nat.mul]. lia.
Qed.
Lemma F2_roots {L : Libs} (es : list (name * root)) : NoDup (map fst es) -> forall rs, Forall2 (fun n r => aget name_eqb n es = Some r) (map fst es) rs -> rs = map snd es.
Proof.
  intros N. assert (K : forall l, incl l es -> forall rs, Forall2 (fun n r => aget name_eqb n es = Some r) (map fst l) rs -> rs = map snd l).
  { induction l as [|[n r] l IH]; intros I rs F; inversion F as [|? r' ? rs' E F']; subst; [reflexivity|]. cbn [map snd]. f_equal.
    - cbn [fst] in E. rewrite (In_aget _ name_eqb_eq n r es N) in E; [congruence|]. apply I. now left.
    - apply IH; [|exact F']. intros x Hx. apply I. now right. }
  apply K. intros x Hx. exact Hx.
Qed.
Lemma children_distinct {L : Libs} k load f dir : forall cs c c', schema_children k load f dir cs c = Ok c' -> NoDup (map fst (cx_roots c)) -> NoDup (map fst (cx_roots c')).
Proof.
  induction cs as [|x cs IH]; intros c c' H N; cbn [schema_children] in H; [now injection H as <-|].
  destruct (schema_child k load f dir x c) as [c1| | |] eqn:E1; try discriminate. cbn [bind] in H. apply (IH _ _ H). clear H.
  unfold schema_child in E1. destruct (orb _ _).
  - destruct (n_try_attribute x "schemaLocation") as [[a x']| | |]; try discriminate. cbn [map_err bind] in E1.
    destruct (load (fs_push f dir (at_value a)) (cx_shared c)) as [s| | |]; try discriminate. cbn [map_err bind] in E1. injection E1 as <-. apply (add_all_NoDup _ _ N).
  - destruct (n_try_attribute x "name") as [[a x']| | |]; try discriminate. cbn [map_err bind] in E1.
    destruct (root_parse k x' _ c) as [[r c0]| | |] eqn:Er; try discriminate. cbn [map_err bind] in E1. injection E1 as <-.
    apply uniform_roots in Er. destruct Er as (adds & Er & _). cbn [set_roots cx_roots]. apply (aset_NoDup _ name_eqb_eq). rewrite Er. now apply add_all_NoDup.
Qed.
Lemma file_distinct {L : Libs} k f path s : parse_file k f path = Ok s -> NoDup (map fst (sc_elements (s_context s))).
Proof.
  unfold parse_file. destruct k as [|k]; intros H; cbn [parse_file_with_context] in H; [discriminate|].
  destruct (fs_read f path) as [[d|]|]; try discriminate. unfold parse_with in H.
  destruct (parse_schema_with k _ f d (fs_parent f path) None) as [s0| | |] eqn:E; try discriminate. cbn [map_err] in H. injection H as ->.
  unfold parse_schema_with in E. destruct (negb _); [discriminate|]. cbn zeta in E. unfold n_attribute in E.
  destruct (schema_children k _ f _ _ _) as [c| | |] eqn:Ec; try discriminate. cbn [bind] in E. injection E as <-.
  apply children_distinct in Ec; [exact Ec|]. match goal with |- NoDup (map fst (cx_roots (ctx_new ?a ?b ?c))) => assert (cx_roots (ctx_new a b c) = []) as -> by (unfold ctx_new; destruct b; [destruct (get_or_insert _ _)|]; reflexivity) end. constructor.
Qed.

(** C86. The text of a module has at most a fixed number of tokens for each type, for each part
    of a type, and for each pair of a type and a namespace. *)
Theorem C86_text : forall (L : Libs) gfuel c gs p rs,
  mapM (generate_element gfuel c) gs = Ok p -> Forall2 (fun n r => sc_get c n = Some r) gs rs ->
  bulk (module_tokens (combine rs p)) <= 1300 * length gs + 380 * list_sum (map parts rs) + 12 * (length gs * namespaces_of c).
Proof. intros L gfuel c gs p rs. apply module_bulk. Qed.
Print Assumptions C86_text.

(** No more namespaces than elements in the files. *)
Theorem C86_namespaces : forall (L : Libs) fuel f path s ds,
  parse_file fuel f path = Ok s -> opened f path ds -> namespaces_of (s_context s) <= elements ds.
Proof.
  intros L fuel f path s ds H O. destruct (file_names fuel f path None s H) as (ds' & O' & B). rewrite (opened_unique _ _ _ O' _ O). cbn in B. unfold namespaces_of. lia.
Qed.
Print Assumptions C86_namespaces.

(** So what is generated for some files is as long as the square of the number of their
    elements at the most. *)
Theorem C86_files : forall (L : Libs) fuel gfuel f path s p rs ds,
  parse_file fuel f path = Ok s -> generate_all gfuel s = Ok p -> opened f path ds ->
  Forall2 (fun n r => sc_get (s_context s) n = Some r) (map fst (sc_elements (s_context s))) rs ->
  bulk (module_tokens (combine rs p)) <= 1680 * elements ds + 12 * (elements ds * elements ds).
Proof.
  intros L fuel gfuel f path s p rs ds H G O F. pose proof (C86_namespaces L fuel f path s ds H O) as N.
  destruct (C85_amount L fuel f path s H) as (ds' & O' & _ & T & P & _). pose proof (opened_unique _ _ _ O' _ O) as ->.
  assert (M : mapM (generate_element gfuel (s_context s)) (map fst (sc_elements (s_context s))) = Ok p) by (rewrite mapM_map; exact G).
  pose proof (C86_text L gfuel _ _ p rs M F) as B. rewrite map_length in B.
  assert (rs = map snd (sc_elements (s_context s))) as R by exact (F2_roots _ (file_distinct _ _ _ _ H) rs F).
  replace (map parts rs) with (map (fun x => parts (snd x)) (sc_elements (s_context s))) in B by (rewrite R, map_map; reflexivity). change (list_sum (map (fun x => parts (snd x)) (sc_elements (s_context s)))) with (all_parts (sc_elements (s_context s))) in B.
  assert (Q : length (sc_elements (s_context s)) * namespaces_of (s_context s) <= elements ds' * elements ds') by (apply Nat.mul_le_mono; lia). lia.
Qed.
Print Assumptions C86_files.

(** And no better: each type declares all the namespaces of the schema again, so that the text
    has at least five tokens for each pair of a type and a namespace. *)
Theorem C86_repeated : forall (L : Libs) fuel gfuel f path s p rs,
  parse_file fuel f path = Ok s -> generate_all gfuel s = Ok p ->
  Forall2 (fun n r => sc_get (s_context s) n = Some r) (map fst (sc_elements (s_context s))) rs ->
  100 * length p + 5 * (length p * namespaces_of (s_context s)) <= bulk (module_tokens (combine rs p)).
Proof.
  intros L fuel gfuel f path s p rs H G F.
  assert (N : NoDup (map fst (by_id (sc_namespaces (s_context s))))).
  { apply parsed_file_inv in H. assert (W : ns_wf (sc_namespaces (s_context s))) by apply H. apply W. }
  assert (M : mapM (generate_element gfuel (s_context s)) (map fst (sc_elements (s_context s))) = Ok p) by (rewrite mapM_map; exact G).
  clear G H. revert p rs M F. induction (map fst (sc_elements (s_context s))) as [|n gs IH]; intros p rs M F; inversion F as [|? r ? rs' E F']; subst; cbn [mapM] in M.
  { injection M as <-. cbn. lia. }
  destruct (generate_element gfuel (s_context s) n) as [t| | |] eqn:Et; try discriminate. cbn [bind] in M.
  destruct (mapM (generate_element gfuel (s_context s)) gs) as [p'| | |] eqn:Ep; try discriminate. cbn [bind] in M. injection M as <-.
  specialize (IH p' rs' eq_refl F'). pose proof (item_least gfuel (s_context s) n r t N Et). unfold module_tokens in *. cbn [combine flat_map fst snd length]. rewrite bulk_app.
  rewrite (Nat.mul_succ_l (length p')). lia.
Qed.
Print Assumptions C86_repeated.

(** So no number of tokens for each element of the files is enough. *)
Theorem C86_linear_refuted : forall k, exists (L : Libs) fuel gfuel f path s p rs ds,
  parse_file fuel f path = Ok s /\ generate_all gfuel s = Ok p /\ opened f path ds
  /\ Forall2 (fun n r => sc_get (s_context s) n = Some r) (map fst (sc_elements (s_context s))) rs
  /\ k * elements ds < bulk (module_tokens (combine rs p)).
Proof.
  intros k. destruct (many_parsed (S k)) as (s & H & A & Q). destruct (many_generated (S k) s A Q) as (p & rs & G & F). destruct (many_opened (S k)) as (ds & O & E).
  exists ascii_libs, 6, 5, (ex_disk (ex_uris (S k))), "", s, p, rs, ds. do 4 (split; [assumption|]). rewrite E.
  pose proof (C86_repeated ascii_libs _ _ _ _ _ _ _ H G F) as B. destruct A as (A1 & _ & A3).
  assert (Lp : length p = S k). { unfold generate_all in G. apply mapM_len in G. rewrite A1, map_length, seq_length in G. exact G. }
  assert (Ln : namespaces_of (s_context s) = S k). { unfold namespaces_of. rewrite <- (map_length fst), A3. apply seq_length. }
  rewrite Lp, Ln in B. eapply Nat.lt_le_trans; [|exact B]. lia.
Qed.
Print Assumptions C86_linear_refuted.

(** A schema with two types, and one with all kinds of types (that of C62). *)
Example C86_example :
  bulk (text_of ex_order) = 2410 /\ length (names_of ex_order) = 2 /\ list_sum (map parts (roots_of ex_order)) = 10 /\ namespaces_of (ctx_of ex_order) = 1
  /\ bulk (text_of ex_docs) = 4717 /\ length (names_of ex_docs) = 7 /\ list_sum (map parts (roots_of ex_docs)) = 8 /\ namespaces_of (ctx_of ex_docs) = 1.
Proof. repeat match goal with |- _ /\ _ => split end; by_compute. Qed.
(** [n] elements that have types of [n] namespaces: the same elements, once with one namespace
    for all of them. The difference is the nine tokens of a declaration, [n * (n - 1)] times. *)
Definition ex_many (n : nat) (nth : nat -> nat) : xelem :=
  let d := xschema [] (map (fun i => xtyped ("e" +++ show_nat i) ("p" +++ show_nat (nth i) +++ ":t")) (seq 0 n)) in
  XE (xe_tag d) (xe_ns d) (xe_attrs d) (xe_nss d ++ map (fun i => (Some ("p" +++ show_nat i), "urn:" +++ show_nat i)) (seq 0 n)) (xe_range d) (xe_kids d).
Example C86_many :
  length (names_of (ex_many 12 (fun i => i))) = 12
  /\ namespaces_of (ctx_of (ex_many 12 (fun i => i))) = 12 /\ namespaces_of (ctx_of (ex_many 12 (fun _ => 0))) = 1
  /\ bulk (text_of (ex_many 12 (fun i => i))) = bulk (text_of (ex_many 12 (fun _ => 0))) + 9 * (12 * 11).
Proof. repeat match goal with |- _ /\ _ => split end; by_compute. Qed.
