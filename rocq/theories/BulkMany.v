(** * BulkMany: files for C86, as many namespaces and types as one likes *)
From Verif Require Import Base Libs Xml Ast XsdNode Parse Gen ParseSpec EndlessSpec EndlessProof CostSpec AmountSpec BulkSpec Harness Samples.
From Coq Require Import Lia FinFun.
#[local] Existing Instance ascii_libs.

(** A file for each namespace, with one element; and one that includes them all. *)
Definition ex_part (u : string) : xelem := xschema [at_ "targetNamespace" u] [xtyped "e" "xs:string"].
Definition ex_include (u : string) : xelem := xs "include" [at_ "schemaLocation" u] [].
Definition ex_whole (us : list string) : xelem := xschema [] (map ex_include us).
Definition ex_disk (us : list string) : fs :=
  mkFs (fun p => Some (Some (if p =?s "" then ex_whole us else ex_part p))) (fun _ l => l) (fun _ => "").
Fixpoint ex_uri (n : nat) : string := match n with O => "a" | S n => String "a" (ex_uri n) end.
Definition ex_uris (m : nat) : list string := map ex_uri (seq 0 m).

Lemma aset_new {K V} (eqb : K -> K -> bool) (E : forall a b, eqb a b = true <-> a = b) k (v : V) l : ~ In k (map fst l) -> aset eqb k v l = l ++ [(k, v)].
Proof.
  induction l as [|[k' v'] l IH]; intros N; [reflexivity|]. cbn [aset map fst] in *. destruct (eqb k k') eqn:Ek.
  - apply E in Ek. subst. exfalso. apply N. now left.
  - rewrite IH; [reflexivity|]. intros H. apply N. now right.
Qed.
Definition the_root : root := match parse_doc (ex_part "u") with Ok s => match sc_elements (s_context s) with (_, r) :: _ => r | [] => RootEnum [] end | _ => RootEnum [] end.

Lemma load_part k us u sh ns nss : u <> "" -> get_or_insert (sh_namespaces sh) u = (ns, nss) ->
  parse_file_with_context (S (S (S (S (S k))))) (ex_disk us) u (Some sh) = Ok (mkSchema (sh_dependencies sh) (mkSchemaCtx [(mkName "e" ns, the_root)] ns false nss)).
Proof.
  intros N G. set (k1 := S (S (S (S k)))). cbn [parse_file_with_context ex_disk fs_read]. destruct (String.eqb_spec u ""); [contradiction|].
  unfold parse_with. change (fs_parent (ex_disk us) u) with "". unfold parse_schema_with. change (negb (has_name "schema" (Some NS_XSD) (ex_part u))) with false. cbv iota zeta.
  change (n_attribute (node_of (ex_part u)) "targetNamespace") with (Some (at_ "targetNamespace" u), mkNode (ex_part u) ["targetNamespace"]). cbv iota beta.
  assert (C : ctx_new (ex_part u) (option_map at_value (Some (at_ "targetNamespace" u))) sh = mkCtx [] None ns [("xs", NS_XSD); ("t", "urn:t")] false (mkShared nss (sh_dependencies sh))).
  { unfold ctx_new. cbn [option_map at_value at_]. rewrite G. reflexivity. }
  rewrite C. reflexivity.
Qed.
(** What is there after [i] of the files. *)
Definition after (i : nat) (R : list (name * root)) (nss : namespaces) : Prop :=
  R = map (fun j => (mkName "e" (NsId j), the_root)) (seq 1 i) /\ length (by_namespace nss) = i /\ map fst (by_id nss) = seq 1 i.
Lemma include_all k us0 us : Forall (fun u => u <> "") us -> NoDup us -> forall i R nss tn doc deps,
  after i R nss -> (forall u, In u us -> ~ In u (map fst (by_namespace nss))) ->
  exists R' nss', after (i + length us) R' nss' /\
    schema_children (S (S (S (S (S k))))) (fun p s => parse_file_with_context (S (S (S (S (S k))))) (ex_disk us0) p (Some s)) (ex_disk us0) "" (map (fun u => node_of (ex_include u)) us)
      (mkCtx R None tn doc false (mkShared nss deps)) = Ok (mkCtx R' None tn doc false (mkShared nss' deps)).
Proof.
  induction us as [|u us IH]; intros Ne Nd i R nss tn doc deps A Fr.
  { exists R, nss. rewrite Nat.add_0_r. split; [exact A|reflexivity]. }
  inversion Ne as [|? ? Nu Ne']; subst. inversion Nd as [|? ? Hu Nd']; subst. destruct A as (-> & A2 & A3).
  destruct (get_or_insert nss u) as [ns nss1] eqn:G. pose proof (load_part k us0 u (mkShared nss deps) ns nss1 Nu G) as Ld.
  assert (Fu : ~ In u (map fst (by_namespace nss))) by (apply Fr; now left).
  unfold get_or_insert in G. destruct (aget String.eqb u (by_namespace nss)) as [x|] eqn:Ga.
  { exfalso. apply Fu. apply (aget_In _ String.eqb_eq) in Ga. now apply (in_map fst) in Ga. }
  rewrite A2 in G. injection G as G1 G2. symmetry in G1, G2. rewrite (aset_new _ String.eqb_eq) in G2 by exact Fu.
  rewrite (aset_new _ Nat.eqb_eq) in G2 by (rewrite A3, in_seq; lia).
  specialize (IH Ne' Nd' (S i) (map (fun j => (mkName "e" (NsId j), the_root)) (seq 1 (S i))) nss1 tn doc deps).
  destruct IH as (R' & nss' & A' & E).
  { split; [reflexivity|]. subst nss1. cbn [by_namespace by_id]. rewrite app_length, map_app, A2, A3, seq_S. cbn [length map fst]. split; [lia|]. f_equal. f_equal. lia. }
  { intros v Hv. subst nss1. cbn [by_namespace]. rewrite map_app, in_app_iff. intros [K|[K|[]]]; [apply (Fr v); [now right|exact K]|]. cbn in K. subst v. contradiction. }
  exists R', nss'. split; [cbn [length]; replace (i + S (length us)) with (S i + length us) by lia; exact A'|].
  cbn [map schema_children]. rewrite <- E. unfold schema_child at 1. change (orb (n_name (node_of (ex_include u)) =?s "include") _) with true. cbv iota.
  change (n_try_attribute (node_of (ex_include u)) "schemaLocation") with (@Ok xsd_err _ (at_ "schemaLocation" u, mkNode (ex_include u) ["schemaLocation"])). cbn [map_err bind].
  change (fs_push (ex_disk us0) "" (at_value (at_ "schemaLocation" u))) with u. cbn [cx_shared]. rewrite Ld. cbn [map_err bind]. f_equal.
  unfold set_shared, set_roots, into_shared. cbn [s_context sc_elements sc_namespaces s_dependencies fold_left fst snd cx_roots sh_dependencies cx_default_ns cx_target cx_doc_nss cx_qualified]. f_equal.
  rewrite (aset_new _ name_eqb_eq).
  - rewrite (seq_S i), map_app. subst ns. rewrite (Nat.add_comm i 1). reflexivity.
  - rewrite map_map. cbn [fst]. intros K. apply in_map_iff in K. destruct K as (j & K & Hj). subst ns. apply in_seq in Hj. injection K as K. lia.
Qed.
Lemma uri_length n : String.length (ex_uri n) = S n.
Proof. induction n; cbn [ex_uri String.length]; lia. Qed.
Lemma whole_children us : n_children (node_of (ex_whole us)) NS_XSD = map (fun u => node_of (ex_include u)) us.
Proof.
  unfold n_children. cbn [node_of n_elem]. rewrite <- (map_map ex_include node_of). f_equal. change (xe_children (ex_whole us)) with (elems_of (map (@KElem xelem) (map ex_include us))).
  induction us as [|u us IH]; [reflexivity|]. cbn [map elems_of filter]. change (opt_eqb String.eqb (xe_ns (ex_include u)) (Some NS_XSD)) with true. cbv iota. now rewrite IH.
Qed.
Lemma uris_good m : Forall (fun u => u <> "") (ex_uris m) /\ NoDup (ex_uris m).
Proof.
  unfold ex_uris. split.
  - apply Forall_forall. intros u Hu. apply in_map_iff in Hu. destruct Hu as (i & <- & _). destruct i; discriminate.
  - apply FinFun.Injective_map_NoDup; [|apply seq_NoDup]. intros a b H. apply (f_equal String.length) in H. rewrite !uri_length in H. lia.
Qed.
Lemma many_parsed m : exists s, parse_file 6 (ex_disk (ex_uris m)) "" = Ok s /\ after m (sc_elements (s_context s)) (sc_namespaces (s_context s)) /\ sc_qualified (s_context s) = false.
Proof.
  destruct (uris_good m) as [U1 U2]. destruct (include_all 0 (ex_uris m) (ex_uris m) U1 U2 0 [] namespaces_default NsNone [("xs", NS_XSD); ("t", "urn:t")] []) as (R & nss & A & E).
  { repeat split. } { intros u _ []. }
  exists (into_schema (mkCtx R None NsNone [("xs", NS_XSD); ("t", "urn:t")] false (mkShared nss []))). split; [|split; [|reflexivity]].
  - unfold parse_file. set (k5 := 5) in *. change 6 with (S k5). cbn [parse_file_with_context]. change (fs_read (ex_disk (ex_uris m)) "") with (Some (Some (ex_whole (ex_uris m)))). cbv iota.
    unfold parse_with, parse_schema_with. change (negb (has_name "schema" (Some NS_XSD) (ex_whole (ex_uris m)))) with false. cbv iota zeta.
    change (n_attribute (node_of (ex_whole (ex_uris m))) "targetNamespace") with (@None attr, mkNode (ex_whole (ex_uris m)) ["targetNamespace"]). cbv iota beta.
    change (n_children (mkNode (ex_whole (ex_uris m)) ["targetNamespace"]) NS_XSD) with (n_children (node_of (ex_whole (ex_uris m))) NS_XSD). rewrite whole_children.
    change (ctx_new (ex_whole (ex_uris m)) (option_map at_value None) shared_default) with (mkCtx [] None NsNone [("xs", NS_XSD); ("t", "urn:t")] false (mkShared namespaces_default [])).
    change (fs_parent (ex_disk (ex_uris m)) "") with "". subst k5. rewrite E. reflexivity.
  - unfold ex_uris in A. rewrite map_length, seq_length in A. exact A.
Qed.
Lemma many_generated m s : after m (sc_elements (s_context s)) (sc_namespaces (s_context s)) -> sc_qualified (s_context s) = false ->
  exists p rs, generate_all 5 s = Ok p /\ Forall2 (fun n r => sc_get (s_context s) n = Some r) (map fst (sc_elements (s_context s))) rs.
Proof.
  intros (A1 & _ & A3) Q. destruct s as [deps [R tn q nss]]. cbn [s_context sc_elements sc_namespaces sc_qualified] in *. subst q. set (c := mkSchemaCtx R tn false nss).
  assert (Nd : NoDup (map fst R)).
  { subst R. rewrite map_map. cbn [fst]. apply Injective_map_NoDup; [|apply seq_NoDup]. intros a b H. now injection H as H. }
  assert (G : forall n, In n (map fst R) -> sc_get c n = Some the_root /\ exists t, generate_element 5 c n = Ok t).
  { intros n Hn. assert (E : sc_get c n = Some the_root).
    { unfold sc_get. apply (In_aget _ name_eqb_eq _ _ _ Nd). cbn [sc_elements c]. clear -Hn A1. subst R. rewrite map_map in Hn. cbn [fst] in Hn. apply in_map_iff in Hn. destruct Hn as (j & <- & Hj).
      apply in_map_iff. now exists j. }
    split; [exact E|]. rewrite A1, map_map in Hn. cbn [fst] in Hn. apply in_map_iff in Hn. destruct Hn as (j & <- & Hj). rewrite <- A3 in Hj.
    assert (D : exists d, get_by_id nss j = Some d).
    { unfold get_by_id. destruct (aget Nat.eqb j (by_id nss)) as [d|] eqn:Ed; [now exists d|]. exfalso. clear -Hj Ed. induction (by_id nss) as [|[a b] l IH]; [exact Hj|]. cbn [aget map fst] in *.
      destruct (Nat.eqb_spec j a); [discriminate|]. destruct Hj as [->|Hj]; [contradiction|auto]. }
    destruct D as (d & D). unfold generate_element. rewrite E. clear E.
    unfold xml_name_of, get_xml_element_name, xml_ns_of, quote_xml_namespace, element_nss. cbn [nm_ns nm c sc_qualified sc_namespaces andb]. rewrite D.
    eexists. reflexivity. }
  enough (X : forall l, incl l R -> exists p rs, mapM (fun e => generate_element 5 c (fst e)) l = Ok p /\ Forall2 (fun n r => sc_get c n = Some r) (map fst l) rs).
  { apply (X R). intros x Hx. exact Hx. }
  induction l as [|e l IH]; intros I; [exists [], []; split; [reflexivity|constructor]|].
  destruct IH as (p & rs & E & F); [intros x Hx; apply I; now right|]. destruct (G (fst e)) as (E1 & t & E2); [apply in_map, I; now left|].
  exists (t :: p), (the_root :: rs). split; [cbn [mapM]; now rewrite E2, E|constructor; assumption].
Qed.
Lemma many_opened m : exists ds, opened (ex_disk (ex_uris m)) "" ds /\ elements ds = 3 * m + 1.
Proof.
  destruct (uris_good m) as [U _]. exists (ex_whole (ex_uris m) :: map ex_part (ex_uris m)). split.
  - constructor; [reflexivity|]. change (fs_parent _ _) with "". unfold xsd_children.
    pose proof (whole_children (ex_uris m)) as W. apply (f_equal (map n_elem)) in W. unfold n_children in W. rewrite !map_map in W. cbn [node_of n_elem] in W. rewrite map_id in W.
    change (xe_children (n_elem (node_of (ex_whole (ex_uris m))))) with (xe_children (ex_whole (ex_uris m))) in W. rewrite W. clear W.
    generalize (ex_uris m) at 1 as us0. intros us0. induction (ex_uris m) as [|u us IH]; [constructor|]. inversion U; subst. cbn [map]. change (ex_part u :: map ex_part us) with ([ex_part u] ++ map ex_part us).
    apply oi_load with (at_ "schemaLocation" u); [now left|now apply lookup_last| |auto].
    change (fs_push _ _ _) with u. constructor; [cbn [ex_disk fs_read]; destruct (String.eqb_spec u ""); [contradiction|reflexivity]|].
    apply oi_other; [intros [K|K]; discriminate K|constructor].
  - assert (Z : forall us, size (ex_whole us) = S (length us)).
    { intros us. unfold ex_whole, xschema. cbn [size]. f_equal. unfold list_sum. rewrite !map_map.
      induction us as [|u us IH]; [reflexivity|]. cbn [map fold_right length]. rewrite IH. reflexivity. }
    assert (Y : forall us, elements (map ex_part us) = 2 * length us).
    { induction us as [|u us IH]; [reflexivity|]. unfold elements in *. cbn [map list_sum fold_right]. change (size (ex_part u)) with 2. unfold list_sum in IH. rewrite IH. cbn [length]. lia. }
    unfold elements. cbn [map]. change (list_sum (size (ex_whole (ex_uris m)) :: map size (map ex_part (ex_uris m)))) with (size (ex_whole (ex_uris m)) + elements (map ex_part (ex_uris m))).
    rewrite Z, Y. unfold ex_uris. rewrite map_length, seq_length. lia.
Qed.
