(** * DeclMain: schema documents and sets of files are read as DeclSpec.v says *)
From Verif Require Import Base Libs Xml Ast XsdNode Parse TextSpec NumProof MiscSpec MiscProof ParseSpec DeclSpec
  ParseProof ParseFiles ParseFrame ParseRoots DeclProof1 DeclProof2 DeclProof3.

(** ** Logs *)
Lemma last_def_snoc n log k v r :
  last_def n (log ++ [(k, v)]) r <-> (n = k /\ r = v) \/ (n <> k /\ last_def n log r).
Proof.
  split.
  - intros (l & rest & E & F). destruct rest as [|e rest _] using rev_ind.
    + apply app_inj_tail in E. destruct E as [-> E]. injection E as -> ->. auto.
    + rewrite app_comm_cons, app_assoc in E. apply app_inj_tail in E. destruct E as [-> <-].
      apply Forall_app in F. destruct F as [F1 F2]. inversion F2; subst. right. split; [intros ->; simpl in *; tauto|].
      exists l, rest. auto.
  - intros [[-> ->]|[N (l & rest & -> & F)]].
    + exists log, []. split; [reflexivity|constructor].
    + exists l, (rest ++ [(k, v)]). split; [now rewrite <- app_assoc|]. apply Forall_app. split; [exact F|].
      constructor; [simpl; congruence|constructor].
Qed.
Lemma aget_iff_In (m : list (name * root)) n r : NoDup (map fst m) -> (aget name_eqb n m = Some r <-> In (n, r) m).
Proof.
  induction m as [|[k v] m IH]; simpl; intros ND; [split; [discriminate|tauto]|]. inversion ND; subst.
  destruct (name_eqb n k) eqn:E.
  - apply name_eqb_eq in E. subst k. split; [intros H; injection H as ->; auto|].
    intros [H|H]; [now injection H as ->|]. exfalso. apply H1. apply in_map_iff. exists (n, r). auto.
  - rewrite IH by assumption. split; [auto|]. intros [H|H]; [|exact H]. injection H as -> ->.
    rewrite name_eqb_refl in E. discriminate.
Qed.
Lemma aget_log log n r : aget name_eqb n (add_all log []) = Some r <-> last_def n log r.
Proof.
  induction log as [|[k v] log IH] using rev_ind.
  - split; [discriminate|]. intros (l & rest & E & _). destruct l; discriminate.
  - rewrite add_all_app, last_def_snoc, <- IH. simpl. destruct (name_eqb k n) eqn:E.
    + apply name_eqb_eq in E. subst k. rewrite (aget_aset_same _ name_eqb_eq). split.
      * intros H; injection H as ->. auto.
      * intros [[_ ->]|[N _]]; [reflexivity|contradiction].
    + assert (N : k <> n) by (intros ->; rewrite name_eqb_refl in E; discriminate).
      rewrite (aget_aset_other _ name_eqb_eq) by exact N. split; [intros H; right; split; [congruence|exact H]|].
      intros [[-> _]|[_ H]]; [contradiction|exact H].
Qed.
Lemma listing_log log : listing log (add_all log []).
Proof.
  assert (ND : NoDup (map fst (add_all log []))) by (apply add_all_NoDup; constructor).
  split; [exact ND|]. intros n r. rewrite <- aget_iff_In by exact ND. apply aget_log.
Qed.

(** ** The context of a schema element *)
Lemma doc_nss_spec (l : list (option string * string)) : NoDup (map fst l) -> forall p uri,
  aget String.eqb p (fold_left (fun m ns => match ns with
                                            | (Some p, uri) => aset String.eqb p uri m
                                            | (None, _) => m
                                            end) l []) = Some uri <-> In (Some p, uri) l.
Proof.
  induction l as [|[q u] l IH] using rev_ind; intros ND p uri; [simpl; split; [discriminate|tauto]|].
  rewrite map_app in ND. simpl in ND. apply NoDup_remove in ND. rewrite app_nil_r in ND. destruct ND as [ND Nq].
  rewrite fold_left_app, in_app_iff. simpl. destruct q as [q|].
  - destruct (String.eqb_spec q p) as [->|N].
    + rewrite (aget_aset_same _ String.eqb_eq). split; [intros H; injection H as ->; auto|].
      intros [H|[H|[]]]; [|now injection H as ->]. exfalso. apply Nq. apply in_map_iff. exists (Some p, uri). auto.
    + rewrite (aget_aset_other _ String.eqb_eq) by exact N. rewrite (IH ND). split; [auto|].
      intros [H|[H|[]]]; [exact H|]. injection H as -> _. contradiction.
  - rewrite (IH ND). split; [auto|]. intros [H|[H|[]]]; [exact H|discriminate].
Qed.
Lemma default_spec (l : list (option string * string)) : NoDup (map fst l) -> forall uri,
  nss_default l = Some uri <-> In (None, uri) l.
Proof.
  induction l as [|[[q|] u] l IH]; simpl; intros ND uri; [split; [discriminate|tauto]| |]; inversion ND; subst.
  - rewrite IH by assumption. split; [auto|]. intros [H|H]; [discriminate|exact H].
  - split; [intros H; injection H as ->; auto|]. intros [H|H]; [now injection H as ->|].
    exfalso. apply H1. apply in_map_iff. exists (None, uri). auto.
Qed.
Lemma rox_spec l n v : rox_attribute l n = Some v <-> exists p a r, l = p ++ a :: r /\ at_name a = n /\ at_ns a = None
  /\ at_value a = v /\ Forall (fun b => ~ (at_name b = n /\ at_ns b = None)) p.
Proof.
  induction l as [|b l IH]; simpl.
  - split; [discriminate|]. intros (p & a & r & E & _). destruct p; discriminate.
  - destruct (andb _ _) eqn:C.
    + apply andb_true_iff in C. destruct C as [C1 C2]. apply String.eqb_eq in C1. apply opt_eqb_None in C2. split.
      * intros H; injection H as <-. exists [], b, l. auto.
      * intros (p & a & r & E & H1 & H2 & H3 & F). destruct p as [|x p]; [injection E as <- _; now rewrite H3|].
        injection E as -> _. inversion F; subst. tauto.
    + rewrite IH. assert (Nb : ~ (at_name b = n /\ at_ns b = None)).
      { intros [<- E]. rewrite String.eqb_refl, (proj2 (opt_eqb_None _) E) in C. discriminate. }
      split.
      * intros (p & a & r & -> & H). exists (b :: p), a, r. split; [reflexivity|]. repeat split; try tauto. constructor; tauto.
      * intros (p & a & r & E & H1 & H2 & H3 & F). destruct p as [|x p]; [injection E as <- _; tauto|].
        injection E as -> ->. inversion F; subst. exists p, a, r. auto.
Qed.

Section Main.
Context {L : Libs}.

Lemma new_env d sh : prefixes_once d -> ns_wf (sh_namespaces sh) ->
  let c := ctx_new d (option_map at_value (attr_lookup "targetNamespace" (xe_attrs d))) sh in
  env d (vns c) c /\ nss_le (sh_namespaces sh) (nss_of c) /\ cx_roots c = []
  /\ (forall nss, nss_le (nss_of c) nss -> target_of d nss (cx_target c)) /\ local_ns d (cx_target c) (vns c).
Proof.
  intros PO W c.
  destruct (ctx_new_ok d (option_map at_value (attr_lookup "targetNamespace" (xe_attrs d))) sh W) as ((W' & _) & N & _).
  fold c in W', N. split; [|split; [exact N|]].
  - split; [|split; [reflexivity|exact W']]. split.
    + intros p uri. unfold c, ctx_new. destruct (match _ with Some t => _ | None => _ end) as [tn nss]. simpl. now apply doc_nss_spec.
    + unfold c, ctx_new. destruct (match _ with Some t => _ | None => _ end) as [tn nss]. simpl. now apply default_spec.
  - assert (Q : cx_qualified c = opt_eqb String.eqb (rox_attribute (xe_attrs d) "elementFormDefault") (Some "qualified")).
    { unfold c, ctx_new. now destruct (match _ with Some t => _ | None => _ end). }
    split; [unfold c, ctx_new; now destruct (match _ with Some t => _ | None => _ end)|]. split.
    + intros nss Le. unfold c, ctx_new in *. clear c. destruct (attr_lookup "targetNamespace" (xe_attrs d)) as [a|] eqn:A.
      * left. apply attr_lookup_iff in A. exists a. split; [exact A|]. simpl in *.
        destruct (get_or_insert (sh_namespaces sh) (at_value a)) as [tn nss'] eqn:G. simpl in *.
        destruct (insert_uri _ _ _ _ W G) as (_ & _ & U). eapply ns_uri_le; eassumption.
      * right. apply attr_lookup_no in A. auto.
    + unfold local_ns, vns. rewrite Q. destruct (opt_eqb _ _ _) eqn:O.
      * left. split; [|reflexivity]. apply opt_eqb_Some in O. apply rox_spec in O. exact O.
      * right. split; [|reflexivity]. intros H. apply rox_spec in H. rewrite H in O. discriminate.
Qed.

Section File.
Variable f : fs.
Hypothesis bind_once : files_bind_once f.
Variable load : string -> shared_ctx -> res schema_err schema.
Hypothesis loads : forall path sh s, ns_wf (sh_namespaces sh) -> load path sh = Ok s ->
  ns_wf (sc_namespaces (s_context s)) /\ nss_le (sh_namespaces sh) (sc_namespaces (s_context s))
  /\ exists d, fs_read f path = Some (Some d)
     /\ forall nss, nss_le (sc_namespaces (s_context s)) nss -> exists log, defines f nss path d log /\ listing log (sc_elements (s_context s)).

Variable d : xelem.
Variable path : string.

Lemma child_log fuel v x c c' : env d v c -> schema_child fuel load f (fs_parent f path) (node_of x) c = Ok c' ->
  env d v c' /\ nss_le (nss_of c) (nss_of c') /\ cx_target c' = cx_target c
  /\ exists es, cx_roots c' = add_all es (cx_roots c)
     /\ forall nss, nss_le (nss_of c') nss -> child_defines f nss path d (cx_target c) v x es.
Proof.
  intros E. unfold schema_child. destruct (orb _ _) eqn:Ld.
  - apply orb_load in Ld. simpl in Ld.
    destruct (n_try_attribute _ _) as [[a n']|?|?|] eqn:TA; try discriminate. apply try_attr in TA. destruct TA as [TA _].
    simpl. destruct (load _ _) as [s|?|?|] eqn:Lo; try discriminate. simpl. intros H; injection H as <-.
    destruct E as (IS & V & W). destruct (loads _ _ _ W Lo) as (W' & Le & d' & Rd & K).
    split; [split; [exact IS|split; [exact V|exact W']]|]. split; [exact Le|]. split; [reflexivity|].
    exists (sc_elements (s_context s)). split; [reflexivity|]. intros nss Hn. destruct (K nss Hn) as (log & Df & Li).
    eapply cd_load; eassumption.
  - assert (NL : ~ is_load x) by (intros H; apply (proj2 (orb_load (node_of x))) in H; congruence).
    destruct (n_try_attribute _ _) as [[a n']|?|?|] eqn:TA; try discriminate. apply try_attr in TA. destruct TA as [TA ->].
    simpl. destruct (root_parse _ _ _ _) as [[r c1]|?|?|] eqn:R; try discriminate. simpl. intros H; injection H as <-.
    destruct (proj1 (walk_ok d v fuel) _ _ _ _ _ E R) as (E1 & Le & adds & RA & Va & Q).
    split; [exact E1|]. split; [exact Le|].
    split.
    { pose proof (proj1 (keeps_all fuel) (mkNode x ["name"]) (mkName (at_value a) (cx_target c)) c) as K.
      simpl in R. rewrite R in K. apply K. }
    exists (adds ++ [(mkName (at_value a) (cx_target c), r)]). split; [rewrite add_all_app, <- RA; reflexivity|].
    intros nss Hn. apply cd_decl; [exact NL|exact TA| |exact Va]. apply (Q nss adds Hn). apply incl_refl.
Qed.

Lemma children_log fuel v xs : forall c c', env d v c ->
  schema_children fuel load f (fs_parent f path) (map node_of xs) c = Ok c' ->
  env d v c' /\ nss_le (nss_of c) (nss_of c') /\ cx_target c' = cx_target c
  /\ exists ess, cx_roots c' = add_all (concat ess) (cx_roots c)
     /\ forall nss, nss_le (nss_of c') nss -> Forall2 (child_defines f nss path d (cx_target c) v) xs ess.
Proof.
  induction xs as [|x xs IH]; intros c c' E; simpl.
  - intros H; injection H as <-. split; [exact E|]. split; [apply nss_le_refl|]. split; [reflexivity|].
    exists []. split; [reflexivity|constructor].
  - destruct (schema_child _ _ _ _ _ _) as [c1|?|?|] eqn:C; try discriminate. simpl. intros H.
    destruct (child_log fuel v x c c1 E C) as (E1 & L1 & T1 & es & R1 & K1).
    destruct (IH c1 c' E1 H) as (E2 & L2 & T2 & ess & R2 & K2).
    split; [exact E2|]. split; [eapply nss_le_trans; eassumption|]. split; [congruence|].
    exists (es :: ess). split; [simpl; rewrite add_all_app, <- R1; exact R2|]. intros nss Hn. constructor.
    + apply K1. eapply nss_le_trans; eassumption.
    + rewrite T1 in K2. now apply K2.
Qed.

Lemma schema_log fuel sh s : prefixes_once d -> ns_wf (match sh with Some s => sh_namespaces s | None => namespaces_default end) ->
  parse_schema_with fuel load f d (fs_parent f path) sh = Ok s ->
  ns_wf (sc_namespaces (s_context s))
  /\ nss_le (match sh with Some s => sh_namespaces s | None => namespaces_default end) (sc_namespaces (s_context s))
  /\ forall nss, nss_le (sc_namespaces (s_context s)) nss ->
     exists log, defines f nss path d log /\ listing log (sc_elements (s_context s)).
Proof.
  intros PO W. unfold parse_schema_with. destruct (negb _); [discriminate|]. unfold n_attribute. cbv zeta iota.
  set (sh' := match sh with Some s => s | None => shared_default end).
  assert (Es : sh_namespaces sh' = match sh with Some s => sh_namespaces s | None => namespaces_default end).
  { subst sh'. now destruct sh. }
  rewrite <- Es in *. clear Es. simpl n_elem.
  destruct (new_env d sh' PO W) as (E0 & L0 & R0 & T0 & V0). rewrite children_nodes. simpl n_elem.
  set (c0 := ctx_new _ _ _) in *.
  destruct (schema_children _ _ _ _ _ c0) as [c'|?|?|] eqn:C; try discriminate. intros H; injection H as <-.
  destruct (children_log fuel _ _ _ _ E0 C) as (E1 & L1 & T1 & ess & R1 & K1). simpl.
  split; [apply E1|]. split; [eapply nss_le_trans; [exact L0|exact L1]|]. intros nss Hn. exists (concat ess).
  split; [|rewrite R1, R0; apply listing_log]. eapply df_doc; [|exact V0|apply K1, Hn].
  apply T0. eapply nss_le_trans; [exact L1|exact Hn].
Qed.
End File.

Lemma file_log f fuel : files_bind_once f -> forall path sh s, ns_wf (sh_namespaces sh) ->
  parse_file_with_context fuel f path (Some sh) = Ok s ->
  ns_wf (sc_namespaces (s_context s)) /\ nss_le (sh_namespaces sh) (sc_namespaces (s_context s))
  /\ exists d, fs_read f path = Some (Some d)
     /\ forall nss, nss_le (sc_namespaces (s_context s)) nss -> exists log, defines f nss path d log /\ listing log (sc_elements (s_context s)).
Proof.
  intros BO. induction fuel as [|fuel IH]; intros path sh s W; simpl; [discriminate|].
  destruct (fs_read f path) as [[d|]|] eqn:R; [|discriminate|discriminate]. simpl.
  destruct (parse_schema_with _ _ _ _ _ _) as [s'|?|?|] eqn:P; try discriminate. simpl. intros H; injection H as <-.
  destruct (schema_log f _ IH d path fuel (Some sh) s' (BO _ _ R) W P) as (W' & Le & K).
  split; [exact W'|]. split; [exact Le|]. exists d. split; [reflexivity|exact K].
Qed.

Lemma parse_log fuel f d path s : files_bind_once f -> prefixes_once d -> schema_parse fuel f (Some d) path = Ok s ->
  exists log, defines f (sc_namespaces (s_context s)) path d log /\ listing log (sc_elements (s_context s)).
Proof.
  intros BO PO. unfold schema_parse. simpl. destruct (parse_schema_with _ _ _ _ _ _) as [s'|?|?|] eqn:P; try discriminate.
  simpl. intros H; injection H as <-.
  destruct (schema_log f _ (file_log f fuel BO) d path fuel None s' PO ns_wf_default P) as (W' & Le & K).
  apply K, nss_le_refl.
Qed.
End Main.
