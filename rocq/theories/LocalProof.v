(** * LocalProof: parsing a declaration does not depend on the others *)
From Coq Require Import Permutation.
From Verif Require Import Base Libs Xml Ast XsdNode Parse ParseSpec MiscSpec MiscProof ParseProof ParseFiles ParseFrame ParseRoots
  DeclSpec DeclProof1 DeclProof2 MergeSpec MergeProof HashProof LocalSpec.

Section Local.
Context {L : Libs}.

(** ** Two states that differ in what has been collected *)
Definition own_nss (c : ctx) : Prop := forall p uri, aget String.eqb p (cx_doc_nss c) = Some uri -> uri <> NS_XSD ->
  snd (get_or_insert (sh_namespaces (cx_shared c)) uri) = sh_namespaces (cx_shared c).
Definition same_env (c c' : ctx) : Prop :=
  frame c c' /\ sh_namespaces (cx_shared c) = sh_namespaces (cx_shared c') /\ own_nss c.
(** Definitions and dependencies added to a state. *)
Definition add_deps (dl : list (name * name)) (deps : list (name * list name)) : list (name * list name) :=
  fold_left (fun d e => add_dependency (fst e) (snd e) d) dl deps.
Definition replay (log : list (name * root)) (dl : list (name * name)) (c : ctx) : ctx :=
  set_roots (add_all log (cx_roots c))
    (set_shared (mkShared (sh_namespaces (cx_shared c)) (add_deps dl (sh_dependencies (cx_shared c)))) c).
(** What a parser collects and returns depends on the surroundings only. *)
Definition local {A} (m : P A) : Prop := forall c, own_nss c ->
  match m c with
  | Ok (a, c1) => exists log dl, c1 = replay log dl c /\ forall c', same_env c c' -> m c' = Ok (a, replay log dl c')
  | Err e => forall c', same_env c c' -> m c' = Err e
  | Panic w => forall c', same_env c c' -> m c' = Panic w
  | OutOfFuel => forall c', same_env c c' -> m c' = OutOfFuel
  end.

Lemma replay_nil c : replay [] [] c = c.
Proof. destruct c as [r dn t dns q [n d]]. reflexivity. Qed.
Lemma replay_app l1 d1 l2 d2 c : replay l2 d2 (replay l1 d1 c) = replay (l1 ++ l2) (d1 ++ d2) c.
Proof. unfold replay, add_all, add_deps. cbn. now rewrite !fold_left_app. Qed.
Lemma replay_env log dl c c' : same_env c c' -> same_env (replay log dl c) (replay log dl c').
Proof. intros (F & N & O). split; [exact F|]. split; [exact N|exact O]. Qed.
Lemma replay_env_l log dl c c' : same_env c c' -> same_env c (replay log dl c').
Proof. intros (F & N & O). split; [exact F|]. split; [exact N|exact O]. Qed.

(** ** The combinators *)
Lemma local_bind {A B} (m : P A) (k : A -> P B) : local m -> (forall a, local (k a)) -> local (pbind m k).
Proof.
  intros H K c O. unfold pbind. specialize (H c O). destruct (m c) as [[a c1]|e|w|].
  - destruct H as (l1 & d1 & -> & H). assert (O1 : own_nss (replay l1 d1 c)) by exact O. specialize (K a _ O1).
    destruct (k a (replay l1 d1 c)) as [[b c2]|e|w|].
    + destruct K as (l2 & d2 & -> & K). exists (l1 ++ l2), (d1 ++ d2). rewrite replay_app. split; [reflexivity|].
      intros c' E. rewrite (H c' E), (K _ (replay_env l1 d1 _ _ E)). now rewrite replay_app.
    + intros c' E. rewrite (H c' E). apply K, replay_env, E.
    + intros c' E. rewrite (H c' E). apply K, replay_env, E.
    + intros c' E. rewrite (H c' E). apply K, replay_env, E.
  - intros c' E. now rewrite (H c' E).
  - intros c' E. now rewrite (H c' E).
  - intros c' E. now rewrite (H c' E).
Qed.
Lemma local_get {B} (k : ctx -> P B) : (forall c, local (k c)) -> (forall c c', same_env c c' -> k c = k c') -> local (pbind pget k).
Proof.
  intros H X c O. unfold pbind, pget. specialize (H c c O). destruct (k c c) as [[b c1]|e|w|].
  - destruct H as (l & d & -> & H). exists l, d. split; [reflexivity|]. intros c' E. rewrite <- (X _ _ E). now apply H.
  - intros c' E. rewrite <- (X _ _ E). now apply H.
  - intros c' E. rewrite <- (X _ _ E). now apply H.
  - intros c' E. rewrite <- (X _ _ E). now apply H.
Qed.
Lemma local_ret {A} (a : A) : local (pret a).
Proof. intros c _. exists [], []. split; [now rewrite replay_nil|]. intros c' _. now rewrite replay_nil. Qed.
Lemma local_err {A} e : local (@perr A e).
Proof. intros c _ c' _. reflexivity. Qed.
Lemma local_lift {A} (m : res xsd_err A) : local (plift m).
Proof. intros c O. unfold plift. destruct m; auto. apply (local_ret a c O). Qed.
Lemma local_type a : local (get_type_name a).
Proof.
  intros c O. unfold get_type_name.
  assert (S : forall c', same_env c c' -> cx_doc_nss c' = cx_doc_nss c /\ cx_default_ns c' = cx_default_ns c
    /\ sh_namespaces (cx_shared c') = sh_namespaces (cx_shared c)) by (intros c' ((D & T & N & Q) & S & _); auto).
  destruct (split_colon _) as [[p l]|].
  - destruct (aget _ _ (cx_doc_nss c)) as [uri|] eqn:G.
    + destruct (uri =?s NS_XSD) eqn:X.
      * destruct (literal_from_str l) eqn:Li.
        -- exists [], []. split; [now rewrite replay_nil|]. intros c' E. destruct (S c' E) as (-> & _). now rewrite G, X, replay_nil.
        -- intros c' E. destruct (S c' E) as (-> & _). now rewrite G, X.
      * pose proof X as X'. apply String.eqb_neq in X'. specialize (O p uri G X'). destruct (get_or_insert _ _) as [ns nss] eqn:I. simpl in O. subst nss.
        exists [], []. split; [now destruct c as [? ? ? ? ? []]|]. intros c' E. destruct (S c' E) as (-> & _ & N). rewrite G, X, N, I, replay_nil, <- N.
        now destruct c' as [? ? ? ? ? []].
    + intros c' E. destruct (S c' E) as (-> & _). now rewrite G.
  - destruct (opt_eqb _ (cx_default_ns c) _) eqn:D.
    + destruct (literal_from_str _) eqn:Li.
      * exists [], []. split; [now rewrite replay_nil|]. intros c' E. destruct (S c' E) as (_ & -> & _). now rewrite D, replay_nil.
      * intros c' E. destruct (S c' E) as (_ & -> & _). now rewrite D.
    + exists [], []. split; [now rewrite replay_nil|]. intros c' E. destruct (S c' E) as (_ & -> & _). now rewrite D, replay_nil.
Qed.
Lemma local_discover n p : local (discover_type n p).
Proof. intros c _. exists [], [(n, p)]. split; [now destruct c as [? ? ? ? ? []]|]. intros c' _. now destruct c' as [? ? ? ? ? []]. Qed.
Lemma local_add n r : local (add_root n r).
Proof. intros c _. exists [(n, r)], []. split; [now destruct c as [? ? ? ? ? []]|]. intros c' _. now destruct c' as [? ? ? ? ? []]. Qed.
Lemma node_name_env c c' s b : same_env c c' -> get_node_name c s b = get_node_name c' s b.
Proof. intros ((D & T & N & Q) & S & O). unfold get_node_name. now rewrite T, Q. Qed.
Lemma local_virtual ns b : local (derive_virtual_name ns b).
Proof.
  intros c O. unfold derive_virtual_name. cbv zeta.
  match goal with |- context [match ?x with Some s => _ | None => _ end] => destruct x as [s|] end.
  - exists [], []. split; [now rewrite replay_nil|]. intros c' E. now rewrite (node_name_env c c' _ _ E), replay_nil.
  - destruct (concat_upper _) as [v|e|w|]; simpl; auto.
    exists [], []. split; [now rewrite replay_nil|]. intros c' E. now rewrite (node_name_env c c' _ _ E), replay_nil.
Qed.
Lemma local_collect {A B} (f : A -> P (option B)) l : (forall a, local (f a)) -> local (pcollect f l).
Proof.
  intros H. induction l as [|a l IH]; simpl; [apply local_ret|].
  apply local_bind; [apply H|]. intros o. apply local_bind; [exact IH|]. intros bs. apply local_ret.
Qed.

Ltac lstep :=
  match goal with
  | |- local (pbind pget _) => apply local_get; [intros ?|intros ? ? ?ENV; rewrite ?(node_name_env _ _ _ _ ENV); reflexivity]
  | |- local (pbind _ _) => apply local_bind; [|intros ?]
  | |- local (pret _) => apply local_ret
  | |- local (perr _) => apply local_err
  | |- local (plift _) => apply local_lift
  | |- local (get_type_name _) => apply local_type
  | |- local (discover_type _ _) => apply local_discover
  | |- local (add_root _ _) => apply local_add
  | |- local (derive_virtual_name _ _) => apply local_virtual
  | |- local (pcollect _ _) => apply local_collect; intros ?
  | |- local (match ?x with _ => _ end) => destruct x
  | |- local (let '(_, _) := ?x in _) => destruct x
  end.

Lemma local_simple n : local (simple_type_parse n).
Proof. unfold simple_type_parse. cbv zeta. repeat lstep. Qed.
Lemma local_content n p ct : local (content_of_type n p ct).
Proof. unfold content_of_type. repeat lstep. Qed.
Lemma local_attribute p n : local (attribute_parse p n).
Proof. unfold attribute_parse. cbv zeta. repeat first [lstep | apply local_simple | apply local_content]. Qed.
Lemma local_simple_content n p : local (simple_content_parse n p).
Proof. unfold simple_content_parse. cbv zeta. repeat first [lstep | apply local_attribute]. Qed.

Definition local_at (fuel : nat) : Prop :=
  (forall n p, local (root_parse fuel n p)) /\ (forall n p, local (parse_root fuel n p))
  /\ (forall n p, local (parse_child fuel n p)) /\ (forall n p, local (complex_type_parse fuel n p))
  /\ (forall n p, local (complex_content_parse fuel n p)) /\ (forall n p, local (sequence_parse fuel n p))
  /\ (forall n p, local (choice_parse fuel n p)).
Lemma local_all fuel : local_at fuel.
Proof.
  induction fuel as [|fuel IH]; [repeat split; intros; intros c O c' _; reflexivity|].
  destruct IH as (H1 & H2 & H3 & H4 & H5 & H6 & H7).
  split; [|split; [|split; [|split; [|split; [|split]]]]]; intros n p.
  - cbn [root_parse]. repeat first [lstep | apply H2 | apply H4 | apply local_simple].
  - cbn [parse_root]. cbv zeta. repeat first [lstep | apply H4 | apply local_simple | apply local_content].
  - cbn [parse_child]. cbv zeta. repeat first [lstep | apply H1 | apply local_content].
  - cbn [complex_type_parse]. cbv zeta.
    repeat first [lstep | apply H5 | apply H6 | apply H7 | apply local_attribute | apply local_simple_content].
  - cbn [complex_content_parse]. cbv zeta. repeat first [lstep | apply H6 | apply local_attribute].
  - cbn [sequence_parse]. cbv zeta. repeat first [lstep | apply H3 | apply H6 | apply H7].
  - cbn [choice_parse]. cbv zeta. repeat first [lstep | apply H3 | apply H6].
Qed.

(** ** Declarations of a schema document *)
Section Children.
Variables (tf : nat) (load : string -> shared_ctx -> res schema_err schema) (f : fs) (bp : string).
Notation child := (schema_child tf load f bp).
Notation children := (schema_children tf load f bp).
Definition block (c : ctx) (x : node) (b : list (name * root) * list (name * name)) : Prop :=
  forall c', same_env c c' -> child x c' = Ok (replay (fst b) (snd b) c').

Lemma same_env_refl c : own_nss c -> same_env c c.
Proof. intros O. repeat split; exact O. Qed.
Lemma child_local x c : ~ is_load (n_elem x) -> own_nss c ->
  match child x c with
  | Ok _ => exists b, block c x b
  | Err e => forall c', same_env c c' -> child x c' = Err e
  | Panic w => forall c', same_env c c' -> child x c' = Panic w
  | OutOfFuel => forall c', same_env c c' -> child x c' = OutOfFuel
  end.
Proof.
  intros NL O. unfold block, schema_child. destruct (orb _ _) eqn:Or; [apply orb_load in Or; tauto|].
  destruct (n_try_attribute x "name") as [[a x']|e|w|]; simpl; auto.
  destruct (local_all tf) as (H & _). specialize (H x' (mkName (at_value a) (cx_target c)) c O).
  assert (T : forall c', same_env c c' -> cx_target c' = cx_target c) by (intros c' ((_ & T & _) & _); exact T).
  destruct (root_parse _ _ _ c) as [[r c1]|e|w|]; simpl.
  - destruct H as (l & dl & -> & H). exists (l ++ [(mkName (at_value a) (cx_target c), r)], dl).
    intros c' E. rewrite (T c' E), (H c' E). simpl. unfold replay. rewrite add_all_app. reflexivity.
  - intros c' E. now rewrite (T c' E), (H c' E).
  - intros c' E. now rewrite (T c' E), (H c' E).
  - intros c' E. now rewrite (T c' E), (H c' E).
Qed.
Definition logs (bs : list (list (name * root) * list (name * name))) := concat (map fst bs).
Definition deps (bs : list (list (name * root) * list (name * name))) := concat (map snd bs).
Lemma blocks_children c cs bs : Forall2 (block c) cs bs -> forall c', same_env c c' ->
  children cs c' = Ok (replay (logs bs) (deps bs) c').
Proof.
  induction 1 as [|x b cs bs Hx H IH]; intros c' E; simpl; [now rewrite replay_nil|].
  rewrite (Hx c' E). simpl. rewrite IH by now apply replay_env_l. now rewrite replay_app.
Qed.
Lemma children_blocks c cs : Forall (fun x => ~ is_load (n_elem x)) cs -> own_nss c ->
  (forall x, In x cs -> exists c1, child x c = Ok c1) -> exists bs, Forall2 (block c) cs bs.
Proof.
  intros F O H. induction cs as [|x cs IH]; [exists []; constructor|].
  inversion F as [|? ? F1 F2]; subst. destruct (IH F2) as (bs & B); [intros y I; apply H; now right|].
  destruct (H x) as (c1 & E); [now left|]. pose proof (child_local x c F1 O) as K. rewrite E in K. destruct K as (b & K).
  exists (b :: bs). now constructor.
Qed.
Lemma children_each c cs : Forall (fun x => ~ is_load (n_elem x)) cs -> own_nss c -> forall c' c1, same_env c c' ->
  children cs c' = Ok c1 -> forall x, In x cs -> exists c2, child x c = Ok c2.
Proof.
  intros F O. induction F as [|x cs F1 F IH]; intros c' c1 E H y I; [destruct I|].
  simpl in H. apply bind_ok in H. destruct H as (c2 & H1 & H2).
  pose proof (child_local x c F1 O) as K. destruct (child x c) as [c3| | |] eqn:X; try (rewrite (K c' E) in H1; discriminate).
  destruct I as [->|I]; [eauto|]. destruct K as (b & K). rewrite (K c' E) in H1. injection H1 as <-.
  eapply IH; [|exact H2|exact I]. now apply replay_env_l.
Qed.
End Children.

(** ** The table of types *)
Definition own (b : list (name * root) * list (name * name)) (n : name) : option root := aget name_eqb n (add_all (fst b) []).
Lemma aget_add_app n l : forall R, aget name_eqb n (add_all l R) = match aget name_eqb n (add_all l []) with
  | Some r => Some r | None => aget name_eqb n R end.
Proof.
  induction l as [|[k v] l IH] using rev_ind; intros R; [reflexivity|]. rewrite !add_all_app. simpl. rewrite !aget_aset.
  destruct (name_eqb k n); [reflexivity|apply IH].
Qed.
Lemma logs_some bs n r : aget name_eqb n (add_all (logs bs) []) = Some r -> exists b, In b bs /\ own b n = Some r.
Proof.
  induction bs as [|b bs IH]; simpl; [discriminate|]. unfold logs in *. simpl. rewrite add_all_app, aget_add_app.
  destruct (aget name_eqb n (add_all (concat (map fst bs)) [])) as [r'|] eqn:A.
  - intros E. injection E as ->. destruct (IH eq_refl) as (b' & I & K). eauto.
  - intros E. exists b. auto.
Qed.
Lemma logs_none bs n : aget name_eqb n (add_all (logs bs) []) = None -> forall b, In b bs -> own b n = None.
Proof.
  induction bs as [|b bs IH]; simpl; [tauto|]. unfold logs in *. simpl. rewrite add_all_app, aget_add_app.
  destruct (aget name_eqb n (add_all (concat (map fst bs)) [])) as [r'|] eqn:A; [discriminate|].
  intros E b' [<-|I]; auto.
Qed.
Definition apart (bs : list (list (name * root) * list (name * name))) : Prop :=
  forall n, length (filter (fun b => match own b n with Some _ => true | None => false end) bs) <= 1.
Lemma apart_perm bs bs' : Permutation bs bs' -> apart bs -> apart bs'.
Proof. intros P A n. rewrite <- (Permutation_length (filter_perm _ _ _ P)). apply A. Qed.
Lemma logs_apart bs n b r : apart bs -> In b bs -> own b n = Some r -> aget name_eqb n (add_all (logs bs) []) = Some r.
Proof.
  intros A I E. destruct (aget name_eqb n (add_all (logs bs) [])) as [r'|] eqn:G.
  - apply logs_some in G. destruct G as (b' & I' & E'). specialize (A n).
    set (p := fun b => match own b n with Some _ => true | None => false end) in *.
    assert (J : In b (filter p bs)) by (apply filter_In; split; [exact I|unfold p; now rewrite E]).
    assert (J' : In b' (filter p bs)) by (apply filter_In; split; [exact I'|unfold p; now rewrite E']).
    destruct (filter p bs) as [|b1 [|b2 l]]; simpl in *; [tauto| |lia].
    destruct J as [<-|[]]. destruct J' as [<-|[]]. congruence.
  - rewrite (logs_none _ _ G _ I) in E. discriminate.
Qed.
Lemma logs_perm bs bs' : apart bs -> Permutation bs bs' -> forall n,
  aget name_eqb n (add_all (logs bs) []) = aget name_eqb n (add_all (logs bs') []).
Proof.
  intros A P n. destruct (aget name_eqb n (add_all (logs bs) [])) as [r|] eqn:G.
  - apply logs_some in G. destruct G as (b & I & E). symmetry. eapply logs_apart; [eapply apart_perm; eauto| |exact E].
    eapply Permutation_in; eauto.
  - destruct (aget name_eqb n (add_all (logs bs') [])) as [r|] eqn:G'; [|reflexivity].
    apply logs_some in G'. destruct G' as (b & I & E). rewrite (logs_none _ _ G b) in E; [discriminate|].
    eapply Permutation_in; [apply Permutation_sym, P|exact I].
Qed.

(** ** Dependencies *)
Definition used (d : list (name * list name)) (n m : name) : Prop := exists l, aget name_eqb n d = Some l /\ In m l.
Lemma used_add m n d n' m' : used (add_dependency m n d) n' m' <-> (n' = n /\ m' = m) \/ used d n' m'.
Proof.
  unfold used, add_dependency. cbv zeta. destruct (name_eqb n n') eqn:E.
  - apply name_eqb_eq in E. subst n'. rewrite (aget_aset_same _ name_eqb_eq).
    destruct (mem name_eqb m _) eqn:M.
    + apply (Base.mem_In name_eqb name_eqb_eq) in M. split.
      * intros (l & H & I). injection H as <-. destruct (aget name_eqb n d) as [l|]; [|destruct I]. right. eauto.
      * intros [[_ ->]|(l & H & I)]; [eauto|]. rewrite H in *. eauto.
    + split.
      * intros (l & H & I). injection H as <-. apply in_app_iff in I. destruct I as [I|[<-|[]]]; [|auto].
        destruct (aget name_eqb n d) as [l|]; [|destruct I]. right. eauto.
      * intros [[_ ->]|(l & H & I)]; eexists; (split; [reflexivity|]); apply in_app_iff; [right; now left|].
        rewrite H. now left.
  - assert (N : n <> n') by (intros ->; rewrite (proj2 (name_eqb_eq n' n') eq_refl) in E; discriminate).
    rewrite (aget_aset_other _ name_eqb_eq) by exact N. split; [auto|]. intros [[-> _]|H]; [now elim N|exact H].
Qed.
Lemma used_adds dl : forall d n m, used (add_deps dl d) n m <-> In (m, n) dl \/ used d n m.
Proof.
  induction dl as [|[a b] dl IH]; intros d n m; simpl; [tauto|]. rewrite IH, used_add. simpl.
  split; [intros [H|[[-> ->]|H]]; auto|]. intros [[H|H]|H]; auto. injection H as -> ->. auto.
Qed.

(** ** The context of a schema document *)
Lemma doc_nss_bound (l : list (option string * string)) p uri :
  aget String.eqb p (fold_left (fun m ns => match ns with
                                            | (Some p, uri) => aset String.eqb p uri m
                                            | (None, _) => m
                                            end) l []) = Some uri -> In (Some p, uri) l.
Proof.
  induction l as [|[[q|] u] l IH] using rev_ind; [discriminate| |]; rewrite fold_left_app, in_app_iff; simpl; [|auto].
  destruct (String.eqb_spec q p) as [->|N].
  - rewrite (aget_aset_same _ String.eqb_eq). intros H; injection H as ->; auto.
  - rewrite (aget_aset_other _ String.eqb_eq) by exact N. auto.
Qed.
Lemma get_or_insert_known s u k : aget String.eqb u (by_namespace s) = Some k -> snd (get_or_insert s u) = s.
Proof. intros E. unfold get_or_insert. now rewrite E. Qed.
Definition start (d : xelem) : ctx := ctx_new d (option_map at_value (attr_lookup "targetNamespace" (xe_attrs d))) shared_default.
Lemma start_own d : own_prefixes d -> own_nss (start d).
Proof.
  intros O p uri G N. unfold start, ctx_new in *.
  destruct (attr_lookup "targetNamespace" (xe_attrs d)) as [a|] eqn:A; cbn [option_map] in *.
  - destruct (get_or_insert (sh_namespaces shared_default) (at_value a)) as [tn nss] eqn:I. cbn [cx_doc_nss cx_shared sh_namespaces] in *.
    apply doc_nss_bound in G. destruct (O p uri G) as [->|(b & B & <-)]; [now elim N|].
    apply attr_lookup_iff in B. rewrite A in B. injection B as <-.
    apply get_or_insert_wf in I; [|apply ns_wf_default]. destruct I as (_ & (k & _ & K) & _). eapply get_or_insert_known; eauto.
  - cbn in *. apply doc_nss_bound in G. destruct (O p uri G) as [->|(b & B & _)]; [now elim N|].
    apply attr_lookup_iff in B. congruence.
Qed.
Definition schema_element (d : xelem) : Prop := has_name "schema" (Some NS_XSD) d = true.
Definition ready (fuel : nat) (f : fs) (path : string) (d : xelem) (cs : list xelem) (c : ctx) : Prop :=
  schema_children fuel (fun p s => parse_file_with_context fuel f p (Some s)) f (fs_parent f path) (map node_of cs) (start d) = Ok c.
Lemma parse_ready fuel f path d s : schema_parse fuel f (Some d) path = Ok s
  <-> schema_element d /\ exists c, ready fuel f path d (xsd_children d) c /\ s = into_schema c.
Proof.
  unfold schema_parse, parse_with, parse_schema_with, schema_element, ready. destruct (has_name _ _ _); cbn [negb].
  - unfold start. cbv beta iota zeta delta [n_attribute].
    change (n_children (mkNode (n_elem (node_of d)) ("targetNamespace" :: n_visited (node_of d))) NS_XSD) with (map node_of (xsd_children d)).
    cbn [node_of n_elem].
    destruct (schema_children _ _ _ _ _ _) as [c|e|w|]; simpl.
    + split; [intros H; injection H as <-; eauto|]. intros (_ & c' & H & ->). now injection H as <-.
    + split; [discriminate|]. now intros (_ & c' & H & _).
    + split; [discriminate|]. now intros (_ & c' & H & _).
    + split; [discriminate|]. now intros (_ & c' & H & _).
  - split; [discriminate|]. intros (H & _). discriminate.
Qed.
Lemma ready_one fuel f path d x c : ready fuel f path d [x] c <->
  schema_child fuel (fun p s => parse_file_with_context fuel f p (Some s)) f (fs_parent f path) (node_of x) (start d) = Ok c.
Proof.
  unfold ready. simpl. destruct (schema_child _ _ _ _ _ _) as [c'|e|w|]; simpl; try tauto; split; intros H; congruence.
Qed.
Lemma parse_alone fuel f path d x s : In x (xsd_children d) ->
  (schema_parse fuel f (Some (alone d x)) path = Ok s
   <-> schema_element d /\ exists c, ready fuel f path d [x] c /\ s = into_schema c).
Proof.
  intros I. rewrite parse_ready. assert (X : xsd_children (alone d x) = [x]).
  { unfold xsd_children in *. apply filter_In in I. destruct I as [_ I]. simpl. now rewrite I. }
  rewrite X. reflexivity.
Qed.

Lemma start_roots d : cx_roots (start d) = [].
Proof. unfold start, ctx_new. destruct (option_map _ _) as [t|]; [destruct (get_or_insert _ t)|]; reflexivity. Qed.
Lemma start_deps d : sh_dependencies (cx_shared (start d)) = [].
Proof. unfold start, ctx_new. destruct (option_map _ _) as [t|]; [destruct (get_or_insert _ t)|]; reflexivity. Qed.

Section Doc.
Variables (fuel : nat) (f : fs) (path : string) (d : xelem).
Hypothesis (NL : no_loads d) (OP : own_prefixes d).
Notation blk := (block fuel (fun p s => parse_file_with_context fuel f p (Some s)) f (fs_parent f path) (start d)).

Lemma not_load cs : (forall x, In x cs -> In x (xsd_children d)) -> Forall (fun x => ~ is_load (n_elem x)) (map node_of cs).
Proof. intros H. apply Forall_forall. intros x I. apply in_map_iff in I. destruct I as (y & <- & I). apply NL, H, I. Qed.
Lemma alone_block x : In x (xsd_children d) -> schema_element d ->
  (exists s, schema_parse fuel f (Some (alone d x)) path = Ok s) -> exists b, blk (node_of x) b.
Proof.
  intros I SE (s & E). apply (parse_alone _ _ _ _ _ _ I) in E. destruct E as (_ & c & E & _). apply ready_one in E.
  pose proof (child_local fuel (fun p s => parse_file_with_context fuel f p (Some s)) f (fs_parent f path) (node_of x) (start d)
    (NL x I) (start_own d OP)) as K. now rewrite E in K.
Qed.
Lemma block_makes x b n r : In x (xsd_children d) -> schema_element d -> blk (node_of x) b ->
  (makes fuel f path d x n r <-> own b n = Some r).
Proof.
  intros I SE B. specialize (B (start d) (same_env_refl _ (start_own d OP))). unfold makes. split.
  - intros (s & E & G). apply (parse_alone _ _ _ _ _ _ I) in E. destruct E as (_ & c & E & ->). apply ready_one in E.
    rewrite B in E. injection E as <-. unfold sc_get, into_schema in G. cbn in G. rewrite start_roots in G. exact G.
  - intros G. eexists. split; [apply (parse_alone _ _ _ _ _ _ I); split; [exact SE|]; eexists; split; [apply ready_one, B|reflexivity]|].
    unfold sc_get, into_schema. cbn. rewrite start_roots. exact G.
Qed.
Lemma blocks_of : schema_element d ->
  (forall x, In x (xsd_children d) -> exists s, schema_parse fuel f (Some (alone d x)) path = Ok s) ->
  exists bs, Forall2 blk (map node_of (xsd_children d)) bs.
Proof.
  intros SE H. apply children_blocks; [apply not_load; auto|apply start_own, OP|].
  intros x I. apply in_map_iff in I. destruct I as (y & <- & I). destruct (H y I) as (s & E).
  apply (parse_alone _ _ _ _ _ _ I) in E. destruct E as (_ & c & E & _). apply ready_one in E. eauto.
Qed.
Lemma each_alone s : schema_parse fuel f (Some d) path = Ok s ->
  schema_element d /\ forall x, In x (xsd_children d) -> exists s, schema_parse fuel f (Some (alone d x)) path = Ok s.
Proof.
  intros E. apply parse_ready in E. destruct E as (SE & c & E & ->). split; [exact SE|]. intros x I.
  destruct (children_each _ _ _ _ (start d) _ (not_load _ (fun x H => H)) (start_own d OP) (start d) c
    (same_env_refl _ (start_own d OP)) E (node_of x)) as (c2 & K); [now apply in_map|].
  exists (into_schema c2). apply parse_alone; [exact I|]. split; [exact SE|]. exists c2. split; [now apply ready_one|reflexivity].
Qed.
Definition built (bs : list (list (name * root) * list (name * name))) : schema := into_schema (replay (logs bs) (deps bs) (start d)).
Lemma blocks_parse bs : schema_element d -> Forall2 blk (map node_of (xsd_children d)) bs ->
  schema_parse fuel f (Some d) path = Ok (built bs).
Proof.
  intros SE B. apply parse_ready. split; [exact SE|]. exists (replay (logs bs) (deps bs) (start d)). split; [|reflexivity].
  apply (blocks_children _ _ _ _ _ _ _ B). apply same_env_refl, start_own, OP.
Qed.
Lemma built_get bs n : sc_get (s_context (built bs)) n = aget name_eqb n (add_all (logs bs) []).
Proof. unfold sc_get, built, into_schema. cbn. now rewrite start_roots. Qed.
Lemma built_uses bs n m : uses (built bs) n m <-> In (m, n) (deps bs).
Proof.
  unfold uses, built, into_schema. cbn. rewrite start_deps. pose proof (used_adds (deps bs) [] n m) as K. unfold used in K. rewrite K.
  split; [intros [H|(l & H & _)]; [exact H|discriminate]|auto].
Qed.
Lemma two_of {A} (p : A -> bool) l : 1 < length (filter p l) -> exists l1 x l2 y l3,
  l = l1 ++ x :: l2 ++ y :: l3 /\ p x = true /\ p y = true.
Proof.
  induction l as [|x l IH]; simpl; [lia|]. destruct (p x) eqn:Px; simpl.
  - intros H. destruct (filter p l) as [|y r] eqn:F; simpl in H; [lia|]. assert (I : In y (filter p l)) by (rewrite F; now left).
    apply filter_In in I. destruct I as [I Py]. apply in_split in I. destruct I as (l2 & l3 & ->). exists [], x, l2, y, l3. auto.
  - intros H. destruct (IH H) as (l1 & a & l2 & b & l3 & -> & Pa & Pb). exists (x :: l1), a, l2, b, l3. auto.
Qed.
Lemma apart_of bs : schema_element d -> Forall2 blk (map node_of (xsd_children d)) bs ->
  no_collisions fuel f path d -> apart bs.
Proof.
  intros SE B NC n. destruct (le_lt_dec (length (filter (fun b => match own b n with Some _ => true | None => false end) bs)) 1) as [|G]; [assumption|].
  exfalso. apply two_of in G. destruct G as (b1 & x & b2 & y & b3 & -> & Px & Py).
  destruct (own x n) as [r|] eqn:Ox; [|discriminate]. destruct (own y n) as [r'|] eqn:Oy; [|discriminate].
  apply Forall2_app_inv_r in B. destruct B as (n1 & n2 & _ & B & E). inversion B as [|nx ? n2' ? Bx B' E1 E2]; subst.
  apply Forall2_app_inv_r in B'. destruct B' as (n3 & n4 & _ & B' & ->). inversion B' as [|ny ? n5 ? By _ E1 E2]; subst.
  apply map_eq_app in E. destruct E as (c1 & c2 & E & _ & E2). symmetry in E2. symmetry in E2. apply map_eq_cons in E2.
  destruct E2 as (cx & c3 & -> & <- & E2). apply map_eq_app in E2. destruct E2 as (c4 & c5 & -> & _ & E2).
  apply map_eq_cons in E2. destruct E2 as (cy & c6 & -> & <- & _).
  assert (Ix : In cx (xsd_children d)) by (rewrite E; apply in_elt).
  assert (Iy : In cy (xsd_children d)) by (rewrite E; apply in_app_iff; right; right; apply in_elt).
  apply (NC _ _ _ _ _ n r r' E); [now apply (block_makes cx x)|now apply (block_makes cy y)].
Qed.
End Doc.

Lemma reordered_start d d' : reordered d d' -> start d = start d'.
Proof. intros (_ & _ & A & N & _). unfold start, ctx_new. now rewrite A, N. Qed.
Lemma reordered_element d d' : reordered d d' -> schema_element d -> schema_element d'.
Proof. intros (T & N & _) H. unfold schema_element, has_name in *. now rewrite <- T, <- N. Qed.
Lemma reordered_sym d d' : reordered d d' -> reordered d' d.
Proof. intros (A & B & C & D & E). repeat split; auto. now apply Permutation_sym. Qed.
Lemma reordered_loads d d' : reordered d d' -> no_loads d -> no_loads d'.
Proof. intros (_ & _ & _ & _ & P) H x I. apply H. eapply Permutation_in; [apply Permutation_sym, P|exact I]. Qed.
Lemma reordered_prefixes d d' : reordered d d' -> own_prefixes d -> own_prefixes d'.
Proof. intros (_ & _ & A & N & _) H p u B. unfold binds in B. rewrite <- N in B. specialize (H p u B). unfold the_attr in *. now rewrite <- A. Qed.
Lemma perm_forall2 {A B} (R : A -> B -> Prop) l l' : Permutation l l' -> forall m, Forall2 R l m ->
  exists m', Forall2 R l' m' /\ Permutation m m'.
Proof.
  induction 1 as [|x l l' P IH|x y l|l1 l2 l3 P1 IH1 P2 IH2]; intros m F.
  - inversion F; subst. exists []. split; constructor.
  - inversion F; subst. destruct (IH _ H3) as (m' & F' & P'). exists (y :: m'). split; [now constructor|now constructor].
  - inversion F; subst. inversion H3; subst. exists (y1 :: y0 :: l'0). split; [repeat constructor; auto|apply perm_swap].
  - destruct (IH1 _ F) as (m1 & F1 & Q1). destruct (IH2 _ F1) as (m2 & F2 & Q2). exists m2. split; [exact F2|].
    eapply Permutation_trans; eassumption.
Qed.
Lemma perm_concat {A B} (g : A -> list B) l l' : Permutation l l' -> Permutation (concat (map g l)) (concat (map g l')).
Proof.
  induction 1 as [|x l l' P IH|x y l|l1 l2 l3 P1 IH1 P2 IH2]; simpl; auto.
  - now apply Permutation_app_head.
  - rewrite !app_assoc. apply Permutation_app_tail, Permutation_app_comm.
  - eapply Permutation_trans; eassumption.
Qed.
End Local.
