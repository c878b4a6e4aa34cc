(** * GrammarProof4: namespaces and the tree (lemmas of PropGrammar.v) *)
From Verif Require Import Base Xml XmlChars XmlRead XmlGrammar XmlProof XmlProof2 GrammarProof1 GrammarProof2 GrammarProof3.
From Coq Require Import Lia.

(** ** Declarations *)
Lemma oeq_eq a b : oeq a b = true <-> a = b.
Proof. apply opt_eqb_eq, String.eqb_eq. Qed.
Lemma oeq_refl a : oeq a a = true.
Proof. now apply oeq_eq. Qed.
Lemma oeq_neq a b : oeq a b = false <-> a <> b.
Proof. rewrite <- oeq_eq. destruct (oeq a b); split; congruence. Qed.
Lemma declared_cases a : match declared a with
  | Some None => ra_name a = ("", "xmlns")
  | Some (Some p) => ra_name a = ("xmlns", p)
  | None => fst (ra_name a) <> "xmlns" /\ ~ (fst (ra_name a) = "" /\ snd (ra_name a) = "xmlns")
  end.
Proof.
  unfold declared. destruct (ra_name a) as [p l]. destruct p as [|c p]; cbn [is_empty andb].
  - destruct (String.eqb_spec l "xmlns") as [->|N]; [reflexivity|]. simpl. split; [discriminate|tauto].
  - destruct (String.eqb_spec (String c p) "xmlns") as [->|N]; [reflexivity|]. cbn [fst snd]. split; [exact N|]. intros [X _]. discriminate X.
Qed.
Lemma split_sorted total l xl : Forall2 (att_rel total) l xl -> forall d o, split_attrs l = (d, o) -> exists xo, sorted xl d xo /\ Forall2 (att_rel total) o xo.
Proof.
  induction 1 as [|a x l xl R F IH]; intros d o H; cbn [split_attrs] in H.
  - injection H as <- <-. exists []. split; constructor.
  - destruct (split_attrs l) as [d' o'] eqn:E. destruct (IH d' o' eq_refl) as (xo & S & F'). pose proof (declared_cases a) as D. destruct x as [xn xv xr]. pose proof R as R0. destruct R as (R1 & R2 & R3).
    cbn [x_name x_value] in R1, R2. destruct (declared a) as [[p|]|]; injection H as <- <-.
    + exists xo. split; [|exact F']. rewrite <- R1, D, R2. now constructor.
    + exists xo. split; [|exact F']. rewrite <- R1, D, R2. now constructor.
    + exists (mkXatt xn xv xr :: xo). split; [|now constructor]. rewrite R1 in D. destruct xn as [p n]. cbn [fst snd] in D. constructor; tauto.
Qed.
Lemma sorted_split total xl d xo : sorted xl d xo -> forall l, Forall2 (att_rel total) l xl -> exists o, split_attrs l = (d, o) /\ Forall2 (att_rel total) o xo.
Proof.
  induction 1 as [|v rng xl d xo S IH|p v rng xl d xo S IH|p n v rng xl d xo N1 N2 S IH]; intros l F; inversion F as [|a x l' xl' R F']; subst; cbn [split_attrs].
  - exists []. split; [reflexivity|constructor].
  - destruct (IH l' F') as (o & -> & F2). destruct R as (R1 & R2 & R3). cbn [x_name x_value] in R1, R2. unfold declared. rewrite R1, R2. exists o. split; [reflexivity|exact F2].
  - destruct (IH l' F') as (o & -> & F2). destruct R as (R1 & R2 & R3). cbn [x_name x_value] in R1, R2. unfold declared. rewrite R1, R2. exists o. split; [reflexivity|exact F2].
  - destruct (IH l' F') as (o & -> & F2). exists (a :: o). split; [|now constructor]. destruct R as (R1 & R2 & R3). cbn [x_name x_value] in R1, R2.
    pose proof (declared_cases a) as D. rewrite R1 in D. destruct (declared a) as [[q|]|]; [injection D as -> _; congruence|injection D as -> ->; exfalso; apply N2; split; reflexivity|reflexivity].
Qed.
Lemma fine_iff d : decl_fine d = true <-> binding_ok d.
Proof.
  unfold decl_fine, binding_ok. change NS_XML with xml_ns. change NS_XMLNS with xmlns_ns. destruct d as [[p|] u]; cbn [fst snd].
  - destruct (String.eqb_spec p "xml") as [->|N].
    + rewrite String.eqb_eq. split; [intros ->; repeat split; discriminate|]. intros (_ & _ & H & _). now apply H.
    + rewrite !andb_true_iff, !negb_true_iff, !String.eqb_neq. split.
      * intros ((A & B & C) & D). split; [congruence|]. split; [exact C|]. split; [split; congruence|]. intros _ ->. discriminate D.
      * intros (A & B & C & D). split; [split; [congruence|split; [intros E; apply C in E; congruence|exact B]]|]. destruct u; [exfalso; now apply D|reflexivity].
  - rewrite andb_true_iff, !negb_true_iff, !String.eqb_neq. split.
    + intros (A & B). split; [discriminate|]. split; [exact B|]. split; [split; [discriminate|congruence]|congruence].
    + intros (_ & B & C & _). split; [|exact B]. intros E. apply C in E. discriminate E.
Qed.
Definition keys (sc : bindings) : list (option string) := map fst sc.
Lemma bind_keys p u sc : forall k, In k (keys (bind_ns p u sc)) <-> k = p \/ In k (keys sc).
Proof.
  intros k. induction sc as [|[q v] sc IH]; cbn [bind_ns keys map fst In]; [intuition|]. destruct (oeq p q) eqn:E; cbn [map fst In].
  - apply oeq_eq in E. subst. intuition.
  - unfold keys in IH. rewrite IH. intuition.
Qed.
Lemma bind_nodup p u sc : NoDup (keys sc) -> NoDup (keys (bind_ns p u sc)).
Proof.
  induction sc as [|[q v] sc IH]; cbn [bind_ns keys map fst]; intros N.
  - constructor; [tauto|constructor].
  - inversion N as [|? ? N1 N2]; subst. destruct (oeq p q) eqn:E.
    + apply oeq_eq in E. subst. now constructor.
    + constructor; [|apply IH, N2]. fold (keys (bind_ns p u sc)). rewrite bind_keys. cbn [fst]. intros [X|H]; [apply oeq_neq in E; congruence|]. now apply N1.
Qed.
Definition has_key (sc : bindings) (k : option string) : bool := existsb (fun e => opt_eqb String.eqb (fst e) k) sc.
Lemma has_key_iff sc k : has_key sc k = true <-> In k (keys sc).
Proof.
  unfold has_key, keys. rewrite existsb_exists, in_map_iff. split; intros (e & A & B).
  - apply (opt_eqb_eq String.eqb String.eqb_eq) in B. eauto.
  - exists e. split; [exact B|]. apply (opt_eqb_eq String.eqb String.eqb_eq). exact A.
Qed.
Lemma newest_cons d1 d e : newest (d1 :: d) e = if oeq (fst d1) (fst e) then d1 else newest d e.
Proof. unfold newest. cbn [find]. unfold oeq. now destruct (opt_eqb String.eqb (fst d1) (fst e)). Qed.
Lemma newest_other d e : ~ In (fst e) (keys d) -> newest d e = e.
Proof.
  induction d as [|d1 d IH]; intros N; [reflexivity|]. rewrite newest_cons. cbn [keys map In] in N. destruct (oeq (fst d1) (fst e)) eqn:E; [apply oeq_eq in E; tauto|]. apply IH. tauto.
Qed.
Lemma bind_in_scope d1 d sc : NoDup (keys sc) -> ~ In (fst d1) (keys d) -> in_scope (bind_ns (fst d1) (snd d1) sc) d = in_scope sc (d1 :: d).
Proof.
  intros N N1. unfold in_scope. cbn [filter].
  assert (K : forall k sc, existsb (fun e => opt_eqb String.eqb (fst e) k) sc = has_key sc k) by reflexivity.
  rewrite !K.
  replace (map (newest d) (bind_ns (fst d1) (snd d1) sc)) with (map (newest (d1 :: d)) sc ++ (if has_key sc (fst d1) then [] else [d1])).
  - rewrite <- app_assoc. f_equal.
    assert (F : filter (fun e => negb (has_key (bind_ns (fst d1) (snd d1) sc) (fst e))) d = filter (fun e => negb (has_key sc (fst e))) d).
    { clear K N. induction d as [|e d IH]; [reflexivity|]. cbn [filter]. cbn [keys map In] in N1. rewrite IH by tauto.
      replace (has_key (bind_ns (fst d1) (snd d1) sc) (fst e)) with (has_key sc (fst e)); [reflexivity|].
      apply Bool.eq_iff_eq_true. rewrite !has_key_iff, bind_keys. split; [tauto|]. intros [E|E]; [exfalso; apply N1; left; congruence|exact E]. }
    change (filter (fun d0 => negb (existsb (fun e => opt_eqb String.eqb (fst e) (fst d0)) (bind_ns (fst d1) (snd d1) sc))) d) with (filter (fun e => negb (has_key (bind_ns (fst d1) (snd d1) sc) (fst e))) d).
    change (filter (fun d0 => negb (existsb (fun e => opt_eqb String.eqb (fst e) (fst d0)) sc)) d) with (filter (fun e => negb (has_key sc (fst e))) d).
    rewrite F. destruct (has_key sc (fst d1)); reflexivity.
  - clear K. induction sc as [|[q v] sc IH]; cbn [bind_ns map].
    + change (has_key [] (fst d1)) with false. cbn iota. cbn [app]. destruct d1 as [k u]. cbn [fst snd] in *. now rewrite (newest_other d (k, u)).
    + inversion N as [|? ? N2 N3]; subst. rewrite newest_cons. cbn [fst]. unfold has_key. cbn [existsb fst]. fold (has_key sc (fst d1)).
      change (opt_eqb String.eqb q (fst d1)) with (oeq q (fst d1)). destruct (oeq (fst d1) q) eqn:E.
      * apply oeq_eq in E. subst q. rewrite oeq_refl. cbn [orb]. rewrite app_nil_r. cbn [map]. destruct d1 as [k u]. cbn [fst snd] in *. rewrite (newest_other d (k, u)) by exact N1. f_equal.
        apply map_ext_in. intros e He. rewrite newest_cons. cbn [fst]. destruct (oeq k (fst e)) eqn:X; [|reflexivity]. apply oeq_eq in X. exfalso. apply N2. apply in_map_iff. exists e. split; [now symmetry|exact He].
      * assert (E' : oeq q (fst d1) = false) by (apply oeq_neq; apply oeq_neq in E; congruence). rewrite E'. cbn [orb map app]. f_equal. apply IH. exact N3.
Qed.
Lemma fold_in_scope d : forall sc, NoDup (keys sc) -> NoDup (keys d) ->
  fold_left (fun sc d => bind_ns (fst d) (snd d) sc) d sc = in_scope sc d /\ NoDup (keys (in_scope sc d)).
Proof.
  induction d as [|d1 d IH]; intros sc N D; cbn [fold_left].
  - unfold in_scope. cbn [filter]. rewrite app_nil_r. assert (X : map (newest []) sc = sc) by (rewrite <- (map_id sc) at 2; now apply map_ext). rewrite X. now split.
  - inversion D as [|? ? D1 D2]; subst. rewrite <- (bind_in_scope d1 d sc N D1). apply IH; [now apply bind_nodup|exact D2].
Qed.
Lemma bound_iff p u sc : NoDup (keys sc) -> bound p sc = Some u <-> In (p, u) sc.
Proof.
  induction sc as [|[q v] sc IH]; intros N; cbn [bound In]; [split; [discriminate|tauto]|]. inversion N as [|? ? N1 N2]; subst. destruct (oeq p q) eqn:E.
  - apply oeq_eq in E. subst q. split; [intros [= ->]; now left|]. intros [H|H]; [congruence|]. exfalso. apply N1. apply in_map_iff. exists (p, u). split; [reflexivity|exact H].
  - rewrite (IH N2). apply oeq_neq in E. split; [tauto|]. intros [H|H]; [congruence|exact H].
Qed.
Lemma prefix_iff sc p u : NoDup (keys sc) -> prefix_ns sc p = Some u <-> means sc p u.
Proof.
  intros N. unfold prefix_ns, means. change NS_XML with xml_ns. destruct (String.eqb_spec p "xml") as [->|X].
  - split; [intros [= <-]; left; split; reflexivity|]. intros [[_ ->]|[H _]]; [reflexivity|congruence].
  - destruct (String.eqb_spec p "xmlns") as [->|Y].
    + split; [discriminate|]. intros [[H _]|(_ & H & _)]; congruence.
    + rewrite (bound_iff _ _ _ N). tauto.
Qed.
Lemma elem_iff sc p ns : NoDup (keys sc) -> elem_ns sc p = Some ns <-> element_ns sc p ns.
Proof.
  intros N. unfold elem_ns, element_ns. destruct p as [|c p]; cbn [is_empty].
  - split.
    + intros H. left. split; [reflexivity|]. injection H as <-. intros u. destruct (bound None sc) as [w|] eqn:B.
      * apply (bound_iff _ _ _ N) in B. destruct w as [|x w]; cbn [is_empty].
        -- split; [discriminate|]. intros [H M]. exfalso. apply (bound_iff _ _ _ N) in B, H. congruence.
        -- split; [intros [= <-]; split; [exact B|discriminate]|]. intros [H M]. apply (bound_iff _ _ _ N) in B, H. congruence.
      * split; [discriminate|]. intros [H M]. apply (bound_iff _ _ _ N) in H. congruence.
    + intros [[_ H]|[H _]]; [|congruence]. f_equal. destruct (bound None sc) as [w|] eqn:B.
      * apply (bound_iff _ _ _ N) in B. destruct w as [|x w]; cbn [is_empty].
        -- destruct ns as [u|]; [|reflexivity]. destruct (proj1 (H u) eq_refl) as [I M]. apply (bound_iff _ _ _ N) in B, I. congruence.
        -- symmetry. apply H. split; [exact B|discriminate].
      * destruct ns as [u|]; [|reflexivity]. destruct (proj1 (H u) eq_refl) as [I M]. apply (bound_iff _ _ _ N) in I. congruence.
  - split.
    + intros H. right. split; [discriminate|]. destruct (prefix_ns sc (String c p)) as [u|] eqn:B; [|discriminate]. injection H as <-. exists u. split; [reflexivity|]. now apply prefix_iff.
    + intros [[H _]|[_ (u & -> & M)]]; [discriminate H|]. apply (prefix_iff _ _ _ N) in M. now rewrite M.
Qed.
Lemma attr_iff sc p ns : NoDup (keys sc) -> attr_ns sc p = Some ns <-> attribute_ns sc p ns.
Proof.
  intros N. unfold attr_ns, attribute_ns. destruct p as [|c p]; cbn [is_empty].
  - split; [intros [= <-]; left; split; reflexivity|]. intros [[_ ->]|[H _]]; [reflexivity|congruence].
  - split.
    + intros H. right. split; [discriminate|]. destruct (prefix_ns sc (String c p)) as [u|] eqn:B; [|discriminate]. injection H as <-. exists u. split; [reflexivity|]. now apply prefix_iff.
    + intros [[H _]|[_ (u & -> & M)]]; [discriminate H|]. apply (prefix_iff _ _ _ N) in M. now rewrite M.
Qed.
Definition expanded (b : attr) : string * option string := (at_name b, at_ns b).
Lemma dup_iff n ns r : existsb (fun b => (at_name b =?s n) && oeq (at_ns b) ns)%bool r = true <-> In (n, ns) (map expanded r).
Proof.
  rewrite existsb_exists, in_map_iff. split.
  - intros (b & I & H). apply andb_true_iff in H. destruct H as [A B]. apply String.eqb_eq in A. apply oeq_eq in B. exists b. split; [unfold expanded; congruence|exact I].
  - intros (b & H & I). exists b. split; [exact I|]. unfold expanded in H. injection H as -> ->. now rewrite String.eqb_refl, oeq_refl.
Qed.
Lemma resolve_iff total sc o xo ats : NoDup (keys sc) -> Forall2 (att_rel total) o xo ->
  resolve total sc o = Some ats <-> Forall2 (attribute_of sc) xo ats /\ NoDup (map expanded ats).
Proof.
  intros N F. revert ats. induction F as [|a x o xo R F IH]; intros ats; cbn [resolve].
  - split; [intros [= <-]; split; constructor|]. intros [H _]. now inversion H.
  - destruct R as (R1 & R2 & R3). split.
    + destruct (attr_ns sc (fst (ra_name a))) as [ns|] eqn:A; [|discriminate]. destruct (resolve total sc o) as [r|] eqn:E; [|discriminate].
      destruct (existsb _ r) eqn:D; [discriminate|]. intros [= <-]. destruct (proj1 (IH r) eq_refl) as [G M]. split.
      * constructor; [|exact G]. split; [cbn; now rewrite R1|]. split; [rewrite <- R1; now apply attr_iff|]. split; [exact R2|]. cbn [at_range]. now rewrite R3.
      * cbn [map]. constructor; [|exact M]. unfold expanded at 1. cbn [at_name at_ns]. intros I. apply dup_iff in I. congruence.
    + intros [G M]. inversion G as [|? b ? r H G']; subst. inversion M as [|? ? M1 M2]; subst. destruct H as (H1 & H2 & H3 & H4).
      rewrite (proj2 (IH r) (conj G' M2)). rewrite R1. apply (attr_iff _ _ _ N) in H2. rewrite H2.
      destruct (existsb _ r) eqn:D.
      * exfalso. apply M1. apply dup_iff in D. unfold expanded at 1. rewrite H1. exact D.
      * f_equal. f_equal. destruct b as [bn bns bv br]. cbn [at_name at_ns at_value at_range] in *. rewrite <- R3, R2. congruence.
Qed.
Lemma open_inv total start sc n l xl f : NoDup (keys sc) -> Forall2 (att_rel total) l xl -> open_tag total start sc n l = Some f ->
  exists sc' ns ats, tag sc n xl sc' ns ats /\ f = mkRframe n ns ats sc' start [] /\ NoDup (keys sc').
Proof.
  intros N F. unfold open_tag. destruct (split_attrs l) as [d o] eqn:S. destruct (split_sorted total l xl F d o S) as (xo & So & Fo).
  destruct (forallb decl_fine d && nodupb oeq (map fst d))%bool eqn:G; [|discriminate]. apply andb_true_iff in G. destruct G as [G1 G2].
  apply (nodupb_NoDup oeq oeq_eq) in G2. destruct (fold_in_scope d sc N G2) as [E N']. rewrite E.
  destruct (elem_ns (in_scope sc d) (fst n)) as [ns|] eqn:X; [|discriminate]. destruct (resolve total (in_scope sc d) o) as [ats|] eqn:Y; [|discriminate]. intros [= <-].
  exists (in_scope sc d), ns, ats. split; [|split; [reflexivity|exact N']]. exists d, xo. split; [exact So|]. split; [exact G2|]. split.
  - apply Forall_forall. intros e He. apply fine_iff. now apply (proj1 (forallb_forall _ _) G1).
  - split; [reflexivity|]. split; [now apply elem_iff|]. now apply (resolve_iff total (in_scope sc d) o xo ats).
Qed.
Lemma open_of_tag total start sc n l xl sc' ns ats : NoDup (keys sc) -> Forall2 (att_rel total) l xl -> tag sc n xl sc' ns ats ->
  open_tag total start sc n l = Some (mkRframe n ns ats sc' start []) /\ NoDup (keys sc').
Proof.
  intros N F (d & xo & So & D & B & -> & E & A & U). unfold open_tag. destruct (sorted_split total xl d xo So l F) as (o & -> & Fo).
  destruct (fold_in_scope d sc N D) as [X N']. rewrite X. split; [|exact N'].
  replace (forallb decl_fine d) with true by (symmetry; apply forallb_forall; intros e He; apply fine_iff; rewrite Forall_forall in B; auto).
  replace (nodupb oeq (map fst d)) with true by (symmetry; now apply (nodupb_NoDup oeq oeq_eq)). cbn [andb].
  apply (elem_iff _ _ _ N') in E. rewrite E. rewrite (proj2 (resolve_iff total (in_scope sc d) o xo ats N' Fo) (conj A U)). reflexivity.
Qed.

(** ** Children *)
Definition add_kid (ks : list (kid xelem)) (k : kid xelem) : list (kid xelem) := match k with KText s => add_text s ks | _ => ks ++ [k] end.
Definition add_all (ks l : list (kid xelem)) : list (kid xelem) := fold_left add_kid l ks.
Definition text_first (l : list (kid xelem)) : Prop := match l with KText _ :: _ => True | _ => False end.
Fixpoint normal (l : list (kid xelem)) : Prop :=
  match l with
  | [] => True
  | KText s :: r => s <> "" /\ ~ text_first r /\ normal r
  | _ :: r => normal r
  end.
Lemma join_normal l : normal l -> join l = l.
Proof.
  induction l as [|[e|s|s] l IH]; cbn [normal join]; intros H; [reflexivity|now rewrite IH| |now rewrite IH].
  destruct H as (A & B & C). rewrite (IH C). destruct l as [|[e|t|t] l]; try (destruct s; [congruence|reflexivity]). exfalso. apply B. exact I.
Qed.
Lemma normal_snoc l k : normal l -> match k with KText s => s <> "" /\ (forall q t, l <> q ++ [KText t]) | _ => True end -> normal (l ++ [k]).
Proof.
  induction l as [|x l IH]; intros A B.
  - cbn [app normal]. destruct k; tauto.
  - assert (B' : match k with KText s => s <> "" /\ (forall q t, l <> q ++ [KText t]) | _ => True end).
    { destruct k as [e|s|s]; [exact I| |exact I]. destruct B as [B1 B2]. split; [exact B1|]. intros q t ->. now apply (B2 (x :: q) t). }
    cbn [app normal] in *. destruct x as [e|s|s]; [now apply IH| |now apply IH]. destruct A as (A1 & A2 & A3). split; [exact A1|]. split; [|now apply IH].
    destruct l as [|y l]; [|destruct y; exact A2]. cbn [app]. destruct k as [e|t|t]; try (intros []). destruct B as [_ B]. exfalso. now apply (B [] s).
Qed.
Lemma normal_grow l t s : normal (l ++ [KText t]) -> normal (l ++ [KText (t +++ s)]).
Proof.
  induction l as [|x l IH]; cbn [app normal].
  - intros (A & B & C). split; [|tauto]. destruct t; [congruence|discriminate].
  - destruct x as [e|u|u]; [exact IH| |exact IH]. intros (A & B & C). split; [exact A|]. split; [|now apply IH]. destruct l as [|y l]; [exact B|destruct y; exact B].
Qed.
Lemma join_app a b : join (a ++ b) = fold_right (fun k r => match k with KText s => match r with KText t :: r' => KText (s +++ t) :: r' | _ => match s with "" => r | _ => KText s :: r end end | _ => k :: r end) (join b) a.
Proof. induction a as [|k a IH]; [reflexivity|]. cbn [app fold_right]. rewrite <- IH. destruct k as [e|s|s]; try reflexivity. cbn [join]. destruct (join (a ++ b)) as [|[e|t|t] r]; reflexivity. Qed.
Lemma join_tail a b c : join b = join c -> join (a ++ b) = join (a ++ c).
Proof. intros H. now rewrite !join_app, H. Qed.
Lemma add_text_cases s ks : s = "" /\ add_text s ks = ks \/ s <> "" /\ ((exists q t, ks = q ++ [KText t] /\ add_text s ks = q ++ [KText (t +++ s)])
  \/ (forall q t, ks <> q ++ [KText t]) /\ add_text s ks = ks ++ [KText s]).
Proof.
  unfold add_text. destruct s as [|c s]; [left; split; reflexivity|right]. split; [discriminate|]. cbn [is_empty].
  destruct (rev ks) as [|k r] eqn:E.
  - right. split; [|reflexivity]. intros q t ->. rewrite rev_app_distr in E. discriminate E.
  - assert (K : ks = rev r ++ [k]) by (rewrite <- (rev_involutive ks), E; reflexivity). destruct k as [e|t|t].
    + right. split; [|reflexivity]. intros q t H. rewrite K in H. apply app_inj_tail in H. destruct H; discriminate.
    + left. exists (rev r), t. split; [exact K|reflexivity].
    + right. split; [|reflexivity]. intros q u H. rewrite K in H. apply app_inj_tail in H. destruct H; discriminate.
Qed.
Lemma add_normal ks k : normal ks -> normal (add_kid ks k).
Proof.
  intros N. destruct k as [e|s|s]; [now apply normal_snoc| |now apply normal_snoc]. cbn [add_kid].
  destruct (add_text_cases s ks) as [[_ ->]|[S [(q & t & -> & ->)|[L ->]]]]; [exact N|now apply normal_grow|]. apply normal_snoc; [exact N|]. split; assumption.
Qed.
Lemma add_join ks k l : join (add_kid ks k ++ l) = join (ks ++ k :: l).
Proof.
  destruct k as [e|s|s]; [cbn [add_kid]; now rewrite <- app_assoc| |cbn [add_kid]; now rewrite <- app_assoc]. cbn [add_kid].
  destruct (add_text_cases s ks) as [[-> ->]|[S [(q & t & -> & ->)|[L ->]]]].
  - apply join_tail. cbn [join]. destruct (join l) as [|[e|t|t] r]; reflexivity.
  - rewrite <- !app_assoc. apply join_tail. cbn [app join]. destruct (join l) as [|[e|x|x] r].
    + destruct s as [|c s]; [congruence|]. destruct t; reflexivity.
    + destruct s as [|c s]; [congruence|]. destruct t; reflexivity.
    + now rewrite app_s_assoc.
    + destruct s as [|c s]; [congruence|]. destruct t; reflexivity.
  - now rewrite <- app_assoc.
Qed.
Lemma add_all_join l : forall ks, normal ks -> add_all ks l = join (ks ++ l).
Proof.
  induction l as [|k l IH]; intros ks N; cbn [add_all fold_left].
  - rewrite app_nil_r. symmetry. now apply join_normal.
  - fold (add_all (add_kid ks k) l). rewrite (IH _ (add_normal ks k N)). apply add_join.
Qed.
Lemma with_with f a b : with_kids (with_kids f a) b = with_kids f b.
Proof. reflexivity. Qed.
Lemma with_same f : with_kids f (rf_kids f) = f.
Proof. now destruct f. Qed.

(** ** The tree that is built *)
Section Tree.
Variable total : N.
Definition after (x : xelem) (st : list rframe) (root : option xelem) (ts : list (xtok * (N * N))) : option xelem :=
  match st with
  | [] => xml_tree total ts [] (Some x)
  | g :: st => xml_tree total ts (with_kids g (rf_kids g ++ [KElem x]) :: st) root
  end.
Definition scope_of (st : list rframe) : scope := match st with [] => [] | f :: _ => rf_scope f end.
Lemma tree_open n l closed b e ts st root : (st = [] -> root = None) ->
  xml_tree total ((TkOpen n l closed, (b, e)) :: ts) st root =
  match open_tag total (total - b) (scope_of st) n l with
  | Some f => if closed then after (close_tag (total - e) f) st root ts else xml_tree total ts (f :: st) root
  | None => None
  end.
Proof. intros H. cbn [xml_tree]. destruct st as [|f st]; [rewrite (H eq_refl)|]; reflexivity. Qed.
Lemma tree_inside k : forall ts ps f st root x, (length ts <= k)%nat -> Forall2 (place_rel total) ts ps -> NoDup (keys (rf_scope f)) -> xml_tree total ts (f :: st) root = Some x ->
  exists ps1 b e ps2 ts2 ks, ps = ps1 ++ (b, PClose (rf_name f), (total - e)%N) :: ps2 /\ content (rf_scope f) ps1 ks /\ Forall2 (place_rel total) ts2 ps2
    /\ (length ts2 < length ts)%nat /\ after (close_tag (total - e) (with_kids f (add_all (rf_kids f) ks))) st root ts2 = Some x.
Proof.
  induction k as [|k IH]; intros ts ps f st root x Lk F N H.
  - destruct ts; [discriminate H|cbn [length] in Lk; lia].
  - destruct F as [|[t [b e]] [[pb p] pe] ts ps R F]; [discriminate H|]. cbn [length] in Lk. destruct R as (R & R1 & R2). cbn [fst snd] in R, R1, R2. subst pb pe.
    pose proof (fun ts ps f st root x H L F N => IH ts ps f st root x L F N H) as IH'.
    assert (Kid : forall kd p', p = p' -> (forall qs ks, content (rf_scope f) qs ks -> content (rf_scope f) (((total - b)%N, p', (total - e)%N) :: qs) (kd :: ks)) ->
      xml_tree total ts (with_kids f (add_kid (rf_kids f) kd) :: st) root = Some x ->
      exists ps1 b' e' ps2 ts2 ks, ((total - b)%N, p, (total - e)%N) :: ps = ps1 ++ (b', PClose (rf_name f), (total - e')%N) :: ps2 /\ content (rf_scope f) ps1 ks /\ Forall2 (place_rel total) ts2 ps2
        /\ (length ts2 < S (length ts))%nat /\ after (close_tag (total - e') (with_kids f (add_all (rf_kids f) ks))) st root ts2 = Some x).
    { intros kd p' -> C X. destruct (IH' ts ps _ st root x X ltac:(lia) F N) as (ps1 & b' & e' & ps2 & ts2 & ks & -> & C' & F2 & L2 & A).
      exists (((total - b)%N, p', (total - e)%N) :: ps1), b', e', ps2, ts2, (kd :: ks). split; [reflexivity|]. split; [now apply C|]. split; [exact F2|]. split; [lia|exact A]. }
    destruct t as [n l closed|n|s blank|s].
    + destruct p as [n' xl c'|n'|raw s'|s'|s']; try contradiction. destruct R as (<- & <- & R).
      rewrite tree_open in H by discriminate. cbn [scope_of] in H. destruct (open_tag total (total - b) (rf_scope f) n l) as [f'|] eqn:O; [|discriminate].
      destruct (open_inv _ _ _ _ _ xl f' N R O) as (sc' & ns & ats & T & -> & N'). destruct closed.
      * cbn [after] in H. destruct (IH' ts ps _ st root x H ltac:(lia) F N) as (ps1 & b' & e' & ps2 & ts2 & ks & -> & C' & F2 & L2 & A).
        exists ([((total - b)%N, POpen n xl true, (total - e)%N)] ++ ps1), b', e', ps2, ts2, (KElem (XE (snd n) ns ats sc' ((total - b)%N, (total - e)%N) []) :: ks).
        split; [reflexivity|]. split; [|split; [exact F2|]; split; [cbn [length]; lia|exact A]]. constructor; [now constructor|exact C'].
      * destruct (IH ts ps (mkRframe n ns ats sc' (total - b) []) (f :: st) root x ltac:(lia) F N' H) as (ps1 & b' & e' & ps2 & ts2 & ks & -> & C' & F2 & L2 & A).
        cbn [rf_scope rf_name] in C', A. cbn [after] in A.
        destruct (IH' ts2 ps2 _ st root x A ltac:(lia) F2 N) as (ps3 & b'' & e'' & ps4 & ts4 & ks' & -> & C'' & F4 & L4 & A').
        exists ((((total - b)%N, POpen n xl false, (total - e)%N) :: ps1 ++ [(b', PClose n, (total - e')%N)]) ++ ps3), b'', e'', ps4, ts4,
          (KElem (XE (snd n) ns ats sc' ((total - b)%N, (total - e')%N) (join ks)) :: ks').
        split; [cbn [app]; rewrite <- !app_assoc; reflexivity|]. split; [|split; [exact F4|]; split; [cbn [length]; lia|]].
        -- constructor; [econstructor; [exact T|exact C']|exact C''].
        -- rewrite <- A'. cbn [with_kids rf_kids rf_name rf_ns rf_attrs rf_scope rf_start add_all fold_left add_kid]. unfold close_tag. cbn [with_kids rf_kids rf_name rf_ns rf_attrs rf_scope rf_start].
           rewrite (add_all_join ks [] I). reflexivity.
    + destruct p as [n' xl c'|n'|raw s'|s'|s']; try contradiction. cbn in R. subst n'. cbn [xml_tree] in H.
      destruct ((fst n =?s fst (rf_name f)) && (snd n =?s snd (rf_name f)))%bool eqn:E; [|discriminate]. apply andb_true_iff in E. destruct E as [E1 E2]. apply String.eqb_eq in E1, E2.
      assert (En : n = rf_name f) by (destruct n, (rf_name f); cbn [fst snd] in *; congruence). subst n.
      exists [], (total - b)%N, e, ps, ts, []. split; [reflexivity|]. split; [constructor|]. split; [exact F|]. split; [cbn [length]; lia|]. cbn [add_all fold_left]. rewrite with_same. exact H.
    + destruct p as [n' xl c'|n'|raw s'|s'|s']; try contradiction; destruct R as [<- R].
      * apply (Kid (KText s) (PText raw s) eq_refl); [intros; now constructor|exact H].
      * apply (Kid (KText s) (PCData s) eq_refl); [intros; now constructor|exact H].
    + destruct p as [n' xl c'|n'|raw s'|s'|s']; try contradiction. cbn in R. subst s'. apply (Kid (KOther s) (POther s) eq_refl); [intros; now constructor|exact H].
Qed.
Lemma tree_after ts ps : Forall2 (place_rel total) ts ps -> forall y x, xml_tree total ts [] (Some y) = Some x <-> Forall Misc ps /\ y = x.
Proof.
  induction 1 as [|[t [b e]] [[pb p] pe] ts ps R F IH]; intros y x.
  - cbn [xml_tree]. split; [intros [= ->]; split; [constructor|reflexivity]|]. now intros [_ ->].
  - destruct R as (R & R1 & R2). cbn [fst snd] in R. destruct t as [n l closed|n|s blank|s]; destruct p as [n' xl c'|n'|raw s'|s'|s']; try contradiction; cbn [xml_tree].
    + split; [discriminate|]. intros [M _]. inversion M as [|? ? M1 M2]; subst. destruct M1.
    + split; [discriminate|]. intros [M _]. inversion M as [|? ? M1 M2]; subst. destruct M1.
    + destruct R as [-> ->]. destruct (all_bytes ws raw) eqn:W.
      * rewrite IH. apply spaces_iff in W. split; [intros [M ->]; split; [now constructor|reflexivity]|]. intros [M ->]. inversion M; subst. now split.
      * split; [discriminate|]. intros [M _]. inversion M as [|? ? M1 M2]; subst. unfold Misc in M1. cbn [fst snd] in M1. apply spaces_iff in M1. congruence.
    + destruct R as [-> ->]. split; [discriminate|]. intros [M _]. inversion M as [|? ? M1 M2]; subst. destruct M1.
    + rewrite IH. split; [intros [M ->]; split; [now constructor|reflexivity]|]. intros [M ->]. inversion M; subst. now split.
Qed.
Lemma tree_before ts ps : Forall2 (place_rel total) ts ps -> forall x, xml_tree total ts [] None = Some x ->
  exists before qs aft, ps = before ++ qs ++ aft /\ Forall Misc before /\ element [] qs x /\ Forall Misc aft.
Proof.
  induction 1 as [|[t [b e]] [[pb p] pe] ts ps R F IH]; intros x H; [discriminate H|].
  destruct R as (R & R1 & R2). cbn [fst snd] in R, R1, R2. subst pb pe. destruct t as [n l closed|n|s blank|s]; destruct p as [n' xl c'|n'|raw s'|s'|s']; try contradiction.
  - destruct R as (<- & <- & R). rewrite tree_open in H by reflexivity. cbn [scope_of] in H. destruct (open_tag total (total - b) [] n l) as [f'|] eqn:O; [|discriminate].
    destruct (open_inv _ _ [] _ _ xl f' (NoDup_nil _) R O) as (sc' & ns & ats & T & -> & N'). destruct closed.
    + cbn [after] in H. apply (tree_after ts ps F) in H. destruct H as [M <-].
      exists [], [((total - b)%N, POpen n xl true, (total - e)%N)], ps. split; [reflexivity|]. split; [constructor|]. split; [now constructor|exact M].
    + destruct (tree_inside (length ts) ts ps (mkRframe n ns ats sc' (total - b) []) [] None x (le_n _) F N' H) as (ps1 & b' & e' & ps2 & ts2 & ks & -> & C & F2 & L2 & A). cbn [after rf_scope rf_name] in *.
      apply (tree_after ts2 ps2 F2) in A. destruct A as [M <-].
      exists [], (((total - b)%N, POpen n xl false, (total - e)%N) :: ps1 ++ [(b', PClose n, (total - e')%N)]), ps2. split; [cbn [app]; now rewrite <- app_assoc|]. split; [constructor|]. split; [|exact M].
      unfold close_tag. cbn [with_kids rf_kids rf_name rf_ns rf_attrs rf_scope rf_start]. rewrite (add_all_join ks [] I). econstructor; [exact T|exact C].
  - discriminate H.
  - destruct R as [-> ->]. cbn [xml_tree] in H. destruct (all_bytes ws raw) eqn:W; [|discriminate]. destruct (IH x H) as (before & qs & aft & -> & M & E & M').
    exists (((total - b)%N, PText raw s', (total - e)%N) :: before), qs, aft. split; [reflexivity|]. split; [constructor; [now apply spaces_iff|exact M]|]. split; [exact E|exact M'].
  - destruct R as [-> ->]. discriminate H.
  - cbn [xml_tree] in H. destruct (IH x H) as (before & qs & aft & -> & M & E & M').
    exists (((total - b)%N, POther s', (total - e)%N) :: before), qs, aft. split; [reflexivity|]. split; [constructor; [exact I|exact M]|]. split; [exact E|exact M'].
Qed.

Scheme element_ind2 := Minimality for element Sort Prop with content_ind2 := Minimality for content Sort Prop.
Lemma Forall2_app_r {A B} (R : A -> B -> Prop) l a b : Forall2 R l (a ++ b) -> exists l1 l2, l = l1 ++ l2 /\ Forall2 R l1 a /\ Forall2 R l2 b.
Proof. intros H. apply Forall2_app_inv_r in H. destruct H as (l1 & l2 & A1 & A2 & ->). eauto. Qed.
Lemma tree_element sc ps x : element sc ps x -> NoDup (keys sc) -> forall ts rest st root, Forall2 (place_rel total) ts ps -> scope_of st = sc -> (st = [] -> root = None) ->
  xml_tree total (ts ++ rest) st root = after x st root rest.
Proof.
  revert sc ps x.
  apply (element_ind2
    (fun sc ps x => NoDup (keys sc) -> forall ts rest st root, Forall2 (place_rel total) ts ps -> scope_of st = sc -> (st = [] -> root = None) ->
       xml_tree total (ts ++ rest) st root = after x st root rest)
    (fun sc ps ks => NoDup (keys sc) -> forall ts rest f st root, Forall2 (place_rel total) ts ps -> rf_scope f = sc ->
       xml_tree total (ts ++ rest) (f :: st) root = xml_tree total rest (with_kids f (add_all (rf_kids f) ks) :: st) root)).
  - intros sc b n l e sc' ns ats T N ts rest st root F S R. inversion F as [|[t [b0 e0]] y ts' ys R0 F']; subst. inversion F'; subst. destruct R0 as (R0 & R1 & R2). cbn [fst snd] in R0, R1, R2.
    destruct t as [n' l' closed| | |]; try contradiction. destruct R0 as (-> & -> & R0). cbn [app]. rewrite (tree_open _ _ _ _ _ _ _ _ R).
    destruct (open_of_tag total (total - b0) (scope_of st) n l' l sc' ns ats N R0 T) as [-> _]. cbn iota. unfold close_tag. cbn [rf_kids rf_name rf_ns rf_attrs rf_scope rf_start]. now subst.
  - intros sc b n l e sc' ns ats ps ks b' e' T C IH N ts rest st root F S R. inversion F as [|[t [b0 e0]] y ts' ys R0 F']; subst. destruct R0 as (R0 & R1 & R2). cbn [fst snd] in R0, R1, R2.
    destruct t as [n' l' closed| | |]; try contradiction. destruct R0 as (-> & -> & R0). cbn [app]. rewrite (tree_open _ _ _ _ _ _ _ _ R).
    destruct (open_of_tag total (total - b0) (scope_of st) n l' l sc' ns ats N R0 T) as [-> N']. cbn iota.
    apply Forall2_app_r in F'. destruct F' as (t1 & t2 & -> & F1 & F2). rewrite <- app_assoc. rewrite (IH N' t1 (t2 ++ rest) (mkRframe n ns ats sc' (total - b0) []) st root F1 eq_refl).
    inversion F2 as [|[t [b1 e1]] y ts'' ys' R3 F3]; subst. inversion F3; subst. destruct R3 as (R3 & R4 & R5). cbn [fst snd] in R3, R4, R5. destruct t as [|n'| |]; try contradiction. cbn in R3. subst n'.
    cbn [app xml_tree with_kids rf_name rf_kids]. rewrite !String.eqb_refl. cbn [andb]. rewrite (add_all_join ks [] I). unfold close_tag. cbn [with_kids rf_kids rf_name rf_ns rf_attrs rf_scope rf_start]. subst. reflexivity.
  - intros sc N ts rest f st root F S. inversion F; subst. cbn [app add_all fold_left]. now rewrite with_same.
  - intros sc b raw s e ps ks C IH N ts rest f st root F S. inversion F as [|[t [b0 e0]] y ts' ys R0 F']; subst. destruct R0 as (R0 & R1 & R2). cbn [fst snd] in R0.
    destruct t as [| |s' bl|]; try contradiction. destruct R0 as [-> R0]. cbn [app xml_tree]. match goal with |- xml_tree _ _ (?g :: _) _ = _ => now rewrite (IH N ts' rest g st root F' eq_refl) end.
  - intros sc b s e ps ks C IH N ts rest f st root F S. inversion F as [|[t [b0 e0]] y ts' ys R0 F']; subst. destruct R0 as (R0 & R1 & R2). cbn [fst snd] in R0.
    destruct t as [| |s' bl|]; try contradiction. destruct R0 as [-> R0]. cbn [app xml_tree]. match goal with |- xml_tree _ _ (?g :: _) _ = _ => now rewrite (IH N ts' rest g st root F' eq_refl) end.
  - intros sc b s e ps ks C IH N ts rest f st root F S. inversion F as [|[t [b0 e0]] y ts' ys R0 F']; subst. destruct R0 as (R0 & R1 & R2). cbn [fst snd] in R0.
    destruct t as [| | |s']; try contradiction. cbn in R0. subst s'. cbn [app xml_tree]. match goal with |- xml_tree _ _ (?g :: _) _ = _ => now rewrite (IH N ts' rest g st root F' eq_refl) end.
  - intros sc ps x qs ks E IHE C IHC N ts rest f st root F S. apply Forall2_app_r in F. destruct F as (t1 & t2 & -> & F1 & F2). rewrite <- app_assoc.
    rewrite (IHE N t1 (t2 ++ rest) (f :: st) root F1 S ltac:(discriminate)). cbn [after]. match goal with |- xml_tree _ _ (?g :: _) _ = _ => now rewrite (IHC N t2 rest g st root F2 S) end.
Qed.
Lemma tree_whole ts before ps aft x : Forall2 (place_rel total) ts (before ++ ps ++ aft) -> Forall Misc before -> element [] ps x -> Forall Misc aft ->
  xml_tree total ts [] None = Some x.
Proof.
  intros F B E A. apply Forall2_app_r in F. destruct F as (t1 & t' & -> & F1 & F'). apply Forall2_app_r in F'. destruct F' as (t2 & t3 & -> & F2 & F3).
  assert (X : xml_tree total (t2 ++ t3) [] None = Some x).
  { rewrite (tree_element [] ps x E (NoDup_nil _) t2 t3 [] None F2 eq_refl (fun _ => eq_refl)). cbn [after]. now apply (tree_after t3 aft F3). }
  clear F2 F3. induction F1 as [|[t [b e]] [[pb p] pe] ts ps' R F IH]; [exact X|]. inversion B as [|? ? B1 B2]; subst. unfold Misc in B1. cbn [fst snd] in B1.
  destruct R as (R & _). cbn [fst snd] in R. destruct t as [n l closed|n|s blank|s]; destruct p as [n' xl c'|n'|raw s'|s'|s']; try contradiction; cbn [app xml_tree].
  - destruct R as [-> ->]. apply spaces_iff in B1. rewrite B1. now apply IH.
  - now apply IH.
Qed.
End Tree.
