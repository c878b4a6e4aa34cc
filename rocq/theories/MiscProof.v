(** * MiscProof: namespace interning, dependency closure, documentation words *)
From Verif Require Import Base Libs Ast XsdNode Parse MiscSpec.

(** ** Namespaces *)
Definition ns_wf (s : namespaces) : Prop :=
  (NoDup (map fst (by_namespace s)) /\ NoDup (map fst (by_id s)))
  /\ (forall u id, aget String.eqb u (by_namespace s) = Some id ->
        0 < id <= length (by_namespace s)
        /\ get_by_id s id = Some (mkNsDef u ("ns" +++ show_nat id)))
  /\ (forall id d, get_by_id s id = Some d -> aget String.eqb (nd_uri d) (by_namespace s) = Some id).

Lemma ns_wf_default : ns_wf namespaces_default.
Proof. repeat split; simpl; try constructor; discriminate. Qed.

Lemma aset_new_length {K V} (eqb : K -> K -> bool) k (v : V) m :
  aget eqb k m = None -> length (aset eqb k v m) = S (length m).
Proof.
  induction m as [|[k' v'] m IH]; simpl; [reflexivity|].
  destruct (eqb k k'); [discriminate|]. intros H. simpl. now rewrite IH.
Qed.

Lemma nat_eqb_iff a b : Nat.eqb a b = true <-> a = b.
Proof. apply Nat.eqb_eq. Qed.

Lemma get_or_insert_wf s u id s' : ns_wf s -> get_or_insert s u = (id, s') ->
  ns_wf s'
  /\ (exists k, id = NsId k /\ aget String.eqb u (by_namespace s') = Some k)
  /\ (forall v k, aget String.eqb v (by_namespace s) = Some k -> aget String.eqb v (by_namespace s') = Some k)
  /\ (forall k d, get_by_id s k = Some d -> get_by_id s' k = Some d).
Proof.
  intros (ND & W1 & W2). unfold get_or_insert.
  destruct (aget String.eqb u (by_namespace s)) as [k|] eqn:E.
  - intros H; injection H as <- <-. repeat split; eauto; firstorder.
  - intros H; injection H as <- <-. set (k := length (by_namespace s) + 1). simpl.
    assert (Kid : get_by_id s k = None).
    { destruct (get_by_id s k) as [d|] eqn:G; [|reflexivity].
      apply W2 in G. apply W1 in G. destruct G as [G _]. unfold k in G. lia. }
    assert (Old : forall v j, aget String.eqb v (by_namespace s) = Some j ->
              aget String.eqb v (aset String.eqb u k (by_namespace s)) = Some j).
    { intros v j H. rewrite (aget_aset_other _ String.eqb_eq); [exact H|]. intros ->. congruence. }
    assert (OldId : forall j d, get_by_id s j = Some d ->
              aget Nat.eqb j (aset Nat.eqb k (mkNsDef u ("ns" +++ show_nat k)) (by_id s)) = Some d).
    { intros j d H. rewrite (aget_aset_other _ nat_eqb_iff); [exact H|]. intros <-. congruence. }
    split; [|split; [|split]].
    + split; [|split]; simpl; [| intros u0 id H; split; [split|] |].
      * split; [apply (aset_NoDup _ String.eqb_eq), ND|apply (aset_NoDup _ nat_eqb_iff), ND].
      * destruct (String.eqb_spec u0 u) as [->|N].
        -- rewrite (aget_aset_same _ String.eqb_eq) in H. injection H as <-. unfold k. lia.
        -- rewrite (aget_aset_other _ String.eqb_eq) in H by congruence. apply W1 in H. lia.
      * rewrite aset_new_length by exact E. destruct (String.eqb_spec u0 u) as [->|N].
        -- rewrite (aget_aset_same _ String.eqb_eq) in H. injection H as <-. unfold k. lia.
        -- rewrite (aget_aset_other _ String.eqb_eq) in H by congruence. apply W1 in H. lia.
      * unfold get_by_id. simpl. destruct (String.eqb_spec u0 u) as [->|N].
        -- rewrite (aget_aset_same _ String.eqb_eq) in H. injection H as <-.
           apply (aget_aset_same _ nat_eqb_iff).
        -- rewrite (aget_aset_other _ String.eqb_eq) in H by congruence. apply W1 in H.
           apply OldId, H.
      * unfold get_by_id. simpl. intros j d H. destruct (Nat.eq_dec j k) as [->|N].
        -- rewrite (aget_aset_same _ nat_eqb_iff) in H. injection H as <-. simpl.
           apply (aget_aset_same _ String.eqb_eq).
        -- rewrite (aget_aset_other _ nat_eqb_iff) in H by congruence. apply Old, W2, H.
    + exists k. split; [reflexivity|]. apply (aget_aset_same _ String.eqb_eq).
    + exact Old.
    + exact OldId.
Qed.

Lemma intern_wf us : forall s ids s', ns_wf s -> intern us s = (ids, s') ->
  ns_wf s'
  /\ Forall2 (fun u i => exists k, i = NsId k /\ aget String.eqb u (by_namespace s') = Some k) us ids
  /\ (forall v k, aget String.eqb v (by_namespace s) = Some k -> aget String.eqb v (by_namespace s') = Some k)
  /\ (forall k d, get_by_id s k = Some d -> get_by_id s' k = Some d).
Proof.
  induction us as [|u us IH]; simpl; intros s ids s' W.
  - intros H; injection H as <- <-. auto.
  - destruct (get_or_insert s u) as [i s1] eqn:G. destruct (intern us s1) as [is s2] eqn:I.
    intros H; injection H as <- <-. apply get_or_insert_wf in G; [|exact W].
    destruct G as (W1 & (k & -> & A1) & O1 & D1).
    specialize (IH _ _ _ W1 I). destruct IH as (W2 & F & O2 & D2).
    split; [exact W2|]. split; [constructor; eauto|]. split; auto.
Qed.

Lemma app_s_inj_r a b : "ns" +++ a = "ns" +++ b -> a = b.
Proof. apply app_s_inj_l. Qed.

Lemma interning us ids s :
  intern us namespaces_default = (ids, s) ->
  length ids = length us
  /\ (forall i j u v, nth_error us i = Some u -> nth_error us j = Some v ->
        (u = v <-> nth_error ids i = nth_error ids j))
  /\ (forall i u, nth_error us i = Some u -> exists k d,
        nth_error ids i = Some (NsId k) /\ get_by_id s k = Some d /\ nd_uri d = u)
  /\ (forall k k' d d', get_by_id s k = Some d -> get_by_id s k' = Some d' ->
        nd_prefix d = nd_prefix d' -> k = k')
  /\ (forall k d, get_by_id s k = Some d -> In (nd_uri d) us)
  /\ (forall vs jds s', intern vs s = (jds, s') -> forall k d, get_by_id s k = Some d -> get_by_id s' k = Some d).
Proof.
  intros H. destruct (intern_wf _ _ _ _ ns_wf_default H) as ((ND & W1 & W2) & F & _ & _).
  assert (Len : length ids = length us) by (clear -F; induction F; simpl; congruence).
  assert (Nth : forall i u, nth_error us i = Some u -> exists k,
            nth_error ids i = Some (NsId k) /\ aget String.eqb u (by_namespace s) = Some k).
  { clear -F. induction F as [|u i us ids (k & -> & A) F IH]; intros [|n] w E; simpl in *; try discriminate.
    - injection E as <-. eauto.
    - auto. }
  split; [exact Len|]. split; [|split; [|split; [|split]]].
  - intros i j u v Hi Hj. destruct (Nth _ _ Hi) as (k & -> & A). destruct (Nth _ _ Hj) as (k' & -> & A').
    split; [intros ->; congruence|]. intros E. injection E as ->.
    apply W1 in A, A'. destruct A as [_ A], A' as [_ A']. congruence.
  - intros i u Hi. destruct (Nth _ _ Hi) as (k & E & A). apply W1 in A. destruct A as [_ A].
    exists k, (mkNsDef u ("ns" +++ show_nat k)). auto.
  - intros k k' d d' G G' P.
    assert (X : forall j e, get_by_id s j = Some e -> nd_prefix e = "ns" +++ show_nat j).
    { intros j e Ge. pose proof (W2 _ _ Ge) as A. apply W1 in A. destruct A as [_ A].
      rewrite A in Ge. injection Ge as <-. reflexivity. }
    rewrite (X _ _ G), (X _ _ G') in P. apply app_s_inj_r, show_nat_inj in P. exact P.
  - assert (Dom : forall us0 s0 ids0 s1, intern us0 s0 = (ids0, s1) ->
       forall u k, aget String.eqb u (by_namespace s1) = Some k ->
         In u us0 \/ aget String.eqb u (by_namespace s0) = Some k).
    { clear. induction us0 as [|w us0 IH]; simpl; intros s0 ids0 s1.
      - intros E; injection E as <- <-. auto.
      - unfold get_or_insert. destruct (aget String.eqb w (by_namespace s0)) as [j|] eqn:A.
        + destruct (intern us0 s0) as [q s2] eqn:I. intros E; injection E as <- <-.
          intros u k U. destruct (IH _ _ _ I _ _ U); auto.
        + destruct (intern us0 _) as [q s2] eqn:I. intros E; injection E as <- <-.
          intros u k U. destruct (IH _ _ _ I _ _ U) as [X|X]; [auto|]. simpl in X.
          destruct (String.eqb_spec u w) as [->|N]; [auto|].
          rewrite (aget_aset_other _ String.eqb_eq) in X by congruence. auto. }
    intros k d G. apply W2 in G. destruct (Dom _ _ _ _ H _ _ G) as [X|X]; [exact X|discriminate].
  - intros vs jds s' I k d G.
    assert (W : ns_wf s) by (split; [exact ND|split; [exact W1|exact W2]]).
    destruct (intern_wf _ _ _ _ W I) as (_ & _ & _ & D). auto.
Qed.

(** ** Dependency closure *)
Section Closure.
  Variable deps : list (name * list name).

  Lemma memb_In n l : mem name_eqb n l = true <-> In n l.
  Proof. apply mem_In, name_eqb_eq. Qed.

  Definition add_new (names new_names acc : list name) (d : name) : list name :=
    if orb (mem name_eqb d names) (orb (mem name_eqb d new_names) (mem name_eqb d acc)) then acc
    else acc ++ [d].

  Lemma add_new_In names nn acc d x :
    In x (add_new names nn acc d) <-> In x acc \/ (x = d /\ ~ In d names /\ ~ In d nn /\ ~ In d acc).
  Proof.
    unfold add_new. pose proof (memb_In d names) as M1. pose proof (memb_In d nn) as M2.
    pose proof (memb_In d acc) as M3.
    destruct (mem name_eqb d names) eqn:A; simpl; [intuition congruence|].
    destruct (mem name_eqb d nn) eqn:B; simpl; [intuition congruence|].
    destruct (mem name_eqb d acc) eqn:C; simpl; [intuition congruence|].
    rewrite in_app_iff. simpl. intuition congruence.
  Qed.

  Lemma add_new_NoDup names nn acc d : NoDup acc -> NoDup (add_new names nn acc d).
  Proof.
    intros ND. unfold add_new. destruct (_ || _) eqn:E; [exact ND|].
    apply orb_false_iff in E. destruct E as [_ E]. apply orb_false_iff in E. destruct E as [_ E].
    assert (N : ~ In d acc) by (rewrite <- memb_In; congruence).
    clear E. induction ND as [|y l NY ND IH]; simpl.
    - constructor; [simpl; tauto|constructor].
    - constructor; [|apply IH; simpl in N; tauto].
      rewrite in_app_iff. simpl. intros [H|[H|[]]]; [tauto|subst; simpl in N; tauto].
  Qed.

  Lemma fold_add_In names nn ds acc x :
    In x (fold_left (add_new names nn) ds acc) <->
    In x acc \/ (In x ds /\ ~ In x names /\ ~ In x nn).
  Proof.
    revert acc. induction ds as [|d ds IH]; intros acc; simpl; [tauto|].
    rewrite IH, add_new_In. split.
    - intros [[H|(-> & A & B & C)]|H]; tauto.
    - intros [H|[[->|H] [A B]]]; [tauto| |tauto].
      destruct (in_dec (fun a b => match Bool.bool_dec (name_eqb a b) true with
                                   | left e => left (proj1 (name_eqb_eq a b) e)
                                   | right e => right (fun q => e (proj2 (name_eqb_eq a b) q))
                                   end) x acc) as [I|I]; tauto.
  Qed.

  Lemma fold_add_NoDup names nn ds acc : NoDup acc -> NoDup (fold_left (add_new names nn) ds acc).
  Proof.
    revert acc. induction ds as [|d ds IH]; intros acc ND; simpl; auto using add_new_NoDup.
  Qed.

  Lemma next_names_spec names nn : NoDup (next_names deps names nn) /\
    forall x, In x (next_names deps names nn) <->
      (exists n, In n nn /\ depends deps n x) /\ ~ In x names /\ ~ In x nn.
  Proof.
    unfold next_names.
    assert (G : forall l acc, NoDup acc ->
      let r := fold_left (fun acc n => match aget name_eqb n deps with
                 | None => acc
                 | Some ds => fold_left (add_new names nn) ds acc
                 end) l acc in
      NoDup r /\ forall x, In x r <-> In x acc \/
        ((exists n, In n l /\ depends deps n x) /\ ~ In x names /\ ~ In x nn)).
    { induction l as [|n l IH]; intros acc ND; simpl.
      - split; [exact ND|]. intros x. split; [tauto|]. intros [H|[(n & [] & _) _]]; auto.
      - set (acc1 := match aget name_eqb n deps with None => acc | Some ds => fold_left (add_new names nn) ds acc end).
        assert (ND1 : NoDup acc1).
        { unfold acc1. destruct (aget name_eqb n deps); auto using fold_add_NoDup. }
        destruct (IH acc1 ND1) as [R1 R2]. split; [exact R1|]. intros x. rewrite R2.
        assert (A1 : In x acc1 <-> In x acc \/ (depends deps n x /\ ~ In x names /\ ~ In x nn)).
        { unfold acc1, depends. destruct (aget name_eqb n deps) as [ds|].
          - rewrite fold_add_In. split.
            + intros [H|[H1 H2]]; [tauto|]. right. split; [exists ds; auto|exact H2].
            + intros [H|[(ds' & E & H1) H2]]; [tauto|]. injection E as <-. tauto.
          - split; [tauto|]. intros [H|[(ds & E & _) _]]; [tauto|discriminate]. }
        rewrite A1. split.
        + intros [[H|[H1 H2]]|[(m & M1 & M2) H2]]; [tauto| |].
          * right. split; [exists n; auto|exact H2].
          * right. split; [exists m; auto|exact H2].
        + intros [H|[(m & [<-|M1] & M2) H2]]; [tauto|tauto|]. right. split; [exists m; auto|exact H2]. }
    specialize (G nn [] (NoDup_nil _)). simpl in G. destruct G as [G1 G2]. split; [exact G1|].
    intros x. rewrite G2. tauto.
  Qed.

  Definition closed (seen frontier : list name) : Prop :=
    forall a b, In a seen -> depends deps a b -> In b seen \/ In b frontier.

  Lemma NoDup_app {A} (l m : list A) : NoDup l -> NoDup m -> (forall x, In x l -> ~ In x m) -> NoDup (l ++ m).
  Proof.
    intros H1 H2 D. induction H1 as [|x l Nx H1 IH]; simpl; [exact H2|].
    constructor.
    - rewrite in_app_iff. intros [H|H]; [tauto|]. apply (D x); simpl; auto.
    - apply IH. intros y Hy. apply D. now right.
  Qed.

  Lemma closure_loop_sound fuel start names nn r :
    NoDup (names ++ nn) -> closed names nn ->
    (forall x, In x (names ++ nn) -> reachable deps start x) ->
    In start (names ++ nn) ->
    closure_loop fuel deps names nn = Some r ->
    NoDup r /\ forall x, In x r <-> reachable deps start x.
  Proof.
    revert names nn. induction fuel as [|fuel IH]; intros names nn ND Cl Re St; simpl.
    - destruct nn as [|n nn]; [|discriminate]. intros H; injection H as <-.
      rewrite app_nil_r in *. split; [exact ND|]. intros x. split; [apply Re|].
      induction 1 as [|b c R IHR D]; [exact St|]. destruct (Cl _ _ IHR D) as [H|[]]; exact H.
    - destruct nn as [|n nn].
      + intros H; injection H as <-. rewrite app_nil_r in *. split; [exact ND|]. intros x. split; [apply Re|].
        induction 1 as [|b c R IHR D]; [exact St|]. destruct (Cl _ _ IHR D) as [H|[]]; exact H.
      + remember (n :: nn) as fr eqn:Efr. clear Efr.
        destruct (next_names_spec names fr) as [N1 N2]. apply IH.
        * apply NoDup_app; [exact ND|exact N1|]. intros x Hx Hn. apply N2 in Hn. rewrite in_app_iff in Hx. tauto.
        * intros a b Ha D. rewrite in_app_iff in Ha. rewrite in_app_iff.
          destruct (in_dec (fun p q => match Bool.bool_dec (name_eqb p q) true with
                                   | left e => left (proj1 (name_eqb_eq p q) e)
                                   | right e => right (fun z => e (proj2 (name_eqb_eq p q) z))
                                   end) b (names ++ fr)) as [I|I].
          -- rewrite in_app_iff in I. tauto.
          -- rewrite in_app_iff in I. destruct Ha as [Ha|Ha].
             ++ destruct (Cl _ _ Ha D); tauto.
             ++ right. apply N2. split; [exists a; auto|tauto].
        * intros x Hx. rewrite in_app_iff in Hx. destruct Hx as [Hx|Hx]; [auto|].
          apply N2 in Hx. destruct Hx as [(m & M1 & M2) _]. eapply re_step; [|exact M2].
          apply Re. rewrite in_app_iff. auto.
        * rewrite in_app_iff. auto.
  Qed.

  (** Every name a graph mentions. *)
  Definition universe : list name := flat_map (fun e => fst e :: snd e) deps.

  Lemma depends_universe a b : depends deps a b -> In b universe.
  Proof.
    intros (ds & E & I). apply (aget_In _ name_eqb_eq) in E. unfold universe.
    apply in_flat_map. exists (a, ds). simpl. auto.
  Qed.

  Lemma closure_loop_total fuel start names nn :
    NoDup (names ++ nn) -> incl (names ++ nn) (start :: universe) ->
    S (length universe) < fuel + length names ->
    exists r, closure_loop fuel deps names nn = Some r.
  Proof.
    revert names nn. induction fuel as [|fuel IH]; intros names nn ND In Hf; simpl.
    - destruct nn as [|n nn]; [eauto|]. exfalso.
      pose proof (NoDup_incl_length ND In) as H. rewrite app_length in H. simpl in *. lia.
    - destruct nn as [|n nn]; [eauto|]. remember (n :: nn) as fr eqn:Efr.
      destruct (next_names_spec names fr) as [N1 N2]. apply IH.
      + apply NoDup_app; [exact ND|exact N1|]. intros x Hx Hn. apply N2 in Hn. rewrite in_app_iff in Hx. tauto.
      + intros x Hx. rewrite in_app_iff in Hx. destruct Hx as [Hx|Hx]; [auto|].
        apply N2 in Hx. destruct Hx as [(m & _ & M2) _]. right. eapply depends_universe, M2.
      + rewrite app_length. subst fr. simpl. lia.
  Qed.

  Lemma closure_sound fuel start already todo already' :
    closure_names fuel deps start already = Some (todo, already') ->
    NoDup todo
    /\ (forall x, In x todo <-> reachable deps start x /\ ~ In x already)
    /\ (forall x, In x already' <-> In x already \/ reachable deps start x).
  Proof.
    unfold closure_names. destruct (closure_loop fuel deps [] [start]) as [r|] eqn:E; [|discriminate].
    intros H; injection H as <- <-.
    apply closure_loop_sound with (start := start) in E; simpl; auto.
    2: { constructor; [simpl; tauto|constructor]. }
    2: { intros a b []. }
    2: { intros x [<-|[]]. constructor. }
    destruct E as [ND R].
    assert (T : forall x, In x (filter (fun n => negb (mem name_eqb n already)) r) <->
                  reachable deps start x /\ ~ In x already).
    { intros x. rewrite filter_In, R, negb_true_iff. rewrite <- memb_In.
      destruct (mem name_eqb x already); intuition congruence. }
    split; [apply NoDup_filter, ND|]. split; [exact T|].
    intros x. rewrite in_app_iff, T.
    destruct (mem name_eqb x already) eqn:M.
    - apply memb_In in M. tauto.
    - assert (~ In x already) by (rewrite <- memb_In; congruence). tauto.
  Qed.

  Lemma closure_total start already :
    exists n, forall fuel, n <= fuel -> exists r, closure_names fuel deps start already = Some r.
  Proof.
    exists (S (S (length universe))). intros fuel Hf. unfold closure_names.
    destruct (closure_loop_total fuel start [] [start]) as [r E].
    - constructor; [simpl; tauto|constructor].
    - intros x [<-|[]]. now left.
    - simpl. lia.
    - rewrite E. eauto.
  Qed.
End Closure.
