(** * CostGen: the bound for the modules of schemas (C84) *)
From Verif Require Import Base Libs Xml Ast Parse Decode Gen Run CursorSpec GenSpec GenProof1 DecSpec ReadSpec RepSpec DecProof1 WfSpec WfProof TotalProof TermProof
  DepthSpec DepthProof DepthGen CostSpec CostProof CostBound.
From Coq Require Import Lia.

Lemma size_children e : size e = S (total size (xe_children e)).
Proof.
  destruct e as [t n a s r ks]. unfold xe_children. cbn [size xe_kids]. f_equal. induction ks as [|[x|y|y] ks IH]; cbn [elems_of map]; [reflexivity| | |];
    [rewrite total_cons, <- IH; reflexivity|exact IH|exact IH].
Qed.
Section Closed.
Context {L : Libs}.
Variable p : program.
Variables (layer : string -> nat) (top : nat).
Hypothesis lay : layered p layer top.
Variable M : nat.
Definition looked (t : titem) : nat := match ti_look t with LkTrue => 0 | LkOr l => length l end.
Hypothesis wide : Forall (fun t => items t <= M /\ looked t <= M) p.
Hypothesis moves : forall t fs ats n id x o, In t p -> ti_read t = BrStruct fs ats -> In (n, FrWhileLook id x o) fs ->
  forall fuel e c c1 v c2, run_look real_ops p fuel id c = Ok (true, c1) -> run_rx (run_type real_ops p fuel) x e c1 = Ok (v, c2) -> num c2 < num c1.
Fixpoint Lc (k : nat) : nat := match k with O => 0 | S k => S (M * S (Lc k)) end.
Let la := Lc (S top).
Fixpoint Ac (k : nat) : nat := match k with O => 0 | S k => S (S M * (3 + la + Ac k)) end.
Fixpoint Bc (k : nat) : nat := match k with O => 0 | S k => Bc k + 2 + la + Ac k end.
Definition rate : nat := S (Ac (S top) + Bc (S top)).
Definition pays (e : xelem) : nat := rate * size e - Bc (S top).
Lemma size_pos e : 1 <= size e.
Proof. destruct e. cbn [size]. lia. Qed.
Lemma pays_enough e : Bc (S top) + pays e = rate * size e.
Proof. unfold pays. pose proof (size_pos e). assert (Bc (S top) <= rate) by (unfold rate; lia). nia. Qed.
Lemma in_item id t : lookup_item p id = Some t -> In t p /\ ti_id t = id.
Proof. intros F. unfold lookup_item in F. apply find_some in F as [I E]. apply String.eqb_eq in E. auto. Qed.
Lemma look_bound fuel : forall k id b c, layer id < k -> bounded pays (Lc k) b c (count_look p fuel id c).
Proof.
  induction fuel as [|fuel IH]; intros k id b c Lt; [apply b_no; discriminate|]. destruct k as [|k]; [lia|]. cbn [count_look Lc]. apply b_tick.
  destruct (lookup_item p id) as [t|] eqn:E; [|apply b_no; discriminate]. destruct (item_layers p layer top lay id t E) as (_ & _ & F).
  destruct (in_item id t E) as [I _]. rewrite Forall_forall in wide. destruct (wide t I) as [_ W]. unfold looked in W.
  destruct (ti_look t) as [|l]; [apply b_same|]. apply b_weak with (a := length l * S (Lc k)) (b := b); [nia|lia|].
  apply (lk_bound pays layer k 0 0 (Lc k) (count_look p fuel)).
  - intros i b' c' Hi. now apply IH.
  - eapply Forall_impl; [|exact F]. cbn beta. lia.
Qed.
Lemma type_bound fuel : forall k id e c, k <= S top -> layer id < k -> bounded pays (Ac k) (Bc k) c (count_type p fuel id e c).
Proof.
  induction fuel as [|fuel IH]; intros k id e c Le Lt; [apply b_no; discriminate|]. destruct k as [|k]; [lia|]. cbn [count_type Ac Bc]. apply b_tick.
  destruct (lookup_item p id) as [t|] eqn:E; [|apply b_no; discriminate]. destruct (item_layers p layer top lay id t E) as (T & F & _).
  destruct (in_item id t E) as [I _]. pose proof wide as Wd. rewrite Forall_forall in Wd. destruct (Wd t I) as [W _].
  apply b_weak with (a := S (items t) * (3 + la + Ac k)) (b := Bc k + 2 + la + Ac k); [nia|lia|].
  apply body_bound with (layer := layer) (k := k).
  - intros i e' c' Hi. apply IH; [lia|exact Hi].
  - intros i e'. assert (S (snd (count_type p fuel i e' (children_new e'))) <= S (Ac (S top) + Bc (S top) * num (children_new e') + wgt pays (children_new e'))).
    { destruct (lookup_item p i) as [u|] eqn:U.
      - destruct (item_layers p layer top lay i u U) as (T' & _). pose proof (IH (S top) i e' (children_new e') (le_n _) ltac:(lia)) as Bd.
        unfold bounded in Bd. destruct (fst (count_type p fuel i e' (children_new e'))) as [[v c']|z|z|]; [destruct Bd as [_ Bd]|..]; lia.
      - destruct fuel as [|fuel']; cbn [count_type]; [cbn; lia|]. rewrite U. cbn [tick free snd]. cbn [Ac]. lia. }
    assert (V : Bc (S top) * num (children_new e') + wgt pays (children_new e') = rate * total size (xe_children e')).
    { unfold num, wgt, held, children_new. cbn [ch_next ch_peeked ch_rest app]. induction (xe_children e') as [|x l IHl]; [cbn; lia|].
      rewrite !total_cons. pose proof (pays_enough x). nia. }
    pose proof (size_children e'). pose proof (pays_enough e'). unfold rate in *. nia.
  - intros e'. pose proof (pays_enough e'). pose proof (size_pos e'). unfold rate in *. nia.
  - intros i b c' Hi. apply look_bound. lia.
  - eapply Forall_impl; [|exact F]. cbn beta. lia.
  - unfold body_loops. destruct (ti_read t) as [x| |fs ats|arms] eqn:R; auto. apply Forall_forall. intros [n f] J. cbn [snd].
    destruct f as [x|i x o|i x|m ns x o|m ns x|m ns x|m ns x]; cbn [loops]; auto. intros e' c' c1 v c2 H1 H2. rewrite look_counts in H1.
    eapply (moves t fs ats n i x o I R J fuel e' c' c1 v c2 H1). rewrite <- H2. symmetry. apply rx_counts. intros. apply type_counts.
Qed.
Lemma steps_bound fuel id e : snd (count_from_xml p fuel id e) <= rate * size e.
Proof.
  unfold count_from_xml. destruct (lookup_item p id) as [t|] eqn:E; [|cbn; lia]. destruct (item_layers p layer top lay id t E) as (T & _).
  unfold andthen at 1. cbn [free fst]. unfold doc_try_child. destruct (has_name _ _ e); cbn [fst snd free]; [|lia].
  assert (Bd : bounded pays (Ac (S top)) (Bc (S top)) (children_new e) (count_type p fuel id e (children_new e))) by (apply type_bound; lia).
  assert (V : Bc (S top) * num (children_new e) + wgt pays (children_new e) = rate * total size (xe_children e)).
  { unfold num, wgt, held, children_new. cbn [ch_next ch_peeked ch_rest app]. induction (xe_children e) as [|x l IHl]; [cbn; lia|].
    rewrite !total_cons. pose proof (pays_enough x). nia. }
  pose proof (size_children e) as Sz. unfold bounded in Bd. unfold andthen.
  destruct (fst (count_type p fuel id e (children_new e))) as [[v c']|z|z|]; [destruct Bd as [_ Bd]|..]; cbn [snd free]; unfold rate in *; nia.
Qed.
End Closed.

Lemma num_remaining c : num c = length (remaining c).
Proof.
  assert (N : forall l : list xelem, total (fun _ => 1) l = length l). { induction l as [|x l IH]; [reflexivity|]. rewrite total_cons, IH. reflexivity. }
  unfold num, held, remaining. rewrite N. now destruct (ch_next c).
Qed.
Lemma group_moves {L : Libs} gfuel c gs p : generated gfuel c gs p -> compiles c gs ->
  forall t fs ats n id x o, In t p -> ti_read t = BrStruct fs ats -> In (n, FrWhileLook id x o) fs ->
  forall fuel e s s1 v s2, run_look real_ops p fuel id s = Ok (true, s1) -> run_rx (run_type real_ops p fuel) x e s1 = Ok (v, s2) -> num s2 < num s1.
Proof.
  intros Hg Hc t fs ats n id x o I R J fuel e s s1 v s2 H1 H2.
  assert (X : exists nm0, In nm0 gs /\ generate_element gfuel c nm0 = Ok t).
  { pose proof (proj1 Hg) as Mm. apply mapM_ok in Mm. clear -Mm I. induction Mm as [|n0 t' l q E Mm IH]; [destruct I|].
    destruct I as [<-|I]; [exists n0; split; [now left|exact E]|]. destruct (IH I) as (m & J & K). exists m. split; [now right|exact K]. }
  destruct X as (n0 & In_ & G). apply generate_element_inv in G as (r & i0 & d & w & xn & nss & ns & b & lk0 & S & T & _ & _ & _ & _ & _ & Rd & K & ->).
  cbn [ti_read] in R. subst b. destruct r as [d0|vs|d0|d0]; cbn [root_from_xml] in Rd; try discriminate.
  - apply bind_ok in Rd as (? & _ & Rd). discriminate.
  - unfold element_from_xml in Rd. apply bind_ok in Rd as (fs' & F & Rd). apply bind_ok in Rd as (ats' & _ & Rd). injection Rd as <- <-.
    destruct (ed_content d0) as [[n1 d1|ls]|] eqn:C.
    + apply bind_ok in F as (? & _ & F). apply bind_ok in F as (? & _ & F). injection F as <-. destruct J as [J|[]]. discriminate.
    + apply mapM_ok in F. assert (Q : exists f, In f ls /\ leaf_from_xml gfuel c f = Ok (n, FrWhileLook id x o)).
      { clear -F J. induction F as [|f y ls fs' E F IH]; [destruct J|]. destruct J as [->|J]; [exists f; split; [now left|exact E]|].
        destruct (IH J) as (f' & A & B). exists f'. split; [now right|exact B]. }
      destruct Q as (f & If & E). unfold leaf_from_xml in E. apply bind_ok in E as (i & _ & E). apply bind_ok in E as (ns' & _ & E). apply bind_ok in E as (x' & Hx & E).
      destruct (lf_virtual f) eqn:V; [|destruct (lf_is_vec f), (lf_is_optional f), (lf_unordered f); discriminate].
      destruct (lf_is_vec f); [|destruct (lf_is_optional f); [apply bind_ok in E as (? & _ & E)|]; discriminate].
      apply bind_ok in E as (id' & Tg & E). injection E as _ -> -> _.
      assert (If' : In f (leaves_of (RootElement d0))) by (cbn [leaves_of]; now rewrite C).
      destruct (cp_groups _ _ Hc n0 _ f In_ S If' V) as (m & Cm & Ig).
      unfold virtual_target in Tg. unfold def_from_xml in Hx. rewrite Cm in Tg, Hx.
      assert (Xx : x = RxCall id).
      { destruct Ig as (_ & (id'' & A & B) & Gr). destruct gfuel; cbn [content_from_xml] in Hx;
          (destruct Gr as [[dd Gd]|[dd Gd]]; rewrite Gd in Hx; rewrite A in Hx; cbn [bind] in Hx; congruence). }
      subst x. cbn [run_rx] in H2. destruct (group_progress gfuel c gs p m id fuel fuel e s s1 v s2 Hg (cp_groups _ _ Hc) Ig Tg H1 H2) as [R1 R2].
      rewrite !num_remaining, R1. exact R2.
    + injection F as <-. destruct J.
  - apply bind_ok in Rd as (? & _ & Rd). discriminate.
Qed.
Lemma steps_linear {L : Libs} gfuel c gs p : generated gfuel c gs p -> compiles c gs -> grounded c gs ->
  exists k, forall fuel id e, snd (count_from_xml p fuel id e) <= k * size e.
Proof.
  intros Hg Hc Hr. destruct gs as [|n0 gs'] eqn:N.
  { exists 0. intros fuel id e. destruct Hg as [Hp _]. injection Hp as <-. cbn. lia. }
  rewrite <- N in *. destruct (grounded_layers gfuel c gs p Hg Hc Hr) as (layer & top & Ly & _); [rewrite N; discriminate|].
  set (M := list_max (map (fun t => items t + looked t) p)).
  assert (W : Forall (fun t => items t <= M /\ looked t <= M) p).
  { apply Forall_forall. intros t I. pose proof (proj1 (list_max_le (map (fun t => items t + looked t) p) M) (le_n _)) as F. rewrite Forall_forall in F.
    specialize (F (items t + looked t)). rewrite in_map_iff in F. specialize (F (ex_intro _ t (conj eq_refl I))). lia. }
  exists (rate top M). intros fuel id e. apply steps_bound with (layer := layer); auto. eapply group_moves; eassumption.
Qed.
