(** * DepthGen: the types of a grounded schema lie in layers (C83) *)
From Verif Require Import Base Libs Xml Ast Parse Decode Gen Run GenSpec GenProof1 DecSpec ReadSpec RepSpec WfSpec WfProof TotalProof DepthSpec.
From Coq Require Import Lia.

Section Layers.
Context {L : Libs}.
Variables (gfuel : nat) (c : schema_ctx) (gs : list name) (p : program).
Hypothesis Hg : generated gfuel c gs p.
Hypothesis Hc : compiles c gs.
Variable rank : name -> nat.
Hypothesis Hr : forall n r ct m n' r',
  In n gs -> sc_get c n = Some r -> In ct (here_contents r) -> final c ct (LcNamed m) -> type_of c gs m n' r' ->
  rank n' < rank n.

(** [id] is called by the functions of the type of [r] on the same element. *)
Definition called (cts : list leaf_content) (id : string) : Prop :=
  exists ct m, In ct cts /\ final c ct (LcNamed m) /\ type_ident m = Ok id.
Lemma rx_called fuel : forall ct x, content_from_xml fuel c ct = Ok x -> Forall (called [ct]) (rx_types x).
Proof.
  induction fuel as [|fuel IH]; intros [l|n|s] x H; cbn [content_from_xml] in H; try (injection H as <-; constructor).
  - destruct (sc_get c n) as [[d|?|?|?]|] eqn:E; try discriminate;
      (apply bind_ok in H as (id & T & H); injection H as <-; constructor; [|constructor];
       exists (LcNamed n), n; split; [now left|]; split; [constructor; congruence|exact T]).
  - destruct (sc_get c n) as [[d|?|?|?]|] eqn:E;
      try (apply bind_ok in H as (id & T & H); injection H as <-; constructor; [|constructor];
       exists (LcNamed n), n; split; [now left|]; split; [constructor; congruence|exact T]).
    eapply Forall_impl; [|apply IH, H]. intros id (ct & m & [<-|[]] & F & T). exists (LcNamed n), m. split; [now left|].
    split; [eapply fi_alias; eassumption|exact T].
Qed.
Lemma called_incl a b id : incl a b -> called a id -> called b id.
Proof. intros I (ct & m & J & K). exists ct, m. split; [now apply I|exact K]. Qed.

Lemma map_called {A B} (P : string -> Prop) (f : A -> G B) (g : B -> list string) l bs : (forall a b, In a l -> f a = Ok b -> Forall P (g b)) ->
  mapM f l = Ok bs -> Forall P (flat_map g bs).
Proof.
  intros H M. apply mapM_ok in M. induction M as [|a b l bs E M IH]; [constructor|]. cbn [flat_map]. apply Forall_app. split.
  - apply (H a b); [now left|exact E].
  - apply IH. intros a' b' I. apply H. now right.
Qed.

Section Item.
Variables (n : name) (r : root).
Hypothesis In_ : In n gs.
Hypothesis Get : sc_get c n = Some r.
Lemma target_called f id : In f (leaves_of r) -> lf_virtual f = true -> virtual_target f = Ok id -> called (here_contents r) id.
Proof.
  intros I V T. destruct (cp_groups _ _ Hc n r f In_ Get I V) as (m & C & Ig). unfold virtual_target in T. rewrite C in T.
  pose proof (leaf_here r f I V) as H. rewrite C in H. exists (LcNamed m), m. split; [exact H|]. split; [now apply (group_final_self c gs)|].
  destruct Ig as (_ & (id' & A & B) & _). congruence.
Qed.
Lemma def_called f x : In f (leaves_of r) -> lf_virtual f = true -> def_from_xml gfuel c (lf_def f) = Ok x ->
  Forall (called (here_contents r)) (rx_types x).
Proof.
  intros I V H. apply rx_called in H. eapply Forall_impl; [|exact H]. intros id. apply called_incl.
  intros ct [<-|[]]. now apply leaf_here.
Qed.
Lemma leaf_called f y : In f (leaves_of r) -> leaf_from_xml gfuel c f = Ok y -> Forall (called (here_contents r)) (fr_here (snd y)).
Proof.
  intros I H. unfold leaf_from_xml in H. apply bind_ok in H as (i & _ & H). apply bind_ok in H as (ns & _ & H). apply bind_ok in H as (x & X & H).
  destruct (lf_virtual f) eqn:V.
  - pose proof (def_called f x I V X) as F. destruct (lf_is_vec f); [|destruct (lf_is_optional f)].
    + apply bind_ok in H as (id & T & H). injection H as <-. constructor; [now apply (target_called f)|exact F].
    + apply bind_ok in H as (id & T & H). injection H as <-. constructor; [now apply (target_called f)|exact F].
    + injection H as <-. exact F.
  - injection H as <-. cbn [snd]. destruct (lf_is_vec f), (lf_is_optional f), (lf_unordered f); constructor.
Qed.
Lemma arm_called f a : In f (leaves_of r) -> variant_from_xml gfuel c f = Ok a -> Forall (called (here_contents r)) (arm_here a).
Proof.
  intros I H. unfold variant_from_xml in H. apply bind_ok in H as (i & _ & H). apply bind_ok in H as (x & X & H). apply bind_ok in H as (ns & _ & H).
  destruct (lf_virtual f) eqn:V.
  - apply bind_ok in H as (id & T & H). injection H as <-. constructor; [now apply (target_called f)|now apply (def_called f)].
  - destruct (lf_is_vec f); injection H as <-; constructor.
Qed.
Lemma look_called f k : In f (leaves_of r) -> leaf_look c f = Ok k ->
  Forall (called (here_contents r)) (match k with LkCall id => [id] | LkPeek _ _ => [] end).
Proof.
  intros I H. unfold leaf_look in H. destruct (lf_virtual f) eqn:V; apply bind_ok in H as (id & T & H); injection H as <-; [|constructor].
  constructor; [|constructor]. now apply (target_called f).
Qed.
Lemma read_called b : root_from_xml gfuel c r = Ok b -> Forall (called (here_contents r)) (read_here b).
Proof.
  intros H. unfold root_from_xml in H. pose proof leaf_called as LC. pose proof arm_called as AC. destruct r as [d|vs|d|d].
  - apply bind_ok in H as (x & X & H). injection H as <-. apply rx_called in X. exact X.
  - injection H as <-. constructor.
  - unfold element_from_xml in H. apply bind_ok in H as (fs & F & H). apply bind_ok in H as (ats & _ & H). injection H as <-.
    cbn [read_here]. cbn [leaves_of] in LC. destruct (ed_content d) as [[n0 d0|ls]|] eqn:C.
    + apply bind_ok in F as (i & _ & F). apply bind_ok in F as (x & X & F). injection F as <-. cbn [flat_map snd fr_here app]. rewrite app_nil_r.
      apply rx_called in X. cbn [here_contents]. rewrite C. exact X.
    + eapply map_called; [|exact F]. exact LC.
    + injection F as <-. constructor.
  - apply bind_ok in H as (arms & F & H). injection H as <-. eapply map_called; [|exact F]. exact AC.
Qed.
Lemma ahead_called k : root_lookahead c r = Ok k -> Forall (called (here_contents r)) (look_here k).
Proof.
  intros H. unfold root_lookahead in H. pose proof look_called as LC. destruct r as [d|vs|d|d]; try (injection H as <-; constructor).
  - cbn [leaves_of] in LC. destruct (ed_content d) as [[n0 d0|ls]|] eqn:C; try (injection H as <-; constructor).
    apply bind_ok in H as (ks & F & H). injection H as <-. cbn [look_here].
    revert ks F. revert LC. generalize (here_contents (RootElement d)) as hc. clear -Hg. intros hc LC.
    induction ls as [|f ls IH]; intros ks F; cbn [leaves_look] in F; [injection F as <-; constructor|].
    apply bind_ok in F as (k & K & F). pose proof (LC f k (or_introl eq_refl) K) as A. destruct (lf_is_optional f).
    + apply bind_ok in F as (ks' & K' & F). injection F as <-. cbn [flat_map]. apply Forall_app. split; [exact A|].
      apply IH; [|exact K']. intros g k' I. apply LC. now right.
    + injection F as <-. cbn [flat_map]. rewrite app_nil_r. exact A.
  - apply bind_ok in H as (ks & F & H). injection H as <-. cbn [look_here]. eapply map_called; [|exact F]. exact LC.
Qed.
End Item.

Definition named (id : string) (n : name) : bool := match type_ident n with Ok i => i =?s id | _ => false end.
Definition layer_of (id : string) : nat := match find (named id) gs with Some n => rank n | None => 0 end.
Lemma layer_rank n id : In n gs -> type_ident n = Ok id -> layer_of id = rank n.
Proof.
  intros I T. unfold layer_of. destruct (find (named id) gs) as [m|] eqn:F.
  - apply find_some in F as [Im Em]. unfold named in Em. destruct (type_ident m) as [i| | |] eqn:Tm; try discriminate.
    apply String.eqb_eq in Em as ->. now rewrite (same_ident gfuel c gs p Hg n m id I Im T Tm).
  - eapply find_none in F; [|exact I]. unfold named in F. rewrite T, String.eqb_refl in F. discriminate.
Qed.
Lemma layers : layered p layer_of (list_max (map rank gs)).
Proof.
  unfold layered. apply Forall_forall. intros t I.
  assert (X : exists n, In n gs /\ generate_element gfuel c n = Ok t).
  { pose proof (proj1 Hg) as M. apply mapM_ok in M. clear -M I. induction M as [|n t' l q E M IH]; [destruct I|].
    destruct I as [<-|I]; [exists n; split; [now left|exact E]|]. destruct (IH I) as (m & J & K). exists m. split; [now right|exact K]. }
  destruct X as (n & In_ & G). apply generate_element_inv in G as (r & id & d & w & xn & nss & ns & b & lk0 & S & T & _ & _ & _ & _ & _ & R & K & ->).
  cbn [ti_id ti_read ti_look]. rewrite (layer_rank n id In_ T). split.
  - pose proof (proj1 (list_max_le (map rank gs) (list_max (map rank gs))) (le_n _)) as F. rewrite Forall_forall in F. apply F, in_map, In_.
  - assert (F : Forall (called (here_contents r)) (read_here b ++ look_here lk0)).
    { apply Forall_app. split; [eapply read_called; eassumption|eapply ahead_called; eassumption]. }
    eapply Forall_impl; [|exact F]. intros i (ct & m & J & Fi & Ti).
    destruct (cp_refs _ _ Hc n r ct m In_ S (here_in r ct J) Fi) as (n' & r' & Ty).
    pose proof (Hr n r ct m n' r' In_ S J Fi Ty) as Lt. destruct Ty as (I' & _ & (i' & A & B)).
    rewrite (layer_rank n' i I'); [exact Lt|congruence].
Qed.
End Layers.

(** ** No more layers than types *)
Section Dense.
Variables (gs : list name) (rank : name -> nat).
Definition below (n : name) : nat := length (filter (fun m => Nat.ltb (rank m) (rank n)) gs).
Lemma filter_le {A} (f g : A -> bool) l : (forall a, f a = true -> g a = true) -> length (filter f l) <= length (filter g l).
Proof.
  intros H. induction l as [|a l IH]; [auto|]. cbn [filter]. specialize (H a). destruct (f a); [rewrite H; auto; cbn [length]; lia|].
  destruct (g a); cbn [length]; lia.
Qed.
Lemma filter_lt {A} (f g : A -> bool) l x : (forall a, f a = true -> g a = true) -> In x l -> f x = false -> g x = true ->
  length (filter f l) < length (filter g l).
Proof.
  intros H I F G. induction l as [|a l IH]; [destruct I|]. cbn [filter]. pose proof (filter_le f g l H) as Le. destruct I as [->|I].
  - rewrite F, G. cbn [length]. lia.
  - specialize (IH I). pose proof (H a) as Ha. destruct (f a); [rewrite Ha; auto; cbn [length]; lia|]. destruct (g a); cbn [length]; lia.
Qed.
Lemma below_lt m n : In m gs -> rank m < rank n -> below m < below n.
Proof.
  intros I Lt. apply filter_lt with (x := m); auto.
  - intros a. rewrite !Nat.ltb_lt. lia.
  - apply Nat.ltb_irrefl.
  - now apply Nat.ltb_lt.
Qed.
Lemma below_top n : In n gs -> below n < length gs.
Proof.
  intros I. unfold below. assert (E : forall l : list name, filter (fun _ => true) l = l).
  { induction l as [|a l IH]; cbn [filter]; congruence. }
  rewrite <- (E gs) at 2. apply filter_lt with (x := n); auto. apply Nat.ltb_irrefl.
Qed.
End Dense.

Lemma grounded_layers {L : Libs} gfuel c gs p : generated gfuel c gs p -> compiles c gs -> grounded c gs -> gs <> [] ->
  exists layer top, layered p layer top /\ S top <= length gs.
Proof.
  intros Hg Hc (rank & Hr) N. exists (layer_of gs (below gs rank)), (list_max (map (below gs rank) gs)). split.
  - eapply layers; [exact Hg|exact Hc|]. intros n r ct m n' r' A B C D T. pose proof (Hr n r ct m n' r' A B C D T) as Lt.
    apply below_lt; [apply T|exact Lt].
  - destruct gs as [|n0 gs'] eqn:E; [contradiction|]. rewrite <- E. assert (P : list_max (map (below gs rank) gs) <= length gs - 1).
    { apply list_max_le, Forall_forall. intros k I. apply in_map_iff in I as (n & <- & I). pose proof (below_top gs rank n I). lia. }
    assert (0 < length gs) by (rewrite E; cbn; lia). lia.
Qed.
