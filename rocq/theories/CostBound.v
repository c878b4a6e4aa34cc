(** * CostBound: how steps are paid for by the elements taken (C84) *)
From Verif Require Import Base Libs Xml Ast Decode Gen Run DepthSpec CostSpec CostProof.
From Coq Require Import Lia.

Section Bound.
Context {L : Libs}.
Variable p : program.
(** What taking an element pays for reading it. *)
Variable g : xelem -> nat.
Definition num (c : children) : nat := total (fun _ => 1) (held c).
Definition wgt (c : children) : nat := total g (held c).
(** At most [a] steps, and [b] more for every element taken. *)
Definition bounded {A} (a b : nat) (c : children) (m : counted (A * children)) : Prop :=
  match fst m with
  | Ok (_, c') => num c' <= num c /\ snd m + b * num c' + wgt c' <= a + b * num c + wgt c
  | _ => snd m <= a + b * num c + wgt c
  end.
Lemma b_weak {A} a b a' b' c (m : counted (A * children)) : a <= a' -> b <= b' -> bounded a b c m -> bounded a' b' c m.
Proof. unfold bounded. intros H K. destruct (fst m) as [[v c']|x|x|]; [intros [N S]; split; [exact N|]|..]; nia. Qed.
Lemma b_ok {A} a b c (v : A) c' : num c' <= num c -> wgt c' <= wgt c -> bounded a b c (free (Ok (v, c'))).
Proof. unfold bounded. cbn [free fst snd]. intros N W. split; [exact N|nia]. Qed.
Lemma b_same {A} a b c (v : A) : bounded a b c (free (Ok (v, c))).
Proof. now apply b_ok. Qed.
Lemma b_no {A} a b c (r : R (A * children)) : (forall v, r <> Ok v) -> bounded a b c (free r).
Proof. unfold bounded. cbn [free fst snd]. intros N. destruct r as [[v c']|x|x|]; [now contradiction (N (v, c'))|lia|lia|lia]. Qed.
Lemma b_tick {A} a b c (m : counted (A * children)) : bounded a b c m -> bounded (S a) b c (tick m).
Proof. unfold bounded. cbn [tick fst snd]. destruct (fst m) as [[v c']|x|x|]; [intros [N S]; split; [exact N|]|..]; lia. Qed.
Lemma b_then {A B} a1 a2 b c (m : counted (A * children)) (f : A * children -> counted (B * children)) :
  bounded a1 b c m -> (forall v c', fst m = Ok (v, c') -> bounded a2 b c' (f (v, c'))) -> bounded (a1 + a2) b c (andthen m f).
Proof.
  unfold bounded, andthen. intros M F. destruct (fst m) as [[v c1]|x|x|] eqn:E; cbn [fst snd]; try lia. destruct M as [N M].
  specialize (F v c1 eq_refl). destruct (fst (f (v, c1))) as [[v2 c2]|x|x|]; [destruct F as [N2 F]; split; [lia|]|..]; lia.
Qed.
(** A step that gives no cursor back. *)
Lemma b_pure {A B} s a b c (m : counted A) (f : A -> counted (B * children)) :
  snd m <= s -> (forall v, bounded a b c (f v)) -> bounded (s + a) b c (andthen m f).
Proof.
  unfold bounded, andthen. intros M F. destruct (fst m) as [v|x|x|] eqn:E; cbn [fst snd]; try lia.
  specialize (F v). destruct (fst (f v)) as [[v2 c2]|x|x|]; [destruct F as [N2 F]; split; [lia|]|..]; lia.
Qed.
(** An element is taken: it pays for its own reading and [b] more. *)
Lemma b_take {A B} a b c c1 k (m : counted A) (f : A -> counted (B * children)) :
  num c = 1 + num c1 -> wgt c = g k + wgt c1 -> snd m <= g k -> (forall v, bounded (a + b) b c1 (f v)) -> bounded a b c (andthen m f).
Proof.
  intros N W M F. unfold bounded, andthen. destruct (fst m) as [v|x|x|] eqn:E; cbn [fst snd]; try nia.
  specialize (F v). unfold bounded in F. destruct (fst (f v)) as [[v2 c2]|x|x|]; [destruct F as [N2 F]; split; [lia|]|..]; nia.
Qed.
(** Only what is held counts. *)
Lemma b_moved {A} a b c c1 (m : counted (A * children)) : num c1 = num c -> wgt c1 = wgt c -> bounded a b c1 m -> bounded a b c m.
Proof. intros N W. unfold bounded. now rewrite N, W. Qed.

Section Open.
Variables (layer : string -> nat) (k a0 b0 la : nat).
Variables (call : string -> xelem -> children -> counted (value * children)) (look : string -> children -> counted (bool * children)).
Hypothesis here : forall id e c, layer id < k -> bounded a0 b0 c (call id e c).
Hypothesis sub : forall id e, S (snd (call id e (children_new e))) <= g e.
Hypothesis text : forall e, 1 <= g e.
Hypothesis ahead : forall id b c, layer id < k -> bounded la b c (look id c).
Let low (l : list string) : Prop := Forall (fun id => layer id < k) l.
Let b1 : nat := b0 + 2 + la + a0.
Let aF : nat := 3 + la + a0.

Lemma rx_bound x e c : low (rx_types x) -> bounded (S a0) b0 c (count_rx call x e c).
Proof.
  intros W. unfold count_rx. apply b_tick. destruct x as [l|s|id]; cbn [rx_types] in W.
  - cbn [run_rx]. destruct (d_text e) as [s|z|z|]; cbn [bind]; try (apply b_no; congruence).
    destruct (lit_from_str l s) as [v|z|z|]; cbn [bind]; try (apply b_no; congruence). apply b_same.
  - cbn [run_rx]. destruct (d_text e) as [t|z|z|]; cbn [bind]; try (apply b_no; congruence).
    destruct (t =?s s); [apply b_same|apply b_no; congruence].
  - inversion W; subst. now apply here.
Qed.
Lemma sub_bound x e : snd (count_sub call x e) <= g e.
Proof.
  unfold count_sub, andthen. assert (S : snd (count_rx call x e (children_new e)) <= g e).
  { unfold count_rx. cbn [tick snd]. destruct x as [l|s|id]; cbn [free snd]; auto. }
  destruct (fst (count_rx call x e (children_new e))); cbn [snd free]; lia.
Qed.
Lemma next_num c n ns : match next_child n ns c with
  | (Some x, c') => num c = 1 + num c' /\ wgt c = g x + wgt c' | (None, c') => num c' = num c /\ wgt c' = wgt c end.
Proof.
  pose proof (held_next (fun _ => 1) c n ns) as A. pose proof (held_next g c n ns) as B. destruct (next_child n ns c) as [[x|] c']; auto.
Qed.
Lemma child_num c n ns : match child n ns c with
  | (Some x, c') => num c = 1 + num c' /\ wgt c = g x + wgt c' | (None, c') => num c' = num c /\ wgt c' = wgt c end.
Proof.
  pose proof (held_child (fun _ => 1) c n ns) as A. pose proof (held_child g c n ns) as B. destruct (child n ns c) as [[x|] c']; auto.
Qed.
Lemma while_next_bound n ns x f : forall b c, 1 <= b -> bounded 1 b c (count_while_next call f n ns x c).
Proof.
  induction f as [|f IH]; intros b c Hb; [apply b_no; discriminate|]. cbn [count_while_next]. apply b_tick. pose proof (next_num c n ns) as N.
  destruct (next_child n ns c) as [[y|] c1]; destruct N as [N W]; [|apply b_ok; lia].
  eapply b_take; [exact N|exact W|apply sub_bound|]. intros v. apply b_weak with (a := 1 + 0) (b := b); [lia|lia|].
  eapply b_then; [now apply IH|]. intros vs c2 _. apply b_same.
Qed.
Definition progress_of (id : string) (x : rx) : Prop := forall e c c1 v c2,
  fst (look id c) = Ok (true, c1) -> fst (count_rx call x e c1) = Ok (v, c2) -> num c2 < num c1.
Lemma while_look_bound id x e : low (id :: rx_types x) -> progress_of id x ->
  forall f c, bounded (2 + la + a0) b1 c (count_while_look call look f id x e c).
Proof.
  intros W P. inversion W as [|? ? W1 W2]; subst. induction f as [|f IH]; intros c; [apply b_no; discriminate|]. cbn [count_while_look].
  replace (2 + la + a0) with (S (la + S a0)) by lia. apply b_tick. eapply b_then; [now apply ahead|]. intros [|] c1 E; cbn [fst snd]; [|apply b_same].
  pose proof (rx_bound x e c1 W2) as B. pose proof (P e c c1) as P'. unfold andthen at 1. unfold bounded in B.
  destruct (fst (count_rx call x e c1)) as [[v c2]|z|z|] eqn:E2; unfold bounded; cbn [fst snd]; try (unfold b1; nia).
  specialize (P' v c2 E eq_refl). destruct B as [N B]. cbn [snd].
  assert (T : bounded (2 + la + a0 + 0) b1 c2 (andthen (count_while_look call look f id x e c2) (fun rs => free (Ok (v :: fst rs, snd rs))))).
  { eapply b_then; [apply IH|]. intros vs c3 _. apply b_same. }
  unfold bounded in T. destruct (fst (andthen (count_while_look call look f id x e c2) _)) as [[v3 c3]|z|z|].
  - destruct T as [N3 T]. split; [lia|]. unfold b1 in *. nia.
  - unfold b1 in *. nia.
  - unfold b1 in *. nia.
  - unfold b1 in *. nia.
Qed.
Definition loops (f : fr) : Prop := match f with FrWhileLook id x _ => progress_of id x | _ => True end.
Lemma fr_bound fuel f e c : low (fr_here f) -> loops f -> bounded aF b1 c (count_fr call look fuel f e c).
Proof.
  intros W P. destruct f as [x|id x o|id x|n ns x o|n ns x|n ns x|n ns x]; cbn [count_fr fr_here loops] in *.
  - eapply b_weak; [| |now apply rx_bound]; unfold aF, b1; lia.
  - apply b_weak with (a := 2 + la + a0 + 0) (b := b1); [unfold aF; lia|lia|]. eapply b_then; [now apply while_look_bound|]. intros vs c1 _. apply b_same.
  - inversion W as [|? ? W1 W2]; subst. apply b_weak with (a := la + (S a0 + 0)) (b := b1); [unfold aF; lia|lia|]. eapply b_then; [now apply ahead|].
    intros [|] c1 _; cbn [fst snd]; [|apply b_same]. eapply b_then; [|intros v c2 _; apply b_same].
    eapply b_weak; [| |now apply rx_bound]; unfold b1; lia.
  - apply b_weak with (a := 1 + 0) (b := b1); [unfold aF; lia|lia|]. eapply b_then; [apply while_next_bound; unfold b1; lia|]. intros vs c1 _. apply b_same.
  - apply b_weak with (a := 1) (b := b1); [unfold aF; lia|lia|]. apply b_tick. pose proof (next_num c n ns) as N.
    destruct (next_child n ns c) as [[y|] c1]; destruct N as [N Wg]; [|apply b_ok; lia]. eapply b_take; [exact N|exact Wg|apply sub_bound|]. intros v. apply b_same.
  - apply b_weak with (a := 1) (b := b1); [unfold aF; lia|lia|]. apply b_tick. pose proof (child_num c n ns) as N.
    destruct (child n ns c) as [[y|] c1]; destruct N as [N Wg]; [|apply b_no; discriminate]. eapply b_take; [exact N|exact Wg|apply sub_bound|]. intros v. apply b_same.
  - apply b_weak with (a := 1) (b := b1); [unfold aF; lia|lia|]. apply b_tick. pose proof (next_num c n ns) as N.
    destruct (next_child n ns c) as [[y|] c1]; destruct N as [N Wg]; [|apply b_no; discriminate]. eapply b_take; [exact N|exact Wg|apply sub_bound|]. intros v. apply b_same.
Qed.
Lemma fields_bound fuel fs e : low (flat_map (fun f => fr_here (snd f)) fs) -> Forall (fun f => loops (snd f)) fs ->
  forall c, bounded (length fs * aF) b1 c (count_fields call look fuel fs e c).
Proof.
  intros W P. induction P as [|[n f] fs P1 P IH]; intros c; cbn [count_fields flat_map snd length Nat.mul] in *; [apply b_same|].
  apply Forall_app in W as [W1 W2]. eapply b_then; [now apply fr_bound|]. intros v c1 _. cbn [fst snd].
  replace (length fs * aF) with (length fs * aF + 0) by lia. eapply b_then; [now apply IH|]. intros vs c2 _. apply b_same.
Qed.
Lemma attrs_bound ats e : snd (count_attrs p ats e) <= length ats.
Proof.
  induction ats as [|a ats IH]; cbn [count_attrs length]; [cbn; lia|]. cbn [tick snd]. unfold andthen. cbn [free fst snd].
  destruct (run_ra p a e); cbn [snd]; try lia. destruct (fst (count_attrs p ats e)); cbn [snd free]; lia.
Qed.
Lemma arms_bound fuel self arms e : low (flat_map arm_here arms) -> forall c, bounded (length arms * aF) b1 c (count_arms call look fuel self arms e c).
Proof.
  intros W. induction arms as [|a arms IH]; intros c; cbn [count_arms flat_map length Nat.mul] in *; [apply b_no; discriminate|].
  apply Forall_app in W as [W1 W2]. specialize (IH W2). destruct a as [v id x|v n ns x|v n ns x]; cbn [arm_here] in W1.
  - inversion W1 as [|? ? W3 W4]; subst. apply b_weak with (a := la + (S a0 + length arms * aF)) (b := b1); [unfold aF; lia|lia|].
    eapply b_then; [now apply ahead|]. intros [|] c1 _; cbn [fst snd].
    + apply b_weak with (a := S a0 + 0) (b := b1); [lia|lia|]. eapply b_then; [|intros u c2 _; apply b_same]. eapply b_weak; [| |now apply rx_bound]; unfold b1; lia.
    + eapply b_weak; [| |apply IH]; lia.
  - apply b_weak with (a := S (1 + length arms * aF)) (b := b1); [unfold aF; lia|lia|]. apply b_tick. cbv zeta.
    apply b_moved with (c1 := snd (peek_child n ns c)); [apply (held_peek (fun _ => 1))|apply held_peek|].
    destruct (fst (peek_child n ns c)).
    + apply b_weak with (a := 1 + 0) (b := b1); [lia|lia|]. eapply b_then; [apply while_next_bound; unfold b1; lia|]. intros vs c2 _. apply b_same.
    + eapply b_weak; [| |apply IH]; lia.
  - apply b_weak with (a := S (length arms * aF)) (b := b1); [unfold aF; lia|lia|]. apply b_tick. pose proof (next_num c n ns) as N.
    destruct (next_child n ns c) as [[y|] c1]; destruct N as [N Wg].
    + eapply b_take; [exact N|exact Wg|apply sub_bound|]. intros u. apply b_same.
    + apply b_moved with (c1 := c1); auto.
Qed.
Definition items (t : titem) : nat :=
  match ti_read t with BrStruct fs ats => length fs + length ats | BrChoice arms => length arms | _ => 0 end.
Definition body_loops (t : titem) : Prop := match ti_read t with BrStruct fs _ => Forall (fun f => loops (snd f)) fs | _ => True end.
Lemma body_bound fuel t e c : low (read_here (ti_read t)) -> body_loops t -> bounded (S (items t) * aF) b1 c (count_body p call look fuel t e c).
Proof.
  intros W P. unfold count_body, items, body_loops in *. destruct (ti_read t) as [x| |fs ats|arms] eqn:R; cbn [read_here] in W.
  - apply b_weak with (a := S a0 + 0) (b := b1); [unfold aF; lia|lia|]. eapply b_then; [|intros v c2 _; apply b_same]. eapply b_weak; [| |now apply rx_bound]; unfold b1; lia.
  - apply b_weak with (a := 1) (b := b1); [unfold aF; lia|lia|]. apply b_tick. unfold run_body. rewrite R.
    destruct (d_text e) as [s|z|z|]; cbn [bind]; try (apply b_no; congruence). destruct (ti_decl t); try (apply b_no; congruence).
    destruct (enum_from_str variants s) as [v|z|z|]; cbn [bind]; try (apply b_no; congruence). apply b_same.
  - apply b_weak with (a := length fs * aF + (length ats + 0)) (b := b1); [unfold aF; nia|lia|]. eapply b_then; [now apply fields_bound|].
    intros vs c1 _. cbn [fst snd]. apply b_pure; [apply attrs_bound|]. intros avs. apply b_same.
  - eapply b_weak; [| |now apply arms_bound]; lia.
Qed.
Lemma lk_bound l : low (look_here (LkOr l)) -> forall b c, bounded (length l * S la) b c (count_lk look l c).
Proof.
  induction l as [|[id|n ns] l IH]; intros W b c; cbn [count_lk look_here flat_map app length Nat.mul] in *; [apply b_same| |].
  - inversion W as [|? ? W1 W2]; subst. apply b_weak with (a := la + length l * S la) (b := b); [lia|lia|]. eapply b_then; [now apply ahead|].
    intros [|] c1 _; cbn [fst snd]; [apply b_same|now apply IH].
  - apply b_weak with (a := S (length l * S la)) (b := b); [lia|lia|]. apply b_tick. cbv zeta.
    apply b_moved with (c1 := snd (peek_child n ns c)); [apply (held_peek (fun _ => 1))|apply held_peek|].
    destruct (fst (peek_child n ns c)); [apply b_same|now apply IH].
Qed.
End Open.
End Bound.
