(** * DepthProof: the depth of calls is bounded by the height of the document (C83) *)
From Verif Require Import Base Libs Xml Ast Decode Gen Run DepthSpec.
From Coq Require Import Lia.

(** What a cursor can still give is lower than [h]. *)
Definition cursor_in (h : nat) (c : children) : Prop :=
  Forall (fun x => height x < h) (ch_rest c) /\ Forall (fun x => height x < h) (ch_peeked c)
  /\ match ch_next c with Some x => height x < h | None => True end.
Lemma in_new e : cursor_in (height e) (children_new e).
Proof. repeat split; simpl; auto. apply Forall_forall. intros x I. now apply height_child. Qed.
Definition gives (h : nat) (r : option xelem * children) : Prop :=
  match fst r with Some x => height x < h | None => True end /\ cursor_in h (snd r).
Lemma pop_in h c : cursor_in h c -> gives h (pop_peeked_or_next c).
Proof.
  intros (A & B & D). unfold pop_peeked_or_next, gives. destruct c as [[|x r] [|y k] n]; cbn [ch_rest ch_peeked ch_next] in *.
  - repeat split; auto.
  - inversion B; subst. repeat split; auto.
  - inversion A; subst. repeat split; auto.
  - inversion B; subst. repeat split; auto.
Qed.
Lemma next_in h c n ns : cursor_in h c -> gives h (next_child n ns c).
Proof.
  intros I. pose proof (pop_in h c I) as P. destruct I as (A & B & D). unfold next_child.
  destruct (ch_next c) as [x|].
  - cbn [fst snd]. destruct (has_name n ns x); repeat split; auto.
  - destruct (pop_peeked_or_next c) as [[x|] c']; destruct P as [P (A' & B' & D')]; cbn [fst snd] in *.
    + destruct (has_name n ns x); repeat split; auto.
    + repeat split; auto.
Qed.
Lemma peek_in h c n ns : cursor_in h c -> cursor_in h (snd (peek_child n ns c)).
Proof.
  intros I. pose proof (pop_in h c I) as P. unfold peek_child. destruct (ch_next c) as [x|] eqn:E; [exact I|].
  destruct (pop_peeked_or_next c) as [o c']. destruct P as [P (A' & B' & D')]. cbn [fst snd] in *. repeat split; auto.
Qed.
Lemma remove_in h q l x l' : Forall (fun x => height x < h) l -> remove_first q l = Some (x, l') -> height x < h /\ Forall (fun x => height x < h) l'.
Proof.
  intros F. revert l'. induction F as [|y l Hy F IH]; intros l'; cbn [remove_first]; [discriminate|].
  destruct (q y); [intros [= <- <-]; auto|]. destruct (remove_first q l) as [[z l2]|]; [|discriminate].
  intros [= <- <-]. destruct (IH _ eq_refl). auto.
Qed.
Lemma skip_in h q l k : Forall (fun x => height x < h) l -> Forall (fun x => height x < h) k ->
  match skip_to q l k with (o, r, k') => match o with Some x => height x < h | None => True end
    /\ Forall (fun x => height x < h) r /\ Forall (fun x => height x < h) k' end.
Proof.
  intros F. revert k. induction F as [|y l Hy F IH]; intros k K; cbn [skip_to]; [auto|].
  destruct (q y); [auto|]. apply IH, Forall_app. auto.
Qed.
Lemma child_in h c n ns : cursor_in h c -> gives h (child n ns c).
Proof.
  intros (A & B & D). unfold child. pose proof (skip_in h (has_name n ns) _ _ A B) as S.
  destruct (ch_next c) as [x|]; [destruct (has_name n ns x); [repeat split; auto|]|];
  (destruct (remove_first (has_name n ns) (ch_peeked c)) as [[y k]|] eqn:E;
   [destruct (remove_in _ _ _ _ _ B E); repeat split; auto
   |destruct (skip_to (has_name n ns) (ch_rest c) (ch_peeked c)) as [[o r] k]; destruct S as (S1 & S2 & S3); repeat split; auto]).
Qed.

(** ** Two runs: the second does what the first does, unless the first gives up *)
Definition same {A} (r1 r2 : R A) : Prop := r1 = OutOfFuel \/ r1 = r2.
Definition same_in {A} (h : nat) (r1 r2 : R (A * children)) : Prop :=
  r1 = OutOfFuel \/ (r1 = r2 /\ forall a c, r1 = Ok (a, c) -> cursor_in h c).
Lemma same_refl {A} (r : R A) : same r r.
Proof. now right. Qed.
Lemma same_bind {A B} (m1 m2 : R A) (f1 f2 : A -> R B) : same m1 m2 -> (forall a, same (f1 a) (f2 a)) -> same (bind m1 f1) (bind m2 f2).
Proof. intros [->| ->] F; [now left|]. destruct m2; cbn [bind]; auto using same_refl. Qed.
Lemma in_ok {A} h (a : A) c : cursor_in h c -> same_in h (Ok (a, c)) (Ok (a, c)).
Proof. intros I. right. split; [reflexivity|]. intros a' c' [= _ <-]. exact I. Qed.
Lemma in_err {A} h x : @same_in A h (Err x) (Err x).
Proof. right. split; [reflexivity|]. discriminate. Qed.
Lemma in_panic {A} h x : @same_in A h (Panic x) (Panic x).
Proof. right. split; [reflexivity|]. discriminate. Qed.
Lemma in_bind {A B} h (m1 m2 : R (A * children)) (f1 f2 : A * children -> R (B * children)) :
  same_in h m1 m2 -> (forall a c, cursor_in h c -> same_in h (f1 (a, c)) (f2 (a, c))) -> same_in h (bind m1 f1) (bind m2 f2).
Proof.
  intros [->|[-> I]] F; [now left|]. destruct m2 as [[a c]|x|x|]; cbn [bind]; [apply F; eauto|apply in_err|apply in_panic|now left].
Qed.
Lemma in_bind' {A B} h (m1 m2 : R A) (f1 f2 : A -> R (B * children)) :
  same m1 m2 -> (forall a, same_in h (f1 a) (f2 a)) -> same_in h (bind m1 f1) (bind m2 f2).
Proof. intros [->| ->] F; [now left|]. destruct m2 as [a|x|x|]; cbn [bind]; [apply F|apply in_err|apply in_panic|now left]. Qed.
Lemma in_same {A B} h (m1 m2 : R (A * children)) (f : A * children -> R B) : same_in h m1 m2 -> same (bind m1 f) (bind m2 f).
Proof. intros [->|[-> _]]; [now left|now right]. Qed.

Section Open.
Context {L : Libs}.
Variable p : program.
Variables (layer : string -> nat) (h k : nat).
Variables (call1 call2 : string -> xelem -> children -> R (value * children)).
Variables (look1 look2 : string -> children -> R (bool * children)).
Hypothesis here : forall id e c, layer id < k -> cursor_in h c -> same_in h (call1 id e c) (call2 id e c).
Hypothesis sub : forall id e, height e < h -> same_in (height e) (call1 id e (children_new e)) (call2 id e (children_new e)).
Hypothesis look : forall id c, layer id < k -> cursor_in h c -> same_in h (look1 id c) (look2 id c).
Variables (w1 w2 : nat).
Hypothesis rounds : w1 <= w2.
Let low (l : list string) : Prop := Forall (fun id => layer id < k) l.

Lemma rx_same x e c : low (rx_types x) -> cursor_in h c -> same_in h (run_rx call1 x e c) (run_rx call2 x e c).
Proof.
  intros W I. destruct x as [l|s|id]; cbn [run_rx rx_types] in *.
  - apply in_bind'; [apply same_refl|]. intros s. apply in_bind'; [apply same_refl|]. intros v. now apply in_ok.
  - apply in_bind'; [apply same_refl|]. intros t. destruct (t =?s s); [now apply in_ok|apply in_err].
  - inversion W; subst. now apply here.
Qed.
Lemma sub_same x e : height e < h -> same (run_sub real_ops call1 x e) (run_sub real_ops call2 x e).
Proof.
  intros H. unfold run_sub. destruct x as [l|s|id]; cbn [run_rx]; try apply same_refl. eapply in_same. apply sub, H.
Qed.
Lemma while_look_same id x e : low (id :: rx_types x) -> forall f g c, f <= g -> cursor_in h c ->
  same_in h (while_look call1 look1 f id x e c) (while_look call2 look2 g id x e c).
Proof.
  intros W. inversion W as [|? ? W1 W2]; subst. induction f as [|f IH]; intros g c G I; [now left|]. destruct g as [|g]; [lia|]. cbn [while_look].
  apply in_bind; [now apply look|]. intros [|] c1 I1; [|now apply in_ok].
  apply in_bind; [now apply rx_same|]. intros v c2 I2. apply in_bind; [apply IH; [lia|exact I2]|]. intros vs c3 I3. now apply in_ok.
Qed.
Lemma while_next_same n ns x : forall f g c, f <= g -> cursor_in h c ->
  same_in h (while_next real_ops call1 f n ns x c) (while_next real_ops call2 g n ns x c).
Proof.
  induction f as [|f IH]; intros g c G I; [now left|]. destruct g as [|g]; [lia|]. cbn [while_next real_ops op_next].
  pose proof (next_in h c n ns I) as P. destruct (next_child n ns c) as [[y|] c1]; destruct P as [P I1]; cbn [fst snd] in *; [|now apply in_ok].
  apply in_bind'; [now apply sub_same|]. intros v. apply in_bind; [apply IH; [lia|exact I1]|]. intros vs c2 I2. now apply in_ok.
Qed.
Lemma fr_same f e c : low (fr_here f) -> cursor_in h c -> same_in h (run_fr real_ops call1 look1 w1 f e c) (run_fr real_ops call2 look2 w2 f e c).
Proof.
  intros W I. destruct f as [x|id x o|id x|n ns x o|n ns x|n ns x|n ns x]; cbn [run_fr fr_here real_ops op_next op_child] in *.
  - now apply rx_same.
  - apply in_bind; [now apply while_look_same|]. intros vs c1 I1. now apply in_ok.
  - inversion W; subst. apply in_bind; [now apply look|]. intros [|] c1 I1; [|now apply in_ok].
    apply in_bind; [now apply rx_same|]. intros v c2 I2. now apply in_ok.
  - apply in_bind; [now apply while_next_same|]. intros vs c1 I1. now apply in_ok.
  - pose proof (next_in h c n ns I) as P. destruct (next_child n ns c) as [[y|] c1]; destruct P as [P I1]; cbn [fst snd] in *; [|now apply in_ok].
    apply in_bind'; [now apply sub_same|]. intros v. now apply in_ok.
  - pose proof (child_in h c n ns I) as P. destruct (child n ns c) as [[y|] c1]; destruct P as [P I1]; cbn [fst snd] in *; [|apply in_err].
    apply in_bind'; [now apply sub_same|]. intros v. now apply in_ok.
  - pose proof (next_in h c n ns I) as P. destruct (next_child n ns c) as [[y|] c1]; destruct P as [P I1]; cbn [fst snd] in *; [|apply in_err].
    apply in_bind'; [now apply sub_same|]. intros v. now apply in_ok.
Qed.
Lemma fields_same fs e : low (flat_map (fun f => fr_here (snd f)) fs) -> forall c, cursor_in h c ->
  same_in h (run_fields real_ops call1 look1 w1 fs e c) (run_fields real_ops call2 look2 w2 fs e c).
Proof.
  induction fs as [|[n f] fs IH]; intros W c I; cbn [run_fields flat_map snd] in *; [now apply in_ok|].
  apply Forall_app in W as [W1 W2]. apply in_bind; [now apply fr_same|]. intros v c1 I1.
  apply in_bind; [now apply IH|]. intros vs c2 I2. now apply in_ok.
Qed.
Lemma arms_same self arms e : low (flat_map arm_here arms) -> forall c, cursor_in h c ->
  same_in h (run_arms real_ops call1 look1 w1 self arms e c) (run_arms real_ops call2 look2 w2 self arms e c).
Proof.
  induction arms as [|a arms IH]; intros W c I; cbn [run_arms flat_map] in *; [apply in_err|].
  apply Forall_app in W as [W1 W2]. destruct a as [v id x|v n ns x|v n ns x]; cbn [arm_here real_ops op_next op_peek] in *.
  - inversion W1; subst. apply in_bind; [now apply look|]. intros [|] c1 I1; [|now apply IH].
    apply in_bind; [now apply rx_same|]. intros u c2 I2. now apply in_ok.
  - pose proof (peek_in h c n ns I) as P. destruct (peek_child n ns c) as [[|] c1]; cbn [snd] in P; [|now apply IH].
    apply in_bind; [now apply while_next_same|]. intros vs c2 I2. now apply in_ok.
  - pose proof (next_in h c n ns I) as P. destruct (next_child n ns c) as [[y|] c1]; destruct P as [P I1]; cbn [fst snd] in *; [|now apply IH].
    apply in_bind'; [now apply sub_same|]. intros u. now apply in_ok.
Qed.
Lemma body_same t e c : low (read_here (ti_read t)) -> cursor_in h c ->
  same_in h (run_body real_ops p call1 look1 w1 t e c) (run_body real_ops p call2 look2 w2 t e c).
Proof.
  intros W I. unfold run_body. destruct (ti_read t) as [x| |fs ats|arms]; cbn [read_here] in *.
  - apply in_bind; [now apply rx_same|]. intros v c1 I1. now apply in_ok.
  - apply in_bind'; [apply same_refl|]. intros s. destruct (ti_decl t); try apply in_panic.
    apply in_bind'; [apply same_refl|]. intros v. now apply in_ok.
  - apply in_bind; [now apply fields_same|]. intros vs c1 I1. apply in_bind'; [apply same_refl|]. intros avs. now apply in_ok.
  - now apply arms_same.
Qed.
Lemma lk_same l : low (look_here (LkOr l)) -> forall c, cursor_in h c -> same_in h (run_lk real_ops look1 l c) (run_lk real_ops look2 l c).
Proof.
  induction l as [|[id|n ns] l IH]; intros W c I; cbn [run_lk look_here flat_map app real_ops op_peek] in *; [now apply in_ok| |].
  - inversion W; subst. apply in_bind; [now apply look|]. intros [|] c1 I1; [now apply in_ok|now apply IH].
  - pose proof (peek_in h c n ns I) as P. destruct (peek_child n ns c) as [[|] c1]; cbn [snd] in P; [now apply in_ok|now apply IH].
Qed.
End Open.

Section Closed.
Context {L : Libs}.
Variable p : program.
Variables (layer : string -> nat) (top : nat).
Hypothesis lay : layered p layer top.
Lemma item_layers id t : lookup_item p id = Some t -> layer id <= top
  /\ Forall (fun i => layer i < layer id) (read_here (ti_read t)) /\ Forall (fun i => layer i < layer id) (look_here (ti_look t)).
Proof.
  intros F. unfold lookup_item in F. apply find_some in F as [I E]. apply String.eqb_eq in E as <-.
  unfold layered in lay. rewrite Forall_forall in lay. destruct (lay t I) as [T F]. apply Forall_app in F as [F1 F2]. auto.
Qed.
Lemma look_deep fuel : forall h d id c, layer id < d -> cursor_in h c -> same_in h (run_look real_ops p fuel id c) (look_within p d id c).
Proof.
  induction fuel as [|fuel IH]; intros h d id c D I; [now left|]. destruct d as [|d]; [lia|]. cbn [run_look look_within].
  destruct (lookup_item p id) as [t|] eqn:E; [|apply in_panic]. destruct (item_layers id t E) as (_ & _ & F).
  destruct (ti_look t) as [|l]; [now apply in_ok|]. apply (lk_same layer h (layer id)); auto. intros i c' Hi I'. apply IH; [lia|exact I'].
Qed.
Definition room (h : nat) (id : string) : nat := h * S top + layer id.
Lemma node_deep rounds fuel : fuel <= rounds -> forall h d id e c, room h id < d \/ lookup_item p id = None /\ 0 < d -> cursor_in h c ->
  same_in h (run_type real_ops p fuel id e c) (node_within p rounds d id e c).
Proof.
  induction fuel as [|fuel IH]; intros Le h d id e c D I; [now left|]. destruct d as [|d]; [lia|]. cbn [run_type node_within].
  destruct (lookup_item p id) as [t|] eqn:E; [|apply in_panic]. destruct (item_layers id t E) as (T & F & _).
  destruct D as [D|[D _]]; [|discriminate]. unfold room in D.
  apply (body_same p layer h (layer id)); auto; try lia.
  - intros i e' c' Hi I'. apply IH; [lia| |exact I']. left. unfold room. lia.
  - intros i e' He. apply IH; [lia| |apply in_new].
    destruct (lookup_item p i) as [u|] eqn:U; [left|right; split; [reflexivity|nia]].
    destruct (item_layers i u U) as (T' & _). unfold room. nia.
  - intros i c' Hi I'. apply look_deep; [|exact I']. lia.
Qed.
Lemma depth_enough rounds fuel d id e : fuel <= rounds -> S top * S (height e) <= d ->
  from_xml p fuel id e <> OutOfFuel -> from_xml_within p rounds d id e = from_xml p fuel id e.
Proof.
  intros Le D N. unfold from_xml, from_xml_with, from_xml_within in *. destruct (lookup_item p id) as [t|] eqn:E; [|reflexivity].
  destruct (item_layers id t E) as (T & _).
  assert (Hd : forall x, doc_try_child e (ti_read_name t) (ti_read_ns t) = Ok x -> x = e).
  { intros x. unfold doc_try_child. destruct (has_name _ _ e); congruence. }
  destruct (doc_try_child e (ti_read_name t) (ti_read_ns t)) as [x|x|x|]; cbn [bind] in *; try reflexivity.
  rewrite (Hd x eq_refl) in *.
  destruct (node_deep rounds fuel Le (height e) d id e (children_new e)) as [O|[O _]]; [left; unfold room; nia|apply in_new| |].
  - cbn [op_new real_ops] in N. rewrite O in N. now contradiction N.
  - cbn [op_new real_ops]. now rewrite O.
Qed.
End Closed.

(** ** The value read is no deeper than the calls *)
From Verif Require Import RustWrite.
Definition shallow {A} (P : A -> Prop) (r : R A) : Prop := forall a, r = Ok a -> P a.
Lemma sh_bind {A B} (P : A -> Prop) (Q : B -> Prop) (m : R A) f : shallow P m -> (forall a, P a -> shallow Q (f a)) -> shallow Q (bind m f).
Proof. intros M F b. destruct m as [a|x|x|]; cbn [bind]; intros E; try discriminate. now apply (F a (M a eq_refl)). Qed.
Lemma sh_any {A} (m : R A) : shallow (fun _ => True) m.
Proof. intros a _. exact I. Qed.
Lemma sh_ok {A} (P : A -> Prop) a : P a -> shallow P (Ok a).
Proof. intros H b [= <-]. exact H. Qed.
Lemma sh_err {A} (P : A -> Prop) x : shallow P (Err x).
Proof. discriminate. Qed.
Lemma sh_panic {A} (P : A -> Prop) x : shallow P (Panic x).
Proof. discriminate. Qed.
Lemma lm_cons a l : list_max (a :: l) = Nat.max a (list_max l).
Proof. reflexivity. Qed.
Section Shallow.
Context {L : Libs}.
Variable p : program.
Variables (rounds d : nat).
Variables (call : string -> xelem -> children -> R (value * children)) (look : string -> children -> R (bool * children)).
Let low (r : value * children) : Prop := vdepth (fst r) <= S d.
Let lows (r : list value * children) : Prop := list_max (map vdepth (fst r)) <= S d.
Hypothesis calls : forall id e c, shallow low (call id e c).
Lemma lit_low l s : shallow (fun v => vdepth v = 0) (lit_from_str l s).
Proof.
  intros v H. unfold lit_from_str, prim_from_str in H. destruct (lit_prim l);
    repeat match goal with H : context [option_map _ ?x] |- _ => destruct x; cbn [option_map] in H end; try discriminate; injection H as <-; reflexivity.
Qed.
Lemma rx_low x e c : shallow low (run_rx call x e c).
Proof.
  destruct x as [l|s|id]; cbn [run_rx].
  - eapply sh_bind; [apply sh_any|]. intros s _. eapply sh_bind; [apply lit_low|]. intros v V. apply sh_ok. unfold low. cbn [fst]. rewrite V. lia.
  - eapply sh_bind; [apply sh_any|]. intros t _. destruct (t =?s s); [|apply sh_err]. apply sh_ok. unfold low. cbn [fst vdepth]. lia.
  - apply calls.
Qed.
Lemma sub_low x e : shallow (fun v => vdepth v <= S d) (run_sub real_ops call x e).
Proof. unfold run_sub. eapply sh_bind; [apply rx_low|]. intros [v c] V. now apply sh_ok. Qed.
Lemma while_look_low f id x e : forall c, shallow lows (while_look call look f id x e c).
Proof.
  induction f as [|f IH]; intros c; cbn [while_look]; [discriminate|]. eapply sh_bind; [apply sh_any|]. intros [[|] c1] _.
  - eapply sh_bind; [apply rx_low|]. intros [v c2] V. eapply sh_bind; [apply IH|]. intros [vs c3] W. apply sh_ok. unfold low, lows in *. cbn [fst map] in *. rewrite lm_cons. lia.
  - apply sh_ok. unfold lows. cbn. lia.
Qed.
Lemma while_next_low f n ns x : forall c, shallow lows (while_next real_ops call f n ns x c).
Proof.
  induction f as [|f IH]; intros c; cbn [while_next]; [discriminate|]. destruct (op_next real_ops n ns c) as [[y|] c1].
  - eapply sh_bind; [apply sub_low|]. intros v V. eapply sh_bind; [apply IH|]. intros [vs c3] W. apply sh_ok. unfold low, lows in *. cbn [fst map] in *. rewrite lm_cons. lia.
  - apply sh_ok. unfold lows. cbn. lia.
Qed.
Lemma opt_low o vs : list_max (map vdepth vs) <= S d -> vdepth (vec_value o vs) <= S d.
Proof. intros H. unfold vec_value. destruct o; [destruct vs|]; cbn [vdepth] in *; lia. Qed.
Lemma fr_low f e c : shallow low (run_fr real_ops call look rounds f e c).
Proof.
  destruct f as [x|id x o|id x|n ns x o|n ns x|n ns x|n ns x]; cbn [run_fr].
  - apply rx_low.
  - eapply sh_bind; [apply while_look_low|]. intros [vs c1] V. apply sh_ok. now apply opt_low.
  - eapply sh_bind; [apply sh_any|]. intros [[|] c1] _; [|apply sh_ok; unfold low; cbn; lia].
    eapply sh_bind; [apply rx_low|]. intros [v c2] V. now apply sh_ok.
  - eapply sh_bind; [apply while_next_low|]. intros [vs c1] V. apply sh_ok. now apply opt_low.
  - destruct (op_next real_ops n ns c) as [[y|] c1]; [|apply sh_ok; unfold low; cbn; lia].
    eapply sh_bind; [apply sub_low|]. intros v V. now apply sh_ok.
  - destruct (op_child real_ops n ns c) as [[y|] c1]; [|apply sh_err].
    eapply sh_bind; [apply sub_low|]. intros v V. now apply sh_ok.
  - destruct (op_next real_ops n ns c) as [[y|] c1]; [|apply sh_err].
    eapply sh_bind; [apply sub_low|]. intros v V. now apply sh_ok.
Qed.
Let lowf (l : list (string * value)) : Prop := list_max (map (fun f => vdepth (snd f)) l) <= S d.
Lemma fields_low fs e : forall c, shallow (fun r => lowf (fst r)) (run_fields real_ops call look rounds fs e c).
Proof.
  induction fs as [|[n f] fs IH]; intros c; cbn [run_fields]; [apply sh_ok; unfold lowf; cbn; lia|].
  eapply sh_bind; [apply fr_low|]. intros [v c1] V. eapply sh_bind; [apply IH|]. intros [vs c2] W. apply sh_ok.
  unfold low, lowf in *. cbn [fst snd map] in *. rewrite lm_cons. lia.
Qed.
Lemma enum_low vs s : shallow (fun v => vdepth v = 1) (enum_from_str vs s).
Proof. induction vs as [|[v w] vs IH]; cbn [enum_from_str]; [apply sh_err|]. destruct (s =?s w); [now apply sh_ok|exact IH]. Qed.
Lemma ax_low a s : shallow (fun v => vdepth v <= 1) (run_ax p a s).
Proof.
  unfold run_ax. repeat match goal with |- shallow _ (match ?x with _ => _ end) => destruct x end; try apply sh_panic.
  all: try (apply sh_ok; cbn; lia).
  - intros v V. rewrite (lit_low _ _ _ V). lia.
  - intros v V. now rewrite (enum_low _ _ _ V).
Qed.
Lemma ra_low a e : shallow (fun f => vdepth (snd f) <= 1) (run_ra p a e).
Proof.
  unfold run_ra. destruct (ra_opt a).
  - destruct (d_attribute e (ra_xml a)) as [s|]; [|apply sh_ok; cbn; lia]. eapply sh_bind; [apply ax_low|]. intros v V. now apply sh_ok.
  - eapply sh_bind; [apply sh_any|]. intros s _. eapply sh_bind; [apply ax_low|]. intros v V. now apply sh_ok.
Qed.
Lemma ras_low ats e : shallow lowf (mapM (fun a => run_ra p a e) ats).
Proof.
  induction ats as [|a ats IH]; cbn [mapM]; [apply sh_ok; unfold lowf; cbn; lia|]. eapply sh_bind; [apply ra_low|]. intros f F.
  eapply sh_bind; [apply IH|]. intros fs W. apply sh_ok. unfold lowf in *. cbn [map]. rewrite lm_cons. lia.
Qed.
Lemma arms_low self arms e : forall c, shallow (fun r => vdepth (fst r) <= S (S d)) (run_arms real_ops call look rounds self arms e c).
Proof.
  induction arms as [|a arms IH]; intros c; cbn [run_arms]; [apply sh_err|]. destruct a as [v id x|v n ns x|v n ns x].
  - eapply sh_bind; [apply sh_any|]. intros [[|] c1] _; [|apply IH]. eapply sh_bind; [apply rx_low|]. intros [u c2] V. apply sh_ok. unfold low in V. cbn [fst vdepth] in *. lia.
  - destruct (op_peek real_ops n ns c) as [[|] c1]; [|apply IH]. eapply sh_bind; [apply while_next_low|]. intros [vs c2] V. apply sh_ok. unfold lows in V. cbn [fst] in V. change (S (list_max (map vdepth vs)) <= S (S d)). lia.
  - destruct (op_next real_ops n ns c) as [[y|] c1]; [|apply IH]. eapply sh_bind; [apply sub_low|]. intros u V. apply sh_ok. cbn beta in V. cbn [fst vdepth]. lia.
Qed.
Lemma body_low t e c : shallow (fun r => vdepth (fst r) <= S (S d)) (run_body real_ops p call look rounds t e c).
Proof.
  unfold run_body. destruct (ti_read t) as [x| |fs ats|arms].
  - eapply sh_bind; [apply rx_low|]. intros [v c1] V. apply sh_ok. unfold low in V. cbn [fst vdepth] in *. lia.
  - eapply sh_bind; [apply sh_any|]. intros s _. destruct (ti_decl t); try apply sh_panic. eapply sh_bind; [apply enum_low|]. intros v V. apply sh_ok. cbn beta in V. cbn [fst]. lia.
  - eapply sh_bind; [apply fields_low|]. intros [vs c1] V. eapply sh_bind; [apply ras_low|]. intros avs A. apply sh_ok. unfold lowf in *. cbn [fst] in *.
    match goal with |- vdepth (VStruct ?l) <= _ => change (S (list_max (map (fun f => vdepth (snd f)) l)) <= S (S d)) end.
    rewrite map_app, list_max_app. lia.
  - apply arms_low.
Qed.
End Shallow.
Lemma value_depth {L : Libs} p rounds d : forall id e c v c', node_within p rounds d id e c = Ok (v, c') -> vdepth v <= S d.
Proof.
  enough (H : forall id e c, shallow (fun r => vdepth (fst r) <= S d) (node_within p rounds d id e c)).
  { intros id e c v c' E. exact (H id e c (v, c') E). }
  induction d as [|d IH]; intros id e c; cbn [node_within]; [discriminate|]. destruct (lookup_item p id) as [t|]; [|apply sh_panic].
  apply body_low. exact IH.
Qed.
Lemma from_value_depth {L : Libs} p rounds d id e v : from_xml_within p rounds d id e = Ok v -> vdepth v <= S d.
Proof.
  unfold from_xml_within. destruct (lookup_item p id) as [t|]; [|discriminate]. intros H. apply bind_ok in H as (x & _ & H).
  apply bind_ok in H as ([w c] & E & H). injection H as <-. eapply value_depth, E.
Qed.
