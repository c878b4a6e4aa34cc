(** * NumberProof: rounding to binary32 *)
From Verif Require Import Base TextSpec LexSpec Numbers NumberSpec NumProof.
From Coq Require Import QArith Qabs Qpower Lqa.
Local Open Scope N_scope.

(** ** Units *)
Lemma units_at k m : m < 2 ^ 24 -> k = 0 \/ 2 ^ 23 <= m -> f32_units (k * 2 ^ 23 + m) = m * 2 ^ k.
Proof.
  intros Hm Hk. unfold f32_units. destruct (N.lt_ge_cases m (2 ^ 23)) as [L|L].
  - assert (k = 0) as -> by lia. rewrite N.mul_0_l, N.add_0_l, N.div_small, N.mod_small by exact L. cbn. lia.
  - assert (E : k * 2 ^ 23 + m = (k + 1) * 2 ^ 23 + (m - 2 ^ 23)) by lia. rewrite E.
    assert (D : ((k + 1) * 2 ^ 23 + (m - 2 ^ 23)) / 2 ^ 23 = k + 1).
    { rewrite N.div_add_l by discriminate. rewrite N.div_small by lia. lia. }
    assert (M : ((k + 1) * 2 ^ 23 + (m - 2 ^ 23)) mod 2 ^ 23 = m - 2 ^ 23).
    { rewrite N.add_comm, N.mod_add by discriminate. apply N.mod_small. lia. }
    rewrite D, M. destruct (N.eqb_spec (k + 1) 0) as [Z|_]; [lia|]. replace (k + 1 - 1) with k by lia. f_equal. lia.
Qed.
Lemma units_next k m : m < 2 ^ 24 -> k = 0 \/ 2 ^ 23 <= m -> f32_units (k * 2 ^ 23 + m + 1) = (m + 1) * 2 ^ k.
Proof.
  intros Hm Hk. destruct (N.eq_dec (m + 1) (2 ^ 24)) as [E|E].
  - replace (k * 2 ^ 23 + m + 1) with ((k + 1) * 2 ^ 23 + 2 ^ 23) by lia. rewrite units_at by lia. rewrite E, N.pow_add_r. lia.
  - rewrite <- N.add_assoc. rewrite units_at by lia. reflexivity.
Qed.
Lemma bits_form b : exists k m, b = k * 2 ^ 23 + m /\ m < 2 ^ 24 /\ (k = 0 \/ 2 ^ 23 <= m).
Proof.
  pose proof (N.div_mod b (2 ^ 23) ltac:(discriminate)) as D. pose proof (N.mod_lt b (2 ^ 23) ltac:(discriminate)) as M.
  change (2 ^ 23) with 8388608 in *. change (2 ^ 24) with 16777216.
  generalize dependent (b mod 8388608). generalize (b / 8388608). intros e f D M. destruct (N.eq_dec e 0) as [Ez|Ez].
  - exists 0, f. lia.
  - exists (e - 1), (f + 8388608). lia.
Qed.
Lemma units_succ b : f32_units b < f32_units (b + 1).
Proof.
  destruct (bits_form b) as (k & m & -> & Hm & Hk). rewrite units_at, units_next by assumption. apply N.mul_lt_mono_pos_r; [|lia].
  pose proof (N.pow_nonzero 2 k ltac:(discriminate)). lia.
Qed.
Lemma units_mono b b' : b < b' -> f32_units b < f32_units b'.
Proof.
  intros H. replace b' with (b + N.of_nat (S (N.to_nat (b' - b - 1)))) by lia. generalize (N.to_nat (b' - b - 1)). clear H b'. intros n.
  induction n as [|n IH]; [apply units_succ|]. eapply N.lt_trans; [exact IH|]. pose proof (units_succ (b + N.of_nat (S n))) as U.
  replace (b + N.of_nat (S (S n))) with (b + N.of_nat (S n) + 1) by lia. exact U.
Qed.
Lemma units_le b b' : b <= b' -> f32_units b <= f32_units b'.
Proof. intros H. destruct (N.eq_dec b b') as [->|N]; [lia|]. apply N.lt_le_incl, units_mono. lia. Qed.

(** ** Rounding, in whole numbers *)
Lemma floor_between x den u : den <> 0 -> u <> 0 -> x / den / u * u * den <= x /\ x < (x / den / u + 1) * u * den.
Proof.
  intros Hd Hu. pose proof (N.div_mod x den Hd) as D. pose proof (N.mod_lt x den Hd) as M. set (q := x / den) in *. clearbody q. set (r := x mod den) in *. clearbody r.
  pose proof (N.div_mod q u Hu) as D2. pose proof (N.mod_lt q u Hu) as M2. set (m := q / u) in *. clearbody m. set (r2 := q mod u) in *. clearbody r2. split.
  - assert (m * u <= q) by lia. apply N.le_trans with (q * den); [now apply N.mul_le_mono_r|lia].
  - assert (q + 1 <= (m + 1) * u) by lia. apply N.lt_le_trans with ((q + 1) * den); [lia|now apply N.mul_le_mono_r].
Qed.

Section Round.
Variables a den : N.
Hypothesis Hd : den <> 0.
Let x := a * 2 ^ 149.
Let q := x / den.
Let k := N.log2 q - 23.
Let m := q / 2 ^ k.
Let bits := k * 2 ^ 23 + m.

Lemma round_shape : m < 2 ^ 24 /\ (k = 0 \/ 2 ^ 23 <= m).
Proof.
  unfold m, k. destruct (N.eq_dec q 0) as [Ez|Ez].
  - rewrite Ez. cbn. lia.
  - assert (P : 0 < q) by lia. pose proof (N.log2_spec q P) as [L U]. destruct (N.le_gt_cases (N.log2 q) 23) as [H|H].
    + replace (N.log2 q - 23) with 0 by lia. rewrite N.pow_0_r, N.div_1_r. split; [|now left].
      eapply N.lt_le_trans; [exact U|]. change (2 ^ 24) with (2 ^ N.succ 23). apply N.pow_le_mono_r; lia.
    + set (j := N.log2 q - 23). assert (J : N.log2 q = 23 + j) by (unfold j; lia). rewrite J in L, U. split.
      * apply N.div_lt_upper_bound; [apply N.pow_nonzero; discriminate|]. replace (N.succ (23 + j)) with (j + 24) in U by lia. now rewrite N.pow_add_r in U.
      * right. apply N.div_le_lower_bound; [apply N.pow_nonzero; discriminate|]. replace (23 + j) with (j + 23) in L by lia. now rewrite N.pow_add_r in L.
Qed.
Lemma round_between : f32_units bits * den <= x /\ x < f32_units (bits + 1) * den.
Proof.
  destruct round_shape as [A B]. unfold bits. rewrite units_at, units_next by assumption.
  apply floor_between; [exact Hd|apply N.pow_nonzero; discriminate].
Qed.
Definition ndist (b : N) : Z := Z.abs (Z.of_N x - Z.of_N (f32_units b * den)).
Lemma ndist_below b : b < bits -> (ndist bits < ndist b)%Z.
Proof. intros H. destruct round_between as [A B]. apply units_mono in H. apply (N.mul_lt_mono_pos_r den) in H; [|lia]. unfold ndist. lia. Qed.
Lemma ndist_above b : bits + 1 < b -> (ndist (bits + 1) < ndist b)%Z.
Proof. intros H. destruct round_between as [A B]. apply units_mono in H. apply (N.mul_lt_mono_pos_r den) in H; [|lia]. unfold ndist. lia. Qed.
Lemma inf_below b : bits >= f32_inf -> b < f32_inf -> (ndist f32_inf < ndist b)%Z.
Proof. intros G H. destruct round_between as [A B]. apply units_mono in H. assert (K : f32_units f32_inf <= f32_units bits) by (apply units_le; lia).
  apply (N.mul_le_mono_r _ _ den) in K. apply (N.mul_lt_mono_pos_r den) in H; [|lia]. unfold ndist. lia. Qed.
Lemma round_nearest : f32_round a den <= f32_inf
  /\ forall b, b <= f32_inf -> b <> f32_round a den ->
     (ndist (f32_round a den) < ndist b)%Z \/ (ndist (f32_round a den) = ndist b /\ N.even (f32_round a den) = true).
Proof.
  assert (E : f32_round a den = N.min (bits + match 2 * (x - m * 2 ^ k * den) ?= 2 ^ k * den with Lt => 0 | Gt => 1 | Eq => bits mod 2 end) f32_inf) by reflexivity.
  destruct round_shape as [S1 S2]. pose proof round_between as [A B]. pose proof (units_at k m S1 S2) as U0. pose proof (units_next k m S1 S2) as U1. fold bits in U0, U1.
  assert (D0 : ndist bits = (Z.of_N (x - m * 2 ^ k * den))%Z) by (unfold ndist; rewrite U0 in *; lia).
  assert (D1 : ndist (bits + 1) = (Z.of_N (2 ^ k * den) - Z.of_N (x - m * 2 ^ k * den))%Z) by (unfold ndist; rewrite U0, U1 in *; nia).
  split; [rewrite E; lia|]. intros b Hb Nb. destruct (N.le_gt_cases f32_inf bits) as [G|G].
  { assert (R : f32_round a den = f32_inf) by (rewrite E; lia). rewrite R in *. left. apply inf_below; lia. }
  revert E. destruct (N.compare_spec (2 * (x - m * 2 ^ k * den)) (2 ^ k * den)) as [C|C|C]; intros E.
  - assert (Q : ndist bits = ndist (bits + 1)) by lia. pose proof (N.mod_lt bits 2 ltac:(discriminate)) as M2. pose proof (N.div_mod bits 2 ltac:(discriminate)) as DM.
    assert (Ev : N.even (f32_round a den) = true). { apply N.even_spec. rewrite E. rewrite N.min_l by lia. exists (bits / 2 + bits mod 2). lia. }
    assert (R : f32_round a den = bits \/ f32_round a den = bits + 1) by (revert M2 E; clear - G; generalize (bits mod 2); intros o M2 E; rewrite E; destruct (N.eq_dec o 0) as [-> |No]; [left|right]; [rewrite N.add_0_r; apply N.min_l; lia|replace o with 1 by lia; apply N.min_l; lia]).
    assert (Dr : ndist (f32_round a den) = ndist bits) by (destruct R as [-> | ->]; congruence). rewrite Dr.
    destruct (N.lt_trichotomy b bits) as [L|[->|L]]; [left; now apply ndist_below|right; auto|].
    destruct (N.eq_dec b (bits + 1)) as [->|L']; [right; auto|]. left. rewrite Q. apply ndist_above. lia.
  - assert (R : f32_round a den = bits) by (rewrite E; lia). rewrite R in *. left. destruct (N.lt_ge_cases b bits) as [L|L]; [now apply ndist_below|].
    destruct (N.eq_dec b (bits + 1)) as [->|L']; [lia|]. pose proof (ndist_above b ltac:(lia)). lia.
  - assert (R : f32_round a den = bits + 1) by (rewrite E; lia). rewrite R in *. left. destruct (N.lt_ge_cases b (bits + 1)) as [L|L]; [|apply ndist_above; lia].
    destruct (N.eq_dec b bits) as [->|L']; [lia|]. pose proof (ndist_below b ltac:(lia)). lia.
Qed.
End Round.

(** ** Rounding, in rational numbers *)
Lemma infinite_inf : infinite = f32_inf.
Proof. reflexivity. Qed.
Lemma pow_Q (n : N) : ((2 # 1) ^ Z.of_N n == Z.of_N (2 ^ n) # 1)%Q.
Proof.
  rewrite N2Z.inj_pow. change (Z.of_N 2) with 2%Z. symmetry. change (2 # 1)%Q with (inject_Z 2). change (2 ^ Z.of_N n # 1)%Q with (inject_Z (2 ^ Z.of_N n)). apply Zpower_Qpower. lia.
Qed.
Definition den149 : positive := 2 ^ 149.
Lemma value_units b : (f32_value b == Z.of_N (f32_units b) # den149)%Q.
Proof.
  unfold f32_value, f32_units. cbv zeta.
  assert (H149 : ((2 # 1) ^ (-149) == 1 # den149)%Q) by reflexivity.
  destruct (N.eqb_spec (b / 2 ^ 23) 0) as [E|E].
  - rewrite H149. unfold Qeq, Qmult. cbn [Qnum Qden]. lia.
  - set (e := b / 2 ^ 23) in *. replace (Z.of_N e - 150)%Z with (Z.of_N (e - 1) + (-149))%Z by lia.
    rewrite Qpower_plus by discriminate. rewrite H149, pow_Q. generalize (2 ^ 23 + b mod 2 ^ 23). intros f. generalize (2 ^ (e - 1)). intros g. unfold Qeq, Qmult. cbn [Qnum Qden]. lia.
Qed.
Lemma dist_Q a (d : positive) b : (Qabs ((Z.of_N a # d) - f32_value b) == ndist a (Npos d) b # (d * den149))%Q.
Proof.
  rewrite value_units. unfold ndist. set (u := f32_units b). clearbody u. unfold Qminus, Qplus, Qopp, Qabs, Qeq. cbn [Qnum Qden]. f_equal. f_equal.
  rewrite N2Z.inj_mul, (N2Z.inj_mul u). change (Z.of_N (2 ^ 149)) with (Z.pos den149). change (Z.of_N (N.pos d)) with (Z.pos d). lia.
Qed.
Lemma le_Q (x y : Z) (d : positive) : ((x # d) <= (y # d))%Q <-> (x <= y)%Z.
Proof. unfold Qle. cbn [Qnum Qden]. nia. Qed.
Lemma eq_Q (x y : Z) (d : positive) : ((x # d) == (y # d))%Q <-> (x = y)%Z.
Proof. unfold Qeq. cbn [Qnum Qden]. nia. Qed.
Lemma round_Q a (d : positive) : nearest (Z.of_N a # d) (f32_round a (Npos d)).
Proof.
  destruct (round_nearest a (Npos d) ltac:(discriminate)) as [A B]. split; [exact A|]. intros b Hb. rewrite !dist_Q, le_Q, eq_Q.
  destruct (N.eq_dec b (f32_round a (Npos d))) as [->|Nb]; [split; [lia|congruence]|]. destruct (B b Hb Nb) as [L|[E Ev]]; split; intros; auto; lia.
Qed.
Lemma nearest_eq x y b : (x == y)%Q -> nearest x b -> nearest y b.
Proof. intros E [A B]. split; [exact A|]. intros b' Hb. specialize (B b' Hb). rewrite <- E. exact B. Qed.

Lemma value_mono b b' : b < b' -> (f32_value b < f32_value b')%Q.
Proof. intros H. rewrite !value_units. apply units_mono in H. unfold Qlt. cbn [Qnum Qden]. nia. Qed.
Lemma value_nonneg b : (0 <= f32_value b)%Q.
Proof. rewrite value_units. unfold Qle. cbn [Qnum Qden]. lia. Qed.
Lemma nearest_unique_lt x b b' : b < b' -> nearest x b -> nearest x b' -> False.
Proof.
  intros H [A B] [A' B']. destruct (B b' A') as [L E]. destruct (B' b A) as [L' E'].
  assert (Q : (Qabs (x - f32_value b) == Qabs (x - f32_value b'))%Q) by (apply Qle_antisym; assumption).
  specialize (E Q ltac:(lia)). symmetry in Q. specialize (E' Q ltac:(lia)). pose proof (value_mono _ _ H) as V.
  destruct (N.eq_dec b' (b + 1)) as [->|N1].
  - rewrite N.even_add in E'. rewrite E in E'. discriminate.
  - pose proof (value_mono b (b + 1) ltac:(lia)) as V1. pose proof (value_mono (b + 1) b' ltac:(lia)) as V2. destruct (B (b + 1) ltac:(lia)) as [L1 _].
    revert Q L1. apply (Qabs_case (x - f32_value b)); apply (Qabs_case (x - f32_value b')); apply (Qabs_case (x - f32_value (b + 1))); intros; lra.
Qed.
Lemma nearest_unique x b b' : nearest x b -> nearest x b' -> b = b'.
Proof.
  intros H H'. destruct (N.lt_trichotomy b b') as [L|[E|L]]; [|exact E|]; exfalso; eapply nearest_unique_lt; eauto.
Qed.
Lemma nearest_self b : b <= infinite -> nearest (f32_value b) b.
Proof.
  intros H. split; [exact H|]. intros b' H'. setoid_replace (f32_value b - f32_value b)%Q with 0%Q by ring. change (Qabs 0) with 0%Q. split; [apply Qabs_nonneg|].
  intros E N. exfalso. assert (V : (f32_value b < f32_value b' \/ f32_value b' < f32_value b)%Q).
  { destruct (N.lt_trichotomy b b') as [L|[E1|L]]; [left; now apply value_mono|congruence|right; now apply value_mono]. }
  revert E. apply (Qabs_case (f32_value b - f32_value b')); intros; destruct V; lra.
Qed.
