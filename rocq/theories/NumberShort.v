(** * NumberShort: the shortest text of a float (proofs for C73) *)
From Verif Require Import Base TextSpec NumProof LexSpec Numbers NumberSpec NumberLibs NumberProof NumberText NumberRound.
From Coq Require Import QArith Qabs Qpower Lia Lqa DecimalFacts.
Local Open Scope N_scope.

(** ** Lengths *)
Lemma show_head n r : show_N n = String "0" r -> n = 0.
Proof.
  intros H. pose proof (DecimalN.Unsigned.to_of (N.to_uint n)) as U. rewrite DecimalN.Unsigned.of_to in U. unfold show_N in H.
  destruct (N.to_uint n) as [|u|u|u|u|u|u|u|u|u|u] eqn:E; try discriminate H.
  - assert (X : N.of_uint (N.to_uint n) = N.of_uint Decimal.Nil) by (rewrite E; reflexivity). rewrite DecimalN.Unsigned.of_to in X. exact X.
  - unfold Decimal.unorm in U. destruct (Decimal.nzhead (Decimal.D0 u)) as [|w|w|w|w|w|w|w|w|w|w] eqn:Z; try discriminate U.
    + injection U as ->. assert (X : N.of_uint (N.to_uint n) = N.of_uint (Decimal.D0 Decimal.Nil)) by (rewrite E; reflexivity). rewrite DecimalN.Unsigned.of_to in X. exact X.
    + now apply nzhead_nonzero in Z.
Qed.
Lemma dval_bounds s : forall acc m, dval s acc = Some m -> acc * 10 ^ N.of_nat (String.length s) <= m /\ m < (acc + 1) * 10 ^ N.of_nat (String.length s).
Proof.
  induction s as [|c s IH]; intros acc m H; cbn [dval] in H.
  - injection H as <-. cbn [String.length]. change (N.of_nat 0) with 0. rewrite N.pow_0_r. lia.
  - destruct (digit_value c) as [d|] eqn:D; [|discriminate]. apply digit_lt in D. destruct (IH _ _ H) as [A B]. cbn [String.length]. rewrite pow_step.
    assert (P : 10 ^ N.of_nat (String.length s) <> 0) by (apply N.pow_nonzero; discriminate). set (p := 10 ^ N.of_nat (String.length s)) in *. clearbody p. nia.
Qed.
Lemma show_bounds n : n <> 0 -> exists l, String.length (show_N n) = S l /\ 10 ^ N.of_nat l <= n /\ n < 10 ^ N.of_nat (S l).
Proof.
  intros Nz. destruct (digits_dval _ _ (show_digits n)) as [Ne D]. destruct (show_N n) as [|c s] eqn:E; [congruence|]. exists (String.length s). split; [reflexivity|].
  cbn [dval] in D. destruct (digit_value c) as [d|] eqn:Dc; [|discriminate]. pose proof (digit_lt _ _ Dc) as Ld. apply dval_bounds in D. rewrite pow_step.
  assert (d <> 0). { intros ->. apply Nz. apply (show_head n s). rewrite E. f_equal. clear -Dc. destruct c as [[] [] [] [] [] [] [] []]; try discriminate; reflexivity. }
  assert (P : 10 ^ N.of_nat (String.length s) <> 0) by (apply N.pow_nonzero; discriminate). set (p := 10 ^ N.of_nat (String.length s)) in *. clearbody p. nia.
Qed.

(** ** Numbers that round to a value lie together *)
Local Open Scope Q_scope.
Lemma nearest_between x y z b : nearest x b -> nearest y b -> x <= z -> z <= y -> nearest z b.
Proof.
  intros [A B] [_ B'] L M. split; [exact A|]. intros b' Hb. destruct (N.eq_dec b' b) as [->|Nb]; [split; [apply Qle_refl|congruence]|].
  destruct (B b' Hb) as [X X']. destruct (B' b' Hb) as [Y Y'].
  assert (V : f32_value b < f32_value b' \/ f32_value b' < f32_value b).
  { destruct (N.lt_trichotomy b b') as [K|[K|K]]; [left; now apply value_mono|congruence|right; now apply value_mono]. }
  destruct V as [V|V].
  - assert (K : y <= (f32_value b + f32_value b') / (2 # 1)).
    { revert Y. apply (Qabs_case (y - f32_value b)); apply (Qabs_case (y - f32_value b')); intros; setoid_replace ((f32_value b + f32_value b') / (2 # 1)) with ((f32_value b + f32_value b') * (1 # 2)) by (field); lra. }
    setoid_replace ((f32_value b + f32_value b') / (2 # 1)) with ((f32_value b + f32_value b') * (1 # 2)) in K by (field). split.
    + apply (Qabs_case (z - f32_value b)); apply (Qabs_case (z - f32_value b')); intros; lra.
    + intros E _. apply Y'; [|exact Nb]. assert (Z1 : z == (f32_value b + f32_value b') * (1 # 2)).
      { revert E. apply (Qabs_case (z - f32_value b)); apply (Qabs_case (z - f32_value b')); intros; lra. }
      apply (Qabs_case (y - f32_value b)); apply (Qabs_case (y - f32_value b')); intros; lra.
  - assert (K : (f32_value b + f32_value b') / (2 # 1) <= x).
    { revert X. apply (Qabs_case (x - f32_value b)); apply (Qabs_case (x - f32_value b')); intros; setoid_replace ((f32_value b + f32_value b') / (2 # 1)) with ((f32_value b + f32_value b') * (1 # 2)) by (field); lra. }
    setoid_replace ((f32_value b + f32_value b') / (2 # 1)) with ((f32_value b + f32_value b') * (1 # 2)) in K by (field). split.
    + apply (Qabs_case (z - f32_value b)); apply (Qabs_case (z - f32_value b')); intros; lra.
    + intros E _. apply X'; [|exact Nb]. assert (Z1 : z == (f32_value b + f32_value b') * (1 # 2)).
      { revert E. apply (Qabs_case (z - f32_value b)); apply (Qabs_case (z - f32_value b')); intros; lra. }
      apply (Qabs_case (x - f32_value b)); apply (Qabs_case (x - f32_value b')); intros; lra.
Qed.

(** ** Numbers of [n] digits *)
Lemma pow_pos z : 0 < (10 # 1) ^ z.
Proof. apply Qpower_0_lt. reflexivity. Qed.
Lemma pow_nat z : (0 <= z)%Z -> (10 # 1) ^ z == inject_Z (10 ^ z).
Proof. intros H. change (10 # 1) with (inject_Z 10). symmetry. apply Zpower_Qpower. exact H. Qed.
Lemma scaled_int d e : scaled d e == inject_Z (Z.of_N d) * (10 # 1) ^ e.
Proof. reflexivity. Qed.
Lemma grid n lo E m z : (10 ^ N.of_nat n <= lo)%N -> (m < 10 ^ N.of_nat (S n))%N ->
  (exists M, scaled m z == inject_Z M * (10 # 1) ^ E) \/ scaled m z <= scaled lo E.
Proof.
  intros L M. destruct (Z_le_gt_dec E z) as [H|H].
  - left. exists (Z.of_N m * 10 ^ (z - E))%Z. rewrite scaled_int, inject_Z_mult. rewrite <- pow_nat by lia. replace z with ((z - E) + E)%Z at 1 by lia. rewrite Qpower_plus by discriminate. ring.
  - right. rewrite !scaled_int. replace E with ((E - 1 - z) + 1 + z)%Z by lia. rewrite !Qpower_plus by discriminate. rewrite (pow_nat (E - 1 - z)) by lia. change ((10 # 1) ^ 1) with (10 # 1).
    pose proof (pow_pos z) as P. set (p := (10 # 1) ^ z) in *. clearbody p. rewrite pow_step in M.
    assert (K : (Z.of_N m <= Z.of_N lo * (10 ^ (E - 1 - z) * 10))%Z).
    { assert (Q1 : (0 < 10 ^ (E - 1 - z))%Z) by (apply Z.pow_pos_nonneg; lia). set (q := (10 ^ (E - 1 - z))%Z) in *. clearbody q. assert (A : (Z.of_N m <= Z.of_N lo * 10)%Z) by lia. nia. }
    rewrite Zle_Qle in K. rewrite !inject_Z_mult in K. change (inject_Z 10) with (10 # 1) in K.
    setoid_replace (inject_Z (Z.of_N lo) * (inject_Z (10 ^ (E - 1 - z)) * (10 # 1) * p)) with (inject_Z (Z.of_N lo) * (inject_Z (10 ^ (E - 1 - z)) * (10 # 1)) * p) by ring.
    apply Qmult_le_compat_r; [exact K|]. now apply Qlt_le_weak.
Qed.
Lemma scaled_succ lo E : scaled (lo + 1) E == scaled lo E + (10 # 1) ^ E.
Proof. rewrite !scaled_int, N2Z.inj_add, inject_Z_plus. change (inject_Z (Z.of_N 1)) with 1. ring. Qed.
Lemma grid_below n lo E m z v : (10 ^ N.of_nat n <= lo)%N -> (m < 10 ^ N.of_nat (S n))%N -> scaled m z <= v -> v < scaled (lo + 1) E -> scaled m z <= scaled lo E.
Proof.
  intros L M A B. destruct (grid n lo E m z L M) as [(K & X)|X]; [|exact X]. rewrite X in *. rewrite !scaled_int in *. pose proof (pow_pos E) as P. set (p := (10 # 1) ^ E) in *. clearbody p.
  apply Qmult_le_compat_r; [|now apply Qlt_le_weak]. rewrite <- Zle_Qle. assert (Y : inject_Z K * p < inject_Z (Z.of_N (lo + 1)) * p) by lra. apply Qmult_lt_r in Y; [|exact P]. rewrite <- Zlt_Qlt in Y. lia.
Qed.
Lemma grid_above n lo E m z v : (10 ^ N.of_nat n <= lo)%N -> (m < 10 ^ N.of_nat (S n))%N -> scaled lo E <= v -> v < scaled m z -> scaled (lo + 1) E <= scaled m z.
Proof.
  intros L M A B. destruct (grid n lo E m z L M) as [(K & X)|X]; [|lra]. rewrite X in *. rewrite !scaled_int in *. pose proof (pow_pos E) as P. set (p := (10 # 1) ^ E) in *. clearbody p.
  apply Qmult_le_compat_r; [|now apply Qlt_le_weak]. rewrite <- Zle_Qle. assert (Y : inject_Z (Z.of_N lo) * p < inject_Z K * p) by lra. apply Qmult_lt_r in Y; [|exact P]. rewrite <- Zlt_Qlt in Y. lia.
Qed.
Lemma of_digits_scaled n x : of_digits n x <-> exists m z, (m < 10 ^ N.of_nat n)%N /\ x == scaled m z.
Proof. reflexivity. Qed.

(** ** One length *)
Section Length.
Variables (b d : N) (l : nat).
Hypothesis (B : (b < infinite)%N) (V : f32_value b == scaled d (-149)).
Hypothesis (D1 : (10 ^ N.of_nat l <= d)%N) (D2 : (d < 10 ^ N.of_nat (S l))%N).
Section Fixed.
Variable n : nat.
Hypothesis Hn : (n <= l)%nat.
Definition cstep := (10 ^ N.of_nat (l - n))%N.
Definition estep := (Z.of_nat (l - n) - 149)%Z.
Definition low := (d / cstep)%N.
Lemma cstep_pos : (cstep <> 0)%N.
Proof. apply N.pow_nonzero. discriminate. Qed.
Lemma pow_split : (10 ^ N.of_nat l = 10 ^ N.of_nat n * cstep)%N.
Proof. unfold cstep. rewrite <- N.pow_add_r. f_equal. clear -Hn. lia. Qed.
Lemma low_ge : (10 ^ N.of_nat n <= low)%N.
Proof. unfold low. apply N.div_le_lower_bound; [apply cstep_pos|]. rewrite N.mul_comm, <- pow_split. exact D1. Qed.
Lemma low_lt : (low < 10 ^ N.of_nat (S n))%N.
Proof. unfold low. apply N.div_lt_upper_bound; [apply cstep_pos|]. pose proof pow_split as E. pose proof D2 as D. rewrite pow_step in D |- *. lia. Qed.
Lemma scaled_step x : scaled x estep == inject_Z (Z.of_N (x * cstep)) * (10 # 1) ^ (-149).
Proof.
  rewrite scaled_int. unfold estep, cstep. replace (Z.of_nat (l - n) - 149)%Z with (Z.of_N (N.of_nat (l - n)) + -149)%Z by lia. rewrite Qpower_plus by discriminate. rewrite pow10_Q, N2Z.inj_mul, inject_Z_mult.
  change (Z.of_N (10 ^ N.of_nat (l - n)) # 1) with (inject_Z (Z.of_N (10 ^ N.of_nat (l - n)))). ring.
Qed.
Lemma low_le : scaled low estep <= f32_value b.
Proof.
  rewrite V, scaled_step, scaled_int. apply Qmult_le_compat_r; [|apply Qlt_le_weak, pow_pos]. rewrite <- Zle_Qle. unfold low. pose proof (N.mul_div_le d cstep cstep_pos). lia.
Qed.
Lemma high_gt : f32_value b < scaled (low + 1) estep.
Proof.
  rewrite V, scaled_step, scaled_int. apply Qmult_lt_r; [apply pow_pos|]. rewrite <- Zlt_Qlt. unfold low. pose proof (N.mul_succ_div_gt d cstep cstep_pos). lia.
Qed.
Definition reads x := (f32_of_decimal x estep =? b)%N.
Lemma reads_iff x : reads x = true <-> nearest (scaled x estep) b.
Proof. unfold reads. rewrite N.eqb_eq. split; [intros <-; apply of_decimal_nearest|apply of_decimal_is]. Qed.
Lemma self : nearest (f32_value b) b.
Proof. apply nearest_self. lia. Qed.
Lemma closest_eq : closest b d (S l) (S n) = if reads low then Some (if (reads (low + 1) && (cstep <=? 2 * (d - low * cstep))%N)%bool then ((low + 1)%N, estep) else (low, estep))
  else if reads (low + 1) then Some ((low + 1)%N, estep) else None.
Proof. reflexivity. Qed.
Lemma below x : of_digits (S n) x -> nearest x b -> x <= f32_value b -> reads low = true /\ x <= scaled low estep.
Proof.
  intros (m & z & M & E) N L. assert (X : scaled m z <= scaled low estep) by (apply (grid_below n low estep m z (f32_value b) low_ge M); [now rewrite <- E|apply high_gt]).
  fold (scaled m z) in E. rewrite <- E in X. split; [|exact X]. apply reads_iff. apply (nearest_between x (f32_value b)); [exact N|apply self|exact X|apply low_le].
Qed.
Lemma above x : of_digits (S n) x -> nearest x b -> f32_value b < x -> reads (low + 1) = true /\ scaled (low + 1) estep <= x.
Proof.
  intros (m & z & M & E) N L. assert (X : scaled (low + 1) estep <= scaled m z) by (apply (grid_above n low estep m z (f32_value b) low_ge M); [apply low_le|now rewrite <- E]).
  fold (scaled m z) in E. rewrite <- E in X. split; [|exact X]. apply reads_iff. apply (nearest_between (f32_value b) x); [apply self|exact N|apply Qlt_le_weak, high_gt|exact X].
Qed.
Lemma high_digits : of_digits (S n) (scaled (low + 1) estep).
Proof.
  pose proof low_lt as L. destruct (N.eq_dec (low + 1) (10 ^ N.of_nat (S n))) as [E|E].
  - exists (10 ^ N.of_nat n)%N, (1 + estep)%Z. split; [rewrite pow_step; assert (10 ^ N.of_nat n <> 0)%N by (apply N.pow_nonzero; discriminate); lia|]. rewrite E, pow_step. rewrite Qpower_plus by discriminate.
    rewrite scaled_int, N2Z.inj_mul, inject_Z_mult. change ((10 # 1) ^ 1) with (10 # 1). change (inject_Z (Z.of_N 10)) with (10 # 1). change (Z.of_N (10 ^ N.of_nat n) # 1) with (inject_Z (Z.of_N (10 ^ N.of_nat n))). ring.
  - exists (low + 1)%N, estep. split; [lia|reflexivity].
Qed.
Lemma low_digits : of_digits (S n) (scaled low estep).
Proof. exists low, estep. split; [apply low_lt|reflexivity]. Qed.
Lemma closest_none : closest b d (S l) (S n) = None -> forall x, of_digits (S n) x -> ~ nearest x b.
Proof.
  rewrite closest_eq. destruct (reads low) eqn:R; [discriminate|]. destruct (reads (low + 1)) eqn:R'; [discriminate|]. intros _ x X N.
  destruct (Qlt_le_dec (f32_value b) x) as [L|L]; [apply above in L|apply below in L]; try assumption; destruct L; congruence.
Qed.
Lemma gap_sum : scaled (low + 1) estep - f32_value b == (10 # 1) ^ estep - (f32_value b - scaled low estep).
Proof. rewrite scaled_succ. ring. Qed.
Lemma half : (cstep <=? 2 * (d - low * cstep))%N = true <-> scaled (low + 1) estep - f32_value b <= f32_value b - scaled low estep.
Proof.
  rewrite N.leb_le, V, !scaled_step, scaled_int. pose proof (pow_pos (-149)) as P. set (p := (10 # 1) ^ (-149)) in *. clearbody p.
  assert (A : (low * cstep <= d)%N) by (unfold low; pose proof (N.mul_div_le d cstep cstep_pos); lia).
  set (lw := low) in *. set (c := cstep) in *. clearbody lw c.
  setoid_replace (inject_Z (Z.of_N ((lw + 1) * c)) * p - inject_Z (Z.of_N d) * p) with (inject_Z (Z.of_N ((lw + 1) * c) - Z.of_N d) * p) by (unfold Z.sub; rewrite inject_Z_plus, inject_Z_opp; ring).
  setoid_replace (inject_Z (Z.of_N d) * p - inject_Z (Z.of_N (lw * c)) * p) with (inject_Z (Z.of_N d - Z.of_N (lw * c)) * p) by (unfold Z.sub; rewrite inject_Z_plus, inject_Z_opp; ring).
  rewrite Qmult_le_r by exact P. rewrite <- Zle_Qle. nia.
Qed.
Lemma closest_best m e : closest b d (S l) (S n) = Some (m, e) ->
  of_digits (S n) (scaled m e) /\ nearest (scaled m e) b /\ forall x, of_digits (S n) x -> nearest x b -> Qabs (scaled m e - f32_value b) <= Qabs (x - f32_value b).
Proof.
  rewrite closest_eq. pose proof low_le as L. pose proof high_gt as H. destruct (reads low) eqn:R.
  - destruct (reads (low + 1)) eqn:R'; cbn [andb].
    + destruct (cstep <=? 2 * (d - low * cstep))%N eqn:C; intros [= <- <-].
      * apply half in C. split; [apply high_digits|]. split; [now apply reads_iff|]. intros x X N. destruct (Qlt_le_dec (f32_value b) x) as [K|K].
        -- apply above in K; [|assumption|assumption]. destruct K as [_ K]. rewrite !Qabs_pos by lra. lra.
        -- pose proof K as K0. apply below in K; [|assumption|assumption]. destruct K as [_ K]. rewrite Qabs_pos by lra. rewrite Qabs_neg by lra. lra.
      * assert (C' : f32_value b - scaled low estep <= scaled (low + 1) estep - f32_value b).
        { destruct (Qlt_le_dec (scaled (low + 1) estep - f32_value b) (f32_value b - scaled low estep)) as [Y|Y]; [|exact Y]. apply Qlt_le_weak, half in Y. congruence. }
        split; [apply low_digits|]. split; [now apply reads_iff|]. intros x X N. destruct (Qlt_le_dec (f32_value b) x) as [K|K].
        -- pose proof K as K0. apply above in K; [|assumption|assumption]. destruct K as [_ K]. rewrite Qabs_neg by lra. rewrite Qabs_pos by lra. lra.
        -- pose proof K as K0. apply below in K; [|assumption|assumption]. destruct K as [_ K]. rewrite !Qabs_neg by lra. lra.
    + intros [= <- <-]. split; [apply low_digits|]. split; [now apply reads_iff|]. intros x X N. destruct (Qlt_le_dec (f32_value b) x) as [K|K].
      * apply above in K; [|assumption|assumption]. destruct K; congruence.
      * pose proof K as K0. apply below in K; [|assumption|assumption]. destruct K as [_ K]. rewrite !Qabs_neg by lra. lra.
  - destruct (reads (low + 1)) eqn:R'; [|discriminate]. intros [= <- <-]. split; [apply high_digits|]. split; [now apply reads_iff|]. intros x X N. destruct (Qlt_le_dec (f32_value b) x) as [K|K].
    + pose proof K as K0. apply above in K; [|assumption|assumption]. destruct K as [_ K]. rewrite !Qabs_pos by lra. lra.
    + apply below in K; [|assumption|assumption]. destruct K; congruence.
Qed.
End Fixed.
End Length.

(** ** Nine digits are enough *)
Lemma gap b : (b <> 0)%N -> (f32_units b <= 2 ^ 24 * (f32_units b - f32_units (b - 1)))%N.
Proof.
  intros H. destruct (bits_form (b - 1)) as (k & m & E & Hm & Hk). replace b with (b - 1 + 1)%N at 1 2 by lia. rewrite E. rewrite units_at, units_next by assumption.
  replace ((m + 1) * 2 ^ k - m * 2 ^ k)%N with (2 ^ k)%N by lia. apply N.mul_le_mono_r. lia.
Qed.
Lemma value_gap b : (b <> 0)%N -> f32_value b <= (16777216 # 1) * (f32_value b - f32_value (b - 1)).
Proof.
  intros H. pose proof (gap b H) as G. assert (L : (f32_units (b - 1) <= f32_units b)%N) by (apply units_le; lia). rewrite !value_units. change (2 ^ 24)%N with 16777216%N in G.
  set (u := f32_units b) in *. set (w := f32_units (b - 1)) in *. clearbody u w. generalize den149. intros p. unfold Qle, Qminus, Qplus, Qopp, Qmult. cbn [Qnum Qden]. nia.
Qed.
Lemma nine b d l : (b < infinite)%N -> (b <> 0)%N -> f32_value b == scaled d (-149) -> (10 ^ N.of_nat l <= d)%N -> (d < 10 ^ N.of_nat (S l))%N -> (8 <= l)%nat ->
  closest b d (S l) 9 <> None.
Proof.
  intros B Nz V D1 D2 L. rewrite (closest_eq b d l 8). assert (R : reads b l 8 (low d l 8) = true).
  2: { rewrite R. discriminate. }
  apply (reads_iff b d l B V 8). pose proof (low_le b d l B V D1 D2 8 L) as A. pose proof (high_gt b d l B V D1 D2 8 L) as H. rewrite scaled_succ in H.
  assert (S : (100000000 # 1) * (10 # 1) ^ estep l 8 <= f32_value b).
  { rewrite V. assert (E : (10 # 1) ^ estep l 8 == scaled 1 (estep l 8)) by (rewrite scaled_int; change (inject_Z (Z.of_N 1)) with 1; ring). rewrite E, (scaled_step b d l B D1 D2 8 L), scaled_int.
    pose proof (pow_pos (-149)) as P0. set (p := (10 # 1) ^ (-149)) in *. clearbody p.
    setoid_replace ((100000000 # 1) * (inject_Z (Z.of_N (1 * cstep l 8)) * p)) with (inject_Z (100000000 * Z.of_N (1 * cstep l 8)) * p) by (rewrite inject_Z_mult; change (inject_Z 100000000) with (100000000 # 1); ring).
    apply Qmult_le_compat_r; [|apply Qlt_le_weak, P0]. rewrite <- Zle_Qle. pose proof (pow_split l 8 L) as P. change (10 ^ N.of_nat 8)%N with 100000000%N in P. lia. }
  pose proof (value_gap b Nz) as G. set (e := (10 # 1) ^ estep l 8) in *. clearbody e. set (x := scaled (low d l 8) (estep l 8)) in *. clearbody x. clear V D1 D2.
  split; [lia|]. intros b' Hb. destruct (N.lt_trichotomy b' b) as [K|[->|K]]; [|split; [apply Qle_refl|congruence]|].
  - assert (K' : f32_value b' <= f32_value (b - 1)) by (destruct (N.eq_dec b' (b - 1)) as [->|Nb]; [apply Qle_refl|apply Qlt_le_weak, value_mono; lia]).
    assert (S' : Qabs (x - f32_value b) < Qabs (x - f32_value b')) by (rewrite Qabs_neg by lra; rewrite Qabs_pos by lra; lra). split; [now apply Qlt_le_weak|]. intros E. rewrite E in S'. exfalso. now apply Qlt_irrefl in S'.
  - apply value_mono in K. assert (S' : Qabs (x - f32_value b) < Qabs (x - f32_value b')) by (rewrite !Qabs_neg by lra; lra). split; [now apply Qlt_le_weak|]. intros E. rewrite E in S'. exfalso. now apply Qlt_irrefl in S'.
Qed.
Lemma of_digits_none b : (b <> 0)%N -> forall x, of_digits 0 x -> ~ nearest x b.
Proof.
  intros H x (m & z & M & E) N. assert (m = 0%N) by (change (10 ^ N.of_nat 0)%N with 1%N in M; lia). subst m. apply H. apply (nearest_unique x); [exact N|].
  eapply nearest_eq; [|apply (nearest_self 0); discriminate]. rewrite E. change (Z.of_N 0 # 1) with 0. change (f32_value 0) with (0 * (1 # (2 ^ 149))). ring.
Qed.
Lemma shortest_from_is b d l todo : (b < infinite)%N -> (b <> 0)%N -> f32_value b == scaled d (-149) -> (10 ^ N.of_nat l <= d)%N -> (d < 10 ^ N.of_nat (S l))%N -> (8 <= l)%nat ->
  forall n m e, (n + todo = 9)%nat -> (n <= 8)%nat -> (forall n' x, (n' <= n)%nat -> of_digits n' x -> ~ nearest x b) -> shortest_from b d (S l) (S n) todo = (m, e) -> shortest_number b (scaled m e).
Proof.
  intros B Nz V D1 D2 L. induction todo as [|todo IH]; intros n m e T Hn None_ H; [lia|]. cbn [shortest_from] in H.
  destruct (closest b d (S l) (S n)) as [[m' e']|] eqn:C.
  - injection H as <- <-. destruct (closest_best b d l B V D1 D2 n ltac:(lia) _ _ C) as (A1 & A2 & A3). exists (S n). split; [exact A1|]. split; [exact A2|]. intros n' x' X N. split.
    + destruct (Nat.le_gt_cases n' n) as [K|K]; [exfalso; now apply (None_ n' x' K)|exact K].
    + intros ->. now apply A3.
  - assert (n <> 8%nat) by (intros ->; now apply (nine b d l B Nz V D1 D2 L)). apply (IH (S n) m e); [lia|lia| |exact H].
    intros n' x K X. destruct (Nat.eq_dec n' (S n)) as [->|Ne]; [|apply (None_ n' x ltac:(lia) X)]. revert x X. apply (closest_none b d l B V D1 D2 n ltac:(lia) C).
Qed.
Lemma shortest_is b m e : (b < infinite)%N -> (b <> 0)%N -> shortest b = (m, e) -> shortest_number b (scaled m e).
Proof.
  intros B Nz H. unfold shortest in H. cbv zeta in H. assert (V : f32_value b == scaled (f32_units b * 5 ^ 149) (-149)) by (rewrite value_units; symmetry; apply scaled_units).
  assert (U : (0 < f32_units b)%N) by (change 0%N with (f32_units 0); apply units_mono; lia).
  assert (G : (10 ^ 9 <= f32_units b * 5 ^ 149)%N) by (assert (10 ^ 9 <= 5 ^ 149)%N by (vm_compute; discriminate); set (f := (5 ^ 149)%N) in *; clearbody f; nia).
  set (d := (f32_units b * 5 ^ 149)%N) in *. clearbody d. destruct (show_bounds d) as (l & E & D1 & D2); [intros ->; vm_compute in G; now apply G|]. rewrite E in H.
  assert (L : (8 <= l)%nat).
  { destruct (Nat.le_gt_cases 8 l) as [K|K]; [exact K|]. exfalso. assert (10 ^ N.of_nat (S l) <= 10 ^ 9)%N by (apply N.pow_le_mono_r; [discriminate|lia]). lia. }
  apply (shortest_from_is b d l 9 B Nz V D1 D2 L 0 m e eq_refl ltac:(lia)); [|exact H]. intros n' x K X. assert (n' = 0)%nat by lia. subst n'. now apply of_digits_none.
Qed.

(** ** Zeros *)
Lemma last_char a c r k : a +++ String c "" = r +++ String k "" -> c = k.
Proof.
  revert r. induction a as [|x a IH]; intros [|y r] H; cbn [append] in H; try congruence.
  - injection H as _ H. destruct r; discriminate H.
  - injection H as _ H. destruct a; discriminate H.
  - injection H as _ H. now apply IH in H.
Qed.
Lemma show_tidy n : tidy (show_N n).
Proof.
  exists (show_N n), "". split; [apply show_N_nonempty|]. split; [|left; now split].
  destruct (N.eq_dec n 0) as [->|H]; [now left|right]. intros r E. apply H. eapply show_head, E.
Qed.
Lemma strip_zeros_last n : forall d d' n', strip_zeros d n = (d', S n') -> (d' mod 10 <> 0)%N.
Proof.
  induction n as [|n IH]; intros d d' n' H; cbn [strip_zeros] in H; [discriminate|]. destruct (d mod 10 =? 0)%N eqn:E; [now apply IH in H|]. injection H as <- _. now apply N.eqb_neq.
Qed.
Lemma digit_not_zero x : (x < 10)%N -> (x <> 0)%N -> digit_char x <> "0"%char.
Proof. intros L H E. assert (D := digit_char_value x L). rewrite E in D. injection D as D. now apply H. Qed.
Lemma show_decimal_tidy d e : tidy (show_decimal d e).
Proof.
  unfold show_decimal. destruct e as [|p|p]; try apply show_tidy. destruct (strip_zeros d (Pos.to_nat p)) as [d' n] eqn:E. unfold show_point. cbv zeta. destruct n as [|n].
  - change (10 ^ N.of_nat 0)%N with 1%N. rewrite N.div_1_r, append_nil_r. apply show_tidy.
  - pose proof (strip_zeros_last _ _ _ _ E) as Z. destruct (show_tidy (d' / 10 ^ N.of_nat (S n))) as (a & b & A1 & A2 & A3).
    assert (A : show_N (d' / 10 ^ N.of_nat (S n)) <> "") by apply show_N_nonempty.
    exists (show_N (d' / 10 ^ N.of_nat (S n))), (pad (S n) (d' mod 10 ^ N.of_nat (S n))). split; [exact A|]. split.
    + destruct (N.eq_dec (d' / 10 ^ N.of_nat (S n)) 0) as [X|X]; [left; now rewrite X|right]. intros r R. apply X. eapply show_head, R.
    + right. split; [reflexivity|]. cbn [pad]. split; [intros X; destruct (pad n (d' mod 10 ^ N.of_nat (S n) / 10)); discriminate X|]. intros r R. apply last_char in R. revert R.
      apply digit_not_zero; [apply N.mod_lt; discriminate|]. rewrite pow_step. rewrite N.mod_mul_r by (try discriminate; apply N.pow_nonzero; discriminate).
      rewrite (N.mul_comm 10 (_ mod _)), N.mod_add by discriminate. now rewrite N.mod_mod by discriminate.
Qed.
Lemma shortest_eq b x y : x == y -> shortest_number b x -> shortest_number b y.
Proof.
  intros E (n & (m & z & M & X) & N & H). exists n. split; [exists m, z; split; [exact M|now rewrite <- E]|]. split; [now apply (nearest_eq x)|]. intros n' x' A B. rewrite <- E. now apply H.
Qed.
Lemma show_shortest neg b : (b < infinite)%N -> exists t m k, show_f32 (with_bit neg b) = (if neg then "-" else "") +++ t /\ unsigned_form t m k /\ shortest_number b (fraction m k) /\ tidy t.
Proof.
  intros H. destruct (bits_split neg b ltac:(lia)) as [E1 E2]. unfold show_f32. cbv zeta. rewrite E1, E2.
  rewrite infinite_inf in H. replace (f32_inf <? b)%N with false by (symmetry; apply N.ltb_ge; lia). replace (b =? f32_inf)%N with false by (symmetry; apply N.eqb_neq; lia).
  destruct (b =? 0)%N eqn:Z0.
  - apply N.eqb_eq in Z0. subst b. exists "0", 0%N, O. split; [reflexivity|]. split; [apply uf_plain, parse_digits_iff; reflexivity|]. split; [|exact (show_tidy 0)].
    exists O. assert (F : fraction 0 0 == f32_value 0) by reflexivity. split; [exists 0%N, 0%Z; split; reflexivity|]. split; [eapply nearest_eq; [symmetry; exact F|apply (nearest_self 0); discriminate]|].
    intros n' x' _ _. split; [lia|]. intros _. rewrite F. setoid_replace (f32_value 0 - f32_value 0) with 0 by ring. apply Qabs_nonneg.
  - apply N.eqb_neq in Z0. destruct (shortest b) as [d e] eqn:S. apply shortest_is in S; [|exact H|exact Z0]. destruct (show_decimal_form d e) as (m & k & U & F).
    exists (show_decimal d e), m, k. split; [reflexivity|]. split; [exact U|]. split; [|apply show_decimal_tidy]. eapply shortest_eq; [symmetry; exact F|exact S].
Qed.
