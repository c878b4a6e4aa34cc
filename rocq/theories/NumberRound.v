(** * NumberRound: what is written is read back (proofs for C73) *)
From Verif Require Import Base TextSpec NumProof LexSpec Numbers NumberSpec NumberLibs NumberProof NumberText.
From Coq Require Import QArith Qabs Qpower Lia Lqa.
Local Open Scope N_scope.

(** ** f32 *)
Lemma closest_reads b d len n m e : closest b d len n = Some (m, e) -> f32_of_decimal m e = b.
Proof.
  unfold closest. cbv zeta. set (c := 10 ^ N.of_nat (len - n)). set (e0 := (Z.of_nat (len - n) - 149)%Z). clearbody c e0.
  destruct (f32_of_decimal (d / c) e0 =? b) eqn:E1.
  - destruct (f32_of_decimal (d / c + 1) e0 =? b) eqn:E2; cbn [andb]; [destruct (c <=? _)|]; intros [= <- <-]; now apply N.eqb_eq.
  - destruct (f32_of_decimal (d / c + 1) e0 =? b) eqn:E2; [|discriminate]. intros [= <- <-]. now apply N.eqb_eq.
Qed.
Lemma scaled_units u : (scaled (u * 5 ^ 149) (-149) == Z.of_N u # den149)%Q.
Proof.
  unfold scaled. change (-149)%Z with (Zneg 149). rewrite pow10_neg. rewrite N2Z.inj_mul.
  assert (E : (10 ^ 149)%positive = (5 ^ 149 * den149)%positive) by (vm_compute; reflexivity). rewrite E.
  change (Z.of_N (5 ^ 149)) with (Zpos (5 ^ 149)). generalize (5 ^ 149)%positive. generalize den149. generalize (Z.of_N u). clear. intros z p q.
  unfold Qeq, Qmult. cbn [Qnum Qden]. lia.
Qed.
Lemma shortest_from_reads b d todo : b <= f32_inf -> d = f32_units b * 5 ^ 149 -> forall len n m e,
  shortest_from b d len n todo = (m, e) -> f32_of_decimal m e = b.
Proof.
  intros B D. induction todo as [|todo IH]; intros len n m e; cbn [shortest_from].
  - intros [= <- <-]. apply of_decimal_is. eapply nearest_eq; [|apply (nearest_self b B)]. subst d. rewrite value_units. symmetry. apply scaled_units.
  - destruct (closest b d len n) as [[m' e']|] eqn:E; [intros [= <- <-]; eapply closest_reads, E|apply IH].
Qed.
Lemma shortest_reads b m e : b <= f32_inf -> shortest b = (m, e) -> f32_of_decimal m e = b.
Proof. intros B. unfold shortest. cbv zeta. intros H. exact (shortest_from_reads b _ 9 B eq_refl _ _ _ _ H). Qed.
Lemma strip_zeros_value n : forall d d' n', strip_zeros d n = (d', n') -> (n' <= n)%nat /\ d = d' * 10 ^ N.of_nat (n - n').
Proof.
  induction n as [|n IH]; intros d d' n'; cbn [strip_zeros].
  - intros [= <- <-]. split; [lia|]. cbn. lia.
  - destruct (d mod 10 =? 0) eqn:E; [|intros [= <- <-]; split; [lia|rewrite Nat.sub_diag; cbn; lia]].
    intros H. apply IH in H. destruct H as [L H]. split; [lia|]. apply N.eqb_eq in E. pose proof (N.div_mod d 10 ltac:(discriminate)) as D. rewrite E, H in D.
    replace (S n - n')%nat with (S (n - n')) by lia. rewrite Nat2N.inj_succ, N.pow_succ_r'. lia.
Qed.
Lemma fraction_strip d' j n : (fraction d' n == scaled (d' * 10 ^ N.of_nat j) (- Z.of_nat (n + j)))%Q.
Proof.
  unfold fraction, scaled. replace (- Z.of_nat n)%Z with (Z.of_N (N.of_nat j) + (- Z.of_nat (n + j)))%Z by lia. rewrite Qpower_plus by discriminate. rewrite pow10_Q, N2Z.inj_mul.
  setoid_replace (Z.of_N d' * Z.of_N (10 ^ N.of_nat j) # 1)%Q with ((Z.of_N d' # 1) * (Z.of_N (10 ^ N.of_nat j) # 1))%Q by reflexivity. ring.
Qed.
Lemma show_decimal_form d e : exists m k, unsigned_form (show_decimal d e) m k /\ (fraction m k == scaled d e)%Q.
Proof.
  unfold show_decimal. assert (P : forall z, (0 <= z)%Z -> exists m k, unsigned_form (show_N (d * 10 ^ Z.to_N z)) m k /\ (fraction m k == scaled d z)%Q).
  { intros z L. eexists _, O. split; [apply uf_plain, show_digits|]. unfold fraction, scaled. change ((10 # 1) ^ (- Z.of_nat 0))%Q with 1%Q.
    rewrite <- (Z2N.id z L) at 2. rewrite pow10_Q, N2Z.inj_mul. unfold Qeq, Qmult. cbn [Qnum Qden]. lia. }
  destruct e as [|p|p]; [apply P; lia|apply P; lia|]. destruct (strip_zeros d (Pos.to_nat p)) as [d' n] eqn:E. apply strip_zeros_value in E. destruct E as [L E].
  exists d', n. split; [apply show_point_form|]. rewrite (fraction_strip d' (Pos.to_nat p - n) n). rewrite <- E. replace (n + (Pos.to_nat p - n))%nat with (Pos.to_nat p) by lia.
  rewrite positive_nat_Z. reflexivity.
Qed.
Lemma bits_split neg b : b <= infinite -> with_bit neg b mod f32_minus = b /\ (f32_minus <=? with_bit neg b) = neg.
Proof.
  intros H. assert (L : b < f32_minus) by (eapply N.le_lt_trans; [exact H|reflexivity]). destruct neg; cbn [with_bit].
  - change sign_bit with f32_minus. split.
    + replace (f32_minus + b) with (b + 1 * f32_minus) by lia. rewrite N.mod_add by discriminate. now apply N.mod_small.
    + apply N.leb_le. lia.
  - split; [now apply N.mod_small|]. now apply N.leb_gt.
Qed.
Lemma with_minus (neg : bool) t : with_sign ((if neg then "-" else "") +++ t) neg t.
Proof. destruct neg; constructor. Qed.
Lemma show_finite neg b : b < infinite -> float_form (show_f32 (with_bit neg b)) (with_bit neg b).
Proof.
  intros H. destruct (bits_split neg b ltac:(lia)) as [E1 E2]. unfold show_f32. cbv zeta. rewrite E1, E2.
  rewrite infinite_inf in H. replace (f32_inf <? b) with false by (symmetry; apply N.ltb_ge; lia). replace (b =? f32_inf) with false by (symmetry; apply N.eqb_neq; lia).
  destruct (b =? 0) eqn:Z0.
  - apply N.eqb_eq in Z0. subst b. apply ff_number with (t := "0") (n := 0) (k := O); [apply with_minus|apply uf_plain, parse_digits_iff; reflexivity|].
    eapply nearest_eq; [|apply (nearest_self 0); discriminate]. reflexivity.
  - destruct (shortest b) as [d e] eqn:S. apply shortest_reads in S; [|lia]. destruct (show_decimal_form d e) as (m & k & U & F).
    eapply ff_number; [apply with_minus|exact U|]. rewrite <- S. eapply nearest_eq; [symmetry; exact F|]. apply of_decimal_nearest.
Qed.
Lemma f32_back n : number_bits n \/ n = nan_bits -> parse_f32 (show_f32 n) = Some n.
Proof.
  intros [(neg & b & -> & L)| ->]; [|reflexivity]. destruct (N.lt_ge_cases b infinite) as [H|H]; [now apply float_read, show_finite|].
  replace b with infinite by lia. destruct neg; reflexivity.
Qed.
Lemma f32_bits s n : parse_f32 s = Some n -> number_bits n \/ n = nan_bits.
Proof.
  rewrite parse_f32_eq. destruct (split_sign s) as [neg t]. unfold words. destruct (orb _ _).
  - intros [= <-]. left. exists neg, infinite. split; [destruct neg; reflexivity|discriminate].
  - destruct (_ =?s "nan"); [intros [= <-]; now right|]. destruct (parse_number t) as [[m e]|]; [|discriminate]. intros [= <-]. left. exists neg, (f32_of_decimal m e).
    split; [reflexivity|]. apply (of_decimal_nearest m e).
Qed.

(** ** Decimal *)
Lemma dval_ge s : forall a m, dval s a = Some m -> a <= m.
Proof.
  induction s as [|c s IH]; intros a m H; cbn [dval] in H; [injection H as <-; lia|].
  destruct (digit_value c) as [d|]; [|discriminate]. apply IH in H. lia.
Qed.
Lemma dec_digits_int a : forall r has data m, dval a data = Some m -> m < 2 ^ 96 ->
  dec_digits (a +++ r) false has data 0 = dec_digits r false (orb has (negb (a =?s ""))) m 0.
Proof.
  induction a as [|c a IH]; intros r has data m D L; cbn [append].
  - injection D as <-. cbn. now rewrite Bool.orb_false_r.
  - cbn [dval] in D. destruct (digit_value c) as [d|] eqn:E; [|discriminate]. cbn [dec_digits andb]. rewrite char_digit_value, E. cbv zeta. replace (data * 10 + d) with (10 * data + d) by lia.
    pose proof (dval_ge _ _ _ D) as G. replace (10 * data + d <? 2 ^ 96) with true by (symmetry; apply N.ltb_lt; lia).
    rewrite (IH r true _ m D L). cbn. now rewrite Bool.orb_true_r.
Qed.
Lemma dec_digits_frac b : forall has data scale m, dval b data = Some m -> m < 2 ^ 96 -> scale + N.of_nat (String.length b) <= 28 ->
  orb has (negb (b =?s "")) = true -> dec_digits b true has data scale = Some (m, scale + N.of_nat (String.length b)).
Proof.
  induction b as [|c b IH]; intros has data scale m D L S H.
  - injection D as <-. cbn in H. rewrite Bool.orb_false_r in H. subst has. cbn [dec_digits String.length]. f_equal. f_equal. cbn. lia.
  - cbn [dval] in D. destruct (digit_value c) as [d|] eqn:E; [|discriminate]. cbn [String.length] in S |- *. cbn [dec_digits andb]. replace (28 <=? scale) with false by (symmetry; apply N.leb_gt; lia).
    rewrite char_digit_value, E. cbv zeta. replace (data * 10 + d) with (10 * data + d) by lia. pose proof (dval_ge _ _ _ D) as G. replace (10 * data + d <? 2 ^ 96) with true by (symmetry; apply N.ltb_lt; lia).
    rewrite (IH true _ (scale + 1) m D L) by (lia || reflexivity). f_equal. f_equal. lia.
Qed.
Lemma dval_app a b acc : dval (a +++ b) acc = match dval a acc with Some m => dval b m | None => None end.
Proof. revert acc. induction a as [|c a IH]; intros acc; cbn [append dval]; [reflexivity|]. destruct (digit_value c); [apply IH|reflexivity]. Qed.
Lemma dec_digits_form t n k : unsigned_form t n k -> n < 2 ^ 96 -> (k <= 28)%nat -> dec_digits t false false 0 0 = Some (n, N.of_nat k).
Proof.
  intros U L K. destruct (unsigned_digits _ _ _ U) as (a & b & D & -> & T). apply digits_dval in D. destruct D as (Ne & D). rewrite dval_app in D.
  destruct (dval a 0) as [m|] eqn:E; [|discriminate]. pose proof (dval_ge _ _ _ D) as G. destruct T as [-> |[-> ->]].
  - rewrite (dec_digits_int a _ false 0 m E) by lia. cbn [dec_digits andb].
    change (char_digit ".") with (@None N). cbn [Ascii.eqb Bool.eqb andb negb]. rewrite (dec_digits_frac b _ m 0 n D L); [|lia|destruct a; [destruct b; [now cbn in Ne|reflexivity]|reflexivity]].
    repeat f_equal.
  - cbn [dval] in D. injection D as <-. rewrite append_nil_r in Ne. rewrite <- (append_nil_r a), (dec_digits_int a "" false 0 m E) by lia. destruct a; [now cbn in Ne|]. reflexivity.
Qed.
Lemma parse_dec_eq s : parse_dec s = let '(neg, t) := split_sign s in
  option_map (fun '(m, k) => mkDec (andb neg (negb (m =? 0))) m k) (dec_digits t false false 0 0).
Proof. reflexivity. Qed.
Lemma dec_read s neg t n k : with_sign s neg t -> unsigned_form t n k -> n < 2 ^ 96 -> (k <= 28)%nat ->
  parse_dec s = Some (mkDec (andb neg (negb (n =? 0))) n (N.of_nat k)).
Proof.
  intros W U L K. rewrite parse_dec_eq. destruct (unsigned_head t n k "" U) as (c & s0 & E & H). rewrite append_nil_r in E. rewrite E in W. rewrite (split_sign_number _ _ _ _ W H), <- E.
  now rewrite (dec_digits_form t n k U L K).
Qed.
Lemma dec_value_zero_sign neg n k : (dec_value (mkDec (andb neg (negb (n =? 0))) n (N.of_nat k)) == signed neg (fraction n k))%Q.
Proof.
  unfold dec_value. cbn [dec_neg dec_mant dec_scale]. rewrite Nat2N.id. destruct (N.eqb_spec n 0) as [->|Nz]; cbn [negb]; [|now rewrite Bool.andb_true_r].
  rewrite Bool.andb_false_r. unfold fraction. change (Z.of_N 0 # 1)%Q with 0%Q. destruct neg; cbn [signed]; ring.
Qed.
Lemma show_dec_form d : with_sign (show_dec d) (dec_neg d) (show_point (dec_mant d) (N.to_nat (dec_scale d))).
Proof. unfold show_dec. apply with_minus. Qed.
Lemma dec_back d : dec_valid d -> parse_dec (show_dec d) = Some d.
Proof.
  intros (L & S & Z0). rewrite (dec_read _ _ _ _ _ (show_dec_form d) (show_point_form _ _) L) by lia. rewrite N2Nat.id. destruct d as [neg m k]. cbn [dec_neg dec_mant dec_scale] in *.
  repeat f_equal. destruct neg; [|reflexivity]. cbn [andb]. destruct (N.eqb_spec m 0) as [->|]; [now destruct Z0|reflexivity].
Qed.
(** Whatever is accepted is a valid [Decimal]. *)
Lemma dec_digits_valid s : forall point has data scale m k, dec_digits s point has data scale = Some (m, k) ->
  data < 2 ^ 96 -> scale <= 28 -> m < 2 ^ 96 /\ k <= 28.
Proof.
  assert (R : forall data scale d m k, dec_round data scale d = Some (m, k) -> data < 2 ^ 96 -> scale <= 28 -> m < 2 ^ 96 /\ k <= 28).
  { intros data scale d m k H L S. unfold dec_round in H. set (x := if 5 <=? d then data + 1 else data) in H.
    assert (X : x <= data + 1) by (unfold x; destruct (5 <=? d); lia). clearbody x. destruct (N.ltb_spec x (2 ^ 96)) as [Lx|Gx]; [injection H as <- <-; auto|].
    destruct (scale =? 0); [discriminate|]. injection H as <- <-. split; [|lia]. apply N.div_lt_upper_bound; [discriminate|]. change (2 ^ 96) with 79228162514264337593543950336 in *. lia. }
  induction s as [|c s IH]; intros point has data scale m k H L S; cbn [dec_digits] in H.
  - destruct has; [injection H as <- <-; auto|discriminate].
  - destruct (andb point (28 <=? scale)) eqn:A.
    + destruct (char_digit c); [eapply R; eauto|]. destruct (orb _ _); [injection H as <- <-; auto|discriminate].
    + destruct (char_digit c) as [d|].
      * cbv zeta in H. destruct (N.ltb_spec (data * 10 + d) (2 ^ 96)) as [Ln|Gn].
        -- eapply IH; [exact H|exact Ln|]. destruct point; [|lia]. cbn [andb] in A. apply N.leb_gt in A. lia.
        -- destruct point; [eapply R; eauto|discriminate].
      * destruct (andb (Ascii.eqb c ".") (negb point)); [eapply IH; eauto|]. destruct (andb _ has); [eapply IH; eauto|discriminate].
Qed.
Lemma parse_dec_valid s d : parse_dec s = Some d -> dec_valid d.
Proof.
  rewrite parse_dec_eq. destruct (split_sign s) as [neg t]. destruct (dec_digits t false false 0 0) as [[m k]|] eqn:E; [|discriminate]. intros [= <-].
  apply dec_digits_valid in E; [|reflexivity|discriminate]. destruct E as [L K]. split; [exact L|]. split; [exact K|]. cbn [dec_neg dec_mant]. intros H. apply Bool.andb_true_iff in H. destruct H as [_ H].
  apply Bool.negb_true_iff, N.eqb_neq in H. exact H.
Qed.

(** Accepted texts that are short enough for every digit to count. *)
Definition no_char (c : ascii) (s : string) : Prop := ~ In c (list_ascii_of_string s).
Lemma pow_step n : 10 ^ N.of_nat (S n) = 10 * 10 ^ N.of_nat n.
Proof. rewrite Nat2N.inj_succ. apply N.pow_succ_r'. Qed.
Lemma room data d x m : (data + 1) * (10 * x) <= m -> d < 10 -> x <> 0 -> (10 * data + d + 1) * x <= m.
Proof. nia. Qed.
Lemma room_lt data x m : (data + 1) * x <= m -> x <> 0 -> data < m.
Proof. nia. Qed.
Lemma digit_lt c d : digit_value c = Some d -> d < 10.
Proof. destruct c as [[] [] [] [] [] [] [] []]; try discriminate; intros [= <-]; reflexivity. Qed.
Lemma frac_meaning s : forall has data scale m k, no_char "_" s -> (data + 1) * 10 ^ N.of_nat (String.length s) <= 2 ^ 96 ->
  scale + N.of_nat (String.length s) <= 28 -> dec_digits s true has data scale = Some (m, k) ->
  dval s data = Some m /\ k = scale + N.of_nat (String.length s) /\ orb has (negb (s =?s "")) = true.
Proof.
  induction s as [|c s IH]; intros has data scale m k U R S H; cbn [dec_digits] in H.
  - destruct has; [|discriminate]. injection H as <- <-. split; [reflexivity|]. split; [cbn; lia|reflexivity].
  - cbn [String.length] in R, S. rewrite pow_step in R. assert (P : 10 ^ N.of_nat (String.length s) <> 0) by (apply N.pow_nonzero; discriminate).
    cbn [andb] in H. replace (28 <=? scale) with false in H by (symmetry; apply N.leb_gt; lia). rewrite char_digit_value in H. destruct (digit_value c) as [d|] eqn:E.
    + pose proof (digit_lt _ _ E) as Ld. pose proof (room _ _ _ _ R Ld P) as R'. pose proof (room_lt _ _ _ R' P) as L. cbv zeta in H. replace (data * 10 + d) with (10 * data + d) in H by lia.
      replace (10 * data + d <? 2 ^ 96) with true in H by (symmetry; now apply N.ltb_lt). apply IH in H; [|intros X; apply U; right; exact X|exact R'|lia].
      destruct H as (D & -> & _). cbn [dval String.length]. rewrite E. split; [exact D|]. split; [lia|]. apply Bool.orb_true_r.
    + cbn [negb] in H. rewrite Bool.andb_false_r in H. destruct (Ascii.eqb_spec c "_") as [-> |N]; [exfalso; apply U; now left|discriminate].
Qed.
Lemma int_meaning s : forall has data m k, no_char "_" s -> (data + 1) * 10 ^ N.of_nat (String.length s) <= 2 ^ 96 ->
  (String.length s <= 28)%nat -> dec_digits s false has data 0 = Some (m, k) ->
  exists a b, dval (a +++ b) data = Some m /\ k = N.of_nat (String.length b) /\ orb has (negb (a +++ b =?s "")) = true
    /\ (s = a +++ String "." b \/ (s = a /\ b = "")).
Proof.
  induction s as [|c s IH]; intros has data m k U R S H; cbn [dec_digits] in H.
  - destruct has; [|discriminate]. injection H as <- <-. exists "", "". repeat split; auto.
  - cbn [String.length] in R, S. rewrite pow_step in R. assert (P : 10 ^ N.of_nat (String.length s) <> 0) by (apply N.pow_nonzero; discriminate).
    cbn [andb] in H. rewrite char_digit_value in H. destruct (digit_value c) as [d|] eqn:E.
    + pose proof (digit_lt _ _ E) as Ld. pose proof (room _ _ _ _ R Ld P) as R'. pose proof (room_lt _ _ _ R' P) as L. cbv zeta in H. replace (data * 10 + d) with (10 * data + d) in H by lia.
      replace (10 * data + d <? 2 ^ 96) with true in H by (symmetry; now apply N.ltb_lt). apply IH in H; [|intros X; apply U; right; exact X|exact R'|lia].
      destruct H as (a & b & D & -> & _ & T). exists (String c a), b. cbn [append dval]. rewrite E. split; [exact D|]. split; [reflexivity|]. split; [apply Bool.orb_true_r|].
      destruct T as [-> |[-> ->]]; auto.
    + destruct (Ascii.eqb_spec c ".") as [-> |Nd]; cbn [andb negb] in H.
      * apply frac_meaning in H; [|intros X; apply U; right; exact X|nia|lia]. destruct H as (D & -> & O). exists "", s. auto.
      * destruct (Ascii.eqb_spec c "_") as [-> |N]; [exfalso; apply U; now left|discriminate].
Qed.
Lemma short_room n : (n <= 28)%nat -> (0 + 1) * 10 ^ N.of_nat n <= 2 ^ 96.
Proof.
  intros L. assert (A : 10 ^ N.of_nat n <= 10 ^ 28) by (apply N.pow_le_mono_r; [discriminate|lia]).
  assert (B : 10 ^ 28 <= 2 ^ 96) by (apply N.leb_le; vm_compute; reflexivity). revert A B. generalize (10 ^ N.of_nat n) (10 ^ 28) (2 ^ 96). intros; lia.
Qed.
Lemma short_unsigned t m k : no_char "_" t -> (String.length t <= 28)%nat -> dec_digits t false false 0 0 = Some (m, k) -> unsigned_form t m (N.to_nat k).
Proof.
  intros U S H. apply int_meaning in H; [|exact U| |exact S].
  - destruct H as (a & b & D & -> & O & T). cbn [orb] in O. rewrite Nat2N.id.
    assert (G : digits (a +++ b) m) by (apply dval_digits; [intros X; rewrite X in O; discriminate|exact D]).
    destruct T as [-> |[-> ->]]; [exact (uf_point a b m G)|]. rewrite append_nil_r in G. now apply uf_plain.
  - apply short_room, S.
Qed.
Lemma dec_meaning s d : parse_dec s = Some d -> no_char "_" s -> (String.length s <= 28)%nat -> decimal_form s (dec_value d).
Proof.
  rewrite parse_dec_eq. destruct (split_sign s) as [neg t] eqn:Sp. apply split_sign_spec in Sp. destruct (dec_digits t false false 0 0) as [[m k]|] eqn:E; [|discriminate].
  intros [= <-] U S. apply short_unsigned in E.
  - eapply df; [exact Sp|exact E|]. rewrite <- (N2Nat.id k) at 1. apply dec_value_zero_sign.
  - inversion Sp; subst; [exact U|intros X; apply U; right; exact X|intros X; apply U; right; exact X].
  - inversion Sp; subst; cbn [String.length] in S; lia.
Qed.
