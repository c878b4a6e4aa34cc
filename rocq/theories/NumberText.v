(** * NumberText: reading and writing numbers *)
From Verif Require Import Base TextSpec LexSpec Numbers NumberSpec NumProof NumberProof.
From Coq Require Import QArith Qabs Qpower Lqa.
Local Open Scope N_scope.

Lemma pow10_Q (n : N) : ((10 # 1) ^ Z.of_N n == Z.of_N (10 ^ n) # 1)%Q.
Proof.
  rewrite N2Z.inj_pow. change (Z.of_N 10) with 10%Z. symmetry. change (10 # 1)%Q with (inject_Z 10). change (10 ^ Z.of_N n # 1)%Q with (inject_Z (10 ^ Z.of_N n)).
  apply Zpower_Qpower. lia.
Qed.
Lemma pow10_neg (p : positive) : ((10 # 1) ^ Zneg p == 1 # (10 ^ p))%Q.
Proof.
  change (Zneg p) with (- Zpos p)%Z. rewrite Qpower_opp. change (Zpos p) with (Z.of_N (Npos p)). rewrite pow10_Q. change (10 ^ N.pos p) with (N.pos (10 ^ p)). reflexivity.
Qed.
Definition scaled (d : N) (e : Z) : Q := ((Z.of_N d # 1) * (10 # 1) ^ e)%Q.
Lemma of_decimal_nearest d e : nearest (scaled d e) (f32_of_decimal d e).
Proof.
  unfold f32_of_decimal, scaled. destruct e as [|p|p].
  - eapply nearest_eq; [|exact (round_Q (d * 10 ^ Z.to_N 0) 1)]. cbn. unfold Qeq, Qmult. cbn [Qnum Qden]. lia.
  - eapply nearest_eq; [|exact (round_Q (d * 10 ^ Z.to_N (Z.pos p)) 1)]. change (Z.pos p) with (Z.of_N (N.pos p)). rewrite pow10_Q, N2Z.id.
    unfold Qeq, Qmult. cbn [Qnum Qden]. lia.
  - eapply nearest_eq; [|exact (round_Q d (10 ^ p))]. rewrite pow10_neg. unfold Qeq, Qmult. cbn [Qnum Qden]. lia.
Qed.
Lemma of_decimal_is d e b : nearest (scaled d e) b -> f32_of_decimal d e = b.
Proof. intros H. eapply nearest_unique; [apply of_decimal_nearest|exact H]. Qed.

(** ** Digits *)
Lemma char_digit_value c : char_digit c = digit_value c.
Proof. destruct c as [[] [] [] [] [] [] [] []]; reflexivity. Qed.
Definition all_digits (s : string) : Prop := dval s 0 <> None.
Lemma dval_some s : forall a b, dval s a <> None -> dval s b <> None.
Proof. induction s as [|c s IH]; intros a b H; cbn [dval] in *; [discriminate|]. destruct (digit_value c); [eauto|exact H]. Qed.
Lemma all_digits_cons c s : all_digits (String c s) <-> (exists d, digit_value c = Some d) /\ all_digits s.
Proof.
  unfold all_digits. cbn [dval]. destruct (digit_value c) as [d|]; split.
  - intros H. split; [eauto|]. eapply dval_some, H.
  - intros (_ & H). eapply dval_some, H.
  - congruence.
  - intros ((d & D) & _). discriminate.
Qed.
Lemma all_digits_app s t : all_digits (s +++ t) <-> all_digits s /\ all_digits t.
Proof.
  induction s as [|c s IH]; cbn [append].
  - split; [intros H; split; [discriminate|exact H]|intros (_ & H); exact H].
  - rewrite !all_digits_cons, IH. tauto.
Qed.
Lemma digits_all s n : digits s n -> all_digits s.
Proof. intros H. apply digits_dval in H. destruct H as (_ & H). unfold all_digits. congruence. Qed.
Definition no_digit (s : string) : Prop := match s with String c _ => digit_value c = None | EmptyString => True end.
Lemma span_app a r : all_digits a -> no_digit r -> span_digits (a +++ r) = (a, r).
Proof.
  induction a as [|c a IH]; intros A N.
  - cbn [append]. destruct r as [|c r]; [reflexivity|]. cbn [span_digits]. rewrite char_digit_value, N. reflexivity.
  - apply all_digits_cons in A. destruct A as ((d & D) & A). cbn [append span_digits]. rewrite char_digit_value, D, IH by assumption. reflexivity.
Qed.
Lemma span_spec s : forall a r, span_digits s = (a, r) -> s = a +++ r /\ all_digits a /\ no_digit r.
Proof.
  induction s as [|c s IH]; intros a r H; cbn [span_digits] in H.
  - injection H as <- <-. repeat split. discriminate.
  - rewrite char_digit_value in H. destruct (digit_value c) as [d|] eqn:D.
    + destruct (span_digits s) as [a' r'] eqn:E. injection H as <- <-. destruct (IH a' r' eq_refl) as (-> & A & N). split; [reflexivity|]. split; [|exact N].
      apply all_digits_cons. eauto.
    + injection H as <- <-. split; [reflexivity|]. split; [discriminate|exact D].
Qed.

Lemma digit_char_value d : d < 10 -> digit_value (digit_char d) = Some d.
Proof. intros H. assert (C : d = 0 \/ d = 1 \/ d = 2 \/ d = 3 \/ d = 4 \/ d = 5 \/ d = 6 \/ d = 7 \/ d = 8 \/ d = 9) by lia. repeat (destruct C as [-> |C]; [reflexivity|]). subst. reflexivity. Qed.
Lemma pad_length n : forall d, String.length (pad n d) = n.
Proof. induction n as [|n IH]; intros d; cbn [pad]; [reflexivity|]. rewrite slen_app, IH. cbn. lia. Qed.
Lemma pad_dval n : forall d acc, dval (pad n d) acc = Some (acc * 10 ^ N.of_nat n + d mod 10 ^ N.of_nat n).
Proof.
  induction n as [|n IH]; intros d acc; cbn [pad].
  - change (N.of_nat 0) with 0. rewrite N.pow_0_r, N.mod_1_r. cbn [dval]. f_equal. lia.
  - rewrite dval_app, IH. cbn [dval]. rewrite digit_char_value by (apply N.mod_lt; discriminate). f_equal.
    rewrite Nat2N.inj_succ, N.pow_succ_r'. rewrite (N.mod_mul_r d 10) by (try discriminate; apply N.pow_nonzero; discriminate). lia.
Qed.
Lemma show_digits n : digits (show_N n) n.
Proof. apply parse_digits_iff, parse_digits_show_N. Qed.
Lemma digits_pad n p d : digits (show_N p +++ pad n d) (p * 10 ^ N.of_nat n + d mod 10 ^ N.of_nat n).
Proof.
  apply dval_digits.
  - pose proof (show_N_nonempty p). destruct (show_N p); [congruence|discriminate].
  - pose proof (digits_dval _ _ (show_digits p)) as (_ & D). rewrite dval_app, D. apply pad_dval.
Qed.
Lemma show_point_form d n : unsigned_form (show_point d n) d n.
Proof.
  unfold show_point. set (p := 10 ^ N.of_nat n). assert (P : p <> 0) by (apply N.pow_nonzero; discriminate).
  pose proof (digits_pad n (d / p) (d mod p)) as D. fold p in D. rewrite N.mod_mod in D by exact P. replace (d / p * p + d mod p) with d in D by (rewrite (N.div_mod d p P) at 1; lia).
  destruct n as [|n].
  - cbn [pad] in D. cbn [append]. apply uf_plain. exact D.
  - rewrite <- (pad_length (S n) (d mod p)) at 2. apply (uf_point (show_N (d / p)) (pad (S n) (d mod p)) d). exact D.
Qed.

(** ** Reading *)
Lemma append_nil_r s : s +++ "" = s.
Proof. induction s as [|c s IH]; cbn [append]; congruence. Qed.
Lemma append_assoc a b c : (a +++ b) +++ c = a +++ (b +++ c).
Proof. induction a as [|x a IH]; cbn [append]; congruence. Qed.
Lemma unsigned_digits t n k : unsigned_form t n k -> exists a b, digits (a +++ b) n /\ k = String.length b /\ (t = a +++ String "." b \/ (t = a /\ b = "")).
Proof.
  intros [s m D|a b m D]; [exists s, ""|exists a, b]; (split; [|split]); auto. now rewrite append_nil_r.
Qed.
Definition ends (r : string) : Prop := r = "" \/ exists c x, r = String c x /\ (c = "e" \/ c = "E")%char.
Lemma ends_shape r : ends r -> no_digit r /\ match r with String "." _ => False | _ => True end.
Proof. intros [-> |(c & x & -> & [-> | ->])]; split; exact I || reflexivity. Qed.
Definition tail_of (n : N) (k : nat) (r : string) : option (N * Z) :=
  match r with
  | EmptyString => Some (n, (- Z.of_nat k)%Z)
  | String c r' =>
      if orb (Ascii.eqb c "e") (Ascii.eqb c "E")
      then option_map (fun e => (n, (e - Z.of_nat k)%Z)) (parse_exponent r') else None
  end.
Lemma parse_number_tail t n k r : unsigned_form t n k -> ends r -> parse_number (t +++ r) = tail_of n k r.
Proof.
  intros U R. destruct (ends_shape r R) as (Nd & Np). destruct (unsigned_digits _ _ _ U) as (a & b & D & -> & T).
  pose proof (proj1 (all_digits_app a b) (digits_all _ _ D)) as (A & B). apply parse_digits_iff in D. unfold parse_number. destruct T as [-> |[-> ->]].
  - replace ((a +++ String "." b) +++ r) with (a +++ String "." (b +++ r)) by (clear; induction a as [|c a IH]; cbn [append]; congruence).
    rewrite span_app by (exact A || reflexivity). cbv iota beta. rewrite span_app by assumption. rewrite D. reflexivity.
  - rewrite span_app by assumption. assert (M : match r with String "." r' => span_digits r' | _ => ("", r) end = ("", r)).
    { destruct r as [|c r]; [reflexivity|]. destruct c as [[] [] [] [] [] [] [] []]; try reflexivity. destruct Np. }
    rewrite M, D. reflexivity.
Qed.
Lemma parse_exponent_iff s z : parse_exponent s = Some z <-> integer_form s z.
Proof.
  split.
  - intros H. destruct s as [|c s]; [discriminate|]. destruct (ascii_dec c "+") as [->|N1]; [|destruct (ascii_dec c "-") as [->|N2]].
    + cbn [parse_exponent] in H. destruct (parse_digits s) as [m|] eqn:E; [|discriminate]. injection H as <-. apply if_plus. now apply parse_digits_iff.
    + cbn [parse_exponent] in H. destruct (parse_digits s) as [m|] eqn:E; [|discriminate]. injection H as <-. apply if_minus. now apply parse_digits_iff.
    + assert (H' : option_map Z.of_N (parse_digits (String c s)) = Some z).
      { rewrite <- H. destruct c as [[] [] [] [] [] [] [] []]; try reflexivity; congruence. }
      destruct (parse_digits (String c s)) as [m|] eqn:E; [|discriminate]. injection H' as <-. apply if_plain. now apply parse_digits_iff.
  - intros [s' n D|s' n D|s' n D].
    + pose proof D as D'. apply parse_digits_iff in D. destruct s' as [|c s']; [discriminate|]. apply digits_no_sign in D'. destruct D' as [N1 N2].
      assert (E : parse_exponent (String c s') = option_map Z.of_N (parse_digits (String c s'))) by (destruct c as [[] [] [] [] [] [] [] []]; try reflexivity; congruence).
      now rewrite E, D.
    + apply parse_digits_iff in D. cbn [parse_exponent]. now rewrite D.
    + apply parse_digits_iff in D. cbn [parse_exponent]. now rewrite D.
Qed.
Lemma parse_number_iff t m e : parse_number t = Some (m, e) <->
  exists u k r, unsigned_form u m k /\ t = u +++ r
    /\ ((r = "" /\ e = (- Z.of_nat k)%Z) \/ exists c x z, r = String c x /\ (c = "e" \/ c = "E")%char /\ integer_form x z /\ e = (z - Z.of_nat k)%Z).
Proof.
  split.
  - intros H. unfold parse_number in H. destruct (span_digits t) as [a r] eqn:E. apply span_spec in E. destruct E as (-> & A & Nr).
    assert (X : exists b r', match r with String "." r' => span_digits r' | _ => ("", r) end = (b, r')
       /\ ((r = String "." (b +++ r') /\ all_digits b) \/ (r' = r /\ b = ""))).
    { destruct r as [|c r]; [exists "", ""; auto|]. destruct (ascii_dec c ".") as [-> |Nc].
      - destruct (span_digits r) as [b r'] eqn:E. exists b, r'. split; [reflexivity|]. left. apply span_spec in E. destruct E as (-> & B & _). auto.
      - exists "", (String c r). split; [|auto]. destruct c as [[] [] [] [] [] [] [] []]; try reflexivity. congruence. }
    destruct X as (b & r' & Eq & Sh). rewrite Eq in H. destruct (parse_digits (a +++ b)) as [n|] eqn:D; [|discriminate]. apply parse_digits_iff in D.
    assert (K : exists u, unsigned_form u n (String.length b) /\ a +++ r = u +++ r').
    { destruct Sh as [[-> B]|[-> ->]].
      - exists (a +++ String "." b). split; [exact (uf_point a b n D)|]. clear. induction a as [|c a IH]; cbn [append]; congruence.
      - exists a. rewrite append_nil_r in D. split; [now apply uf_plain|reflexivity]. }
    destruct K as (u & U & ->). destruct r' as [|c r'].
    + injection H as <- <-. exists u, (String.length b), "". split; [exact U|]. split; [reflexivity|]. left. auto.
    + destruct (orb _ _) eqn:O; [|discriminate]. destruct (parse_exponent r') as [z|] eqn:P; [|discriminate]. injection H as <- <-.
      exists u, (String.length b), (String c r'). split; [exact U|]. split; [reflexivity|]. right. exists c, r', z. split; [reflexivity|]. split.
      * apply Bool.orb_true_iff in O. destruct O as [O|O]; apply Ascii.eqb_eq in O; auto.
      * split; [now apply parse_exponent_iff|reflexivity].
  - intros (u & k & r & U & -> & [[-> ->]|(c & x & z & -> & C & F & ->)]).
    + rewrite (parse_number_tail u m k "" U); [reflexivity|now left].
    + rewrite (parse_number_tail u m k _ U); [|right; eauto]. cbn [tail_of]. apply parse_exponent_iff in F. rewrite F. destruct C as [-> | ->]; reflexivity.
Qed.
Lemma fraction_scaled n k : (fraction n k == scaled n (- Z.of_nat k))%Q.
Proof. reflexivity. Qed.
Lemma fraction_exp n k z : (fraction n k * (10 # 1) ^ z == scaled n (z - Z.of_nat k))%Q.
Proof. unfold fraction, scaled. replace (z - Z.of_nat k)%Z with (- Z.of_nat k + z)%Z by lia. rewrite Qpower_plus by discriminate. ring. Qed.

(** Words. *)
Lemma unsigned_head t n k r : unsigned_form t n k -> exists c s, t +++ r = String c s /\ ((exists d, digit_value c = Some d) \/ c = "."%char).
Proof.
  intros U. destruct (unsigned_digits _ _ _ U) as (a & b & D & _ & T). destruct a as [|c a].
  - destruct T as [-> |[-> ->]]; [|apply digits_dval in D; destruct D as (D & _); now cbn in D]. exists "."%char, (b +++ r). auto.
  - apply digits_all in D. cbn [append] in D. apply all_digits_cons in D. destruct D as (D & _).
    destruct T as [-> |[-> ->]]; cbn [append]; eexists c, _; (split; [reflexivity|auto]).
Qed.
Lemma number_not_word c s : (exists d, digit_value c = Some d) \/ c = "."%char ->
  ((lower_string (String c s) =?s "inf") || (lower_string (String c s) =?s "infinity"))%bool = false /\ (lower_string (String c s) =?s "nan") = false.
Proof.
  intros H. assert (E : lower_string (String c s) = String c (lower_string s)).
  { destruct H as [(d & D)| ->]; [|reflexivity]. revert D. destruct c as [[] [] [] [] [] [] [] []]; try discriminate; intros _; reflexivity. }
  rewrite E. destruct H as [(d & D)| ->]; [|split; reflexivity]. revert D. destruct c as [[] [] [] [] [] [] [] []]; try discriminate; intros _; split; reflexivity.
Qed.
Definition split_sign (s : string) : bool * string :=
  match s with
  | String "-" t => (true, t)
  | String "+" t => (false, t)
  | _ => (false, s)
  end.
Lemma split_sign_spec s neg t : split_sign s = (neg, t) -> with_sign s neg t.
Proof.
  destruct s as [|c s]; [intros [= <- <-]; constructor|]. intros H.
  destruct c as [[] [] [] [] [] [] [] []]; cbn [split_sign] in H; injection H as <- <-; constructor.
Qed.
Lemma split_sign_number s neg c t : with_sign s neg (String c t) -> (exists d, digit_value c = Some d) \/ c = "."%char -> split_sign s = (neg, String c t).
Proof.
  intros W H. inversion W; subst; try reflexivity. destruct H as [(d & D)| ->]; [|reflexivity]. revert D. destruct c as [[] [] [] [] [] [] [] []]; try discriminate; intros _; reflexivity.
Qed.
Definition words (t : string) : option N :=
  let w := lower_string t in
  if orb (w =?s "inf") (w =?s "infinity") then Some f32_inf else if w =?s "nan" then Some f32_nan else None.
Lemma parse_f32_eq s : parse_f32 s = let '(neg, t) := split_sign s in
  match words t with
  | Some b => Some (if b =? f32_nan then f32_nan else with_bit neg b)
  | None => option_map (fun '(m, e) => with_bit neg (f32_of_decimal m e)) (parse_number t)
  end.
Proof.
  unfold parse_f32, words. change (match s with String "-" t => (true, t) | String "+" t => (false, t) | _ => (false, s) end) with (split_sign s). destruct (split_sign s) as [neg t].
  destruct (orb _ _); [destruct neg; reflexivity|]. destruct (_ =?s "nan"); [reflexivity|]. destruct neg; reflexivity.
Qed.
Lemma float_read s b : float_form s b -> parse_f32 s = Some b.
Proof.
  intros [s' neg t n k b' W U N|s' neg t c x n k z b' W U C F N| | |]; try reflexivity; rewrite parse_f32_eq.
  - destruct (unsigned_head t n k "" U) as (c & s0 & E & H). rewrite append_nil_r in E. rewrite E in W. rewrite (split_sign_number _ _ _ _ W H). unfold words. destruct (number_not_word c s0 H) as [-> ->].
    rewrite <- E, <- (append_nil_r t), (parse_number_tail t n k "" U) by now left. cbn [tail_of option_map]. now rewrite (of_decimal_is _ _ _ N).
  - destruct (unsigned_head t n k (String c x) U) as (c' & s0 & E & H). rewrite E in W. rewrite (split_sign_number _ _ _ _ W H). unfold words. destruct (number_not_word c' s0 H) as [-> ->].
    rewrite <- E, (parse_number_tail t n k _ U) by (right; eauto). cbn [tail_of]. apply parse_exponent_iff in F. rewrite F. cbn [option_map].
    assert (X : ((c =? "e")%char || (c =? "E")%char)%bool = true) by (destruct C as [-> | ->]; reflexivity). rewrite X. cbn [option_map].
    rewrite (of_decimal_is _ _ b'); [reflexivity|]. eapply nearest_eq; [apply fraction_exp|exact N].
Qed.
(** A word for infinity or not a number, in any case, perhaps with a sign. *)
Lemma float_meaning s b : parse_f32 s = Some b -> float_form s b \/ (exists neg t, with_sign s neg t /\ In (lower_string t) ["inf"; "infinity"; "nan"]).
Proof.
  rewrite parse_f32_eq. destruct (split_sign s) as [neg t] eqn:S. apply split_sign_spec in S. destruct (words t) as [w|] eqn:W.
  - intros _. right. exists neg, t. split; [exact S|]. unfold words in W. destruct (lower_string t =?s "inf") eqn:E1; [apply String.eqb_eq in E1; rewrite E1; now left|].
    destruct (lower_string t =?s "infinity") eqn:E2; [apply String.eqb_eq in E2; rewrite E2; right; now left|]. cbn [orb] in W.
    destruct (lower_string t =?s "nan") eqn:E3; [apply String.eqb_eq in E3; rewrite E3; right; right; now left|discriminate].
  - destruct (parse_number t) as [[m e]|] eqn:P; [|discriminate]. cbn [option_map]. intros [= <-]. left. apply parse_number_iff in P.
    destruct P as (u & k & r & U & -> & [[-> ->]|(c & x & z & -> & C & F & ->)]).
    + rewrite append_nil_r in S. eapply ff_number; [exact S|exact U|]. apply of_decimal_nearest.
    + eapply ff_exponent; [exact S|exact U|exact C|exact F|]. eapply nearest_eq; [symmetry; apply fraction_exp|]. apply of_decimal_nearest.
Qed.
