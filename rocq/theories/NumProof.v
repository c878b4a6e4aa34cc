(** * NumProof: integer texts *)
From Coq Require Import DecimalString DecimalN DecimalPos.
From Verif Require Import Base TextSpec.

(** Reading left to right. *)
Fixpoint dval (s : string) (acc : N) : option N :=
  match s with
  | EmptyString => Some acc
  | String c s' => match digit_value c with
                   | Some d => dval s' (10 * acc + d)
                   | None => None
                   end
  end.

Lemma dval_app s t acc : dval (s +++ t) acc = match dval s acc with Some n => dval t n | None => None end.
Proof.
  revert acc. induction s as [|c s IH]; intros acc; simpl; [reflexivity|].
  destruct (digit_value c); [apply IH|reflexivity].
Qed.

Lemma digits_dval s n : digits s n -> s <> "" /\ dval s 0 = Some n.
Proof.
  induction 1 as [c n D|s c n d H [N IH] D].
  - split; [discriminate|]. simpl. now rewrite D.
  - split; [destruct s; discriminate|]. rewrite dval_app, IH. simpl. now rewrite D.
Qed.

Lemma string_snoc s : s <> "" -> exists t c, s = t +++ String c "".
Proof.
  induction s as [|c s IH]; intros H; [congruence|]. destruct s as [|d s].
  - exists "", c. reflexivity.
  - destruct IH as (t & e & E); [discriminate|]. exists (String c t), e. simpl. now rewrite <- E.
Qed.

Lemma slen_app a b : String.length (a +++ b) = String.length a + String.length b.
Proof. induction a; simpl; congruence. Qed.

Lemma dval_digits s n : s <> "" -> dval s 0 = Some n -> digits s n.
Proof.
  remember (String.length s) as k eqn:K. assert (Hk : String.length s <= k) by lia. clear K.
  revert s n Hk. induction k as [|k IH]; intros s n Hk H D.
  - destruct s; [congruence|simpl in Hk; lia].
  - destruct (string_snoc s H) as (t & c & ->). rewrite dval_app in D.
    destruct (dval t 0) as [m|] eqn:M; [|discriminate]. simpl in D.
    destruct (digit_value c) as [d|] eqn:Dc; [|discriminate]. injection D as <-.
    destruct t as [|a t].
    + simpl in M. injection M as <-. simpl. replace d with (10 * 0 + d)%N by lia.
      replace (10 * 0 + d)%N with d by lia. now constructor.
    + constructor; [|exact Dc]. apply IH; [|discriminate|exact M].
      rewrite slen_app in Hk. simpl in *. lia.
Qed.

(** The stdlib's decimal reader computes the same thing. *)
Lemma uint_of_char_spec c d :
  uint_of_char c (Some d) = match digit_value c with
                            | Some 0%N => Some (Decimal.D0 d) | Some 1%N => Some (Decimal.D1 d)
                            | Some 2%N => Some (Decimal.D2 d) | Some 3%N => Some (Decimal.D3 d)
                            | Some 4%N => Some (Decimal.D4 d) | Some 5%N => Some (Decimal.D5 d)
                            | Some 6%N => Some (Decimal.D6 d) | Some 7%N => Some (Decimal.D7 d)
                            | Some 8%N => Some (Decimal.D8 d) | Some 9%N => Some (Decimal.D9 d)
                            | _ => None
                            end.
Proof. destruct c as [[] [] [] [] [] [] [] []]; reflexivity. Qed.

Lemma digit_value_cases c d : digit_value c = Some d ->
  (d = 0 \/ d = 1 \/ d = 2 \/ d = 3 \/ d = 4 \/ d = 5 \/ d = 6 \/ d = 7 \/ d = 8 \/ d = 9)%N.
Proof. destruct c as [[] [] [] [] [] [] [] []]; unfold digit_value; simpl; intros H; try discriminate; injection H as <-; tauto. Qed.

Fixpoint uval (d : Decimal.uint) (acc : N) : N :=
  match d with
  | Decimal.Nil => acc
  | Decimal.D0 d => uval d (10 * acc)
  | Decimal.D1 d => uval d (10 * acc + 1)
  | Decimal.D2 d => uval d (10 * acc + 2)
  | Decimal.D3 d => uval d (10 * acc + 3)
  | Decimal.D4 d => uval d (10 * acc + 4)
  | Decimal.D5 d => uval d (10 * acc + 5)
  | Decimal.D6 d => uval d (10 * acc + 6)
  | Decimal.D7 d => uval d (10 * acc + 7)
  | Decimal.D8 d => uval d (10 * acc + 8)
  | Decimal.D9 d => uval d (10 * acc + 9)
  end.

Lemma of_uint_acc_uval d p : N.pos (Pos.of_uint_acc d p) = uval d (N.pos p).
Proof.
  revert p. induction d; intros p; cbn [Pos.of_uint_acc uval]; try reflexivity; rewrite IHd; f_equal; lia.
Qed.
Lemma of_uint_uval d : N.of_uint d = uval d 0.
Proof.
  unfold N.of_uint. induction d; cbn [Pos.of_uint uval]; try reflexivity;
    try (rewrite of_uint_acc_uval; f_equal; lia).
  exact IHd.
Qed.

Lemma nilempty_dval s acc :
  match NilEmpty.uint_of_string s with
  | Some d => dval s acc = Some (uval d acc)
  | None => dval s acc = None
  end.
Proof.
  revert acc. induction s as [|c s IH]; intros acc; simpl; [reflexivity|].
  destruct (NilEmpty.uint_of_string s) as [d|].
  - rewrite uint_of_char_spec. destruct (digit_value c) as [v|] eqn:E; [|reflexivity].
    destruct (digit_value_cases _ _ E) as [->|[->|[->|[->|[->|[->|[->|[->|[->| ->]]]]]]]]];
      rewrite IH; cbn [uval]; rewrite ?N.add_0_r; reflexivity.
  - assert (E : uint_of_char c None = None) by (destruct c as [[] [] [] [] [] [] [] []]; reflexivity).
    rewrite E. destruct (digit_value c); [apply IH|reflexivity].
Qed.

Lemma parse_digits_dval s : parse_digits s = if is_empty s then None else dval s 0.
Proof.
  unfold parse_digits. destruct s as [|c s]; [reflexivity|].
  change (NilZero.uint_of_string (String c s)) with (NilEmpty.uint_of_string (String c s)).
  pose proof (nilempty_dval (String c s) 0) as H.
  destruct (NilEmpty.uint_of_string (String c s)) as [d|]; rewrite H; [now rewrite of_uint_uval|reflexivity].
Qed.

Lemma parse_digits_iff s n : parse_digits s = Some n <-> digits s n.
Proof.
  rewrite parse_digits_dval. split.
  - destruct s as [|c s]; [discriminate|]. intros H. apply dval_digits; [discriminate|exact H].
  - intros H. apply digits_dval in H. destruct H as [N H]. destruct s; [congruence|exact H].
Qed.

Lemma digits_det s n m : digits s n -> digits s m -> n = m.
Proof. intros H H'. apply parse_digits_iff in H, H'. congruence. Qed.

Lemma digits_no_sign c s n : digits (String c s) n -> c <> "+"%char /\ c <> "-"%char.
Proof.
  intros H. apply parse_digits_iff in H.
  split; intros ->; rewrite parse_digits_sign in H; auto; discriminate.
Qed.

Lemma parse_unsigned_iff max s n : parse_unsigned max s = Some n <-> unsigned_text s n /\ (n <= max)%N.
Proof.
  unfold parse_unsigned. split.
  - destruct (parse_digits _) as [m|] eqn:E; [|discriminate].
    destruct (N.leb m max) eqn:B; [|discriminate]. intros H; injection H as <-.
    apply N.leb_le in B. split; [|exact B].
    destruct s as [|c s]; [discriminate|].
    destruct (ascii_dec c "+") as [->|Nc]; [apply parse_digits_iff in E; now constructor|].
    apply ut_plain, parse_digits_iff. rewrite <- E.
    destruct c as [[] [] [] [] [] [] [] []]; try reflexivity. congruence.
  - intros [U B]. apply N.leb_le in B. destruct U as [s n D|s n D].
    + assert (E : parse_digits (match s with String "+" s' => s' | _ => s end) = Some n).
      { rewrite <- (proj2 (parse_digits_iff s n) D). destruct s as [|c s]; [reflexivity|].
        apply digits_no_sign in D. destruct D as [D _].
        destruct c as [[] [] [] [] [] [] [] []]; try reflexivity. congruence. }
      now rewrite E, B.
    + apply parse_digits_iff in D. now rewrite D, B.
Qed.

Lemma parse_signed_iff min max s z : parse_signed min max s = Some z <-> signed_text s z /\ (min <= z <= max)%Z.
Proof.
  unfold parse_signed. split.
  - set (v := match s with String "-" _ => _ | String "+" _ => _ | _ => _ end).
    destruct v as [w|] eqn:E; [|discriminate].
    destruct ((min <=? w) && (w <=? max))%Z eqn:B; [|discriminate]. intros H; injection H as <-.
    apply andb_prop in B. destruct B as [B1 B2]. apply Z.leb_le in B1, B2. split; [|lia].
    unfold v in E. clear v B1 B2. destruct s as [|c s]; [discriminate|].
    destruct (ascii_dec c "+") as [->|N1]; [|destruct (ascii_dec c "-") as [->|N2]].
    + destruct (parse_digits s) as [m|] eqn:D; [|discriminate]. injection E as <-.
      apply parse_digits_iff in D. now constructor.
    + destruct (parse_digits s) as [m|] eqn:D; [|discriminate]. injection E as <-.
      apply parse_digits_iff in D. now constructor.
    + assert (E' : option_map Z.of_N (parse_digits (String c s)) = Some w).
      { rewrite <- E. destruct c as [[] [] [] [] [] [] [] []]; try reflexivity; congruence. }
      destruct (parse_digits (String c s)) as [m|] eqn:D; [|discriminate]. injection E' as <-.
      apply parse_digits_iff in D. now constructor.
  - intros [S B]. assert (Bb : ((min <=? z) && (z <=? max))%Z = true)
      by (apply andb_true_intro; split; apply Z.leb_le; lia).
    destruct S as [s n D|s n D|s n D].
    + assert (E : (match s with
               | String "-" s' => option_map (fun n => (- Z.of_N n)%Z) (parse_digits s')
               | String "+" s' => option_map Z.of_N (parse_digits s')
               | _ => option_map Z.of_N (parse_digits s)
               end) = Some (Z.of_N n)).
      { pose proof (proj2 (parse_digits_iff s n) D) as P. destruct s as [|c s]; [discriminate|].
        destruct (digits_no_sign _ _ _ D) as [N1 N2].
        transitivity (option_map Z.of_N (parse_digits (String c s))); [|now rewrite P].
        destruct c as [[] [] [] [] [] [] [] []]; try reflexivity; congruence. }
      now rewrite E, Bb.
    + apply parse_digits_iff in D. rewrite D. cbn [option_map]. now rewrite Bb.
    + apply parse_digits_iff in D. rewrite D. cbn [option_map]. now rewrite Bb.
Qed.
