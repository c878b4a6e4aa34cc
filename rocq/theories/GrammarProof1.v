(** * GrammarProof1: characters, names and references (lemmas of PropGrammar.v) *)
From Verif Require Import Base XmlChars XmlRead XmlGrammar XmlProof XmlProof2.
From Coq Require Import Lia.
Local Open Scope N_scope.

Lemma length_app_s a b : String.length (a +++ b) = (String.length a + String.length b)%nat.
Proof. induction a as [|c a IH]; simpl; [reflexivity|]. now rewrite IH. Qed.
(** ** Ranges *)
Lemma between_nil c : between [] c = true <-> False.
Proof. split; [discriminate|tauto]. Qed.
Lemma between_cons a b l c : between ((a, b) :: l) c = true <-> (a <= c /\ c <= b) \/ between l c = true.
Proof. unfold between. cbn [existsb fst snd]. now rewrite orb_true_iff, andb_true_iff, !N.leb_le. Qed.
Ltac ranges := rewrite ?between_cons, ?between_nil.
Lemma char_iff c : char_ok c = true <-> Char c.
Proof. unfold char_ok, Char. ranges. lia. Qed.
Lemma start_iff c : name_start c = true <-> NameStartChar c.
Proof. unfold name_start, start_ranges, NameStartChar. ranges. lia. Qed.
Lemma name_iff c : name_char c = true <-> NameChar c.
Proof.
  unfold name_char. rewrite between_app, orb_true_iff. change (between start_ranges c) with (name_start c). rewrite start_iff.
  unfold NameChar. ranges. split; (intros [H|H]; [now left|right; lia]).
Qed.

(** ** UTF-8 *)
Lemma byte_value n s : n < 256 -> exists a, byte n s = String a s /\ N_of_ascii a = n.
Proof. intros H. exists (ascii_of_N n). split; [reflexivity|now apply N_ascii_embedding]. Qed.
Lemma byte_of_value a s : String a s = byte (N_of_ascii a) s.
Proof. unfold byte. now rewrite ascii_N_embedding. Qed.
Lemma cont_value a b : N_of_ascii a = 128 + b -> b < 64 -> cont a = Some b.
Proof. intros E H. unfold cont. rewrite E. replace (128 <=? 128 + b) with true by (symmetry; apply N.leb_le; lia). replace (128 + b <? 192) with true by (symmetry; apply N.ltb_lt; lia). cbn [andb]. f_equal. lia. Qed.
Lemma cont_inv a b : cont a = Some b -> N_of_ascii a = 128 + b /\ b < 64.
Proof.
  unfold cont. destruct (128 <=? N_of_ascii a) eqn:A; [|discriminate]. destruct (N_of_ascii a <? 192) eqn:B; [|discriminate].
  apply N.leb_le in A. apply N.ltb_lt in B. cbn [andb]. intros [= <-]. lia.
Qed.
Ltac decide_guards :=
  repeat match goal with
         | |- context [?a <? ?b] => first [ replace (a <? b) with true by (symmetry; apply N.ltb_lt; lia) | replace (a <? b) with false by (symmetry; apply N.ltb_ge; lia) ]
         | |- context [?a <=? ?b] => first [ replace (a <=? b) with true by (symmetry; apply N.leb_le; lia) | replace (a <=? b) with false by (symmetry; apply N.leb_gt; lia) ]
         end; cbn [andb negb].
Lemma utf8_points c u s : utf8 c u -> Char c -> points (u +++ s) = option_map (cons c) (points s).
Proof.
  intros U C. unfold Char in C. destruct U as [c H|a b H1 H2 H3|a b c H1 H2 H3 H4|a b c d H1 H2 H3 H4 H5].
  - destruct (byte_value c "" ltac:(lia)) as (x & -> & X). cbn [append points]. rewrite X. decide_guards. reflexivity.
  - destruct (byte_value (0x80 + b) "" ltac:(lia)) as (y & -> & Y). destruct (byte_value (0xC0 + a) (String y "") ltac:(lia)) as (x & -> & X).
    cbn [append points]. rewrite X, (cont_value y b Y H2). cbv zeta. replace ((192 + a - 192) * 64 + b) with (64 * a + b) by lia. decide_guards. reflexivity.
  - destruct (byte_value (0x80 + c) "" ltac:(lia)) as (z & -> & V). destruct (byte_value (0x80 + b) (String z "") ltac:(lia)) as (y & -> & Y).
    destruct (byte_value (0xE0 + a) (String y (String z "")) ltac:(lia)) as (x & -> & X).
    cbn [append points]. rewrite X, (cont_value y b Y H2), (cont_value z c V H3). cbv zeta. replace (((224 + a - 224) * 64 + b) * 64 + c) with (4096 * a + 64 * b + c) by lia.
    decide_guards. destruct (55296 <=? 4096 * a + 64 * b + c) eqn:G; [|reflexivity]. apply N.leb_le in G. decide_guards. reflexivity.
  - destruct (byte_value (0x80 + d) "" ltac:(lia)) as (w & -> & W). destruct (byte_value (0x80 + c) (String w "") ltac:(lia)) as (z & -> & V).
    destruct (byte_value (0x80 + b) (String z (String w "")) ltac:(lia)) as (y & -> & Y).
    destruct (byte_value (0xF0 + a) (String y (String z (String w ""))) ltac:(lia)) as (x & -> & X).
    cbn [append points]. rewrite X, (cont_value y b Y H2), (cont_value z c V H3), (cont_value w d W H4). cbv zeta.
    replace ((((240 + a - 240) * 64 + b) * 64 + c) * 64 + d) with (262144 * a + 4096 * b + 64 * c + d) by lia. decide_guards. reflexivity.
Qed.
Lemma points_utf8 s c l : points s = Some (c :: l) -> exists u r, s = u +++ r /\ points r = Some l /\ utf8 c u.
Proof.
  destruct s as [|a s]; [discriminate|]. cbn [points]. cbv zeta.
  destruct (N_of_ascii a <? 128) eqn:E1.
  { apply N.ltb_lt in E1. intros H. destruct (points s) as [l'|] eqn:P; simpl in H; [|discriminate]. injection H as <- <-.
    exists (byte (N_of_ascii a) ""), s. rewrite (byte_of_value a s). split; [reflexivity|]. split; [exact P|]. now constructor. }
  apply N.ltb_ge in E1. destruct (N_of_ascii a <? 192) eqn:E2; [discriminate|]. apply N.ltb_ge in E2.
  destruct (N_of_ascii a <? 224) eqn:E3.
  { apply N.ltb_lt in E3. destruct s as [|b s]; [discriminate|]. destruct (cont b) as [x|] eqn:C; [|discriminate].
    apply cont_inv in C. destruct C as [B C].
    destruct (128 <=? (N_of_ascii a - 192) * 64 + x) eqn:G; [|discriminate]. apply N.leb_le in G.
    intros H. destruct (points s) as [l'|] eqn:P; simpl in H; [|discriminate]. injection H as <- <-.
    exists (byte (192 + (N_of_ascii a - 192)) (byte (128 + x) "")), s. split; [|split; [exact P|]].
    - rewrite (byte_of_value a), (byte_of_value b), B. replace (192 + (N_of_ascii a - 192)) with (N_of_ascii a) by lia. reflexivity.
    - replace ((N_of_ascii a - 192) * 64 + x) with (0x40 * (N_of_ascii a - 192) + x) by lia. constructor; lia. }
  apply N.ltb_ge in E3. destruct (N_of_ascii a <? 240) eqn:E4.
  { apply N.ltb_lt in E4. destruct s as [|b [|b' s]]; [discriminate|discriminate|].
    destruct (cont b) as [x|] eqn:C; [|discriminate]. destruct (cont b') as [y|] eqn:C'; [|discriminate].
    apply cont_inv in C, C'. destruct C as [B C], C' as [B' C'].
    match goal with |- (if ?g then _ else _) = _ -> _ => destruct g eqn:G end; [|discriminate]. apply andb_true_iff in G. destruct G as [G _]. apply N.leb_le in G.
    intros H. destruct (points s) as [l'|] eqn:P; simpl in H; [|discriminate]. injection H as <- <-.
    exists (byte (224 + (N_of_ascii a - 224)) (byte (128 + x) (byte (128 + y) ""))), s. split; [|split; [exact P|]].
    - rewrite (byte_of_value a), (byte_of_value b), (byte_of_value b'), B, B'. replace (224 + (N_of_ascii a - 224)) with (N_of_ascii a) by lia. reflexivity.
    - replace (((N_of_ascii a - 224) * 64 + x) * 64 + y) with (0x1000 * (N_of_ascii a - 224) + 0x40 * x + y) by lia. constructor; lia. }
  apply N.ltb_ge in E4. destruct (N_of_ascii a <? 248) eqn:E5; [|discriminate]. apply N.ltb_lt in E5.
  destruct s as [|b [|b' [|b'' s]]]; try discriminate.
  destruct (cont b) as [x|] eqn:C; [|discriminate]. destruct (cont b') as [y|] eqn:C'; [|discriminate]. destruct (cont b'') as [z|] eqn:C''; [|discriminate].
  apply cont_inv in C, C', C''. destruct C as [B C], C' as [B' C'], C'' as [B'' C''].
  match goal with |- (if ?g then _ else _) = _ -> _ => destruct g eqn:G end; [|discriminate]. apply andb_true_iff in G. destruct G as [G _]. apply N.leb_le in G.
  intros H. destruct (points s) as [l'|] eqn:P; simpl in H; [|discriminate]. injection H as <- <-.
  exists (byte (240 + (N_of_ascii a - 240)) (byte (128 + x) (byte (128 + y) (byte (128 + z) "")))), s. split; [|split; [exact P|]].
  - rewrite (byte_of_value a), (byte_of_value b), (byte_of_value b'), (byte_of_value b''), B, B', B''. replace (240 + (N_of_ascii a - 240)) with (N_of_ascii a) by lia. reflexivity.
  - replace ((((N_of_ascii a - 240) * 64 + x) * 64 + y) * 64 + z) with (0x40000 * (N_of_ascii a - 240) + 0x1000 * x + 0x40 * y + z) by lia. constructor; lia.
Qed.
Lemma text_points l s : text_of l s <-> points s = Some l /\ forallb char_ok l = true.
Proof.
  split.
  - induction 1 as [|c l u s C U T [IH IH']]; [now split|]. rewrite (utf8_points _ _ _ U C), IH. split; [reflexivity|].
    cbn [forallb]. rewrite IH'. apply char_iff in C. now rewrite C.
  - revert s. induction l as [|c l IH]; intros s [P F].
    + apply points_nil in P. subst. constructor.
    + destruct (points_utf8 _ _ _ P) as (u & r & -> & Pr & U). cbn [forallb] in F. apply andb_true_iff in F. destruct F as [A B].
      constructor; [now apply char_iff|exact U|auto].
Qed.
Lemma chars_iff s : xml_chars s = true <-> exists l, text_of l s.
Proof.
  unfold xml_chars. destruct (points s) as [l|] eqn:P.
  - split; [intros H; exists l; now apply text_points|]. intros (l' & T). apply text_points in T. destruct T as [T F]. congruence.
  - split; [discriminate|]. intros (l & T). apply text_points in T. destruct T as [T _]. congruence.
Qed.
Lemma ncname_iff s : ncname s = true <-> NCName s.
Proof.
  split.
  - intros H. unfold ncname in H. destruct (points s) as [[|c l]|] eqn:P; try discriminate. apply andb_true_iff in H. destruct H as [A B].
    exists c, l. split; [|split; [now apply start_iff|]].
    + apply text_points. split; [exact P|]. cbn [forallb]. rewrite (name_chars_ok _ (start_name _ A)). cbn [andb].
      apply forallb_forall. intros d D. apply name_chars_ok. now apply (proj1 (forallb_forall _ _) B).
    + apply Forall_forall. intros d D. apply name_iff. now apply (proj1 (forallb_forall _ _) B).
  - intros (c & l & T & A & B). apply text_points in T. destruct T as [T _]. unfold ncname. rewrite T. apply andb_true_iff. split; [now apply start_iff|].
    apply forallb_forall. intros d D. apply name_iff. rewrite Forall_forall in B. auto.
Qed.
Lemma encoded_2 c q r : c = 64 * q + r -> r < 64 -> 128 <= c -> c < 2048 -> utf8 c (byte (192 + q) (byte (128 + r) "")).
Proof. intros -> A B C. apply (utf8_2 q r); lia. Qed.
Lemma encoded_3 c q r q' r' : c = 64 * q + r -> q = 64 * q' + r' -> r < 64 -> r' < 64 -> 2048 <= c -> c < 65536 -> utf8 c (byte (224 + q') (byte (128 + r') (byte (128 + r) ""))).
Proof. intros -> -> A B C D. replace (64 * (64 * q' + r') + r) with (0x1000 * q' + 0x40 * r' + r) by lia. apply (utf8_3 q' r' r); lia. Qed.
Lemma encoded_4 c q r q' r' q'' r'' : c = 64 * q + r -> q = 64 * q' + r' -> q' = 64 * q'' + r'' -> r < 64 -> r' < 64 -> r'' < 64 -> 65536 <= c -> c <= 1114111 ->
  utf8 c (byte (240 + q'') (byte (128 + r'') (byte (128 + r') (byte (128 + r) "")))).
Proof.
  intros -> -> -> A B C D E. replace (64 * (64 * (64 * q'' + r'') + r') + r) with (0x40000 * q'' + 0x1000 * r'' + 0x40 * r' + r) by lia.
  apply (utf8_4 q'' r'' r' r); lia.
Qed.
Lemma utf8_encode c u : Char c -> utf8 c u <-> u = encode c.
Proof.
  intros C. split.
  - unfold Char in C. intros U. unfold encode.
    destruct U as [c H|a b H1 H2 H3|a b c H1 H2 H3 H4|a b c d H1 H2 H3 H4 H5].
    + decide_guards. reflexivity.
    + decide_guards. replace ((64 * a + b) / 64) with a by (apply N.div_unique with b; lia). replace ((64 * a + b) mod 64) with b by (apply N.mod_unique with a; lia). reflexivity.
    + decide_guards. replace ((4096 * a + 64 * b + c) / 4096) with a by (apply N.div_unique with (64 * b + c); lia).
      replace ((4096 * a + 64 * b + c) / 64) with (64 * a + b) by (apply N.div_unique with c; lia).
      replace ((64 * a + b) mod 64) with b by (apply N.mod_unique with a; lia).
      replace ((4096 * a + 64 * b + c) mod 64) with c by (apply N.mod_unique with (64 * a + b); lia). reflexivity.
    + decide_guards. replace ((262144 * a + 4096 * b + 64 * c + d) / 262144) with a by (apply N.div_unique with (4096 * b + 64 * c + d); lia).
      replace ((262144 * a + 4096 * b + 64 * c + d) / 4096) with (64 * a + b) by (apply N.div_unique with (64 * c + d); lia).
      replace ((262144 * a + 4096 * b + 64 * c + d) / 64) with (4096 * a + 64 * b + c) by (apply N.div_unique with d; lia).
      replace ((64 * a + b) mod 64) with b by (apply N.mod_unique with a; lia).
      replace ((4096 * a + 64 * b + c) mod 64) with c by (apply N.mod_unique with (64 * a + b); lia).
      replace ((262144 * a + 4096 * b + 64 * c + d) mod 64) with d by (apply N.mod_unique with (4096 * a + 64 * b + c); lia). reflexivity.
  - intros ->. unfold Char in C. unfold encode.
    destruct (c <? 128) eqn:E1; [apply N.ltb_lt in E1; now constructor|]. apply N.ltb_ge in E1.
    pose proof (N.div_mod c 64 ltac:(lia)) as D1. pose proof (N.mod_lt c 64 ltac:(lia)) as M1.
    destruct (c <? 2048) eqn:E2.
    { apply N.ltb_lt in E2. now apply (encoded_2 c (c / 64) (c mod 64)). }
    apply N.ltb_ge in E2. pose proof (N.div_mod (c / 64) 64 ltac:(lia)) as D2. pose proof (N.mod_lt (c / 64) 64 ltac:(lia)) as M2.
    rewrite N.div_div in D2 by lia. change (64 * 64) with 4096 in D2.
    destruct (c <? 65536) eqn:E3.
    { apply N.ltb_lt in E3. now apply (encoded_3 c (c / 64) (c mod 64) (c / 4096) (c / 64 mod 64)). }
    apply N.ltb_ge in E3. pose proof (N.div_mod (c / 4096) 64 ltac:(lia)) as D3. pose proof (N.mod_lt (c / 4096) 64 ltac:(lia)) as M3.
    rewrite N.div_div in D3 by lia. change (4096 * 64) with 262144 in D3.
    apply (encoded_4 c (c / 64) (c mod 64) (c / 4096) (c / 64 mod 64) (c / 262144) (c / 4096 mod 64)); trivial. clear D1 D2 D3 M1 M2 M3. lia.
Qed.

(** ** References *)
Lemma digit_iff base c d : base <= 16 -> digit base c = Some d <-> digit_of base c d.
Proof.
  intros B. unfold digit_of. split.
  - unfold digit. cbv zeta. match goal with |- (if ?x <? base then _ else _) = _ -> _ => set (e := x); assert (E : e = x) by reflexivity end.
    destruct (e <? base) eqn:G; [|discriminate]. apply N.ltb_lt in G. intros [= <-]. split; [exact G|].
    assert (H : e < 16) by lia. clearbody e. clear G B. subst e. revert H.
    destruct c as [[] [] [] [] [] [] [] []]; vm_compute; intros H; try discriminate H; tauto.
  - intros [H G]. assert (X : d < 16) by lia.
    assert (D : In d [0; 1; 2; 3; 4; 5; 6; 7; 8; 9; 10; 11; 12; 13; 14; 15]) by (simpl; lia).
    simpl in D. repeat (destruct D as [<-|D]); try (destruct D as []); simpl in G;
      destruct G as [G|G]; injection G as <-; unfold digit; cbv zeta;
      match goal with |- (if ?x <? base then Some ?y else _) = Some ?n => change y with n; change x with n end;
      apply N.ltb_lt in H; now rewrite H.
Qed.
Lemma number_app base s c : forall acc, number_of base acc (s +++ String c "") =
  match number_of base acc s with Some n => match digit base c with Some d => Some (base * n + d) | None => None end | None => None end.
Proof.
  induction s as [|a s IH]; intros acc; cbn [append number_of].
  - destruct (digit base c); reflexivity.
  - destruct (digit base a); [apply IH|reflexivity].
Qed.
Lemma string_snoc s : s = "" \/ exists t c, s = t +++ String c "".
Proof.
  induction s as [|a s [->|(t & c & ->)]]; [now left|right; exists "", a; reflexivity|right; exists (String a t), c; reflexivity].
Qed.
Lemma string_rev_ind (P : string -> Prop) : P "" -> (forall s c, P s -> P (s +++ String c "")) -> forall s, P s.
Proof.
  intros A B s. remember (String.length s) as n eqn:E. revert s E. induction n as [|n IH]; intros s E; destruct (string_snoc s) as [->|(t & c & ->)]; auto.
  - exfalso. rewrite length_app_s in E. simpl in E. lia.
  - apply B. apply IH. rewrite length_app_s in E. simpl in E. lia.
Qed.
Lemma numeral_iff base s n : base <= 16 -> numeral base s n <-> s <> "" /\ number_of base 0 s = Some n.
Proof.
  intros B. split.
  - induction 1 as [c d D|s n c d H [N IH] D].
    + split; [discriminate|]. cbn [number_of]. apply digit_iff in D; [|exact B]. rewrite D. f_equal. lia.
    + split; [now destruct s|]. rewrite number_app, IH. apply digit_iff in D; [|exact B]. now rewrite D.
  - revert n. induction s as [|s c IH] using string_rev_ind; intros n [N H]; [congruence|].
    rewrite number_app in H. destruct s as [|a s].
    + simpl in H. destruct (digit base c) as [d|] eqn:D; [|discriminate]. injection H as <-. replace (base * 0 + d) with d by lia. constructor. now apply digit_iff.
    + destruct (number_of base 0 (String a s)) as [m|] eqn:E; [|discriminate]. destruct (digit base c) as [d|] eqn:D; [|discriminate].
      injection H as <-. apply n_more; [|now apply digit_iff]. apply IH. split; [discriminate|reflexivity].
Qed.
Lemma char_ref_iff base s u : base <= 16 -> char_ref base s = Some u <-> exists n, numeral base s n /\ Char n /\ utf8 n u.
Proof.
  intros B. unfold char_ref. destruct (is_empty s) eqn:E.
  { destruct s; [|discriminate E]. split; [discriminate|]. intros (n & H & _). apply numeral_iff in H; [|exact B]. destruct H; congruence. }
  assert (N : s <> "") by (intros ->; discriminate E).
  destruct (number_of base 0 s) as [n|] eqn:M.
  - destruct (char_ok n) eqn:C.
    + apply char_iff in C. split.
      * intros [= <-]. exists n. split; [now apply numeral_iff|]. split; [exact C|]. now apply utf8_encode.
      * intros (m & H & _ & U). apply numeral_iff in H; [|exact B]. destruct H as [_ H]. rewrite M in H. injection H as <-. apply utf8_encode in U; [|exact C]. now subst.
    + split; [discriminate|]. intros (m & H & D & _). apply numeral_iff in H; [|exact B]. destruct H as [_ H]. rewrite M in H. injection H as <-. apply char_iff in D. congruence.
  - split; [discriminate|]. intros (m & H & _). apply numeral_iff in H; [|exact B]. destruct H; congruence.
Qed.
