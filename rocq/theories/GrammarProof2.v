(** * GrammarProof2: texts, values of attributes, names (lemmas of PropGrammar.v) *)
From Verif Require Import Base XmlChars XmlRead XmlGrammar XmlProof XmlProof2 GrammarProof1.
From Coq Require Import Lia.

(** ** Strings *)
Lemma app_inj_r (c a b : string) : a +++ c = b +++ c -> a = b.
Proof.
  revert b. induction a as [|x a IH]; intros [|y b] H; try reflexivity.
  - exfalso. apply (f_equal String.length) in H. cbn [append String.length] in H. rewrite length_app_s in H. lia.
  - exfalso. apply (f_equal String.length) in H. cbn [append String.length] in H. rewrite length_app_s in H. lia.
  - cbn [append] in H. injection H as -> H. f_equal. auto.
Qed.
Lemma app_inj_l (c a b : string) : c +++ a = c +++ b -> a = b.
Proof. induction c as [|x c IH]; [tauto|]. cbn [append]. intros H. injection H as H. auto. Qed.
Lemma string_len_ind (P : string -> Prop) : (forall s, (forall t, (String.length t < String.length s)%nat -> P t) -> P s) -> forall s, P s.
Proof. intros H s. remember (String.length s) as n eqn:E. revert s E. induction n as [n IH] using lt_wf_ind. intros s ->. apply H. intros t T. now apply (IH _ T). Qed.
Lemma every_iff (P : ascii -> Prop) p s : (forall c, p c = true <-> P c) -> every P s <-> all_bytes p s = true.
Proof.
  intros H. unfold every. induction s as [|c s IH]; cbn [list_ascii_of_string all_bytes].
  - split; [reflexivity|constructor].
  - rewrite andb_true_iff, <- IH, H. split; [intros F; inversion F; auto|intros [A B]; now constructor].
Qed.
Lemma space_iff c : ws c = true <-> Space c.
Proof.
  unfold ws, Space. rewrite !orb_true_iff, !Ascii.eqb_eq. simpl. unfold CR, LF, cr, lf, tab.
  split; [intros [[[->| ->]| ->]| ->]; auto 6|]. intros [<-|[<-|[<-|[<-|[]]]]]; auto.
Qed.
Lemma spaces_iff s : spaces s <-> all_bytes ws s = true.
Proof. apply every_iff. apply space_iff. Qed.
Lemma space_not c : ws c = false <-> ~ Space c.
Proof. rewrite <- space_iff. destruct (ws c); split; congruence. Qed.
Lemma occurs_iff p s : contains p s = true <-> occurs p s.
Proof.
  unfold occurs. split.
  - induction s as [|c s IH]; cbn [contains].
    + destruct (lit p "") as [r|] eqn:E; [|discriminate]. intros _. apply lit_app in E. exists "", r. exact E.
    + destruct (lit p (String c s)) as [r|] eqn:E.
      * intros _. apply lit_app in E. exists "", r. exact E.
      * intros H. destruct (IH H) as (a & b & ->). exists (String c a), b. reflexivity.
  - intros (a & b & ->). induction a as [|c a IH].
    + cbn [append]. assert (X := lit_same p b). destruct (p +++ b); cbn [contains]; now rewrite X.
    + cbn [append contains]. destruct (lit p (String c (a +++ p +++ b))); [reflexivity|exact IH].
Qed.
Lemma occurs_not p s : contains p s = false <-> ~ occurs p s.
Proof. rewrite <- occurs_iff. destruct (contains p s); split; congruence. Qed.
Definition stops (p : ascii -> bool) (r : string) : Prop := match r with "" => True | String c _ => p c = false end.
Lemma span_inv p s a b : span p s = (a, b) -> s = a +++ b /\ all_bytes p a = true /\ stops p b.
Proof.
  revert a b. induction s as [|c s IH]; intros a b; cbn [span].
  - intros [= <- <-]. repeat split.
  - destruct (p c) eqn:E.
    + destruct (span p s) as [x y]. intros [= <- <-]. destruct (IH x y eq_refl) as (-> & A & B). cbn [append all_bytes]. rewrite E, A. repeat split. exact B.
    + intros [= <- <-]. repeat split. exact E.
Qed.
Lemma skip_app w r : all_bytes ws w = true -> stops ws r -> skip_ws (w +++ r) = r.
Proof. intros A B. unfold skip_ws. rewrite (span_all ws w r A B). reflexivity. Qed.
Lemma skip_inv s : exists w, s = w +++ skip_ws s /\ all_bytes ws w = true /\ stops ws (skip_ws s).
Proof. unfold skip_ws. destruct (span ws s) as [w r] eqn:E. apply span_inv in E. destruct E as (-> & A & B). exists w. auto. Qed.

(** ** References *)
Definition ref_byte (c : ascii) : bool := between [(35, 35); (48, 57); (65, 90); (97, 122)]%N (N_of_ascii c).
Lemma digit_ref base c d : digit base c = Some d -> (base <= 16)%N -> ref_byte c = true.
Proof.
  intros H B. apply digit_iff in H; [|exact B]. destruct H as [H G]. assert (X : (d < 16)%N) by lia.
  assert (D : In d [0; 1; 2; 3; 4; 5; 6; 7; 8; 9; 10; 11; 12; 13; 14; 15]%N) by (simpl; lia).
  simpl in D. repeat (destruct D as [<-|D]); try (destruct D as []); simpl in G; destruct G as [G|G]; injection G as <-; reflexivity.
Qed.
Lemma number_ref base s : (base <= 16)%N -> forall acc n, number_of base acc s = Some n -> all_bytes ref_byte s = true.
Proof.
  intros B. induction s as [|c s IH]; intros acc n; [reflexivity|]. cbn [number_of all_bytes]. destruct (digit base c) as [d|] eqn:D; [|discriminate].
  intros H. now rewrite (digit_ref _ _ _ D B), (IH _ _ H).
Qed.
Lemma char_ref_ref base s u : (base <= 16)%N -> char_ref base s = Some u -> all_bytes ref_byte s = true.
Proof. intros B H. apply char_ref_iff in H; [|exact B]. destruct H as (n & H & _). apply numeral_iff in H; [|exact B]. now apply (number_ref base s B 0%N n). Qed.
Lemma entity_ref t u : entity t = Some u -> Reference ("&" +++ t +++ ";") u /\ all_bytes ref_byte t = true.
Proof.
  unfold entity. destruct (lit "#x" t) as [r|] eqn:X; [|destruct (lit "#" t) as [r|] eqn:D].
  - intros H. apply lit_app in X. subst t. split.
    + apply char_ref_iff in H; [|lia]. destruct H as (n & A & B & C). now apply (r_hexadecimal r n u).
    + apply char_ref_ref in H; [|lia]. cbn [append all_bytes]. now rewrite H.
  - intros H. apply lit_app in D. subst t. split.
    + apply char_ref_iff in H; [|lia]. destruct H as (n & A & B & C). now apply (r_decimal r n u).
    + apply char_ref_ref in H; [|lia]. cbn [append all_bytes]. now rewrite H.
  - repeat match goal with |- (if ?a =?s ?b then _ else _) = _ -> _ => destruct (String.eqb_spec a b) as [->|]; [intros [= <-]; split; [constructor|reflexivity]|] end. discriminate.
Qed.
Lemma ref_entity T u : Reference T u -> exists t, T = "&" +++ t +++ ";" /\ entity t = Some u /\ all_bytes ref_byte t = true.
Proof.
  intros H. assert (G : exists t, T = "&" +++ t +++ ";" /\ entity t = Some u).
  { destruct H as [s n u A B C|s n u A B C| | | | |]; [exists ("#" +++ s)|exists ("#x" +++ s)|exists "lt"|exists "gt"|exists "amp"|exists "apos"|exists "quot"]; (split; [reflexivity|]); try reflexivity.
    - assert (X : char_ref 10 s = Some u) by (apply char_ref_iff; [lia|eauto]).
      unfold entity. rewrite (lit_same "#" s). destruct (lit "#x" ("#" +++ s)) as [r|] eqn:E; [|exact X]. exfalso. apply lit_app in E. cbn [append] in E. injection E as ->.
      unfold char_ref in X. simpl in X. discriminate X.
    - assert (X : char_ref 16 s = Some u) by (apply char_ref_iff; [lia|eauto]). unfold entity. now rewrite (lit_same "#x" s). }
  destruct G as (t & -> & E). exists t. split; [reflexivity|]. split; [exact E|]. now apply entity_ref in E.
Qed.
Lemma chardata_ref att s : forall b v, chardata att (Some b) s = Some v <->
  exists t r u w, s = t +++ String ";" r /\ all_bytes (fun c => negb (Ascii.eqb c ";")) t = true /\ entity (b +++ t) = Some u /\ chardata att None r = Some w /\ v = u +++ w.
Proof.
  induction s as [|c s IH]; intros b v.
  - cbn [chardata]. split; [discriminate|]. intros (t & r & u & w & H & _). destruct t; discriminate H.
  - cbn [chardata]. destruct (Ascii.eqb_spec c ";") as [->|N].
    + split.
      * intros H. destruct (entity b) as [u|] eqn:E; [|discriminate]. destruct (chardata att None s) as [w|] eqn:W; [|discriminate]. injection H as <-.
        exists "", s, u, w. rewrite app_s_nil_r. repeat split; auto.
      * intros (t & r & u & w & H & A & E & W & ->). destruct t as [|d t].
        -- injection H as <-. rewrite app_s_nil_r in E. now rewrite E, W.
        -- injection H as <- _. discriminate A.
    + rewrite IH. split.
      * intros (t & r & u & w & -> & A & E & W & ->). exists (String c t), r, u, w. rewrite app_s_assoc in E. repeat split; auto.
        cbn [all_bytes]. apply Ascii.eqb_neq in N. now rewrite N, A.
      * intros (t & r & u & w & H & A & E & W & ->). destruct t as [|d t]; [injection H as -> _; congruence|]. injection H as <- ->.
        exists t, r, u, w. rewrite app_s_assoc. cbn [all_bytes] in A. apply andb_true_iff in A. destruct A as [_ A]. repeat split; auto.
Qed.
Lemma ref_byte_not c d : ref_byte c = true -> ref_byte d = false -> negb (Ascii.eqb c d) = true.
Proof. intros A B. destruct (Ascii.eqb_spec c d) as [->|]; [congruence|reflexivity]. Qed.
Lemma ref_free d t : ref_byte d = false -> all_bytes ref_byte t = true -> all_bytes (fun c => negb (Ascii.eqb c d)) t = true.
Proof. intros D. apply all_impl. intros c C. now apply ref_byte_not. Qed.
Lemma chardata_reference att T u r v : Reference T u -> chardata att None r = Some v -> chardata att None (T +++ r) = Some (u +++ v).
Proof.
  intros R V. apply ref_entity in R. destruct R as (t & -> & E & A).
  change (chardata att None (("&" +++ t +++ ";") +++ r)) with (chardata att (Some "") ((t +++ ";") +++ r)).
  apply chardata_ref. exists t, r, u, v. rewrite app_s_assoc. repeat split; auto. now apply ref_free.
Qed.
Lemma reference_bytes T u d : Reference T u -> ref_byte d = false -> Ascii.eqb "&" d = false -> Ascii.eqb ";" d = false ->
  all_bytes (fun c => negb (Ascii.eqb c d)) T = true.
Proof.
  intros R D X Y. apply ref_entity in R. destruct R as (t & -> & E & A). cbn [append all_bytes]. rewrite X. cbn [negb andb]. rewrite all_app. cbn [all_bytes].
  now rewrite (ref_free d t D A), Y.
Qed.
Lemma reference_ne T u : Reference T u -> exists t, T = String "&" t.
Proof. intros R. apply ref_entity in R. destruct R as (t & -> & _). eexists. reflexivity. Qed.

(** ** Values of attributes *)
Lemma lf_head r : is_lf r \/ ~ is_lf r.
Proof. unfold is_lf. destruct r as [|c r]; [right; intros (x & H); discriminate|]. destruct (Ascii.eqb_spec c LF) as [->|N]; [left; eauto|right; intros (x & H); congruence]. Qed.
Lemma chardata_step att c r : Ascii.eqb c "&" = false -> Ascii.eqb c cr = false -> chardata att None (String c r) = option_map (String (if (att && ws c)%bool then " "%char else c)) (chardata att None r).
Proof. intros A B. cbn [chardata]. rewrite A, B. now destruct (att && ws c)%bool. Qed.
Lemma chardata_cr att r : ~ is_lf r -> chardata att None (String cr r) = option_map (String (if att then " "%char else lf)) (chardata att None r).
Proof.
  intros N. cbn [chardata]. change (Ascii.eqb cr "&") with false. change (Ascii.eqb cr cr) with true. cbn iota. destruct r as [|d r]; [reflexivity|].
  destruct (Ascii.eqb_spec d lf) as [->|]; [|reflexivity]. exfalso. apply N. exists r. reflexivity.
Qed.
Lemma chardata_crlf att r : chardata att None (String cr (String lf r)) = option_map (String (if att then " "%char else lf)) (chardata att None r).
Proof. cbn [chardata]. change (Ascii.eqb cr "&") with false. change (Ascii.eqb cr cr) with true. cbn iota. change (Ascii.eqb lf lf) with true. cbn iota. change (Ascii.eqb lf "&") with false. change (Ascii.eqb lf cr) with false. cbn iota. change (ws lf) with true. rewrite andb_true_r. now destruct att. Qed.
Lemma att_chardata q raw v : AttContent q raw v -> chardata true None raw = Some v.
Proof.
  induction 1 as [|c r v S N H IH|c r v S N H IH|r v N H IH|r v H IH|t u r v R H IH].
  - reflexivity.
  - rewrite chardata_step.
    + apply space_not in S. cbn [andb]. now rewrite S, IH.
    + apply Ascii.eqb_neq. intros ->. apply N. simpl. auto.
    + apply Ascii.eqb_neq. intros ->. apply S. now apply space_iff.
  - rewrite chardata_step.
    + apply space_iff in S. cbn [andb]. now rewrite S, IH.
    + apply Ascii.eqb_neq. intros ->. apply space_iff in S. discriminate S.
    + now apply Ascii.eqb_neq.
  - change CR with cr. now rewrite chardata_cr, IH.
  - change CR with cr. change LF with lf. now rewrite chardata_crlf, IH.
  - now apply chardata_reference.
Qed.
Lemma att_bytes q raw v d : AttContent q raw v -> (d = q \/ d = "<"%char) -> In q ["'"; """"]%char -> all_bytes (fun c => negb (Ascii.eqb c d)) raw = true.
Proof.
  intros H D Q. assert (W : ws d = false /\ ref_byte d = false /\ Ascii.eqb "&" d = false /\ Ascii.eqb ";" d = false).
  { simpl in Q. destruct D as [->| ->]; [destruct Q as [<-|[<-|[]]]|]; repeat split. }
  destruct W as (W & R & A & B).
  assert (X : forall c, Space c -> negb (Ascii.eqb c d) = true) by (intros c S; apply space_iff in S; destruct (Ascii.eqb_spec c d) as [->|]; [congruence|reflexivity]).
  assert (X1 := X CR (proj1 (space_iff CR) eq_refl)). assert (X2 := X LF (proj1 (space_iff LF) eq_refl)).
  induction H as [|c r v S N H IH|c r v S N H IH|r v N H IH|r v H IH|t u r v R' H IH]; cbn [all_bytes].
  - reflexivity.
  - rewrite IH, andb_true_r. apply negb_true_iff, Ascii.eqb_neq. intros ->. apply N. simpl. destruct D as [->| ->]; auto.
  - now rewrite (X c S).
  - now rewrite X1.
  - now rewrite X1, X2.
  - now rewrite all_app, (reference_bytes t u d R' R A B).
Qed.
Lemma chardata_att q raw : all_bytes (fun c => negb (Ascii.eqb c q)) raw = true -> all_bytes (fun c => negb (Ascii.eqb c "<")) raw = true ->
  forall v, chardata true None raw = Some v -> AttContent q raw v.
Proof.
  induction raw as [raw IH] using string_len_ind. intros A B v H. destruct raw as [|c r]; [injection H as <-; constructor|].
  cbn [all_bytes] in A, B. apply andb_true_iff in A, B. destruct A as [A A'], B as [B B'].
  destruct (Ascii.eqb_spec c "&") as [->|N1].
  - change (chardata true None (String "&" r)) with (chardata true (Some "") r) in H. apply chardata_ref in H. destruct H as (t & s & u & w & -> & T & E & W & ->).
    apply entity_ref in E. destruct E as [E _]. change (String "&" (t +++ String ";" s)) with ("&" +++ t +++ (";" +++ s)).
    replace ("&" +++ t +++ (";" +++ s)) with (("&" +++ t +++ ";") +++ s) by (rewrite !app_s_assoc; reflexivity). apply a_ref; [exact E|].
    rewrite all_app in A', B'. cbn [all_bytes] in A', B'. apply andb_true_iff in A', B'. destruct A' as [_ A'], B' as [_ B']. apply andb_true_iff in A', B'.
    apply IH; [|tauto|tauto|exact W]. cbn [String.length]. rewrite length_app_s. cbn [String.length]. lia.
  - destruct (Ascii.eqb_spec c cr) as [->|N2].
    + destruct (lf_head r) as [(r' & ->)|N].
      * change LF with lf in H. rewrite chardata_crlf in H. destruct (chardata true None r') as [w|] eqn:W; [|discriminate]. injection H as <-. cbn [all_bytes] in A', B'. apply andb_true_iff in A', B'.
        apply a_crlf. apply IH; [cbn [String.length]; lia|tauto|tauto|exact W].
      * rewrite (chardata_cr true r N) in H. destruct (chardata true None r) as [w|] eqn:W; [|discriminate]. injection H as <-. apply a_cr; [exact N|].
        apply IH; [cbn [String.length]; lia|tauto|tauto|exact W].
    + rewrite chardata_step in H; [|now apply Ascii.eqb_neq|now apply Ascii.eqb_neq]. destruct (chardata true None r) as [w|] eqn:W; [|discriminate]. injection H as <-.
      assert (G : AttContent q r w) by (apply IH; [cbn [String.length]; lia|tauto|tauto|exact W]).
      cbn [andb]. destruct (ws c) eqn:S.
      * apply a_space; [now apply space_iff|exact N2|exact G].
      * apply a_char; [now apply space_not| |exact G]. apply negb_true_iff, Ascii.eqb_neq in A, B. simpl. intros [->|[<-|[<-|[]]]]; congruence.
Qed.
Lemma quoted_raw_iff s raw r : quoted_raw s = Some (raw, r) <->
  exists q, In q ["'"; """"]%char /\ s = String q (raw +++ String q r) /\ all_bytes (fun c => negb (Ascii.eqb c q)) raw = true.
Proof.
  unfold quoted_raw. destruct s as [|q s]; [split; [discriminate|intros (q & _ & H & _); discriminate H]|].
  destruct (Ascii.eqb q "'" || Ascii.eqb q """")%bool eqn:Q.
  - assert (Q' : In q ["'"; """"]%char) by (apply orb_true_iff in Q; rewrite !Ascii.eqb_eq in Q; simpl; destruct Q as [->| ->]; auto).
    destruct (span (fun c => negb (Ascii.eqb c q)) s) as [a b] eqn:E. split.
    + apply span_inv in E. destruct E as (-> & A & B). destruct b as [|d b]; [discriminate|]. intros [= <- <-]. simpl in B. apply negb_false_iff, Ascii.eqb_eq in B. subst d.
      exists q. auto.
    + intros (q' & _ & H & A). injection H as <- ->. rewrite (span_all _ raw (String q r) A) in E; [|simpl; now rewrite Ascii.eqb_refl]. injection E as <- <-. reflexivity.
  - split; [discriminate|]. intros (q' & I & H & _). injection H as <- _. simpl in I. destruct I as [<-|[<-|[]]]; discriminate Q.
Qed.
Lemma lt_free s : contains "<" s = false <-> all_bytes (fun c => negb (Ascii.eqb c "<")) s = true.
Proof. rewrite contains_byte. now rewrite negb_false_iff. Qed.
Lemma quoted_iff s v r : quoted s = Some (v, r) <-> exists t, AttValue t v /\ s = t +++ r.
Proof.
  unfold quoted. split.
  - destruct (quoted_raw s) as [[raw r']|] eqn:E; [|discriminate]. apply quoted_raw_iff in E. destruct E as (q & Q & -> & A).
    destruct (contains "<" raw) eqn:L; [discriminate|]. apply lt_free in L. destruct (chardata true None raw) as [w|] eqn:W; [|discriminate]. intros [= <- <-].
    exists (String q (raw +++ String q "")). split; [|cbn [append]; now rewrite app_s_assoc]. exists q, raw. split; [exact Q|]. split; [reflexivity|]. now apply chardata_att.
  - intros (t & (q & raw & Q & -> & C) & ->).
    assert (E : quoted_raw (String q (raw +++ String q "") +++ r) = Some (raw, r)).
    { apply quoted_raw_iff. exists q. split; [exact Q|]. split; [cbn [append]; now rewrite app_s_assoc|]. apply (att_bytes q raw v q C); auto. }
    rewrite E. replace (contains "<" raw) with false by (symmetry; apply lt_free; apply (att_bytes q raw v "<"%char C); auto). now rewrite (att_chardata q raw v C).
Qed.

(** ** Text *)
Lemma text_chardata raw v : CharData raw v -> chardata false None raw = Some v /\ all_bytes (fun c => negb (Ascii.eqb c "<")) raw = true.
Proof.
  induction 1 as [|c r v N H [IH IH']|r v N H [IH IH']|r v H [IH IH']|t u r v R H [IH IH']].
  - split; reflexivity.
  - rewrite chardata_step.
    + cbn [andb]. rewrite IH. split; [reflexivity|]. cbn [all_bytes]. rewrite IH', andb_true_r. apply negb_true_iff, Ascii.eqb_neq. intros ->. apply N. simpl. auto.
    + apply Ascii.eqb_neq. intros ->. apply N. simpl. auto.
    + apply Ascii.eqb_neq. intros ->. apply N. simpl. auto.
  - change CR with cr. rewrite (chardata_cr false r N), IH. split; [reflexivity|]. exact IH'.
  - change CR with cr. change LF with lf. rewrite chardata_crlf, IH. split; [reflexivity|]. exact IH'.
  - split; [now apply chardata_reference|]. rewrite all_app, IH', andb_true_r. now apply (reference_bytes t u).
Qed.
Lemma chardata_text_of raw : all_bytes (fun c => negb (Ascii.eqb c "<")) raw = true -> forall v, chardata false None raw = Some v -> CharData raw v.
Proof.
  induction raw as [raw IH] using string_len_ind. intros B v H. destruct raw as [|c r]; [injection H as <-; constructor|].
  cbn [all_bytes] in B. apply andb_true_iff in B. destruct B as [B B'].
  destruct (Ascii.eqb_spec c "&") as [->|N1].
  - change (chardata false None (String "&" r)) with (chardata false (Some "") r) in H. apply chardata_ref in H. destruct H as (t & s & u & w & -> & T & E & W & ->).
    apply entity_ref in E. destruct E as [E _]. change (String "&" (t +++ String ";" s)) with ("&" +++ t +++ (";" +++ s)).
    replace ("&" +++ t +++ (";" +++ s)) with (("&" +++ t +++ ";") +++ s) by (rewrite !app_s_assoc; reflexivity). apply d_ref; [exact E|].
    rewrite all_app in B'. cbn [all_bytes] in B'. apply andb_true_iff in B'. destruct B' as [_ B']. apply andb_true_iff in B'.
    apply IH; [|tauto|exact W]. cbn [String.length]. rewrite length_app_s. cbn [String.length]. lia.
  - destruct (Ascii.eqb_spec c cr) as [->|N2].
    + destruct (lf_head r) as [(r' & ->)|N].
      * change LF with lf in H. rewrite chardata_crlf in H. destruct (chardata false None r') as [w|] eqn:W; [|discriminate]. injection H as <-. cbn [all_bytes] in B'. apply andb_true_iff in B'.
        apply d_crlf. apply IH; [cbn [String.length]; lia|tauto|exact W].
      * rewrite (chardata_cr false r N) in H. destruct (chardata false None r) as [w|] eqn:W; [|discriminate]. injection H as <-. apply d_cr; [exact N|].
        apply IH; [cbn [String.length]; lia|tauto|exact W].
    + rewrite chardata_step in H; [|now apply Ascii.eqb_neq|now apply Ascii.eqb_neq]. destruct (chardata false None r) as [w|] eqn:W; [|discriminate]. injection H as <-.
      cbn [andb]. apply d_char; [|apply IH; [cbn [String.length]; lia|tauto|exact W]].
      apply negb_true_iff, Ascii.eqb_neq in B. simpl. intros [<-|[<-|[<-|[]]]]; [now apply N2|congruence|congruence].
Qed.
Lemma cdata_iff b v : CData b v <-> v = eol b.
Proof.
  split.
  - induction 1 as [|c r v N H IH|r v N H IH|r v H IH]; [reflexivity|..].
    + cbn [eol]. apply Ascii.eqb_neq in N. change CR with cr in N. rewrite N. now subst.
    + change CR with cr. cbn [eol]. change (Ascii.eqb cr cr) with true. cbn iota. destruct r as [|d r]; [now subst|].
      destruct (Ascii.eqb_spec d lf) as [->|]; [exfalso; apply N; exists r; reflexivity|]. now subst.
    + change CR with cr. change LF with lf. cbn [eol]. change (Ascii.eqb cr cr) with true. change (Ascii.eqb lf lf) with true. change (Ascii.eqb lf cr) with false. cbn iota. now subst.
  - intros ->. induction b as [b IH] using string_len_ind. destruct b as [|c r]; [constructor|]. cbn [eol]. destruct (Ascii.eqb_spec c cr) as [->|N].
    + destruct r as [|d r]; [apply e_cr; [intros (x & H); discriminate|constructor]|]. destruct (Ascii.eqb_spec d lf) as [->|N].
      * cbn [eol]. change (Ascii.eqb lf cr) with false. cbn iota. apply e_crlf. apply IH. cbn [String.length]. lia.
      * apply e_cr; [intros (x & H); injection H as H _; exact (N H)|]. apply IH. cbn [String.length]. lia.
    + apply e_char; [exact N|]. apply IH. cbn [String.length]. lia.
Qed.

(** ** Names *)
Lemma qname_inv s n r : qname s = Some (n, r) -> exists t, QName t n /\ s = t +++ r /\ stops name_byte r.
Proof.
  unfold qname. destruct (span name_byte s) as [a b] eqn:E. apply span_inv in E. destruct E as (-> & A & B).
  destruct (ncname a) eqn:N; [|discriminate]. apply ncname_iff in N.
  destruct b as [|c b]; [intros [= <- <-]; exists a; split; [now constructor|]; split; [reflexivity|exact I]|].
  destruct (Ascii.eqb_spec c ":") as [->|C].
  - destruct (span name_byte b) as [x y] eqn:E. apply span_inv in E. destruct E as (-> & A' & B').
    destruct (ncname x) eqn:N'; [|discriminate]. apply ncname_iff in N'. intros [= <- <-]. exists (a +++ ":" +++ x). split; [now constructor|]. split; [|exact B'].
    rewrite app_s_assoc. reflexivity.
  - intros H. assert (H' : Some (("", a), String c b) = Some (n, r)).
    { rewrite <- H. destruct c as [[] [] [] [] [] [] [] []]; try reflexivity. exfalso. apply C. reflexivity. }
    injection H' as <- <-. exists a. split; [now constructor|]. split; [reflexivity|exact B].
Qed.
Lemma qname_of t n r : QName t n -> stops name_byte r -> (forall r', r <> String ":" r') -> qname (t +++ r) = Some (n, r).
Proof.
  intros Q B C. unfold qname. destruct Q as [s N|p s P N].
  - apply ncname_iff in N. rewrite (span_all name_byte s r (ncname_bytes _ N) B), N. destruct r as [|c r]; [reflexivity|].
    destruct c as [[] [] [] [] [] [] [] []]; try reflexivity. exfalso. now apply (C r).
  - apply ncname_iff in P, N. rewrite app_s_assoc. rewrite (span_all name_byte p ((":" +++ s) +++ r) (ncname_bytes _ P)); [|reflexivity]. rewrite P. cbn [append].
    rewrite (span_all name_byte s r (ncname_bytes _ N) B). now rewrite N.
Qed.
