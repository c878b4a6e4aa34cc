(** * NameProof: derived names *)
From Verif Require Import Base Libs Ast XsdNode Parse TextSpec MiscSpec CharProof.

(** ** Common prefixes of character lists *)
Lemma common_prefix_l a b : exists r, a = common_chars a b ++ r.
Proof.
  revert b. induction a as [|x a IH]; intros [|y b]; simpl; eauto.
  destruct (_ && _); simpl; [|eauto]. destruct (IH b) as [r E]. exists r. now f_equal.
Qed.

Lemma common_prefix_r a b : exists r, b = common_chars a b ++ r.
Proof.
  revert b. induction a as [|x a IH]; intros [|y b]; simpl; eauto.
  destruct (x =?s y) eqn:E; simpl; [|eauto]. apply String.eqb_eq in E. subst y.
  destruct (negb (x =?s "_")); simpl; [|eauto]. destruct (IH b) as [r E]. exists r. now f_equal.
Qed.

Lemma common_no_underscore a b : ~ In "_" (common_chars a b).
Proof.
  revert b. induction a as [|x a IH]; intros [|y b]; simpl; try tauto.
  destruct (x =?s y); simpl; [|tauto].
  destruct (String.eqb_spec x "_") as [E|N]; simpl; [tauto|].
  destruct (negb (y =?s "_")); simpl; [|tauto]. intros [H|H]; [congruence|]. eapply IH, H.
Qed.

Lemma common_maximal q a b ra rb : a = q ++ ra -> b = q ++ rb -> ~ In "_" q ->
  exists r, common_chars a b = q ++ r.
Proof.
  revert a b. induction q as [|x q IH]; intros a b -> -> N; simpl; [eauto|].
  rewrite String.eqb_refl. destruct (String.eqb_spec x "_") as [->|Nx]; simpl.
  - exfalso. apply N. now left.
  - destruct (IH (q ++ ra) (q ++ rb)) as [r E]; auto. { intros H. apply N. now right. }
    exists r. now rewrite E.
Qed.

Lemma prefix_trans a b c : char_prefix a b -> char_prefix b c -> char_prefix a c.
Proof.
  intros [r E] [r' E']. exists (r ++ r'). now rewrite E', E, app_assoc.
Qed.
Lemma suffix_trans a b c : char_suffix a b -> char_suffix b c -> char_suffix a c.
Proof.
  intros [r E] [r' E']. exists (r' ++ r). now rewrite E', E, app_assoc.
Qed.

Section WithLibs.
Context {L : Libs}.

Lemma mutal_prefix_chars l r :
  utf8_chars (mutal_prefix l r)
  = common_chars (utf8_chars (to_snake_case l)) (utf8_chars (to_snake_case r)).
Proof.
  unfold mutal_prefix. apply wfl_chars.
  destruct (common_prefix_l (utf8_chars (to_snake_case l)) (utf8_chars (to_snake_case r))) as [x E].
  eapply wfl_app_l. rewrite <- E. apply chars_wfl.
Qed.

Lemma mutal_suffix_chars l r :
  utf8_chars (mutal_suffix l r)
  = rev (common_chars (rev (utf8_chars (to_snake_case l))) (rev (utf8_chars (to_snake_case r)))).
Proof.
  unfold mutal_suffix. apply wfl_chars.
  destruct (common_prefix_l (rev (utf8_chars (to_snake_case l))) (rev (utf8_chars (to_snake_case r)))) as [x E].
  apply (f_equal (@rev string)) in E. rewrite rev_involutive, rev_app_distr in E.
  eapply wfl_app_r. rewrite <- E. apply chars_wfl.
Qed.

Definition good_prefix (p : string) (names : list string) : Prop :=
  no_underscore p /\ Forall (fun n => char_prefix p (to_snake_case n)) names.
Definition good_suffix (p : string) (names : list string) : Prop :=
  no_underscore p /\ Forall (fun n => char_suffix p (to_snake_case n)) names.

Lemma mutal_prefix_two a b : good_prefix (mutal_prefix a b) [a; b].
Proof.
  split.
  - unfold no_underscore. rewrite mutal_prefix_chars. apply common_no_underscore.
  - repeat constructor; unfold char_prefix; rewrite mutal_prefix_chars;
      [apply common_prefix_l|apply common_prefix_r].
Qed.

Lemma mutal_suffix_two a b : good_suffix (mutal_suffix a b) [a; b].
Proof.
  split.
  - unfold no_underscore. rewrite mutal_suffix_chars, <- in_rev. apply common_no_underscore.
  - set (x := rev (utf8_chars (to_snake_case a))). set (y := rev (utf8_chars (to_snake_case b))).
    repeat constructor; unfold char_suffix; rewrite mutal_suffix_chars; fold x y.
    + destruct (common_prefix_l x y) as [r E]. exists (rev r). rewrite <- rev_app_distr, <- E.
      unfold x. now rewrite rev_involutive.
    + destruct (common_prefix_r x y) as [r E]. exists (rev r). rewrite <- rev_app_distr, <- E.
      unfold y. now rewrite rev_involutive.
Qed.

Lemma mutal_prefix_maximal a b q :
  char_prefix q (to_snake_case a) -> char_prefix q (to_snake_case b) -> no_underscore q ->
  char_prefix q (mutal_prefix a b).
Proof.
  intros [ra Ea] [rb Eb] N. unfold char_prefix. rewrite mutal_prefix_chars.
  eapply common_maximal; eauto.
Qed.

Lemma mutal_suffix_maximal a b q :
  char_suffix q (to_snake_case a) -> char_suffix q (to_snake_case b) -> no_underscore q ->
  char_suffix q (mutal_suffix a b).
Proof.
  intros [ra Ea] [rb Eb] N. unfold char_suffix. rewrite mutal_suffix_chars.
  destruct (common_maximal (rev (utf8_chars q)) (rev (utf8_chars (to_snake_case a)))
    (rev (utf8_chars (to_snake_case b))) (rev ra) (rev rb)) as [r E].
  - now rewrite Ea, rev_app_distr.
  - now rewrite Eb, rev_app_distr.
  - rewrite <- in_rev. exact N.
  - exists (rev r). rewrite E, rev_app_distr, rev_involutive. reflexivity.
Qed.

Lemma fold_prefix rest : snake_stable to_snake_case -> forall acc seen,
  seen <> [] -> good_prefix acc seen -> good_prefix (fold_left mutal_prefix rest acc) (seen ++ rest).
Proof.
  intros [St _]. induction rest as [|r rest IH]; intros acc seen N [U F]; simpl.
  - rewrite app_nil_r. split; assumption.
  - replace (seen ++ r :: rest) with ((seen ++ [r]) ++ rest) by now rewrite <- app_assoc.
    apply IH; [destruct seen; discriminate|]. destruct (mutal_prefix_two acc r) as [U' F'].
    inversion F' as [|? ? P1 F'']; subst. inversion F'' as [|? ? P2 _]; subst.
    split; [exact U'|]. apply Forall_app. split; [|auto].
    eapply Forall_impl; [|exact F]. intros n Hn. simpl in Hn.
    eapply prefix_trans; [|exact Hn]. eapply St; eauto.
Qed.

Lemma fold_suffix rest : snake_stable to_snake_case -> forall acc seen,
  seen <> [] -> good_suffix acc seen -> good_suffix (fold_left mutal_suffix rest acc) (seen ++ rest).
Proof.
  intros [_ St]. induction rest as [|r rest IH]; intros acc seen N [U F]; simpl.
  - rewrite app_nil_r. split; assumption.
  - replace (seen ++ r :: rest) with ((seen ++ [r]) ++ rest) by now rewrite <- app_assoc.
    apply IH; [destruct seen; discriminate|]. destruct (mutal_suffix_two acc r) as [U' F'].
    inversion F' as [|? ? P1 F'']; subst. inversion F'' as [|? ? P2 _]; subst.
    split; [exact U'|]. apply Forall_app. split; [|auto].
    eapply Forall_impl; [|exact F]. intros n Hn. simpl in Hn.
    eapply suffix_trans; [|exact Hn]. eapply St; eauto.
Qed.

Lemma derive_prefix a b rest p : snake_stable to_snake_case ->
  derive_mutal_prefix (a :: b :: rest) = Some p -> p <> "" /\ good_prefix p (a :: b :: rest).
Proof.
  intros St. unfold derive_mutal_prefix, derive_mutal. simpl fold_left.
  destruct (is_empty _) eqn:E; [discriminate|]. intros H; injection H as <-. split.
  - intros H. rewrite H in E. discriminate.
  - apply (fold_prefix rest St (mutal_prefix a b) [a; b]); [discriminate|apply mutal_prefix_two].
Qed.

Lemma derive_suffix a b rest p : snake_stable to_snake_case ->
  derive_mutal_suffix (a :: b :: rest) = Some p -> p <> "" /\ good_suffix p (a :: b :: rest).
Proof.
  intros St. unfold derive_mutal_suffix, derive_mutal. simpl fold_left.
  destruct (is_empty _) eqn:E; [discriminate|]. intros H; injection H as <-. split.
  - intros H. rewrite H in E. discriminate.
  - apply (fold_suffix rest St (mutal_suffix a b) [a; b]); [discriminate|apply mutal_suffix_two].
Qed.

Lemma derive_prefix_two a b q :
  char_prefix q (to_snake_case a) -> char_prefix q (to_snake_case b) -> no_underscore q ->
  match derive_mutal_prefix [a; b] with Some p => char_prefix q p | None => q = "" end.
Proof.
  intros Ha Hb N. pose proof (mutal_prefix_maximal a b q Ha Hb N) as M.
  unfold derive_mutal_prefix, derive_mutal. simpl fold_left.
  destruct (mutal_prefix a b) as [|c s] eqn:E; simpl; [|exact M].
  destruct M as [r M]. simpl in M. symmetry in M. apply app_eq_nil in M. destruct M as [M _].
  rewrite <- (utf8_chars_concat q), M. reflexivity.
Qed.

Lemma derive_suffix_two a b q :
  char_suffix q (to_snake_case a) -> char_suffix q (to_snake_case b) -> no_underscore q ->
  match derive_mutal_suffix [a; b] with Some p => char_suffix q p | None => q = "" end.
Proof.
  intros Ha Hb N. pose proof (mutal_suffix_maximal a b q Ha Hb N) as M.
  unfold derive_mutal_suffix, derive_mutal. simpl fold_left.
  destruct (mutal_suffix a b) as [|c s] eqn:E; simpl; [|exact M].
  destruct M as [r M]. simpl in M. symmetry in M. apply app_eq_nil in M. destruct M as [_ M].
  rewrite <- (utf8_chars_concat q), M. reflexivity.
Qed.

(** ** Panics *)
Definition narrow_first (s : string) : Prop :=
  match utf8_chars s with [] => True | c :: _ => String.length c = 1 end.

Lemma narrow_first_spec s : narrow_first s <->
  match s with "" => True | String _ rest => starts_with_cont rest = false end.
Proof.
  unfold narrow_first. destruct s as [|c s]; simpl; [tauto|].
  pose proof (utf8_head s) as H. destruct (utf8_chars s) as [|h t] eqn:E.
  - subst s. simpl. tauto.
  - rewrite <- H. destruct (starts_with_cont h) eqn:S; simpl; [|tauto].
    split; [|discriminate]. destruct h; [discriminate|]. simpl. discriminate.
Qed.

Lemma concat_upper_ok names : Forall narrow_first names -> exists s, concat_upper names = Ok s.
Proof.
  induction 1 as [|n names Hn H [s IH]]; simpl; [eauto|].
  apply narrow_first_spec in Hn. destruct n as [|c n]; [eauto|]. rewrite Hn, IH. simpl. eauto.
Qed.

Lemma derive_virtual_name_ok names shorten c :
  Forall (fun n => narrow_first (nm n)) names ->
  exists n, derive_virtual_name names shorten c = Ok (n, c).
Proof.
  intros H. unfold derive_virtual_name.
  destruct (if shorten then _ else _) as [s|]; [eauto|].
  destruct (concat_upper_ok (map nm names)) as [s ->]; [now apply Forall_map|]. simpl. eauto.
Qed.

Lemma derive_virtual_name_total names shorten c :
  (exists n, derive_virtual_name names shorten c = Ok (n, c))
  \/ (exists w, derive_virtual_name names shorten c = Panic w).
Proof.
  unfold derive_virtual_name. destruct (if shorten then _ else _) as [s|]; [eauto|].
  assert (H : (exists s, concat_upper (map nm names) = Ok s) \/ (exists w, concat_upper (map nm names) = Panic w)).
  { induction (map nm names) as [|n l IH]; simpl; [eauto|]. destruct n as [|a n]; [exact IH|].
    destruct (starts_with_cont n); [eauto|]. destruct IH as [[s ->]|[w ->]]; simpl; eauto. }
  destruct H as [[s ->]|[w ->]]; simpl; eauto.
Qed.
End WithLibs.

(** ** The ASCII instance is stable *)
Definition asc (c : ascii) : string := String c "".
Lemma asc_inj a b : asc a = asc b -> a = b.
Proof. intros H. now injection H. Qed.

Fixpoint sl (l : list ascii) : string := match l with [] => "" | c :: l => String c (sl l) end.
Lemma sl_eq l : string_of_list_ascii l = sl l.
Proof. induction l; simpl; congruence. Qed.

Definition low (c : ascii) : Prop := nat_of_ascii c < 128.
Lemma low_not_cont c : low c -> is_cont_byte c = false.
Proof.
  unfold low, is_cont_byte. intros H. destruct (Nat.leb_spec 128 (nat_of_ascii c)); [lia|reflexivity].
Qed.

Lemma chars_sl l : Forall low l -> utf8_chars (sl l) = map asc l.
Proof.
  induction 1 as [|c l Hc H IH]; simpl; [reflexivity|]. rewrite IH. destruct l as [|d l]; simpl; [reflexivity|].
  inversion H; subst. now rewrite low_not_cont.
Qed.

Definition lowalnum (c : ascii) : Prop := is_alnum_a c = true /\ ascii_lower c = c /\ low c.

Lemma lower_lowalnum c : is_alnum_a c = true -> lowalnum (ascii_lower c).
Proof. destruct c as [[] [] [] [] [] [] [] []]; vm_compute; intros H; try discriminate; repeat split; repeat constructor. Qed.

Lemma underscore_not_alnum : is_alnum_a "_" = false.
Proof. reflexivity. Qed.

Lemma snake_go_chars full n prev first :
  Forall (fun c => c = "_"%char \/ lowalnum c) (snake_go full n prev first).
Proof.
  revert full prev first. induction n as [|n IH]; intros [|c full] prev first; simpl; try constructor.
  destruct (is_alnum_a c) eqn:A; simpl.
  - assert (X : lowalnum (ascii_lower c)) by now apply lower_lowalnum.
    destruct (_ && _); [constructor; [now left|]|]; (constructor; [now right|apply IH]).
  - destruct first; [apply IH|]. constructor; [now left|apply IH].
Qed.

Lemma snake_low s : Forall low (snake_go (list_ascii_of_string s) (length (trim_right_a (list_ascii_of_string s))) "A"%char true).
Proof.
  eapply Forall_impl; [|apply snake_go_chars]. simpl. intros c [->|H]; [|apply H].
  unfold low. vm_compute. repeat constructor.
Qed.

Lemma snake_chars s : utf8_chars (snake_ascii s)
  = map asc (snake_go (list_ascii_of_string s) (length (trim_right_a (list_ascii_of_string s))) "A"%char true).
Proof. unfold snake_ascii. rewrite sl_eq. apply chars_sl, snake_low. Qed.

Definition not_us (c : ascii) : bool := negb (Ascii.eqb c "_").

(** On alphanumeric input only separators are added. *)
Lemma snake_go_alnum full n prev first : Forall lowalnum full ->
  filter not_us (snake_go full n prev first) = firstn n full.
Proof.
  intros H. revert n prev first. induction H as [|c full (A & Lw & _) H IH]; intros [|n] prev first; try reflexivity.
  cbn [snake_go firstn]. rewrite A. cbn [negb].
  assert (N : not_us c = true).
  { unfold not_us. destruct (Ascii.eqb_spec c "_"); [subst; discriminate|reflexivity]. }
  destruct (_ && _); simpl filter; rewrite ?Lw, ?N, IH; reflexivity.
Qed.

Lemma trim_alnum l : Forall lowalnum l -> trim_right_a l = l.
Proof.
  induction 1 as [|c l (A & _) H IH]; simpl; [reflexivity|]. rewrite IH. destruct l; [now rewrite A|reflexivity].
Qed.

Lemma filter_all l : Forall (fun c => not_us c = true) l -> filter not_us l = l.
Proof. induction 1 as [|c l Hc H IH]; simpl; [reflexivity|]. now rewrite Hc, IH. Qed.

Lemma map_asc_app q a r : a = q ++ r -> forall l, a = map asc l -> exists q' r', l = q' ++ r' /\ q = map asc q' /\ r = map asc r'.
Proof.
  revert a. induction q as [|x q IH]; intros a -> l E; simpl in *.
  - exists [], l. auto.
  - destruct l as [|c l]; [discriminate|]. injection E as -> E.
    destruct (IH _ eq_refl l E) as (q' & r' & -> & -> & ->). exists (c :: q'), r'. auto.
Qed.

Lemma no_us_list q : ~ In "_" (map asc q) -> Forall (fun c => not_us c = true) q.
Proof.
  intros H. apply Forall_forall. intros c Hc. unfold not_us.
  destruct (Ascii.eqb_spec c "_") as [->|]; [|reflexivity]. exfalso. apply H.
  apply (in_map asc) in Hc. exact Hc.
Qed.

Lemma list_of_sl l : list_ascii_of_string (sl l) = l.
Proof. induction l; simpl; congruence. Qed.

Lemma utf8_chars_inj a b : utf8_chars a = utf8_chars b -> a = b.
Proof. intros H. rewrite <- (utf8_chars_concat a), <- (utf8_chars_concat b). congruence. Qed.

(** A separator-free piece of a converted string is a string of lower-case
    letters and digits. *)
Lemma piece p l : utf8_chars p = map asc l -> no_underscore p ->
  Forall (fun c => c = "_"%char \/ lowalnum c) l ->
  p = sl l /\ Forall lowalnum l /\ utf8_chars (snake_ascii p) = map asc (snake_go l (length l) "A"%char true).
Proof.
  intros E N F.
  assert (F' : Forall lowalnum l).
  { apply Forall_forall. intros c Hc. rewrite Forall_forall in F. destruct (F c Hc) as [->|H]; [|exact H].
    exfalso. apply N. rewrite E. apply (in_map asc) in Hc. exact Hc. }
  assert (Ep : p = sl l).
  { apply utf8_chars_inj. rewrite E, chars_sl; [reflexivity|]. eapply Forall_impl; [|exact F']. intros c H. apply H. }
  split; [exact Ep|]. split; [exact F'|].
  rewrite snake_chars, Ep, list_of_sl, trim_alnum by exact F'. reflexivity.
Qed.

Lemma ascii_stable : snake_stable (@to_snake_case ascii_libs).
Proof.
  split; simpl; intros s p q [r Hp] Np [r' Hq] Nq.
  - rewrite snake_chars in Hp. symmetry in Hp.
    destruct (map_asc_app (utf8_chars p) _ r (eq_sym Hp) _ eq_refl) as (l & rest & El & Ep & _).
    assert (F : Forall (fun c => c = "_"%char \/ lowalnum c) l).
    { pose proof (snake_go_chars (list_ascii_of_string s) (length (trim_right_a (list_ascii_of_string s))) "A"%char true) as F.
      rewrite El in F. apply Forall_app in F. apply F. }
    destruct (piece p l Ep Np F) as (-> & F' & Es). rewrite Es in Hq. symmetry in Hq.
    destruct (map_asc_app (utf8_chars q) _ r' (eq_sym Hq) _ eq_refl) as (m & mr & Em & Eq & _).
    exists (map asc (filter not_us mr)). rewrite Ep, Eq, <- map_app. f_equal.
    pose proof (snake_go_alnum l (length l) "A"%char true F') as G. rewrite Em, filter_app, firstn_all in G.
    rewrite <- G. f_equal. apply filter_all, no_us_list. rewrite <- Eq. exact Nq.
  - rewrite snake_chars in Hp. symmetry in Hp.
    destruct (map_asc_app r _ (utf8_chars p) (eq_sym Hp) _ eq_refl) as (rest & l & El & _ & Ep).
    assert (F : Forall (fun c => c = "_"%char \/ lowalnum c) l).
    { pose proof (snake_go_chars (list_ascii_of_string s) (length (trim_right_a (list_ascii_of_string s))) "A"%char true) as F.
      rewrite El in F. apply Forall_app in F. apply F. }
    destruct (piece p l Ep Np F) as (-> & F' & Es). rewrite Es in Hq. symmetry in Hq.
    destruct (map_asc_app r' _ (utf8_chars q) (eq_sym Hq) _ eq_refl) as (mr & m & Em & _ & Eq).
    exists (map asc (filter not_us mr)). rewrite Ep, Eq, <- map_app. f_equal.
    pose proof (snake_go_alnum l (length l) "A"%char true F') as G. rewrite Em, filter_app, firstn_all in G.
    rewrite <- G. f_equal. apply filter_all, no_us_list. rewrite <- Eq. exact Nq.
Qed.
