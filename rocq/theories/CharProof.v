(** * CharProof: characters of strings, words, shared prefixes *)
From Verif Require Import Base Libs Ast XsdNode Parse TextSpec MiscSpec.

Fixpoint all_cont (s : string) : bool :=
  match s with EmptyString => true | String c s => andb (is_cont_byte c) (all_cont s) end.
Definition is_char (c : string) : Prop := exists b r, c = String b r /\ all_cont r = true.
Definition lead (c : string) : Prop := starts_with_cont c = false.
Definition wfl (l : list string) : Prop :=
  match l with [] => True | c :: t => is_char c /\ Forall (fun d => is_char d /\ lead d) t end.

Lemma utf8_head s : match utf8_chars s with
                    | [] => s = ""
                    | h :: _ => starts_with_cont h = starts_with_cont s
                    end.
Proof.
  destruct s as [|c s]; simpl; [reflexivity|].
  destruct (utf8_chars s) as [|h t]; [reflexivity|]. destruct (starts_with_cont h); reflexivity.
Qed.

Lemma utf8_char_app x r s : all_cont r = true -> starts_with_cont s = false ->
  utf8_chars (String x r +++ s) = String x r :: utf8_chars s.
Proof.
  revert x. induction r as [|y r IH]; intros x Hr Hs.
  - simpl. pose proof (utf8_head s) as H. destruct (utf8_chars s) as [|h t]; [reflexivity|].
    now rewrite H, Hs.
  - simpl in Hr. apply andb_prop in Hr. destruct Hr as [Hy Hr].
    specialize (IH y Hr Hs). change (String x (String y r) +++ s) with (String x (String y r +++ s)).
    cbn [utf8_chars]. rewrite IH. simpl starts_with_cont. now rewrite Hy.
Qed.

Lemma concat_cons h t : concat_str (h :: t) = h +++ concat_str t.
Proof. unfold concat_str. destruct t; simpl; [now rewrite app_s_nil_r | reflexivity]. Qed.

Lemma concat_app a b : concat_str (a ++ b) = concat_str a +++ concat_str b.
Proof.
  induction a as [|h a IH]; [reflexivity|]. rewrite <- app_comm_cons, !concat_cons, IH.
  now rewrite app_s_assoc.
Qed.

Lemma chars_wfl s : wfl (utf8_chars s).
Proof.
  induction s as [|c s IH]; simpl; [exact I|].
  destruct (utf8_chars s) as [|h t]; simpl.
  - split; [|constructor]. exists c, "". auto.
  - simpl in IH. destruct IH as [(b & r & -> & Hr) Ht]. destruct (starts_with_cont (String b r)) eqn:E; simpl in E |- *.
    + split; [|exact Ht]. exists c, (String b r). split; [reflexivity|]. simpl. now rewrite E.
    + split; [exists c, ""; auto|]. constructor; [|exact Ht]. split; [exists b, r; auto|exact E].
Qed.

Lemma lead_concat t : Forall (fun d => is_char d /\ lead d) t -> starts_with_cont (concat_str t) = false.
Proof.
  destruct 1 as [|d t [(b & r & -> & _) Hl] _]; [reflexivity|]. rewrite concat_cons. exact Hl.
Qed.

Lemma wfl_chars l : wfl l -> utf8_chars (concat_str l) = l.
Proof.
  assert (T : forall t, Forall (fun d => is_char d /\ lead d) t -> utf8_chars (concat_str t) = t).
  { induction 1 as [|d t [(b & r & -> & Hr) Hl] Ht IH]; [reflexivity|].
    rewrite concat_cons, utf8_char_app; auto using lead_concat. now rewrite IH. }
  destruct l as [|c t]; [reflexivity|]. intros [(b & r & -> & Hr) Ht].
  rewrite concat_cons, utf8_char_app; auto using lead_concat. now rewrite T.
Qed.

Lemma wfl_app_l a b : wfl (a ++ b) -> wfl a.
Proof.
  destruct a as [|c a]; simpl; [trivial|]. intros [H1 H2]. split; [exact H1|].
  apply Forall_app in H2. tauto.
Qed.

Lemma wfl_tail c t : wfl (c :: t) -> Forall (fun d => is_char d /\ lead d) t.
Proof. simpl. tauto. Qed.

Lemma wfl_of_tail t : Forall (fun d => is_char d /\ lead d) t -> wfl t.
Proof. destruct 1 as [|d t [H1 _] H2]; simpl; auto. Qed.

Lemma wfl_app_r a b : wfl (a ++ b) -> wfl b.
Proof.
  destruct a as [|c a]; simpl; [trivial|]. intros [_ H]. apply Forall_app in H.
  apply wfl_of_tail, H.
Qed.

Lemma wfl_is_char l : wfl l -> Forall is_char l.
Proof.
  destruct l as [|c t]; intros H; constructor; [apply H|].
  destruct H as [_ H]. eapply Forall_impl; [|exact H]. simpl. tauto.
Qed.

Lemma is_char_nonempty c : is_char c -> is_empty c = false.
Proof. intros (b & r & -> & _). reflexivity. Qed.

(** ** Words *)
Notation ws c := (char_is_whitespace c = true).
Notation nws c := (char_is_whitespace c = false).

Fixpoint wl (cs : list string) (cur : list string) : list (list string) :=
  match cs with
  | [] => match cur with [] => [] | _ => [cur] end
  | c :: cs' =>
      if char_is_whitespace c then
        match cur with [] => wl cs' [] | _ => cur :: wl cs' [] end
      else wl cs' (cur ++ [c])
  end.

Lemma concat_empty w : Forall is_char w -> is_empty (concat_str w) = match w with [] => true | _ => false end.
Proof. destruct 1 as [|c w (b & r & -> & _) H]; [reflexivity|]. rewrite concat_cons. reflexivity. Qed.

Lemma words_go_wl cs cur : Forall is_char cs -> Forall is_char cur ->
  words_go cs (concat_str cur) = map concat_str (wl cs cur).
Proof.
  intros H. revert cur. induction H as [|c cs Hc H IH]; intros cur Hcur; simpl.
  - rewrite concat_empty by exact Hcur. destruct cur; reflexivity.
  - destruct (char_is_whitespace c).
    + rewrite concat_empty by exact Hcur. specialize (IH [] (Forall_nil _)).
      change (concat_str []) with "" in IH. rewrite IH. destruct cur; reflexivity.
    + rewrite <- IH.
      * rewrite concat_app. unfold concat_str at 3. simpl. reflexivity.
      * apply Forall_app. auto.
Qed.

Lemma wl_space s rest : space s -> wl (s ++ rest) [] = wl rest [].
Proof. induction 1 as [|c s Hc H IH]; simpl; [reflexivity|]. now rewrite Hc. Qed.

Lemma wl_word w rest cur : Forall (fun c => nws c) w -> wl (w ++ rest) cur = wl rest (cur ++ w).
Proof.
  intros H. revert cur. induction H as [|c w Hc H IH]; intros cur; simpl; [now rewrite app_nil_r|].
  rewrite Hc, IH, <- app_assoc. reflexivity.
Qed.

Lemma wl_space1 s rest cur : space s -> s <> [] -> cur <> [] -> wl (s ++ rest) cur = cur :: wl rest [].
Proof.
  intros [|c s' Hc H] N1 N2; [congruence|]. simpl. rewrite Hc, wl_space by exact H.
  destruct cur; [congruence|reflexivity].
Qed.

Lemma wordy_wl cs l : wordy cs l -> wl cs [] = l.
Proof.
  induction 1 as [s Hs|s w s' Hs [Hw1 Hw2] Hs'|s w s' rest l Hs [Hw1 Hw2] Hs' Ns' Nl H IH].
  - rewrite <- (app_nil_r s), wl_space by exact Hs. reflexivity.
  - rewrite wl_space, wl_word by assumption. simpl app. destruct s' as [|c s'].
    + simpl. destruct w; [congruence|reflexivity].
    + rewrite <- (app_nil_r (c :: s')), wl_space1 by (try discriminate; assumption). reflexivity.
  - rewrite wl_space, wl_word by assumption. simpl app. rewrite wl_space1 by assumption. now rewrite IH.
Qed.

Lemma wl_wordy cs : forall cur, Forall (fun c => nws c) cur -> wordy (cur ++ cs) (wl cs cur).
Proof.
  induction cs as [|c cs IH]; intros cur Hcur; simpl.
  - destruct cur as [|d cur].
    + constructor. constructor.
    + apply (wd_last [] (d :: cur) []); [constructor|split; [discriminate|exact Hcur]|constructor].
  - destruct (char_is_whitespace c) eqn:E.
    + specialize (IH [] (Forall_nil _)). simpl in IH. destruct cur as [|d cur]; simpl.
      * inversion IH as [s Hs|s w s' Hs Hw Hs'|s w s' rest l Hs Hw Hs' Ns' Nl H]; subst.
        -- constructor. constructor; assumption.
        -- apply (wd_last (c :: s)); auto. constructor; assumption.
        -- apply (wd_more (c :: s)); auto. constructor; assumption.
      * destruct (wl cs []) as [|w l] eqn:W.
        -- inversion IH; subst. apply (wd_last [] (d :: cur) (c :: cs)); [constructor|split; [discriminate|exact Hcur]|].
           constructor; assumption.
        -- apply (wd_more [] (d :: cur) [c] cs); try discriminate; try assumption.
           ++ constructor.
           ++ split; [discriminate|exact Hcur].
           ++ constructor; [exact E|constructor].
    + specialize (IH (cur ++ [c])). rewrite <- app_assoc in IH. apply IH.
      apply Forall_app. auto.
Qed.

(** The characters of the words joined by single spaces. *)
Fixpoint spaced (l : list (list string)) : list string :=
  match l with
  | [] => []
  | [w] => w
  | w :: l' => w ++ [" "] ++ spaced l'
  end.

Lemma join_cons a b l : join_space (a :: b :: l) = a +++ " " +++ join_space (b :: l).
Proof. reflexivity. Qed.

Lemma join_spaced l : join_space (map concat_str l) = concat_str (spaced l).
Proof.
  induction l as [|w l IH]; [reflexivity|]. destruct l as [|w2 l].
  - reflexivity.
  - cbn [map]. rewrite join_cons. change (spaced (w :: w2 :: l)) with (w ++ [" "] ++ spaced (w2 :: l)).
    rewrite !concat_app, <- IH. reflexivity.
Qed.

Lemma wordy_words cs l : wordy cs l -> Forall word l.
Proof. induction 1; repeat constructor; try assumption; try apply H0. Qed.

Lemma spaced_wordy l : Forall word l -> wordy (spaced l) l.
Proof.
  induction 1 as [|w l Hw H IH]; [constructor; constructor|]. destruct l as [|w2 l].
  - simpl. rewrite <- (app_nil_r w) at 1. apply (wd_last [] w []); auto; constructor.
  - change (spaced (w :: w2 :: l)) with ([] ++ w ++ [" "] ++ spaced (w2 :: l)).
    apply wd_more; auto; try discriminate; repeat constructor.
Qed.

Lemma space_char : is_char " " /\ lead " ".
Proof. split; [exists " "%char, ""; auto|reflexivity]. Qed.

Lemma wordy_spaced_wfl cs l : wordy cs l -> wfl cs -> wfl (spaced l).
Proof.
  assert (T : forall cs l, wordy cs l -> Forall (fun d => is_char d /\ lead d) cs ->
            Forall (fun d => is_char d /\ lead d) (spaced l)).
  { clear. induction 1 as [s Hs|s w s' Hs Hw Hs'|s w s' rest l Hs Hw Hs' Ns' Nl H IH]; intros F.
    - constructor.
    - rewrite !Forall_app in F. apply F.
    - rewrite !Forall_app in F. destruct F as (_ & F1 & _ & F2). destruct l as [|w2 l]; [congruence|].
      change (spaced (w :: w2 :: l)) with (w ++ [" "] ++ spaced (w2 :: l)).
      rewrite !Forall_app. split; [exact F1|]. split; [constructor; [apply space_char|constructor]|].
      apply IH, F2. }
  intros H F. destruct H as [s Hs|s w s' Hs Hw Hs'|s w s' rest l Hs Hw Hs' Ns' Nl H].
  - exact I.
  - apply wfl_app_r, wfl_app_l in F. exact F.
  - apply wfl_app_r in F. destruct l as [|w2 l]; [congruence|].
    change (spaced (w :: w2 :: l)) with (w ++ [" "] ++ spaced (w2 :: l)).
    destruct Hw as [Hw _]. destruct w as [|c w]; [congruence|]. destruct F as [F1 F2].
    split; [exact F1|]. rewrite !Forall_app in F2. destruct F2 as (F2 & _ & F3).
    change (w ++ [" "] ++ spaced (w2 :: l)) with (w ++ ([" "] ++ spaced (w2 :: l))).
    rewrite !Forall_app. split; [exact F2|]. split; [constructor; [apply space_char|constructor]|].
    eapply T; eauto.
Qed.

Lemma cleanup_wl s : cleanup_docs s = join_space (map concat_str (wl (utf8_chars s) [])).
Proof.
  unfold cleanup_docs, split_whitespace. f_equal. change "" with (concat_str []).
  apply words_go_wl; [apply wfl_is_char, chars_wfl|constructor].
Qed.

Lemma wordy_det cs l l' : wordy cs l -> wordy cs l' -> l = l'.
Proof. intros H1 H2. apply wordy_wl in H1, H2. congruence. Qed.

Lemma spaced_last l : l <> [] -> Forall word l -> exists c, nws c /\ exists r, spaced l = r ++ [c].
Proof.
  intros N H. induction H as [|w l Hw H IH]; [congruence|]. destruct l as [|w2 l].
  - simpl. destruct Hw as [Hw1 Hw2]. destruct (exists_last Hw1) as (r & c & ->).
    exists c. split; [|eauto]. apply Forall_app in Hw2. destruct Hw2 as [_ Hw2]. now inversion Hw2.
  - destruct IH as (c & Hc & r & E); [discriminate|].
    exists c. split; [exact Hc|]. exists (w ++ [" "] ++ r).
    change (spaced (w :: w2 :: l)) with (w ++ [" "] ++ spaced (w2 :: l)). rewrite E, <- !app_assoc. reflexivity.
Qed.

Lemma spaced_first l : l <> [] -> Forall word l -> exists c, nws c /\ exists r, spaced l = c :: r.
Proof.
  intros N H. destruct H as [|w l [Hw1 Hw2] H]; [congruence|]. destruct w as [|c w]; [congruence|].
  exists c. split; [now inversion Hw2|]. destruct l; simpl; eauto.
Qed.

Lemma docs s : exists l,
  wordy (utf8_chars s) l
  /\ cleanup_docs s = String.concat " " (map concat_str l)
  /\ wordy (utf8_chars (cleanup_docs s)) l
  /\ cleanup_docs (cleanup_docs s) = cleanup_docs s
  /\ (forall c r, utf8_chars (cleanup_docs s) = c :: r -> nws c)
  /\ (forall c r, utf8_chars (cleanup_docs s) = r ++ [c] -> nws c).
Proof.
  set (l := wl (utf8_chars s) []).
  assert (W : wordy (utf8_chars s) l) by apply (wl_wordy (utf8_chars s) []), Forall_nil.
  assert (E : cleanup_docs s = join_space (map concat_str l)) by apply cleanup_wl.
  assert (C : utf8_chars (cleanup_docs s) = spaced l).
  { rewrite E, join_spaced, wfl_chars; [reflexivity|]. eapply wordy_spaced_wfl, chars_wfl. exact W. }
  assert (W' : wordy (utf8_chars (cleanup_docs s)) l).
  { rewrite C. apply spaced_wordy. eapply wordy_words, W. }
  exists l. split; [exact W|]. split; [exact E|]. split; [exact W'|]. split; [|split].
  - rewrite (cleanup_wl (cleanup_docs s)), (wordy_wl _ _ W'). now rewrite E.
  - intros c r H. rewrite C in H. destruct l as [|w l0] eqn:El; [discriminate|].
    destruct (spaced_first (w :: l0)) as (d & Hd & r' & E'); [discriminate|eapply wordy_words, W|].
    rewrite E' in H. injection H as <- <-. exact Hd.
  - intros c r H. rewrite C in H. destruct l as [|w l0] eqn:El; [destruct r; discriminate|].
    destruct (spaced_last (w :: l0)) as (d & Hd & r' & E'); [discriminate|eapply wordy_words, W|].
    rewrite E' in H. apply app_inj_tail in H. destruct H as [_ <-]. exact Hd.
Qed.
