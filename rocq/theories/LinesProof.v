(** * LinesProof: line ends (C79) *)
From Coq Require Import Lia.
From Verif Require Import Base Libs Xml XmlRead ParseSpec Macro XmlGrammar XmlProof GrammarProof1 GrammarProof2 GrammarProof3 GrammarProof5 PlaceSpec PlaceProof ForeignSpec LinesSpec.
Local Open Scope N_scope.

(** ** Lines *)
Definition plain (s : string) : Prop := every (fun c => c <> CR /\ c <> LF) s.
Definition ends (s : string) : Prop := exists x, s = x +++ String CR "".
Definition safe (a b : string) : Prop := ~ (ends a /\ is_lf b).
Lemma crlf_ne : CR <> LF. Proof. discriminate. Qed.
Lemma ends_cons c s : ends s -> ends (String c s).
Proof. intros [x ->]. now exists (String c x). Qed.
Lemma ends_app a b : ends b -> ends (a +++ b).
Proof. intros [x ->]. exists (a +++ x). now rewrite app_s_assoc. Qed.
Lemma app_ends a b : ends (a +++ b) -> b <> "" -> ends b.
Proof.
  intros [x H] N. revert a H. induction x as [|d x IH]; intros a H.
  - destruct a as [|y a]; [exists ""; exact H|]. cbn in H. injection H as -> H. destruct a; [|discriminate]. cbn in H. congruence.
  - destruct a as [|y a]; [exists (String d x); exact H|]. cbn in H. injection H as -> H. now apply (IH a).
Qed.
Lemma plain_ends a : plain a -> ~ ends a.
Proof. intros P [x ->]. apply every_app in P. destruct P as [_ P]. inversion P; subst. destruct H1 as [H _]. now apply H. Qed.
Lemma plain_safe a b : plain a -> safe a b. Proof. intros P [E _]. now apply (plain_ends a). Qed.
Lemma head_safe a c r : c <> LF -> safe a (String c r).
Proof. intros N [_ [x H]]. injection H as -> _. now apply N. Qed.
Lemma nil_safe a : safe a "". Proof. intros [_ [x H]]. discriminate. Qed.
Lemma safe_tail c a b : safe (String c a) b -> safe a b.
Proof. intros S [E I]. apply S. split; [now apply ends_cons|exact I]. Qed.
Lemma lf_app a b : is_lf a -> is_lf (a +++ b). Proof. intros [r ->]. now exists (r +++ b). Qed.
Lemma app_lf a b : is_lf (a +++ b) -> is_lf a \/ a = "" /\ is_lf b.
Proof. intros [r H]. destruct a as [|c a]; [right; split; [reflexivity|now exists r]|]. injection H as -> _. left. now exists a. Qed.
Lemma safe_app p a b : safe a b -> safe p (a +++ b) -> safe (p +++ a) b.
Proof.
  intros S1 S2 [E I]. destruct a as [|c a]; [rewrite app_s_nil_r in E; now apply S2|]. apply S1. split; [|exact I]. apply (app_ends p); [exact E|discriminate].
Qed.

Lemma lines_app_inv n : forall a b u, (String.length a <= n)%nat -> lines (a +++ b) u -> safe a b -> exists ua ub, u = ua +++ ub /\ lines a ua /\ lines b ub.
Proof.
  induction n as [|n IH]; intros a b u Hn H S; (destruct a as [|c a]; [exists "", u; repeat split; [constructor|exact H]|]); cbn in Hn; [lia|].
  cbn [append] in H. inversion H as [|c' s v Nc Hs Ec Ev|s v Nl Hs Ec Ev|s v Hs Ec Ev]; subst.
  - destruct (IH a b v ltac:(lia) Hs (safe_tail _ _ _ S)) as (ua & ub & -> & A & B). exists (String c ua), ub. repeat split; [now constructor|exact B].
  - destruct (IH a b v ltac:(lia) Hs (safe_tail _ _ _ S)) as (ua & ub & -> & A & B). exists (String LF ua), ub. repeat split; [|exact B].
    apply ln_cr; [|exact A]. intros L. now apply Nl, lf_app.
  - destruct a as [|d a].
    + exfalso. apply S. split; [now exists ""|]. match goal with H : String LF s = _ |- _ => cbn in H; subst b end. now exists s.
    + match goal with H : String LF s = _ |- _ => cbn [append] in H; injection H as <- -> end. cbn in Hn.
      destruct (IH a b v ltac:(lia) Hs (safe_tail _ _ _ (safe_tail _ _ _ S))) as (ua & ub & -> & A & B). exists (String LF ua), ub. repeat split; [now constructor|exact B].
Qed.
Lemma lines_split s u : lines s u -> forall ua ub, u = ua +++ ub -> exists a b, s = a +++ b /\ lines a ua /\ lines b ub /\ safe a b.
Proof.
  assert (Z : forall s u, lines s u -> exists a b, s = a +++ b /\ lines a "" /\ lines b u /\ safe a b).
  { intros s' u' H. exists "", s'. repeat split; [constructor|exact H|]. intros [E _]. destruct E as [x E]. destruct x; discriminate. }
  induction 1 as [|c s u Nc H IH|s u Nl H IH|s u H IH]; intros ua ub E.
  - destruct ua; [|discriminate]. cbn in E. subst. exists "", "". repeat split; try constructor. intros [_ [x K]]. discriminate.
  - destruct ua as [|d ua]; [cbn in E; subst; apply Z; now constructor|]. cbn in E. injection E as <- E.
    destruct (IH ua ub E) as (a & b & -> & A & B & S). exists (String c a), b. repeat split; [now constructor|exact B|].
    intros [En I]. destruct a as [|y a]; [|apply S; split; [apply (app_ends (String c "")); [exact En|discriminate]|exact I]].
    destruct En as [x En]. destruct x as [|z x]; [injection En as ->; now apply Nc|]. cbn in En. injection En as _ En. destruct x; discriminate.
  - destruct ua as [|d ua]; [cbn in E; subst; apply Z; now constructor|]. cbn in E. injection E as <- E.
    destruct (IH ua ub E) as (a & b & -> & A & B & S). exists (String CR a), b. repeat split; [|exact B|].
    + apply ln_cr; [|exact A]. intros L. now apply Nl, lf_app.
    + intros [En I]. destruct a as [|y a]; [now apply Nl|]. apply S; split; [apply (app_ends (String CR "")); [exact En|discriminate]|exact I].
  - destruct ua as [|d ua]; [cbn in E; subst; apply Z; now constructor|]. cbn in E. injection E as <- E.
    destruct (IH ua ub E) as (a & b & -> & A & B & S). exists (String CR (String LF a)), b. repeat split; [now constructor|exact B|].
    intros [En I]. destruct a as [|y a].
    + destruct En as [x En]. destruct x as [|z x]; [discriminate|]. cbn in En. injection En as <- En. destruct x as [|w x]; [discriminate|]. cbn in En. injection En as _ En. destruct x; discriminate.
    + apply S; split; [apply (app_ends (String CR (String LF ""))); [exact En|discriminate]|exact I].
Qed.
Lemma lines_app a b ua ub : lines a ua -> lines b ub -> safe a b -> lines (a +++ b) (ua +++ ub).
Proof.
  induction 1 as [|c s u Nc H IH|s u Nl H IH|s u H IH]; intros B S; cbn [append].
  - exact B.
  - apply ln_char; [exact Nc|]. apply IH; [exact B|]. now apply safe_tail in S.
  - apply ln_cr; [|apply IH; [exact B|now apply safe_tail in S]]. intros L. apply app_lf in L. destruct L as [L|[-> L]]; [now apply Nl|]. apply S. split; [now exists ""|exact L].
  - apply ln_crlf. apply IH; [exact B|]. now do 2 apply safe_tail in S.
Qed.
Lemma lines_plain p u : plain p -> lines p u -> u = p.
Proof.
  intros P H. induction H as [|c s u Nc H IH|s u Nl H IH|s u H IH]; [reflexivity| | |]; inversion P as [|? ? [P1 P2] P3]; subst; [|now exfalso; apply P1|now exfalso; apply P1].
  f_equal. now apply IH.
Qed.
Lemma plain_lines t p : plain p -> lines t p -> t = p.
Proof.
  intros P H. induction H as [|c s u Nc H IH|s u Nl H IH|s u H IH]; [reflexivity| | |]; inversion P as [|? ? [P1 P2] P3]; subst; [|now exfalso; apply P2|now exfalso; apply P2].
  f_equal. now apply IH.
Qed.
Lemma lines_of_plain p : plain p -> lines p p.
Proof. induction p as [|c p IH]; intros P; [constructor|]. inversion P as [|? ? [P1 P2] P3]; subst. apply ln_char; [exact P1|now apply IH]. Qed.
Lemma lines_fun s u v : lines s u -> lines s v -> u = v.
Proof.
  intros H. revert v. induction H as [|c s u Nc H IH|s u Nl H IH|s u H IH]; intros v K; inversion K; subst; try congruence; try (f_equal; now apply IH).
  - exfalso. apply Nl. eexists. reflexivity.
  - exfalso. match goal with H : ~ is_lf _ |- _ => apply H end. eexists. reflexivity.
Qed.

Lemma same_sym s t : same_lines s t -> same_lines t s. Proof. intros (u & A & B). now exists u. Qed.
Lemma split_lines a b t : same_lines (a +++ b) t -> safe a b ->
  exists a' b', t = a' +++ b' /\ same_lines a a' /\ same_lines b b' /\ safe a' b'.
Proof.
  intros (u & A & B) S. destruct (lines_app_inv _ a b u (le_n _) A S) as (ua & ub & -> & A1 & A2).
  destruct (lines_split _ _ B _ _ eq_refl) as (a' & b' & -> & B1 & B2 & S'). exists a', b'. repeat split; [now exists ua|now exists ub|exact S'].
Qed.
Lemma join_lines a b a' b' : same_lines a a' -> same_lines b b' -> safe a b -> safe a' b' -> same_lines (a +++ b) (a' +++ b').
Proof. intros (u & A & A') (v & B & B') S S'. exists (u +++ v). split; now apply lines_app. Qed.
Lemma plain_same p t : plain p -> same_lines p t -> t = p.
Proof. intros P (u & A & B). apply (lines_plain _ _ P) in A. subst. now apply plain_lines. Qed.
Lemma same_plain p : plain p -> same_lines p p.
Proof. intros P. exists p. split; now apply lines_of_plain. Qed.
Lemma plain_split p b t : plain p -> same_lines (p +++ b) t -> exists b', t = p +++ b' /\ same_lines b b'.
Proof. intros P H. destruct (split_lines _ _ _ H (plain_safe _ _ P)) as (a' & b' & -> & A & B & _). apply (plain_same _ _ P) in A. subst. eauto. Qed.
Lemma char_split c b t : c <> CR -> c <> LF -> same_lines (String c b) t -> exists b', t = String c b' /\ same_lines b b'.
Proof. intros N1 N2 H. apply (plain_split (String c "")) in H; [exact H|]. constructor; [auto|constructor]. Qed.
Lemma same_nil t : same_lines "" t -> t = "".
Proof. intros H. apply (plain_same ""); [constructor|exact H]. Qed.
Lemma same_ne s t : same_lines s t -> s <> "" -> t <> "".
Proof. intros H N ->. apply N. apply same_nil. now apply same_sym. Qed.
(** Line ends. *)
Inductive line_end : string -> string -> Prop :=
| le_lf r : line_end (String LF r) r
| le_cr r : ~ is_lf r -> line_end (String CR r) r
| le_crlf r : line_end (String CR (String LF r)) r.
Lemma line_end_lines s r u : line_end s r -> lines s u -> exists v, u = String LF v /\ lines r v.
Proof.
  destruct 1 as [r|r N|r]; intros H; inversion H; subst; try (exfalso; now apply crlf_ne); try congruence; eauto.
  - exfalso. apply N. eexists. reflexivity.
  - exfalso. match goal with H : ~ is_lf _ |- _ => apply H end. eexists. reflexivity.
Qed.
Lemma lines_line_end t v : lines t (String LF v) -> exists r, line_end t r /\ lines r v.
Proof. intros H. inversion H; subst; eexists; (split; [|eassumption]); now constructor. Qed.
Lemma end_split s r t : line_end s r -> same_lines s t -> exists t', line_end t t' /\ same_lines r t'.
Proof.
  intros E (u & A & B). destruct (line_end_lines _ _ _ E A) as (v & -> & C). destruct (lines_line_end _ _ B) as (t' & F & D). exists t'. split; [exact F|now exists v].
Qed.

(** ** Characters *)
Lemma spaces_lines s t : spaces s -> same_lines s t -> spaces t.
Proof.
  intros S (u & A & B). assert (U : spaces u).
  { clear B. induction A as [|c s u Nc H IH|s u Nl H IH|s u H IH]; [apply Forall_nil|inversion S; subst..]; (constructor; [try assumption; unfold Space; simpl; auto 10|apply IH; try assumption]).
    now match goal with H : Forall Space _ |- _ => inversion H end. }
  clear S A. induction B as [|c s' u Nc H IH|s' u Nl H IH|s' u H IH]; [apply Forall_nil| | |]; inversion U; subst; repeat (apply Forall_cons; [try assumption; unfold Space; simpl; auto 10|]); apply IH; assumption.
Qed.
Lemma every_plain (P : ascii -> Prop) s : (forall c, P c -> c <> CR /\ c <> LF) -> every P s -> plain s.
Proof. intros H. unfold plain, every. apply Forall_impl, H. Qed.
Lemma high_plain u : every (fun a => 128 <= N_of_ascii a) u -> plain u.
Proof. apply every_plain. intros c H. split; intros ->; vm_compute in H; now apply H. Qed.
Lemma ncname_plain s : NCName s -> plain s.
Proof.
  intros (c & l & T & Sc & F). assert (G : Forall NameChar (c :: l)) by (constructor; [now left|exact F]). clear Sc F. remember (c :: l) as m. clear Heqm c l.
  induction T as [|c l u s C U T IH]; [constructor|]. inversion G; subst. apply every_app. split; [|now apply IH].
  destruct (utf8_bytes _ _ U) as [(y & -> & Ey & _)|(_ & E & _)]; [|now apply high_plain]. constructor; [|constructor].
  split; intros ->; match goal with H : NameChar _ |- _ => rewrite <- Ey in H; unfold NameChar, NameStartChar in H; vm_compute N_of_ascii in H; lia end.
Qed.
Lemma plain_app a b : plain a -> plain b -> plain (a +++ b). Proof. intros A B. apply every_app. auto. Qed.
Ltac plains := repeat first [apply plain_app|apply Forall_nil|apply Forall_cons; [split; discriminate|]|assumption].
Lemma qname_plain s n : QName s n -> plain s.
Proof. destruct 1 as [s N|p s N M]; [now apply ncname_plain|]. apply ncname_plain in N, M. plains. Qed.
Lemma all_bytes_plain (f : ascii -> bool) s : f CR = false -> f LF = false -> all_bytes f s = true -> plain s.
Proof.
  intros C D H. apply (every_iff (fun c => f c = true) f s ltac:(reflexivity)) in H. revert H. apply every_plain. intros c H. split; intros ->; congruence.
Qed.
Lemma reference_plain t u : Reference t u -> plain t.
Proof. intros R. apply ref_entity in R. destruct R as (s & -> & _ & A). apply (all_bytes_plain ref_byte) in A; [|reflexivity|reflexivity]. change (plain ("&" +++ s +++ ";")). plains. Qed.

Definition utf8_line : utf8 10 (String LF "") := utf8_1 10 eq_refl.
Definition utf8_return : utf8 13 (String CR "") := utf8_1 13 eq_refl.
Lemma char_lf : Char 10. Proof. right. now left. Qed.
Lemma char_cr : Char 13. Proof. right. right. now left. Qed.
Lemma text_cases l s : text_of l s -> s = "" \/ (exists p r m, s = p +++ r /\ plain p /\ p <> "" /\ text_of m r /\ forall q, valid q -> valid (p +++ q))
  \/ exists c r m, s = String c r /\ (c = CR \/ c = LF) /\ text_of m r.
Proof.
  intros T. inversion T as [|c m u r C U M]; subst; [now left|]. right. destruct (utf8_bytes _ _ U) as [(y & -> & Ey & _)|(_ & E & Ne)].
  - destruct (Ascii.eqb_spec y CR) as [->|N1]; [right; exists CR, r, m; auto|]. destruct (Ascii.eqb_spec y LF) as [->|N2]; [right; exists LF, r, m; auto|].
    left. exists (String y ""), r, m. repeat split; auto; [constructor; [auto|constructor]|discriminate|]. intros q V. exact (valid_cons c _ q C U V).
  - left. exists u, r, m. repeat split; auto; [now apply high_plain|]. intros q V. exact (valid_cons c _ q C U V).
Qed.
Lemma text_lines n : forall s t, (String.length s <= n)%nat -> valid s -> same_lines s t -> valid t.
Proof.
  induction n as [|n IH]; intros s t Hn [l T] H; (destruct (text_cases _ _ T) as [->|[(p & r & m & -> & P & Ne & M & V)|(c & r & m & -> & C & M)]]; [apply same_nil in H as ->; exact valid_nil| |]).
  - destruct p; [easy|cbn in Hn; lia].
  - cbn in Hn; lia.
  - destruct (plain_split _ _ _ P H) as (t' & -> & K). apply V. apply (IH r); [|now exists m|exact K]. destruct p; [easy|]. cbn in Hn. rewrite length_app_s in Hn. lia.
  - cbn in Hn. assert (X : exists r', line_end (String c r) r' /\ valid r' /\ (String.length r' <= n)%nat).
    { destruct C as [->| ->]; [|exists r; repeat split; [constructor|now exists m|lia]]. destruct (lf_head r) as [[r' ->]|Nl].
      - exists r'. repeat split; [constructor| |cbn in Hn; lia]. assert (V : valid (String LF r')) by now exists m.
        change (String LF r') with ("" +++ String LF r') in V. apply valid_split in V; [tauto|reflexivity].
      - exists r. repeat split; [now constructor|now exists m|lia]. }
    destruct X as (r' & E & V & Hr). destruct (end_split _ _ _ E H) as (t' & F & K). apply (IH r' t' Hr V) in K.
    destruct F as [q|q _|q].
    + exact (valid_cons 10 _ q char_lf utf8_line K).
    + exact (valid_cons 13 _ q char_cr utf8_return K).
    + exact (valid_cons 13 _ _ char_cr utf8_return (valid_cons 10 _ q char_lf utf8_line K)).
Qed.
