(** * LinesProof4: what is read, and where errors are, in texts that differ in line ends (C79) *)
From Coq Require Import Lia Permutation.
From Verif Require Import Base Libs Xml XmlRead Ast Decode Gen Run XsdNode Parse DecSpec ReadSpec SimSpec SimProof ParseSpec Macro MacroSpec MacroProof XmlGrammar XmlProof GrammarProof1 GrammarProof2 GrammarProof3 GrammarProof4 GrammarProof5 PlaceSpec PlaceProof ForeignSpec ForeignProof ForeignMain LinesSpec LinesProof LinesProof2 LinesProof3.
Local Open Scope N_scope.

Scheme alike_ind2 := Minimality for alike Sort Prop with alike_kids_ind2 := Minimality for alike_kids Sort Prop.
Combined Scheme alike_both from alike_ind2, alike_kids_ind2.

(** ** The parser *)
Lemma alike_dressed P (At : range -> range -> Prop) : (forall r r', related P r r' -> At r r') ->
  (forall x y, alike P x y -> dressed At x y) /\ (forall ks ks', alike_kids P ks ks' -> dressed_kids At ks ks' /\ first_text ks' = first_text ks).
Proof.
  intros W. apply alike_both.
  - intros t ns ats ats' nss r r' ks ks' A R K [IH F]. constructor; [|auto|now apply W|exact IH].
    generalize (bare_names ats). intros b. induction A as [|a a' l l' [H1 H2] A IHA]; constructor; auto. split; auto.
  - split; [constructor|reflexivity].
  - intros e e' ks ks' A IHe K [IH F]. split; [now constructor|reflexivity].
  - intros s ks ks' K [IH F]. split; [now constructor|reflexivity].
  - intros s s' ks ks' K [IH F]. split; [now constructor|reflexivity].
Qed.
Lemma alike_nss P x y : alike P x y -> xe_nss y = xe_nss x.
Proof. now destruct 1. Qed.
Lemma alike_moved text P (At : range -> range -> Prop) x y : (forall r r', related P r r' -> At r r') -> XmlDocument text x -> alike P x y -> moved_doc At True x y.
Proof.
  intros W D A. split; [now apply (alike_dressed P At W)|]. pose proof (alike_nss _ _ _ A) as E.
  destruct (document_scope _ _ x D ltac:(constructor)) as [N _]. split; [|now intros _].
  unfold more_prefixes. rewrite E. split; [exact N|]. split; [exact N|]. split; [auto|]. intros uri. tauto.
Qed.
Lemma alike_weaken (P Q : N -> N -> Prop) : (forall p q, P p q -> Q p q) -> (forall x y, alike P x y -> alike Q x y) /\ (forall ks ks', alike_kids P ks ks' -> alike_kids Q ks ks').
Proof.
  intros H. apply alike_both; try now constructor.
  intros t ns ats ats' nss r r' ks ks' A [R1 R2] K IH. constructor; [|split; auto|exact IH].
  induction A as [|a a' l l' [Sa [R3 R4]] A IHA]; constructor; auto. split; [exact Sa|split; auto].
Qed.

(** ** Decoding *)
Section Dec.
Context {L : Libs}.
Variable c : schema_ctx.
Variable gs : list name.
Lemma alike_similar P : (forall x y, alike P x y -> similar c gs x y) /\ (forall ks ks', alike_kids P ks ks' ->
  Forall2 (similar c gs) (elems_of ks) (elems_of ks') /\ forall t ns ats ats' nss nss' r r', d_text (XE t ns ats nss r ks) = d_text (XE t ns ats' nss' r' ks')).
Proof.
  apply alike_both.
  - intros t ns ats ats' nss r r' ks ks' A R K [IH F].
    apply (similar_intro c gs _ _ (elems_of ks) [] (elems_of ks') []); cbn [xe_tag xe_ns]; auto; try (cbn; now rewrite app_nil_r).
    intros a _. unfold d_attribute. cbn [xe_attrs]. clear - A. induction A as [|x y l l' [(E1 & E2 & E3) _] A IHA]; [reflexivity|]. cbn. now rewrite E1, E2, E3, IHA.
  - split; [constructor|reflexivity].
  - intros e e' ks ks' A IHe K [IH F]. split; [now constructor|reflexivity].
  - intros s ks ks' K [IH F]. split; [exact IH|reflexivity].
  - intros s s' ks ks' K [IH F]. split; [exact IH|reflexivity].
Qed.
End Dec.

(** ** Rows and columns *)
Lemma lines_total s : exists u, lines s u.
Proof.
  assert (X : forall n s, (String.length s <= n)%nat -> exists u, lines s u).
  { clear s. induction n as [|n IH]; intros [|c s] Hn; try (exists ""; constructor); [cbn in Hn; lia|]. cbn in Hn.
    destruct (Ascii.eqb_spec c CR) as [->|Nc]; [|destruct (IH s ltac:(lia)) as [u H]; exists (String c u); now constructor].
    destruct (lf_head s) as [[r ->]|Nl]; [cbn in Hn; destruct (IH r ltac:(lia)) as [u H]|destruct (IH s ltac:(lia)) as [u H]]; exists (String LF u); now constructor. }
  exact (X _ s (le_n _)).
Qed.
Definition no_lone (s : string) : Prop := forall a b, s = a +++ String CR b -> is_lf b.
Lemma no_lone_tail c s : no_lone (String c s) -> no_lone s.
Proof. intros H a b ->. apply (H (String c a) b). reflexivity. Qed.
Lemma no_lone_left a b : no_lone (a +++ b) -> safe a b -> no_lone a.
Proof.
  intros H S x y E. assert (K : is_lf (y +++ b)) by (apply (H x); rewrite E, app_s_assoc; reflexivity).
  apply app_lf in K. destruct K as [K|[-> K]]; [exact K|]. exfalso. apply S. split; [now exists x|exact K].
Qed.
Lemma no_lone_right a b : no_lone (a +++ b) -> no_lone b.
Proof. intros H x y ->. apply (H (a +++ x) y). now rewrite app_s_assoc. Qed.
Lemma count_lines a u : lines a u -> no_lone a -> count_newlines a = count_newlines u.
Proof.
  induction 1 as [|c s u Nc H IH|s u Nl H IH|s u H IH]; intros Nn; cbn [count_newlines].
  - reflexivity.
  - now rewrite (IH (no_lone_tail _ _ Nn)).
  - exfalso. apply Nl. exact (Nn "" s eq_refl).
  - change (Ascii.eqb CR "010") with false. change (Ascii.eqb LF "010") with true. now rewrite (IH (no_lone_tail _ _ (no_lone_tail _ _ Nn))).
Qed.
Lemma same_count a a' : same_lines a a' -> no_lone a -> no_lone a' -> count_newlines a = count_newlines a'.
Proof. intros (u & A & B) N N'. now rewrite (count_lines _ _ A N), (count_lines _ _ B N'). Qed.
Definition closed (y : string) : Prop := y = "" \/ exists x, y = x +++ newline.
Lemma closed_ends y : closed y -> ~ ends y.
Proof. intros [->|[x ->]]; [exact nil_ends|]. intros E. apply app_ends in E; [|discriminate]. revert E. intros [z E]. destruct z as [|d z]; [discriminate|]. injection E as _ E. destruct z; discriminate. Qed.
Lemma line_cut a : exists y line, a = y +++ line /\ closed y /\ one_line line.
Proof. destruct (lines_of a) as (ls & line & -> & _ & O & _). exists (joined ls), line. split; [reflexivity|]. split; [exact (joined_end ls)|exact O]. Qed.
Lemma col_of y line : closed y -> one_line line -> (y <> "" -> starts_with_cont line = false) ->
  chars_to_newline (rev (utf8_chars (y +++ line))) = length (utf8_chars line).
Proof.
  intros Cy O S. assert (K : forall c, In c (rev (utf8_chars line)) -> c <> newline).
  { intros c I. apply (no_newline_char line); [exact O|]. now apply in_rev. }
  destruct Cy as [->|(a & ->)].
  - cbn [append]. rewrite <- (app_nil_r (rev _)), chars_skip by exact K. simpl. rewrite rev_length. lia.
  - rewrite utf8_app by (apply S; destruct a; discriminate). rewrite utf8_app by reflexivity.
    rewrite rev_app_distr, chars_skip by exact K. rewrite rev_app_distr. simpl. rewrite rev_length. lia.
Qed.
Lemma line_plain line : one_line line -> no_lone line -> plain line.
Proof.
  intros O N. unfold plain, every. apply Forall_forall. intros c I. split; intros ->; [|now apply O].
  assert (X : exists a b, line = a +++ String CR b).
  { clear - I. induction line as [|d l IH]; [destruct I|]. destruct I as [->|I]; [now exists "", l|]. destruct (IH I) as (a & b & ->). now exists (String d a), b. }
  destruct X as (a & b & ->). destruct (N a b eq_refl) as [r ->]. apply O. rewrite list_ascii_app. apply in_or_app. right. right. now left.
Qed.
Lemma lines_end s u x : lines s u -> u = x +++ String LF "" -> no_lone s -> exists y, s = y +++ String LF "".
Proof.
  intros H. revert x. induction H as [|c s u Nc H IH|s u Nl H IH|s u H IH]; intros x E Nn.
  - destruct x; discriminate.
  - destruct x as [|d x]; cbn in E; injection E as -> E.
    + subst u. apply plain_lines in H; [|constructor]. subst s. now exists "".
    + destruct (IH x E (no_lone_tail _ _ Nn)) as (y & ->). now exists (String d y).
  - exfalso. apply Nl. exact (Nn "" s eq_refl).
  - destruct x as [|d x]; cbn in E; injection E as E.
    + subst u. apply plain_lines in H; [|constructor]. subst s. now exists (String CR "").
    + destruct (IH x H0 (no_lone_tail _ _ (no_lone_tail _ _ Nn))) as (y & ->). now exists (String CR (String LF y)).
Qed.
Lemma lf_lines y u x : lines y u -> y = x +++ String LF "" -> exists z, u = z +++ String LF "".
Proof.
  intros H. revert x. induction H as [|c s u Nc H IH|s u Nl H IH|s u H IH]; intros x E.
  - destruct x; discriminate.
  - destruct x as [|d x]; cbn in E; injection E as -> E.
    + subst s. inversion H; subst. now exists "".
    + destruct (IH x E) as (z & ->). now exists (String d z).
  - destruct x as [|d x]; cbn in E; injection E as E; [discriminate|]. destruct (IH x H0) as (z & ->). now exists (String LF z).
  - destruct x as [|d x]; cbn in E; [discriminate|]. injection E as _ E. destruct x as [|d' x]; cbn in E; injection E as E.
    + subst s. inversion H; subst. now exists "".
    + destruct (IH x H0) as (z & ->). now exists (String LF z).
Qed.
Lemma same_closed y y' : same_lines y y' -> closed y -> no_lone y' -> closed y'.
Proof.
  intros (u & A & B) [->|[x E]] N.
  - left. apply same_nil. now exists u.
  - destruct (lf_lines _ _ _ A E) as (z & Ez). destruct (lines_end _ _ _ B Ez N) as (w & ->). right. now exists w.
Qed.
Lemma same_cont b b' : same_lines b b' -> starts_with_cont b' = starts_with_cont b.
Proof.
  intros H. destruct b as [|c b]; [now apply same_nil in H as ->|].
  destruct (Ascii.eqb_spec c CR) as [->|N1].
  - destruct (lf_head b) as [[r ->]|Nl].
    + destruct (end_split _ r _ (le_crlf r) H) as (t & E & _). now destruct E.
    + destruct (end_split _ b _ (le_cr b Nl) H) as (t & E & _). now destruct E.
  - destruct (Ascii.eqb_spec c LF) as [->|N2].
    + destruct (end_split _ b _ (le_lf b) H) as (t & E & _). now destruct E.
    + destruct (char_split _ _ _ N1 N2 H) as (t & -> & _). reflexivity.
Qed.
Lemma same_position text text' p p' : no_lone text -> no_lone text' ->
  (forall a b, text = a +++ newline +++ b -> starts_with_cont b = false) -> (forall a b, text' = a +++ newline +++ b -> starts_with_cont b = false) ->
  after text text' p p' -> text_pos_at text' (N.to_nat p') = text_pos_at text (N.to_nat p).
Proof.
  intros N N' U U' (a & b & a' & b' & -> & -> & <- & <- & Sa & Sb & Sf & Sf').
  assert (X : forall a b, text_pos_at (a +++ b) (N.to_nat (len a)) = if starts_with_cont b then None else Some (S (count_newlines a), S (chars_to_newline (rev (utf8_chars a))))).
  { clear. intros a b. unfold text_pos_at, len. rewrite Nat2N.id, length_app_s, Nat.min_l by lia. unfold char_boundary. rewrite get_app, take_app.
    destruct b as [|c b]; cbn [String.get starts_with_cont]; [|now destruct (is_cont_byte c)]. rewrite app_s_nil_r, Nat.eqb_refl. reflexivity. }
  rewrite !X, (same_cont _ _ Sb). destruct (starts_with_cont b); [reflexivity|].
  pose proof (no_lone_left _ _ N Sf) as Na. pose proof (no_lone_left _ _ N' Sf') as Na'.
  rewrite (same_count _ _ Sa Na Na'). f_equal. f_equal. f_equal.
  destruct (line_cut a) as (y & line & -> & Cy & O).
  destruct (split_lines _ _ _ Sa (no_ends_safe _ _ (closed_ends _ Cy))) as (y' & line' & -> & Sy & Sl & Sfy).
  assert (Pl : plain line) by (apply line_plain; [exact O|now apply no_lone_right in Na]). apply (plain_same _ _ Pl) in Sl. subst line'.
  pose proof (same_closed _ _ Sy Cy (no_lone_left _ _ Na' Sfy)) as Cy'.
  rewrite (col_of y line Cy O), (col_of y' line Cy' O); [reflexivity| |].
  - intros Ne. destruct Cy' as [->|[x ->]]; [easy|]. destruct line as [|d l]; [reflexivity|]. apply (U' x (String d l +++ b')). rewrite !app_s_assoc. reflexivity.
  - intros Ne. destruct Cy as [->|[x ->]]; [easy|]. destruct line as [|d l]; [reflexivity|]. apply (U x (String d l +++ b)). rewrite !app_s_assoc. reflexivity.
Qed.
