(** * GrammarProof3: tags and other pieces (lemmas of PropGrammar.v) *)
From Verif Require Import Base Xml XmlChars XmlRead XmlGrammar XmlProof XmlProof2 GrammarProof1 GrammarProof2.
From Coq Require Import Lia.

Lemma len_app a b : len (a +++ b) = (len a + len b)%N.
Proof. unfold len. rewrite length_app_s. lia. Qed.
Lemma len_cons c s : len (String c s) = (1 + len s)%N.
Proof. unfold len. cbn [String.length]. lia. Qed.
Ltac fold_len := repeat match goal with |- context [N.of_nat (String.length ?x)] => change (N.of_nat (String.length x)) with (len x) end.
Ltac lens := unfold left_of; fold_len; repeat first [rewrite len_app | rewrite len_cons]; unfold len; cbn [String.length]; lia.

(** ** The first occurrence *)
Lemma split_at_inv p s a b : split_at p s = Some (a, b) -> s = a +++ p +++ b.
Proof.
  revert a b. induction s as [|c s IH]; intros a b; cbn [split_at].
  - destruct (lit p "") as [r|] eqn:E; [|discriminate]. intros [= <- <-]. now apply lit_app in E.
  - destruct (lit p (String c s)) as [r|] eqn:E.
    + intros [= <- <-]. now apply lit_app in E.
    + destruct (split_at p s) as [[x y]|]; [|discriminate]. intros [= <- <-]. cbn [fst snd append]. f_equal. now apply IH.
Qed.
Lemma split_at_first p s a b : split_at p s = Some (a, b) -> forall x y, s = x +++ p +++ y -> (String.length a <= String.length x)%nat.
Proof.
  revert a b. induction s as [|c s IH]; intros a b; cbn [split_at].
  - destruct (lit p "") as [r|] eqn:E; [|discriminate]. intros [= <- <-]. intros. cbn [String.length]. lia.
  - destruct (lit p (String c s)) as [r|] eqn:E.
    + intros [= <- <-]. intros. cbn [String.length]. lia.
    + destruct (split_at p s) as [[u v]|] eqn:F; [|discriminate]. intros [= <- <-]. intros x y H. destruct x as [|d x].
      * cbn [append] in H. rewrite H, lit_same in E. discriminate E.
      * cbn [append] in H. injection H as <- H. cbn [fst String.length]. specialize (IH u v eq_refl x y H). lia.
Qed.
Lemma split_at_of p a b : (forall x y, a +++ p +++ b = x +++ p +++ y -> (String.length a <= String.length x)%nat) -> split_at p (a +++ p +++ b) = Some (a, b).
Proof.
  induction a as [|c a IH]; intros H.
  - cbn [append]. assert (X := lit_same p b). destruct (p +++ b); cbn [split_at]; now rewrite X.
  - cbn [append split_at]. destruct (lit p (String c (a +++ p +++ b))) as [r|] eqn:E.
    + apply lit_app in E. specialize (H "" r). cbn [append String.length] in H. rewrite E in H. specialize (H eq_refl). lia.
    + rewrite IH; [reflexivity|]. intros x y G. specialize (H (String c x) y). cbn [append String.length] in H. rewrite G in H. specialize (H eq_refl). lia.
Qed.
Lemma app_shorter (a b x y : string) : a +++ b = x +++ y -> (String.length x <= String.length a)%nat -> exists d, a = x +++ d /\ y = d +++ b.
Proof.
  revert a. induction x as [|c x IH]; intros a H L.
  - exists a. split; [reflexivity|]. now rewrite H.
  - destruct a as [|e a]; [cbn [String.length] in L; lia|]. cbn [append] in H. injection H as -> H. cbn [String.length] in L. destruct (IH a H ltac:(lia)) as (d & -> & ->). exists d. split; reflexivity.
Qed.
(** Marks that do not overlap themselves. *)
Lemma first_of p a b : (forall d y, d <> "" -> d +++ p +++ b = p +++ y -> exists r, d = p +++ r) -> ~ occurs p a -> split_at p (a +++ p +++ b) = Some (a, b).
Proof.
  intros P N. apply split_at_of. intros x y H. destruct (Nat.le_gt_cases (String.length a) (String.length x)) as [L|L]; [exact L|exfalso].
  destruct (app_shorter a (p +++ b) x (p +++ y) H ltac:(lia)) as (d & -> & E). symmetry in E. destruct (P d y) as (r & ->).
  - intros ->. rewrite app_s_nil_r in L. lia.
  - exact E.
  - apply N. exists x, r. reflexivity.
Qed.
Lemma cdata_first a b : ~ occurs "]]>" a -> split_at "]]>" (a +++ "]]>" +++ b) = Some (a, b).
Proof.
  apply first_of. intros d y N E. destruct d as [|x d]; [congruence|]. cbn [append] in E. injection E as -> E. destruct d as [|x d]; [discriminate E|].
  cbn [append] in E. injection E as -> E. destruct d as [|x d]; [discriminate E|]. cbn [append] in E. injection E as -> E. exists d. reflexivity.
Qed.
Lemma pi_first a b : ~ occurs "?>" a -> split_at "?>" (a +++ "?>" +++ b) = Some (a, b).
Proof.
  apply first_of. intros d y N E. destruct d as [|x d]; [congruence|]. cbn [append] in E. injection E as -> E. destruct d as [|x d]; [discriminate E|].
  cbn [append] in E. injection E as -> E. exists d. reflexivity.
Qed.
Lemma comment_first a b : ~ occurs "--" (a +++ "-") -> split_at "--" (a +++ "--" +++ b) = Some (a, b).
Proof.
  intros N. apply split_at_of. intros x y H. destruct (Nat.le_gt_cases (String.length a) (String.length x)) as [L|L]; [exact L|exfalso].
  destruct (app_shorter a ("--" +++ b) x ("--" +++ y) H ltac:(lia)) as (d & -> & E). destruct d as [|c d]; [rewrite app_s_nil_r in L; lia|].
  cbn [append] in E. injection E as <- E. apply N. destruct d as [|c d].
  - exists x, "". rewrite app_s_assoc. reflexivity.
  - cbn [append] in E. injection E as <- E. exists x, (d +++ "-"). rewrite !app_s_assoc. reflexivity.
Qed.
Lemma occurs_first p s a b : split_at p s = Some (a, b) -> p <> "" -> ~ occurs p a.
Proof.
  intros H N (x & y & E). pose proof (split_at_inv _ _ _ _ H) as S. subst a.
  pose proof (split_at_first _ _ _ _ H x (y +++ p +++ b)) as L. rewrite S, !app_s_assoc in L. specialize (L eq_refl). rewrite !length_app_s in L.
  destruct p as [|c p]; [congruence|]. cbn [String.length] in L. lia.
Qed.
Lemma comment_inv s a b : split_at "--" s = Some (a, b) -> ~ occurs "--" (a +++ "-").
Proof.
  intros H (x & y & E). pose proof (split_at_inv _ _ _ _ H) as S.
  pose proof (split_at_first _ _ _ _ H x (y +++ "-" +++ b)) as L. rewrite S in L.
  assert (F : a +++ "--" +++ b = x +++ "--" +++ y +++ "-" +++ b).
  { change ("--" +++ b) with ("-" +++ "-" +++ b). rewrite <- (app_s_assoc a). rewrite E. rewrite !app_s_assoc. reflexivity. }
  specialize (L F). apply (f_equal String.length) in E. rewrite !length_app_s in E. cbn [String.length] in E. lia.
Qed.

(** ** Attributes *)
Definition att_rel (total : N) (a : rattr) (x : xatt) : Prop :=
  ra_name a = x_name x /\ ra_value a = x_value x /\ x_range x = (total - fst (ra_left a), total - snd (ra_left a))%N.
Lemma name_not_ws c : name_byte c = true -> ws c = false.
Proof. intros H. destruct (ws c) eqn:E; [|reflexivity]. apply space_iff in E. simpl in E. destruct E as [<-|[<-|[<-|[<-|[]]]]]; discriminate H. Qed.
Lemma ws_not_name c : ws c = true -> name_byte c = false.
Proof. intros H. destruct (name_byte c) eqn:E; [|reflexivity]. apply name_not_ws in E. congruence. Qed.
Lemma qname_head t n : QName t n -> exists c r, t = String c r /\ name_byte c = true.
Proof.
  assert (X : forall s, NCName s -> exists c r, s = String c r /\ name_byte c = true).
  { intros s N. apply ncname_iff in N. pose proof (ncname_bytes _ N) as B. destruct s as [|c s]; [discriminate N|]. cbn [all_bytes] in B. apply andb_true_iff in B. destruct B. eauto. }
  intros [s N|p s P N]; [now apply X|]. destruct (X p P) as (c & r & -> & B). exists c, (r +++ ":" +++ s). split; [reflexivity|exact B].
Qed.
Lemma att_value_head q v : AttValue q v -> exists c r, q = String c r /\ ws c = false.
Proof. intros (c & raw & Q & -> & _). exists c, (raw +++ String c ""). split; [reflexivity|]. simpl in Q. destruct Q as [<-|[<-|[]]]; reflexivity. Qed.
Lemma xml_attribute_inv s a r : xml_attribute s = Some (a, r) ->
  exists n name e q v, s = n +++ e +++ q +++ r /\ QName n name /\ EqSign e /\ AttValue q v /\ a = mkRattr name v (left_of s, left_of r).
Proof.
  unfold xml_attribute. destruct (qname s) as [[name r1]|] eqn:Q; [|discriminate]. apply qname_inv in Q. destruct Q as (n & Q & E & B). rewrite E. clear E s.
  destruct (skip_inv r1) as (w & E & W & _). destruct (lit "=" (skip_ws r1)) as [r2|] eqn:L; [|discriminate]. apply lit_app in L. rewrite L in E. clear L.
  destruct (skip_inv r2) as (w' & E' & W' & _). destruct (quoted (skip_ws r2)) as [[v r3]|] eqn:V; [|discriminate]. apply quoted_iff in V. destruct V as (q & V & F).
  rewrite F in E'. intros [= <- <-]. exists n, name, (w +++ "=" +++ w'), q, v. cbn [fst snd]. split; [|split; [exact Q|split; [|split; [exact V|reflexivity]]]].
  - rewrite E, E'. now rewrite !app_s_assoc.
  - exists w, w'. split; [now apply spaces_iff|]. split; [now apply spaces_iff|reflexivity].
Qed.
Lemma xml_attribute_of n name e q v r : QName n name -> EqSign e -> AttValue q v ->
  xml_attribute (n +++ e +++ q +++ r) = Some (mkRattr name v (left_of (n +++ e +++ q +++ r), left_of r), r).
Proof.
  intros Q (w & w' & W & W' & ->) V. apply spaces_iff in W, W'. unfold xml_attribute. rewrite (qname_of n name).
  - rewrite !app_s_assoc. rewrite (skip_app w); [|exact W|reflexivity]. cbn [append lit]. change (Ascii.eqb "=" "=") with true. cbn iota.
    destruct (att_value_head q v V) as (c & q' & Hq & C).
    rewrite (skip_app w'); [|exact W'|rewrite Hq; exact C]. assert (X : quoted (q +++ r) = Some (v, r)) by (apply quoted_iff; eauto). rewrite X. reflexivity.
  - exact Q.
  - rewrite !app_s_assoc. destruct w as [|c w]; [reflexivity|]. cbn [append]. cbn [all_bytes] in W. apply andb_true_iff in W. destruct W as [W _]. now apply ws_not_name.
  - intros r'. rewrite !app_s_assoc. destruct w as [|c w]; [discriminate|]. cbn [append]. cbn [all_bytes] in W. apply andb_true_iff in W. destruct W as [W _]. intros H. injection H as -> _. discriminate W.
Qed.
Definition mark (closed : bool) : string := if closed then "/>" else ">".
Lemma xml_attributes_inv fuel : forall s l closed r pos total, xml_attributes fuel s = Some (l, closed, r) -> total = (pos + len s)%N ->
  exists ats w xl, s = ats +++ w +++ mark closed +++ r /\ attributes pos ats xl /\ spaces w /\ Forall2 (att_rel total) l xl.
Proof.
  induction fuel as [|fuel IH]; intros s l closed r pos total H T; [discriminate|]. cbn [xml_attributes] in H.
  destruct (span ws s) as [w s'] eqn:S. apply span_inv in S. destruct S as (-> & W & _).
  destruct (lit ">" s') as [r1|] eqn:L1; [apply lit_app in L1; subst s'; injection H as <- <- <-; exists "", w, []; split; [reflexivity|]; split; [constructor|]; split; [now apply spaces_iff|constructor]|].
  destruct (lit "/>" s') as [r1|] eqn:L2; [apply lit_app in L2; subst s'; injection H as <- <- <-; exists "", w, []; split; [reflexivity|]; split; [constructor|]; split; [now apply spaces_iff|constructor]|].
  destruct (is_empty w) eqn:E; [discriminate|]. destruct (xml_attribute s') as [[a r1]|] eqn:A; [|discriminate].
  apply xml_attribute_inv in A. destruct A as (n & name & e & q & v & -> & Q & Eq & V & ->).
  destruct (xml_attributes fuel r1) as [[[l' c'] r2]|] eqn:F; [|discriminate]. cbn [option_map fst snd] in H. injection H as <- <- <-.
  destruct (IH r1 l' c' r2 (pos + len w + len n + len e + len q)%N total F) as (ats & w' & xl & -> & X & W' & R).
  { rewrite T. lens. }
  exists (w +++ n +++ e +++ q +++ ats), w', (mkXatt name v (pos + len w, pos + len w + len n + len e + len q)%N :: xl).
  split; [now rewrite !app_s_assoc|]. split; [|split; [exact W'|]].
  - apply as_cons; auto. + now apply spaces_iff. + intros ->. discriminate E.
  - constructor; [|exact R]. split; [reflexivity|]. split; [reflexivity|]. cbn [x_range ra_left fst snd]. rewrite T. f_equal; lens.
Qed.
Lemma attributes_of pos ats xl : attributes pos ats xl -> forall w closed r fuel total, spaces w -> (String.length ats < fuel)%nat ->
  total = (pos + len (ats +++ w +++ mark closed +++ r))%N ->
  exists l, xml_attributes fuel (ats +++ w +++ mark closed +++ r) = Some (l, closed, r) /\ Forall2 (att_rel total) l xl.
Proof.
  induction 1 as [pos|pos w0 n name e q v s xl W0 N Q E V H IH]; intros w closed r fuel total W F T; (destruct fuel as [|fuel]; [lia|]); cbn [xml_attributes].
  - apply spaces_iff in W. exists []. cbn [append]. rewrite (span_all ws w (mark closed +++ r) W) by now destruct closed. split; [|constructor]. destruct closed; reflexivity.
  - apply spaces_iff in W0. destruct (qname_head n name Q) as (c & n' & Hn & C).
    rewrite !app_s_assoc. rewrite (span_all ws w0 (n +++ e +++ q +++ s +++ w +++ mark closed +++ r) W0) by (rewrite Hn; now apply name_not_ws).
    assert (L1 : lit ">" (n +++ e +++ q +++ s +++ w +++ mark closed +++ r) = None) by (rewrite Hn; cbn [append lit]; destruct (Ascii.eqb_spec ">" c) as [<-|]; [discriminate C|reflexivity]).
    assert (L2 : lit "/>" (n +++ e +++ q +++ s +++ w +++ mark closed +++ r) = None) by (rewrite Hn; cbn [append lit]; destruct (Ascii.eqb_spec "/" c) as [<-|]; [discriminate C|reflexivity]).
    rewrite L1, L2. destruct (is_empty w0) eqn:Em; [destruct w0; [congruence|discriminate Em]|].
    rewrite (xml_attribute_of n name e q v (s +++ w +++ mark closed +++ r) Q E V).
    destruct (IH w closed r fuel total W) as (l & X & R).
    + rewrite !length_app_s in F. destruct w0; [congruence|]. cbn [String.length] in F. lia.
    + rewrite T. lens.
    + rewrite X. cbn [option_map fst snd]. eexists. split; [reflexivity|]. constructor; [|exact R].
      split; [reflexivity|]. split; [reflexivity|]. cbn [x_range ra_left fst snd]. rewrite T. f_equal; lens.
Qed.

(** ** Pieces *)
Definition tok_rel (total : N) (t : xtok) (p : xpiece) : Prop :=
  match t, p with
  | TkOpen n l c, POpen n' xl c' => n = n' /\ c = c' /\ Forall2 (att_rel total) l xl
  | TkClose n, PClose n' => n = n'
  | TkText s b, PText raw s' => s = s' /\ b = all_bytes ws raw
  | TkText s b, PCData s' => s = s' /\ b = false
  | TkOther s, POther s' => s = s'
  | _, _ => False
  end.
Definition is_text (p : xpiece) : Prop := exists raw v, p = PText raw v.
Lemma upper_char (c d : ascii) : ascii_upper c = d -> In d ["X"; "M"; "L"]%char -> c = d \/ ascii_upper c = d /\ In c ["x"; "m"; "l"]%char.
Proof. intros <-. destruct c as [[] [] [] [] [] [] [] []]; vm_compute; intros H; repeat (destruct H as [H|H]; try discriminate H); try tauto. Qed.
Lemma xml_upper t : str_upper t =?s "XML" = true <-> xml_like t.
Proof.
  rewrite String.eqb_eq. split.
  - intros H. destruct t as [|a [|b [|c [|d t]]]]; try discriminate H. cbn [str_upper] in H. injection H as A B C.
    exists a, b, c. split; [reflexivity|]. apply upper_char in A, B, C; try (simpl; auto; fail).
    destruct A as [->|[A A']], B as [->|[B B']], C as [->|[C C']]; simpl in *;
      repeat match goal with H : ?x = _ \/ _ |- _ => destruct H as [H|H]; [subst; try discriminate|] end; intuition (subst; try discriminate; auto).
  - intros (a & b & c & -> & A & B & C). simpl in A, B, C. destruct A as [<-|[<-|[]]], B as [<-|[<-|[]]], C as [<-|[<-|[]]]; reflexivity.
Qed.
Lemma blank_iff raw : is_empty (skip_ws raw) = all_bytes ws raw.
Proof.
  destruct (skip_inv raw) as (w & E & W & B). rewrite E at 2. rewrite all_app, W. cbn [andb]. destruct (skip_ws raw) as [|c r]; [reflexivity|]. simpl in B. cbn [all_bytes]. now rewrite B.
Qed.
Lemma markup_inv s t r pos total : markup s = Some (t, r) -> total = (pos + len (String "<" s))%N ->
  exists u p, String "<" s = u +++ r /\ piece pos u p /\ tok_rel total t p /\ ~ is_text p.
Proof.
  unfold markup. intros H T. destruct (lit "!--" s) as [s1|] eqn:L1.
  { apply lit_app in L1. subst s. destruct (split_at "--" s1) as [[b r1]|] eqn:S; [|discriminate]. destruct (lit ">" r1) as [r2|] eqn:L; [|discriminate]. apply lit_app in L. subst r1.
    injection H as <- <-. pose proof (split_at_inv _ _ _ _ S) as E. exists ("<!--" +++ b +++ "-->"), (POther b).
    split; [rewrite E, !app_s_assoc; reflexivity|]. split; [constructor; now apply comment_inv in S|]. split; [reflexivity|intros (x & y & Z); discriminate Z]. }
  destruct (lit "![CDATA[" s) as [s1|] eqn:L2.
  { apply lit_app in L2. subst s. destruct (split_at "]]>" s1) as [[b r1]|] eqn:S; [|discriminate]. injection H as <- <-. pose proof (split_at_inv _ _ _ _ S) as E.
    exists ("<![CDATA[" +++ b +++ "]]>"), (PCData (eol b)). split; [rewrite E, !app_s_assoc; reflexivity|]. split; [constructor; [now apply cdata_iff|]|split; [split; reflexivity|intros (x & y & Z); discriminate Z]].
    apply (occurs_first _ _ _ _ S). discriminate. }
  destruct (lit "?" s) as [s1|] eqn:L3.
  { apply lit_app in L3. subst s. destruct (split_at "?>" s1) as [[b r1]|] eqn:S; [|discriminate]. pose proof (split_at_inv _ _ _ _ S) as E.
    assert (O : ~ occurs "?>" b) by (apply (occurs_first _ _ _ _ S); discriminate). clear S.
    destruct (span name_byte b) as [n b'] eqn:F. apply span_inv in F. destruct F as (-> & A & B).
    destruct (ncname n) eqn:N; [|discriminate]. destruct (str_upper n =?s "XML") eqn:X; [discriminate|]. cbn [negb andb] in H.
    destruct (is_empty b' || _)%bool eqn:D; [|discriminate]. injection H as <- <-.
    exists ("<?" +++ n +++ b' +++ "?>"), (POther (n +++ b')). split; [rewrite E, !app_s_assoc; reflexivity|]. split; [|split; [reflexivity|intros (x & y & Z); discriminate Z]].
    constructor.
    - now apply ncname_iff.
    - intros G. apply xml_upper in G. congruence.
    - destruct b' as [|c b']; [now left|right]. exists c, b'. split; [reflexivity|]. now apply space_iff.
    - intros (x & y & ->). apply O. exists (n +++ x), y. now rewrite !app_s_assoc. }
  destruct (lit "/" s) as [s1|] eqn:L4.
  { apply lit_app in L4. subst s. destruct (qname s1) as [[name r1]|] eqn:Q; [|discriminate]. apply qname_inv in Q. destruct Q as (n & Q & -> & _).
    destruct (skip_inv r1) as (w & E & W & _). destruct (lit ">" (skip_ws r1)) as [r2|] eqn:L; [|discriminate]. apply lit_app in L. injection H as <- <-. rewrite L in E.
    exists ("</" +++ n +++ w +++ ">"), (PClose name). split; [rewrite E, !app_s_assoc; reflexivity|]. split; [constructor; [exact Q|now apply spaces_iff]|]. split; [reflexivity|intros (x & y & Z); discriminate Z]. }
  destruct (qname s) as [[name r1]|] eqn:Q; [|discriminate]. apply qname_inv in Q. destruct Q as (n & Q & -> & _).
  destruct (xml_attributes (S (String.length r1)) r1) as [[[l closed] r2]|] eqn:X; [|discriminate]. cbn [option_map fst snd] in H. injection H as <- <-.
  apply (xml_attributes_inv _ _ _ _ _ (pos + 1 + len n)%N total) in X; [|rewrite T; lens].
  destruct X as (ats & w & xl & -> & A & W & R). exists ("<" +++ n +++ ats +++ w +++ mark closed), (POpen name xl closed).
  split; [rewrite !app_s_assoc; reflexivity|]. split; [destruct closed; constructor; assumption|]. split; [|intros (x & y & Z); discriminate Z]. repeat split. exact R.
Qed.
Lemma token_other c s : c <> "<"%char -> xml_token (String c s) = let '(raw, r) := span (fun c => negb (Ascii.eqb c "<")) (String c s) in
  if contains "]]>" raw then None else option_map (fun v => (TkText v (is_empty (skip_ws raw)), r)) (chardata false None raw).
Proof. intros N. unfold xml_token. destruct c as [[] [] [] [] [] [] [] []]; try reflexivity. exfalso. apply N. reflexivity. Qed.
Lemma token_inv s t r pos total : s <> "" -> xml_token s = Some (t, r) -> total = (pos + len s)%N ->
  exists u p, s = u +++ r /\ piece pos u p /\ tok_rel total t p /\ (is_text p -> begins_lt r) /\ u <> "".
Proof.
  intros N H T. destruct s as [|c s]; [congruence|]. destruct (Ascii.eqb_spec c "<") as [->|C].
  - destruct (markup_inv s t r pos total H T) as (u & p & E & P & R & X). exists u, p. split; [exact E|]. split; [exact P|]. split; [exact R|]. split; [tauto|].
    intros ->. inversion P; try discriminate; congruence.
  - rewrite (token_other c s C) in H. destruct (span _ (String c s)) as [raw r'] eqn:S. apply span_inv in S. destruct S as (E & A & B).
    destruct (contains "]]>" raw) eqn:O; [discriminate|]. destruct (chardata false None raw) as [v|] eqn:V; [|discriminate]. injection H as <- <-.
    assert (Ne : raw <> "") by (intros ->; cbn [append] in E; subst r'; simpl in B; apply negb_false_iff, Ascii.eqb_eq in B; congruence).
    exists raw, (PText raw v). split; [exact E|]. split; [constructor; [exact Ne|now apply chardata_text_of|now apply occurs_not]|]. split; [split; [reflexivity|apply blank_iff]|]. split; [|exact Ne].
    intros _. destruct r' as [|d r']; [exact I|]. simpl in *. apply negb_false_iff, Ascii.eqb_eq in B. exact B.
Qed.
Lemma piece_head pos u p : piece pos u p -> is_text p /\ (exists c r, u = String c r /\ c <> "<"%char) \/ ~ is_text p /\ exists r, u = String "<" r.
Proof.
  intros P. destruct P; try (right; split; [intros (x & y & Z); discriminate Z|eexists; reflexivity]).
  left. split; [eexists; eexists; reflexivity|]. destruct raw as [|c raw]; [congruence|]. exists c, raw. split; [reflexivity|]. apply text_chardata in H0. destruct H0 as [_ A].
  cbn [all_bytes] in A. apply andb_true_iff in A. destruct A as [A _]. now apply negb_true_iff, Ascii.eqb_neq in A.
Qed.
Lemma name_lit c s (d : ascii) p : name_byte c = true -> name_byte d = false -> lit (String d p) (String c s) = None.
Proof. intros A B. cbn [lit]. destruct (Ascii.eqb_spec d c) as [->|]; [congruence|reflexivity]. Qed.
Lemma open_of n name ats xl w closed r pos total : QName n name -> attributes (pos + 1 + len n) ats xl -> spaces w ->
  total = (pos + len ("<" +++ n +++ ats +++ w +++ mark closed +++ r))%N ->
  exists l, xml_token ("<" +++ n +++ ats +++ w +++ mark closed +++ r) = Some (TkOpen name l closed, r) /\ Forall2 (att_rel total) l xl.
Proof.
  intros Q A W T. destruct (qname_head n name Q) as (c & n' & Hn & C).
  destruct (attributes_of _ _ _ A w closed r (S (String.length (ats +++ w +++ mark closed +++ r))) total W) as (l & X & R).
  { rewrite length_app_s. lia. }
  { rewrite T. lens. }
  exists l. split; [|exact R]. change (xml_token ("<" +++ n +++ ats +++ w +++ mark closed +++ r)) with (markup (n +++ ats +++ w +++ mark closed +++ r)). unfold markup.
  assert (M : forall d p, name_byte d = false -> lit (String d p) (n +++ ats +++ w +++ mark closed +++ r) = None) by (intros d p D; rewrite Hn; now apply name_lit).
  rewrite !M by reflexivity. rewrite (qname_of n name); [|exact Q|..].
  - rewrite X. reflexivity.
  - destruct A as [pos'|pos' w0 n0 name0 e q v s xl0 W0 N0 Q0 E0 V0 H0].
    + cbn [append]. destruct w as [|d w]; [now destruct closed|]. apply spaces_iff in W. cbn [all_bytes] in W. apply andb_true_iff in W. destruct W as [W _]. simpl. now apply ws_not_name.
    + destruct w0 as [|d w0]; [congruence|]. apply spaces_iff in W0. cbn [all_bytes] in W0. apply andb_true_iff in W0. destruct W0 as [W0 _]. simpl. now apply ws_not_name.
  - intros r' H. destruct A as [pos'|pos' w0 n0 name0 e q v s xl0 W0 N0 Q0 E0 V0 H0].
    + cbn [append] in H. destruct w as [|d w]; [destruct closed; discriminate H|]. apply spaces_iff in W. cbn [all_bytes] in W. apply andb_true_iff in W. destruct W as [W _]. cbn [append] in H. injection H as -> _. discriminate W.
    + destruct w0 as [|d w0]; [congruence|]. apply spaces_iff in W0. cbn [all_bytes] in W0. apply andb_true_iff in W0. destruct W0 as [W0 _]. cbn [append] in H. injection H as -> _. discriminate W0.
Qed.
Lemma token_of pos u p r total : piece pos u p -> (is_text p -> begins_lt r) -> total = (pos + len (u +++ r))%N ->
  exists t, xml_token (u +++ r) = Some (t, r) /\ tok_rel total t p.
Proof.
  intros P B T. destruct P as [n name ats l w Q A W|n name ats l w Q A W|n name w Q W|raw v N C O|b v C O|b O|t b N X D O].
  - destruct (open_of n name ats l w false r pos total Q A W) as (l' & E & R); [rewrite T, !app_s_assoc; reflexivity|].
    rewrite !app_s_assoc. exists (TkOpen name l' false). split; [exact E|]. repeat split. exact R.
  - destruct (open_of n name ats l w true r pos total Q A W) as (l' & E & R); [rewrite T, !app_s_assoc; reflexivity|].
    rewrite !app_s_assoc. exists (TkOpen name l' true). split; [exact E|]. repeat split. exact R.
  - apply spaces_iff in W. exists (TkClose name). split; [|reflexivity]. rewrite !app_s_assoc. change (xml_token ("</" +++ n +++ w +++ ">" +++ r)) with (markup ("/" +++ n +++ w +++ ">" +++ r)).
    unfold markup. cbn [append lit]. change (Ascii.eqb "!" "/") with false. change (Ascii.eqb "?" "/") with false. change (Ascii.eqb "/" "/") with true. cbn iota.
    rewrite (qname_of n name); [|exact Q|..].
    + rewrite (skip_app w (String ">" r) W eq_refl). reflexivity.
    + destruct w as [|d w]; [reflexivity|]. cbn [all_bytes] in W. apply andb_true_iff in W. destruct W as [W _]. simpl. now apply ws_not_name.
    + intros r' H. destruct w as [|d w]; [discriminate H|]. cbn [all_bytes] in W. apply andb_true_iff in W. destruct W as [W _]. cbn [append] in H. injection H as -> _. discriminate W.
  - apply text_chardata in C. destruct C as [C A]. exists (TkText v (is_empty (skip_ws raw))). split; [|split; [reflexivity|apply blank_iff]].
    apply token_text; auto. + now apply occurs_not. + apply B. eexists; eexists; reflexivity.
  - apply cdata_iff in C. subst v. exists (TkText (eol b) false). split; [|split; reflexivity]. rewrite !app_s_assoc.
    change (xml_token ("<![CDATA[" +++ b +++ "]]>" +++ r)) with (option_map (fun x => (TkText (eol (fst x)) false, snd x)) (split_at "]]>" (b +++ "]]>" +++ r))).
    rewrite (cdata_first b r O). reflexivity.
  - exists (TkOther b). split; [|reflexivity]. rewrite !app_s_assoc.
    change (xml_token ("<!--" +++ b +++ "-->" +++ r)) with (match split_at "--" (b +++ "--" +++ (">" +++ r)) with Some (b, r) => option_map (fun r => (TkOther b, r)) (lit ">" r) | None => None end).
    rewrite (comment_first b (">" +++ r) O). reflexivity.
  - exists (TkOther (t +++ b)). split; [|reflexivity]. apply ncname_iff in N. rewrite !app_s_assoc.
    assert (O' : ~ occurs "?>" (t +++ b)).
    { apply occurs_not. apply occurs_not in O. pose proof (ncname_bytes _ N) as A. clear - O A. induction t as [|c t IH]; [exact O|]. cbn [all_bytes] in A. apply andb_true_iff in A. destruct A as [A A'].
      cbn [append contains]. rewrite (name_lit c (t +++ b) "?"%char ">" A eq_refl). auto. }
    change (xml_token ("<?" +++ t +++ b +++ "?>" +++ r)) with (match split_at "?>" (t +++ b +++ "?>" +++ r) with
      | Some (b, r) => let '(t, b') := span name_byte b in
          if (ncname t && negb (str_upper t =?s "XML") && (is_empty b' || ws (match b' with String c _ => c | "" => "x"%char end)))%bool then Some (TkOther b, r) else None
      | None => None end).
    replace (t +++ b +++ "?>" +++ r) with ((t +++ b) +++ "?>" +++ r) by now rewrite !app_s_assoc.
    rewrite (pi_first (t +++ b) r O').
    assert (S : stops name_byte b) by (destruct D as [->|(c & b' & -> & S)]; [exact I|]; simpl; apply ws_not_name; now apply space_iff).
    rewrite (span_all name_byte t b (ncname_bytes _ N) S), N. destruct (str_upper t =?s "XML") eqn:U; [apply xml_upper in U; contradiction|]. cbn [negb andb].
    destruct D as [->|(c & b' & -> & Sp)]; [reflexivity|]. apply space_iff in Sp. cbn [is_empty orb]. now rewrite Sp.
Qed.

(** ** The sequence of pieces *)
Definition place_rel (total : N) (t : xtok * (N * N)) (p : N * xpiece * N) : Prop :=
  tok_rel total (fst t) (snd (fst p)) /\ fst (fst p) = (total - fst (snd t))%N /\ snd p = (total - snd (snd t))%N.
Lemma pieces_head pos s ps : pieces pos s ps -> begins_lt s <-> ~ at_text ps.
Proof.
  intros H. destruct H as [pos|pos t p s l P X H]; [split; [intros _ (b & raw & v & e & r & Z); discriminate Z|reflexivity]|].
  destruct (piece_head pos t p P) as [[(raw & v & ->) (c & r & -> & N)]|[N (r & ->)]].
  - split; [intros E; simpl in E; congruence|]. intros Z. exfalso. apply Z. repeat eexists.
  - split; [|reflexivity]. intros _ (b & raw & v & e & r' & Z). injection Z as _ -> _ _. apply N. eexists; eexists; reflexivity.
Qed.
Lemma tokens_inv fuel : forall s ts pos total, xml_tokens fuel s = Some ts -> total = (pos + len s)%N -> exists ps, pieces pos s ps /\ Forall2 (place_rel total) ts ps.
Proof.
  induction fuel as [|fuel IH]; intros s ts pos total H T; cbn [xml_tokens] in H.
  - destruct s; [|discriminate]. injection H as <-. exists []. split; constructor.
  - destruct s as [|c s]; [injection H as <-; exists []; split; constructor|].
    destruct (xml_token (String c s)) as [[t r]|] eqn:X; [|discriminate].
    destruct (token_inv (String c s) t r pos total ltac:(discriminate) X T) as (u & p & E & P & R & B & _).
    destruct (xml_tokens fuel r) as [ts'|] eqn:Y; [|discriminate]. cbn [option_map] in H. injection H as <-.
    destruct (IH r ts' (pos + len u)%N total Y) as (ps & Ps & F); [rewrite T, E; lens|].
    exists ((pos, p, (pos + len u)%N) :: ps). split.
    + rewrite E. constructor; [exact P| |exact Ps]. intros raw v ->. apply (pieces_head _ _ _ Ps). apply B. eexists; eexists; reflexivity.
    + constructor; [|exact F]. split; [exact R|]. cbn [fst snd]. rewrite T, E. split; lens.
Qed.
Lemma tokens_of pos s ps : pieces pos s ps -> forall fuel total, (String.length s <= fuel)%nat -> total = (pos + len s)%N ->
  exists ts, xml_tokens fuel s = Some ts /\ Forall2 (place_rel total) ts ps.
Proof.
  induction 1 as [pos|pos t p s l P X H IH]; intros fuel total L T.
  - exists []. split; [now destruct fuel|constructor].
  - assert (B : is_text p -> begins_lt s) by (intros (raw & v & ->); apply (pieces_head _ _ _ H); now apply (X raw v)).
    destruct (token_of pos t p s total P B T) as (k & E & R).
    assert (N : exists c t', t = String c t') by (destruct (piece_head pos t p P) as [[_ (c & r & -> & _)]|[_ (r & ->)]]; eauto). destruct N as (c & t' & ->).
    destruct fuel as [|fuel]; [cbn [append String.length] in L; lia|]. rewrite length_app_s in L. cbn [String.length] in L.
    destruct (IH fuel total) as (ts & Y & F); [lia|rewrite T; lens|].
    exists ((k, (left_of (String c t' +++ s), left_of s)) :: ts). split.
    + cbn [append xml_tokens]. cbn [append] in E. rewrite E, Y. reflexivity.
    + constructor; [|exact F]. split; [exact R|]. cbn [fst snd]. rewrite T. split; lens.
Qed.
