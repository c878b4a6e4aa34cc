(** * XmlProof: characters, names and escaped text (lemmas of PropXml.v) *)
From Verif Require Import Base XmlChars XmlRead XmlWrite.

(** ** Bytes *)
Fixpoint all_bytes (p : ascii -> bool) (s : string) : bool := match s with "" => true | String c r => p c && all_bytes p r end.
Definition high (c : ascii) : bool := (128 <=? N_of_ascii c)%N.

Lemma all_app p a b : all_bytes p (a +++ b) = all_bytes p a && all_bytes p b.
Proof. induction a as [|c a IH]; simpl; [reflexivity|]. now rewrite IH, andb_assoc. Qed.
Lemma all_impl (p q : ascii -> bool) s : (forall c, p c = true -> q c = true) -> all_bytes p s = true -> all_bytes q s = true.
Proof.
  intros H. induction s as [|c s IH]; simpl; [reflexivity|]. rewrite !andb_true_iff. intros [A B]. auto.
Qed.
Lemma span_all p a r : all_bytes p a = true -> match r with "" => True | String c _ => p c = false end -> span p (a +++ r) = (a, r).
Proof.
  intros A E. induction a as [|c a IH]; simpl in *.
  - destruct r as [|c r]; simpl; [reflexivity|]. now rewrite E.
  - apply andb_true_iff in A. destruct A as [A B]. rewrite A, (IH B). reflexivity.
Qed.
Lemma high_other c d : high c = true -> high d = false -> Ascii.eqb c d = false.
Proof. intros A B. destruct (Ascii.eqb_spec c d) as [->|]; congruence. Qed.
Lemma lit_app p s r : lit p s = Some r <-> s = p +++ r.
Proof.
  revert s. induction p as [|a p IH]; intros [|b s]; simpl; try (split; congruence).
  destruct (Ascii.eqb_spec a b) as [->|E]; [rewrite IH; split; congruence|split; congruence].
Qed.
Lemma lit_same p r : lit p (p +++ r) = Some r.
Proof. now apply lit_app. Qed.

(** ** Characters *)
Definition one_char (b : string) (c : N) : Prop :=
  (forall r, points (b +++ r) = option_map (cons c) (points r))
  /\ ((exists a, b = String a "" /\ N_of_ascii a = c /\ high a = false) \/ (all_bytes high b = true /\ 128 <= c)%N /\ b <> "").

Lemma cont_high c x : cont c = Some x -> high c = true.
Proof. unfold cont, high. destruct (128 <=? N_of_ascii c)%N; simpl; congruence. Qed.
Lemma points_first s c l : points s = Some (c :: l) -> exists b r, s = b +++ r /\ points r = Some l /\ one_char b c.
Proof.
  destruct s as [|a s]; simpl; [discriminate|].
  destruct (N_of_ascii a <? 128)%N eqn:E1.
  { intros H. destruct (points s) as [l'|] eqn:P; simpl in H; [|discriminate]. injection H as <- <-.
    exists (String a ""), s. split; [reflexivity|]. split; [exact P|]. split.
    - intros r. simpl. now rewrite E1.
    - left. exists a. repeat split; auto. unfold high. apply N.leb_gt. now apply N.ltb_lt. }
  assert (Ha : high a = true) by (unfold high; apply N.leb_le; now apply N.ltb_ge in E1).
  destruct (N_of_ascii a <? 192)%N eqn:E2; [discriminate|].
  destruct (N_of_ascii a <? 224)%N eqn:E3.
  { destruct s as [|b s]; [discriminate|]. destruct (cont b) as [x|] eqn:C; [|discriminate].
    destruct (128 <=? (N_of_ascii a - 192) * 64 + x)%N eqn:B; [|discriminate].
    intros H. destruct (points s) as [l'|] eqn:P; simpl in H; [|discriminate]. injection H as <- <-.
    exists (String a (String b "")), s. split; [reflexivity|]. split; [exact P|]. split.
    - intros r. simpl. now rewrite E1, E2, E3, C, B.
    - right. apply cont_high in C. split; [|discriminate]. simpl. rewrite Ha, C. split; [reflexivity|]. now apply N.leb_le. }
  destruct (N_of_ascii a <? 240)%N eqn:E4.
  { destruct s as [|b [|b' s]]; [discriminate|discriminate|].
    destruct (cont b) as [x|] eqn:C; [|discriminate]. destruct (cont b') as [y|] eqn:C'; [|discriminate].
    match goal with |- (if ?g then _ else _) = _ -> _ => destruct g eqn:B end; [|discriminate].
    intros H. destruct (points s) as [l'|] eqn:P; simpl in H; [|discriminate]. injection H as <- <-.
    exists (String a (String b (String b' ""))), s. split; [reflexivity|]. split; [exact P|]. split.
    - intros r. simpl. now rewrite E1, E2, E3, E4, C, C', B.
    - right. apply cont_high in C, C'. split; [|discriminate]. simpl. rewrite Ha, C, C'. split; [reflexivity|].
      apply andb_true_iff in B. destruct B as [B _]. apply N.leb_le in B. lia. }
  destruct (N_of_ascii a <? 248)%N eqn:E5; [|discriminate].
  destruct s as [|b [|b' [|b'' s]]]; try discriminate.
  destruct (cont b) as [x|] eqn:C; [|discriminate]. destruct (cont b') as [y|] eqn:C'; [|discriminate]. destruct (cont b'') as [z|] eqn:C''; [|discriminate].
  match goal with |- (if ?g then _ else _) = _ -> _ => destruct g eqn:B end; [|discriminate].
  intros H. destruct (points s) as [l'|] eqn:P; simpl in H; [|discriminate]. injection H as <- <-.
  exists (String a (String b (String b' (String b'' "")))), s. split; [reflexivity|]. split; [exact P|]. split.
  - intros r. simpl. now rewrite E1, E2, E3, E4, E5, C, C', C'', B.
  - right. apply cont_high in C, C', C''. split; [|discriminate]. simpl. rewrite Ha, C, C', C''. split; [reflexivity|].
    apply andb_true_iff in B. destruct B as [B _]. apply N.leb_le in B. lia.
Qed.
Lemma points_nil s : points s = Some [] -> s = "".
Proof.
  destruct s as [|a s]; [reflexivity|]. intros H. exfalso.
  simpl in H.
  repeat match type of H with
         | (if ?g then _ else _) = _ => destruct g
         | (match ?g with _ => _ end) = _ => destruct g
         | option_map _ (points ?x) = _ => destruct (points x)
         end; simpl in H; discriminate.
Qed.
(** A text is a sequence of characters. *)
Lemma points_ind (P : string -> list N -> Prop) :
  P "" [] -> (forall b c r l, one_char b c -> points r = Some l -> P r l -> P (b +++ r) (c :: l)) ->
  forall s l, points s = Some l -> P s l.
Proof.
  intros A B s l. revert s. induction l as [|c l IH]; intros s H.
  - apply points_nil in H. now subst.
  - destruct (points_first _ _ _ H) as (b & r & -> & P' & O). auto.
Qed.
Lemma points_app a l b : points a = Some l -> points (a +++ b) = option_map (app l) (points b).
Proof.
  intros H. revert a l H. apply points_ind.
  - simpl. now destruct (points b).
  - intros x c r l [O _] _ IH. rewrite app_s_assoc, O, IH. now destruct (points b).
Qed.
Lemma chars_app a b : xml_chars a = true -> xml_chars b = true -> xml_chars (a +++ b) = true.
Proof.
  unfold xml_chars. destruct (points a) as [l|] eqn:A; [|discriminate]. rewrite (points_app _ _ _ A).
  destruct (points b) as [l'|]; simpl; [|discriminate]. intros X Y. now rewrite forallb_app, X, Y.
Qed.

(** ** Names *)
Lemma between_app l m c : between (l ++ m) c = between l c || between m c.
Proof. apply existsb_app. Qed.
Lemma name_chars_ok c : name_char c = true -> char_ok c = true.
Proof.
  unfold name_char, char_ok, start_ranges. simpl. rewrite !orb_true_iff, !andb_true_iff, !N.leb_le. intros H.
  decompose [or and] H; try discriminate;
    first [ right; right; left; split; lia | right; right; right; left; split; lia | right; right; right; right; left; split; lia ].
Qed.
Lemma start_name c : name_start c = true -> name_char c = true.
Proof. unfold name_start, name_char. rewrite between_app. intros ->. reflexivity. Qed.
Lemma ncname_points s : ncname s = true -> exists l, points s = Some l /\ l <> [] /\ forallb name_char l = true.
Proof.
  unfold ncname. destruct (points s) as [[|c l]|]; try discriminate. rewrite andb_true_iff. intros [A B].
  exists (c :: l). split; [reflexivity|]. split; [discriminate|]. simpl. now rewrite (start_name _ A).
Qed.
Lemma ncname_chars s : ncname s = true -> xml_chars s = true.
Proof.
  intros H. destruct (ncname_points _ H) as (l & P & _ & F). unfold xml_chars. rewrite P.
  apply forallb_forall. intros c Hc. apply name_chars_ok. now apply (proj1 (forallb_forall _ _) F).
Qed.
Lemma name_char_byte a : name_char (N_of_ascii a) = true -> high a = false -> name_byte a = true.
Proof. destruct a as [[] [] [] [] [] [] [] []]; vm_compute; congruence. Qed.
Lemma high_name a : high a = true -> name_byte a = true.
Proof. unfold high, name_byte. intros ->. now rewrite orb_true_r. Qed.
Lemma ncname_bytes s : ncname s = true -> all_bytes name_byte s = true.
Proof.
  intros H. destruct (ncname_points _ H) as (l & P & _ & F). clear H. revert F.
  refine (points_ind (fun s l => forallb name_char l = true -> all_bytes name_byte s = true) _ _ s l P); [reflexivity|].
  intros b c r l' [_ O] _ IH. simpl. rewrite andb_true_iff. intros [A B]. rewrite all_app, (IH B), andb_true_r.
  destruct O as [(a & -> & <- & Ha)|[[Hb _] _]].
  - simpl. rewrite andb_true_r. now apply name_char_byte.
  - revert Hb. apply all_impl. apply high_name.
Qed.
Lemma ncname_ne s : ncname s = true -> s <> "".
Proof. intros H ->. discriminate H. Qed.

(** ** Escaped text *)
Lemma escape_app f a b : escape f (a +++ b) = escape f a +++ escape f b.
Proof. induction a as [|c a IH]; simpl; [reflexivity|]. now rewrite IH, app_s_assoc. Qed.
(** The two tables of escapes: a character is kept, or becomes a reference. *)
Definition refs : list string := ["&lt;"; "&gt;"; "&quot;"; "&apos;"; "&amp;"; "&#xA;"; "&#xD;"; "&#x9;"].
Lemma esc_text_cases em c : esc_text em c = String c "" \/ In (esc_text em c) refs /\ high c = false.
Proof.
  unfold esc_text, refs.
  destruct (Ascii.eqb_spec c "<") as [->|]; [right; split; [simpl; tauto|reflexivity]|].
  destruct (Ascii.eqb_spec c "&") as [->|]; [right; split; [simpl; tauto|reflexivity]|].
  destruct (Ascii.eqb_spec c ">") as [->|]; simpl; [destruct (em_gt em); [right; split; [simpl; tauto|reflexivity]|left; reflexivity]|].
  destruct (Ascii.eqb_spec c cr) as [->|]; simpl; [destruct (em_cr em); [right; split; [simpl; tauto|reflexivity]|left; reflexivity]|].
  now left.
Qed.
Lemma esc_attr_cases em c : esc_attr em c = String c "" \/ In (esc_attr em c) refs /\ high c = false.
Proof.
  unfold esc_attr, refs.
  repeat match goal with
         | |- context [if Ascii.eqb c ?d then _ else _] => destruct (Ascii.eqb_spec c d) as [->|]; [right; split; [simpl; tauto|reflexivity]|]
         end.
  destruct (Ascii.eqb_spec c tab) as [->|]; simpl; [destruct (em_tab em); [right; split; [simpl; tauto|reflexivity]|left; reflexivity]|].
  now left.
Qed.
Definition table (f : ascii -> string) : Prop := forall c, f c = String c "" \/ In (f c) refs /\ high c = false.
Lemma refs_chars t : In t refs -> xml_chars t = true.
Proof. intros H. simpl in H. decompose [or] H; try tauto; subst; reflexivity. Qed.
Lemma chars_escape f s : table f -> xml_chars s = true -> xml_chars (escape f s) = true.
Proof.
  intros T H. unfold xml_chars in H. destruct (points s) as [l|] eqn:P; [|discriminate]. revert H.
  refine (points_ind (fun s l => forallb char_ok l = true -> xml_chars (escape f s) = true) _ _ s l P); [reflexivity|].
  intros b c r l' [O1 O] _ IH. simpl. rewrite andb_true_iff. intros [A B]. rewrite escape_app. apply chars_app; [|auto].
  destruct O as [(a & -> & <- & Ha)|[[Hb _] _]].
  - simpl. rewrite app_s_nil_r. destruct (T a) as [->|[I _]]; [|now apply refs_chars].
    unfold xml_chars. specialize (O1 ""). rewrite app_s_nil_r in O1. rewrite O1. simpl. now rewrite A.
  - assert (E : escape f b = b).
    { clear -Hb T. induction b as [|x b IH]; simpl in *; [reflexivity|]. apply andb_true_iff in Hb. destruct Hb as [X Y].
      rewrite (IH Y). destruct (T x) as [->|[_ Z]]; [reflexivity|congruence]. }
    rewrite E. unfold xml_chars. specialize (O1 ""). rewrite app_s_nil_r in O1. rewrite O1. simpl. now rewrite A.
Qed.

(** Reading references. *)
Lemma ref_read att t v r : In (t, v) [("&lt;", "<"); ("&gt;", ">"); ("&quot;", """"); ("&apos;", "'"); ("&amp;", "&"); ("&#xA;", String lf ""); ("&#xD;", String cr ""); ("&#x9;", String tab "")] ->
  chardata att None (t +++ r) = option_map (append v) (chardata att None r).
Proof.
  intros H. simpl in H.
  decompose [or] H; clear H; try tauto;
    match goal with E : (_, _) = (t, v) |- _ => injection E as <- <- end; cbn [append]; cbn -[chardata option_map append];
    cbn [chardata]; cbn -[chardata option_map append]; cbn [chardata entity]; 
    destruct (chardata att None r); reflexivity.
Qed.
