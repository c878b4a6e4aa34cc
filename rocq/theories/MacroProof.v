(** * MacroProof: positions, the attribute macro *)
From Verif Require Import Base Libs Xml Ast XsdNode Parse Gen ParseSpec ParseMain RustSpec Macro MacroSpec CharProof.

(** ** Texts and positions *)
Lemma utf8_app a b : starts_with_cont b = false -> utf8_chars (a +++ b) = utf8_chars a ++ utf8_chars b.
Proof.
  intros H. induction a as [|c a IH]; [reflexivity|]. simpl. rewrite IH.
  destruct (utf8_chars a) as [|h t] eqn:E; simpl.
  - pose proof (utf8_head b) as K. destruct (utf8_chars b) as [|h t]; [reflexivity|]. now rewrite K, H.
  - destruct (starts_with_cont h); reflexivity.
Qed.
Lemma length_app_s a b : String.length (a +++ b) = String.length a + String.length b.
Proof. induction a; simpl; congruence. Qed.
Lemma get_app a b : String.get (String.length a) (a +++ b) = String.get 0 b.
Proof. induction a; simpl; [destruct b; reflexivity|assumption]. Qed.
Lemma take_app a b : substring 0 (String.length a) (a +++ b) = a.
Proof. induction a as [|c a IH]; simpl; [destruct b; reflexivity|now rewrite IH]. Qed.
Lemma list_ascii_app a b : list_ascii_of_string (a +++ b) = list_ascii_of_string a ++ list_ascii_of_string b.
Proof. induction a; simpl; congruence. Qed.

Definition joined (lines : list string) : string := concat_str (map (fun l => l +++ newline) lines).

Lemma lines_of a : exists lines line, a = joined lines +++ line /\ Forall one_line lines /\ one_line line
  /\ count_newlines a = length lines.
Proof.
  induction a as [|c a (lines & line & E & F & O & N)].
  - exists [], "". repeat split; auto. intros [].
  - simpl. destruct (Ascii.eqb_spec c "010") as [->|Nc].
    + exists ("" :: lines), line. subst a. unfold joined. cbn [map]. rewrite concat_cons. repeat split; auto.
      * constructor; [intros []|exact F].
      * simpl. f_equal. exact N.
    + destruct lines as [|l lines].
      * exists [], (String c line). unfold joined in *. simpl in *. subst a. repeat split; auto.
        intros [K|K]; [now apply Nc|now apply O].
      * exists (String c l :: lines), line. subst a. unfold joined. cbn [map]. rewrite !concat_cons. split; [reflexivity|].
        split; [inversion F as [|? ? F1 F2]; subst; constructor; [|exact F2]; intros [K|K]; [now apply Nc|now apply F1]|].
        split; [exact O|]. unfold joined in N. cbn [map] in N. rewrite concat_cons in N. exact N.
Qed.

Lemma no_newline_char line c : one_line line -> In c (utf8_chars line) -> c <> newline.
Proof.
  intros O I ->. apply O. rewrite <- (utf8_chars_concat line). apply in_split in I. destruct I as (l1 & l2 & ->).
  rewrite concat_app, concat_cons, !list_ascii_app. apply in_app_iff. right. now left.
Qed.
Lemma chars_skip l m : (forall c, In c l -> c <> newline) -> chars_to_newline (l ++ m) = length l + chars_to_newline m.
Proof.
  induction l as [|c l IH]; intros H; simpl; [reflexivity|]. destruct (String.eqb_spec c newline) as [->|N].
  - exfalso. apply (H newline); [now left|reflexivity].
  - unfold newline in N. apply String.eqb_neq in N. rewrite N. now rewrite IH by (intros; apply H; now right).
Qed.

Lemma joined_end lines : joined lines = "" \/ exists a, joined lines = a +++ newline.
Proof.
  induction lines as [|l lines IH]; [now left|]. right. unfold joined in *. cbn [map]. rewrite concat_cons.
  destruct IH as [->|(a & ->)].
  - exists l. now rewrite app_s_nil_r.
  - exists (l +++ newline +++ a). now rewrite !app_s_assoc.
Qed.

Lemma column lines line : one_line line -> (joined lines <> "" -> starts_with_cont line = false) ->
  chars_to_newline (rev (utf8_chars (joined lines +++ line))) = length (utf8_chars line).
Proof.
  intros O S. assert (K : forall c, In c (rev (utf8_chars line)) -> c <> newline).
  { intros c I. apply (no_newline_char line); [exact O|]. now apply in_rev. }
  destruct (joined_end lines) as [E|(a & E)].
  - rewrite E. simpl. rewrite <- (app_nil_r (rev _)), chars_skip by exact K. simpl. rewrite rev_length. lia.
  - rewrite utf8_app by (apply S; rewrite E; destruct a; discriminate). rewrite E, utf8_app by reflexivity.
    rewrite rev_app_distr, chars_skip by exact K. rewrite rev_app_distr. simpl. rewrite rev_length. lia.
Qed.

Lemma position_of text pos : (forall a b, text = a +++ newline +++ b -> starts_with_cont b = false) ->
  between_chars text pos -> exists row col, text_pos_at text pos = Some (row, col) /\ located text pos row col.
Proof.
  intros U (a & b & -> & <- & Hb). unfold text_pos_at. rewrite length_app_s, Nat.min_l by lia.
  assert (B : char_boundary (a +++ b) (String.length a) = true).
  { unfold char_boundary. rewrite get_app. destruct b as [|c b]; simpl; [rewrite app_s_nil_r; apply Nat.eqb_refl|].
    simpl in Hb. now rewrite Hb. }
  rewrite B, take_app. destruct (lines_of a) as (lines & line & E & F & O & N).
  eexists. eexists. split; [reflexivity|]. apply (loc _ _ _ _ lines line b); auto.
  - fold (joined lines). rewrite E. now rewrite app_s_assoc.
  - fold (joined lines). now rewrite <- E.
  - f_equal. rewrite E. destruct line as [|c0 line'] eqn:El; [|rewrite <- El in *].
    + apply column; [exact O|reflexivity].
    + apply column; [exact O|]. intros Nj. destruct (joined_end lines) as [K|(x & K)]; [contradiction|].
      specialize (U x (line +++ b)). rewrite El. rewrite El in U. simpl in U. apply U. rewrite E, K, El.
      rewrite !app_s_assoc. reflexivity.
Qed.

Lemma app_s_inv_head a b b' : a +++ b = a +++ b' -> b = b'.
Proof. induction a; simpl; [trivial|]. intros H. injection H. assumption. Qed.
Lemma split_line l l' r r' : one_line l -> one_line l' -> l +++ newline +++ r = l' +++ newline +++ r' -> l = l' /\ r = r'.
Proof.
  revert l'. induction l as [|c l IH]; intros [|c' l'] O O' H; simpl in H.
  - injection H as ->. auto.
  - injection H as <- _. exfalso. apply O'. now left.
  - injection H as -> _. exfalso. apply O. now left.
  - injection H as <- H. destruct (IH l') as [-> ->]; auto; [intros K; apply O; now right|intros K; apply O'; now right].
Qed.
Lemma joined_same lines : forall lines' r r', length lines = length lines' -> Forall one_line lines -> Forall one_line lines' ->
  joined lines +++ r = joined lines' +++ r' -> lines = lines' /\ r = r'.
Proof.
  induction lines as [|l lines IH]; intros [|l' lines'] r r' Len F F' H; try discriminate; [auto|].
  unfold joined in *. cbn [map] in H. rewrite !concat_cons, !app_s_assoc in H. inversion F; inversion F'; subst.
  apply split_line in H; auto. destruct H as [-> H]. injection Len as Len. destruct (IH lines' r r') as [-> ->]; auto.
Qed.
Lemma split_at a b a' b' : a +++ b = a' +++ b' -> String.length a = String.length a' -> a = a' /\ b = b'.
Proof.
  revert a'. induction a as [|c a IH]; intros [|c' a'] H Len; try discriminate; [auto|]. simpl in *. injection H as <- H.
  injection Len as Len. destruct (IH _ H Len) as [-> ->]. auto.
Qed.
Lemma app_same_length {A} (a b a' b' : list A) : a ++ b = a' ++ b' -> length a = length a' -> a = a'.
Proof.
  revert a'. induction a as [|c a IH]; intros [|c' a'] H Len; try discriminate; [auto|]. simpl in *. injection H as <- H.
  injection Len as Len. now rewrite (IH _ H Len).
Qed.

Lemma position_unique text pos pos' row col : between_chars text pos -> between_chars text pos' ->
  located text pos row col -> located text pos' row col -> pos = pos'.
Proof.
  intros (a & b & E & La & Hb) (a' & b' & E' & La' & Hb')
    [lines line rest T F O P R C] [lines' line' rest' T' F' O' P' R' C'].
  fold (joined lines) in *. fold (joined lines') in *.
  assert (rest = b).
  { rewrite <- app_s_assoc in T. rewrite E in T. symmetry in T. apply split_at in T; [tauto|]. lia. }
  assert (rest' = b').
  { rewrite <- app_s_assoc in T'. rewrite E' in T'. symmetry in T'. apply split_at in T'; [tauto|]. lia. }
  subst rest rest'. rewrite T in T'. apply joined_same in T'; auto; [|congruence]. destruct T' as [<- K].
  assert (line = line') as <-.
  { apply (f_equal utf8_chars) in K. rewrite !utf8_app in K by assumption. apply app_same_length in K; [|congruence].
    rewrite <- (utf8_chars_concat line), <- (utf8_chars_concat line'). now rewrite K. }
  congruence.
Qed.

Section WithLibs.
Context {L : Libs}.

Lemma error_positions k fuel path e : texts_sound k -> ranges_sound k ->
  parse_file fuel (fs_of k) path = Err e ->
  match e with
  | SeOpen q => dk_text k q = None
  | SeNotFound _ => False
  | SeXsd x q => exists text, dk_text k q = Some text
      /\ match dk_xml k text with
         | None => x = XeXml /\ error_position k e = Some (Some (dk_xml_pos k text))
         | Some d => exists r row col, xsd_err_range x = Some r /\ points_into d r
                       /\ located text (N.to_nat (fst r)) row col /\ error_position k e = Some (Some (row, col))
         end
  end.
Proof.
  intros U R E. pose proof (file_error_located fuel (fs_of k) path e E) as K.
  destruct e as [x q|q|n]; simpl in *; [|destruct (dk_text k q); [discriminate|reflexivity]|exact K].
  destruct K as [[-> K]|(d & K & r & Er & I)]; destruct (dk_text k q) as [text|] eqn:Et; try discriminate; injection K as K; exists text; (split; [reflexivity|]); rewrite K.
  - auto.
  - rewrite Er. destruct (position_of text (N.to_nat (fst r))) as (row & col & P & Lc).
    + intros a b ->. eapply U. exact Et.
    + eapply R; eassumption.
    + rewrite P. exists r, row, col. auto.
Qed.

(** ** The macro *)
Lemma read_args_iff l : forall acc r, read_args l acc = inr r <->
  (forall a, In a l -> exists s, a = mkMarg "schema" (MvStr s))
  /\ r = match rev l with [] => acc | a :: _ => match ma_value a with MvStr s => Some s | _ => None end end.
Proof.
  induction l as [|[pt v] l IH]; intros acc r; simpl.
  - split; [intros H; injection H as <-; split; [intros ? []|reflexivity]|intros [_ ->]; reflexivity].
  - destruct (String.eqb_spec pt "schema") as [->|N].
    + destruct v as [s| |].
      * rewrite IH. split.
        -- intros [H1 H2]. split; [intros a [<-|I]; eauto|]. rewrite H2. destruct (rev l) eqn:El; [reflexivity|reflexivity].
        -- intros [H1 H2]. split; [intros a I; apply H1; now right|]. rewrite H2. destruct (rev l) eqn:El; reflexivity.
      * split; [discriminate|]. intros [H _]. destruct (H _ (or_introl eq_refl)) as (s & K). discriminate.
      * split; [discriminate|]. intros [H _]. destruct (H _ (or_introl eq_refl)) as (s & K). discriminate.
    + split; [discriminate|]. intros [H _]. destruct (H _ (or_introl eq_refl)) as (s & K). injection K as -> _. now elim N.
Qed.

Lemma args_iff args path : ms_rest args = true ->
  (read_args (ms_list args) None = inr (Some path) <-> names_schema args path).
Proof.
  intros Hr. rewrite read_args_iff. unfold names_schema. split.
  - intros [F E]. split; [exact Hr|]. destruct (rev (ms_list args)) as [|a l] eqn:El; [discriminate|].
    apply (f_equal (@rev _)) in El. rewrite rev_involutive in El. simpl in El. exists (rev l). rewrite El in F.
    destruct (F a) as (s & ->); [apply in_app_iff; right; now left|]. simpl in E. injection E as <-. split; [exact El|].
    intros b I. apply F. apply in_app_iff. now left.
  - intros (_ & l & -> & F). rewrite rev_unit. split; [|reflexivity]. intros a I. apply in_app_iff in I.
    destruct I as [I|[<-|[]]]; eauto.
Qed.

Lemma expand_iff fuel gfuel k manifest args i o :
  expand fuel gfuel k manifest args (Some i) = Ok o <->
  exists dir path s p, manifest = Some dir /\ names_schema args path
    /\ parse_file fuel (fs_of k) (dk_push k dir path) = Ok s /\ generate_all gfuel s = Ok p
    /\ o = mkOmod (im_attrs i) (im_vis i) (im_ident i) (match im_content i with Some l => l | None => [] end) p.
Proof.
  unfold expand. split.
  - destruct (read_args (ms_list args) None) as [e|schema] eqn:Ea; [discriminate|].
    destruct (ms_rest args) eqn:Er; [|discriminate]. destruct schema as [path|]; [|discriminate].
    destruct manifest as [dir|]; [|discriminate]. unfold emit_module. intros H.
    destruct (parse_file fuel (fs_of k) (dk_push k dir path)) as [s| | |] eqn:Es; try discriminate. simpl in H.
    destruct (generate_all gfuel s) as [p| | |] eqn:Ep; try discriminate. simpl in H. injection H as <-.
    exists dir, path, s, p. repeat split; auto; now apply args_iff.
  - intros (dir & path & s & p & -> & Ha & Es & Ep & ->). pose proof (proj1 Ha) as Er.
    apply args_iff in Ha; [|exact Er]. rewrite Ha, Er. unfold emit_module. rewrite Es. simpl. rewrite Ep. reflexivity.
Qed.

Lemma expand_panics fuel gfuel k manifest args item w : expand fuel gfuel k manifest args item = Panic w ->
  manifest = None \/ (exists dir path, manifest = Some dir /\ names_schema args path
    /\ (parse_file fuel (fs_of k) (dk_push k dir path) = Panic w \/ identifier_panic w)).
Proof.
  unfold expand. destruct item as [i|]; [|discriminate].
  destruct (read_args (ms_list args) None) as [e|schema] eqn:Ea; [discriminate|].
  destruct (ms_rest args) eqn:Er; [|discriminate]. destruct schema as [path|]; [|discriminate].
  destruct manifest as [dir|]; [|now left]. unfold emit_module. intros H. right. exists dir, path.
  split; [reflexivity|]. split; [now apply args_iff|].
  destruct (parse_file fuel (fs_of k) (dk_push k dir path)) as [s| | |] eqn:Es; simpl in H; try discriminate.
  - right. destruct (generate_all gfuel s) as [p| | |] eqn:Ep; simpl in H; try discriminate. injection H as ->.
    eapply generate_panics; [|exact Ep]. eapply parsed_file_inv, Es.
  - left. injection H as ->. reflexivity.
Qed.
End WithLibs.
