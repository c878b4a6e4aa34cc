(** * MessageProof: texts determine errors *)
From Verif Require Import Base Libs Xml Ast XsdNode Parse Decode TextSpec NumProof ParseSpec DeclSpec Macro MacroSpec MacroProof ErrSpec ErrProof Message MessageSpec.

(** ** Splitting strings *)
Lemma chars_app a b : list_ascii_of_string (a +++ b) = list_ascii_of_string a ++ list_ascii_of_string b.
Proof. induction a as [|c a IH]; simpl; [reflexivity|]. now rewrite IH. Qed.
Lemma chars_inj a b : list_ascii_of_string a = list_ascii_of_string b -> a = b.
Proof.
  intros H. rewrite <- (string_of_list_ascii_of_string a), <- (string_of_list_ascii_of_string b). now rewrite H.
Qed.
Lemma list_split {A} (c : A) a a' r r' : ~ In c a -> ~ In c a' -> a ++ c :: r = a' ++ c :: r' -> a = a' /\ r = r'.
Proof.
  revert a'. induction a as [|x a IH]; intros [|y a']; simpl; intros H H' E.
  - injection E as ->. auto.
  - injection E as <- _. tauto.
  - injection E as -> _. tauto.
  - injection E as <- E. destruct (IH a' ltac:(tauto) ltac:(tauto) E) as [-> ->]. auto.
Qed.
Lemma split_at c a a' r r' : ~ In c (list_ascii_of_string a) -> ~ In c (list_ascii_of_string a') ->
  a +++ String c r = a' +++ String c r' -> a = a' /\ r = r'.
Proof.
  intros H H' E. apply (f_equal list_ascii_of_string) in E. rewrite !chars_app in E. simpl in E.
  destruct (list_split c _ _ _ _ H H' E) as [E1 E2]. split; now apply chars_inj.
Qed.
Lemma split_last c a a' r r' : ~ In c (list_ascii_of_string r) -> ~ In c (list_ascii_of_string r') ->
  a +++ String c r = a' +++ String c r' -> a = a' /\ r = r'.
Proof.
  intros H H' E. apply (f_equal (fun s => rev (list_ascii_of_string s))) in E. rewrite !chars_app, !rev_app_distr in E. simpl in E.
  rewrite <- !app_assoc in E. simpl in E. apply list_split in E; [|rewrite <- in_rev; assumption..].
  destruct E as [E1 E2]. split; apply chars_inj; [rewrite <- (rev_involutive (list_ascii_of_string a)), E2|rewrite <- (rev_involutive (list_ascii_of_string r)), E1];
    apply rev_involutive.
Qed.
Lemma tail_inj a a' t : a +++ t = a' +++ t -> a = a'.
Proof.
  intros E. apply (f_equal list_ascii_of_string) in E. rewrite !chars_app in E. apply app_inv_tail in E. now apply chars_inj.
Qed.
Lemma head_inj a t t' : a +++ t = a +++ t' -> t = t'.
Proof. induction a as [|c a IH]; simpl; [auto|]. intros E; injection E as E. auto. Qed.
Lemma app_assoc_s a b c : (a +++ b) +++ c = a +++ (b +++ c).
Proof. induction a as [|x a IH]; simpl; [reflexivity|]. now rewrite IH. Qed.

Lemma show_digits n c : In c (list_ascii_of_string (show_nat n)) -> (48 <= nat_of_ascii c <= 57)%nat.
Proof.
  assert (D : digits (show_nat n) (N.of_nat n)) by (apply parse_digits_iff, parse_digits_show_N).
  revert D. generalize (show_nat n), (N.of_nat n). intros s m D I.
  assert (V : forall x k, digit_value x = Some k -> (48 <= nat_of_ascii x <= 57)%nat).
  { intros x k. unfold digit_value. destruct (andb _ _) eqn:B; [|discriminate]. intros _.
    apply andb_true_iff in B. rewrite !Nat.leb_le in B. exact B. }
  induction D as [x k H|s x k j D IH H]; [destruct I as [<-|[]]; eauto|].
  rewrite chars_app, in_app_iff in I. destruct I as [I|[<-|[]]]; eauto.
Qed.
Lemma show_free n c : (nat_of_ascii c < 48)%nat -> ~ In c (list_ascii_of_string (show_nat n)).
Proof. intros H I. apply show_digits in I. lia. Qed.

(** ** [{:?}] is one to one *)
Lemma escape_prefix_free : forallb (fun a => forallb (fun b =>
    implb (prefix (escape_char (ascii_of_nat a)) (escape_char (ascii_of_nat b))) (Nat.eqb a b)) (seq 0 256)) (seq 0 256) = true.
Proof. vm_compute. reflexivity. Qed.
Lemma escape_char_free c c' : prefix (escape_char c) (escape_char c') = true -> c = c'.
Proof.
  intros H. pose proof escape_prefix_free as F. rewrite forallb_forall in F.
  assert (B : forall c, In (nat_of_ascii c) (seq 0 256)) by (intros x; apply in_seq; pose proof (nat_ascii_bounded x); lia).
  specialize (F _ (B c)). rewrite forallb_forall in F. specialize (F _ (B c')). rewrite !ascii_nat_embedding, H in F.
  apply Nat.eqb_eq in F. now apply (f_equal ascii_of_nat) in F; rewrite !ascii_nat_embedding in F.
Qed.
Lemma app_prefix a b r r' : a +++ r = b +++ r' -> prefix a b = true \/ prefix b a = true.
Proof.
  revert b. induction a as [|x a IH]; intros [|y b]; simpl; auto. intros E. injection E as <- E.
  destruct (ascii_dec x x) as [_|N]; [|now elim N]. auto.
Qed.
Lemma escape_char_inj c c' r r' : escape_char c +++ r = escape_char c' +++ r' -> c = c' /\ r = r'.
Proof.
  intros E. assert (C : c = c').
  { destruct (app_prefix _ _ _ _ E) as [H|H]; apply escape_char_free in H; auto. }
  subst c'. split; [reflexivity|]. now apply head_inj in E.
Qed.
Lemma escape_char_quote c r r' : escape_char c +++ r = String "034" r' -> False.
Proof.
  assert (H : forallb (fun a => match escape_char (ascii_of_nat a) with String x _ => negb (Ascii.eqb x "034") | _ => false end) (seq 0 256) = true)
    by (vm_compute; reflexivity).
  rewrite forallb_forall in H. specialize (H (nat_of_ascii c)). rewrite ascii_nat_embedding in H.
  destruct (escape_char c) as [|x s].
  - intros _. assert (false = true); [|discriminate]. apply H, in_seq. pose proof (nat_ascii_bounded c). lia.
  - simpl. intros E. injection E as -> _. assert (false = true); [|discriminate]. apply H, in_seq. pose proof (nat_ascii_bounded c). lia.
Qed.
Lemma escape_inj s s' r r' : escape s +++ String "034" r = escape s' +++ String "034" r' -> s = s' /\ r = r'.
Proof.
  revert s'. induction s as [|c s IH]; intros [|c' s'] E; cbn [escape] in E.
  - simpl in E. injection E as ->. auto.
  - rewrite app_assoc_s in E. symmetry in E. now apply escape_char_quote in E.
  - rewrite app_assoc_s in E. now apply escape_char_quote in E.
  - rewrite !app_assoc_s in E. apply escape_char_inj in E. destruct E as [-> E]. destruct (IH _ E) as [-> ->]. auto.
Qed.
Lemma debug_inj o o' : debug_option o = debug_option o' -> o = o'.
Proof.
  destruct o as [s|], o' as [s'|]; cbn; try discriminate; [|reflexivity].
  intros E. injection E as E. rewrite !app_assoc_s in E. apply escape_inj in E. now destruct E as [-> _].
Qed.

(** ** Errors of schema parsing *)
Ltac clean H := let X := fresh in intros X; apply (H _ ltac:(simpl; tauto)) in X; exact X.
Lemma tick s : name_like s -> ~ In "`"%char (list_ascii_of_string s).
Proof. intros H. apply H. simpl. tauto. Qed.
Lemma space s : name_like s -> ~ In " "%char (list_ascii_of_string s).
Proof. intros H. apply H. simpl. tauto. Qed.
(** Two names in backticks, the second at the end. *)
Lemma two_names n n' sep e e' : name_like n -> name_like n' -> name_like e -> name_like e' ->
  n +++ String "`" (sep +++ e +++ "`") = n' +++ String "`" (sep +++ e' +++ "`") -> n = n' /\ e = e'.
Proof.
  intros H1 H2 H3 H4 E. apply split_at in E; [|now apply tick..]. destruct E as [-> E]. apply head_inj in E.
  split; [reflexivity|]. now apply tail_inj in E.
Qed.
Lemma node_text_inj a b : Forall name_like (node_names a) -> Forall name_like (node_names b) ->
  node_text a = node_text b -> same_node a b.
Proof.
  intros Ha Hb. destruct a as [n ns r|n e r|n r|n e r|n e r], b as [n' ns' r'|n' e' r'|n' r'|n' e' r'|n' e' r'];
    cbn [node_names] in Ha, Hb; cbn [node_text same_node]; intros E; try discriminate E;
    repeat match goal with H : Forall _ (_ :: _) |- _ => inversion H; clear H; subst end;
    cbn [append] in E; injection E as E.
  - apply (split_at " ") in E; [|now apply space..]. destruct E as [-> E]. injection E as E. apply tail_inj in E.
    split; [reflexivity|]. now apply debug_inj.
  - now apply (two_names n n' " on element `") in E.
  - now apply tail_inj in E.
  - now apply (two_names n n' " in `") in E.
  - now apply (two_names n n' " in `") in E.
Qed.
Lemma xsd_text_inj xml xml' a b : Forall name_like (err_names a) -> Forall name_like (err_names b) ->
  xsd_text xml a = xsd_text xml' b -> same_err a b /\ (a = XeXml -> xml = xml').
Proof.
  intros Ha Hb.
  destruct a as [|ne|n r|n v e r|n e r|n e r|p r|r|r|n r], b as [|ne'|n' r'|n' v' e' r'|n' e' r'|n' e' r'|p' r'|r'|r'|n' r'];
    cbn [err_names] in Ha, Hb; cbn [xsd_text same_err]; intros E; try discriminate E; (split; [|intros Q; try discriminate Q]); try exact I;
    cbn [append] in E; try (injection E as E);
    repeat match goal with H : Forall _ (_ :: _) |- _ => inversion H; clear H; subst end.
  - exact E.
  - now apply node_text_inj.
  - now apply tail_inj in E.
  - change (v +++ String "`" (" for attribute `" +++ n +++ "` in `" +++ e +++ "`")
            = v' +++ String "`" (" for attribute `" +++ n' +++ "` in `" +++ e' +++ "`")) in E.
    assert (R : forall v n e, v +++ String "`" (" for attribute `" +++ n +++ "` in `" +++ e +++ "`")
                = (((v +++ "` for attribute ") +++ String "`" n) +++ "` in ") +++ String "`" (e +++ "`")).
    { intros. rewrite !app_assoc_s. reflexivity. }
    assert (R2 : forall x e, x +++ String "`" (e +++ "`") = (x +++ String "`" e) +++ "`").
    { intros. rewrite app_assoc_s. reflexivity. }
    rewrite !R, !R2 in E. apply tail_inj in E. apply split_last in E; [|now apply tick..]. destruct E as [E ->].
    apply tail_inj in E. apply split_last in E; [|now apply tick..]. destruct E as [E ->]. apply tail_inj in E. auto.
  - now apply (two_names n n' " in `") in E.
  - now apply (two_names n n' " in `") in E.
  - now apply tail_inj in E.
  - exact E.
Qed.

Lemma file_paren s : file_like s -> ~ In ")"%char (list_ascii_of_string s).
Proof. intros H. apply H. simpl. tauto. Qed.
Lemma file_colon s : file_like s -> ~ In ":"%char (list_ascii_of_string s).
Proof. intros H. apply H. simpl. tauto. Qed.

(** The parts of "Error on line {row} (offset {col} in {file}): {err}". *)
Lemma line_parts row col file t row' col' file' t' : file_like file -> file_like file' ->
  "Error on line " +++ show_nat row +++ " (offset " +++ show_nat col +++ " in " +++ file +++ "): " +++ t
  = "Error on line " +++ show_nat row' +++ " (offset " +++ show_nat col' +++ " in " +++ file' +++ "): " +++ t' ->
  row = row' /\ col = col' /\ file = file' /\ t = t'.
Proof.
  intros F F' E. apply head_inj in E. cbn [append] in E.
  apply (split_at " ") in E; [|apply show_free, Nat.ltb_lt; reflexivity..]. destruct E as [E1 E]. apply show_nat_inj in E1. injection E as E.
  apply (split_at " ") in E; [|apply show_free, Nat.ltb_lt; reflexivity..]. destruct E as [E2 E]. apply show_nat_inj in E2. injection E as E.
  apply (split_at ")") in E; [|now apply file_paren..]. destruct E as [E3 E]. injection E as E. auto.
Qed.
Lemma schema_text_inj lib lib' pos pos' a b : readable a -> readable b ->
  schema_text lib pos a = schema_text lib' pos' b ->
  same_schema_err a b /\ match a with SeXsd _ _ => pos = pos' | SeOpen _ => lib = lib' | _ => True end.
Proof.
  intros Ra Rb. destruct a as [x f|f|n], b as [y g|g|m]; try discriminate; cbn [schema_text readable same_schema_err] in *.
  - destruct Ra as [Na Fa], Rb as [Nb Fb]. intros E. apply line_parts in E; [|assumption..].
    destruct E as (E1 & E2 & -> & E). apply xsd_text_inj in E; [|assumption..]. split; [tauto|].
    destruct pos, pos'; cbn in *. congruence.
  - intros E. apply head_inj in E. cbn [append] in E. apply (split_at ":") in E; [|now apply file_colon..].
    destruct E as [-> E]. injection E as ->. auto.
  - intros E. apply head_inj in E. apply tail_inj in E. auto.
Qed.

(** ** Errors of decoding *)
Lemma from_xml_text_inj lib lib' a b : readable_fe a -> readable_fe b ->
  from_xml_text lib a = from_xml_text lib' b -> a = b.
Proof.
  intros Ra Rb. destruct a as [|n ns|n|n|n|n|ty v|e r], b as [|n' ns'|n'|n'|n'|n'|ty' v'|e' r'];
    cbn [from_xml_text readable_fe] in *; intros E; try discriminate E; try reflexivity; cbn [append] in E; injection E as E.
  - apply (split_at " ") in E; [|now apply space..]. destruct E as [-> E]. injection E as E. apply tail_inj in E.
    apply debug_inj in E. now subst.
  - now subst.
  - apply tail_inj in E. now subst.
  - now subst.
  - apply tail_inj in E. now subst.
  - destruct Ra as [N V], Rb as [N' V']. apply (split_at " ") in E; [|now apply space..]. destruct E as [-> E]. injection E as E.
    apply (split_at ":") in E; [|apply V; simpl; tauto|apply V'; simpl; tauto]. destruct E as [-> _]. reflexivity.
  - apply (split_at "`") in E; [|apply Ra; simpl; tauto|apply Rb; simpl; tauto]. destruct E as [-> E]. injection E as E.
    apply tail_inj in E. now subst.
Qed.

(** ** Names of a document *)
Lemma fixed_name s : forallb (fun c => negb (orb (Ascii.eqb c " ") (Ascii.eqb c "`"))) (list_ascii_of_string s) = true -> name_like s.
Proof.
  intros H c C I. rewrite forallb_forall in H. apply H in I. destruct C as [<-|[<-|[]]]; discriminate.
Qed.
Lemma within_names d e : xml_names d -> within d e -> name_like (xe_tag e).
Proof. intros H W. apply H, W. Qed.
Lemma needs_name {L : Libs} d e n : needs d e n -> name_like n.
Proof. intros []; apply fixed_name; reflexivity. Qed.
Lemma tells_names {L : Libs} d x : xml_names d -> tells d x -> Forall name_like (err_names x).
Proof.
  intros X T.
  assert (F : forall e, within d e -> In e (xe_children e) -> True) by auto.
  assert (C : forall e x, within d e -> In x (xsd_children e) -> name_like (xe_tag x)).
  { intros e y W I. eapply within_names; [exact X|]. apply filter_In in I. eapply wi_child; [exact W|apply I]. }
  assert (A : forall e n a, within d e -> the_attr e n a -> name_like n).
  { intros e n a W (l & r & E & <- & _). apply (X e W). rewrite E. apply in_or_app. right. now left. }
  assert (R : forall e t, In (xe_tag e, t) required_children -> name_like t).
  { intros e t I. unfold required_children in I. simpl in I. repeat destruct I as [I|I]; try (injection I as _ <-; apply fixed_name; reflexivity). destruct I. }
  destruct T; cbn [err_names node_names]; repeat constructor; eauto using within_names, needs_name, wi_root;
    try (apply fixed_name; reflexivity).
Qed.

(** ** Reading a message *)
Lemma message_parts t k e m : schema_message t k e = Some m ->
  match e with
  | SeXsd x file => exists text row col, dk_text k file = Some text /\ error_position k e = Some (Some (row, col))
      /\ m = "Error on line " +++ show_nat row +++ " (offset " +++ show_nat col +++ " in " +++ file +++ "): " +++ xsd_text (lt_xml t text) x
  | SeOpen file => m = "Failed to load XSD include " +++ file +++ ": " +++ lt_open t file
  | SeNotFound n => m = "Element `" +++ n +++ "` not found in schema"
  end.
Proof.
  destruct e as [x f|f|n]; cbn [schema_message].
  - destruct (dk_text k f) as [text|] eqn:Tx; [|discriminate]. destruct (error_position _ _) as [[[row col]|]|]; try discriminate.
    intros H; injection H as <-. exists text, row, col. auto.
  - intros H; injection H as <-. reflexivity.
  - intros H; injection H as <-. reflexivity.
Qed.
Lemma message_reads {L : Libs} t k fuel path e m row col file txt : texts_sound k -> ranges_sound k ->
  files_bind_once (fs_of k) -> (forall q, dk_text k q <> None -> file_like q) -> file_like file ->
  parse_file fuel (fs_of k) path = Err e -> schema_message t k e = Some m ->
  m = "Error on line " +++ show_nat row +++ " (offset " +++ show_nat col +++ " in " +++ file +++ "): " +++ txt ->
  exists text, dk_text k file = Some text
  /\ match dk_xml k text with
     | None => txt = "XML parsing error: " +++ lt_xml t text /\ dk_xml_pos k text = (row, col)
     | Some d => exists x r, txt = xsd_text "" x /\ tells d x /\ xsd_err_range x = Some r /\ points_into d r
                   /\ located text (N.to_nat (fst r)) row col
     end.
Proof.
  intros S1 S2 B Fk F Pe M E. pose proof (error_positions k fuel path e S1 S2 Pe) as Q.
  assert (T : tells_files (fs_of k) e) by (eapply file_tells; eauto). apply message_parts in M.
  destruct e as [x q|q|n]; [|subst m; discriminate E|destruct Q].
  destruct M as (text & row' & col' & Tx & Ep & ->). apply line_parts in E; [|apply Fk; congruence|exact F].
  destruct E as (-> & -> & -> & <-). destruct Q as (text' & Tx' & Q). assert (text' = text) by congruence. subst text'.
  exists text. split; [exact Tx|]. unfold tells_files, fs_of in T. cbn [fs_read] in T. rewrite Tx in T.
  destruct (dk_xml k text) as [d|] eqn:X.
  - destruct Q as (r & row' & col' & R & Pi & Lo & Ep'). destruct T as [[_ T]|(d' & Ed & T)]; [congruence|].
    assert (d' = d) by congruence. subst d'. exists x, r. assert (row' = row /\ col' = col) as [-> ->] by (split; congruence).
    repeat split; auto. destruct T; reflexivity.
  - destruct Q as [-> Ep']. split; [reflexivity|congruence].
Qed.
Lemma message_total {L : Libs} t k fuel path e : texts_sound k -> ranges_sound k ->
  parse_file fuel (fs_of k) path = Err e -> exists m, schema_message t k e = Some m.
Proof.
  intros S1 S2 Pe. pose proof (error_positions k fuel path e S1 S2 Pe) as Q.
  destruct e as [x q|q|n]; cbn [schema_message]; [|eauto|eauto].
  destruct Q as (text & Tx & Q). rewrite Tx. destruct (dk_xml k text) as [d|].
  - destruct Q as (r & row & col & _ & _ & _ & ->). eauto.
  - destruct Q as [_ ->]. eauto.
Qed.
