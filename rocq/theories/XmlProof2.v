(** * XmlProof2: escaped texts, attributes and tags are read back (lemmas of PropXml.v) *)
From Verif Require Import Base XmlChars XmlRead XmlWrite XmlProof.

(** ** Character data *)
Lemma chardata_plain att c s : Ascii.eqb c "&" = false -> Ascii.eqb c cr = false -> (att && ws c)%bool = false ->
  chardata att None (String c s) = option_map (String c) (chardata att None s).
Proof. intros A B C. cbn [chardata]. now rewrite A, B, C. Qed.

Lemma chardata_text em s : chardata false None (escape (esc_text em) s) = Some (if em_cr em then s else eol s).
Proof.
  induction s as [|c s IH]; [now destruct (em_cr em)|]. cbn [escape eol]. unfold esc_text at 1.
  assert (R : forall t v, In (t, String v "") [("&lt;", "<"); ("&gt;", ">"); ("&quot;", """"); ("&apos;", "'"); ("&amp;", "&"); ("&#xA;", String lf ""); ("&#xD;", String cr ""); ("&#x9;", String tab "")] ->
    chardata false None (t +++ escape (esc_text em) s) = Some (String v (if em_cr em then s else eol s))).
  { intros t v H. now rewrite (ref_read _ _ _ _ H), IH. }
  destruct (Ascii.eqb_spec c "<") as [->|N1]; [rewrite (R _ "<"%char) by (simpl; tauto); now destruct (em_cr em)|].
  destruct (Ascii.eqb_spec c "&") as [->|N2]; [rewrite (R _ "&"%char) by (simpl; tauto); now destruct (em_cr em)|].
  destruct (Ascii.eqb_spec c ">") as [->|N3].
  { cbn [andb]. destruct (em_gt em); [rewrite (R _ ">"%char) by (simpl; tauto); now destruct (em_cr em)|].
    change (Ascii.eqb ">" cr) with false. cbn [andb append]. rewrite chardata_plain by reflexivity. rewrite IH. now destruct (em_cr em). }
  cbn [andb]. destruct (Ascii.eqb_spec c cr) as [->|N4].
  { cbn [andb]. destruct (em_cr em) eqn:E; [rewrite (R _ cr) by (simpl; tauto); reflexivity|].
    cbn [append chardata]. change (Ascii.eqb cr "&") with false. change (Ascii.eqb cr cr) with true. cbn iota.
    destruct s as [|d s]; [reflexivity|].
    destruct (escape (esc_text em) (String d s)) as [|x r] eqn:X.
    { exfalso. cbn [escape] in X. destruct (esc_text_cases em d) as [Y|[Y _]]; [rewrite Y in X; discriminate|].
      simpl in Y. decompose [or] Y; try tauto; match goal with H : _ = esc_text em d |- _ => rewrite <- H in X; discriminate X end. }
    assert (L : Ascii.eqb x lf = Ascii.eqb d lf).
    { cbn [escape] in X. destruct (esc_text_cases em d) as [Y|[Y _]].
      - rewrite Y in X. injection X as -> _. reflexivity.
      - destruct (Ascii.eqb_spec d lf) as [->|_]; [exfalso; vm_compute in Y; decompose [or] Y; try tauto; discriminate|].
        simpl in Y. decompose [or] Y; try tauto; match goal with H : _ = esc_text em d |- _ => rewrite <- H in X; injection X as <- _; reflexivity end. }
    rewrite L. destruct (Ascii.eqb d lf); [exact IH|]. now rewrite IH. }
  cbn [andb append]. rewrite chardata_plain; [rewrite IH; now destruct (em_cr em)|..]; try reflexivity; now apply Ascii.eqb_neq.
Qed.
Lemma chardata_attr em s : chardata true None (escape (esc_attr em) s) = Some (if em_tab em then s else untab s).
Proof.
  induction s as [|c s IH]; [now destruct (em_tab em)|]. cbn [escape untab]. unfold esc_attr at 1.
  assert (R : forall t v, In (t, String v "") [("&lt;", "<"); ("&gt;", ">"); ("&quot;", """"); ("&apos;", "'"); ("&amp;", "&"); ("&#xA;", String lf ""); ("&#xD;", String cr ""); ("&#x9;", String tab "")] ->
    chardata true None (t +++ escape (esc_attr em) s) = Some (String v (if em_tab em then s else untab s))).
  { intros t v H. now rewrite (ref_read _ _ _ _ H), IH. }
  do 7 match goal with
       | |- context [if Ascii.eqb c ?d then _ else _] => destruct (Ascii.eqb_spec c d) as [->|]; [rewrite (R _ d) by (simpl; tauto); now destruct (em_tab em)|]
       end.
  destruct (Ascii.eqb_spec c tab) as [->|NT].
  { cbn [andb]. destruct (em_tab em) eqn:E; [rewrite (R _ tab) by (simpl; tauto); reflexivity|].
    cbn [append chardata]. change (Ascii.eqb tab "&") with false. change (Ascii.eqb tab cr) with false. change (true && ws tab)%bool with true. cbn iota. now rewrite IH. }
  cbn [andb append]. destruct (Ascii.eqb_spec c " ") as [->|NS].
  { cbn [chardata]. change (Ascii.eqb " " "&") with false. change (Ascii.eqb " " cr) with false. change (true && ws " ")%bool with true. cbn iota. rewrite IH. now destruct (em_tab em). }
  rewrite chardata_plain; [rewrite IH; now destruct (em_tab em)|..]; try now apply Ascii.eqb_neq.
  unfold ws. cbn [andb]. repeat match goal with H : c <> ?d |- _ => rewrite (proj2 (Ascii.eqb_neq c d) H); clear H end. reflexivity.
Qed.

(** Texts without the characters that are escaped. *)
Definition plain_byte (c : ascii) : bool :=
  negb (Ascii.eqb c "<" || Ascii.eqb c "&" || Ascii.eqb c """" || Ascii.eqb c tab || Ascii.eqb c lf || Ascii.eqb c cr)%bool.
Lemma plain_not c d : plain_byte c = true -> plain_byte d = false -> Ascii.eqb c d = false.
Proof. intros A B. destruct (Ascii.eqb_spec c d) as [->|]; congruence. Qed.
Lemma chardata_verbatim s : all_bytes plain_byte s = true -> chardata true None s = Some s.
Proof.
  induction s as [|c s IH]; [reflexivity|]. cbn [all_bytes]. rewrite andb_true_iff. intros [A B].
  cbn [chardata]. rewrite (plain_not c "&" A eq_refl), (plain_not c cr A eq_refl), (IH B). cbn [andb]. unfold ws.
  rewrite (plain_not c tab A eq_refl), (plain_not c lf A eq_refl), (plain_not c cr A eq_refl), !orb_false_r.
  destruct (Ascii.eqb_spec c " ") as [->|]; reflexivity.
Qed.
Lemma plain_untab s : all_bytes plain_byte s = true -> untab s = s.
Proof.
  induction s as [|c s IH]; [reflexivity|]. cbn [all_bytes untab]. rewrite andb_true_iff. intros [A B].
  now rewrite (plain_not c tab A eq_refl), (IH B).
Qed.

(** ** What escaped texts do not contain *)
Lemma contains_byte d s : contains (String d "") s = negb (all_bytes (fun c => negb (Ascii.eqb c d)) s).
Proof.
  induction s as [|c s IH]; [reflexivity|]. cbn [contains lit all_bytes]. rewrite (Ascii.eqb_sym d c).
  destruct (Ascii.eqb c d); simpl; [reflexivity|exact IH].
Qed.
Lemma escape_all p f s : (forall c, all_bytes p (f c) = true) -> all_bytes p (escape f s) = true.
Proof. intros H. induction s as [|c s IH]; simpl; [reflexivity|]. now rewrite all_app, H, IH. Qed.
Lemma escape_attr_free em d c : In d ["<"; """"]%char -> all_bytes (fun c => negb (Ascii.eqb c d)) (esc_attr em c) = true.
Proof.
  intros D. unfold esc_attr. simpl in D.
  repeat match goal with
         | |- context [if Ascii.eqb c ?e then _ else _] => destruct (Ascii.eqb_spec c e) as [->|]; [destruct D as [<-|[<-|[]]]; reflexivity|]
         end.
  destruct (_ && _)%bool; [destruct D as [<-|[<-|[]]]; reflexivity|]. cbn [all_bytes]. rewrite andb_true_r.
  destruct D as [<-|[<-|[]]]; apply negb_true_iff; now apply Ascii.eqb_neq.
Qed.
Lemma escape_text_free em c : all_bytes (fun c => negb (Ascii.eqb c "<")) (esc_text em c) = true.
Proof.
  unfold esc_text. destruct (Ascii.eqb_spec c "<"); [reflexivity|]. destruct (Ascii.eqb c "&"); [reflexivity|].
  destruct (_ && _)%bool; [reflexivity|]. destruct (_ && _)%bool; [reflexivity|]. cbn [all_bytes]. rewrite andb_true_r.
  apply negb_true_iff. now apply Ascii.eqb_neq.
Qed.
Lemma escape_text_gt em c : em_gt em = true -> all_bytes (fun c => negb (Ascii.eqb c ">")) (esc_text em c) = true.
Proof.
  intros G. unfold esc_text. rewrite G. destruct (Ascii.eqb_spec c "<"); [reflexivity|]. destruct (Ascii.eqb c "&"); [reflexivity|].
  destruct (Ascii.eqb_spec c ">"); [reflexivity|]. cbn [andb]. destruct (_ && _)%bool; [reflexivity|]. cbn [all_bytes]. rewrite andb_true_r.
  apply negb_true_iff. now apply Ascii.eqb_neq.
Qed.
Lemma lit_needs p s r d : lit p s = Some r -> all_bytes (fun c => negb (Ascii.eqb c d)) s = true -> all_bytes (fun c => negb (Ascii.eqb c d)) p = true.
Proof. intros E A. apply lit_app in E. subst. rewrite all_app in A. now apply andb_true_iff in A. Qed.
Lemma contains_needs p s d : all_bytes (fun c => negb (Ascii.eqb c d)) s = true -> all_bytes (fun c => negb (Ascii.eqb c d)) p = false -> contains p s = false.
Proof.
  intros A B. induction s as [|c s IH].
  - destruct p; [discriminate B|reflexivity].
  - cbn [contains]. destruct (lit p (String c s)) as [r|] eqn:E; [apply (lit_needs _ _ _ _ E) in A; congruence|].
    apply IH. cbn [all_bytes] in A. now apply andb_true_iff in A.
Qed.
(** ["]]>"] is read only where it was. *)
Lemma esc_text_head em a d : em_gt em = false -> In a ["]"; ">"]%char -> match esc_text em d with String x _ => Ascii.eqb a x = Ascii.eqb a d | "" => False end.
Proof.
  intros G A. unfold esc_text. rewrite G, andb_false_r. simpl in A.
  destruct (Ascii.eqb_spec d "<") as [->|]; [destruct A as [<-|[<-|[]]]; reflexivity|].
  destruct (Ascii.eqb_spec d "&") as [->|]; [destruct A as [<-|[<-|[]]]; reflexivity|].
  destruct (Ascii.eqb_spec d cr) as [->|]; [destruct (em_cr em); destruct A as [<-|[<-|[]]]; reflexivity|]. reflexivity.
Qed.
Lemma lit_escape em p s : em_gt em = false -> all_bytes (fun c => Ascii.eqb c "]" || Ascii.eqb c ">") p = true ->
  (lit p (escape (esc_text em) s) = None <-> lit p s = None).
Proof.
  intros G. revert s. induction p as [|a p IH]; intros s A; [simpl; split; discriminate|]. cbn [all_bytes] in A. apply andb_true_iff in A. destruct A as [A B].
  assert (A' : In a ["]"; ">"]%char) by (apply orb_true_iff in A; destruct A as [A|A]; apply Ascii.eqb_eq in A; subst; simpl; tauto).
  destruct s as [|d s]; [simpl; tauto|]. pose proof (esc_text_head em a d G A') as H. cbn [escape lit].
  destruct (Ascii.eqb a d) eqn:E.
  - apply Ascii.eqb_eq in E. subst d. assert (X : esc_text em a = String a "").
    { unfold esc_text. rewrite G. simpl in A'. destruct A' as [<-|[<-|[]]]; reflexivity. }
    rewrite X. cbn [append lit]. rewrite Ascii.eqb_refl. now apply IH.
  - destruct (esc_text em d) as [|x t]; [contradiction|]. cbn [append lit]. rewrite H. tauto.
Qed.
Lemma contains_skip p t s : all_bytes (fun c => negb (Ascii.eqb c "]")) t = true -> contains (String "]" p) (t +++ s) = contains (String "]" p) s.
Proof.
  induction t as [|c t IH]; [reflexivity|]. cbn [all_bytes]. rewrite andb_true_iff. intros [A B]. cbn [append contains lit].
  rewrite (Ascii.eqb_sym _ c). apply negb_true_iff in A. rewrite A. now apply IH.
Qed.
Lemma contains_escape em s : em_gt em = false -> contains "]]>" (escape (esc_text em) s) = contains "]]>" s.
Proof.
  intros G. induction s as [|c s IH]; [reflexivity|].
  destruct (Ascii.eqb_spec c "]") as [->|N].
  - change (escape (esc_text em) (String "]" s)) with (String "]" (escape (esc_text em) s)). cbn [contains].
    change (lit "]]>" (String "]" (escape (esc_text em) s))) with (lit "]>" (escape (esc_text em) s)).
    change (lit "]]>" (String "]" s)) with (lit "]>" s).
    pose proof (lit_escape em "]>" s G eq_refl) as H. destruct (lit "]>" s), (lit "]>" (escape _ s)); [reflexivity|exfalso; now discriminate (proj1 H eq_refl)|exfalso; now discriminate (proj2 H eq_refl)|exact IH].
  - cbn [escape]. rewrite contains_skip.
    + rewrite IH. cbn [contains lit]. rewrite (Ascii.eqb_sym _ c), (proj2 (Ascii.eqb_neq c "]") N). reflexivity.
    + destruct (esc_text_cases em c) as [->|[H _]]; [cbn [all_bytes]; rewrite andb_true_r; apply negb_true_iff; now apply Ascii.eqb_neq|].
      simpl in H. decompose [or] H; try tauto; match goal with E : _ = esc_text em c |- _ => rewrite <- E; reflexivity end.
Qed.
Lemma no_end_mark em s v : text_back em s = Some v -> contains "]]>" (escape (esc_text em) s) = false.
Proof.
  unfold text_back. destruct (_ && _)%bool eqn:E; [|discriminate]. intros _. apply andb_true_iff in E. destruct E as [_ E].
  destruct (em_gt em) eqn:G.
  - apply contains_needs with ">"%char; [|reflexivity]. apply escape_all. intros c. now apply escape_text_gt.
  - rewrite (contains_escape em s G). now apply negb_true_iff in E.
Qed.

(** ** Texts as tokens *)
Definition begins_lt (r : string) : Prop := match r with "" => True | String c _ => c = "<"%char end.
Lemma token_text raw v r : raw <> "" -> all_bytes (fun c => negb (Ascii.eqb c "<")) raw = true -> contains "]]>" raw = false ->
  chardata false None raw = Some v -> begins_lt r -> xml_token (raw +++ r) = Some (TkText v (is_empty (skip_ws raw)), r).
Proof.
  intros N A C V B. destruct raw as [|c raw]; [congruence|].
  assert (E : xml_token (String c raw +++ r) = let '(raw, r) := span (fun c => negb (Ascii.eqb c "<")) (String c raw +++ r) in
      if contains "]]>" raw then None else option_map (fun v => (TkText v (is_empty (skip_ws raw)), r)) (chardata false None raw)).
  { cbn [all_bytes] in A. apply andb_true_iff in A. destruct A as [A _]. apply negb_true_iff, Ascii.eqb_neq in A.
    cbn [append xml_token]. destruct c as [[] [] [] [] [] [] [] []]; try reflexivity. exfalso. apply A. reflexivity. }
  rewrite E, (span_all _ _ _ A).
  - now rewrite C, V.
  - destruct r as [|d r]; [exact I|]. simpl in B. now subst.
Qed.
Lemma token_chars em s v r : s <> "" -> text_back em s = Some v -> begins_lt r ->
  exists b, xml_token (escape (esc_text em) s +++ r) = Some (TkText v b, r).
Proof.
  intros N E B. eexists. apply token_text.
  - destruct s as [|c s]; [congruence|]. cbn [escape]. destruct (esc_text_cases em c) as [->|[H _]]; [discriminate|].
    simpl in H. decompose [or] H; try tauto; match goal with X : _ = esc_text em c |- _ => rewrite <- X; discriminate end.
  - apply escape_all. apply escape_text_free.
  - now apply no_end_mark with v.
  - rewrite chardata_text. unfold text_back in E. destruct (_ && _)%bool; [exact E|discriminate].
  - exact B.
Qed.
Definition blank_byte (c : ascii) : bool := (Ascii.eqb c " " || Ascii.eqb c lf)%bool.
Lemma token_blank raw r : raw <> "" -> all_bytes blank_byte raw = true -> begins_lt r -> xml_token (raw +++ r) = Some (TkText raw true, r).
Proof.
  intros N A B. rewrite (token_text raw raw r N).
  - unfold skip_ws. rewrite <- (app_s_nil_r raw) at 2. rewrite (span_all ws raw "").
    + reflexivity.
    + revert A. apply all_impl. unfold blank_byte, ws. intros c. rewrite !orb_true_iff. tauto.
    + exact I.
  - revert A. apply all_impl. unfold blank_byte. intros c. rewrite orb_true_iff. intros [E|E]; apply Ascii.eqb_eq in E; subst; reflexivity.
  - apply contains_needs with ">"%char; [|reflexivity]. revert A. apply all_impl. unfold blank_byte. intros c. rewrite orb_true_iff. intros [E|E]; apply Ascii.eqb_eq in E; subst; reflexivity.
  - clear N B. induction raw as [|c raw IH]; [reflexivity|]. cbn [all_bytes] in A. apply andb_true_iff in A. destruct A as [A A'].
    rewrite chardata_plain, (IH A'); [reflexivity|..]; unfold blank_byte in A; apply orb_true_iff in A; destruct A as [A|A]; apply Ascii.eqb_eq in A; subst; reflexivity.
  - exact B.
Qed.
Lemma indent_blank n : all_bytes blank_byte (newline n) = true.
Proof. unfold newline. cbn [all_bytes]. change (blank_byte lf) with true. cbn [andb]. induction n as [|n IH]; [reflexivity|]. simpl. exact IH. Qed.
Lemma blank_chars s : all_bytes blank_byte s = true -> xml_chars s = true.
Proof.
  induction s as [|c s IH]; [reflexivity|]. cbn [all_bytes]. rewrite andb_true_iff. intros [A B].
  change (String c s) with (String c "" +++ s). apply chars_app; [|auto].
  unfold blank_byte in A. apply orb_true_iff in A; destruct A as [A|A]; apply Ascii.eqb_eq in A; subst; reflexivity.
Qed.
