(** * GrammarProof5: documents (lemmas of PropGrammar.v) *)
From Verif Require Import Base Xml XmlChars XmlRead XmlGrammar XmlProof XmlProof2 GrammarProof1 GrammarProof2 GrammarProof3 GrammarProof4.
From Coq Require Import Lia.
Local Open Scope N_scope.

Lemma all_of_bytes p s : all_of p s = all_bytes p s.
Proof.
  unfold all_of. destruct (span p s) as [a b] eqn:E. apply span_inv in E. destruct E as (-> & A & B). cbn [snd]. rewrite all_app, A. cbn [andb].
  destruct b as [|c b]; [reflexivity|]. cbn [is_empty all_bytes stops] in *. now rewrite B.
Qed.
Lemma between_iff l n : between l n = true <-> exists a b, In (a, b) l /\ a <= n <= b.
Proof.
  unfold between. rewrite existsb_exists. split.
  - intros ([a b] & I & H). cbn [fst snd] in H. apply andb_true_iff in H. destruct H as [A B]. apply N.leb_le in A, B. eauto.
  - intros (a & b & I & A & B). exists (a, b). split; [exact I|]. cbn [fst snd]. apply andb_true_iff. split; now apply N.leb_le.
Qed.
Lemma version_iff v : version_ok v = true <-> VersionNum v.
Proof.
  unfold version_ok, VersionNum.
  assert (D : forall c, between [(48, 57)] (N_of_ascii c) = true <-> Digit c).
  { intros c. rewrite between_iff. unfold Digit. split; [intros (a & b & [I|[]] & H); injection I as <- <-; exact H|]. intros H. exists 48, 57. split; [now left|exact H]. }
  destruct (lit "1." v) as [d|] eqn:L.
  - apply lit_app in L. subst v. rewrite andb_true_iff, all_of_bytes, <- (every_iff _ _ d D). split.
    + intros [A B]. exists d. split; [reflexivity|]. split; [destruct d; discriminate|exact B].
    + intros (d' & E & A & B). apply app_inj_l in E. subst d'. split; [destruct d; [congruence|reflexivity]|exact B].
  - split; [discriminate|]. intros (d & -> & _). rewrite (proj2 (lit_app "1." ("1." +++ d) d) eq_refl) in L. discriminate L.
Qed.
Lemma ascii_code c d : N_of_ascii c = N_of_ascii d -> c = d.
Proof. intros H. rewrite <- (ascii_N_embedding c), <- (ascii_N_embedding d). now rewrite H. Qed.
Lemma encoding_iff v : encoding_ok v = true <-> EncName v.
Proof.
  unfold encoding_ok, EncName.
  assert (L : forall c, between [(65, 90); (97, 122)] (N_of_ascii c) = true <-> Letter c).
  { intros c. rewrite between_iff. unfold Letter. split.
    - intros (a & b & [I|[I|[]]] & H); injection I as <- <-; auto.
    - intros [H|H]; [exists 65, 90|exists 97, 122]; simpl; auto. }
  assert (D : forall c, between [(45, 46); (48, 57); (65, 90); (95, 95); (97, 122)] (N_of_ascii c) = true <-> Letter c \/ Digit c \/ In c ["."; "_"; "-"]%char).
  { intros c. rewrite between_iff. unfold Letter, Digit. split.
    - intros (a & b & [I|[I|[I|[I|[I|[]]]]]] & H); injection I as <- <-; auto.
      + right. right. assert (X : N_of_ascii c = 45 \/ N_of_ascii c = 46) by lia. destruct X as [X|X]; [right; right; left|left]; symmetry; now apply ascii_code.
      + right. right. right. left. symmetry. apply ascii_code. change (N_of_ascii "_") with 95. lia.
    - intros [[H|H]|[H|[<-|[<-|[<-|[]]]]]].
      + exists 65, 90. simpl; auto 10.
      + exists 97, 122. simpl; auto 10.
      + exists 48, 57. simpl; auto 10.
      + exists 45, 46. split; [simpl; auto 10|]. change (N_of_ascii ".") with 46. lia.
      + exists 95, 95. split; [simpl; auto 10|]. change (N_of_ascii "_") with 95. lia.
      + exists 45, 46. split; [simpl; auto 10|]. change (N_of_ascii "-") with 45. lia. }
  destruct v as [|c r]; [split; [discriminate|intros (c & r & H & _); discriminate H]|].
  rewrite andb_true_iff, all_of_bytes, <- (every_iff _ _ r D), L. split.
  - intros [A B]. eauto.
  - intros (c' & r' & E & A & B). injection E as <- <-. now split.
Qed.

(** ** Parts of the declaration *)
Definition no_quote (v : string) : Prop := forall q, In q ["'"; """"]%char -> all_bytes (fun c => negb (Ascii.eqb c q)) v = true.
Lemma every_no_quote (P : ascii -> Prop) v : (forall c, P c -> c <> "'"%char /\ c <> """"%char) -> every P v -> no_quote v.
Proof.
  intros H E q Q. unfold every in E. induction v as [|c v IH]; [reflexivity|]. cbn [list_ascii_of_string] in E. inversion E as [|? ? A B]; subst. cbn [all_bytes]. rewrite (IH B), andb_true_r.
  apply negb_true_iff, Ascii.eqb_neq. destruct (H c A). simpl in Q. destruct Q as [<-|[<-|[]]]; assumption.
Qed.
Lemma version_no_quote v : VersionNum v -> no_quote v.
Proof.
  intros (d & -> & _ & E). apply (every_no_quote (fun c => c = "."%char \/ Digit c)).
  - unfold Digit. intros c [->|H]; [split; discriminate|]. split; intros ->; [change (N_of_ascii "'") with 39 in H|change (N_of_ascii """") with 34 in H]; lia.
  - change ("1." +++ d) with (String "1" (String "." d)). constructor; [right; unfold Digit; change (N_of_ascii "1") with 49; lia|]. constructor; [now left|].
    unfold every in E. eapply Forall_impl; [|exact E]. intros c H. now right.
Qed.
Lemma encoding_no_quote v : EncName v -> no_quote v.
Proof.
  intros (c & r & -> & A & B). apply (every_no_quote (fun c => Letter c \/ Digit c \/ In c ["."; "_"; "-"]%char)).
  - unfold Letter, Digit. intros x H. assert (X : forall y, In y [39; 34] -> N_of_ascii x <> y).
    { intros y Y E. simpl in Y. destruct H as [H|[H|[<-|[<-|[<-|[]]]]]]; [lia|lia|..]; [change (N_of_ascii ".") with 46 in E|change (N_of_ascii "_") with 95 in E|change (N_of_ascii "-") with 45 in E]; lia. }
    split; intros ->; [apply (X 39)|apply (X 34)]; simpl; auto.
  - constructor; [now left|exact B].
Qed.
Lemma yes_no_quote v : In v ["yes"; "no"] -> no_quote v.
Proof. intros [<-|[<-|[]]] q [<-|[<-|[]]]; reflexivity. Qed.
Lemma pseudo_inv name s v r : pseudo name s = Some (v, r) -> exists t, declares_value name v t /\ s = t +++ r.
Proof.
  unfold pseudo. destruct (span ws s) as [w r1] eqn:S. apply span_inv in S. destruct S as (-> & W & _). destruct w as [|c w]; [discriminate|]. cbn [is_empty].
  destruct (lit name r1) as [r2|] eqn:L; [|discriminate]. apply lit_app in L. subst r1. destruct (lit "=" (skip_ws r2)) as [r3|] eqn:L; [|discriminate]. apply lit_app in L. intros Q.
  apply quoted_raw_iff in Q. destruct Q as (q & Q & E & _). destruct (skip_inv r2) as (a & A & A' & _). destruct (skip_inv r3) as (b & B & B' & _).
  exists (String c w +++ name +++ (a +++ "=" +++ b) +++ String q (v +++ String q "")). split.
  - exists (String c w), (a +++ "=" +++ b), (String q (v +++ String q "")). split; [now apply spaces_iff|]. split; [discriminate|]. split; [|split; [now exists q|reflexivity]].
    exists a, b. split; [now apply spaces_iff|]. split; [now apply spaces_iff|reflexivity].
  - rewrite A, L, B, E. repeat (progress (rewrite ?app_s_assoc; cbn [append])). reflexivity.
Qed.
Lemma pseudo_of name v t r : stops ws name -> name <> "" -> declares_value name v t -> no_quote v -> pseudo name (t +++ r) = Some (v, r).
Proof.
  intros N N' (w & e & q & W & W' & (a & b & A & B & ->) & (c & C & ->) & ->) Q. apply spaces_iff in W, A, B.
  replace ((w +++ name +++ (a +++ "=" +++ b) +++ String c (v +++ String c "")) +++ r) with (w +++ name +++ a +++ "=" +++ b +++ String c (v +++ String c r))
    by (rewrite !app_s_assoc; cbn [append]; rewrite !app_s_assoc; reflexivity).
  unfold pseudo. rewrite (span_all ws w); [|exact W|destruct name; [congruence|exact N]]. destruct w as [|x w]; [congruence|]. cbn [is_empty].
  rewrite (proj2 (lit_app name _ _) eq_refl). rewrite (skip_app a _ A); [|reflexivity]. rewrite (proj2 (lit_app "=" _ _) eq_refl).
  rewrite (skip_app b _ B); [|simpl in C; destruct C as [<-|[<-|[]]]; reflexivity]. apply quoted_raw_iff. exists c. split; [exact C|]. split; [reflexivity|]. now apply Q.
Qed.
Lemma pseudo_none name s : lit name (skip_ws s) = None -> pseudo name s = None.
Proof. unfold pseudo, skip_ws. destruct (span ws s) as [w r]. cbn [snd]. intros ->. now destruct (is_empty w). Qed.
Lemma declares_skip name v t r : stops ws name -> name <> "" -> declares_value name v t -> exists r', skip_ws (t +++ r) = name +++ r'.
Proof.
  intros N N' (w & e & q & W & _ & _ & _ & ->). apply spaces_iff in W. rewrite app_s_assoc. rewrite skip_app; [|exact W|destruct name; [congruence|exact N]]. rewrite app_s_assoc. eauto.
Qed.
Lemma declares_head name v t : declares_value name v t -> exists c t', t = String c t' /\ ws c = true.
Proof.
  intros (w & e & q & W & W' & _ & _ & ->). destruct w as [|c w]; [congruence|]. apply spaces_iff in W. cbn [all_bytes] in W. apply andb_true_iff in W. exists c, (w +++ name +++ e +++ q). split; [reflexivity|tauto].
Qed.

(** ** The declaration *)
Lemma yes_iff v : (v =?s "yes") || (v =?s "no") = true <-> In v ["yes"; "no"].
Proof. rewrite orb_true_iff, !String.eqb_eq. simpl. intuition. Qed.
Lemma declaration_inv s r : declaration s = Some r -> exists d, s = d +++ r /\ (d = "" \/ XMLDecl d).
Proof.
  unfold declaration. destruct (lit "<?xml" s) as [[|c r']|] eqn:L; try (intros [= <-]; exists ""; split; [reflexivity|now left]).
  apply lit_app in L. subst s. destruct (ws c); [|intros [= <-]; exists ""; split; [reflexivity|now left]].
  destruct (pseudo "version" (String c r')) as [[v r1]|] eqn:V; [|discriminate]. apply pseudo_inv in V. destruct V as (tv & V & ->).
  destruct (version_ok v) eqn:Vo; [|discriminate]. apply version_iff in Vo. cbv zeta.
  intros H. assert (E : exists te r2, r1 = te +++ r2 /\ (te = "" \/ exists n, EncName n /\ declares_value "encoding" n te) /\
    match match pseudo "standalone" r2 with Some (v, r) => if ((v =?s "yes") || (v =?s "no"))%bool then Some r else None | None => Some r2 end with Some r => lit "?>" (skip_ws r) | None => None end = Some r).
  { destruct (pseudo "encoding" r1) as [[n r2]|] eqn:E.
    - apply pseudo_inv in E. destruct E as (te & E & ->). destruct (encoding_ok n) eqn:Eo; [|discriminate]. apply encoding_iff in Eo. exists te, r2. split; [reflexivity|]. split; [right; eauto|exact H].
    - exists "", r1. split; [reflexivity|]. split; [now left|exact H]. }
  clear H. destruct E as (te & r2 & -> & E & H).
  assert (X : exists ta r3, r2 = ta +++ r3 /\ (ta = "" \/ exists b, In b ["yes"; "no"] /\ declares_value "standalone" b ta) /\ lit "?>" (skip_ws r3) = Some r).
  { destruct (pseudo "standalone" r2) as [[b r3]|] eqn:A.
    - apply pseudo_inv in A. destruct A as (ta & A & ->). destruct ((b =?s "yes") || (b =?s "no"))%bool eqn:Y; [|discriminate]. apply yes_iff in Y. exists ta, r3. split; [reflexivity|]. split; [right; eauto|exact H].
    - exists "", r2. split; [reflexivity|]. split; [now left|exact H]. }
  destruct X as (ta & r3 & -> & A & X). apply lit_app in X. destruct (skip_inv r3) as (w & W & W' & _). rewrite X in W. subst r3.
  exists ("<?xml" +++ tv +++ te +++ ta +++ w +++ "?>"). split; [rewrite !app_s_assoc; reflexivity|]. right. exists v, tv, te, ta, w. split; [reflexivity|]. split; [exact Vo|]. split; [exact V|]. split; [exact E|]. split; [exact A|now apply spaces_iff].
Qed.
Lemma declaration_of d r : XMLDecl d -> declaration (d +++ r) = Some r.
Proof.
  intros (v & tv & te & ta & w & -> & Vo & V & E & A & W). apply spaces_iff in W.
  replace (("<?xml" +++ tv +++ te +++ ta +++ w +++ "?>") +++ r) with ("<?xml" +++ tv +++ te +++ ta +++ w +++ "?>" +++ r) by (rewrite !app_s_assoc; reflexivity).
  unfold declaration. rewrite (proj2 (lit_app "<?xml" _ _) eq_refl). destruct (declares_head _ _ _ V) as (c & t' & -> & C). cbn [append]. rewrite C.
  change (String c (t' +++ te +++ ta +++ w +++ String "?" (String ">" r))) with (String c t' +++ te +++ ta +++ w +++ "?>" +++ r).
  rewrite (pseudo_of "version" v (String c t') _ eq_refl ltac:(discriminate) V (version_no_quote v Vo)). apply version_iff in Vo. rewrite Vo. cbv zeta.
  assert (S0 : skip_ws (w +++ "?>" +++ r) = "?>" +++ r) by (now apply skip_app).
  assert (SA : match match pseudo "standalone" (ta +++ w +++ "?>" +++ r) with Some (v, r) => if ((v =?s "yes") || (v =?s "no"))%bool then Some r else None | None => Some (ta +++ w +++ "?>" +++ r) end with Some r => lit "?>" (skip_ws r) | None => None end = Some r).
  { destruct A as [->|(b & B & D)].
    - cbn [append]. change (String "?" (String ">" r)) with ("?>" +++ r). rewrite (pseudo_none "standalone" _); [|now rewrite S0]. rewrite S0. now apply lit_app.
    - rewrite (pseudo_of "standalone" b ta _ eq_refl ltac:(discriminate) D (yes_no_quote b B)). apply yes_iff in B. rewrite B, S0. now apply lit_app. }
  destruct E as [->|(n & N & D)].
  - cbn [append]. change (String "?" (String ">" r)) with ("?>" +++ r). rewrite (pseudo_none "encoding" (ta +++ w +++ "?>" +++ r)); [exact SA|].
    destruct A as [->|(b & B & D)]; [cbn [append]; change (String "?" (String ">" r)) with ("?>" +++ r); now rewrite S0|].
    destruct (declares_skip "standalone" b ta (w +++ "?>" +++ r) eq_refl ltac:(discriminate) D) as (r' & ->). reflexivity.
  - rewrite (pseudo_of "encoding" n te _ eq_refl ltac:(discriminate) D (encoding_no_quote n N)). apply encoding_iff in N. rewrite N. exact SA.
Qed.
Lemma pi_not_xml pos c r ps : ws c = true -> ~ pieces pos ("<?xml" +++ String c r) ps.
Proof.
  intros C H. remember ("<?xml" +++ String c r) as s eqn:E. destruct H as [pos|pos t p s l P _ _]; [discriminate E|].
  assert (Q : forall n name u, QName n name -> n +++ u <> "?xml" +++ String c r).
  { intros n name u Qn X. destruct (qname_head _ _ Qn) as (d & n' & -> & D). cbn [append] in X. injection X as -> _. discriminate D. }
  destruct P as [n name ats xl w Qn _ _|n name ats xl w Qn _ _|n name w Qn _|raw v R R' _|b v _ _|b _|n b Nn X B _].
  - rewrite !app_s_assoc in E. injection E as E. now apply (Q _ _ _ Qn) in E.
  - rewrite !app_s_assoc in E. injection E as E. now apply (Q _ _ _ Qn) in E.
  - discriminate E.
  - destruct raw as [|d raw]; [congruence|]. injection E as -> _. apply text_chardata in R'. destruct R' as [_ R']. discriminate R'.
  - discriminate E.
  - discriminate E.
  - rewrite !app_s_assoc in E. injection E as E. apply X. apply ncname_iff in Nn. apply ncname_bytes in Nn.
    assert (S1 : span name_byte (n +++ b +++ "?>" +++ s) = (n, b +++ "?>" +++ s)).
    { apply span_all; [exact Nn|]. destruct B as [->|(d & b' & -> & B)]; [reflexivity|]. cbn [append]. apply ws_not_name. now apply space_iff. }
    assert (S2 : span name_byte ("xml" +++ String c r) = ("xml", String c r)) by (apply span_all; [reflexivity|now apply ws_not_name]).
    change ("?>" +++ s) with (String "?" (String ">" s)) in S1. cbn [append] in E, S1, S2. rewrite E, S2 in S1. injection S1 as <- _.
    exists "x"%char, "m"%char, "l"%char. simpl. auto.
Qed.
Lemma declaration_none s ps pos : pieces pos s ps -> declaration s = Some s.
Proof.
  intros H. unfold declaration. destruct (lit "<?xml" s) as [[|c r]|] eqn:L; try reflexivity. apply lit_app in L. subst s. destruct (ws c) eqn:C; [|reflexivity].
  now apply pi_not_xml in H.
Qed.

(** ** The whole text *)
Lemma len_left s : left_of s = len s.
Proof. reflexivity. Qed.
Lemma element_head sc ps x : element sc ps x -> exists b n l c e r, ps = (b, POpen n l c, e) :: r.
Proof. intros H. destruct H; repeat eexists. Qed.
Lemma first_byte pos s ps before aft x : pieces pos s (before ++ ps ++ aft) -> Forall Misc before -> element [] ps x -> exists c r, s = String c r /\ (c = "<"%char \/ Space c).
Proof.
  intros H M E. destruct (element_head _ _ _ E) as (b & n & l & k & e & r & ->).
  assert (F : exists p q, before ++ ((b, POpen n l k, e) :: r) ++ aft = p :: q /\ forall raw v, snd (fst p) = PText raw v -> spaces raw).
  { destruct before as [|p before]; [eexists; eexists; split; [reflexivity|]; intros raw v X; discriminate X|]. inversion M as [|? ? M1 M2]; subst.
    eexists; eexists; split; [reflexivity|]. intros raw v X. unfold Misc in M1. rewrite X in M1. exact M1. }
  destruct F as (p & q & F & G). rewrite F in H. inversion H as [|? t p' s' l' P X H' E1 E2 E3]; subst. cbn [fst snd] in G.
  destruct (piece_head pos t p' P) as [[(raw & v & ->) (c & r' & -> & N)]|[_ (r' & ->)]].
  - exists c, (r' +++ s'). split; [reflexivity|right]. inversion P; subst. specialize (G _ _ eq_refl). unfold spaces, every in G. inversion G; subst. assumption.
  - exists "<"%char, (r' +++ s'). split; [reflexivity|now left].
Qed.
Definition bom : string := byte_of 239 +++ byte_of 187 +++ byte_of 191.
Theorem parse_document text x : parse_xml text = Some x <-> XmlDocument text x.
Proof.
  unfold parse_xml. fold bom. split.
  - intros H. assert (B : exists b s, text = b +++ s /\ (b = "" \/ b = byte 0xEF (byte 0xBB (byte 0xBF ""))) /\ match lit bom text with Some r => r | None => text end = s).
    { destruct (lit bom text) as [r|] eqn:L; [apply lit_app in L; subst; exists bom, r; auto|exists "", text; auto]. }
    destruct B as (b & s & E & B & X). rewrite X in H. destruct (xml_chars s) eqn:C; [|discriminate]. apply chars_iff in C. destruct C as (l & C).
    destruct (declaration s) as [r|] eqn:D; [|discriminate]. apply declaration_inv in D. destruct D as (d & -> & D).
    destruct (xml_tokens (String.length r) r) as [ts|] eqn:T; [|discriminate].
    destruct (tokens_inv _ r ts (len b + len d) (left_of text) T) as (ps & P & F); [rewrite len_left, E, !len_app; lia|].
    destruct (tree_before _ ts ps F x H) as (before & qs & aft & -> & M & El & M').
    exists b, d, r, l, before, qs, aft. repeat (split; [assumption|]). assumption.
  - intros (b & d & r & l & before & ps & aft & E & B & C & D & P & M & El & M').
    assert (X : match lit bom text with Some r => r | None => text end = d +++ r).
    { destruct B as [->| ->]; [|rewrite E; change (byte 239 (byte 187 (byte 191 ""))) with bom; now rewrite (proj2 (lit_app bom _ _) eq_refl)].
      cbn [append] in E. destruct (lit bom text) as [r'|] eqn:L; [|exact E]. exfalso. apply lit_app in L. rewrite E in L.
      destruct D as [->|(v & tv & te & ta & w & -> & _)]; [|discriminate L]. cbn [append] in L. destruct (first_byte _ _ _ _ _ _ P M El) as (c & r0 & -> & Z).
      injection L as -> _. destruct Z as [Z|Z]; [discriminate Z|]. apply space_iff in Z. discriminate Z. }
    rewrite X. rewrite (proj2 (chars_iff (d +++ r)) (ex_intro _ l C)).
    assert (Y : declaration (d +++ r) = Some r) by (destruct D as [->|D]; [now apply (declaration_none _ _ _ P)|now apply declaration_of]). rewrite Y.
    destruct (tokens_of _ _ _ P (String.length r) (left_of text) (le_n _)) as (ts & -> & F); [rewrite len_left, E, !len_app; lia|].
    now apply (tree_whole _ ts before ps aft x).
Qed.
