(** * PlaceProof: the places of elements and attributes in the text *)
From Verif Require Import Base Libs Xml ParseSpec DeclSpec Macro MacroSpec Message MessageSpec XmlChars XmlRead XmlGrammar
  GrammarProof1 GrammarProof2 GrammarProof3 GrammarProof4 GrammarProof5 PlaceSpec.
Local Open Scope N_scope.

Lemma at_text_app a b : at_text a -> at_text (a ++ b).
Proof. intros (x & raw & s & e & r & ->). exists x, raw, s, e, (r ++ b). reflexivity. Qed.
Lemma pieces_app l1 : forall l2 pos s, pieces pos s (l1 ++ l2) ->
  exists s1 s2, s = s1 +++ s2 /\ pieces pos s1 l1 /\ pieces (pos + len s1) s2 l2.
Proof.
  induction l1 as [|x l1 IH]; intros l2 pos s H; cbn [app] in H.
  - exists "", s. split; [reflexivity|]. split; [constructor|]. change (len "") with 0. now rewrite N.add_0_r.
  - inversion H as [|pos' t p s' l P A R]; subst. destruct (IH _ _ _ R) as (s1 & s2 & -> & P1 & P2).
    exists (t +++ s1), s2. split; [now rewrite app_s_assoc|]. split.
    + constructor; [exact P| |exact P1]. intros raw v E Q. exact (A raw v E (at_text_app _ _ Q)).
    + rewrite len_app. now rewrite N.add_assoc.
Qed.

(** The range of an element is that of its pieces. *)
Lemma pieces_end pos s l b p e : pieces pos s (l ++ [(b, p, e)]) -> e = pos + len s.
Proof.
  intros H. apply pieces_app in H. destruct H as (s1 & s2 & -> & _ & H). inversion H as [|? t ? s' ? ? ? R]; subst.
  inversion R; subst. rewrite app_s_nil_r, len_app. lia.
Qed.
Lemma element_range sc ps x pos s : element sc ps x -> pieces pos s ps -> xe_range x = (pos, pos + len s).
Proof.
  intros E P. destruct E as [b n l e sc' ns ats T|b n l e sc' ns ats ps ks b' e' T C]; cbn [xe_range].
  - pose proof (pieces_end pos s [] _ _ _ P) as ->. inversion P; subst. reflexivity.
  - rewrite app_comm_cons in P. rewrite (pieces_end _ _ _ _ _ _ P). inversion P; subst. reflexivity.
Qed.

(** Children stand inside. *)
Lemma join_elems l c : In (KElem c) (join l) -> In (KElem c) l.
Proof.
  induction l as [|[x|t|o] l IH]; cbn [join]; [tauto|..].
  - intros [E|E]; [left; exact E|right; auto].
  - intros H. right. apply IH. destruct (join l) as [|[y|u|v] r]; destruct t; cbn in *; try tauto; destruct H as [H|H]; try discriminate; tauto.
  - intros [E|E]; [discriminate|right; auto].
Qed.
Lemma content_elem sc ps ks c : content sc ps ks -> In (KElem c) ks -> exists a qs b, ps = a ++ qs ++ b /\ element sc qs c.
Proof.
  intros H. induction H as [|sc b raw s e ps ks H IH|sc b s e ps ks H IH|sc b s e ps ks H IH|sc ps x qs ks E H IH]; intros I; [destruct I|..].
  1-3: destruct I as [I|I]; [discriminate|]; destruct (IH I) as (a & q & d & -> & K); eexists (_ :: a), q, d; split; [reflexivity|exact K].
  destruct I as [I|I].
  - injection I as ->. exists [], ps, qs. auto.
  - destruct (IH I) as (a & q & d & -> & K). exists (ps ++ a), q, d. split; [|exact K]. now rewrite <- app_assoc.
Qed.
Lemma child_inside sc ps x c : element sc ps x -> In c (xe_children x) ->
  exists o a qs b l, ps = o :: a ++ qs ++ b ++ [l] /\ element (xe_nss x) qs c.
Proof.
  intros E I. apply elems_of_In in I. destruct E as [b n l e sc' ns ats T|b n l e sc' ns ats ps ks b' e' T C]; cbn in *; [destruct I|].
  apply join_elems in I. destruct (content_elem _ _ _ _ C I) as (a & qs & d & -> & K).
  exists (b, POpen n l false, e), a, qs, d, (b', PClose n, e'). split; [|exact K]. now rewrite <- !app_assoc.
Qed.
Lemma within_inside ps x e : element [] ps x -> within x e -> exists a sc qs b, ps = a ++ qs ++ b /\ element sc qs e.
Proof.
  intros E. induction 1 as [|e c W IH I].
  - exists [], [], ps, []. split; [cbn; now rewrite app_nil_r|exact E].
  - destruct IH as (a & sc & qs & b & -> & K). destruct (child_inside _ _ _ _ K I) as (o & a' & q' & b' & l & -> & K').
    exists (a ++ o :: a'), (xe_nss e), q', (b' ++ l :: b). split; [|exact K']. rewrite <- !app_assoc. cbn [app]. now rewrite <- !app_assoc.
Qed.

Lemma document_pieces text d : XmlDocument text d -> exists head body before ps aft,
  text = head +++ body /\ pieces (len head) body (before ++ ps ++ aft) /\ element [] ps d.
Proof.
  intros (bom & decl & body & l & before & ps & aft & E & B & T & D & P & _ & El & _).
  exists (bom +++ decl), body, before, ps, aft. rewrite app_s_assoc, len_app. auto.
Qed.
(** The pieces of an element of the document are a part of the text. *)
Lemma element_place text d e : XmlDocument text d -> within d e -> exists a src b sc ps,
  text = a +++ src +++ b /\ pieces (len a) src ps /\ element sc ps e /\ xe_range e = (len a, len (a +++ src)).
Proof.
  intros D W. destruct (document_pieces _ _ D) as (head & body & before & ps & aft & -> & P & E).
  destruct (within_inside _ _ _ E W) as (a & sc & qs & b & -> & K).
  apply pieces_app in P. destruct P as (s1 & s2 & -> & _ & P). rewrite <- !app_assoc in P.
  apply pieces_app in P. destruct P as (s3 & s4 & -> & _ & P). apply pieces_app in P. destruct P as (s5 & s6 & -> & P & _).
  exists (head +++ s1 +++ s3), s5, s6, sc, qs. split; [now rewrite !app_s_assoc|].
  assert (Q : len (head +++ s1 +++ s3) = len head + len s1 + len s3) by (rewrite !len_app; lia). rewrite Q. split; [exact P|]. split; [exact K|].
  rewrite (element_range _ _ _ _ _ K P). rewrite len_app, Q. reflexivity.
Qed.
Lemma element_cut text d e : XmlDocument text d -> within d e ->
  exists src, cut text (xe_range e) src /\ element_source (fst (xe_range e)) e src.
Proof.
  intros D W. destruct (element_place _ _ _ D W) as (a & src & b & sc & ps & E & P & K & R).
  exists src. rewrite R. split; [exists a, b; auto|]. exists sc, ps. auto.
Qed.

(** ** Attributes *)
Lemma sorted_In l d o x : sorted l d o -> In x o -> In x l.
Proof. induction 1; cbn; intuition. Qed.
Lemma Forall2_In_r {A B} (R : A -> B -> Prop) l m b : Forall2 R l m -> In b m -> exists a, In a l /\ R a b.
Proof. induction 1 as [|x y l m H F IH]; cbn; [tauto|]. intros [<-|I]; [eauto|]. destruct (IH I) as (a & Ia & Ra). eauto. Qed.
Lemma tag_attr sc n l sc' ns ats b : tag sc n l sc' ns ats -> In b ats -> exists x, In x l /\ attribute_of sc' x b.
Proof.
  intros (d & o & S & _ & _ & _ & _ & F & _) I. destruct (Forall2_In_r _ _ _ _ F I) as (x & Ix & Rx).
  exists x. split; [eapply sorted_In; eauto|exact Rx].
Qed.
Lemma attributes_In pos s l x : attributes pos s l -> In x l -> exists a n e q b,
  s = a +++ (n +++ e +++ q) +++ b /\ x_range x = (pos + len a, pos + len (a +++ n +++ e +++ q))
  /\ QName n (x_name x) /\ EqSign e /\ AttValue q (x_value x).
Proof.
  induction 1 as [|pos w n name e q v r l W N Q E V A IH]; intros I; [destruct I|]. destruct I as [<-|I].
  - exists w, n, e, q, r. split; [now rewrite !app_s_assoc|]. cbn [x_range x_name x_value]. split; [|auto]. rewrite !len_app. f_equal; lia.
  - destruct (IH I) as (a & n' & e' & q' & b & -> & R & K). exists (w +++ n +++ e +++ q +++ a), n', e', q', b.
    split; [now rewrite !app_s_assoc|]. split; [|exact K]. rewrite R. rewrite !len_app. f_equal; lia.
Qed.
Lemma element_open sc ps e pos src : element sc ps e -> pieces pos src ps -> exists n p ats l w tl rest ns' sc',
  src = "<" +++ n +++ ats +++ w +++ tl +++ rest /\ QName n (p, xe_tag e) /\ attributes (pos + 1 + len n) ats l /\ spaces w
  /\ (tl = ">" \/ tl = "/>") /\ tag sc (p, xe_tag e) l sc' ns' (xe_attrs e) /\ sc' = xe_nss e /\ ns' = xe_ns e.
Proof.
  intros E P. destruct E as [b [p t] l e sc' ns ats T|b [p t] l e sc' ns ats ps ks b' e' T C];
    inversion P as [|? u ? s' ? H ? R]; subst; inversion H as [n name at' l' w Q A W|n name at' l' w Q A W| | | | |]; subst; cbn [xe_tag xe_attrs xe_nss xe_ns].
  - exists n, p, at', l, w, "/>", s', ns, sc'. split; [now rewrite !app_s_assoc|]. auto 10.
  - exists n, p, at', l, w, ">", s', ns, sc'. split; [now rewrite !app_s_assoc|]. auto 10.
Qed.
Lemma attr_place text d e a : XmlDocument text d -> within d e -> In a (xe_attrs e) -> exists src, cut text (at_range a) src
  /\ attribute_source a src /\ fst (xe_range e) < fst (at_range a) /\ snd (at_range a) < snd (xe_range e).
Proof.
  intros D W I. destruct (element_place _ _ _ D W) as (pre & src & post & sc & ps & Et & P & K & R).
  destruct (element_open _ _ _ _ _ K P) as (n & p & ats & l & w & tl & rest & ns' & sc' & Es & Q & A & Sw & Ht & T & _ & _).
  destruct (tag_attr _ _ _ _ _ _ _ T I) as (x & Ix & (N1 & _ & N3 & N4)).
  destruct (attributes_In _ _ _ _ A Ix) as (u & n2 & e2 & q2 & b & Ea & Rx & Q2 & E2 & V2).
  exists (n2 +++ e2 +++ q2). rewrite N4, Rx. split; [|split].
  - exists (pre +++ "<" +++ n +++ u), (b +++ w +++ tl +++ rest +++ post). rewrite Et, Es, Ea. split; [now rewrite !app_s_assoc|].
    cbn [fst snd]. rewrite !len_app. change (len "<") with 1. split; lia.
  - exists n2, (fst (x_name x)), e2, q2. split; [reflexivity|]. rewrite N1, N3. destruct (x_name x) as [p0 n0]. auto.
  - rewrite R. cbn [fst snd]. rewrite Es, Ea. rewrite !len_app. change (len "<") with 1.
    assert (1 <= len tl) by (destruct Ht as [->| ->]; unfold len; cbn; lia). split; lia.
Qed.
Lemma child_place text d e c : XmlDocument text d -> within d e -> In c (xe_children e) ->
  fst (xe_range e) < fst (xe_range c) /\ snd (xe_range c) < snd (xe_range e).
Proof.
  intros D W I. destruct (element_place _ _ _ D W) as (pre & src & post & sc & ps & Et & P & K & R).
  destruct (child_inside _ _ _ _ K I) as (o & a & qs & b & l & -> & C). rewrite R.
  change (o :: a ++ qs ++ b ++ [l]) with ([o] ++ a ++ qs ++ b ++ [l]) in P.
  apply pieces_app in P. destruct P as (s1 & s2 & -> & P1 & P). apply pieces_app in P. destruct P as (s3 & s4 & -> & _ & P).
  apply pieces_app in P. destruct P as (s5 & s6 & -> & P5 & P). apply pieces_app in P. destruct P as (s7 & s8 & -> & _ & P8).
  rewrite (element_range _ _ _ _ _ C P5). cbn [fst snd]. rewrite !len_app.
  assert (NE : forall pos s y, pieces pos s [y] -> 1 <= len s).
  { intros pos s y H. inversion H as [|? t ? s' ? Hp ? Hr]; subst. rewrite len_app.
    assert (exists ch r, t = String ch r) as (ch & r & ->). { apply piece_head in Hp. destruct Hp as [[_ (ch & r & -> & _)]|[_ [r ->]]]; eauto. }
    rewrite len_cons. lia. }
  pose proof (NE _ _ _ P1). pose proof (NE _ _ _ P8). split; lia.
Qed.

(** ** Names and declarations *)
Lemma element_names sc ps e pos src : element sc ps e -> pieces pos src ps ->
  NCName (xe_tag e) /\ Forall (fun a => NCName (at_name a)) (xe_attrs e)
  /\ NoDup (map (fun a => (at_name a, at_ns a)) (xe_attrs e)).
Proof.
  intros E P. destruct (element_open _ _ _ _ _ E P) as (n & p & ats & l & w & tl & rest & ns' & sc' & Es & Q & A & Sw & Ht & T & _ & _).
  split; [inversion Q; subst; assumption|]. split.
  - apply Forall_forall. intros a I. destruct (tag_attr _ _ _ _ _ _ _ T I) as (x & Ix & (N1 & _)).
    destruct (attributes_In _ _ _ _ A Ix) as (u & n2 & e2 & q2 & b & _ & _ & Q2 & _). rewrite N1. inversion Q2; subst; cbn; assumption.
  - destruct T as (d & o & _ & _ & _ & _ & _ & _ & H). exact H.
Qed.
Lemma keys_newest d outer : map fst (map (newest d) outer) = map fst outer.
Proof.
  rewrite map_map. apply map_ext. intros e. unfold newest. destruct (find _ d) as [x|] eqn:F; [|reflexivity].
  apply find_some in F. destruct F as [_ F]. now apply oeq_eq in F.
Qed.
Lemma in_scope_nodup outer d : NoDup (map fst outer) -> NoDup (map fst d) -> NoDup (map fst (in_scope outer d)).
Proof.
  intros Ho Hd. unfold in_scope. rewrite map_app, keys_newest.
  assert (F : NoDup (map fst (filter (fun d => negb (existsb (fun e => opt_eqb String.eqb (fst e) (fst d)) outer)) d))).
  { clear Ho. induction d as [|x d IH]; cbn; [constructor|]. inversion Hd as [|? ? N M]; subst. destruct (negb _); cbn; [|auto].
    constructor; [|auto]. intros I. apply N. apply in_map_iff in I. destruct I as (y & <- & I). apply filter_In in I. now apply in_map. }
  assert (X : forall k, In k (map fst outer) -> ~ In k (map fst (filter (fun d => negb (existsb (fun e => opt_eqb String.eqb (fst e) (fst d)) outer)) d))).
  { intros k I J. apply in_map_iff in J. destruct J as (y & <- & J). apply filter_In in J. destruct J as [_ J].
    apply Bool.negb_true_iff in J. rewrite <- Bool.not_true_iff_false in J. apply J. apply existsb_exists.
    apply in_map_iff in I. destruct I as (z & Ez & I). exists z. split; [exact I|]. now apply oeq_eq. }
  revert Ho F X. generalize (map fst (filter (fun d => negb (existsb (fun e => opt_eqb String.eqb (fst e) (fst d)) outer)) d)).
  generalize (map fst outer). clear. intros a b. induction a as [|x a IH]; intros Ha Hb X; cbn; [exact Hb|].
  inversion Ha; subst. constructor; [|apply IH; auto; intros k I; apply X; now right].
  intros I. apply in_app_or in I. destruct I as [I|I]; [auto|]. exact (X x (or_introl eq_refl) I).
Qed.
Lemma in_scope_ok outer d : Forall binding_ok outer -> Forall binding_ok d -> Forall binding_ok (in_scope outer d).
Proof.
  intros Ho Hd. unfold in_scope. apply Forall_app. split.
  - apply Forall_forall. intros y I. apply in_map_iff in I. destruct I as (e & <- & I). unfold newest.
    destruct (find _ d) as [x|] eqn:F; [|rewrite Forall_forall in Ho; auto]. apply find_some in F. rewrite Forall_forall in Hd. now apply Hd.
  - apply Forall_forall. intros y I. apply filter_In in I. rewrite Forall_forall in Hd. now apply Hd.
Qed.
Definition scope_fine (sc : bindings) : Prop := NoDup (map fst sc) /\ Forall binding_ok sc.
Lemma element_scope sc ps e : element sc ps e -> scope_fine sc -> scope_fine (xe_nss e).
Proof.
  assert (T : forall n l sc' ns ats, tag sc n l sc' ns ats -> scope_fine sc -> scope_fine sc').
  { intros n l sc' ns ats (d & o & _ & N & B & -> & _) [H1 H2]. split; [now apply in_scope_nodup|now apply in_scope_ok]. }
  intros E. destruct E; cbn [xe_nss]; eauto.
Qed.
Lemma within_scope ps x e : element [] ps x -> within x e -> scope_fine (xe_nss e).
Proof.
  intros E W.
  assert (K : exists sc qs, element sc qs e /\ scope_fine sc).
  { induction W as [|e c W IH I].
    - exists [], ps. split; [exact E|]. split; constructor.
    - destruct IH as (sc & qs & K & F). destruct (child_inside _ _ _ _ K I) as (o & a & q' & b & l & _ & K').
      exists (xe_nss e), q'. split; [exact K'|]. exact (element_scope _ _ _ K F). }
  destruct K as (sc & qs & K & F). exact (element_scope _ _ _ K F).
Qed.
Lemma document_scope text d e : XmlDocument text d -> within d e -> scope_fine (xe_nss e).
Proof.
  intros D W. destruct (document_pieces _ _ D) as (head & body & before & ps & aft & -> & P & E). exact (within_scope _ _ _ E W).
Qed.

(** ** Characters *)
Lemma utf8_bytes c u : utf8 c u -> (exists a, u = String a "" /\ N_of_ascii a = c /\ c < 128)
  \/ (128 <= c /\ every (fun a => 128 <= N_of_ascii a) u /\ u <> "").
Proof.
  assert (B : forall n s, n < 256 -> 128 <= n -> every (fun a => 128 <= N_of_ascii a) s -> every (fun a => 128 <= N_of_ascii a) (byte n s)).
  { intros n s Hn H E. destruct (byte_value n s Hn) as (a & -> & Ea). constructor; [lia|exact E]. }
  destruct 1 as [c H|a b Ha Hb H|a b c Ha Hb Hc H|a b c d Ha Hb Hc Hd H].
  - left. destruct (byte_value c "" ltac:(lia)) as (a & -> & Ea). eauto.
  - right. split; [lia|]. split; [|discriminate]. apply B; [lia|lia|]. apply B; [lia|lia|]. constructor.
  - right. split; [lia|]. split; [|discriminate]. apply B; [lia|lia|]. apply B; [lia|lia|]. apply B; [lia|lia|]. constructor.
  - right. split; [lia|]. split; [|discriminate]. apply B; [lia|lia|]. apply B; [lia|lia|]. apply B; [lia|lia|]. apply B; [lia|lia|]. constructor.
Qed.
Lemma utf8_head c u s : utf8 c u -> starts_with_cont (u +++ s) = false /\ u <> "".
Proof.
  assert (B : forall n t, n < 128 \/ 192 <= n < 256 -> starts_with_cont (byte n t) = false).
  { intros n t H. destruct (byte_value n t ltac:(lia)) as (a & -> & Ea). unfold starts_with_cont, is_cont_byte. unfold nat_of_ascii.
    destruct ((128 <=? N.to_nat (N_of_ascii a))%nat) eqn:E1; [|reflexivity]. destruct ((N.to_nat (N_of_ascii a) <? 192)%nat) eqn:E2; [|reflexivity].
    exfalso. apply Nat.leb_le in E1. apply Nat.ltb_lt in E2. lia. }
  destruct 1; (split; [|discriminate]); apply B; lia.
Qed.

(** A byte below 128 is a character. *)
Lemma app_head (u s a b : string) c : u +++ s = a +++ String c b ->
  (exists v, u = a +++ String c v /\ b = v +++ s) \/ exists v, a = u +++ v /\ s = v +++ String c b.
Proof.
  revert a. induction u as [|x u IH]; intros a H.
  - right. exists a. auto.
  - destruct a as [|y a]; cbn in H; injection H as -> H.
    + left. exists u. cbn. auto.
    + destruct (IH a H) as [(v & -> & ->)|(v & -> & ->)]; [left|right]; exists v; auto.
Qed.
Lemma every_app P a b : every P (a +++ b) <-> every P a /\ every P b.
Proof.
  unfold every. induction a as [|c a IH]; cbn; [split; [intros H; split; [constructor|exact H]|tauto]|].
  split.
  - intros H. inversion H; subst. apply IH in H3. split; [constructor; tauto|tauto].
  - intros [H K]. inversion H; subst. constructor; [assumption|]. apply IH. auto.
Qed.
Lemma utf8_split c u a x v : utf8 c u -> u = a +++ String x v -> N_of_ascii x < 128 -> a = "" /\ v = "".
Proof.
  intros H E X. destruct (utf8_bytes _ _ H) as [(y & -> & _)|(_ & F & _)].
  - destruct a as [|z a]; cbn in E; injection E as -> E; [auto|]. destruct a; discriminate.
  - exfalso. rewrite E in F. apply every_app in F. destruct F as [_ F]. inversion F; subst. lia.
Qed.
Lemma utf8_text_split s : utf8_text s -> forall a c b, s = a +++ String c b -> N_of_ascii c < 128 -> utf8_text b.
Proof.
  induction 1 as [|c u s U T IH]; intros a x b E X; [destruct a; discriminate|].
  destruct (app_head _ _ _ _ _ E) as [(v & Eu & ->)|(v & -> & ->)].
  - destruct (utf8_split _ _ _ _ _ U Eu X) as [-> ->]. exact T.
  - eapply IH; eauto.
Qed.
Lemma utf8_text_head s : utf8_text s -> starts_with_cont s = false.
Proof. destruct 1 as [|c u s U T]; [reflexivity|]. exact (proj1 (utf8_head c u s U)). Qed.

Definition valid (s : string) : Prop := exists l, text_of l s.
Lemma valid_nil : valid "". Proof. exists []. constructor. Qed.
Lemma valid_app a b : valid a -> valid b -> valid (a +++ b).
Proof.
  intros [l H] [m K]. exists (l ++ m). induction H as [|c l u s C U T IH]; [exact K|]. cbn [app]. rewrite app_s_assoc. now constructor.
Qed.
Lemma valid_cons c u s : Char c -> utf8 c u -> valid s -> valid (u +++ s).
Proof. intros C U [l H]. exists (c :: l). now constructor. Qed.
Lemma valid_one c : Char (N_of_ascii c) -> N_of_ascii c < 128 -> valid (String c "").
Proof.
  intros C A. exists [N_of_ascii c]. rewrite byte_of_value. rewrite <- (app_s_nil_r (byte _ _)). constructor; [exact C| |constructor]. now constructor.
Qed.
Lemma valid_split c b : N_of_ascii c < 128 -> forall a, valid (a +++ String c b) -> valid a /\ valid b /\ Char (N_of_ascii c).
Proof.
  intros X a [l H]. remember (a +++ String c b) as s eqn:E. revert a E. induction H as [|y l u s C U T IH]; intros a E; [destruct a; discriminate|].
  destruct (app_head _ _ _ _ _ E) as [(v & Eu & ->)|(v & -> & Es)].
  - destruct (utf8_split _ _ _ _ _ U Eu X) as [-> ->]. split; [apply valid_nil|]. split; [exists l; exact T|]. cbn in Eu. subst u.
    destruct (utf8_bytes _ _ U) as [(z & Ez & <- & _)|(_ & F & _)]; [injection Ez as ->; exact C|]. inversion F; subst. lia.
  - destruct (IH v Es) as (V & K). split; [now apply valid_cons with (c := y)|exact K].
Qed.
Lemma cr_ascii : N_of_ascii CR < 128. Proof. reflexivity. Qed.
Lemma lf_ascii : N_of_ascii LF < 128. Proof. reflexivity. Qed.
Lemma space_ascii c : Space c -> N_of_ascii c < 128.
Proof. intros [<-|[<-|[<-|[<-|[]]]]]; reflexivity. Qed.
Lemma valid_lf v : valid v -> valid (String LF v).
Proof. intros V. change (String LF v) with (String LF "" +++ v). apply valid_app; [|exact V]. apply valid_one; [right; left; reflexivity|reflexivity]. Qed.
Lemma valid_sp v : valid v -> valid (String " " v).
Proof. intros V. change (String " " v) with (String " " "" +++ v). apply valid_app; [|exact V]. apply valid_one; [|reflexivity]. right; right; right; left. cbn. lia. Qed.
Lemma reference_split pre t u r : Reference t u -> valid (pre +++ t +++ r) -> valid pre /\ valid u /\ valid r.
Proof.
  intros R V.
  assert (U : valid u).
  { destruct R as [s n u _ C U|s n u _ C U| | | | |].
    1-2: rewrite <- (app_s_nil_r u); eapply valid_cons; [exact C|exact U|apply valid_nil].
    all: apply valid_one; [right; right; right; left; cbn; lia|reflexivity]. }
  assert (E : exists m, t = String "&" (m +++ ";")).
  { destruct R as [s n u _ C W|s n u _ C W| | | | |]; [exists ("#" +++ s)|exists ("#x" +++ s)|exists "lt"|exists "gt"|exists "amp"|exists "apos"|exists "quot"]; reflexivity. }
  destruct E as [m ->]. assert (Q : pre +++ String "&" (m +++ ";") +++ r = pre +++ String "&" (m +++ String ";" r)) by (cbn; now rewrite app_s_assoc).
  rewrite Q in V. apply valid_split in V; [|reflexivity]. destruct V as (V1 & V2 & _). apply valid_split in V2; [|reflexivity]. tauto.
Qed.
Lemma snoc_app pre c r : pre +++ String c r = (pre +++ String c "") +++ r.
Proof. now rewrite app_s_assoc. Qed.
Lemma chardata_valid raw v : CharData raw v -> forall pre, valid (pre +++ raw) -> valid (pre +++ v).
Proof.
  induction 1 as [|c r v N D IH|r v N D IH|r v D IH|t u r v R D IH]; intros pre V.
  - exact V.
  - rewrite snoc_app in *. now apply IH.
  - apply valid_split in V; [|exact cr_ascii]. destruct V as (V1 & V2 & _). apply valid_app; [exact V1|]. apply valid_lf, (IH ""), V2.
  - apply valid_split in V; [|exact cr_ascii]. destruct V as (V1 & V2 & _). apply (valid_split LF r lf_ascii "") in V2. destruct V2 as (_ & V2 & _).
    apply valid_app; [exact V1|]. apply valid_lf, (IH ""), V2.
  - apply reference_split with (u := u) in V; [|exact R]. destruct V as (V1 & V2 & V3). apply valid_app; [exact V1|]. apply valid_app; [exact V2|]. apply (IH ""), V3.
Qed.
Lemma cdata_valid raw v : CData raw v -> forall pre, valid (pre +++ raw) -> valid (pre +++ v).
Proof.
  induction 1 as [|c r v N D IH|r v N D IH|r v D IH]; intros pre V.
  - exact V.
  - rewrite snoc_app in *. now apply IH.
  - apply valid_split in V; [|exact cr_ascii]. destruct V as (V1 & V2 & _). apply valid_app; [exact V1|]. apply valid_lf, (IH ""), V2.
  - apply valid_split in V; [|exact cr_ascii]. destruct V as (V1 & V2 & _). apply (valid_split LF r lf_ascii "") in V2. destruct V2 as (_ & V2 & _).
    apply valid_app; [exact V1|]. apply valid_lf, (IH ""), V2.
Qed.
Lemma attcontent_valid q raw v : AttContent q raw v -> forall pre, valid (pre +++ raw) -> valid (pre +++ v).
Proof.
  induction 1 as [|c r v N N' D IH|c r v Sp N D IH|r v N D IH|r v D IH|t u r v R D IH]; intros pre V.
  - exact V.
  - rewrite snoc_app in *. now apply IH.
  - apply valid_split in V; [|now apply space_ascii]. destruct V as (V1 & V2 & _). apply valid_app; [exact V1|]. apply valid_sp, (IH ""), V2.
  - apply valid_split in V; [|exact cr_ascii]. destruct V as (V1 & V2 & _). apply valid_app; [exact V1|]. apply valid_sp, (IH ""), V2.
  - apply valid_split in V; [|exact cr_ascii]. destruct V as (V1 & V2 & _). apply (valid_split LF r lf_ascii "") in V2. destruct V2 as (_ & V2 & _).
    apply valid_app; [exact V1|]. apply valid_sp, (IH ""), V2.
  - apply reference_split with (u := u) in V; [|exact R]. destruct V as (V1 & V2 & V3). apply valid_app; [exact V1|]. apply valid_app; [exact V2|]. apply (IH ""), V3.
Qed.
Lemma attvalue_valid a q v b : AttValue q v -> valid (a +++ q +++ b) -> valid v.
Proof.
  intros (c & raw & Hc & -> & A) V. assert (X : N_of_ascii c < 128) by (destruct Hc as [<-|[<-|[]]]; reflexivity).
  cbn [append] in V. rewrite app_s_assoc in V. apply valid_split in V; [|exact X]. destruct V as (_ & V & _).
  cbn [append] in V. apply valid_split in V; [|exact X]. destruct V as (V & _). exact (attcontent_valid _ _ _ A "" V).
Qed.

(** ** The texts of pieces *)
(** What is true of all texts ([Pt]), comments ([Po]) and values of attributes ([Pa]) of the pieces is
    true of those of the tree. *)
Section Good.
Variables Pt Po Pa : string -> Prop.
Hypothesis Pt_app : forall a b, Pt a -> Pt b -> Pt (a +++ b).
Definition piece_good (p : N * xpiece * N) : Prop :=
  match snd (fst p) with
  | POpen _ l _ => Forall (fun x => Pa (x_value x)) l
  | PClose _ => True
  | PText _ s | PCData s => Pt s
  | POther s => Po s
  end.
Definition kid_good (k : kid xelem) : Prop := match k with KElem _ => True | KText s => Pt s | KOther s => Po s end.
Lemma join_good l : Forall kid_good l -> Forall kid_good (join l).
Proof.
  induction l as [|[x|t|o] l IH]; intros F; [constructor|..]; inversion F as [|? ? H1 H2]; subst; specialize (IH H2); cbn [join]; try (constructor; assumption).
  destruct (join l) as [|[y|u|v] r]; try (destruct t; [exact IH|constructor; assumption]).
  inversion IH; subst. constructor; [|assumption]. now apply Pt_app.
Qed.
Lemma content_good sc ps ks : content sc ps ks -> Forall piece_good ps -> Forall kid_good ks.
Proof.
  intros H. induction H as [|sc b raw s e ps ks H IH|sc b s e ps ks H IH|sc b s e ps ks H IH|sc ps x qs ks E H IH]; intros F; [constructor|..].
  1-3: inversion F as [|? ? H1 H2]; subst; constructor; [exact H1|now apply IH].
  apply Forall_app in F. constructor; [exact I|]. now apply IH.
Qed.
Definition values_good (e : xelem) : Prop :=
  Forall (fun a => Pa (at_value a)) (xe_attrs e) /\ Forall kid_good (xe_kids e) /\ Forall (fun b => Pa (snd b)) (xe_nss e).
Lemma sorted_good l d o : sorted l d o -> Forall (fun x => Pa (x_value x)) l -> Forall (fun b => Pa (snd b)) d.
Proof. induction 1; intros F; [constructor|..]; inversion F; subst; auto. Qed.
Lemma in_scope_all (P : option string * string -> Prop) outer d : Forall P outer -> Forall P d -> Forall P (in_scope outer d).
Proof.
  intros Ho Hd. unfold in_scope. apply Forall_app. split.
  - apply Forall_forall. intros y I. apply in_map_iff in I. destruct I as (e & <- & I). unfold newest.
    destruct (find _ d) as [x|] eqn:F; [|rewrite Forall_forall in Ho; auto]. apply find_some in F. rewrite Forall_forall in Hd. now apply Hd.
  - apply Forall_forall. intros y I. apply filter_In in I. rewrite Forall_forall in Hd. now apply Hd.
Qed.
Lemma tag_good sc n l sc' ns ats : tag sc n l sc' ns ats -> Forall (fun b => Pa (snd b)) sc -> Forall (fun x => Pa (x_value x)) l ->
  Forall (fun a => Pa (at_value a)) ats /\ Forall (fun b => Pa (snd b)) sc'.
Proof.
  intros T Vs Vl. split.
  - apply Forall_forall. intros a I. destruct (tag_attr _ _ _ _ _ _ _ T I) as (x & Ix & (_ & _ & -> & _)). rewrite Forall_forall in Vl. auto.
  - destruct T as (d & o & S & _ & _ & -> & _). apply in_scope_all; [exact Vs|]. eapply sorted_good; eauto.
Qed.
Lemma element_good sc ps e : element sc ps e -> Forall piece_good ps -> Forall (fun b => Pa (snd b)) sc -> values_good e.
Proof.
  intros E F Vs. destruct E as [b n l e sc' ns ats T|b n l e sc' ns ats ps ks b' e' T C]; inversion F as [|? ? H1 H2]; subst;
    destruct (tag_good _ _ _ _ _ _ T Vs H1) as [Va Vn]; (split; [exact Va|]); (split; [|exact Vn]); cbn [xe_kids]; [constructor|].
  apply join_good. eapply content_good; [exact C|]. apply Forall_app in H2. tauto.
Qed.
Lemma within_good ps x e : element [] ps x -> Forall piece_good ps -> within x e -> values_good e.
Proof.
  intros E F W.
  assert (K : exists sc qs, element sc qs e /\ Forall piece_good qs /\ Forall (fun b => Pa (snd b)) sc).
  { induction W as [|e c W IH I].
    - exists [], ps. auto.
    - destruct IH as (sc & qs & K & Fq & Fs). destruct (child_inside _ _ _ _ K I) as (o & a & q' & b & l & -> & K').
      exists (xe_nss e), q'. split; [exact K'|]. split; [|exact (proj2 (proj2 (element_good _ _ _ K Fq Fs)))].
      inversion Fq as [|? ? _ F1]; subst. rewrite !Forall_app in F1. tauto. }
  destruct K as (sc & qs & K & Fq & Fs). exact (element_good _ _ _ K Fq Fs).
Qed.
End Good.
Definition piece_valid := piece_good valid valid valid.
Lemma in_app_valid t a m b : t = a +++ m +++ b -> valid t -> forall c d x y, a = c +++ String x "" -> b = String y d -> N_of_ascii x < 128 -> N_of_ascii y < 128 -> valid m.
Proof.
  intros -> V c d x y -> -> X Y. rewrite app_s_assoc in V. cbn [append] in V. apply valid_split in V; [|exact X]. destruct V as (_ & V & _).
  apply valid_split in V; [|exact Y]. tauto.
Qed.
Lemma attributes_valid pos s l a b : attributes pos s l -> valid (a +++ s +++ b) -> Forall (fun x => valid (x_value x)) l.
Proof.
  intros A V. apply Forall_forall. intros x I. destruct (attributes_In _ _ _ _ A I) as (u & n & e & q & r & -> & _ & _ & _ & Q).
  apply (attvalue_valid (a +++ u +++ n +++ e) q _ (r +++ b) Q). rewrite !app_s_assoc in *. exact V.
Qed.
Lemma piece_pv pos t p : piece pos t p -> valid t -> forall e, piece_valid (pos, p, e).
Proof.
  intros P V e. unfold piece_valid, piece_good. cbn [fst snd].
  destruct P as [n name ats l w Q A W|n name ats l w Q A W|n name w Q W|raw v N D O|b v D O|b O|u b N X B O].
  - apply (attributes_valid _ _ _ ("<" +++ n) (w +++ ">") A). rewrite !app_s_assoc. exact V.
  - apply (attributes_valid _ _ _ ("<" +++ n) (w +++ "/>") A). rewrite !app_s_assoc. exact V.
  - exact I.
  - exact (chardata_valid _ _ D "" V).
  - apply (cdata_valid _ _ D ""). apply (in_app_valid _ _ _ _ eq_refl V "<![CDATA" "]>" "[" "]"); reflexivity.
  - apply (in_app_valid _ _ _ _ eq_refl V "<!-" "->" "-" "-"); reflexivity.
  - apply (in_app_valid ("<?" +++ (u +++ b) +++ "?>") "<?" (u +++ b) "?>" eq_refl) with (c := "<") (d := ">") (x := "?"%char) (y := "?"%char); try reflexivity.
    rewrite app_s_assoc. exact V.
Qed.
Lemma piece_tail pos t p : piece pos t p -> (exists raw v, p = PText raw v) \/ exists m, t = m +++ ">".
Proof.
  destruct 1 as [n name ats l w Q A W|n name ats l w Q A W|n name w Q W|raw v N D O|b v D O|b O|u b N X B O]; [right|right|right|left; eauto|right|right|right].
  - exists ("<" +++ n +++ ats +++ w). now rewrite !app_s_assoc.
  - exists ("<" +++ n +++ ats +++ w +++ "/"). now rewrite !app_s_assoc.
  - exists ("</" +++ n +++ w). now rewrite !app_s_assoc.
  - exists ("<![CDATA[" +++ b +++ "]]"). now rewrite !app_s_assoc.
  - exists ("<!--" +++ b +++ "--"). now rewrite !app_s_assoc.
  - exists ("<?" +++ u +++ b +++ "?"). now rewrite !app_s_assoc.
Qed.
Lemma pieces_valid pos s ps : pieces pos s ps -> valid s -> Forall piece_valid ps.
Proof.
  induction 1 as [|pos t p s l P A R IH]; intros V; [constructor|].
  assert (K : valid t /\ valid s).
  { destruct (piece_tail _ _ _ P) as [(raw & v & ->)|(m & ->)].
    - specialize (A raw v eq_refl). destruct s as [|c s]; [rewrite app_s_nil_r in V; split; [exact V|apply valid_nil]|].
      apply (pieces_head _ _ _ R) in A. cbn in A. subst c.
      apply valid_split in V; [|reflexivity]. destruct V as (V1 & V2 & _). split; [exact V1|].
      change (String "<" s) with ("<" +++ s). apply valid_app; [|exact V2]. apply valid_one; [right; right; right; left; cbn; lia|reflexivity].
    - rewrite app_s_assoc in V. cbn [append] in V. apply valid_split in V; [|reflexivity]. destruct V as (V1 & V2 & _). split; [|exact V2].
      apply valid_app; [exact V1|]. apply valid_one; [right; right; right; left; cbn; lia|reflexivity]. }
  constructor; [|apply IH, K]. now apply (piece_pv pos t p).
Qed.
Lemma decl_tail decl : XMLDecl decl -> exists m, decl = m +++ ">".
Proof.
  intros (v & ver & enc & alone & w & -> & _). exists ("<?xml" +++ ver +++ enc +++ alone +++ w +++ "?"). now rewrite !app_s_assoc.
Qed.
Lemma document_valid text d e : XmlDocument text d -> within d e -> values_good valid valid valid e.
Proof.
  intros (bom & decl & body & l & before & ps & aft & E & B & T & D & P & _ & El & _) W.
  assert (V : valid body).
  { assert (V : valid (decl +++ body)) by (exists l; exact T). destruct D as [->|D]; [exact V|]. destruct (decl_tail _ D) as [m ->].
    rewrite app_s_assoc in V. cbn [append] in V. apply valid_split in V; [|reflexivity]. tauto. }
  apply (within_good valid valid valid valid_app ps d e El); [|exact W]. apply (pieces_valid _ _ _ P) in V. rewrite !Forall_app in V. tauto.
Qed.

(** ** The conditions of C59 and C68 *)
Lemma name_bytes_like s l : text_of l s -> Forall NameChar l -> name_like s.
Proof.
  intros T F c Hc I. induction T as [|x l u s C U T IH]; [destruct I|]. inversion F as [|? ? Fx Fl]; subst.
  assert (A : forall b, list_ascii_of_string (u +++ b) = (list_ascii_of_string u ++ list_ascii_of_string b)%list).
  { clear. induction u as [|y u IH]; intros b; cbn; [reflexivity|]. now rewrite IH. }
  rewrite A in I. apply in_app_or in I. destruct I as [I|I]; [|now apply IH].
  assert (Nc : N_of_ascii c = 32 \/ N_of_ascii c = 96) by (destruct Hc as [<-|[<-|[]]]; [left|right]; reflexivity).
  destruct (utf8_bytes _ _ U) as [(y & -> & Ey & _)|(_ & E & _)].
  - destruct I as [<-|[]]. rewrite Ey in Nc. clear - Fx Nc. unfold NameChar, NameStartChar in Fx. lia.
  - unfold every in E. rewrite Forall_forall in E. specialize (E c I). lia.
Qed.
Lemma ncname_like s : NCName s -> name_like s.
Proof. intros (c & l & T & Sc & F). apply (name_bytes_like s (c :: l) T). constructor; [now left|exact F]. Qed.
Lemma ncname_head s r : NCName s -> starts_with_cont (s +++ r) = false.
Proof.
  intros (c & l & T & _). inversion T as [|? ? u t C U H]; subst. rewrite app_s_assoc. exact (proj1 (utf8_head c u (t +++ r) U)).
Qed.
Lemma qname_start n p r : QName n p -> starts_with_cont (n +++ r) = false.
Proof. destruct 1 as [s N|q s N M]; [now apply ncname_head|]. rewrite app_s_assoc. now apply ncname_head. Qed.
Lemma to_nat_len s : N.to_nat (len s) = String.length s.
Proof. unfold len. apply Nat2N.id. Qed.
Lemma cut_between text r src : cut text r src -> (forall b, starts_with_cont (src +++ b) = false) -> between_chars text (N.to_nat (fst r)).
Proof. intros (a & b & E & La & _) H. exists a, (src +++ b). split; [exact E|]. split; [rewrite <- La; symmetry; apply to_nat_len|apply H]. Qed.
Lemma element_source_head pos e src : element_source pos e src -> exists r, src = String "<" r.
Proof.
  intros (sc & ps & P & E). destruct (element_open _ _ _ _ _ E P) as (n & p & ats & l & w & tl & rest & ns' & sc' & -> & _).
  eexists. reflexivity.
Qed.
Lemma files_sound k : text_files k -> texts_sound k.
Proof.
  intros [T _] p a b E. apply T in E. apply utf8_text_head. apply (utf8_text_split _ E a LF b); [reflexivity|reflexivity].
Qed.
Lemma document_range text d r : XmlDocument text d -> points_into d r -> exists src, cut text r src
  /\ exists e, within d e /\ (r = xe_range e /\ element_source (fst r) e src \/ exists a, In a (xe_attrs e) /\ r = at_range a /\ attribute_source a src).
Proof.
  intros D (e & W & [->|(a & I & ->)]).
  - destruct (element_cut _ _ _ D W) as (src & C & E). exists src. split; [exact C|]. exists e. auto.
  - destruct (attr_place _ _ _ _ D W I) as (src & C & E & _). exists src. split; [exact C|]. exists e. eauto 7.
Qed.
Lemma files_ranges k : text_files k -> ranges_sound k.
Proof.
  intros [_ R] text d r E P. rewrite R in E. apply parse_document in E. destruct (document_range _ _ _ E P) as (src & C & e & W & [[_ K]|(a & _ & _ & K)]).
  - apply (cut_between _ _ _ C). intros b. destruct (element_source_head _ _ _ K) as [q ->]. reflexivity.
  - apply (cut_between _ _ _ C). intros b. destruct K as (n & p & eq & q & -> & Q & _). rewrite app_s_assoc. eapply qname_start, Q.
Qed.
Lemma document_xml_names text d : XmlDocument text d -> xml_names d.
Proof.
  intros D e W. destruct (element_place _ _ _ D W) as (a & src & b & sc & ps & _ & P & E & _).
  destruct (element_names _ _ _ _ _ E P) as (N1 & N2 & _). split; [now apply ncname_like|]. intros x I. rewrite Forall_forall in N2. apply ncname_like. auto.
Qed.
Lemma files_once k : text_files k -> files_bind_once (fs_of k).
Proof.
  intros [_ R] p d E. unfold fs_of in E. cbn in E. destruct (dk_text k p) as [text|]; [|discriminate]. injection E as E. rewrite R in E.
  apply parse_document in E. exact (proj1 (document_scope _ _ _ E (wi_root d))).
Qed.

(** ** Texts without references by number *)
Definition without (c : ascii) (s : string) : Prop := ~ In c (list_ascii_of_string s).
Lemma list_app a b : list_ascii_of_string (a +++ b) = (list_ascii_of_string a ++ list_ascii_of_string b)%list.
Proof. induction a as [|y u IH]; cbn; [reflexivity|]. now rewrite IH. Qed.
Lemma without_app c a b : without c a -> without c b -> without c (a +++ b).
Proof. unfold without. rewrite list_app, in_app_iff. tauto. Qed.
Lemma without_cons c d s : c <> d -> without c s -> without c (String d s).
Proof. intros N W [E|I]; [congruence|auto]. Qed.
Lemma occurs_tail c r : ~ occurs "&#" (String c r) -> ~ occurs "&#" r.
Proof. intros H (a & b & ->). apply H. exists (String c a), b. reflexivity. Qed.
Lemma occurs_part a m b : ~ occurs "&#" (a +++ m +++ b) -> ~ occurs "&#" m.
Proof. intros H (x & y & ->). apply H. exists (a +++ x), (y +++ b). now rewrite !app_s_assoc. Qed.
Lemma occurs_right a b : ~ occurs "&#" (a +++ b) -> ~ occurs "&#" b.
Proof. intros H. apply (occurs_part a b ""). now rewrite app_s_nil_r. Qed.
Lemma occurs_left a b : ~ occurs "&#" (a +++ b) -> ~ occurs "&#" a.
Proof. intros H. exact (occurs_part "" a b H). Qed.
Lemma named_reference t u c : Reference t u -> ~ occurs "&#" t -> N_of_ascii c < 32 -> without c u.
Proof.
  intros R N C. destruct R as [s n u _ _ _|s n u _ _ _| | | | |].
  1: destruct N; exists "", (s +++ ";"); reflexivity.
  1: destruct N; exists "", ("x" +++ s +++ ";"); reflexivity.
  all: intros [<-|[]]; cbn in C; lia.
Qed.
Lemma chardata_cr raw v : CharData raw v -> ~ occurs "&#" raw -> without CR v.
Proof.
  induction 1 as [|c r v N D IH|r v N D IH|r v D IH|t u r v R D IH]; intros O.
  - intros [].
  - apply without_cons; [intros <-; apply N; now left|]. eapply IH, occurs_tail, O.
  - apply without_cons; [discriminate|]. eapply IH, occurs_tail, O.
  - apply without_cons; [discriminate|]. eapply IH, occurs_tail, occurs_tail, O.
  - apply without_app; [|eapply IH, occurs_right, O]. apply (named_reference _ _ _ R); [eapply occurs_left, O|reflexivity].
Qed.
Lemma cdata_cr raw v : CData raw v -> without CR v.
Proof.
  induction 1 as [|c r v N D IH|r v N D IH|r v D IH].
  - intros [].
  - apply without_cons; [congruence|exact IH].
  - apply without_cons; [discriminate|exact IH].
  - apply without_cons; [discriminate|exact IH].
Qed.
Lemma attcontent_tab q raw v : AttContent q raw v -> ~ occurs "&#" raw -> without "009" v.
Proof.
  induction 1 as [|c r v N N' D IH|c r v Sp N D IH|r v N D IH|r v D IH|t u r v R D IH]; intros O.
  - intros [].
  - apply without_cons; [intros <-; apply N; right; now left|]. eapply IH, occurs_tail, O.
  - apply without_cons; [discriminate|]. eapply IH, occurs_tail, O.
  - apply without_cons; [discriminate|]. eapply IH, occurs_tail, O.
  - apply without_cons; [discriminate|]. eapply IH, occurs_tail, occurs_tail, O.
  - apply without_app; [|eapply IH, occurs_right, O]. apply (named_reference _ _ _ R); [eapply occurs_left, O|reflexivity].
Qed.
Definition piece_plain := piece_good (without CR) (fun _ => True) (without "009").
Lemma attributes_tab pos s l a b : attributes pos s l -> ~ occurs "&#" (a +++ s +++ b) -> Forall (fun x => without "009" (x_value x)) l.
Proof.
  intros A V. apply Forall_forall. intros x I. destruct (attributes_In _ _ _ _ A I) as (u & n & e & q & r & -> & _ & _ & _ & Q).
  destruct Q as (c & raw & _ & -> & C). apply (attcontent_tab _ _ _ C).
  apply (occurs_part (a +++ u +++ n +++ e +++ String c "") raw (String c "" +++ r +++ b)). intros K. apply V.
  rewrite !app_s_assoc in *. cbn [append] in *. rewrite !app_s_assoc in *. exact K.
Qed.
Lemma piece_pp pos t p : piece pos t p -> ~ occurs "&#" t -> forall e, piece_plain (pos, p, e).
Proof.
  intros P V e. unfold piece_plain, piece_good. cbn [fst snd].
  destruct P as [n name ats l w Q A W|n name ats l w Q A W|n name w Q W|raw v N D O|b v D O|b O|u b N X B O]; try exact I.
  - apply (attributes_tab _ _ _ ("<" +++ n) (w +++ ">") A). rewrite !app_s_assoc. exact V.
  - apply (attributes_tab _ _ _ ("<" +++ n) (w +++ "/>") A). rewrite !app_s_assoc. exact V.
  - exact (chardata_cr _ _ D V).
  - exact (cdata_cr _ _ D).
Qed.
Lemma pieces_plain pos s ps : pieces pos s ps -> ~ occurs "&#" s -> Forall piece_plain ps.
Proof.
  induction 1 as [|pos t p s l P A R IH]; intros V; [constructor|].
  constructor; [apply (piece_pp pos t p P); eapply occurs_left, V|]. apply IH. eapply occurs_right, V.
Qed.
Lemma document_plain text d e : XmlDocument text d -> ~ occurs "&#" text -> within d e ->
  values_good (without CR) (fun _ => True) (without "009") e.
Proof.
  intros D N W. destruct (document_pieces _ _ D) as (head & body & before & ps & aft & -> & P & E).
  apply (within_good (without CR) (fun _ => True) (without "009") (without_app CR) ps d e E); [|exact W].
  apply occurs_right in N. apply (pieces_plain _ _ _ P) in N. rewrite !Forall_app in N. tauto.
Qed.
