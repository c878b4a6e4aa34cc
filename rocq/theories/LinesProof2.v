(** * LinesProof2: the grammar of XML and line ends (C79) *)
From Coq Require Import Lia.
From Verif Require Import Base Libs Xml XmlRead ParseSpec Macro XmlGrammar XmlProof GrammarProof1 GrammarProof2 GrammarProof3 GrammarProof4 GrammarProof5 PlaceSpec PlaceProof ForeignSpec LinesSpec LinesProof.
Local Open Scope N_scope.

(** ** Values, text, sections *)
Lemma space_plain c : ~ Space c -> c <> CR /\ c <> LF.
Proof. intros H. split; intros ->; apply H; unfold Space; simpl; auto 10. Qed.
Lemma att_end q s r v : line_end s r -> AttContent q r v -> AttContent q s (String " " v).
Proof. destruct 1 as [r|r N|r]; intros H; [apply a_space; [unfold Space; simpl; auto 10|discriminate|exact H]|now apply a_cr|now apply a_crlf]. Qed.
Lemma att_lines q s v : AttContent q s v -> forall t, same_lines s t -> AttContent q t v.
Proof.
  assert (E : forall s r v t, line_end s r -> (forall t, same_lines r t -> AttContent q t v) -> same_lines s t -> AttContent q t (String " " v)).
  { intros s' r v' t L IH H. destruct (end_split _ _ _ L H) as (t' & L' & K). exact (att_end _ _ _ _ L' (IH _ K)). }
  induction 1 as [|c r v Ns Nq H IH|c r v Sp Nc H IH|r v Nl H IH|r v H IH|x u r v R H IH]; intros t S.
  - apply same_nil in S. subst. constructor.
  - destruct (space_plain _ Ns) as [N1 N2]. destruct (char_split _ _ _ N1 N2 S) as (t' & -> & K). apply a_char; auto.
  - destruct (Ascii.eqb_spec c LF) as [->|N2].
    + apply (E (String LF r) r); [constructor|exact IH|exact S].
    + destruct (char_split _ _ _ Nc N2 S) as (t' & -> & K). apply a_space; auto.
  - apply (E (String CR r) r); [now constructor|exact IH|exact S].
  - apply (E (String CR (String LF r)) r); [now constructor|exact IH|exact S].
  - destruct (plain_split _ _ _ (reference_plain _ _ R) S) as (t' & -> & K). apply a_ref; auto.
Qed.
Lemma data_lines s v : CharData s v -> forall t, same_lines s t -> CharData t v.
Proof.
  assert (E : forall s r v t, line_end s r -> (forall t, same_lines r t -> CharData t v) -> same_lines s t -> CharData t (String LF v)).
  { intros s' r v' t L IH H. destruct (end_split _ _ _ L H) as (t' & L' & K). apply IH in K.
    destruct L' as [x|x N|x]; [apply d_char; [simpl; intuition discriminate|exact K]|now apply d_cr|now apply d_crlf]. }
  induction 1 as [|c r v Nq H IH|r v Nl H IH|r v H IH|x u r v R H IH]; intros t S.
  - apply same_nil in S. subst. constructor.
  - destruct (Ascii.eqb_spec c LF) as [->|N2].
    + apply (E (String LF r) r); [constructor|exact IH|exact S].
    + assert (N1 : c <> CR) by (intros ->; apply Nq; now left). destruct (char_split _ _ _ N1 N2 S) as (t' & -> & K). apply d_char; auto.
  - apply (E (String CR r) r); [now constructor|exact IH|exact S].
  - apply (E (String CR (String LF r)) r); [now constructor|exact IH|exact S].
  - destruct (plain_split _ _ _ (reference_plain _ _ R) S) as (t' & -> & K). apply d_ref; auto.
Qed.
Lemma cdata_lines_iff s v : CData s v <-> lines s v.
Proof. split; (induction 1; [constructor|now constructor|now constructor|now constructor]). Qed.
Lemma cdata_lines s v t : CData s v -> same_lines s t -> CData t v.
Proof. rewrite !cdata_lines_iff. intros H (u & A & B). now rewrite (lines_fun _ _ _ H A). Qed.
Lemma occurs_lines p c r s t : p = String c r -> c <> LF -> plain p -> ~ occurs p s -> same_lines s t -> ~ occurs p t.
Proof.
  intros E N P H S (a & b & ->). apply H. apply same_sym in S. destruct (split_lines a (p +++ b) s S) as (a' & b' & -> & _ & B & _).
  - rewrite E. cbn [append]. now apply head_safe.
  - destruct (plain_split _ _ _ P B) as (b2 & -> & _). now exists a', b2.
Qed.
Lemma eq_lines e t : EqSign e -> same_lines e t -> EqSign t.
Proof.
  intros (a & b & A & B & ->) S. destruct (split_lines a ("=" +++ b) t S) as (a' & b' & -> & A' & B' & _); [now apply head_safe|].
  destruct (plain_split "=" b b') as (b2 & -> & C); [plains|exact B'|]. exists a', b2. split; [now apply (spaces_lines a)|]. split; [now apply (spaces_lines b)|reflexivity].
Qed.
Lemma quote_plain q : In q ["'"; """"]%char -> plain (String q "").
Proof. intros [<-|[<-|[]]]; plains. Qed.
Lemma quote_lf q : In q ["'"; """"]%char -> q <> LF.
Proof. intros [<-|[<-|[]]]; discriminate. Qed.
Lemma value_lines s v t : AttValue s v -> same_lines s t -> AttValue t v.
Proof.
  intros (q & raw & I & -> & A) S. destruct (plain_split _ _ _ (quote_plain q I) S) as (t1 & -> & S1).
  destruct (split_lines _ _ _ S1 (head_safe _ _ _ (quote_lf q I))) as (r' & b' & -> & R & B & _).
  apply (plain_same _ _ (quote_plain q I)) in B. subst. exists q, r'. repeat split; [exact I|]. now apply (att_lines q raw v A).
Qed.
Lemma value_ends s v : AttValue s v -> ~ ends s.
Proof.
  intros (q & raw & I & -> & _) E. apply (app_ends (String q raw)) in E; [|discriminate]. exact (plain_ends _ (quote_plain q I) E).
Qed.
Lemma value_head s v r : AttValue s v -> exists c x, s +++ r = String c x /\ c <> LF.
Proof. intros (q & raw & I & -> & _). eexists q, _. split; [reflexivity|now apply quote_lf]. Qed.
Lemma plain_head p r : plain p -> p <> "" -> exists c x, p +++ r = String c x /\ c <> LF.
Proof. intros P N. destruct p as [|c p]; [easy|]. inversion P; subst. exists c, (p +++ r). split; [reflexivity|tauto]. Qed.
Lemma head_of a b : (exists c x, b = String c x /\ c <> LF) -> safe a b.
Proof. intros (c & x & -> & N). now apply head_safe. Qed.
Lemma qname_ne s n : QName s n -> s <> "".
Proof. intros Q. destruct (qname_head _ _ Q) as (c & r & -> & _). discriminate. Qed.
Lemma eq_head e r : EqSign e -> forall p, plain p -> p <> "" -> safe p (e +++ r).
Proof. intros _ p P _. now apply plain_safe. Qed.

(** ** What is before and behind a position *)
Definition apart (a b a' b' : string) : Prop := same_lines a a' /\ same_lines b b' /\ safe a b /\ safe a' b'.
Lemma apart_step pre a s pre' t : apart pre (a +++ s) pre' t -> safe a s ->
  exists a' s', t = a' +++ s' /\ same_lines a a' /\ apart (pre +++ a) s (pre' +++ a') s'.
Proof.
  intros (A & B & S & S') X. destruct (split_lines _ _ _ B X) as (a' & s' & -> & Ha & Hs & X'). exists a', s'. split; [reflexivity|]. split; [exact Ha|].
  assert (Y : safe pre a) by (intros [E L]; apply S; split; [exact E|now apply lf_app]).
  assert (Y' : safe pre' a') by (intros [E L]; apply S'; split; [exact E|now apply lf_app]).
  repeat split; [now apply join_lines|exact Hs|now apply safe_app|now apply safe_app].
Qed.
Lemma apart_plain pre p s pre' t : apart pre (p +++ s) pre' t -> plain p -> exists s', t = p +++ s' /\ apart (pre +++ p) s (pre' +++ p) s'.
Proof.
  intros A P. destruct (apart_step _ _ _ _ _ A (plain_safe _ _ P)) as (p' & s' & -> & E & B). apply (plain_same _ _ P) in E. subst p'. eauto.
Qed.
Lemma apart_corr a b a' b' : apart a b a' b' -> corresponds (a +++ b) (a' +++ b') (len a) (len a').
Proof. intros (A & B & _). exists a, b, a', b'. auto 10. Qed.
Definition after (text text' : string) (p p' : N) : Prop :=
  exists a b a' b', text = a +++ b /\ text' = a' +++ b' /\ len a = p /\ len a' = p' /\ apart a b a' b'.
Lemma apart_after a b a' b' : apart a b a' b' -> after (a +++ b) (a' +++ b') (len a) (len a').
Proof. intros A. exists a, b, a', b'. auto 10. Qed.
Lemma len_app a b : len (a +++ b) = len a + len b.
Proof. unfold len. rewrite length_app_s. lia. Qed.
Lemma after_at T T' a b a' b' p p' : apart a b a' b' -> T = a +++ b -> T' = a' +++ b' -> p = len a -> p' = len a' -> after T T' p p'.
Proof. intros A -> -> -> ->. now apply apart_after. Qed.

(** ** Pieces *)
Section Text.
Variables T T' : string.
Notation P := (after T T').
Definition xrel (a b : xatt) : Prop := x_name b = x_name a /\ x_value b = x_value a /\ related P (x_range a) (x_range b).
Inductive prel : xpiece -> xpiece -> Prop :=
| pr_open n l l' e : Forall2 xrel l l' -> prel (POpen n l e) (POpen n l' e)
| pr_close n : prel (PClose n) (PClose n)
| pr_text raw raw' s : (spaces raw -> spaces raw') -> prel (PText raw s) (PText raw' s)
| pr_cdata s : prel (PCData s) (PCData s)
| pr_other s s' : prel (POther s) (POther s').
Definition trel (x y : N * xpiece * N) : Prop := P (fst (fst x)) (fst (fst y)) /\ prel (snd (fst x)) (snd (fst y)) /\ P (snd x) (snd y).

Lemma attributes_ends pos s l : attributes pos s l -> ~ ends s.
Proof.
  induction 1 as [pos|pos w n name e q v r l W Wn Q E A H IH].
  - intros [x K]. destruct x; discriminate.
  - intros K. destruct r as [|c r].
    + rewrite app_s_nil_r, <- !app_s_assoc in K. apply app_ends in K; [|destruct A as (y & raw & _ & -> & _); discriminate]. now apply value_ends in A.
    + apply IH. rewrite <- !app_s_assoc in K. apply app_ends in K; [exact K|discriminate].
Qed.
Lemma attributes_lines pos s l : attributes pos s l -> forall pre post pre' t,
  apart pre (s +++ post) pre' t -> T = pre +++ s +++ post -> T' = pre' +++ t -> len pre = pos ->
  exists s' post' l', t = s' +++ post' /\ attributes (len pre') s' l' /\ Forall2 xrel l l' /\ apart (pre +++ s) post (pre' +++ s') post'.
Proof.
  induction 1 as [pos|pos w n name e q v r l W Wn Q E A H IH]; intros pre post pre' t Ap Et Et' Lp.
  - exists "", t, []. rewrite !app_s_nil_r. repeat split; try constructor; apply Ap.
  - rewrite !app_s_assoc in Ap. pose proof (qname_plain _ _ Q) as Pn.
    destruct (apart_step _ _ _ _ _ Ap) as (w' & t1 & -> & Ww & A1); [apply head_of, plain_head; [exact Pn|now apply (qname_ne n name)]|].
    destruct (apart_plain _ _ _ _ _ A1 Pn) as (t2 & -> & A2).
    destruct (apart_step _ _ _ _ _ A2) as (e' & t3 & -> & Ee & A3); [apply head_of; now apply (value_head q v)|].
    destruct (apart_step _ _ _ _ _ A3) as (q' & t4 & -> & Eq & A4); [intros [Z _]; now apply (value_ends q v)|].
    assert (L4 : len ((((pre +++ w) +++ n) +++ e) +++ q) = pos + len w + len n + len e + len q) by (rewrite !len_app; lia).
    assert (L4' : len ((((pre' +++ w') +++ n) +++ e') +++ q') = len pre' + len w' + len n + len e' + len q') by (rewrite !len_app; lia).
    destruct (IH _ post _ t4 A4) as (s' & post' & l' & -> & B1 & B2 & B3); [rewrite Et, !app_s_assoc; reflexivity|rewrite Et', !app_s_assoc; reflexivity|exact L4|].
    exists (w' +++ n +++ e' +++ q' +++ s'), post', (mkXatt name v (len pre' + len w', len pre' + len w' + len n + len e' + len q') :: l').
    split; [now rewrite !app_s_assoc|]. split; [|split].
    + apply as_cons; [now apply (spaces_lines w)|now apply (same_ne w)|exact Q|now apply (eq_lines e)|now apply (value_lines q)|]. now rewrite <- L4'.
    + constructor; [|exact B2]. split; [reflexivity|]. split; [reflexivity|]. split; cbn.
      * apply (after_at _ _ _ _ _ _ _ _ A1); [rewrite Et, !app_s_assoc; reflexivity|rewrite Et', !app_s_assoc; reflexivity|rewrite len_app; lia|rewrite len_app; lia].
      * apply (after_at _ _ _ _ _ _ _ _ A4); [rewrite Et, !app_s_assoc; reflexivity|rewrite Et', !app_s_assoc; reflexivity|lia|lia].
    + rewrite !app_s_assoc in B3. rewrite ?app_s_assoc. exact B3.
Qed.
Lemma piece_lines pre t p s pre' u : piece (len pre) t p -> apart pre (t +++ s) pre' u -> safe t s -> T = pre +++ t +++ s -> T' = pre' +++ u ->
  exists t' s' p', u = t' +++ s' /\ piece (len pre') t' p' /\ prel p p' /\ apart (pre +++ t) s (pre' +++ t') s'.
Proof.
  intros Pi Ap Sf Et Et'.
  assert (Tg : forall n name ats l w c, QName n name -> attributes (len pre + 1 + len n) ats l -> spaces w -> plain c -> c <> "" -> t = "<" +++ n +++ ats +++ w +++ c ->
    exists t' s' l' ats' w', u = t' +++ s' /\ t' = "<" +++ n +++ ats' +++ w' +++ c /\ attributes (len pre' + 1 + len n) ats' l' /\ spaces w' /\ Forall2 xrel l l' /\ apart (pre +++ t) s (pre' +++ t') s').
  { intros n name ats l w c Q A W Pc Nc ->. rewrite !app_s_assoc in Ap. pose proof (qname_plain _ _ Q) as Pn.
    destruct (apart_plain _ "<" _ _ _ Ap) as (u1 & -> & A1); [plains|]. destruct (apart_plain _ _ _ _ _ A1 Pn) as (u2 & -> & A2).
    destruct (attributes_lines _ _ _ A _ _ _ _ A2) as (ats' & u3 & l' & -> & B1 & B2 & A3); [rewrite Et, !app_s_assoc; reflexivity|rewrite Et', !app_s_assoc; reflexivity|rewrite !len_app; reflexivity|].
    destruct (apart_step _ _ _ _ _ A3) as (w' & u4 & -> & Ww & A4); [now apply head_of, plain_head|].
    destruct (apart_plain _ _ _ _ _ A4 Pc) as (u5 & -> & A5).
    exists ("<" +++ n +++ ats' +++ w' +++ c), u5, l', ats', w'. split; [now rewrite !app_s_assoc|]. split; [reflexivity|]. split; [|split; [now apply (spaces_lines w)|split; [exact B2|]]].
    - rewrite !len_app in B1. exact B1.
    - rewrite !app_s_assoc in A5. rewrite ?app_s_assoc. exact A5. }
  destruct Pi as [n name ats l w Q A W|n name ats l w Q A W|n name w Q W|raw v Nr D No|b v D No|b No|x b N Nx Nb No].
  - destruct (Tg n name ats l w ">") as (t' & s' & l' & ats' & w' & -> & -> & B1 & B2 & B3 & B4); auto; [plains|discriminate|].
    exists ("<" +++ n +++ ats' +++ w' +++ ">"), s', (POpen name l' false). split; [reflexivity|]. split; [now apply p_start|]. split; [now constructor|exact B4].
  - destruct (Tg n name ats l w "/>") as (t' & s' & l' & ats' & w' & -> & -> & B1 & B2 & B3 & B4); auto; [plains|discriminate|].
    exists ("<" +++ n +++ ats' +++ w' +++ "/>"), s', (POpen name l' true). split; [reflexivity|]. split; [now apply p_empty|]. split; [now constructor|exact B4].
  - destruct (apart_step _ _ _ _ _ Ap Sf) as (t' & s' & -> & St & A1). exists t', s', (PClose name). split; [reflexivity|]. split; [|split; [constructor|exact A1]].
    destruct (plain_split "</" _ _ ltac:(plains) St) as (t1 & -> & S1). destruct (plain_split _ _ _ (qname_plain _ _ Q) S1) as (t2 & -> & S2).
    destruct (split_lines _ _ _ S2) as (w' & c & -> & Sw & Sc & _); [now apply head_safe|]. apply plain_same in Sc; [|plains]. subst c. apply p_end; [exact Q|now apply (spaces_lines w)].
  - destruct (apart_step _ _ _ _ _ Ap Sf) as (t' & s' & -> & St & A1). exists t', s', (PText t' v). split; [reflexivity|]. split; [|split; [|exact A1]].
    + apply p_text; [now apply (same_ne raw)|now apply (data_lines raw)|]. now apply (occurs_lines "]]>" "]" "]>" raw); [|discriminate|plains| |].
    + constructor. intros Sp. now apply (spaces_lines raw).
  - destruct (apart_step _ _ _ _ _ Ap Sf) as (t' & s' & -> & St & A1). exists t', s', (PCData v). split; [reflexivity|]. split; [|split; [constructor|exact A1]].
    destruct (plain_split "<![CDATA[" _ _ ltac:(plains) St) as (t1 & -> & S1). destruct (split_lines _ _ _ S1) as (b' & c & -> & Sb & Sc & _); [now apply head_safe|].
    apply plain_same in Sc; [|plains]. subst c. apply p_cdata; [now apply (cdata_lines b)|]. now apply (occurs_lines "]]>" "]" "]>" b); [|discriminate|plains| |].
  - destruct (apart_step _ _ _ _ _ Ap Sf) as (t' & s' & -> & St & A1).
    destruct (plain_split "<!--" _ _ ltac:(plains) St) as (t1 & -> & S1). destruct (split_lines _ _ _ S1) as (b' & c & -> & Sb & Sc & X); [now apply head_safe|].
    apply plain_same in Sc; [|plains]. subst c. exists ("<!--" +++ b' +++ "-->"), s', (POther b'). split; [reflexivity|]. split; [|split; [constructor|exact A1]].
    apply p_comment. apply (occurs_lines "--" "-" "-" (b +++ "-")); [reflexivity|discriminate|plains|exact No|]. apply join_lines; [exact Sb|apply same_plain; plains|now apply head_safe|now apply head_safe].
  - destruct (apart_step _ _ _ _ _ Ap Sf) as (t' & s' & -> & St & A1). pose proof (ncname_plain _ N) as Pn.
    destruct (plain_split "<?" _ _ ltac:(plains) St) as (t1 & -> & S1). destruct (plain_split _ _ _ Pn S1) as (t2 & -> & S2).
    destruct (split_lines _ _ _ S2) as (b' & c & -> & Sb & Sc & X); [now apply head_safe|]. apply plain_same in Sc; [|plains]. subst c.
    exists ("<?" +++ x +++ b' +++ "?>"), s', (POther (x +++ b')). split; [reflexivity|]. split; [|split; [constructor|exact A1]].
    apply p_pi; [exact N|exact Nx| |now apply (occurs_lines "?>" "?" ">" b); [|discriminate|plains| |]].
    destruct Nb as [->|(c & r & -> & Sp)]; [left; now apply same_nil|]. right. destruct b' as [|d r']; [apply same_sym, same_nil in Sb; discriminate|]. exists d, r'. split; [reflexivity|].
    destruct (Ascii.eqb_spec d CR) as [->|N1]; [unfold Space; simpl; auto|]. destruct (Ascii.eqb_spec d LF) as [->|N2]; [unfold Space; simpl; auto 10|].
    apply same_sym, char_split in Sb; [|assumption|assumption]. destruct Sb as (z & Ez & _). injection Ez as -> _. exact Sp.
Qed.
Lemma piece_ends pos t p : piece pos t p -> ends t -> exists raw v, p = PText raw v.
Proof.
  assert (X : forall a c, plain c -> c <> "" -> ends (a +++ c) -> False) by (intros a c Pc N E; apply app_ends in E; [now apply (plain_ends c)|exact N]).
  destruct 1; intros E; try (eexists; eexists; reflexivity); exfalso.
  - apply (X ("<" +++ n +++ ats +++ w) ">"); [plains|discriminate|now rewrite !app_s_assoc].
  - apply (X ("<" +++ n +++ ats +++ w) "/>"); [plains|discriminate|now rewrite !app_s_assoc].
  - apply (X ("</" +++ n +++ w) ">"); [plains|discriminate|now rewrite !app_s_assoc].
  - apply (X ("<![CDATA[" +++ b) "]]>"); [plains|discriminate|now rewrite !app_s_assoc].
  - apply (X ("<!--" +++ b) "-->"); [plains|discriminate|now rewrite !app_s_assoc].
  - apply (X ("<?" +++ t +++ b) "?>"); [plains|discriminate|now rewrite !app_s_assoc].
Qed.
Lemma pieces_head pos s l : pieces pos s l -> ~ at_text l -> ~ is_lf s.
Proof.
  destruct 1 as [pos|pos t p s l Pi _ _]; intros N [r H]; [discriminate|].
  destruct Pi; try (cbn [append] in H; discriminate). apply N. unfold at_text. eauto 10.
Qed.
Lemma pieces_lines pos s l : pieces pos s l -> forall pre pre' u, apart pre s pre' u -> T = pre +++ s -> T' = pre' +++ u -> len pre = pos ->
  exists l', pieces (len pre') u l' /\ Forall2 trel l l'.
Proof.
  induction 1 as [pos|pos t p s l Pi Nt H IH]; intros pre pre' u Ap Et Et' Lp.
  - destruct Ap as (_ & Ap & _). apply same_nil in Ap. subst u. exists []. split; constructor.
  - subst pos. assert (Sf : safe t s).
    { intros [E I]. destruct (piece_ends _ _ _ Pi E) as (raw & v & ->). exact (pieces_head _ _ _ H (Nt _ _ eq_refl) I). }
    destruct (piece_lines _ _ _ _ _ _ Pi Ap Sf Et Et') as (t' & s' & p' & -> & Pi' & R & A1).
    destruct (IH _ _ _ A1) as (l' & Ps & F); [now rewrite app_s_assoc|now rewrite app_s_assoc|now rewrite len_app|].
    exists ((len pre', p', len pre' + len t') :: l'). split.
    + apply ps_cons; [exact Pi'| |now rewrite <- len_app]. intros raw v ->. inversion R as [| |raw0 ? ? _| |]; subst. intros (b & r' & v' & e & m & ->). apply (Nt _ _ eq_refl).
      inversion F as [|[[b0 q] e0] ? m0 ? Rq _]; subst. destruct Rq as (_ & Rq & _). cbn in Rq. inversion Rq; subst. unfold at_text. eauto 10.
    + constructor; [|exact F]. split; [|split; [exact R|]]; cbn.
      * apply (after_at _ _ _ _ _ _ _ _ Ap); auto.
      * apply (after_at _ _ _ _ _ _ _ _ A1); [rewrite Et; now rewrite app_s_assoc|rewrite Et'; now rewrite app_s_assoc|now rewrite len_app|now rewrite len_app].
Qed.
End Text.
