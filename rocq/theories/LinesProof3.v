(** * LinesProof3: trees and documents that differ in line ends (C79) *)
From Coq Require Import Lia.
From Verif Require Import Base Libs Xml XmlRead ParseSpec Macro XmlGrammar XmlProof GrammarProof1 GrammarProof2 GrammarProof3 GrammarProof4 GrammarProof5 PlaceSpec PlaceProof ForeignSpec LinesSpec LinesProof LinesProof2.
Local Open Scope N_scope.

Section Text.
Variables T T' : string.
Notation P := (after T T').
Notation trel := (trel T T').
Notation xrel := (xrel T T').

Lemma sorted_lines l d o : sorted l d o -> forall l', Forall2 xrel l l' -> exists o', sorted l' d o' /\ Forall2 xrel o o'.
Proof.
  induction 1 as [|v rng l d o H IH|p v rng l d o H IH|p n v rng l d o N1 N2 H IH]; intros l' F; inversion F as [|a b r r' R F']; subst.
  - exists []. split; constructor.
  - destruct b as [bn bv br]. destruct R as (E1 & E2 & E3). cbn in E1, E2, E3. subst. destruct (IH _ F') as (o' & S & Fo). exists o'. split; [now constructor|exact Fo].
  - destruct b as [bn bv br]. destruct R as (E1 & E2 & E3). cbn in E1, E2, E3. subst. destruct (IH _ F') as (o' & S & Fo). exists o'. split; [now constructor|exact Fo].
  - pose proof R as R0. destruct b as [bn bv br]. destruct R as (E1 & E2 & E3). cbn in E1, E2, E3. subst. destruct (IH _ F') as (o' & S & Fo). exists (mkXatt (p, n) v br :: o'). split; [now constructor|now constructor].
Qed.
Definition arel (a b : attr) : Prop := same_attr a b /\ related P (at_range a) (at_range b).
Lemma attributes_of_lines sc o ats : Forall2 (attribute_of sc) o ats -> forall o', Forall2 xrel o o' -> exists ats', Forall2 (attribute_of sc) o' ats' /\ Forall2 arel ats ats'.
Proof.
  induction 1 as [|a b o ats (A1 & A2 & A3 & A4) H IH]; intros o' F; inversion F as [|? a' ? o2 (E1 & E2 & E3) F']; subst; [exists []; split; constructor|].
  destruct (IH _ F') as (ats' & G1 & G2). exists (mkAttr (at_name b) (at_ns b) (at_value b) (x_range a') :: ats'). split.
  - constructor; [|exact G1]. unfold attribute_of. cbn. rewrite E1, E2. auto.
  - constructor; [|exact G2]. split; [repeat split|]. cbn. now rewrite A4.
Qed.
Lemma arel_names l l' : Forall2 arel l l' -> map (fun b => (at_name b, at_ns b)) l' = map (fun b => (at_name b, at_ns b)) l.
Proof. induction 1 as [|a b l l' ((E1 & E2 & _) & _) H IH]; [reflexivity|]. cbn. now rewrite E1, E2, IH. Qed.
Lemma tag_lines sc n l l' sc' ns ats : tag sc n l sc' ns ats -> Forall2 xrel l l' -> exists ats', tag sc n l' sc' ns ats' /\ Forall2 arel ats ats'.
Proof.
  intros (d & o & S & N & B & E & Ns & A & Na) F. destruct (sorted_lines _ _ _ S _ F) as (o' & S' & Fo). destruct (attributes_of_lines _ _ _ A _ Fo) as (ats' & A' & R).
  exists ats'. split; [|exact R]. exists d, o'. rewrite (arel_names _ _ R). auto 10.
Qed.

Lemma join_alike l l' : alike_kids P l l' -> alike_kids P (join l) (join l').
Proof.
  induction 1 as [|e e' ks ks' H K IH|s ks ks' K IH|s s' ks ks' K IH]; cbn [join]; [constructor|now constructor| |now constructor].
  destruct IH as [|x x' m m' X M|t m m' M|t t' m m' M]; try (destruct s; repeat constructor; assumption); constructor; assumption.
Qed.
Lemma Forall2_app_l {A B} (R : A -> B -> Prop) a b m : Forall2 R (a ++ b) m -> exists x y, m = (x ++ y)%list /\ Forall2 R a x /\ Forall2 R b y.
Proof. intros H. apply Forall2_app_inv_l in H. destruct H as (x & y & X & Y & ->). eauto. Qed.
Lemma element_lines : forall sc l x, element sc l x -> forall l', Forall2 trel l l' -> exists x', element sc l' x' /\ alike P x x'.
Proof.
  fix IH 4. intros sc l x H.
  assert (C : forall sc ps ks, content sc ps ks -> forall l', Forall2 trel ps l' -> exists ks', content sc l' ks' /\ alike_kids P ks ks').
  { fix IHc 4. intros sc0 ps ks K. destruct K as [|b raw s e ps ks K|b s e ps ks K|b s e ps ks K|ps y qs ks E K]; intros l' F.
    - inversion F; subst. exists []. split; constructor.
    - inversion F as [|? q ? m R F']; subst. destruct (IHc _ _ _ K _ F') as (ks' & K' & A). destruct q as [[b' p] e']. destruct R as (_ & R & _). cbn in R. inversion R; subst.
      exists (KText s :: ks'). split; now constructor.
    - inversion F as [|? q ? m R F']; subst. destruct (IHc _ _ _ K _ F') as (ks' & K' & A). destruct q as [[b' p] e']. destruct R as (_ & R & _). cbn in R. inversion R; subst.
      exists (KText s :: ks'). split; now constructor.
    - inversion F as [|? q ? m R F']; subst. destruct (IHc _ _ _ K _ F') as (ks' & K' & A). destruct q as [[b' p] e']. destruct R as (_ & R & _). cbn in R. inversion R; subst.
      exists (KOther s' :: ks'). split; now constructor.
    - destruct (Forall2_app_l _ _ _ _ F) as (x1 & x2 & -> & F1 & F2). destruct (IH _ _ _ E _ F1) as (y' & E' & Ay). destruct (IHc _ _ _ K _ F2) as (ks' & K' & A).
      exists (KElem y' :: ks'). split; now constructor. }
  destruct H as [b n al e sc' ns ats Tg|b n al e sc' ns ats ps ks b' e' Tg K]; intros l' F.
  - inversion F as [|? q ? m R F']; subst. inversion F'; subst. destruct q as [[qb p] qe]. destruct R as (R1 & R2 & R3). cbn in R1, R2, R3. inversion R2 as [? ? l2 ? Rl| | | |]; subst.
    destruct (tag_lines _ _ _ _ _ _ _ Tg Rl) as (ats' & Tg' & Ra). eexists. split; [apply el_empty; eassumption|]. constructor; [exact Ra|split; assumption|constructor].
  - inversion F as [|? q ? m R F']; subst. destruct q as [[qb p] qe]. destruct R as (R1 & R2 & R3). cbn in R1, R2, R3. inversion R2 as [? ? l2 ? Rl| | | |]; subst.
    destruct (Forall2_app_l _ _ _ _ F') as (x1 & x2 & -> & F1 & F2). inversion F2 as [|? q2 ? m2 Rq F3]; subst. inversion F3; subst. destruct q2 as [[cb cp] ce]. destruct Rq as (C1 & C2 & C3). cbn in C1, C2, C3. inversion C2; subst.
    destruct (tag_lines _ _ _ _ _ _ _ Tg Rl) as (ats' & Tg' & Ra). destruct (C _ _ _ K _ F1) as (ks' & K' & A).
    eexists. split; [apply el_full; eassumption|]. constructor; [exact Ra|split; assumption|now apply join_alike].
Qed.
Lemma misc_lines l l' : Forall Misc l -> Forall2 trel l l' -> Forall Misc l'.
Proof.
  intros M F. induction F as [|x y l l' (_ & R & _) F IH]; [constructor|]. inversion M as [|? ? M1 M2]; subst. constructor; [|now apply IH].
  unfold Misc in *. destruct R; auto.
Qed.
End Text.

(** ** Documents *)
Lemma quoted_plain v q : plain v -> quote_of v q -> plain q.
Proof. intros Pv (c & I & ->). pose proof (quote_plain c I) as Pc. inversion Pc; subst. constructor; [assumption|]. apply every_app. split; assumption. Qed.
Lemma declares_lines name v s t : plain name -> name <> "" -> plain v -> declares_value name v s -> same_lines s t -> declares_value name v t.
Proof.
  intros Pn Nn Pv (w & e & q & W & Wn & E & Q & ->) S. pose proof (quoted_plain _ _ Pv Q) as Pq.
  destruct (split_lines _ _ _ S) as (w' & t1 & -> & Sw & S1 & _); [now apply head_of, plain_head|]. destruct (plain_split _ _ _ Pn S1) as (t2 & -> & S2).
  assert (Hq : exists c r, q = String c r /\ c <> LF) by (destruct Q as (c & I & ->); eexists c, _; split; [reflexivity|now apply quote_lf]).
  destruct (split_lines _ _ _ S2) as (e' & t3 & -> & Se & S3 & _); [now apply head_of|]. apply (plain_same _ _ Pq) in S3. subst t3.
  exists w', e', q. split; [now apply (spaces_lines w)|]. split; [now apply (same_ne w)|]. split; [now apply (eq_lines e)|]. split; [exact Q|reflexivity].
Qed.
Lemma declares_ends name v s : plain v -> declares_value name v s -> ~ ends s.
Proof.
  intros Pv (w & e & q & _ & _ & _ & Q & ->) E. rewrite <- !app_s_assoc in E. apply app_ends in E; [|destruct Q as (c & _ & ->); discriminate].
  now apply (plain_ends q); [apply (quoted_plain v)|].
Qed.
Lemma version_plain v : VersionNum v -> plain v.
Proof. intros (d & -> & _ & E). apply plain_app; [plains|]. revert E. apply every_plain. intros c H. unfold Digit in H. split; intros ->; vm_compute N_of_ascii in H; lia. Qed.
Lemma encoding_plain v : EncName v -> plain v.
Proof.
  intros (c & r & -> & H & E). constructor.
  - unfold Letter in H. split; intros ->; vm_compute N_of_ascii in H; lia.
  - revert E. apply every_plain. intros d [K|[K|K]]; [unfold Letter in K|unfold Digit in K|]; (split; intros ->; [|]); try (vm_compute N_of_ascii in K; lia); simpl in K; intuition discriminate.
Qed.
Lemma alone_plain b : In b ["yes"; "no"] -> plain b.
Proof. intros [<-|[<-|[]]]; plains. Qed.
Lemma no_ends_safe a b : ~ ends a -> safe a b. Proof. intros N [E _]. now apply N. Qed.
Lemma nil_ends : ~ ends "". Proof. intros [x H]. destruct x; discriminate. Qed.
Lemma decl_lines s t : XMLDecl s -> same_lines s t -> XMLDecl t.
Proof.
  intros (v & ver & enc & alone & w & -> & V & Dv & De & Da & W) S.
  destruct (plain_split "<?xml" _ _ ltac:(plains) S) as (t1 & -> & S1).
  destruct (split_lines _ _ _ S1) as (ver' & t2 & -> & Sv & S2 & _); [apply no_ends_safe, (declares_ends "version" v); [now apply version_plain|exact Dv]|].
  assert (Ee : ~ ends enc) by (destruct De as [->|(n & En & De)]; [exact nil_ends|apply (declares_ends "encoding" n); [now apply encoding_plain|exact De]]).
  destruct (split_lines _ _ _ S2) as (enc' & t3 & -> & Se & S3 & _); [now apply no_ends_safe|].
  assert (Ea : ~ ends alone) by (destruct Da as [->|(n & En & Da)]; [exact nil_ends|apply (declares_ends "standalone" n); [now apply alone_plain|exact Da]]).
  destruct (split_lines _ _ _ S3) as (alone' & t4 & -> & Sa & S4 & _); [now apply no_ends_safe|].
  destruct (split_lines _ _ _ S4) as (w' & t5 & -> & Sw & S5 & _); [now apply head_safe|]. apply plain_same in S5; [|plains]. subst t5.
  exists v, ver', enc', alone', w'. split; [reflexivity|]. split; [exact V|]. split; [apply (declares_lines _ _ ver); [plains|discriminate|now apply version_plain|exact Dv|exact Sv]|].
  split; [|split; [|now apply (spaces_lines w)]].
  - destruct De as [->|(n & En & De)]; [left; now apply same_nil|]. right. exists n. split; [exact En|]. apply (declares_lines _ _ enc); [plains|discriminate|now apply encoding_plain|exact De|exact Se].
  - destruct Da as [->|(n & En & Da)]; [left; now apply same_nil|]. right. exists n. split; [exact En|]. apply (declares_lines _ _ alone); [plains|discriminate|now apply alone_plain|exact Da|exact Sa].
Qed.
Lemma decl_ends s : XMLDecl s -> ~ ends s.
Proof.
  intros (v & ver & enc & alone & w & -> & _) E. rewrite <- !app_s_assoc in E. apply app_ends in E; [|discriminate]. revert E. apply plain_ends. plains.
Qed.
Lemma document_lines text x text' : XmlDocument text x -> same_lines text text' -> exists x', XmlDocument text' x' /\ alike (after text text') x x'.
Proof.
  intros (bom & decl & body & l & before & ps & aft & -> & B & Tx & D & Ps & Mb & El & Ma) S.
  assert (Pb : plain bom) by (destruct B as [->| ->]; [constructor|]; unfold byte; plains).
  destruct (plain_split _ _ _ Pb S) as (t1 & -> & S1).
  assert (De : ~ ends decl) by (destruct D as [->|D]; [exact nil_ends|now apply decl_ends]).
  destruct (split_lines _ _ _ S1 (no_ends_safe _ _ De)) as (decl' & body' & -> & Sd & Sb & Sf).
  assert (Ap : apart (bom +++ decl) body (bom +++ decl') body').
  { split; [apply join_lines; [now apply same_plain|exact Sd|now apply plain_safe|now apply plain_safe]|]. split; [exact Sb|].
    split; apply safe_app; auto using plain_safe. now apply no_ends_safe. }
  destruct (pieces_lines (bom +++ decl +++ body) (bom +++ decl' +++ body') _ _ _ Ps _ _ _ Ap) as (l' & Ps' & F); [now rewrite app_s_assoc|now rewrite app_s_assoc|now rewrite len_app|].
  destruct (Forall2_app_l _ _ _ _ F) as (before' & l2 & -> & F1 & F'). destruct (Forall2_app_l _ _ _ _ F') as (ps' & aft' & -> & F2 & F3).
  destruct (element_lines _ _ _ _ _ El _ F2) as (x' & El' & A). exists x'. split; [|exact A].
  destruct (text_lines _ (decl +++ body) (decl' +++ body') (le_n _)) as (m & Tm); [now exists l|exact S1|].
  exists bom, decl', body', m, before', ps', aft'. split; [reflexivity|]. split; [exact B|]. split; [exact Tm|].
  split; [destruct D as [->|D]; [left; now apply same_nil|right; now apply (decl_lines decl)]|].
  split; [now rewrite len_app in Ps'|]. split; [exact (misc_lines _ _ before before' Mb F1)|]. split; [exact El'|exact (misc_lines _ _ aft aft' Ma F3)].
Qed.
