(** * DocProof: where documentation ends up (C62) *)
From Verif Require Import Base Libs Xml Ast XsdNode Parse Gen ParseSpec DeclSpec Emit EmitSpec.

Lemma split_unique {A} (P : A -> Prop) l1 a1 r1 l2 a2 r2 : l1 ++ a1 :: r1 = l2 ++ a2 :: r2 ->
  Forall (fun y => ~ P y) (l1 ++ r1) -> P a1 -> P a2 -> l1 = l2 /\ a1 = a2 /\ r1 = r2.
Proof.
  intros E F P1 P2. apply Forall_app in F. destruct F as [F1 F2]. revert l2 E. induction l1 as [|x l1 IH]; intros [|y l2] E; simpl in E.
  - injection E as -> ->. auto.
  - injection E as -> ->. rewrite Forall_forall in F2. elim (F2 a2); [|exact P2]. rewrite in_app_iff. right. now left.
  - injection E as -> <-. inversion F1; contradiction.
  - injection E as -> E. inversion F1; subst. destruct (IH H2 _ E) as (-> & -> & ->). auto.
Qed.

Lemma take_one t cs o rest l x r : take t cs o rest -> cs = l ++ x :: r -> xe_tag x = t ->
  Forall (fun y => xe_tag y <> t) (l ++ r) -> o = Some x.
Proof.
  intros T E X F. destruct T as [cs N|l0 x0 q0 N X0].
  - subst. apply Forall_app in N. destruct N as [_ N]. inversion N; congruence.
  - symmetry in E. destruct (split_unique (fun y => xe_tag y = t) _ _ _ _ _ _ E F X X0) as (_ & -> & _). reflexivity.
Qed.
Lemma take_none t cs o rest : take t cs o rest -> Forall (fun y => xe_tag y <> t) cs -> o = None.
Proof.
  intros T F. destruct T as [cs N|l0 x0 q0 N X0]; [reflexivity|]. apply Forall_app in F. destruct F as [_ F]. inversion F; congruence.
Qed.

Lemma is_empty_false s : s <> "" -> is_empty s = false.
Proof. destruct s; [congruence|reflexivity]. Qed.

Lemma docs_documented e an rest docs s : take "annotation" (xsd_children e) an rest -> docs_of an docs -> documented e s -> docs = Some s.
Proof.
  intros T D (an0 & x & l & r & l' & r' & E & A & F & E' & X & F' & (t & ks & K & ->) & N).
  rewrite (take_one _ _ _ _ _ _ _ T E A F) in D. destruct D as (_ & doc & rest' & T' & _ & D).
  rewrite (take_one _ _ _ _ _ _ _ T' E' X F') in D. destruct D as (t' & ks' & K' & ->).
  rewrite K in K'. injection K' as <- <-.
  rewrite is_empty_false; [reflexivity|]. intros ->. now apply N.
Qed.
Lemma docs_undocumented e an rest docs : take "annotation" (xsd_children e) an rest -> docs_of an docs -> undocumented e -> docs = None.
Proof. intros T D U. rewrite (take_none _ _ _ _ T U) in D. exact D. Qed.

Lemma doc_comment_text s : s <> "" -> doc_comment (Some s) = [s].
Proof. intros N. unfold doc_comment. destruct (s =?s "") eqn:E; [apply String.eqb_eq in E; contradiction|reflexivity]. Qed.
Lemma documented_text e s : documented e s -> s <> "".
Proof. intros (an0 & x & l & r & l' & r' & E & A & F & E' & X & F' & D & N). exact N. Qed.

Lemma explains_docs e an rest docs : take "annotation" (xsd_children e) an rest -> docs_of an docs -> explains e (doc_comment docs).
Proof.
  intros T D. split.
  - intros s H. rewrite (docs_documented _ _ _ _ _ T D H). apply doc_comment_text. eapply documented_text; eauto.
  - intros U. rewrite (docs_undocumented _ _ _ _ T D U). reflexivity.
Qed.

Definition is_enumeration (r : root) : Prop := exists ns, r = RootEnum ns.

Section Doc.
Context {L : Libs}.
Variables (d : xelem) (nss : namespaces) (vns : namespace) (stored : list (name * root)).

Lemma with_docs_some r s : ~ is_enumeration r -> type_docs (with_docs r (Some s)) = doc_comment (Some s).
Proof. destruct r; intros H; try reflexivity. elim H. eexists. reflexivity. Qed.
Lemma with_docs_enum r o : is_enumeration (with_docs r o) <-> is_enumeration r.
Proof.
  destruct o as [s|]; [|reflexivity]. destruct r; simpl; split; intros [ns E]; try discriminate; eexists; reflexivity.
Qed.

Lemma complex_docs seen e p r : complex_type d nss vns stored seen e p r -> explains e (type_docs r).
Proof. destruct 1; cbn [type_docs ed_docs]; eapply explains_docs; eassumption. Qed.
Lemma simple_docs seen e r : simple_type d seen e r -> ~ is_enumeration r -> explains e (type_docs r).
Proof.
  destruct 1 as [an rest docs rs a lit fs _ T D _ _ _ _]. destruct (lefts fs) as [|x xs]; intros N.
  - cbn [type_docs ld_docs]. eapply explains_docs; eassumption.
  - elim N. eexists. reflexivity.
Qed.

(** Declarations: the doc comment of the type. *)
Lemma declared_docs seen e p r s : declared d nss vns stored seen e p r -> ~ is_enumeration r -> documented e s -> type_docs r = [s].
Proof.
  destruct 1 as [seen e p r _ H|seen e p r _ H|seen e p r _ H]; intros N D.
  - destruct H as [seen e p an docs lc known T A _ _|seen e p an rest docs ct r T A _ _ _ _|seen e p an rest docs st r T A _ _ _ _ _].
    + cbn [type_docs ld_docs]. now apply (explains_docs _ _ _ _ T A).
    + rewrite (docs_documented _ _ _ _ _ T A D) in *. rewrite with_docs_enum in N. rewrite with_docs_some by exact N.
      apply doc_comment_text. eapply documented_text; eauto.
    + rewrite (docs_documented _ _ _ _ _ T A D) in *. rewrite with_docs_enum in N. rewrite with_docs_some by exact N.
      apply doc_comment_text. eapply documented_text; eauto.
  - apply complex_docs in H. now apply H.
  - apply simple_docs in H; [|exact N]. now apply H.
Qed.
(** Nothing is made up: without an annotation there is no doc comment, unless the
    anonymous type of an element has one. *)
Lemma declared_undocumented seen e p r : declared d nss vns stored seen e p r -> undocumented e ->
  (forall x, In x (xsd_children e) -> In (xe_tag x) ["complexType"; "simpleType"] -> undocumented x) -> type_docs r = [].
Proof.
  destruct 1 as [seen e p r _ H|seen e p r _ H|seen e p r _ H]; intros U C.
  - destruct H as [seen e p an docs lc known T A _ _|seen e p an rest docs ct r T A _ _ Ct H|seen e p an rest docs st r T A _ _ _ Ct H].
    + cbn [type_docs ld_docs]. now apply (explains_docs _ _ _ _ T A).
    + rewrite (docs_undocumented _ _ _ _ T A U). cbn [with_docs].
      assert (R : rest = xsd_children e) by (inversion T; subst; [reflexivity|]; exfalso;
        match goal with E : _ ++ _ :: _ = _ |- _ => unfold undocumented in U; rewrite <- E in U; apply Forall_app in U; destruct U as [_ U]; inversion U; congruence end).
      subst rest. inversion Ct as [|l x r' F X E E1 E2]; subst.
      apply complex_docs in H. apply H, C; [match goal with E : _ = xsd_children e |- _ => rewrite <- E end; rewrite in_app_iff; right; now left|rewrite X; now left].
    + rewrite (docs_undocumented _ _ _ _ T A U). cbn [with_docs].
      assert (R : rest = xsd_children e) by (inversion T; subst; [reflexivity|]; exfalso;
        match goal with E : _ ++ _ :: _ = _ |- _ => unfold undocumented in U; rewrite <- E in U; apply Forall_app in U; destruct U as [_ U]; inversion U; congruence end).
      subst rest. inversion Ct as [|l x r' F X E E1 E2]; subst.
      assert (N : {is_enumeration r} + {~ is_enumeration r}) by (destruct r; [right|left|right|right]; try (intros [? ?]; discriminate); eexists; reflexivity).
      destruct N as [[ns ->]|N]; [reflexivity|].
      apply simple_docs in H; [|exact N]. apply H, C; [match goal with E : _ = xsd_children e |- _ => rewrite <- E end; rewrite in_app_iff; right; now left|rewrite X; right; now left].
  - apply complex_docs in H. now apply H.
  - assert (N : {is_enumeration r} + {~ is_enumeration r}) by (destruct r; [right|left|right|right]; try (intros [? ?]; discriminate); eexists; reflexivity).
    destruct N as [[ns ->]|N]; [reflexivity|]. apply simple_docs in H; [|exact N]. now apply H.
Qed.

(** Elements and attributes: the doc comment of the field. *)
Lemma member_docs p x l : element_member d nss vns stored p x l -> no_attr x "ref" -> explains x (doc_comment (ld_docs (lf_def l))).
Proof.
  destruct 1; intros N; try (cbn [simple_leaf lf_def ld_docs]; eapply explains_docs; eassumption).
  exfalso. match goal with T : the_attr x "ref" _ |- _ => destruct T as (l0 & q0 & E0 & N0 & _); apply (N a); [rewrite E0, in_app_iff; right; now left|exact N0] end.
Qed.
Lemma attribute_docs p x a : attribute_decl d nss vns stored p x (Some a) -> explains x (doc_comment (a_docs a)).
Proof. inversion 1; subst. cbn [a_docs]. eapply explains_docs; eassumption. Qed.

Lemma unordered_def l : lf_def (unordered l) = lf_def l.
Proof. reflexivity. Qed.

Lemma members_docs x p ls : Forall2 (sequence_member d nss vns stored p) (particles x) ls ->
  Forall2 (fun y ds => own_element y -> explains y ds) (particles x) (map (fun l => doc_comment (ld_docs (lf_def l))) ls).
Proof.
  induction 1 as [|y l ys ls H _ IH]; simpl; constructor; [|exact IH]. intros [T N].
  destruct H as [p y l _ H|p y min max ls' g X _ _ _ _|p y an rest docs min ls' g X _ _ _ _ _]; try congruence.
  eapply member_docs; eauto.
Qed.

Lemma attributes_docs p cs ats : attributes_of d nss vns stored p cs ats ->
  exists os, Forall2 (fun x o => match o with Some ds => explains x ds | None => prohibited x end) cs os
  /\ map (fun a => doc_comment (a_docs a)) ats = somes os.
Proof.
  intros (_ & os & H & ->). exists (map (option_map (fun a => doc_comment (a_docs a))) os). split.
  - clear - H. induction H as [|x o cs os H _ IH]; simpl; constructor; [|exact IH].
    destruct o as [a|]; simpl; [now apply (attribute_docs p)|]. inversion H; subst. eexists. split; eassumption.
  - clear H. induction os as [|[a|] os IH]; simpl; [reflexivity| |exact IH]. f_equal. exact IH.
Qed.

(** ** A complex type with a group that occurs once *)
Definition other (y : xelem) : Prop := In (xe_tag y) ["annotation"; "attribute"].
Definition attribute_elements (l : list xelem) : list xelem := filter (fun x => xe_tag x =?s "attribute") l.
(** Children as long as the group is among them. *)
Definition around (g : xelem) (cs : list xelem) (ats : list xelem) : Prop :=
  exists l r, cs = l ++ g :: r /\ Forall other (l ++ r) /\ attribute_elements (l ++ r) = ats.

Lemma around_other g cs ats t o rest : around g cs ats -> take t cs o rest -> ~ In t ["annotation"; "attribute"] -> xe_tag g <> t ->
  o = None /\ rest = cs.
Proof.
  intros (l & r & -> & F & _) T N G. inversion T as [l0 F0 E0 E1 E2|l0 x0 q0 F0 X0 E0 E1 E2]; [auto|]. exfalso.
  assert (I : In x0 (l ++ g :: r)) by (rewrite <- E0, in_app_iff; right; now left).
  rewrite in_app_iff in I. destruct I as [I|[<-|I]]; try congruence.
  - rewrite Forall_forall in F. apply N. rewrite <- X0. apply F. rewrite in_app_iff. auto.
  - rewrite Forall_forall in F. apply N. rewrite <- X0. apply F. rewrite in_app_iff. auto.
Qed.

Lemma attribute_elements_app l r : attribute_elements (l ++ r) = attribute_elements l ++ attribute_elements r.
Proof. apply filter_app. Qed.
Lemma annotation_skipped x r : xe_tag x = "annotation" -> attribute_elements (x :: r) = attribute_elements r.
Proof. intros H. unfold attribute_elements. simpl. rewrite H. reflexivity. Qed.

Lemma split_two {A} (l1 : list A) a1 r1 l2 a2 r2 : l1 ++ a1 :: r1 = l2 ++ a2 :: r2 ->
  (l1 = l2 /\ a1 = a2 /\ r1 = r2) \/ (exists m, l2 = l1 ++ a1 :: m /\ r1 = m ++ a2 :: r2) \/ (exists m, l1 = l2 ++ a2 :: m /\ r2 = m ++ a1 :: r1).
Proof.
  revert l2. induction l1 as [|x l1 IH]; intros [|y l2] E; simpl in E.
  - injection E as -> ->. auto.
  - injection E as -> ->. right; left. exists l2. auto.
  - injection E as -> <-. right; right. exists l1. auto.
  - injection E as -> E. destruct (IH _ E) as [(-> & -> & ->)|[(m & -> & ->)|(m & -> & ->)]]; [auto|right; left|right; right]; exists m; auto.
Qed.

Lemma around_annotation g cs ats o rest : around g cs ats -> xe_tag g <> "annotation" -> take "annotation" cs o rest -> around g rest ats.
Proof.
  intros (l & r & -> & F & A) G T. inversion T as [l0 F0 E0 E1 E2|l0 x0 q0 F0 X0 E0 E1 E2]; subst rest; [exists l, r; auto|].
  destruct (split_two _ _ _ _ _ _ E0) as [(-> & -> & ->)|[(m & -> & ->)|(m & -> & ->)]]; [congruence| |].
  - exists (l0 ++ m), r. rewrite <- !app_assoc in *. split; [reflexivity|].
    rewrite <- A, !attribute_elements_app. change (x0 :: m) with ([x0] ++ m) in *. rewrite attribute_elements_app.
    rewrite (annotation_skipped _ [] X0). split; [|reflexivity].
    rewrite !Forall_app in *. tauto.
  - exists l, (m ++ q0). rewrite <- !app_assoc in *. split; [reflexivity|].
    rewrite <- A, !attribute_elements_app. change (x0 :: q0) with ([x0] ++ q0) in *. rewrite attribute_elements_app.
    rewrite (annotation_skipped _ [] X0). split; [|reflexivity].
    rewrite !Forall_app in *. tauto.
Qed.

Lemma around_group g cs ats o rest : around g cs ats -> xe_tag g <> "annotation" -> xe_tag g <> "attribute" -> take (xe_tag g) cs o rest ->
  o = Some g /\ attribute_elements rest = ats.
Proof.
  intros (l & r & -> & F & A) G1 G2 T.
  assert (F' : Forall (fun y => ~ xe_tag y = xe_tag g) (l ++ r)).
  { eapply Forall_impl; [|exact F]. intros y [H|[H|[]]] E; congruence. }
  remember (xe_tag g) as t eqn:Et. inversion T as [l0 F0 E0 E1 E2|l0 x0 q0 F0 X0 E0 E1 E2].
  - subst. rewrite Forall_app in F0. destruct F0 as [_ F0]. inversion F0; congruence.
  - symmetry in E0. destruct (split_unique (fun y => xe_tag y = t) _ _ _ _ _ _ E0 F' (eq_sym Et) X0) as (<- & <- & <-). auto.
Qed.

Lemma attributes_only p cs ats : attributes_of d nss vns stored p cs ats -> attribute_elements cs = cs.
Proof.
  intros [F _]. unfold attribute_elements. induction F as [|x l X _ IH]; simpl; [reflexivity|]. rewrite X. simpl. now rewrite IH.
Qed.

Lemma group_docs g p f c : no_attr g "minOccurs" -> no_attr g "maxOccurs" -> (forall l, lf_def (f l) = lf_def l) ->
  group_content d nss vns stored g p f c -> exists ls, c = EcLeaves ls
  /\ Forall2 (fun y ds => own_element y -> explains y ds) (particles g) (content_docs (Some c)).
Proof.
  intros Nmin Nmax Hf H. inversion H as [x p' f' min max ls Hmin Hmax _ S|x p' f' min max ls gg Hmin Hmax NE S _]; subst.
  - eexists. split; [reflexivity|]. inversion S; subst. cbn [content_docs]. rewrite map_map.
    erewrite map_ext; [eapply members_docs; eassumption|]. intros l. cbn beta. rewrite Hf. reflexivity.
  - elim NE. split.
    + destruct Hmin as [(a & (l & r & E & En & _) & _)|[_ ->]]; [|reflexivity]. elim (Nmin a); [rewrite E, in_app_iff; right; now left|exact En].
    + destruct Hmax as [(a & (l & r & E & En & _) & _)|[(a & n & (l & r & E & En & _) & _)|[_ ->]]]; [| |exists 1%N; split; [reflexivity|lia]];
        (elim (Nmax a); [rewrite E, in_app_iff; right; now left|exact En]).
Qed.

Lemma fields_explained seen e p r l g q :
  complex_type d nss vns stored seen e p r ->
  xsd_children e = l ++ g :: q -> Forall other (l ++ q) ->
  In (xe_tag g) ["sequence"; "all"] -> no_attr g "minOccurs" -> no_attr g "maxOccurs" ->
  exists ds os, fields_docs r = ds ++ somes os
  /\ Forall2 (fun y ds => own_element y -> explains y ds) (particles g) ds
  /\ Forall2 (fun x o => match o with Some ds => explains x ds | None => prohibited x end)
       (attribute_elements (l ++ q)) os.
Proof.
  intros H E F G Nmin Nmax.
  assert (A : around g (xsd_children e) (attribute_elements (l ++ q))) by (exists l, q; auto).
  assert (T : forall t, In t ["annotation"; "attribute"; "simpleContent"; "complexContent"; "choice"] -> xe_tag g <> t).
  { intros t I. destruct G as [G|[G|[]]]; rewrite <- G; simpl in I; intuition congruence. }
  assert (NI : forall t, ~ In t ["annotation"; "attribute"] <-> t <> "annotation" /\ t <> "attribute") by (intros t; simpl; intuition congruence).
  inversion H as [? ? ? an rest docs x ext rest' base lc n ats _ _ Ta _ Ts|? ? ? an rest rest1 docs x ext base t sq rest' content ats _ _ Ta _ Ts Tc|
                  ? ? ? an rest rest1 docs rest2 content ats _ _ Ta _ Ts Tc M Ats]; subst.
  - exfalso. apply (around_annotation _ _ _ _ _ A) in Ta; [|apply T; now left].
    destruct (around_other _ _ _ _ _ _ Ta Ts) as [? _]; [rewrite NI; split; discriminate|apply T; simpl; auto|discriminate].
  - exfalso. apply (around_annotation _ _ _ _ _ A) in Ta; [|apply T; now left].
    destruct (around_other _ _ _ _ _ _ Ta Ts) as [_ ->]; [rewrite NI; split; discriminate|apply T; simpl; auto|].
    destruct (around_other _ _ _ _ _ _ Ta Tc) as [? _]; [rewrite NI; split; discriminate|apply T; simpl; auto|discriminate].
  - apply (around_annotation _ _ _ _ _ A) in Ta; [|apply T; now left].
    destruct (around_other _ _ _ _ _ _ Ta Tc) as [_ ->]; [rewrite NI; split; discriminate|apply T; simpl; auto|].
    assert (K : exists c, content = Some c /\ Forall2 (fun y ds => own_element y -> explains y ds) (particles g) (content_docs (Some c))
                 /\ attribute_elements rest2 = attribute_elements (l ++ q)).
    { inversion M as [? ? S1 S2 S3|? ? x rest' ls S1 S2 S3 _ _|? ? x rest' c S1 GC|? ? x rest' c S1 S2 GC]; subst.
      - exfalso. destruct G as [G|[G|[]]].
        + rewrite G in S1. destruct (around_group _ _ _ _ _ Ta (T _ (or_introl eq_refl)) (T _ (or_intror (or_introl eq_refl))) S1) as [? _]; discriminate.
        + rewrite G in S2. destruct (around_group _ _ _ _ _ Ta (T _ (or_introl eq_refl)) (T _ (or_intror (or_introl eq_refl))) S2) as [? _]; discriminate.
      - exfalso. destruct (around_other _ _ _ _ _ _ Ta S3) as [? _]; [rewrite NI; split; discriminate|apply T; simpl; tauto|discriminate].
      - destruct G as [G|[G|[]]].
        + rewrite G in S1. destruct (around_group _ _ _ _ _ Ta (T _ (or_introl eq_refl)) (T _ (or_intror (or_introl eq_refl))) S1) as [[= ->] A2].
          destruct (group_docs _ _ _ _ Nmin Nmax (fun _ => eq_refl) GC) as (ls & -> & K). eexists. repeat split; eassumption.
        + exfalso. destruct (around_other _ _ _ _ _ _ Ta S1) as [? _]; [rewrite NI; split; discriminate|rewrite <- G; discriminate|discriminate].
      - destruct G as [G|[G|[]]].
        + exfalso. rewrite G in S1. destruct (around_group _ _ _ _ _ Ta (T _ (or_introl eq_refl)) (T _ (or_intror (or_introl eq_refl))) S1) as [? _]; discriminate.
        + rewrite G in S2. destruct (around_group _ _ _ _ _ Ta (T _ (or_introl eq_refl)) (T _ (or_intror (or_introl eq_refl))) S2) as [[= ->] A2].
          destruct (group_docs _ _ _ _ Nmin Nmax unordered_def GC) as (ls & -> & K). eexists. repeat split; eassumption. }
    destruct K as (c & -> & K & A2). rewrite (attributes_only _ _ _ Ats) in A2. rewrite <- A2.
    destruct (attributes_docs _ _ _ Ats) as (os & Ho & Eo).
    exists (content_docs (Some c)), os. split; [|split; assumption].
    cbn [fields_docs ed_content ed_attributes]. rewrite Eo. reflexivity.
Qed.
End Doc.
