(** * RepProof: a decoded value describes its document *)
From Verif Require Import Base Libs Xml Ast Decode Gen Run CursorSpec CursorProof DecSpec DecSim DecProof RepSpec.

Lemma rmap_ok {E A B} (f : A -> B) (o : res E A) b : rmap f o = Ok b -> exists a, o = Ok a /\ b = f a.
Proof. destruct o; simpl; intros H; try discriminate. injection H as <-. eauto. Qed.

Lemma shuffle_nil_l {A} (l : list A) : shuffle [] l l.
Proof. induction l; constructor; assumption. Qed.
Lemma shuffle_nil_r {A} (l : list A) : shuffle l [] l.
Proof. induction l; constructor; assumption. Qed.
Lemma shuffle_app {A} (a b : list A) : shuffle a b (a ++ b).
Proof. induction a; simpl; [apply shuffle_nil_l|now constructor]. Qed.
Lemma shuffle_one {A} (l1 : list A) x l2 : shuffle [x] (l1 ++ l2) (l1 ++ x :: l2).
Proof. induction l1; simpl; constructor; [apply shuffle_nil_l|assumption]. Qed.
Lemma shuffle_assoc {A} (k1 l1 l : list A) : shuffle k1 l1 l -> forall k2 l2, shuffle k2 l2 l1 ->
  exists k, shuffle k1 k2 k /\ shuffle k l2 l.
Proof.
  induction 1 as [|x a b l S IH|x a b l S IH]; intros k2 l2 H.
  - inversion H; subst. exists []. split; constructor.
  - destruct (IH _ _ H) as (k & S1 & S2). exists (x :: k). split; now constructor.
  - inversion H as [|? a' ? ? S'|? ? b' ? S']; subst.
    + destruct (IH _ _ S') as (k & S1 & S2). exists (x :: k). split; now constructor.
    + destruct (IH _ _ S') as (k & S1 & S2). exists k. split; [assumption|now constructor].
Qed.

Section Rep.
Context {L : Libs}.
Variable c : schema_ctx.
Variable gs : list name.
Variable J : list xelem -> list xelem -> list xelem -> Prop.
Hypothesis J_nil : forall l, J [] l l.
Hypothesis J_cons : forall x l, J [x] l (x :: l).
Hypothesis J_assoc : forall k1 l1 l k2 l2, J k1 l1 l -> J k2 l2 l1 -> exists k, J k1 k2 k /\ J k l2 l.
(** consing a child on what a run consumed *)
Hypothesis J_run : forall x k l l', J k l' l -> J (x :: k) l' (x :: l).
Hypothesis J_any : forall n r f, In n gs -> sc_get c n = Some r -> In f (leaves_of r) ->
  lf_unordered f = true -> forall l1 x l2, J [x] (l1 ++ l2) (l1 ++ x :: l2).

Definition leaf_good (f : leaf) : Prop := lf_unordered f = true -> forall l1 x l2, J [x] (l1 ++ l2) (l1 ++ x :: l2).
Definition root_good (r : root) : Prop := Forall leaf_good (leaves_of r).
Definition fields_good (o : option element_content) : Prop :=
  match o with Some (EcLeaves ls) => Forall leaf_good ls | _ => True end.

Lemma gen_good n r : In n gs -> sc_get c n = Some r -> root_good r.
Proof. intros I G. apply Forall_forall. intros f If U. eapply J_any; eassumption. Qed.

Lemma read_attr_rep a e v : read_attr c gs a e (Ok v) -> rep_attr c gs a v e.
Proof.
  intros H. inversion H as [? ? A O|? ? A O|? ? s o A O Cv|? ? s o A O Cv]; subst.
  - now apply pa_absent.
  - destruct o as [w| | |]; simpl in *; try discriminate. match goal with X : Ok _ = Ok _ |- _ => injection X as <- end.
    eapply pa_opt; eassumption.
  - eapply pa_req; eassumption.
Qed.

Lemma read_attrs_rep ats e : forall o, read_attrs c gs ats e o -> forall avs, o = Ok avs -> rep_attrs c gs ats avs e.
Proof.
  induction 1 as [e|a ats e x R|a ats e f v o R Ef Rs IH]; intros avs E; try discriminate.
  - injection E as <-. constructor.
  - apply rmap_ok in E. destruct E as (avs' & -> & ->). constructor; [|now apply IH].
    split; [exact Ef|]. now apply read_attr_rep.
Qed.

Lemma read_rep :
  (forall ct e l o, read_content c gs ct e l o -> forall v l', o = Ok (v, l') ->
     exists k, J k l' l /\ rep_content c gs J (leftovers J) any_number ct v e k)
  /\ (forall ct x o, read_sub c gs ct x o -> forall v, o = Ok v -> rep_sub c gs J (leftovers J) any_number ct v x)
  /\ (forall n r e l o, read_root c gs n r e l o -> root_good r -> forall v l', o = Ok (v, l') ->
     exists k, J k l' l /\ rep_root c gs J (leftovers J) any_number n r v e k)
  /\ (forall ec e l o, read_fields c gs ec e l o -> fields_good ec -> forall v l', o = Ok (v, l') ->
     exists k, J k l' l /\ rep_fields c gs J (leftovers J) any_number ec v e k)
  /\ (forall ls e l o, read_leaves c gs ls e l o -> Forall leaf_good ls -> forall v l', o = Ok (v, l') ->
     exists k, J k l' l /\ rep_leaves c gs J (leftovers J) any_number ls v e k)
  /\ (forall f e l o, read_leaf c gs f e l o -> leaf_good f -> forall v l', o = Ok (v, l') ->
     exists k, J k l' l /\ rep_leaf c gs J (leftovers J) any_number f v e k)
  /\ (forall m e l o, read_groups c gs m e l o -> forall v l', o = Ok (v, l') ->
     exists k, J k l' l /\ rep_groups c gs J (leftovers J) any_number (LcNamed m) v e k)
  /\ (forall n ns ct l o, read_run c gs n ns ct l o -> forall v l', o = Ok (v, l') ->
     exists k, J k l' l /\ rep_run c gs J (leftovers J) any_number n ns ct v k)
  /\ (forall n vs e l o, read_choice c gs n vs e l o -> forall v l', o = Ok (v, l') ->
     exists k f i w, J k l' l /\ In f vs /\ variant_ident (lf_name f) = Ok i /\ v = VChoice i w
       /\ rep_variant c gs J (leftovers J) any_number f w e k).
Proof.
  apply read_ind.
  - (* literal *)
    intros ct lit e l F v l' E. destruct (d_text e) as [s| | |] eqn:T; simpl in E; try discriminate.
    destruct (lit_from_str lit s) as [w| | |] eqn:P; simpl in E; try discriminate. injection E as <- <-.
    exists []. split; [apply J_nil|eapply pc_lit; eassumption].
  - intros ct s e l F v l' E. destruct (d_text e) as [t| | |] eqn:T; simpl in E; try discriminate.
    destruct (String.eqb_spec t s) as [->|]; [|discriminate]. injection E as <- <-.
    exists []. split; [apply J_nil|eapply pc_fixed; eassumption].
  - intros ct m n r e l o F T R IH v l' E. pose proof T as (I & G & _).
    destruct (IH (gen_good _ _ I G) _ _ E) as (k & Jk & Rp). exists k. split; [exact Jk|eapply pc_named; eassumption].
  - (* sub *)
    intros ct x o R IH v E. apply rmap_ok in E. destruct E as ((v' & l') & -> & ->).
    destruct (IH _ _ eq_refl) as (k & Jk & Rp). eapply pb_sub; [eassumption|exists l'; exact Jk].
  - (* roots *)
    intros n d e l o R IH Gd v l' E. apply rmap_ok in E. destruct E as ((v' & l1) & -> & E). injection E as -> ->.
    destruct (IH _ _ eq_refl) as (k & Jk & Rp). exists k. split; [exact Jk|now constructor].
  - intros n names vs e l Ev Gd v l' E. destruct (d_text e) as [s| | |] eqn:T; simpl in E; try discriminate.
    destruct (enum_from_str vs s) as [w| | |] eqn:P; simpl in E; try discriminate. injection E as <- <-.
    exists []. split; [apply J_nil|eapply pr_enum; eassumption].
  - intros. discriminate.
  - intros n d e l l1 vs oa R IH Ra Gd v l' E. destruct oa as [avs| | |] eqn:Eo; simpl in E; try discriminate. injection E as <- <-.
    assert (Fg : fields_good (ed_content d)).
    { unfold root_good in Gd. simpl in Gd. destruct (ed_content d) as [[]|]; simpl; auto. }
    destruct (IH Fg _ _ eq_refl) as (k & Jk & Rp). exists k. split; [exact Jk|]. constructor; [exact Rp|].
    eapply read_attrs_rep; eauto.
  - intros n d e l o R IH Gd v l' E. destruct (IH _ _ E) as (k & f & i & w & Jk & I & Ei & -> & Rp).
    exists k. split; [exact Jk|]. econstructor; eassumption.
  - (* fields *)
    intros e l _ v l' E. injection E as <- <-. exists []. split; [apply J_nil|constructor].
  - intros n d f e l o Ef R IH _ v l' E. apply rmap_ok in E. destruct E as ((v' & l1) & -> & E). injection E as -> ->.
    destruct (IH _ _ eq_refl) as (k & Jk & Rp). exists k. split; [exact Jk|now constructor].
  - intros ls e l o R IH Gd v l' E. destruct (IH Gd _ _ E) as (k & Jk & Rp). exists k. split; [exact Jk|now constructor].
  - (* leaves *)
    intros e l _ v l' E. injection E as <- <-. exists []. split; [apply J_nil|constructor].
  - intros. discriminate.
  - intros f fs e l l1 i v o R IH Ef Rs IHs Gd vs l' E. inversion Gd as [|? ? G1 G2]; subst.
    apply rmap_ok in E. destruct E as ((vs' & l2) & -> & E). injection E as -> ->.
    destruct (IH G1 _ _ eq_refl) as (k1 & J1 & Rp1). destruct (IHs G2 _ _ eq_refl) as (k2 & J2 & Rp2).
    destruct (J_assoc _ _ _ _ _ J1 J2) as (k & J3 & J4). exists k. split; [exact J4|]. econstructor; eassumption.
  - (* leaf: groups *)
    intros f e l o V Ve O R IH Gd v l' E. destruct (IH _ _ E) as (k & Jk & Rp). exists k. split; [exact Jk|now apply pl_group].
  - intros f m e l V Ve O Cm Lk Gd v l' E. injection E as <- <-. exists []. split; [apply J_nil|now apply pl_group_no].
  - intros f m e l o V Ve O Cm Lk R IH Gd v l' E. apply rmap_ok in E. destruct E as ((v' & l1) & -> & E). injection E as -> ->.
    destruct (IH _ _ eq_refl) as (k & Jk & Rp). exists k. split; [exact Jk|now apply pl_group_yes].
  - intros f m e l o V Ve Cm R IH Gd v l' E. apply rmap_ok in E. destruct E as ((vs & l1) & -> & E). injection E as -> ->.
    destruct (IH _ _ eq_refl) as (k & Jk & Rp). exists k. split; [exact Jk|]. apply pl_groups; auto; [now rewrite Cm|exact I].
  - (* leaf: elements *)
    intros f ns e l o V Ve Q R IH Gd v l' E. apply rmap_ok in E. destruct E as ((vs & l1) & -> & E). injection E as -> ->.
    destruct (IH _ _ eq_refl) as (k & Jk & Rp). exists k. split; [exact Jk|]. eapply pl_run; [..|exact I]; eassumption.
  - intros f ns e l V Ve O Q N Gd v l' E. injection E as <- <-. exists []. split; [apply J_nil|now apply pl_none].
  - intros f ns e x l o V Ve O Q N R IH Gd v l' E. apply rmap_ok in E. destruct E as (v' & -> & E). injection E as -> ->.
    exists [x]. split; [apply J_cons|]. eapply pl_some; eauto. now apply has_name_matches.
  - intros. discriminate.
  - intros f ns e x l o V Ve O U Q N R IH Gd v l' E. apply rmap_ok in E. destruct E as (v' & -> & E). injection E as -> ->.
    exists [x]. split; [apply J_cons|]. eapply pl_one; eauto. now apply has_name_matches.
  - intros. discriminate.
  - intros f ns e l1 x l2 o V Ve O U Q Fa N R IH Gd v l' E. apply rmap_ok in E. destruct E as (v' & -> & E). injection E as -> ->.
    exists [x]. split; [now apply Gd|]. eapply pl_one; eauto. now apply has_name_matches.
  - (* groups *)
    intros m e l Lk v l' E. injection E as <- <-. exists []. split; [apply J_nil|constructor].
  - intros. discriminate.
  - intros m e l l1 v o Lk R IH Rs IHs vs l' E. apply rmap_ok in E. destruct E as ((vs' & l2) & -> & E). injection E as -> ->.
    destruct (IH _ _ eq_refl) as (k1 & J1 & Rp1). destruct (IHs _ _ eq_refl) as (k2 & J2 & Rp2).
    destruct (J_assoc _ _ _ _ _ J1 J2) as (k & J3 & J4). exists k. split; [exact J4|]. econstructor; eassumption.
  - (* run *)
    intros n ns ct l N v l' E. injection E as <- <-. exists []. split; [apply J_nil|constructor].
  - intros. discriminate.
  - intros n ns ct x l v o N R IH Rs IHs vs l' E. apply rmap_ok in E. destruct E as ((vs' & l2) & -> & E). injection E as -> ->.
    destruct (IHs _ _ eq_refl) as (k & Jk & Rp). exists (x :: k). split; [now apply J_run|]. constructor; auto.
    now apply has_name_matches.
  - (* choice *)
    intros. discriminate.
  - intros n f fs m e l o V Cm Lk R IH v l' E. destruct (IH _ _ E) as (k & f' & i & w & Jk & I & H). exists k, f', i, w.
    split; [exact Jk|]. split; [now right|exact H].
  - intros n f fs m i e l o V Cm Lk Ei R IH v l' E. apply rmap_ok in E. destruct E as ((w & l1) & -> & E). injection E as -> ->.
    destruct (IH _ _ eq_refl) as (k & Jk & Rp). exists k, f, i, w. split; [exact Jk|]. split; [now left|].
    split; [exact Ei|]. split; [reflexivity|]. apply px_group; [exact V|now rewrite Cm].
  - intros n f fs ns e l o V Q N R IH v l' E. destruct (IH _ _ E) as (k & f' & i & w & Jk & I & H). exists k, f', i, w.
    split; [exact Jk|]. split; [now right|exact H].
  - intros n f fs ns i e l o V Q Ve N Ei R IH v l' E. apply rmap_ok in E. destruct E as ((ws & l1) & -> & E). injection E as -> ->.
    destruct (IH _ _ eq_refl) as (k & Jk & Rp). exists k, f, i, (VVec ws). split; [exact Jk|]. split; [now left|].
    split; [exact Ei|]. split; [reflexivity|].
    destruct ws as [|w ws].
    + exfalso. inversion R; subst.
      * congruence.
      * match goal with X : rmap _ _ = Ok ([], _) |- _ => apply rmap_ok in X; destruct X as ([] & _ & X); discriminate end.
    + eapply px_run; eassumption.
  - intros n f fs ns i e x l o V Q Ve N Ei R IH v l' E. apply rmap_ok in E. destruct E as (w & -> & E). injection E as -> ->.
    exists [x], f, i, w. split; [apply J_cons|]. split; [now left|]. split; [exact Ei|]. split; [reflexivity|].
    eapply px_one; eauto. now apply has_name_matches.
Qed.

Lemma read_doc_rep n v e : read_doc c gs n e (Ok v) -> rep_doc c gs J (leftovers J) any_number n v e.
Proof.
  intros H. inversion H as [|? ns r ? o I Q N G R]; subst.
  destruct o as [[w l]| | |]; simpl in *; try discriminate. match goal with X : Ok _ = Ok _ |- _ => injection X as -> end.
  destruct read_rep as (_ & _ & RR & _). destruct (RR _ _ _ _ _ R (gen_good _ _ I G) _ _ eq_refl) as (k & Jk & Rp).
  econstructor; try eassumption; [now apply has_name_matches|exists l; exact Jk].
Qed.
End Rep.

Lemma read_doc_shuffle {L : Libs} c gs n v e : read_doc c gs n e (Ok v) -> rep_doc c gs shuffle (leftovers shuffle) any_number n v e.
Proof.
  apply read_doc_rep.
  - apply shuffle_nil_l.
  - intros x l. apply (shuffle_app [x]).
  - intros k1 l1 l k2 l2 A B. exact (shuffle_assoc _ _ _ A _ _ B).
  - intros. now constructor.
  - intros. apply shuffle_one.
Qed.

Lemma read_doc_appended {L : Libs} c gs n v e : all_ordered c gs -> read_doc c gs n e (Ok v) ->
  rep_doc c gs appended (leftovers appended) any_number n v e.
Proof.
  intros O. apply read_doc_rep; unfold appended.
  - reflexivity.
  - reflexivity.
  - intros k1 l1 l k2 l2 -> ->. exists (k1 ++ k2). rewrite app_assoc. auto.
  - intros x k l l' ->. reflexivity.
  - intros n0 r f I G If U. rewrite (O _ _ _ I G If) in U. discriminate.
Qed.
