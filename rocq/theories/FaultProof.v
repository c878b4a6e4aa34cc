(** * FaultProof: decoding errors are true statements about the document *)
From Verif Require Import Base Libs Xml Ast Decode Gen Run CursorSpec CursorProof DecSpec DecSim DecProof RepSpec RepProof
  ReadSpec DecProof1 DecProof2 ValidSpec ValidProof GenProof1 ParseSpec FaultSpec.

Lemma rmap_err {E A B} (f : A -> B) (o : res E A) x : rmap f o = Err x -> o = Err x.
Proof. destruct o; simpl; intros H; try discriminate. now injection H as ->. Qed.

Section Faults.
Context {L : Libs}.
Variable c : schema_ctx.
Variable gs : list name.
Variable J : list xelem -> list xelem -> list xelem -> Prop.
Hypothesis J_nil : forall l, J [] l l.
Hypothesis J_nil_inv : forall l l', J [] l l' -> l = l'.
Hypothesis J_nil_r : forall l, J l [] l.
Hypothesis J_cons : forall x l, J [x] l (x :: l).
Hypothesis J_assoc : forall k1 l1 l k2 l2, J k1 l1 l -> J k2 l2 l1 -> exists k, J k1 k2 k /\ J k l2 l.
Hypothesis J_back : forall l1 l2 u k k', J l1 l2 u -> J u k k' -> exists m, J l2 k m /\ J l1 m k'.
Hypothesis J_run : forall x k l l', J k l' l -> J (x :: k) l' (x :: l).
Hypothesis J_any : forall n r f, In n gs -> sc_get c n = Some r -> In f (leaves_of r) ->
  lf_unordered f = true -> forall l1 x l2, J [x] (l1 ++ l2) (l1 ++ x :: l2).
Variable n0 : name.
Variable e0 : xelem.

Notation meets := (meets c gs J n0 e0).
Notation holds := (holds c gs J n0 e0).
Notation wrong := (wrong c gs J n0 e0).
Notation given := (given c gs J n0 e0).
Notation after := (after c gs J).
Notation rep_leaves := (rep_leaves c gs J (leftovers J) any_number).
Notation rep_leaf := (rep_leaf c gs J (leftovers J) any_number).

Lemma meets_known n r x l : meets n r x l -> In n gs /\ sc_get c n = Some r.
Proof. intros [ns r' I Q M G|ct m n' r' x' l' H F (I & G & _)]; auto. Qed.

Lemma rep_snoc f i v x k : rep_leaf f v x k -> field_ident (lf_name f) = Ok i ->
  forall pre vs used k', rep_leaves pre vs x used -> J used k k' -> rep_leaves (pre ++ [f]) (vs ++ [(i, v)]) x k'.
Proof.
  intros R Ef. induction pre as [|g pre IH]; intros vs used k' H Jk; inversion H; subst; simpl.
  - apply J_nil_inv in Jk. subst. econstructor; eauto; constructor.
  - match goal with X : J _ _ used |- _ => destruct (J_back _ _ _ _ _ X Jk) as (m & J1 & J2) end.
    econstructor; eauto.
Qed.

Lemma after_nil x l : after [] x l l.
Proof. exists [], []. split; [constructor|apply J_nil]. Qed.

Lemma leaf_used f e l v l' : leaf_good J f -> read_leaf c gs f e l (Ok (v, l')) -> exists k, J k l' l /\ rep_leaf f v e k.
Proof.
  intros G R. pose proof (read_rep c gs J J_nil J_cons J_assoc J_run J_any) as (_ & _ & _ & _ & _ & RL & _). eauto.
Qed.
Lemma content_used ct e l v l' : read_content c gs ct e l (Ok (v, l')) -> exists k, J k l' l.
Proof.
  intros R. pose proof (read_rep c gs J J_nil J_cons J_assoc J_run J_any) as (RC & _). destruct (RC _ _ _ _ R _ _ eq_refl) as (k & H & _). eauto.
Qed.

Lemma after_snoc n d pre f post i v x l l1 l2 : In n gs -> sc_get c n = Some (RootElement d) ->
  ed_content d = Some (EcLeaves (pre ++ f :: post)) -> after pre x l l1 -> read_leaf c gs f x l1 (Ok (v, l2)) ->
  field_ident (lf_name f) = Ok i -> after (pre ++ [f]) x l l2.
Proof.
  intros I G Ec (vs & used & R & Ju) Rl Ef.
  assert (Gd : leaf_good J f).
  { intros U. eapply J_any; eauto. simpl. rewrite Ec. apply in_or_app. right. now left. }
  destruct (leaf_used _ _ _ _ _ Gd Rl) as (k & Jk & Rf). destruct (J_assoc _ _ _ _ _ Ju Jk) as (k' & J1 & J2).
  exists (vs ++ [(i, v)]), k'. split; [eapply rep_snoc; eauto|exact J2].
Qed.

Lemma text_wrong x err : d_text x = Err err -> err = FeTextExpected (xe_tag x) /\ exists k ks, xe_kids x = k :: ks /\ forall s, k <> KText s.
Proof.
  unfold d_text. destruct (xe_kids x) as [|[y|t|t] ks]; try discriminate; intros [= <-]; split; auto; do 2 eexists;
    (split; [reflexivity|]); discriminate.
Qed.
Lemma enum_err vs s err : enum_from_str vs s = Err err -> err = FeInvalidVariant s /\ ~ In s (map snd vs).
Proof.
  induction vs as [|[w l] vs IH]; simpl; [intros [= <-]; auto|]. destruct (String.eqb_spec s l) as [->|N]; [discriminate|].
  intros H. destruct (IH H) as [-> NI]. split; [reflexivity|]. intros [->|I]; auto.
Qed.
Lemma enum_wrong names vs s err : enum_variants names = Ok vs -> enum_from_str vs s = Err err ->
  err = FeInvalidVariant s /\ ~ In s (map nm names).
Proof. intros E H. destruct (enum_variants_spec _ _ E) as (_ & <- & _). now apply enum_err. Qed.
Lemma lit_wrong lit s err : lit_from_str lit s = Err err -> err = FeParseType (xsd_name lit) s /\ prim_from_str (lit_prim lit) s = None.
Proof. unfold lit_from_str. destruct (prim_from_str _ _); [discriminate|]. intros [= <-]. auto. Qed.

Lemma converts_wrong n d a x l s o err : meets n (RootElement d) x l -> In a (ed_attributes d) -> carries x (nm (a_name a)) s ->
  converts c gs (a_content a) s o -> o = Err err -> wrong err.
Proof.
  intros M I Ca Cv E. remember (a_content a) as ct eqn:Ect. destruct Cv as [lit s|f s|m s|m m' k names vs s F Ty Ev]; try discriminate.
  - destruct (lit_wrong _ _ _ E) as [-> N]. eapply wr_literal; [|constructor|exact N]. rewrite Ect. eapply gi_attribute; eassumption.
  - destruct (enum_wrong _ _ _ _ Ev E) as [-> N]. eapply wr_enum_attribute; try eassumption. rewrite <- Ect. exact F.
Qed.

Lemma attrs_wrong n d x l : meets n (RootElement d) x l ->
  forall ats o, read_attrs c gs ats x o -> incl ats (ed_attributes d) -> forall err, o = Err err -> wrong err.
Proof.
  intros M ats o H. revert M. induction H as [e|a ats e y R|a ats e f v o R Ef Rs IH]; intros M S err E; try discriminate.
  - injection E as ->. assert (I : In a (ed_attributes d)) by (apply S; now left). destruct (d_attribute_spec e (nm (a_name a))) as [AS AN].
    inversion R as [|? ? A O|? ? s o A O Cv|? ? s o A O Cv]; subst.
    + eapply wr_attribute; try eassumption. now apply AN.
    + match goal with X : rmap _ _ = _ |- _ => apply rmap_err in X; subst end.
      eapply converts_wrong; try eassumption; [now apply AS|reflexivity].
    + eapply converts_wrong; try eassumption; [now apply AS|reflexivity].
  - apply rmap_err in E. apply IH; auto. intros z I. apply S. now right.
Qed.

(** What has to be shown for the children of an element. *)
Lemma read_wrong :
  (forall ct e l o, read_content c gs ct e l o -> holds ct e l -> forall err, o = Err err -> wrong err)
  /\ (forall ct x o, read_sub c gs ct x o -> holds ct x (xe_children x) -> forall err, o = Err err -> wrong err)
  /\ (forall n r e l o, read_root c gs n r e l o -> meets n r e l -> forall err, o = Err err -> wrong err)
  /\ (forall ec e l o, read_fields c gs ec e l o -> forall n d, meets n (RootElement d) e l -> ed_content d = ec ->
       forall err, o = Err err -> wrong err)
  /\ (forall ls e l o, read_leaves c gs ls e l o -> forall n d l0 pre, meets n (RootElement d) e l0 ->
       ed_content d = Some (EcLeaves (pre ++ ls)) -> after pre e l0 l -> forall err, o = Err err -> wrong err)
  /\ (forall f e l o, read_leaf c gs f e l o -> forall n d l0 pre post, meets n (RootElement d) e l0 ->
       ed_content d = Some (EcLeaves (pre ++ f :: post)) -> after pre e l0 l -> forall err, o = Err err -> wrong err)
  /\ (forall m e l o, read_groups c gs m e l o -> forall l0 k, J k l l0 ->
       (forall k l', J k l' l0 -> holds (LcNamed m) e l') -> forall err, o = Err err -> wrong err)
  /\ (forall n ns ct l o, read_run c gs n ns ct l o ->
       (forall y, In y l -> matches n ns y -> holds ct y (xe_children y)) -> forall err, o = Err err -> wrong err)
  /\ (forall n vs e l o, read_choice c gs n vs e l o -> forall d, meets n (RootChoice d) e l -> incl vs (cd_variants d) ->
       (forall f, In f (cd_variants d) -> In f vs \/
          (forall ns, plain f -> quote_xml_namespace c (lf_name f) = Some ns -> next_is_not (nm (lf_name f)) ns l)
          /\ (forall m, lf_virtual f = true -> ld_content (lf_def f) = LcNamed m -> look_group c gs m l false)) ->
       forall err, o = Err err -> wrong err).
Proof.
  apply read_ind.
  - intros ct lit e l F H err E. destruct (d_text e) as [s|x| |] eqn:T; simpl in E; try discriminate.
    + destruct (lit_from_str lit s) as [w|y| |] eqn:P; simpl in E; try discriminate. injection E as ->.
      destruct (lit_wrong _ _ _ P) as [-> N]. eapply wr_literal; [|exact F|exact N]. eapply gi_text; [exact H|now apply read_text].
    + injection E as ->. destruct (text_wrong _ _ T) as (-> & k & ks & K & N). eapply wr_text; eauto. eapply ti_literal; eauto.
  - intros ct s e l F H err E. destruct (d_text e) as [t|x| |] eqn:T; simpl in E; try discriminate.
    + destruct (String.eqb_spec t s) as [->|N]; [discriminate|]. injection E as <-. eapply wr_fixed; eauto. now apply read_text.
    + injection E as ->. destruct (text_wrong _ _ T) as (-> & k & ks & K & N). eapply wr_text; eauto. eapply ti_fixed; eauto.
  - intros ct m n r e l o F T R IH H err E. eapply IH; eauto. eapply me_named; eauto.
  - intros ct x o R IH H err E. apply rmap_err in E. eauto.
  - intros n d e l o R IH H err E. apply rmap_err in E. eapply IH; eauto. eapply ho_alias; eauto.
  - intros n names vs e l Ev H err E. destruct (d_text e) as [s|x| |] eqn:T; simpl in E; try discriminate.
    + destruct (enum_from_str vs s) as [w|y| |] eqn:P; simpl in E; try discriminate. injection E as ->.
      destruct (enum_wrong _ _ _ _ Ev P) as [-> N]. eapply wr_enum; eauto. now apply read_text.
    + injection E as ->. destruct (text_wrong _ _ T) as (-> & k & ks & K & N). eapply wr_text; eauto. eapply ti_enum; eauto.
  - intros n d e l x R IH H err E. injection E as <-. eapply IH; eauto.
  - intros n d e l l' vs oa R IH Ra H err E. destruct oa as [avs|x| |] eqn:Eo; simpl in E; try discriminate. injection E as ->.
    eapply attrs_wrong; eauto. apply incl_refl.
  - intros n d e l o R IH H err E. eapply IH; eauto. apply incl_refl.
  - intros. discriminate.
  - intros n d f e l o Ef R IH n' d' M Ec err E. apply rmap_err in E. eapply IH; eauto. eapply ho_simple; eauto.
  - intros ls e l o R IH n d M Ec err E. eapply (IH n d l []); eauto. apply after_nil.
  - intros. discriminate.
  - intros f fs e l x R IH n d l0 pre M Ec A err E. injection E as <-. eapply IH; eauto.
  - intros f fs e l l' i v o R IH Ef Rs IHs n d l0 pre M Ec A err E. apply rmap_err in E.
    destruct (meets_known _ _ _ _ M) as [I G]. eapply (IHs n d l0 (pre ++ [f])); eauto; [now rewrite <- app_assoc|].
    eapply after_snoc; eauto.
  - intros f e l o V Ve O R IH n d l0 pre post M Ec A err E. eapply IH; eauto. eapply ho_group; eauto.
  - intros. discriminate.
  - intros f m e l o V Ve O Cm Lk R IH n d l0 pre post M Ec A err E. apply rmap_err in E. eapply IH; eauto. eapply ho_group; eauto.
  - intros f m e l o V Ve Cm R IH n d l0 pre post M Ec A err E. apply rmap_err in E. eapply (IH l []); eauto.
    intros k l' Jk. rewrite <- Cm. eapply ho_group; eauto. congruence.
  - intros f ns e l o V Ve Q R IH n d l0 pre post M Ec A err E. apply rmap_err in E. eapply IH; eauto.
    intros y I Ma. eapply ho_element; eauto.
  - intros. discriminate.
  - intros f ns e x l o V Ve O Q N R IH n d l0 pre post M Ec A err E. apply rmap_err in E. eapply IH; eauto.
    eapply ho_element; eauto; [now left|now apply has_name_matches].
  - intros f ns e l V Ve O U Q N n d l0 pre post M Ec A err E. injection E as <-.
    eapply wr_element; eauto; [intros _; now apply first_is_not|]. unfold anywhere. congruence.
  - intros f ns e x l o V Ve O U Q N R IH n d l0 pre post M Ec A err E. apply rmap_err in E. eapply IH; eauto.
    eapply ho_element; eauto; [now left|now apply has_name_matches].
  - intros f ns e l V Ve O U Q N n d l0 pre post M Ec A err E. injection E as <-.
    eapply wr_element; eauto; [unfold ordered; congruence|]. intros _. eapply Forall_impl; [|exact N]. intros y. apply has_name_not.
  - intros f ns e l1 x l2 o V Ve O U Q Fa N R IH n d l0 pre post M Ec A err E. apply rmap_err in E. eapply IH; eauto.
    eapply ho_element; eauto; [apply in_or_app; right; now left|now apply has_name_matches].
  - intros. discriminate.
  - intros m e l x Lk R IH l0 k Jk H err E. injection E as <-. eapply IH; eauto.
  - intros m e l l' v o Lk R IH Rs IHs l0 k Jk H err E. apply rmap_err in E.
    destruct (content_used _ _ _ _ _ R) as (k2 & J2). destruct (J_assoc _ _ _ _ _ Jk J2) as (k3 & _ & J3). eapply IHs; eauto.
  - intros. discriminate.
  - intros n ns ct x l y N R IH H err E. injection E as <-. eapply IH; eauto. apply H; [now left|now apply has_name_matches].
  - intros n ns ct x l v o N R IH Rs IHs H err E. apply rmap_err in E. eapply IHs; eauto. intros y I. apply H. now right.
  - intros n id e l Ti d M S A err E. injection E as <-. eapply wr_choice; eauto; intros f x I; destruct (A _ I) as [[]|[A1 A2]]; auto.
  - intros n f fs m e l o V Cm Lk R IH d M S A err E. eapply (IH d); eauto; [intros z I; apply S; now right|].
    intros g I. destruct (A _ I) as [[<-|I']|H]; auto. right. split; intros; unfold plain in *; congruence.
  - intros n f fs m i e l o V Cm Lk Ei R IH d M S A err E. apply rmap_err in E. eapply IH; eauto. rewrite <- Cm.
    eapply ho_variant_group; eauto. apply S. now left.
  - intros n f fs ns e l o V Q N R IH d M S A err E. eapply (IH d); eauto; [intros z I; apply S; now right|].
    intros g I. destruct (A _ I) as [[<-|I']|H]; auto. right. split; [|intros; congruence].
    intros ns' _ Q'. replace ns' with ns by congruence. now apply first_is_not.
  - intros n f fs ns i e l o V Q Ve N Ei R IH d M S A err E. apply rmap_err in E. eapply IH; eauto.
    intros y I Ma. eapply ho_variant; eauto. apply S. now left.
  - intros n f fs ns i e x l o V Q Ve N Ei R IH d M S A err E. apply rmap_err in E. eapply IH; eauto.
    eapply ho_variant; eauto; [apply S|..]; [now left..|now apply has_name_matches].
Qed.

Lemma doc_wrong err : read_doc c gs n0 e0 (Err err) -> wrong err.
Proof.
  intros H. inversion H as [? ns ? I Q N|? ns r ? o I Q N G R]; subst.
  - apply wr_root; [exact Q|now apply has_name_not].
  - match goal with X : rmap _ _ = _ |- _ => apply rmap_err in X; subst end.
    destruct read_wrong as (_ & _ & RR & _). eapply RR; eauto. econstructor; eauto. now apply has_name_matches.
Qed.
End Faults.

Lemma shuffle_nil_inv {A} (l l' : list A) : shuffle [] l l' -> l = l'.
Proof. revert l'. induction l as [|x l IH]; intros l' H; inversion H; subst; [reflexivity|]. f_equal. now apply IH. Qed.
Lemma shuffle_back {A} (u k k' : list A) : shuffle u k k' -> forall l1 l2, shuffle l1 l2 u -> exists m, shuffle l2 k m /\ shuffle l1 m k'.
Proof.
  induction 1 as [|x u k k' S IH|x u k k' S IH]; intros l1 l2 H.
  - inversion H; subst. exists []. split; constructor.
  - inversion H as [|? l1' ? ? S'|? ? l2' ? S']; subst; destruct (IH _ _ S') as (m & S1 & S2).
    + exists m. split; [assumption|now constructor].
    + exists (x :: m). split; now constructor.
  - destruct (IH _ _ H) as (m & S1 & S2). exists (x :: m). split; now constructor.
Qed.

Lemma wrong_shuffle {L : Libs} c gs n e err : read_doc c gs n e (Err err) -> wrong c gs shuffle n e err.
Proof.
  apply doc_wrong.
  - apply shuffle_nil_l.
  - intros l l'. apply shuffle_nil_inv.
  - apply shuffle_nil_r.
  - intros x l. apply (shuffle_app [x]).
  - intros k1 l1 l k2 l2 A B. exact (shuffle_assoc _ _ _ A _ _ B).
  - intros l1 l2 u k k' A B. exact (shuffle_back _ _ _ B _ _ A).
  - intros. now constructor.
  - intros. apply shuffle_one.
Qed.
Lemma wrong_appended {L : Libs} c gs n e err : all_ordered c gs -> read_doc c gs n e (Err err) -> wrong c gs appended n e err.
Proof.
  intros O. apply doc_wrong; unfold appended.
  - reflexivity.
  - intros l l' ->. reflexivity.
  - intros l. now rewrite app_nil_r.
  - reflexivity.
  - intros k1 l1 l k2 l2 -> ->. exists (k1 ++ k2). rewrite app_assoc. auto.
  - intros l1 l2 u k k' -> ->. exists (l2 ++ k). rewrite app_assoc. auto.
  - intros x k l l' ->. reflexivity.
  - intros n0 r f I G If U. rewrite (O _ _ _ I G If) in U. discriminate.
Qed.

Lemma fault_true {L : Libs} gfuel c gs p n id e fuel err : generated gfuel c gs p -> In n gs -> type_ident n = Ok id ->
  from_xml p fuel id e = Err err ->
  wrong c gs shuffle n e err /\ (all_ordered c gs -> wrong c gs appended n e err).
Proof.
  intros G I Ti F.
  assert (R : read_doc c gs n e (Err err)) by (apply (decoder_spec gfuel c gs p G n id e (Err err) I Ti); [exact Logic.I|eauto]).
  split; [now apply wrong_shuffle|]. intros O. now apply wrong_appended.
Qed.

(** ** In an xs:all, what is said to be missing is missing *)
Lemma shuffle_in {A} (a b l : list A) x : shuffle a b l -> (In x l <-> In x a \/ In x b).
Proof. induction 1; simpl; tauto. Qed.

Section Absent.
Context {L : Libs}.
Variable c : schema_ctx.
Variable gs : list name.
Variable n0 : name.
Variable e0 : xelem.
Notation J := (@shuffle xelem).

Lemma meets_within : (forall n r x l, meets c gs J n0 e0 n r x l -> within e0 x)
  /\ (forall ct x l, holds c gs J n0 e0 ct x l -> within e0 x).
Proof.
  assert (A : forall n r x l pre l1 y, meets c gs J n0 e0 n r x l -> incl l (xe_children x) -> after c gs J pre x l l1 -> In y l1 -> In y (xe_children x)).
  { intros n r x l pre l1 y _ S (vs & used & _ & Sh) I. apply S. apply (shuffle_in _ _ _ y Sh). now right. }
  assert (B : (forall n r x l, meets c gs J n0 e0 n r x l -> within e0 x /\ incl l (xe_children x))
    /\ (forall ct x l, holds c gs J n0 e0 ct x l -> within e0 x /\ incl l (xe_children x))).
  { apply meets_ind2; auto.
    - intros. split; [constructor|apply incl_refl].
    - intros n d pre f post x l l1 used l2 M [W S] Ec Af V Sh _. split; [exact W|]. intros y I. eapply A; eauto.
      apply (shuffle_in _ _ _ y Sh). now right.
    - intros n d pre f post ns x l l1 y M [W S] Ec Af V Q I Ma. split; [|apply incl_refl]. econstructor; [exact W|]. eapply A; eauto.
    - intros n d f ns x l y M [W S] If V Q I Ma. split; [|apply incl_refl]. econstructor; [exact W|]. auto. }
  destruct B as [B1 B2]. split; intros; [eapply B1|eapply B2]; eauto.
Qed.
Lemma flat_whole : flat_all c gs -> forall n r x l, meets c gs J n0 e0 n r x l -> l = xe_children x.
Proof.
  intros FA.
  assert (B : (forall n r x l, meets c gs J n0 e0 n r x l -> l = xe_children x) /\ (forall ct x l, holds c gs J n0 e0 ct x l -> l = xe_children x)).
  { assert (P : forall n r x l f, meets c gs J n0 e0 n r x l -> In f (leaves_of r) -> lf_virtual f = true -> False).
    { intros n r x l f M I V. destruct (meets_known _ _ _ _ _ _ _ _ _ M) as [In_ G]. destruct (FA _ _ In_ G) as [F _].
      rewrite Forall_forall in F. destruct (F _ I) as [P _]. unfold plain in P. congruence. }
    apply meets_ind2; auto.
    - intros n d pre f post x l l1 used l2 M IH Ec Af V. exfalso. eapply (P _ _ _ _ f M); auto. simpl. rewrite Ec. apply in_or_app. right. now left. }
  apply B.
Qed.

(** Children accounted for by members are named like one of them. *)
Lemma plain_used f v x k : plain f -> rep_leaf c gs J (leftovers J) any_number f v x k ->
  forall y, In y k -> exists ns, quote_xml_namespace c (lf_name f) = Some ns /\ matches (nm (lf_name f)) ns y.
Proof.
  unfold plain. intros P H. inversion H; subst; try congruence; intros y I; try (destruct I as [<-|[]]; eauto).
  - match goal with X : rep_run _ _ _ _ _ _ _ _ _ _, Q : quote_xml_namespace _ _ = Some ?ns |- _ => exists ns; split; [exact Q|]; clear -X I end.
    match goal with X : rep_run _ _ _ _ _ _ _ _ _ _ |- _ => induction X end; [destruct I|destruct I as [<-|I]; auto].
  - destruct I.
Qed.
Lemma members_used : forall pre vs x used, Forall plain pre -> rep_leaves c gs J (leftovers J) any_number pre vs x used ->
  forall y, In y used -> exists f ns, In f pre /\ quote_xml_namespace c (lf_name f) = Some ns /\ matches (nm (lf_name f)) ns y.
Proof.
  induction pre as [|f pre IH]; intros vs x used P H y I; inversion H; subst; [destruct I|].
  inversion P; subst. match goal with X : shuffle _ _ used |- _ => apply (shuffle_in _ _ _ y X) in I end.
  destruct I as [I|I].
  - edestruct plain_used as (ns & Q & M); eauto. exists f, ns. split; [now left|]. auto.
  - edestruct IH as (g & ns & Ig & Q & M); eauto. exists g, ns. split; [now right|]. auto.
Qed.

Lemma wrong_about err : wrong c gs J n0 e0 err -> about c gs n0 e0 err.
Proof.
  destruct meets_within as [MW HW].
  intros [ns Q N|n d pre f post ns x l l1 M Ec Af P S R Q _ _|n d id x l M Ti _ _|n d a x l M I O La|x k ks T K N
         |ct lit s G F N|n names x l s M Ft N|n d a x l m k names s M I Ca F Ty N|ct s x l t H F Ft N]; simpl.
  - now left.
  - right. destruct (meets_known _ _ _ _ _ _ _ _ _ M) as [In_ G]. exists d, (pre ++ f :: post), f.
    split; [eauto|]. split; [exact Ec|]. split; [apply in_or_app; right; now left|]. split; [exact R|]. now split.
  - destruct (meets_known _ _ _ _ _ _ _ _ _ M) as [In_ G]. eauto.
  - destruct (meets_known _ _ _ _ _ _ _ _ _ M) as [In_ G]. split; [exists d, a; split; eauto|]. exists x. split; eauto.
  - exists x, k, ks. split; [|auto]. destruct T as [ct lit x l H|ct s x l H|n names x l M]; eauto.
  - destruct G as [n d a x l s M I Ca|ct x l s H Ft]; exists x; split; eauto.
  - destruct (meets_known _ _ _ _ _ _ _ _ _ M) as [In_ G]. split; [exists x; eauto|]. exists names. eauto.
  - split; [exists x; eauto|]. destruct Ty as (In_ & G & _). exists names. eauto.
  - split; [congruence|]. exists x. eauto.
Qed.

Lemma absent err k ns : flat_all c gs -> wrong c gs J n0 e0 err -> err = FeMissingElement k ns ->
  (k = nm n0 /\ quote_xml_namespace c n0 = Some ns /\ ~ matches k ns e0)
  \/ exists x, within e0 x /\ Forall (fun y => ~ matches k ns y) (xe_children x).
Proof.
  intros FA W E. destruct W as [ns' Q N|n d pre f post ns' x l l1 M Ec Af P S R Q _ An| | | | | | |]; try discriminate; injection E as <- <-.
  - left. auto.
  - right. exists x. split; [eapply (proj1 meets_within); eauto|]. destruct (meets_known _ _ _ _ _ _ _ _ _ M) as [In_ G].
    destruct (FA _ _ In_ G) as [F ND]. simpl in F, ND. rewrite Ec in F, ND.
    pose proof (flat_whole FA _ _ _ _ M) as ->. destruct Af as (vs & used & Rp & Sh).
    apply Forall_app in F. destruct F as [Fp Ff]. inversion Ff as [|? ? [_ Af] _]; subst. specialize (An Af).
    apply Forall_forall. intros y I Ma. apply (shuffle_in _ _ _ y Sh) in I. destruct I as [I|I].
    + destruct (members_used pre vs x used) with (y := y) as (g & ns2 & Ig & Q2 & M2); auto.
      { eapply Forall_impl; [|exact Fp]. simpl. tauto. }
      unfold xnames in ND. rewrite map_app in ND. simpl in ND. apply NoDup_remove_2 in ND. apply ND. apply in_or_app. left.
      apply in_map_iff. exists g. split; [|exact Ig]. destruct Ma as [T1 N1], M2 as [T2 N2]. rewrite Q, Q2. congruence.
    + rewrite Forall_forall in An. exact (An _ I Ma).
Qed.
End Absent.
