(** * StableProof: decoded values are canonical *)
From Verif Require Import Base Libs Xml Ast Decode Gen Run TextSpec LitSpec NumProof MiscSpec MiscProof GenSpec GenProof1 GenProof2 DecSpec DecProof RepSpec WfSpec
  WfCheck CanonSpec CanonProof StableSpec.

Lemma rox_in ats q s : rox_attribute ats q = Some s -> exists a, In a ats /\ at_value a = s.
Proof.
  induction ats as [|a ats IH]; simpl; [discriminate|]. destruct (_ && _).
  - intros H. injection H as <-. eauto.
  - intros H. destruct (IH H) as (b & I & E). eauto.
Qed.

Section Stable.
Context {L : Libs}.
Hypothesis laws : scalar_laws L.

Lemma tidy_text e s : tidy e -> d_text e = Ok s -> text_ok s.
Proof.
  intros [e' T _ _] H. unfold d_text in H. destruct (xe_kids e') as [|[x|t|x] ks] eqn:E; try discriminate.
  - injection H as <-. apply laws.
  - injection H as <-. apply T. now left.
Qed.
Lemma tidy_attr e q s : tidy e -> d_attribute e q = Some s -> attr_ok s.
Proof.
  intros [e' _ A _] H. unfold d_attribute in H. apply rox_in in H. destruct H as (a & I & <-). auto.
Qed.

Lemma lit_again lit s v : lit_from_str lit s = Ok v ->
  exists s', value_to_string v = Some s' /\ lit_from_str lit s' = Ok v /\ (text_ok s -> text_ok s') /\ (attr_ok s -> attr_ok s').
Proof.
  intros H. unfold lit_from_str in *. destruct (prim_from_str (lit_prim lit) s) as [w|] eqn:E; [|discriminate]. injection H as ->.
  assert (Sc : scalar v -> exists s', value_to_string v = Some s' /\ (text_ok s -> text_ok s') /\ (attr_ok s -> attr_ok s')).
  { intros S. destruct v; try contradiction; eexists; (split; [reflexivity|]); split; intros _; eapply (sl_text laws); try exact S; reflexivity. }
  destruct (lit_prim lit) eqn:P; simpl in E.
  - injection E as <-. exists s. repeat split; auto.
  - destruct (bool_from_str s) as [b|]; [|discriminate]. injection E as <-. destruct (Sc I) as (s' & V & T & A). exists s'. repeat split; auto.
    injection V as <-. simpl. now rewrite bool_from_str_show.
  - destruct (parse_signed i64_min i64_max s) as [z|] eqn:Z; [|discriminate]. injection E as <-. destruct (Sc I) as (s' & V & T & A). exists s'. repeat split; auto.
    injection V as <-. simpl. apply parse_signed_iff in Z. rewrite parse_signed_show; [reflexivity|]. apply Z.
  - destruct (parse_unsigned u64_max s) as [n|] eqn:Z; [|discriminate]. injection E as <-. destruct (Sc I) as (s' & V & T & A). exists s'. repeat split; auto.
    injection V as <-. simpl. apply parse_unsigned_iff in Z. destruct Z as [_ Z].
    assert (show_Z (Z.of_N n) = show_N n) as -> by (destruct n; reflexivity). now rewrite parse_unsigned_show.
  - destruct (parse_signed i32_min i32_max s) as [z|] eqn:Z; [|discriminate]. injection E as <-. destruct (Sc I) as (s' & V & T & A). exists s'. repeat split; auto.
    injection V as <-. simpl. apply parse_signed_iff in Z. rewrite parse_signed_show; [reflexivity|]. apply Z.
  - destruct (dec_from_str s) as [d|] eqn:Z; [|discriminate]. injection E as <-. destruct (Sc I) as (s' & V & T & A). exists s'. repeat split; auto.
    injection V as <-. simpl. now rewrite (sl_dec laws _ _ Z).
  - destruct (f32_from_str s) as [d|] eqn:Z; [|discriminate]. injection E as <-. destruct (Sc I) as (s' & V & T & A). exists s'. repeat split; auto.
    injection V as <-. simpl. now rewrite (sl_f32 laws _ _ Z).
Qed.
Lemma enum_again names vs s v : enum_variants names = Ok vs -> enum_from_str vs s = Ok v ->
  exists x, v = VEnum x /\ enum_as_str vs x = Some s.
Proof.
  intros E H. apply enum_variants_spec in E. destruct E as (N & _). induction vs as [|[x l] vs IH]; simpl in *; [discriminate|].
  inversion N as [|? ? N1 N2]; subst. destruct (s =?s l) eqn:Q.
  - apply String.eqb_eq in Q. subst. injection H as <-. exists x. now rewrite String.eqb_refl.
  - destruct (IH N2 H) as (y & -> & A). exists y. split; auto. destruct (y =?s x) eqn:Y; auto.
    apply String.eqb_eq in Y. subst. exfalso. apply N1. rewrite enum_as_str_aget in A. clear -A.
    induction vs as [|[z l] vs IH]; simpl in *; [discriminate|]. destruct (x =?s z) eqn:Q; [apply String.eqb_eq in Q; auto|auto].
Qed.

Variable c : schema_ctx.
Variable gs : list name.
Variables (J : list xelem -> list xelem -> list xelem -> Prop) (K : list xelem -> list xelem -> Prop) (V : leaf -> list value -> Prop).
Hypothesis HJ : forall a b l, J a b l -> incl a l /\ incl b l.
Hypothesis HK : forall l all, K l all -> incl l all.
Hypothesis Hfix : fixed_ok c gs.
(** No repeated group directly inside a choice. *)
Hypothesis Hch : choices_ok c gs.
Let vn := true.

Notation ok l := (Forall tidy l).
Lemma incl_ok l all : incl l all -> ok all -> ok l.
Proof. intros I H. rewrite Forall_forall in *. auto. Qed.

Lemma attrs_canon n r avs e : In n gs -> sc_get c n = Some r -> forall ats, incl ats (attributes_of r) -> tidy e ->
  rep_attrs c gs ats avs e -> canon_attrs c gs ats avs.
Proof.
  intros I G ats Inc T H. induction H as [|a [i v] ats avs [Ei Ra] H IH]; [constructor|]. constructor.
  - simpl in *. split; auto.
    assert (Sh : forall s v, d_attribute e (nm (a_name a)) = Some s -> converts c gs (a_content a) s (Ok v) -> exists s', shown_attr c gs (a_content a) v s' /\ attr_ok s').
    { intros s w D Cv. pose proof (tidy_attr _ _ _ T D) as A. remember (Ok w) as o. remember (a_content a) as ct eqn:Ec.
      destruct Cv as [lit s|f s|m s Al|m m' n' names vs s F Ty Ev].
      - destruct (lit_again _ _ _ Heqo) as (s' & V1 & V2 & _ & V3). exists s'. split; auto. now constructor.
      - injection Heqo as <-. exists f. split; [constructor|]. eapply Hfix; eauto. apply Inc. now left.
      - injection Heqo as <-. exists s. split; auto. now constructor.
      - destruct (enum_again _ _ _ _ Ev Heqo) as (x & -> & As). exists s. split; auto. eapply sa_enum; eauto. }
    destruct Ra as [a e D O|a e s v D O Cv|a e s v D O Cv].
    + now constructor.
    + destruct (Sh _ _ D Cv) as (s' & S1 & S2). eapply ca_some; eauto.
    + destruct (Sh _ _ D Cv) as (s' & S1 & S2). eapply ca_one; eauto.
  - apply IH. intros x Ix. apply Inc. now right.
Qed.

Lemma rep_canon :
  (forall ct v e l, rep_content c gs J K V ct v e l -> tidy e -> ok l -> canon_content c gs vn ct v) /\
  (forall ct v x, rep_sub c gs J K V ct v x -> tidy x -> canon_content c gs vn ct v) /\
  (forall n r v e l, rep_root c gs J K V n r v e l -> In n gs -> sc_get c n = Some r -> tidy e -> ok l -> canon_root c gs vn n r v) /\
  (forall ec vs e l, rep_fields c gs J K V ec vs e l -> tidy e -> ok l -> canon_fields c gs vn ec vs) /\
  (forall ls vs e l, rep_leaves c gs J K V ls vs e l -> tidy e -> ok l -> canon_leaves c gs vn ls vs) /\
  (forall f v e l, rep_leaf c gs J K V f v e l -> tidy e -> ok l -> canon_leaf c gs vn f v) /\
  (forall ct vs e l, rep_groups c gs J K V ct vs e l -> tidy e -> ok l -> canon_each c gs vn ct vs) /\
  (forall n ns ct vs l, rep_run c gs J K V n ns ct vs l -> ok l -> canon_each c gs vn ct vs) /\
  (forall f w e l, rep_variant c gs J K V f w e l -> tidy e -> ok l -> (lf_virtual f = true -> lf_is_vec f = false) -> canon_variant c gs vn f w).
Proof.
  apply rep_ind.
  - intros ct lit s v e F D Lv T _. destruct (lit_again _ _ _ Lv) as (s' & V1 & V2 & V3 & _). eapply cc_lit; eauto. apply V3. eapply tidy_text; eauto.
  - intros ct s e F D T _. eapply cc_fixed; eauto. eapply tidy_text; eauto.
  - intros ct m n r v e l F Ty _ IH T O. pose proof Ty as (I & G & _). eapply cc_named; eauto.
  - intros ct v x l _ IH Kx T. apply IH; auto. eapply incl_ok; [apply HK, Kx|]. destruct T as [x _ _ T]. apply Forall_forall. exact T.
  - intros n d v e l _ IH I G T O. constructor. auto.
  - intros n names vs s v e Ev D Fr I G T _. destruct (enum_again _ _ _ _ Ev Fr) as (x & -> & As). eapply cr_enum; eauto. eapply tidy_text; eauto.
  - intros n d vs avs e l _ IH Ra I G T O. constructor; auto. eapply (attrs_canon n); eauto. apply incl_refl.
  - intros n d f i w e l If Ei _ IH I G T O. eapply cr_choice; [exact If|exact Ei|]. apply IH; auto. intros Vf. eapply Hch; eauto.
  - intros e T _. constructor.
  - intros n d f v e l Ei _ IH T O. constructor; auto.
  - intros ls vs e l _ IH T O. constructor. auto.
  - intros e T _. constructor.
  - intros f fs i v vs e l1 l2 l _ IH1 Ei _ IH2 Jl T O. destruct (HJ _ _ _ Jl). constructor; auto; [apply IH1|apply IH2]; eauto using incl_ok.
  - intros f v e l Vf Vc Op _ IH T O. apply cl_one; auto.
  - intros f e Vf Vc Op T O. apply cl_none; auto.
  - intros f v e l Vf Vc Op _ IH T O. apply cl_some; auto.
  - intros f vs e l Vf Vc _ IH _ T O. apply cl_vec; auto. intros X. discriminate.
  - intros f ns vs e l Vf Vc Q _ IH _ T O. apply cl_vec; auto. intros X. discriminate.
  - intros f e Vf Vc Op T O. apply cl_none; auto.
  - intros f ns v x e Vf Vc Op Q M _ IH T O. inversion O; subst. apply cl_some; auto.
  - intros f ns v x e Vf Vc Op Q M _ IH T O. inversion O; subst. apply cl_one; auto.
  - intros ct e T O. constructor.
  - intros ct v vs e l1 l2 l _ IH1 _ IH2 Jl T O. destruct (HJ _ _ _ Jl). constructor; [apply IH1|apply IH2]; eauto using incl_ok.
  - intros n ns ct O. constructor.
  - intros n ns ct v vs x l M _ IH1 _ IH2 O. inversion O; subst. constructor; auto.
  - intros f w e l Vf _ IH T O Nv. apply cv_one; auto.
  - intros f ns w ws e l Vf Vc Q _ IH T O Nv. apply cv_vec; auto.
  - intros f ns w x e Vf Vc Q M _ IH T O Nv. inversion O; subst. apply cv_one; auto.
Qed.

Lemma doc_canon n v e r : rep_doc c gs J K V n v e -> sc_get c n = Some r -> tidy e -> canon_root c gs vn n r v.
Proof.
  intros [n' ns r' v' e' l I Q M G R Kl] G' T. rewrite G in G'. injection G' as <-.
  destruct rep_canon as (_ & _ & X & _). eapply X; eauto. eapply incl_ok; [apply HK, Kl|]. destruct T as [x _ _ T]. apply Forall_forall. exact T.
Qed.
End Stable.

Lemma shuffle_incl {A} (a b l : list A) : shuffle a b l -> incl a l /\ incl b l.
Proof.
  induction 1 as [|x a b l H [I1 I2]|x a b l H [I1 I2]]; split; intros y Y; auto; try (right; auto; fail);
    destruct Y as [->|Y]; [now left|right; auto|now left|right; auto].
Qed.
