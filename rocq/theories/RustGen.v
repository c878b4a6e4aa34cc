(** * RustGen: when the functions of a generated module type-check *)
From Verif Require Import Base Libs Xml Ast Parse Decode Gen Run LitSpec GenSpec GenProof1 DecSpec DecSim DecProof
  RepSpec WfSpec CanonProof2 RustSpec RustProof RustLook.

Section Gen.
Context {L : Libs}.
Variables (gfuel : nat) (c : schema_ctx) (gs : list name) (p : program).
Hypothesis Hp : mapM (generate_element gfuel c) gs = Ok p.

Lemma in_item t : In t p -> exists n r, item c gfuel gs n r t.
Proof.
  intros H. apply mapM_ok in Hp. assert (X : exists n, In n gs /\ generate_element gfuel c n = Ok t).
  { induction Hp as [|n t' l p' Ht F IH]; [destruct H|]. destruct H as [<-|H].
    - exists n. split; [now left|exact Ht].
    - destruct IH as (n' & I' & E); auto. exists n'. split; [now right|exact E]. }
  destruct X as (n & I & E). destruct (item_of c gfuel gs _ _ I E) as (r & K). eauto.
Qed.
Lemma name_item n : In n gs -> exists r t, In t p /\ item c gfuel gs n r t.
Proof.
  intros H. apply mapM_ok in Hp. assert (X : exists t, In t p /\ generate_element gfuel c n = Ok t).
  { revert H. induction Hp as [|n0 t l p' Ht F IH]; intros H; [destruct H|].
    destruct H as [->|H]; [exists t; split; [now left|exact Ht]|].
    destruct IH as (t' & I' & E); auto. exists t'. split; [now right|exact E]. }
  destruct X as (t & It & E). destruct (item_of c gfuel gs _ _ H E) as (r & K). eauto.
Qed.
Lemma defined_named id : defined p id <-> exists n, In n gs /\ type_ident n = Ok id.
Proof.
  split.
  - intros H. apply in_map_iff in H. destruct H as (t & <- & I). destruct (in_item _ I) as (n & r & K).
    exists n. split; [apply (it_in _ _ _ _ _ _ K)|apply (it_id _ _ _ _ _ _ K)].
  - intros (n & I & E). destruct (name_item _ I) as (r & t & It & K). pose proof (it_id _ _ _ _ _ _ K) as E'.
    rewrite E in E'. injection E' as ->. now apply in_map.
Qed.

Lemma rx_ty ct x t : rx_for c ct x -> (exists ct', final c ct ct' /\ ty_is ct' t) -> type_ok p t -> rx_type p x t.
Proof.
  intros (c1 & F1 & X) (c2 & F2 & T) O. pose proof (final_det _ _ _ _ F1 F2) as ->.
  destruct T; inversion X; subst; try solve [constructor]. inversion O; subst.
  match goal with H1 : type_ident m = Ok ?a, H2 : type_ident m = Ok ?b |- _ => assert (a = b) by congruence end.
  subst. constructor. assumption.
Qed.
Lemma wx_ty ct x t : (exists ct', final c ct ct' /\ wx_is ct' x) -> (exists ct', final c ct ct' /\ ty_is ct' t) ->
  type_ok p t -> wx_type p x t.
Proof.
  intros (c1 & F1 & X) (c2 & F2 & T) O. pose proof (final_det _ _ _ _ F1 F2) as ->.
  destruct T; inversion X; subst; try solve [constructor]. inversion O; subst.
  match goal with H1 : type_ident m = Ok ?a, H2 : type_ident m = Ok ?b |- _ => assert (a = b) by congruence end.
  subst. constructor. assumption.
Qed.
(** A content that is not a name, or resolves to a literal, is not written by a call. *)
Lemma wx_keeps ct x : (exists ct', final c ct ct' /\ wx_is ct' x) ->
  (forall m, ct <> LcNamed m) -> keeps_context x.
Proof. intros (c1 & F & X) N. destruct F; try (inversion X; exact I); now destruct (N m). Qed.
Lemma wx_keeps_lit m l x : (exists ct', final c (LcNamed m) ct' /\ wx_is ct' x) ->
  final c (LcNamed m) (LcLiteral l) -> keeps_context x.
Proof. intros (c1 & F & X) K. pose proof (final_det _ _ _ _ F K) as ->. inversion X. exact I. Qed.

Lemma wrap_ty a b t : type_ok p (wrap_opt a (wrap_vec b t)) -> type_ok p t.
Proof. destruct a, b; simpl; intros H; inversion H; subst; auto; now inversion H1. Qed.

(** ** The conditions *)
Definition looks_ok : Prop := forall n r f m, In n gs -> sc_get c n = Some r -> looked r f -> lf_virtual f = true ->
  ld_content (lf_def f) = LcNamed m -> exists id n', look_ident m = Ok id /\ In n' gs /\ type_ident n' = Ok id.

(** ** Leaves *)
Lemma leaf_ty l f t : leaf_to_impl gfuel c l = Ok (f, t) -> exists u,
  field_ident (lf_name l) = Ok f /\ t = wrap_opt (lf_is_optional l) (wrap_vec (lf_is_vec l) u)
  /\ exists ct', final c (ld_content (lf_def l)) ct' /\ ty_is ct' u.
Proof.
  unfold leaf_to_impl, def_to_impl. intros H. apply bind_ok in H. destruct H as (f' & E1 & H).
  apply bind_ok in H. destruct H as (u & E2 & H). injection H as <- <-. exists u. eauto using content_ty.
Qed.

Lemma leaf_read_ok l f t f' r : leaf_to_impl gfuel c l = Ok (f, t) -> leaf_from_xml gfuel c l = Ok (f', r) ->
  type_ok p t ->
  (lf_virtual l = true -> (lf_is_vec l = true \/ lf_is_optional l = true) ->
    forall m, ld_content (lf_def l) = LcNamed m -> exists id, look_ident m = Ok id /\ defined p id) ->
  f = f' /\ fr_type p r t.
Proof.
  intros Ht Hr O Lk. apply leaf_ty in Ht. destruct Ht as (u & Ef & -> & T). apply leaf_fr in Hr. destruct Hr as (Ef' & R).
  rewrite Ef in Ef'. injection Ef' as <-. split; [reflexivity|]. pose proof (wrap_ty _ _ _ O) as Ou.
  destruct R as [x V W P X|m id x V W P C Em X|m id x V W C Em X|ns x V W N X|ns x V W P N X|ns x V W P U N X|ns x V W P U N X];
    try rewrite W; try rewrite P; simpl.
  - constructor. eapply rx_ty; eauto.
  - destruct (Lk V (or_intror P) m C) as (id' & E & D). rewrite Em in E. injection E as <-. rewrite C in T.
    constructor; [exact D|]. eapply rx_ty; eauto.
  - destruct (Lk V (or_introl W) m C) as (id' & E & D). rewrite Em in E. injection E as <-. rewrite C in T.
    constructor; [exact D|]. eapply rx_ty; eauto.
  - constructor. eapply rx_ty; eauto.
  - constructor. eapply rx_ty; eauto.
  - constructor. eapply rx_ty; eauto.
  - constructor. eapply rx_ty; eauto.
Qed.

Lemma leaf_write_ok fs l f t w : leaf_to_impl gfuel c l = Ok (f, t) -> leaf_to_xml gfuel c l = Ok w ->
  type_ok p t -> In (f, t) fs -> wf_ok p fs w.
Proof.
  intros Ht Hw O I. apply leaf_ty in Ht. destruct Ht as (u & Ef & -> & T).
  unfold leaf_to_xml, def_to_xml in Hw. rewrite Ef in Hw. simpl in Hw.
  apply bind_ok in Hw. destruct Hw as (nx & En & Hw). apply bind_ok in Hw. destruct Hw as (x & Ex & Hw).
  apply bind_ok in Hw. destruct Hw as (b & Eb & Hw). injection Hw as <-. apply content_wx in Ex.
  exists u. simpl. split; [exact I|]. pose proof (wrap_ty _ _ _ O) as Ou. split; [eapply wx_ty; eauto|].
  intros ->. unfold leaf_wrap in Eb. destruct (lf_virtual l); [discriminate|].
  destruct (ld_content (lf_def l)) as [lit|m|s] eqn:C.
  - eapply wx_keeps; eauto. discriminate.
  - destruct (resolve gfuel c m) as [[[[[lit|?|?] ? ?]| | |]|]|] eqn:R; try discriminate.
    eapply wx_keeps_lit; [exact Ex|]. eapply literal_resolved; eauto.
  - eapply wx_keeps; eauto. discriminate.
Qed.

(** ** Attributes *)
Lemma attr_ty a f t : attr_to_impl gfuel c a = Ok (f, t) -> exists u,
  field_ident (a_name a) = Ok f /\ t = wrap_opt (a_optional a) u /\ content_to_impl gfuel c (a_content a) = Ok u.
Proof.
  unfold attr_to_impl. intros H. apply bind_ok in H. destruct H as (f' & E1 & H).
  apply bind_ok in H. destruct H as (u & E2 & H). injection H as <- <-. exists u. auto.
Qed.

Hypothesis Hd : decls_ok p.
Notation "'Hnd'" := (ds_distinct p Hd).

Lemma lookup_unique t t' : In t p -> In t' p -> ti_id t = ti_id t' -> t = t'.
Proof.
  intros I I' E. pose proof (lookup_NoDup p Hnd t I) as A. pose proof (lookup_NoDup p Hnd t' I') as B.
  rewrite E in A. congruence.
Qed.
Lemma enum_named m id : type_ident m = Ok id ->
  (is_enum_type p id <-> exists n names, type_of c gs m n (RootEnum names)).
Proof.
  intros E. split.
  - intros (t & vs & I & <- & D). destruct (in_item _ I) as (n & r & K). exists n.
    pose proof (it_decl _ _ _ _ _ _ K) as R. rewrite D in R. destruct r as [d|names|d|d]; simpl in R.
    + apply bind_ok in R. destruct R as (? & ? & R). discriminate.
    + exists names. split; [apply (it_in _ _ _ _ _ _ K)|]. split; [apply (it_get _ _ _ _ _ _ K)|].
      exists (ti_id t). split; [exact E|apply (it_id _ _ _ _ _ _ K)].
    + unfold element_to_impl in R. apply bind_ok in R. destruct R as (? & ? & R). apply bind_ok in R.
      destruct R as (? & ? & R). discriminate.
    + apply bind_ok in R. destruct R as (? & ? & R). discriminate.
  - intros (n & names & I & G & id' & E1 & E2). rewrite E in E1. injection E1 as <-.
    destruct (name_item _ I) as (r & t & It & K). pose proof (it_get _ _ _ _ _ _ K) as G'. rewrite G in G'. injection G' as <-.
    pose proof (it_decl _ _ _ _ _ _ K) as R. simpl in R. apply bind_ok in R. destruct R as (vs & _ & R). injection R as R.
    pose proof (it_id _ _ _ _ _ _ K) as Ei. rewrite E2 in Ei. injection Ei as ->. exists t, vs. auto.
Qed.

Lemma attr_conv a u : content_to_impl gfuel c (a_content a) = Ok u ->
  (ax_type p (content_from_str (a_content a) u) u <-> attribute_ok c gs a).
Proof.
  unfold attribute_ok. intros E. pose proof (content_ty _ _ _ _ E) as (ct' & F & T).
  destruct (a_content a) as [l|m|s]; simpl.
  - inversion F; subst. inversion T; subst. split; [auto|constructor].
  - split.
    + intros H. inversion H as [| |E1|id En E1]; subst.
      * left. inversion T; subst. exists l. auto.
      * right. inversion T as [| |m0 id0 Em0]; subst. destruct (proj1 (enum_named _ _ Em0) En) as (n & names & K). eauto.
    + intros [(lit & F' & P)|(m' & n & names & F' & K)]; pose proof (final_det _ _ _ _ F F') as ->; inversion T; subst.
      * rewrite P. constructor.
      * constructor. eapply enum_named; eauto.
  - inversion F; subst. inversion T; subst. split; [auto|constructor].
Qed.

Lemma attr_read a f t r : attr_to_impl gfuel c a = Ok (f, t) -> attr_from_xml gfuel c a = Ok r ->
  f = ra_field r /\ (ra_type p r t <-> attribute_ok c gs a).
Proof.
  intros Ht Hr. apply attr_ty in Ht. destruct Ht as (u & Ef & -> & Eu).
  unfold attr_from_xml in Hr. rewrite Ef, Eu in Hr. simpl in Hr. injection Hr as <-. split; [reflexivity|].
  rewrite <- (attr_conv a u Eu). unfold ra_type. simpl. destruct (a_optional a); simpl; [|reflexivity].
  split; [intros (u' & E & H); now injection E as <-|eauto].
Qed.

Lemma attr_write fs a f t w : attr_to_impl gfuel c a = Ok (f, t) -> attr_to_xml c a = Ok w ->
  attribute_ok c gs a -> In (f, t) fs -> wa_ok p fs w.
Proof.
  intros Ht Hw K I. apply attr_ty in Ht. destruct Ht as (u & Ef & -> & Eu).
  unfold attr_to_xml in Hw. rewrite Ef in Hw. simpl in Hw. apply bind_ok in Hw. destruct Hw as (nx & En & Hw). injection Hw as <-.
  exists u. simpl. split; [exact I|]. intros N. pose proof (proj2 (attr_conv a u Eu) K) as A.
  destruct (a_content a) as [l|m|s]; simpl in *; [| |discriminate].
  - destruct gfuel; simpl in Eu; injection Eu as <-; constructor.
  - inversion A; subst; now constructor.
Qed.

(** ** Lists of members *)
Lemma F2_length {A B} (P : A -> B -> Prop) l l' : Forall2 P l l' -> length l = length l'.
Proof. induction 1; simpl; congruence. Qed.
Lemma Forall2_zip {A B C} (P : A -> B -> Prop) (Q : A -> C -> Prop) (R : B -> C -> Prop) l l1 l2 :
  Forall2 P l l1 -> Forall2 Q l l2 -> (forall a b d, In a l -> In b l1 -> P a b -> Q a d -> R b d) -> Forall2 R l1 l2.
Proof.
  intros H. revert l2. induction H as [|a b l l1 Hab _ IH]; intros l2 K F; inversion K; subst; constructor.
  - eapply F; eauto; now left.
  - apply IH; [assumption|]. intros. eapply F; eauto; now right.
Qed.
Lemma Forall2_right {A B C} (P : A -> B -> Prop) (Q : A -> C -> Prop) (R : C -> Prop) l l1 l2 :
  Forall2 P l l1 -> Forall2 Q l l2 -> (forall a b d, In a l -> In b l1 -> P a b -> Q a d -> R d) -> Forall R l2.
Proof.
  intros H. revert l2. induction H as [|a b l l1 Hab _ IH]; intros l2 K F; inversion K; subst; constructor.
  - eapply F; eauto; now left.
  - apply IH; [assumption|]. intros. eapply F; eauto; now right.
Qed.
Lemma Forall2_left {A B C} (P : A -> B -> Prop) (Q : A -> C -> Prop) (R : A -> Prop) (S : B -> C -> Prop) l l1 l2 :
  Forall2 P l l1 -> Forall2 Q l l2 -> Forall2 S l1 l2 ->
  (forall a b d, P a b -> Q a d -> S b d -> R a) -> Forall R l.
Proof.
  intros H. revert l2. induction H as [|a b l l1 Hab _ IH]; intros l2 K T F; inversion K; subst; constructor.
  - inversion T; subst. eapply F; eauto.
  - inversion T; subst. eapply IH; eauto.
Qed.

Definition attrs_of (r : root) : Prop := forall a, In a (attributes_of r) -> attribute_ok c gs a.
Definition groups_once (r : root) : Prop :=
  forall d f, r = RootChoice d -> In f (cd_variants d) -> lf_virtual f = true -> lf_is_vec f = false.
Definition looks_of (r : root) : Prop := forall f m, looked r f -> lf_virtual f = true ->
  ld_content (lf_def f) = LcNamed m -> exists id, look_ident m = Ok id /\ defined p id.

Lemma leaves_lk ls ks : leaves_look c ls = Ok ks ->
  ((forall id, In (LkCall id) ks -> defined p id) <->
   forall a f b m, ls = a ++ f :: b -> (forall x, In x a -> lf_is_optional x = true) -> lf_virtual f = true ->
     ld_content (lf_def f) = LcNamed m -> exists id, look_ident m = Ok id /\ defined p id).
Proof.
  revert ks. induction ls as [|l ls IH]; intros ks H; simpl in H.
  - injection H as <-. split; [intros _ a f b m E; destruct a; discriminate|intros _ id []].
  - apply bind_ok in H. destruct H as (k & E & H). apply leaf_lk in E.
    assert (K1 : (forall id, LkCall id = k -> defined p id) <-> (forall m, lf_virtual l = true ->
       ld_content (lf_def l) = LcNamed m -> exists id, look_ident m = Ok id /\ defined p id)).
    { inversion E as [m id V C Em|ns V N]; subst; split.
      - intros A m' _ C'. rewrite C in C'. injection C' as <-. exists id. auto.
      - intros A id' E'. injection E' as ->. destruct (A m V C) as (id2 & E2 & D). congruence.
      - intros _ m V'. congruence.
      - discriminate. }
    destruct (lf_is_optional l) eqn:O.
    + apply bind_ok in H. destruct H as (ks' & E' & H). injection H as <-. specialize (IH _ E'). split.
      * intros A a f b m Es Ao V C. destruct a as [|x a]; injection Es as <- ->.
        -- apply (proj1 K1); auto. intros id' <-. apply A. now left.
        -- apply (proj1 IH) with (a := a) (f := f) (b := b); auto; [intros id' I; apply A; now right|intros y I; apply Ao; now right].
      * intros A id' [E1|I].
        -- apply (proj2 K1); auto. intros m V C. apply (A [] l ls m); auto; intros x [].
        -- apply (proj2 IH); auto. intros a f b m -> Ao V C. apply (A (l :: a) f b m); auto.
           intros x [<-|Ix]; auto.
    + injection H as <-. split.
      * intros A a f b m Es Ao V C. destruct a as [|x a]; injection Es as <- ->.
        -- apply (proj1 K1); auto. intros id' <-. apply A. now left.
        -- rewrite (Ao l) in O; [discriminate|now left].
      * intros A id' [E1|[]]. apply (proj2 K1); auto. intros m V C. apply (A [] l ls m); auto; intros x [].
Qed.

Lemma any_lk ls ks : Forall2 (fun a b => leaf_look c a = Ok b) ls ks ->
  ((forall id, In (LkCall id) ks -> defined p id) <->
   forall f m, In f ls -> lf_virtual f = true ->
     ld_content (lf_def f) = LcNamed m -> exists id, look_ident m = Ok id /\ defined p id).
Proof.
  intros H. split.
  - intros A f m I V C. induction H as [|l k ls ks E F IH]; [destruct I|]. destruct I as [<-|I].
    + apply leaf_lk in E. inversion E as [m' id V' C' Em|ns V' N]; subst; [|congruence].
      rewrite C in C'. injection C' as <-. exists id. split; [exact Em|]. apply A. now left.
    + apply IH; auto. intros id I'. apply A. now right.
  - intros A id I. induction H as [|l k ls ks E F IH]; [destruct I|]. destruct I as [->|I].
    + apply leaf_lk in E. inversion E as [m' id' V' C' Em|ns V' N]; subst.
      destruct (A l m') as (id2 & E2 & D); auto; [now left|]. congruence.
    + apply IH; auto. intros f m I'. apply A. now right.
Qed.

Lemma types_of t : In t p -> Forall (type_ok p) (member_types (ti_decl t)).
Proof.
  intros I. pose proof (ds_decls p Hd) as D. rewrite Forall_forall in D. specialize (D _ I).
  destruct D; simpl; auto. - apply H. - apply H0.
Qed.
Lemma fields_types t fs : In t p -> (ti_decl t = DStruct fs \/ ti_decl t = DChoice fs) ->
  forall f u, In (f, u) fs -> type_ok p u.
Proof.
  intros I E f u J. pose proof (types_of _ I) as D. rewrite Forall_forall in D. apply D.
  destruct E as [-> | ->]; simpl; now apply (in_map snd) in J.
Qed.

Lemma item_iff n r t : In t p -> item c gfuel gs n r t ->
  (functions_ok p t <-> attrs_of r /\ groups_once r /\ looks_of r).
Proof.
  intros It K. pose proof (it_decl _ _ _ _ _ _ K) as D. pose proof (it_write _ _ _ _ _ _ K) as W.
  pose proof (it_read _ _ _ _ _ _ K) as R. pose proof (it_look _ _ _ _ _ _ K) as Lk.
  pose proof (fun fs E => fields_types t fs It E) as FT. pose proof (types_of _ It) as TO.
  unfold functions_ok. destruct r as [d|names|d|d]; simpl in D, W, R, Lk.
  - (* alias *)
    unfold def_to_impl, def_to_xml, def_from_xml in *.
    apply bind_ok in D. destruct D as (u & Eu & D). apply bind_ok in W. destruct W as (x & Ex & W).
    apply bind_ok in R. destruct R as (y & Ey & R). injection D as D. injection W as W. injection R as R. injection Lk as Lk.
    rewrite <- D in TO |- *. rewrite <- W, <- R, <- Lk. simpl in TO. inversion TO; subst.
    apply content_ty in Eu. pose proof (content_wx _ _ _ _ Ex) as Ex'. apply content_rx in Ey.
    split.
    + intros _. split; [intros a []|]. split; [discriminate|]. intros f m Q. inversion Q.
    + intros _. split; [constructor; eapply rx_ty; eauto|]. split; [|constructor]. constructor; [eapply wx_ty; eauto|].
      intros E. eapply wx_keeps; eauto. intros m C. rewrite C in E. discriminate.
  - (* enum *)
    apply bind_ok in D. destruct D as (vs & Eu & D). injection D as D. injection W as W. injection R as R. injection Lk as Lk.
    rewrite <- D, <- W, <- R, <- Lk. split.
    + intros _. split; [intros a []|]. split; [discriminate|]. intros f m Q. inversion Q.
    + intros _. repeat split; constructor.
  - (* element *)
    unfold element_to_impl in D. apply bind_ok in D. destruct D as (fs & Ef & D). apply bind_ok in D.
    destruct D as (ats & Ea & D). injection D as D. rewrite <- D in FT |- *. clear TO.
    unfold element_to_xml in W. apply bind_ok in W. destruct W as (was & Ewa & W). apply bind_ok in W.
    destruct W as (body & Eb & W). injection W as W. rewrite <- W. clear W.
    unfold element_from_xml in R. apply bind_ok in R. destruct R as (frs & Er & R). apply bind_ok in R.
    destruct R as (ras & Era & R). injection R as R. rewrite <- R. clear R.
    apply mapM_ok in Ea. apply mapM_ok in Ewa. apply mapM_ok in Era.
    specialize (FT _ (or_introl eq_refl)).
    split.
    + (* only if *)
      intros (Ro & Wo & Lo). inversion Ro as [| |ds1 ds2 f' a' F1 F2 E1|]; subst.
      assert (ds1 = fs /\ ds2 = ats) as [-> ->].
      { apply F2_length in F1. assert (Len : length frs = length fs).
        { destruct (ed_content d) as [[nn def|ls]|].
          - repeat (apply bind_ok in Ef; destruct Ef as (? & ? & Ef)). repeat (apply bind_ok in Er; destruct Er as (? & ? & Er)).
            injection Ef as <-. injection Er as <-. reflexivity.
          - apply mapM_ok in Ef. apply mapM_ok in Er. apply F2_length in Ef. apply F2_length in Er. congruence.
          - injection Ef as <-. injection Er as <-. reflexivity. }
        rewrite Len in F1. clear -F1 E1. revert fs F1 E1. induction ds1 as [|x ds1 IH]; intros [|y fs] F1 E1; try discriminate; auto.
        injection E1 as -> E1. injection F1 as F1. destruct (IH _ F1 E1) as [-> ->]. auto. }
      split; [|split; [discriminate|]].
      * intros a Ia. assert (A : Forall (attribute_ok c gs) (ed_attributes d)).
        { eapply (Forall2_left _ _ _ _ _ _ _ Ea Era F2). intros a0 [f t0] ra0 H1 H2 (_ & H3).
          destruct (attr_read _ _ _ _ H1 H2) as (_ & H4). now apply H4. }
        rewrite Forall_forall in A. now apply A.
      * intros f m Q V C. inversion Q as [| d0 f0 ls a b Ec Eq Hc]; subst. rewrite Ec in Ef, Er, Lk.
        destruct Hc as [Hc|Hc].
        -- apply mapM_ok in Ef. apply mapM_ok in Er. clear -F1 Ef Er Hc V C Hp Hd.
           assert (X : Forall (fun l => l = f -> exists id, look_ident m = Ok id /\ defined p id) (a ++ f :: b)).
           { eapply (Forall2_left _ _ _ _ _ _ _ Ef Er F1). intros l [g t0] [g' r0] H1 H2 (_ & H3) ->. simpl in H3.
             apply leaf_fr in H2. destruct H2 as (_ & H2).
             destruct H2 as [x V' W' P' X|m' id x V' W' P' C' Em X|m' id x V' W' C' Em X|ns x V'|ns x V'|ns x V'|ns x V']; try congruence.
             - destruct Hc; congruence.
             - rewrite C in C'. injection C' as <-. exists id. split; [exact Em|]. inversion H3; subst. assumption.
             - rewrite C in C'. injection C' as <-. exists id. split; [exact Em|]. inversion H3; subst. assumption. }
           rewrite Forall_forall in X. apply (X f); auto. apply in_app_iff. right. now left.
        -- apply bind_ok in Lk. destruct Lk as (ks & Ek & Lk). injection Lk as Lk. rewrite <- Lk in Lo. inversion Lo; subst.
           eapply (proj1 (leaves_lk _ _ Ek)); eauto.
    + (* if *)
      intros (A & _ & Lo). split; [|split].
      * constructor.
        -- destruct (ed_content d) as [[nn def|ls]|] eqn:Ec.
           ++ unfold def_to_impl, def_from_xml in *. repeat (apply bind_ok in Ef; destruct Ef as (? & ? & Ef)).
              repeat (apply bind_ok in Er; destruct Er as (? & ? & Er)).
              injection Ef as <-. injection Er as <-. repeat constructor; simpl; [congruence|].
              eapply rx_ty; [eapply content_rx; eassumption|eapply content_ty; eassumption|]. eapply FT. now left.
           ++ apply mapM_ok in Ef. apply mapM_ok in Er. eapply (Forall2_zip _ _ _ _ _ _ Ef Er).
              intros l [f t0] [f' r0] Il If H1 H2. simpl. eapply leaf_read_ok; eauto.
              ** eapply FT. apply in_app_iff. left. exact If.
              ** intros V Vo m C. apply (Lo l m); auto. apply in_split in Il. destruct Il as (a & b & ->).
                 econstructor; eauto.
           ++ injection Ef as <-. injection Er as <-. constructor.
        -- eapply (Forall2_zip _ _ _ _ _ _ Ea Era). intros a [f t0] r0 Ia If H1 H2. simpl.
           destruct (attr_read _ _ _ _ H1 H2) as (-> & H3). split; [reflexivity|]. apply H3. now apply A.
      * constructor.
        -- eapply (Forall2_right _ _ _ _ _ _ Ea Ewa). intros a [f t0] w Ia If H1 H2. eapply attr_write; eauto.
           apply in_app_iff. now right.
        -- destruct (ed_content d) as [[nn def|ls]|] eqn:Ec.
           ++ unfold def_to_impl, def_to_xml in *. apply bind_ok in Ef. destruct Ef as (f1 & F1 & Ef).
              apply bind_ok in Ef. destruct Ef as (u & Eu & Ef). injection Ef as <-.
              apply bind_ok in Eb. destruct Eb as (f2 & F2 & Eb). rewrite F1 in F2. injection F2 as <-.
              apply bind_ok in Eb. destruct Eb as (x & Ex & Eb). injection Eb as <-. simpl.
              exists u. split; [now left|]. pose proof (content_wx _ _ _ _ Ex) as Ex'. split.
              ** eapply wx_ty; [exact Ex'|eapply content_ty; eauto|]. eapply FT. now left.
              ** intros E. eapply wx_keeps; [exact Ex'|]. intros m C. destruct def as [ct oo pp]. simpl in C. subst ct.
                 rewrite Bool.andb_comm in E. discriminate.
           ++ apply mapM_ok in Ef. apply bind_ok in Eb. destruct Eb as (ws & Ew & Eb). injection Eb as <-. simpl.
              apply mapM_ok in Ew. eapply (Forall2_right _ _ _ _ _ _ Ef Ew). intros l [f t0] w Il If H1 H2.
              assert (J : In (f, t0) (fs ++ ats)) by (apply in_app_iff; now left).
              eapply leaf_write_ok; eauto.
           ++ injection Eb as <-. exact I.
      * destruct (ed_content d) as [[nn def|ls]|] eqn:Ec.
        -- injection Lk as <-. constructor. intros id [].
        -- apply bind_ok in Lk. destruct Lk as (ks & Ek & Lk). injection Lk as <-. constructor.
           apply (proj2 (leaves_lk _ _ Ek)). intros a f b m -> Ao V C. apply (Lo f m); auto. econstructor; eauto.
        -- injection Lk as <-. constructor. intros id [].
  - (* choice *)
    apply bind_ok in D. destruct D as (vs & Ev & D). injection D as D. rewrite <- D in FT |- *. clear TO.
    specialize (FT _ (or_intror eq_refl)).
    apply bind_ok in W. destruct W as (ws & Ew & W). injection W as W. rewrite <- W. clear W.
    apply bind_ok in R. destruct R as (arms & Er & R). injection R as R. rewrite <- R. clear R.
    apply bind_ok in Lk. destruct Lk as (ks & Ek & Lk). injection Lk as Lk. rewrite <- Lk. clear Lk.
    apply mapM_ok in Ev. apply mapM_ok in Ew. apply mapM_ok in Er. apply mapM_ok in Ek.
    split.
    + intros (Ro & Wo & Lo). split; [intros a []|]. split.
      * intros d' f E If V. injection E as <-. inversion Ro as [| | |vs0 arms0 Fa E1 E2]; subst.
        assert (X : Forall (fun l => lf_virtual l = true -> lf_is_vec l = false) (cd_variants d)).
        { assert (Nd : NoDup (map fst vs)).
          { pose proof (ds_decls p Hd) as DD. rewrite Forall_forall in DD. specialize (DD _ It). rewrite <- D in DD.
            inversion DD; subst. apply H1. }
          clear -Ev Er Fa Nd FT. rewrite Forall_forall. intros l Il Vl.
          assert (Y : exists v t a, In (v, t) vs /\ variant_ident (lf_name l) = Ok v
             /\ (exists u, t = wrap_vec (lf_is_vec l) u /\ exists ct', final c (ld_content (lf_def l)) ct' /\ ty_is ct' u)
             /\ In a arms /\ variant_from_xml gfuel c l = Ok a).
          { clear -Ev Er Il. revert arms Er. induction Ev as [|l0 vt ls vs E F IH]; intros arms Er; [destruct Il|].
            inversion Er as [|? a ? arms' Ea Er']; subst. destruct Il as [<-|Il].
            - apply bind_ok in E. destruct E as (v & E1 & E). apply bind_ok in E. destruct E as (u & E2 & E). injection E as <-.
              exists v, (wrap_vec (lf_is_vec l0) u), a. split; [now left|]. split; [exact E1|]. split; [|split; [now left|exact Ea]].
              exists u. split; [reflexivity|]. eapply content_ty; exact E2.
            - destruct (IH Il _ Er') as (v & t & a' & I1 & I2 & I3 & I4 & I5). exists v, t, a'.
              split; [now right|]. split; [exact I2|]. split; [exact I3|]. split; [now right|exact I5]. }
          destruct Y as (v & t & a & I1 & I2 & (u & -> & T) & I4 & I5).
          rewrite Forall_forall in Fa. specialize (Fa _ I4). apply variant_arm in I5.
          inversion I5 as [v' m id x V' Ev' C Em X|? ? ? V'|? ? ? V']; subst; try congruence.
          rewrite I2 in Ev'. injection Ev' as <-. inversion Fa as [v2 id2 x2 t2 D2 In2 X2| |]; subst.
          assert (t2 = wrap_vec (lf_is_vec l) u) as ->.
          { clear -Nd I1 In2. induction vs as [|[w tw] vs IH]; [destruct I1|]. inversion Nd; subst.
            destruct I1 as [E|I1], In2 as [E'|In2].
            - congruence.
            - injection E as -> _. destruct H1. now apply (in_map fst) in In2.
            - injection E' as -> _. destruct H1. now apply (in_map fst) in I1.
            - auto. }
          destruct (lf_is_vec l); [|reflexivity]. simpl in X2. inversion X2. }
        rewrite Forall_forall in X. auto.
      * intros f m Q V C. inversion Q as [d0 f0 If|]; subst. inversion Lo; subst.
        eapply (proj1 (any_lk _ _ Ek)); eauto.
    + intros (_ & Go & Lo). specialize (Go d). split; [|split].
      * constructor. eapply (Forall2_right _ _ _ _ _ _ Ev Er). intros l [v t0] a Il Iv H1 H2.
        apply bind_ok in H1. destruct H1 as (v' & E1 & H1). apply bind_ok in H1. destruct H1 as (u & E2 & H1). injection H1 as <- <-.
        assert (Tu : type_ok p u). { specialize (FT _ _ Iv). now apply (wrap_ty false (lf_is_vec l)). }
        unfold def_to_impl in E2. apply content_ty in E2. apply variant_arm in H2.
        destruct H2 as [w m id x V' Ev' C Em X|w ns x V' W' Ev' N X|w ns x V' W' Ev' N X];
          rewrite E1 in Ev'; injection Ev' as <-.
        -- destruct (Lo l m) as (id' & E3 & D3); auto; [now constructor|]. rewrite Em in E3. injection E3 as <-.
           rewrite C in E2. econstructor; [exact D3| |eapply rx_ty; eauto]. rewrite (Go l eq_refl Il V') in Iv. exact Iv.
        -- rewrite W' in Iv. econstructor; [exact Iv|eapply rx_ty; eauto].
        -- rewrite W' in Iv. econstructor; [exact Iv|eapply rx_ty; eauto].
      * constructor.
        -- clear -Ev Ew. revert ws Ew. induction Ev as [|l vt ls vs E F IH]; intros ws Ew; [intros ? []|].
           inversion Ew as [|? w ? ws' Ea Ew']; subst. apply bind_ok in E. destruct E as (v & E1 & E). apply bind_ok in E.
           destruct E as (u & E2 & E). injection E as <-. rewrite E1 in Ea. simpl in Ea. apply bind_ok in Ea.
           destruct Ea as (x & _ & Ea). injection Ea as <-. intros z [<-|Iz]; [now left|right]. simpl. now apply (IH _ Ew').
        -- eapply (Forall2_right _ _ _ _ _ _ Ev Ew). intros l [v t0] w Il Iv H1 H2.
           apply bind_ok in H1. destruct H1 as (v' & E1 & H1). apply bind_ok in H1. destruct H1 as (u & E2 & H1). injection H1 as <- <-.
           assert (Tu : type_ok p u). { specialize (FT _ _ Iv). now apply (wrap_ty false (lf_is_vec l)). }
           rewrite E1 in H2. simpl in H2. apply bind_ok in H2. destruct H2 as (x & Ex & H2). injection H2 as <-.
           unfold def_to_impl in E2. unfold def_to_xml in Ex. pose proof (content_wx _ _ _ _ Ex) as Ex'.
           exists u. simpl. split; [exact Iv|]. split; [eapply wx_ty; [exact Ex'|eapply content_ty; eauto|exact Tu]|].
           intros E. eapply wx_keeps; [exact Ex'|]. intros m C. rewrite C in E. discriminate.
      * constructor. apply (proj2 (any_lk _ _ Ek)). intros f m If V C. apply (Lo f m); auto. now constructor.
Qed.

(** The functions of a module whose declarations are fine have exactly three more ways not
    to compile. *)
Lemma functions_iff : Forall (functions_ok p) p <-> attrs_ok c gs /\ choices_ok c gs /\ looks_ok.
Proof.
  rewrite Forall_forall. split.
  - intros H.
    assert (X : forall n r, In n gs -> sc_get c n = Some r -> attrs_of r /\ groups_once r /\ looks_of r).
    { intros n r I G. destruct (name_item _ I) as (r' & t & It & K). pose proof (it_get _ _ _ _ _ _ K) as G'.
      rewrite G in G'. injection G' as <-. apply (item_iff _ _ _ It K). auto. }
    split; [|split].
    + intros n r a I G. now apply (X n r I G).
    + intros n d f I G. destruct (X _ _ I G) as (_ & Q & _). now apply Q.
    + intros n r f m I G Q V C. destruct (X _ _ I G) as (_ & _ & Z). destruct (Z f m Q V C) as (id & E & D).
      apply defined_named in D. destruct D as (n' & I' & E'). eauto.
  - intros (A & B & C) t It. destruct (in_item _ It) as (n & r & K). apply (item_iff _ _ _ It K).
    pose proof (it_in _ _ _ _ _ _ K) as I. pose proof (it_get _ _ _ _ _ _ K) as G. split; [|split].
    + intros a. now apply (A n r).
    + intros d f ->. now apply (B n).
    + intros f m Q V E. destruct (C n r f m I G Q V E) as (id & n' & E1 & I' & E2). exists id. split; [exact E1|].
      apply defined_named. eauto.
Qed.
End Gen.

(** What the theorems about decoding and encoding ask of a schema follows from the module
    being accepted, except that groups are groups. *)
Lemma accepted_compiles {L : Libs} gfuel c gs p : mapM (generate_element gfuel c) gs = Ok p -> rust_ok p ->
  groups_ok c gs -> compiles c gs.
Proof.
  intros Hp [Hd Hf] Hg. pose proof (proj1 (functions_iff gfuel c gs p Hp Hd) Hf) as (A & B & _).
  constructor; auto. intros n r ct m I G Ic F.
  destruct (name_item gfuel c gs p Hp _ I) as (r' & t & It & K). pose proof (it_get _ _ _ _ _ _ K) as G'.
  rewrite G in G'. injection G' as <-. pose proof (types_of p Hd t It) as T. rewrite Forall_forall in T.
  pose proof (it_decl _ _ _ _ _ _ K) as D.
  assert (X : exists u, content_to_impl gfuel c ct = Ok u /\ type_ok p u).
  { assert (Xl : forall ls fs, Forall2 (fun l ft => leaf_to_impl gfuel c l = Ok ft) ls fs ->
      (forall ft, In ft fs -> type_ok p (snd ft)) -> In ct (map (fun f => ld_content (lf_def f)) ls) ->
      exists u, content_to_impl gfuel c ct = Ok u /\ type_ok p u).
    { intros ls fs F2 Q J. apply in_map_iff in J. destruct J as (f & <- & J).
      induction F2 as [|l ft ls fs E F2 IH]; [destruct J|]. destruct J as [->|J]; [|apply IH; auto; intros; apply Q; now right].
      unfold leaf_to_impl, def_to_impl in E. apply bind_ok in E. destruct E as (x & _ & E). apply bind_ok in E.
      destruct E as (u & Eu & E). injection E as <-. exists u. split; [exact Eu|].
      apply (wrap_ty p (lf_is_optional f) (lf_is_vec f)). apply (Q _ (or_introl eq_refl)). }
    destruct r as [d|names|d|d]; simpl in D, Ic.
    - unfold def_to_impl in D. apply bind_ok in D. destruct D as (u & Eu & D). injection D as D. destruct Ic as [<-|[]].
      exists u. split; [exact Eu|]. apply T. rewrite <- D. now left.
    - destruct Ic.
    - unfold element_to_impl in D. apply bind_ok in D. destruct D as (fs & Ef & D). apply bind_ok in D.
      destruct D as (ats & Ea & D). injection D as D. rewrite <- D in T. simpl in T.
      destruct (ed_content d) as [[nn def|ls]|].
      + unfold def_to_impl in Ef. apply bind_ok in Ef. destruct Ef as (f1 & F1 & Ef).
        apply bind_ok in Ef. destruct Ef as (u & Eu & Ef). injection Ef as <-. destruct Ic as [<-|[]].
        exists u. split; [exact Eu|]. apply T. now left.
      + apply mapM_ok in Ef. eapply Xl; eauto. intros ft J. apply T, in_map, in_app_iff. now left.
      + destruct Ic.
    - apply bind_ok in D. destruct D as (vs & Ev & D). injection D as D. rewrite <- D in T. simpl in T. apply mapM_ok in Ev.
      apply in_map_iff in Ic. destruct Ic as (f & <- & J). clear -Ev T J.
      induction Ev as [|l ft ls fs E F2 IH]; [destruct J|]. destruct J as [->|J]; [|apply IH; auto; intros; apply T; now right].
      unfold def_to_impl in E. apply bind_ok in E. destruct E as (x & _ & E). apply bind_ok in E.
      destruct E as (u & Eu & E). injection E as <-. exists u. split; [exact Eu|].
      apply (wrap_ty p false (lf_is_vec f)). apply (T _ (or_introl eq_refl)). }
  destruct X as (u & Eu & To). apply content_ty in Eu. destruct Eu as (ct' & F' & Ty).
  pose proof (final_det _ _ _ _ F F') as <-. inversion Ty as [| |m0 id Em]; subst. inversion To as [| |id0 Di| |]; subst.
  apply (defined_named gfuel c gs p Hp) in Di. destruct Di as (n' & I' & E').
  destruct (name_item gfuel c gs p Hp _ I') as (r' & t' & It' & K'). exists n', r'. split; [exact I'|].
  split; [apply (it_get _ _ _ _ _ _ K')|]. exists id. auto.
Qed.
