(** * TypeProof: decoded values have the declared types *)
From Verif Require Import Base Libs Xml Ast Parse Decode Gen Run CursorSpec GenSpec GenProof1 GenProof2 LitSpec
  DecSpec DecSim DecProof ReadSpec DecProof1 RepSpec RepProof DecProof2 WfSpec WfProof.

Lemma mapM_In {E A B} (f : A -> res E B) l r a : mapM f l = Ok r -> In a l -> exists b, f a = Ok b /\ In b r.
Proof.
  intros H. apply mapM_ok in H. induction H as [|x y l r E0 F IH]; intros I; [destruct I|].
  destruct I as [->|I]; [exists y; split; [exact E0|now left]|].
  destruct (IH I) as (b & Eb & Ib). exists b. split; [exact Eb|now right].
Qed.

Section Typed.
Context {L : Libs}.
Variables (gfuel : nat) (c : schema_ctx) (gs : list name) (p : program).
Hypothesis Hg : generated gfuel c gs p.
Hypothesis Hch : choices_ok c gs.
Variable J : list xelem -> list xelem -> list xelem -> Prop.
Variable K : list xelem -> list xelem -> Prop.
Variable Vc : leaf -> list value -> Prop.

Definition content_type (ct : leaf_content) (t : rty) : Prop := exists ct', final c ct ct' /\ ty_is ct' t.
Definition leaf_type (f : leaf) (t : rty) : Prop :=
  exists t0, content_type (ld_content (lf_def f)) t0 /\ t = wrap_opt (lf_is_optional f) (wrap_vec (lf_is_vec f) t0).
Definition field_types (ec : option element_content) (fs : list (string * rty)) : Prop :=
  match ec with
  | None => fs = []
  | Some (EcLeaf n d) => exists i t, field_ident n = Ok i /\ content_type (ld_content d) t /\ fs = [(i, t)]
  | Some (EcLeaves ls) => Forall2 (fun f it => field_ident (lf_name f) = Ok (fst it) /\ leaf_type f (snd it)) ls fs
  end.
Definition fits (fs : list (string * rty)) (vs : list (string * value)) : Prop :=
  Forall2 (fun f v => fst f = fst v /\ has_type p (snd f) (snd v)) fs vs.

Lemma vec_typed opt t vs : Forall (has_type p t) vs -> has_type p (wrap_opt opt (TVec t)) (vec_value opt vs).
Proof.
  intros H. destruct opt; simpl; [|now constructor]. destruct vs as [|v vs]; [constructor|]. constructor. now constructor.
Qed.

Lemma enum_from_in vs s v : enum_from_str vs s = Ok v -> exists x, v = VEnum x /\ In x (map fst vs).
Proof.
  induction vs as [|[x w] vs IH]; simpl; [discriminate|]. destruct (s =?s w).
  - intros H. injection H as <-. eauto.
  - intros H. destruct (IH H) as (y & -> & I). eauto.
Qed.

Lemma enum_decl n names vs : In n gs -> sc_get c n = Some (RootEnum names) -> enum_variants names = Ok vs ->
  exists t, item c gfuel gs n (RootEnum names) t /\ lookup_item p (ti_id t) = Some t /\ ti_decl t = DEnum vs.
Proof.
  intros I G E. destruct (gen_item _ _ _ _ Hg n _ I G) as (t & It & Lk). exists t. split; [exact It|]. split; [exact Lk|].
  pose proof (it_decl _ _ _ _ _ _ It) as H. simpl in H. rewrite E in H. simpl in H. injection H as H. now symmetry.
Qed.

Lemma attr_typed a v e t : rep_attr c gs a v e -> content_type (a_content a) t -> has_type p (wrap_opt (a_optional a) t) v.
Proof.
  intros H T. assert (Cv : forall s w, converts c gs (a_content a) s (Ok w) -> has_type p t w).
  { intros s w Cv. destruct T as (ct' & F & Ty). remember (Ok w) as o eqn:Eo. revert F.
    destruct Cv as [lit s|fx s|m s (lit & F2 & Ep)|m m' n names vs s F2 T Ev]; intros F.
    - inversion F; subst. inversion Ty; subst. constructor. apply (lit_same_type _ _ _ Eo).
    - inversion F; subst. inversion Ty; subst. injection Eo as <-. constructor.
    - rewrite (final_det _ _ _ _ F F2) in Ty. inversion Ty; subst. rewrite Ep. injection Eo as <-. constructor. exact I.
    - rewrite (final_det _ _ _ _ F F2) in Ty. inversion Ty; subst.
      destruct (enum_from_in _ _ _ Eo) as (x & -> & Ix). destruct T as (I & G & id' & E1 & E2).
      destruct (enum_decl _ _ _ I G Ev) as (t & It & Lk & D). pose proof (it_id _ _ _ _ _ _ It) as Ei.
      assert (id = ti_id t) as -> by congruence. econstructor; [exact Lk|]. rewrite D. now constructor. }
  destruct H as [a e A O|a e s v A O C|a e s v A O C]; rewrite O; simpl.
  - constructor.
  - constructor. eauto.
  - eauto.
Qed.

Lemma rep_typed :
  (forall ct v e l, rep_content c gs J K Vc ct v e l -> forall t, content_type ct t -> has_type p t v)
  /\ (forall ct v x, rep_sub c gs J K Vc ct v x -> forall t, content_type ct t -> has_type p t v)
  /\ (forall n r v e l, rep_root c gs J K Vc n r v e l -> In n gs -> sc_get c n = Some r ->
       forall t, item c gfuel gs n r t -> has_decl p (ti_decl t) v)
  /\ (forall ec vs e l, rep_fields c gs J K Vc ec vs e l -> forall fs, field_types ec fs -> fits fs vs)
  /\ (forall ls vs e l, rep_leaves c gs J K Vc ls vs e l -> forall fs, field_types (Some (EcLeaves ls)) fs -> fits fs vs)
  /\ (forall f v e l, rep_leaf c gs J K Vc f v e l -> forall t, leaf_type f t -> has_type p t v)
  /\ (forall ct vs e l, rep_groups c gs J K Vc ct vs e l -> forall t, content_type ct t -> Forall (has_type p t) vs)
  /\ (forall n ns ct vs l, rep_run c gs J K Vc n ns ct vs l -> forall t, content_type ct t -> Forall (has_type p t) vs)
  /\ (forall f w e l, rep_variant c gs J K Vc f w e l -> (lf_virtual f = true -> lf_is_vec f = false) ->
       forall t, content_type (ld_content (lf_def f)) t -> has_type p (wrap_vec (lf_is_vec f) t) w).
Proof.
  apply rep_ind.
  - intros ct lit s v e F T P t (ct' & F' & Ty). rewrite (final_det _ _ _ _ F' F) in Ty. inversion Ty; subst.
    constructor. apply (lit_same_type _ _ _ P).
  - intros ct s e F T t (ct' & F' & Ty). rewrite (final_det _ _ _ _ F' F) in Ty. inversion Ty; subst. constructor.
  - intros ct m n r v e l F T R IH t (ct' & F' & Ty). rewrite (final_det _ _ _ _ F' F) in Ty. inversion Ty; subst.
    destruct T as (I & G & id' & E1 & E2). destruct (gen_item _ _ _ _ Hg n r I G) as (t & It & Lk).
    assert (id = ti_id t) as -> by (pose proof (it_id _ _ _ _ _ _ It); congruence).
    econstructor; [exact Lk|]. now apply IH.
  - intros ct v x l R IH Jx t T. now apply IH.
  - intros n d v e l R IH I G t It. pose proof (it_decl _ _ _ _ _ _ It) as H. simpl in H. apply bind_ok in H.
    destruct H as (t0 & H & E). injection E as <-. constructor. apply IH. now apply content_ty in H.
  - intros n names vs s v e Ev T P I G t It. pose proof (it_decl _ _ _ _ _ _ It) as H. simpl in H. rewrite Ev in H.
    simpl in H. injection H as <-. destruct (enum_from_in _ _ _ P) as (x & -> & Ix). now constructor.
  - intros n d vs avs e l R IH Ra I G t It. pose proof (it_decl _ _ _ _ _ _ It) as H. simpl in H.
    unfold element_to_impl in H. apply bind_ok in H. destruct H as (fs & Ef & H). apply bind_ok in H.
    destruct H as (ats & Ea & H). injection H as <-. constructor. apply Forall2_app.
    + apply IH. unfold field_types. destruct (ed_content d) as [[n0 d0|ls]|].
      * apply bind_ok in Ef. destruct Ef as (i & Ei & Ef). apply bind_ok in Ef. destruct Ef as (t0 & Et & Ef).
        injection Ef as <-. apply content_ty in Et. exists i, t0. auto.
      * apply mapM_ok in Ef. clear -Ef. induction Ef as [|f [i t0] ls fs E F IH]; [constructor|]. constructor; [|exact IH].
        unfold leaf_to_impl in E. apply bind_ok in E. destruct E as (i' & Ei & E). apply bind_ok in E.
        destruct E as (t1 & Et & E). injection E as <- <-. apply content_ty in Et. split; [exact Ei|]. exists t1. auto.
      * now injection Ef as <-.
    + apply mapM_ok in Ea. clear -Ea Ra Hg. revert avs Ra. induction Ea as [|a [i t0] l ats E F IH]; intros avs Ra; inversion Ra; subst; constructor.
      * unfold attr_to_impl in E. apply bind_ok in E. destruct E as (i' & Ei & E). apply bind_ok in E.
        destruct E as (t1 & Et & E). injection E as <- <-. apply content_ty in Et.
        match goal with X : _ /\ rep_attr _ _ _ _ _ |- _ => destruct X as [X1 X2] end. split; [simpl; congruence|].
        simpl. eapply attr_typed; eassumption.
      * now apply IH.
  - intros n d f i w e l If Ev R IH I G t It. pose proof (it_decl _ _ _ _ _ _ It) as H. simpl in H. apply bind_ok in H.
    destruct H as (vs & H & E). injection E as <-. destruct (mapM_In _ _ _ _ H If) as ([i' t0] & E & Ib).
    apply bind_ok in E. destruct E as (j & Ej & E). apply bind_ok in E. destruct E as (t1 & Et & E). injection E as <- <-.
    assert (j = i) as -> by congruence. econstructor; [exact Ib|]. apply IH; [|now apply content_ty in Et].
    intros V. eapply Hch; eassumption.
  - intros e fs ->. constructor.
  - intros n d f v e l Ei R IH fs (i & t & Ei' & T & ->). constructor; [|constructor]. split; [simpl; congruence|]. now apply IH.
  - intros ls vs e l R IH fs T. now apply IH.
  - intros e fs T. inversion T; subst. constructor.
  - intros f fs i v vs e l1 l2 l R IH Ei Rs IHs Jx ts T. inversion T as [|? [i' t] ? ts' [E1 E2] T']; subst. constructor.
    + split; [simpl in *; congruence|]. now apply IH.
    + now apply IHs.
  - intros f v e l V W O R IH t (t0 & T & ->). rewrite W, O. now apply IH.
  - intros f e V W O t (t0 & T & ->). rewrite O. constructor.
  - intros f v e l V W O R IH t (t0 & T & ->). rewrite W, O. constructor. now apply IH.
  - intros f vs e l V0 W R IH N t (t0 & T & ->). rewrite W. apply vec_typed. now apply IH.
  - intros f ns vs e l V0 W Q R IH N t (t0 & T & ->). rewrite W. apply vec_typed. now apply IH.
  - intros f e V W O t (t0 & T & ->). rewrite O. constructor.
  - intros f ns v x e V W O Q M R IH t (t0 & T & ->). rewrite W, O. constructor. now apply IH.
  - intros f ns v x e V W O Q M R IH t (t0 & T & ->). rewrite W, O. now apply IH.
  - constructor.
  - intros ct v vs e l1 l2 l R IH Rs IHs Jx t T. constructor; auto.
  - constructor.
  - intros n ns ct v vs x l M R IH Rs IHs t T. constructor; auto.
  - intros f w e l V R IH Hv t T. rewrite (Hv V). now apply IH.
  - intros f ns w ws e l V W Q R IH Hv t T. rewrite W. constructor. now apply IH.
  - intros f ns w x e V W Q M R IH Hv t T. rewrite W. now apply IH.
Qed.

Lemma doc_typed n v e id : rep_doc c gs J K Vc n v e -> type_ident n = Ok id -> has_type p (TRef id) v.
Proof.
  intros H Ei. destruct H as [n ns r v e l I Q M G R Jx].
  destruct (gen_item _ _ _ _ Hg n r I G) as (t & It & Lk).
  assert (id = ti_id t) as -> by (pose proof (it_id _ _ _ _ _ _ It); congruence).
  econstructor; [exact Lk|]. eapply (proj1 (proj2 (proj2 rep_typed))); eassumption.
Qed.
End Typed.

Lemma decoded_typed {L : Libs} gfuel c gs p n id e fuel v : generated gfuel c gs p -> choices_ok c gs -> In n gs ->
  type_ident n = Ok id -> from_xml p fuel id e = Ok v -> has_type p (TRef id) v.
Proof.
  intros Hg Hch I Ei H. destruct (described gfuel c gs p n id e fuel v Hg I Ei H) as [D _]. eapply doc_typed; eassumption.
Qed.
