(** * EvoProof2: what generation provides; values that stand for a document *)
From Verif Require Import Base Libs Xml Ast Decode Gen Run CursorSpec CursorProof GenSpec GenProof1 DecSpec DecSim DecProof ReadSpec DecProof1 DecProof2 RepSpec RepProof
  WfSpec WfProof TermProof LlSpec LlProof RoundSpec EvoSpec EvoProof.

Section Facts.
Context {L : Libs}.
Variables (gfuel : nat) (c : schema_ctx) (p : program).
Hypothesis Gen : generated gfuel c (names_in c) p.

Lemma gen_one n r : sc_get c n = Some r -> exists t, generate_element gfuel c n = Ok t /\ In t p.
Proof.
  intros G. apply get_in in G. destruct Gen as [Hp _]. apply mapM_ok in Hp. clear Gen. induction Hp as [|m t l q Ht F IH]; [destruct G|].
  destruct G as [->|G]; [exists t; split; [exact Ht|now left]|]. destruct (IH G) as (u & A & B). exists u. split; [exact A|now right].
Qed.

Lemma mapM_each {E A B} (f : A -> res E B) l o x : mapM f l = Ok o -> In x l -> exists y, f x = Ok y.
Proof. intros H I. apply mapM_ok in H. induction H as [|a b l o Ha F IH]; [destruct I|]. destruct I as [->|I]; eauto. Qed.

Lemma gen_fields n d ls f : sc_get c n = Some (RootElement d) -> ed_content d = Some (EcLeaves ls) -> In f ls -> exists i, field_ident (lf_name f) = Ok i.
Proof.
  intros G E I. destruct (gen_one _ _ G) as (t & H & _). apply generate_element_inv in H. destruct H as (el & id & dd & w & xn & nss & ns & r & lk & G' & _ & H & _).
  rewrite G in G'. injection G' as <-. cbn [root_to_declaration] in H. unfold element_to_impl in H. rewrite E in H. apply bind_ok in H. destruct H as (fs & H & _).
  destruct (mapM_each _ _ _ _ H I) as (y & Hy). unfold leaf_to_impl in Hy. apply bind_ok in Hy. destruct Hy as (i & Hi & _). eauto.
Qed.
Lemma gen_attrs n d a : sc_get c n = Some (RootElement d) -> In a (ed_attributes d) -> exists i, field_ident (a_name a) = Ok i.
Proof.
  intros G I. destruct (gen_one _ _ G) as (t & H & _). apply generate_element_inv in H. destruct H as (el & id & dd & w & xn & nss & ns & r & lk & G' & _ & H & _).
  rewrite G in G'. injection G' as <-. cbn [root_to_declaration] in H. unfold element_to_impl in H. apply bind_ok in H. destruct H as (fs & _ & H).
  apply bind_ok in H. destruct H as (avs & H & _). destruct (mapM_each _ _ _ _ H I) as (y & Hy). unfold attr_to_impl in Hy. apply bind_ok in Hy. destruct Hy as (i & Hi & _). eauto.
Qed.
Lemma gen_enum n names : sc_get c n = Some (RootEnum names) -> exists vs, enum_variants names = Ok vs.
Proof.
  intros G. destruct (gen_one _ _ G) as (t & H & _). apply generate_element_inv in H. destruct H as (el & id & dd & w & xn & nss & ns & r & lk & G' & _ & H & _).
  rewrite G in G'. injection G' as <-. cbn [root_to_declaration] in H. apply bind_ok in H. destruct H as (vs & H & _). eauto.
Qed.
End Facts.

(** ** Decoding *)
Section Decode.
Context {L : Libs}.
Variables (Ns : list (string * option string)) (As : list string) (wide : bool).
Variables (gfuel gfuel' : nat) (c c' : schema_ctx) (p p' : program).
Hypothesis Gen : generated gfuel c (names_in c) p.
Hypothesis Gen' : generated gfuel' c' (names_in c') p'.
Hypothesis Ev : evolves Ns As wide c c'.

Lemma decode_kept n id e fuel o : In n (names_in c) -> type_ident n = Ok id -> unaware Ns As e ->
  from_xml p fuel id e = o -> fin o -> fits wide o -> exists o', alike_v grown o o' /\ yields (fun f => from_xml p' f id e) o'.
Proof.
  intros I Ei U H Fo Fi. assert (Rd : read_doc c (names_in c) n e o) by (apply (decoder_spec gfuel c _ p Gen n id e o I Ei Fo); eauto).
  destruct (doc_kept Ns As wide c c' Ev (same_ident gfuel' c' _ p' Gen') (gen_fields gfuel' c' p' Gen') (gen_attrs gfuel' c' p' Gen') (gen_enum gfuel' c' p' Gen') n e o Rd Fi U) as (o' & Rd' & A).
  exists o'. split; [exact A|]. destruct Gen' as [Hp Hn]. exact (read_doc_complete c' gfuel' _ p' Hp Hn _ _ _ _ Ei Rd').
Qed.
End Decode.

(** ** Values that stand for a document *)
Section Rep.
Context {L : Libs}.
Variables (Ns : list (string * option string)) (As : list string) (wide : bool).
Variables c c' : schema_ctx.
Hypothesis Ev : evolves Ns As wide c c'.
Hypothesis Inj : forall a b id, In a (names_in c') -> In b (names_in c') -> type_ident a = Ok id -> type_ident b = Ok id -> a = b.
Hypothesis Fid : forall n d ls f, sc_get c' n = Some (RootElement d) -> ed_content d = Some (EcLeaves ls) -> In f ls ->
  exists i, field_ident (lf_name f) = Ok i.
Hypothesis Aid : forall n d a, sc_get c' n = Some (RootElement d) -> In a (ed_attributes d) -> exists i, field_ident (a_name a) = Ok i.
Hypothesis Eid : forall n names, sc_get c' n = Some (RootEnum names) -> exists vs, enum_variants names = Ok vs.
Variable J : list xelem -> list xelem -> list xelem -> Prop.
Variable K : list xelem -> list xelem -> Prop.
Variable V : leaf -> list value -> Prop.
Hypothesis Jnil : forall l, J [] l l.
Hypothesis Jin : forall a b l x, J a b l -> In x a \/ In x b -> In x l.
Hypothesis Kin : forall l all x, K l all -> In x l -> In x all.
Hypothesis Vnil : forall f, lf_is_optional f = true -> V f [].
Hypothesis Vsame : forall f f' vs vs', same_leaf f f' -> length vs' = length vs -> V f vs -> V f' vs'.
Notation gs := (names_in c).
Notation gs' := (names_in c').
Notation plain := (unaware [] As).

Lemma plain_kids e x : plain e -> In x (xe_children e) -> plain x.
Proof. intros H I. inversion H as [e0 _ F]; subst. rewrite Forall_forall in F. now apply F. Qed.
Lemma plain_no e a : plain e -> In a As -> d_attribute e a = None.
Proof. intros H. inversion H; subst. auto. Qed.
Definition plains (l : list xelem) : Prop := forall x, In x l -> plain x.
Lemma plains_J a b l : J a b l -> plains l -> plains a /\ plains b.
Proof. intros H P. split; intros x I; apply P; eapply Jin; eauto. Qed.
Lemma plains_K l e : K l (xe_children e) -> plain e -> plains l.
Proof. intros H P x I. eapply plain_kids; eauto. Qed.
Lemma grown_list_length vs vs' : grown_list vs vs' -> length vs' = length vs.
Proof. induction 1; cbn; auto. Qed.

Lemma rep_attr_kept a a' v e : rep_attr c gs a v e -> same_attr a a' -> exists v', rep_attr c' gs' a' v' e /\ grown v v'.
Proof.
  intros H (S1 & S2 & S3). destruct H as [a e N O|a e s v Sm O C|a e s v Sm O C].
  - exists VNone. split; [apply pa_absent; congruence|constructor].
  - destruct (converts_kept Ns As wide c c' Ev Inj Eid _ _ _ C (fits_ok wide v)) as (o' & C' & A). destruct o' as [v'| | |]; cbn in A; try tauto.
    exists (VSome v'). split; [|now constructor]. eapply pa_opt; [rewrite S1; exact Sm|congruence|now rewrite S2].
  - destruct (converts_kept Ns As wide c c' Ev Inj Eid _ _ _ C (fits_ok wide v)) as (o' & C' & A). destruct o' as [v'| | |]; cbn in A; try tauto.
    exists v'. split; [|exact A]. eapply pa_req; [rewrite S1; exact Sm|congruence|now rewrite S2].
Qed.
Lemma rep_attrs_kept ats avs e : rep_attrs c gs ats avs e -> plain e -> forall ats', with_more same_attr (new_attr As) ats ats' ->
  Forall (fun a => exists i, field_ident (a_name a) = Ok i) ats' -> exists avs', rep_attrs c' gs' ats' avs' e /\ grown_fields avs avs'.
Proof.
  intros H P ats' W. revert avs H. induction W as [|x y l l' S W IH|y l l' [O I] W IH]; intros avs H Id.
  - inversion H; subst. exists []. split; constructor.
  - inversion H as [|? [i v] ? avs0 [Ei Ha] Hs]; subst. inversion Id; subst. destruct (IH _ Hs) as (avs' & Hs' & G); auto.
    destruct (rep_attr_kept _ y _ _ Ha S) as (v' & Ha' & G'). exists ((i, v') :: avs'). split; [|now constructor]. constructor; [|exact Hs'].
    split; [destruct S as (-> & _); exact Ei|exact Ha'].
  - inversion Id as [|? ? (i & Ei) Id']; subst. destruct (IH _ H Id') as (avs' & Hs' & G). exists ((i, VNone) :: avs'). split; [|now constructor].
    constructor; [|exact Hs']. split; [exact Ei|]. apply pa_absent; [eapply plain_no; eauto|exact O].
Qed.

Lemma new_rep f e : new_optional Ns c' f -> rep_leaf c' gs' J K V f VNone e [].
Proof.
  intros [(Vf & ns & Q & I) O]. destruct (lf_is_vec f) eqn:Ve.
  - assert (R : rep_leaf c' gs' J K V f (vec_value (lf_is_optional f) []) e []) by (eapply pl_run; eauto; constructor). rewrite O in R. exact R.
  - now apply pl_none.
Qed.
Lemma wm_in {A} (same : A -> A -> Prop) new x l l' : with_more same new l l' -> In x l -> exists y, In y l' /\ same x y.
Proof.
  induction 1 as [|a b l l' S W IH|b l l' N W IH]; intros I; [destruct I| |].
  - destruct I as [->|I]; [exists b; cbn; auto|]. destruct (IH I) as (y & Iy & Sy). exists y. cbn. auto.
  - destruct (IH I) as (y & Iy & Sy). exists y. cbn. auto.
Qed.

Ltac rp := match goal with
  | S1 : lf_name _ = _, S2 : ld_content _ = _ |- _ => first [solve [rewrite ?S1, ?S2, ?(quote_same Ns As wide c c' Ev); eauto] | congruence] end.

Lemma rep_kept :
  (forall ct v e l, rep_content c gs J K V ct v e l -> plain e -> plains l -> exists v', rep_content c' gs' J K V ct v' e l /\ grown v v')
  /\ (forall ct v x, rep_sub c gs J K V ct v x -> plain x -> exists v', rep_sub c' gs' J K V ct v' x /\ grown v v')
  /\ (forall n r v e l, rep_root c gs J K V n r v e l -> plain e -> plains l -> forall r', sc_get c' n = Some r' -> grown_root Ns As wide c' r r' ->
    exists v', rep_root c' gs' J K V n r' v' e l /\ grown v v')
  /\ (forall ec vs e l, rep_fields c gs J K V ec vs e l -> plain e -> plains l -> forall n d, sc_get c' n = Some (RootElement d) -> grown_content Ns c' ec (ed_content d) ->
    exists vs', rep_fields c' gs' J K V (ed_content d) vs' e l /\ grown_fields vs vs')
  /\ (forall ls vs e l, rep_leaves c gs J K V ls vs e l -> plain e -> plains l -> forall ls', with_more same_leaf (new_optional Ns c') ls ls' ->
    Forall (fun f => exists i, field_ident (lf_name f) = Ok i) ls' -> exists vs', rep_leaves c' gs' J K V ls' vs' e l /\ grown_fields vs vs')
  /\ (forall f v e l, rep_leaf c gs J K V f v e l -> plain e -> plains l -> forall f', same_leaf f f' -> exists v', rep_leaf c' gs' J K V f' v' e l /\ grown v v')
  /\ (forall ct vs e l, rep_groups c gs J K V ct vs e l -> plain e -> plains l -> exists vs', rep_groups c' gs' J K V ct vs' e l /\ grown_list vs vs')
  /\ (forall n ns ct vs l, rep_run c gs J K V n ns ct vs l -> plains l -> exists vs', rep_run c' gs' J K V n ns ct vs' l /\ grown_list vs vs')
  /\ (forall f w e l, rep_variant c gs J K V f w e l -> plain e -> plains l -> forall f', same_leaf f f' -> exists w', rep_variant c' gs' J K V f' w' e l /\ grown w w').
Proof.
  assert (NEWS : forall news l' vs vs' e l, Forall (new_optional Ns c') news -> Forall (fun f => exists i, field_ident (lf_name f) = Ok i) news ->
    rep_leaves c' gs' J K V l' vs' e l -> grown_fields vs vs' -> exists vs2, rep_leaves c' gs' J K V (news ++ l') vs2 e l /\ grown_fields vs vs2).
  { intros news l' vs vs' e l N. induction N as [|y news N Nf IHn]; intros Fi H' G; [exists vs'; auto|]. inversion Fi as [|? ? (i & Ei) Fi2]; subst.
    destruct IHn as (vs2 & H2 & G2); auto. exists ((i, VNone) :: vs2). split; [|now constructor]. cbn [app]. eapply pv_cons; eauto. now apply new_rep. }
  apply rep_ind.
  - intros ct lit s v e Fi T Ls P Pl. exists v. split; [|eapply lit_value; eauto]. eapply pc_lit; eauto. eapply final_lit; eauto.
  - intros ct s e Fi T P Pl. exists VUnit. split; [|constructor]. eapply pc_fixed; eauto. eapply final_fixed; eauto.
  - intros ct m n r v e l Fi T R IH P Pl. destruct (type_kept Ns As wide c c' Ev _ _ _ T) as (r' & T' & G).
    destruct (IH P Pl r' (proj1 (proj2 T')) G) as (v' & R' & A). exists v'. split; [|exact A]. eapply pc_named; eauto. eapply final_named; eauto.
  - intros ct v x l R IH Kl P. destruct (IH P (plains_K _ _ Kl P)) as (v' & R' & A). exists v'. split; [|exact A]. econstructor; eauto.
  - intros n d v e l R IH P Pl r' G Gr. inversion Gr as [d0 d' E| | | |]; subst. destruct (IH P Pl) as (v' & R' & A). exists (VTuple v'). split; [|now constructor]. apply pr_leaf. now rewrite E.
  - intros n names vs s v e E T Es P Pl r' G Gr. assert (X : exists names', r' = RootEnum names') by (inversion Gr; subst; eauto). destruct X as (names' & ->).
    destruct (enum_kept Ns As wide c' Eid names names' vs s Gr E) as (vs' & E' & Es'); [eauto|rewrite Es; apply fits_ok|]. exists v. split.
    + eapply pr_enum; eauto. now rewrite Es'.
    + apply enum_from_str_value in Es. destruct Es as (x & ->). constructor.
  - intros n d vs avs e l R IH Ra P Pl r' G Gr. inversion Gr as [| | |d0 d' Gc Ga Gv|]; subst. destruct (IH P Pl n d' G Gc) as (vs' & R' & A).
    destruct (rep_attrs_kept _ _ _ Ra P _ Ga) as (avs' & Ra' & Aa). { apply Forall_forall. intros a Ia. eapply Aid; eauto. }
    exists (VStruct (vs' ++ avs')). split; [now apply pr_element|]. constructor. clear - A Aa. induction A; cbn [app]; [exact Aa|constructor; auto|constructor; auto].
  - intros n d f i w e l If Ei R IH P Pl r' G Gr. inversion Gr as [| | | |d0 d' W Gv]; subst. destruct (wm_in _ _ _ _ _ W If) as (f' & If' & S).
    destruct (IH P Pl f' S) as (w' & R' & A). exists (VChoice i w'). split; [|now constructor]. eapply pr_choice; eauto. destruct S as (-> & _). exact Ei.
  - intros e P Pl n d G Gc. inversion Gc as [E E'|ls N E E'| |].
    + exists []. split; constructor.
    + destruct (NEWS ls [] [] [] e [] N) as (vs2 & H2 & G2). { apply Forall_forall. intros f If. eapply Fid; eauto. } { constructor. } { constructor. }
      rewrite app_nil_r in H2. exists vs2. split; [now constructor|exact G2].
  - intros n d f v e l Ei R IH P Pl n' d2 G Gc. inversion Gc as [| |n0 d0 d' E E0 E'|]; subst. destruct (IH P Pl) as (v' & R' & A).
    exists [(f, v')]. split; [apply pf_leaf; [exact Ei|now rewrite E]|]. repeat constructor. exact A.
  - intros ls vs e l R IH P Pl n d G Gc. inversion Gc as [| | |ls0 ls' W E0 E']; subst. destruct (IH P Pl ls' W) as (vs' & R' & A). { apply Forall_forall. intros f If. eapply Fid; eauto. }
    exists vs'. split; [now constructor|exact A].
  - intros e P Pl ls' W Id. apply wm_nil_inv in W. destruct (NEWS ls' [] [] [] e [] W Id) as (vs2 & H2 & G2); [constructor|constructor|]. rewrite app_nil_r in H2. eauto.
  - intros f fs i v vs e l1 l2 l R IH Ei Rs IHs Jl P Pl ls' W Id. destruct (plains_J _ _ _ Jl Pl) as [P1 P2]. apply wm_cons_inv in W. destruct W as (news & y & rest & -> & N & S & W).
    apply Forall_app in Id. destruct Id as [I1 I2]. inversion I2 as [|? ? I3 I4]; subst. destruct (IH P P1 y S) as (v' & R' & A). destruct (IHs P P2 rest W I4) as (vs' & Rs' & As').
    eapply (NEWS news (y :: rest) _ ((i, v') :: vs')); auto; [|now constructor]. eapply pv_cons; eauto. destruct S as (-> & _). exact Ei.
  - intros f v e l Vf Ve O R IH P Pl f' (S1 & S2 & S3 & S4 & S5 & S6). destruct (IH P Pl) as (v' & R' & A). exists v'. split; [|exact A]. apply pl_group; rp.
  - intros f e Vf Ve O P Pl f' (S1 & S2 & S3 & S4 & S5 & S6). exists VNone. split; [|constructor]. apply pl_group_no; rp.
  - intros f v e l Vf Ve O R IH P Pl f' (S1 & S2 & S3 & S4 & S5 & S6). destruct (IH P Pl) as (v' & R' & A). exists (VSome v'). split; [|now constructor]. apply pl_group_yes; rp.
  - intros f vs e l Vf Ve R IH Vc P Pl f' S. pose proof S as (S1 & S2 & S3 & S4 & S5 & S6). destruct (IH P Pl) as (vs' & R' & A). exists (vec_value (lf_is_optional f') vs').
    split; [|rewrite S5; now apply vec_grown]. apply pl_groups; try rp. exact (Vsame f f' vs vs' S (grown_list_length _ _ A) Vc).
  - intros f ns vs e l Vf Ve Q R IH Vc P Pl f' S. pose proof S as (S1 & S2 & S3 & S4 & S5 & S6). destruct (IH Pl) as (vs' & R' & A). exists (vec_value (lf_is_optional f') vs').
    split; [|rewrite S5; now apply vec_grown]. eapply pl_run; try rp. exact (Vsame f f' vs vs' S (grown_list_length _ _ A) Vc).
  - intros f e Vf Ve O P Pl f' (S1 & S2 & S3 & S4 & S5 & S6). exists VNone. split; [|constructor]. apply pl_none; rp.
  - intros f ns v x e Vf Ve O Q M R IH P Pl f' (S1 & S2 & S3 & S4 & S5 & S6). destruct (IH (Pl x (or_introl eq_refl))) as (v' & R' & A). exists (VSome v'). split; [|now constructor]. eapply pl_some; rp.
  - intros f ns v x e Vf Ve O Q M R IH P Pl f' (S1 & S2 & S3 & S4 & S5 & S6). destruct (IH (Pl x (or_introl eq_refl))) as (v' & R' & A). exists v'. split; [|exact A]. eapply pl_one; rp.
  - intros ct e P Pl. exists []. split; constructor.
  - intros ct v vs e l1 l2 l R IH Rs IHs Jl P Pl. destruct (plains_J _ _ _ Jl Pl) as [P1 P2]. destruct (IH P P1) as (v' & R' & A). destruct (IHs P P2) as (vs' & Rs' & As').
    exists (v' :: vs'). split; [|now constructor]. econstructor; eauto.
  - intros n ns ct Pl. exists []. split; constructor.
  - intros n ns ct v vs x l M R IH Rs IHs Pl. destruct (IH (Pl x (or_introl eq_refl))) as (v' & R' & A). destruct IHs as (vs' & Rs' & As'). { intros y I. apply Pl. now right. }
    exists (v' :: vs'). split; [|now constructor]. econstructor; eauto.
  - intros f w e l Vf R IH P Pl f' (S1 & S2 & S3 & S4 & S5 & S6). destruct (IH P Pl) as (w' & R' & A). exists w'. split; [|exact A]. apply px_group; rp.
  - intros f ns w ws e l Vf Ve Q R IH P Pl f' (S1 & S2 & S3 & S4 & S5 & S6). destruct (IH Pl) as (vs' & R' & A). inversion A as [|? w' ? ws' Gw Gs]; subst.
    exists (VVec (w' :: ws')). split; [|now repeat constructor]. eapply px_run; rp.
  - intros f ns w x e Vf Ve Q M R IH P Pl f' (S1 & S2 & S3 & S4 & S5 & S6). destruct (IH (Pl x (or_introl eq_refl))) as (w' & R' & A). exists w'. split; [|exact A]. eapply px_one; rp.
Qed.

Lemma rep_doc_kept n v e : rep_doc c gs J K V n v e -> plain e -> exists v', rep_doc c' gs' J K V n v' e /\ grown v v'.
Proof.
  intros H P. destruct H as [n ns r v e l I Q M G R Kl]. destruct (ev_roots _ _ _ _ _ Ev _ _ G) as (r' & G' & Gr). destruct rep_kept as (_ & _ & X & _).
  destruct (X _ _ _ _ _ R P (plains_K _ _ Kl P) r' G' Gr) as (v' & R' & A). exists v'. split; [|exact A].
  econstructor; eauto; [eapply gs_kept; eauto|erewrite quote_same; eauto].
Qed.
End Rep.
