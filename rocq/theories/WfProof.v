(** * WfProof: lookahead and progress, termination, typing of decoded values *)
From Verif Require Import Base Libs Xml Ast Parse Decode Gen Run CursorSpec GenSpec GenProof1 GenProof2 LitSpec
  DecSpec DecSim DecProof ReadSpec DecProof1 RepSpec RepProof DecProof2 WfSpec.

Lemma shuffle_length {A} (a b l : list A) : shuffle a b l -> length l = length a + length b.
Proof. induction 1; simpl; lia. Qed.

Section Wf.
Context {L : Libs}.
Variables (gfuel : nat) (c : schema_ctx) (gs : list name) (p : program).
Hypothesis Hg : generated gfuel c gs p.
Let Hp := proj1 Hg.
Let Hnd := proj2 Hg.

Lemma same_ident n m id : In n gs -> In m gs -> type_ident n = Ok id -> type_ident m = Ok id -> n = m.
Proof.
  intros In_ Im En Em. pose proof Hp as F. apply mapM_ok in F. pose proof Hnd as N.
  assert (K : forall l q x, Forall2 (fun n t => generate_element gfuel c n = Ok t) l q -> In x l -> type_ident x = Ok id ->
              In id (map ti_id q)).
  { intros l q x H. induction H as [|a t l q Ha H IH]; intros I E; [destruct I|]. destruct I as [->|I]; [|right; auto].
    left. apply generate_element_inv in Ha. destruct Ha as (el & i & d & w & xn & nss & ns & r & lk0 & _ & E1 & _ & _ & _ & _ & _ & _ & _ & ->).
    simpl. congruence. }
  clear Hp Hnd Hg. revert In_ Im N. induction F as [|a t l q Ha F IH]; intros In_ Im N; [destruct In_|].
  inversion N as [|? ? N1 N2]; subst.
  assert (Hd : forall x, type_ident x = Ok id -> a = x -> ti_id t = id).
  { intros x E ->. apply generate_element_inv in Ha. destruct Ha as (el & i & d & w & xn & nss & ns & r & lk0 & _ & E1 & _ & _ & _ & _ & _ & _ & _ & ->).
    simpl. congruence. }
  destruct In_ as [<-|In_]; destruct Im as [<-|Im]; auto.
  - exfalso. apply N1. rewrite (Hd a En eq_refl). eapply K; eauto.
  - exfalso. apply N1. rewrite (Hd a Em eq_refl). eapply K; eauto.
Qed.

Lemma look_id m l b : look_group c gs m l b -> exists id, look_ident m = Ok id.
Proof. intros H. inversion H; subst; match goal with X : group_of _ _ _ _ _ |- _ => destruct X as (_ & _ & id & X & _) end; eauto. Qed.

Lemma look_det m l b b' : look_group c gs m l b -> look_group c gs m l b' -> b = b'.
Proof.
  intros H H'. destruct (look_id _ _ _ H) as (id & E).
  destruct (complete_look c gfuel gs p Hp Hnd _ _ _ _ H E) as (N & A).
  destruct (complete_look c gfuel gs p Hp Hnd _ _ _ _ H' E) as (N' & A').
  specialize (A (N + N') ltac:(lia)). specialize (A' (N + N') ltac:(lia)). congruence.
Qed.

Lemma group_here m n r : is_group c gs m -> group_of c gs m n r -> n = m.
Proof.
  intros (I & (id & T & Lk) & _) (I' & _ & id' & E & E'). rewrite Lk in E. injection E as <-.
  eapply same_ident; eassumption.
Qed.
Lemma type_here m n r : is_group c gs m -> type_of c gs m n r -> n = m.
Proof.
  intros (I & (id & T & Lk) & _) (I' & _ & id' & E & E'). rewrite T in E. injection E as <-.
  eapply same_ident; eassumption.
Qed.
Lemma group_final m ct : is_group c gs m -> final c (LcNamed m) ct -> ct = LcNamed m.
Proof. intros (_ & _ & [[d G]|[d G]]) F; inversion F; subst; congruence. Qed.

Lemma good_any f : leaf_good shuffle f.
Proof. intros _ l1 x l2. apply shuffle_one. Qed.
Lemma goods_any ls : Forall (leaf_good shuffle) ls.
Proof. apply Forall_forall. intros f _. apply good_any. Qed.

Lemma reads_shuffle :
  (forall ct e l v l', read_content c gs ct e l (Ok (v, l')) -> exists k, shuffle k l' l)
  /\ (forall ls e l v l', read_leaves c gs ls e l (Ok (v, l')) -> exists k, shuffle k l' l)
  /\ (forall f e l v l', read_leaf c gs f e l (Ok (v, l')) -> exists k, shuffle k l' l)
  /\ (forall m e l v l', read_groups c gs m e l (Ok (v, l')) -> exists k, shuffle k l' l)
  /\ (forall n ns ct l v l', read_run c gs n ns ct l (Ok (v, l')) -> exists k, shuffle k l' l)
  /\ (forall n vs e l v l', read_choice c gs n vs e l (Ok (v, l')) -> exists k, shuffle k l' l).
Proof.
  assert (RR := read_rep c gs shuffle shuffle_nil_l (fun x l => sh_left x [] l l (shuffle_nil_l l))
    (fun k1 l1 l k2 l2 H => shuffle_assoc k1 l1 l H k2 l2)
    (fun x k l l' H => sh_left x k l' l H) (fun n r f _ _ _ _ l1 x l2 => shuffle_one l1 x l2)).
  destruct RR as (A & _ & _ & _ & B & C & D & E & F).
  repeat split; intros.
  - destruct (A _ _ _ _ H _ _ eq_refl) as (k & S & _). eauto.
  - destruct (B _ _ _ _ H (goods_any _) _ _ eq_refl) as (k & S & _). eauto.
  - destruct (C _ _ _ _ H (good_any _) _ _ eq_refl) as (k & S & _). eauto.
  - destruct (D _ _ _ _ H _ _ eq_refl) as (k & S & _). eauto.
  - destruct (E _ _ _ _ _ H _ _ eq_refl) as (k & S & _). eauto.
  - destruct (F _ _ _ _ _ H _ _ eq_refl) as (k & f & i & w & S & _). eauto.
Qed.

Lemma read_len :
  (forall ls e l v l', read_leaves c gs ls e l (Ok (v, l')) -> length l' <= length l)
  /\ (forall m e l v l', read_groups c gs m e l (Ok (v, l')) -> length l' <= length l)
  /\ (forall n ns ct l v l', read_run c gs n ns ct l (Ok (v, l')) -> length l' <= length l).
Proof.
  destruct reads_shuffle as (_ & B & _ & D & E & _). repeat split; intros.
  - destruct (B _ _ _ _ _ H) as (k & S). apply shuffle_length in S. lia.
  - destruct (D _ _ _ _ _ H) as (k & S). apply shuffle_length in S. lia.
  - destruct (E _ _ _ _ _ _ H) as (k & S). apply shuffle_length in S. lia.
Qed.

Definition leaf_ok (f : leaf) : Prop :=
  lf_virtual f = true -> exists m, ld_content (lf_def f) = LcNamed m /\ is_group c gs m.
Hypothesis Hok : groups_ok c gs.
Lemma leaves_ok n r : In n gs -> sc_get c n = Some r -> Forall leaf_ok (leaves_of r).
Proof. intros I G. apply Forall_forall. intros f If V. eapply Hok; eassumption. Qed.

(** ** An optional member the lookahead denies consumes nothing *)
Ltac unrmap := repeat match goal with
  | X : rmap _ _ = Ok _ |- _ => apply rmap_ok in X; destruct X as ((? & ?) & -> & X); injection X as -> ->
  | X : Ok _ = rmap _ _ |- _ => symmetry in X
  | X : rmap _ _ = Ok _ |- _ => apply rmap_ok in X; destruct X as (? & -> & X); injection X as -> ->
  end.

Lemma skip_leaf f e l v l' : look_leaf c gs f l false -> lf_is_optional f = true ->
  read_leaf c gs f e l (Ok (v, l')) -> l' = l.
Proof.
  intros Lk O R. remember false as b eqn:Eb. destruct Lk as [f m l b V C G|f ns l V Q]; subst.
  - inversion R; subst; try congruence; unrmap; auto.
    + assert (m0 = m) as -> by congruence. assert (true = false); [eapply look_det; eassumption|discriminate].
    + assert (m0 = m) as -> by congruence.
      match goal with X : read_groups _ _ _ _ _ _ |- _ => inversion X; subst; auto end;
      exfalso; assert (true = false); [eapply look_det; eassumption|discriminate].
  - rename Eb into F. inversion R; subst; try congruence; unrmap; auto.
    + assert (ns0 = ns) as -> by congruence.
      match goal with X : read_run _ _ _ _ _ _ _ |- _ => inversion X; subst; auto end; simpl in F; congruence.
    + assert (ns0 = ns) as -> by congruence. simpl in F. congruence.
Qed.

Lemma first_run n ns ct l v l' : first_is n ns l = true -> read_run c gs n ns ct l (Ok (v, l')) -> length l' < length l.
Proof.
  intros F R. inversion R; subst; try congruence. unrmap. simpl.
  match goal with X : read_run _ _ _ _ _ _ _ |- _ => apply (proj2 (proj2 read_len)) in X end. lia.
Qed.

Lemma progress :
  (forall m l b, look_group c gs m l b -> b = true -> is_group c gs m -> forall e v l',
     read_content c gs (LcNamed m) e l (Ok (v, l')) -> length l' < length l)
  /\ (forall f l b, look_leaf c gs f l b -> b = true -> leaf_ok f ->
     (forall e v l', read_leaf c gs f e l (Ok (v, l')) -> length l' < length l)
     /\ (forall n fs e v l', read_choice c gs n (f :: fs) e l (Ok (v, l')) -> length l' < length l))
  /\ (forall ls l b, look_seq c gs ls l b -> b = true -> Forall leaf_ok ls -> forall e v l',
     read_leaves c gs ls e l (Ok (v, l')) -> length l' < length l)
  /\ (forall ls l b, look_any c gs ls l b -> b = true -> Forall leaf_ok ls -> forall n e v l',
     read_choice c gs n ls e l (Ok (v, l')) -> length l' < length l).
Proof.
  assert (NG : forall m n r, is_group c gs m -> group_of c gs m n r ->
            (exists d, r = RootElement d) \/ (exists d, r = RootChoice d)).
  { intros m n r Ig Go. rewrite (group_here _ _ _ Ig Go) in Go. destruct Go as (_ & G & _).
    destruct Ig as (_ & _ & [[d G']|[d G']]); rewrite G in G'; injection G' as ->; eauto. }
  assert (RC : forall m e l v l', is_group c gs m -> read_content c gs (LcNamed m) e l (Ok (v, l')) ->
            exists r, sc_get c m = Some r /\ read_root c gs m r e l (Ok (v, l'))).
  { intros m e l v l' Ig R. inversion R; subst.
    - match goal with X : final _ _ _ |- _ => apply (group_final _ _ Ig) in X; discriminate end.
    - match goal with X : final _ _ _ |- _ => apply (group_final _ _ Ig) in X; discriminate end.
    - match goal with X : final _ _ _ |- _ => apply (group_final _ _ Ig) in X; injection X as -> end.
      match goal with X : type_of _ _ _ _ _ |- _ => pose proof (type_here _ _ _ Ig X) as ->; destruct X as (_ & G & _) end.
      eauto. }
  apply look_ind.
  - intros m n d l G _ Ig. destruct (NG _ _ _ Ig G) as [[? E]|[? E]]; discriminate.
  - intros m n d l G _ Ig. destruct (NG _ _ _ Ig G) as [[? E]|[? E]]; discriminate.
  - discriminate.
  - intros m n d ls l b G C S IH E Ig e v l' R. pose proof (group_here _ _ _ Ig G) as ->.
    destruct G as (I & G & _). destruct (RC _ _ _ _ _ Ig R) as (r & G' & Rr). rewrite G in G'. injection G' as <-.
    inversion Rr; subst. rewrite C in *.
    match goal with X : bind _ _ = Ok _ |- _ => apply bind_ok in X; destruct X as (? & _ & X); injection X as _ -> end.
    match goal with X : read_fields _ _ _ _ _ _ |- _ => inversion X; subst end.
    eapply IH; [reflexivity| |eassumption]. pose proof (leaves_ok _ _ I G) as K. simpl in K. now rewrite C in K.
  - intros m n d l b G S IH E Ig e v l' R. pose proof (group_here _ _ _ Ig G) as ->.
    destruct G as (I & G & _). destruct (RC _ _ _ _ _ Ig R) as (r & G' & Rr). rewrite G in G'. injection G' as <-.
    inversion Rr; subst. eapply IH; [reflexivity| |eassumption]. exact (leaves_ok _ _ I G).
  - intros f m l b V C G IH -> Ok_. destruct (Ok_ V) as (m' & C' & Ig). assert (m' = m) as -> by congruence.
    specialize (IH eq_refl Ig). split.
    + intros e v l' R. inversion R; subst; try congruence; unrmap.
      * eapply IH. rewrite <- C. eassumption.
      * assert (m0 = m) as -> by congruence. assert (false = true); [eapply look_det; eassumption|discriminate].
      * eapply IH. rewrite <- C. eassumption.
      * assert (m0 = m) as -> by congruence. match goal with X : read_groups _ _ _ _ _ _ |- _ => inversion X; subst end; unrmap.
        -- exfalso. assert (false = true); [eapply look_det; eassumption|discriminate].
        -- match goal with X : read_groups _ _ _ _ ?k _, Y : read_content _ _ _ _ _ _ |- _ =>
             apply (proj1 (proj2 read_len)) in X; apply IH in Y end. lia.
    + intros n fs e v l' R. inversion R; subst; try congruence; unrmap.
      * assert (m0 = m) as -> by congruence. exfalso. assert (false = true); [eapply look_det; eassumption|discriminate].
      * assert (m0 = m) as -> by congruence. eapply IH. eassumption.
  - intros f ns l V Q F _. destruct l as [|x l]; [discriminate|]. split.
    + intros e v l' R. inversion R; subst; try congruence; unrmap.
      * assert (ns0 = ns) as -> by congruence. eapply first_run; eassumption.
      * simpl. lia.
      * simpl. lia.
      * rewrite !app_length. simpl. lia.
    + intros n fs e v l' R. inversion R; subst; try congruence; unrmap.
      * assert (ns0 = ns) as -> by congruence. eapply first_run; eassumption.
      * simpl. lia.
  - discriminate.
  - intros f fs l Lf IH _ K e v l' R. inversion K; subst. inversion R; subst. unrmap.
    match goal with X : read_leaf _ _ _ _ _ _ |- _ => apply (proj1 (IH eq_refl H1)) in X end.
    match goal with X : read_leaves _ _ fs _ _ _ |- _ => apply (proj1 read_len) in X end. lia.
  - discriminate.
  - intros f fs l b Lf _ O S IH -> K e v l' R. inversion K; subst. inversion R; subst. unrmap.
    match goal with X : read_leaf _ _ _ _ _ _ |- _ => apply (skip_leaf _ _ _ _ _ Lf O) in X; subst end.
    eapply IH; [reflexivity|assumption|eassumption].
  - discriminate.
  - intros f fs l Lf IH _ K n e v l' R. inversion K; subst. eapply (proj2 (IH eq_refl H1)). exact R.
  - intros f fs l b Lf _ S IH -> K n e v l' R. inversion K; subst.
    inversion R; subst; try congruence; unrmap.
    + eapply IH; [reflexivity|assumption|eassumption].
    + exfalso. inversion Lf; subst; [|congruence]. assert (m0 = m) as -> by congruence.
      assert (false = true); [eapply look_det; eassumption|discriminate].
    + eapply IH; [reflexivity|assumption|eassumption].
    + exfalso. inversion Lf; subst; [congruence|]. assert (ns0 = ns) as -> by congruence. congruence.
    + exfalso. inversion Lf; subst; [congruence|]. assert (ns0 = ns) as -> by congruence. simpl in *. congruence.
Qed.

(** ** What generation guarantees about a type *)
Lemma gen_item n r : In n gs -> sc_get c n = Some r -> exists t, item c gfuel gs n r t /\ lookup_item p (ti_id t) = Some t.
Proof.
  intros I G. assert (X : exists t, generate_element gfuel c n = Ok t).
  { pose proof Hp as F. apply mapM_ok in F. clear -F I. induction F as [|n0 t l p' Ht F IH]; [destruct I|].
    destruct I as [->|I]; [eauto|auto]. }
  destruct X as (t & Gt). destruct (item_of c gfuel gs n t I Gt) as (r' & It).
  destruct (item_named c gfuel gs p Hp Hnd n (ti_id t) I (it_id _ _ _ _ _ _ It)) as (r2 & t2 & It2 & Ei & Lk).
  pose proof (it_get _ _ _ _ _ _ It2) as G2. rewrite G in G2. injection G2 as <-.
  exists t2. split; [exact It2|]. congruence.
Qed.

Lemma gen_contents n r ct : In n gs -> sc_get c n = Some r -> In ct (contents r) -> exists ct', final c ct ct'.
Proof.
  intros I G Ic. destruct (gen_item _ _ I G) as (t & It & _). pose proof (it_read _ _ _ _ _ _ It) as H.
  destruct r as [d|ns|d|d]; simpl in *.
  - destruct Ic as [<-|[]]. apply bind_ok in H. destruct H as (x & H & _). apply content_rx in H. destruct H as (ct' & F & _). eauto.
  - destruct Ic.
  - unfold element_from_xml in H. apply bind_ok in H. destruct H as (fs & H & _).
    destruct (ed_content d) as [[n0 d0|ls]|]; simpl in Ic.
    + destruct Ic as [<-|[]]. apply bind_ok in H. destruct H as (i & _ & H). apply bind_ok in H. destruct H as (x & H & _).
      apply content_rx in H. destruct H as (ct' & F & _). eauto.
    + apply in_map_iff in Ic. destruct Ic as (f & <- & If). apply mapM_ok in H.
      clear -H If. induction H as [|f0 [i r] ls fs E F IH]; [destruct If|]. destruct If as [->|If]; [|auto].
      unfold leaf_from_xml in E. apply bind_ok in E. destruct E as (? & _ & E). apply bind_ok in E. destruct E as (? & _ & E).
      apply bind_ok in E. destruct E as (rx0 & E & _). apply content_rx in E. destruct E as (ct' & K & _). eauto.
    + destruct Ic.
  - apply bind_ok in H. destruct H as (arms & H & _). apply mapM_ok in H. apply in_map_iff in Ic. destruct Ic as (f & <- & If).
    clear -H If. induction H as [|f0 a ls fs E F IH]; [destruct If|]. destruct If as [->|If]; [|auto].
    unfold variant_from_xml in E. apply bind_ok in E. destruct E as (? & _ & E).
    apply bind_ok in E. destruct E as (rx0 & E & _). apply content_rx in E. destruct E as (ct' & K & _). eauto.
Qed.

Lemma gen_member n d ls f : In n gs -> sc_get c n = Some (RootElement d) -> ed_content d = Some (EcLeaves ls) -> In f ls ->
  (exists i, field_ident (lf_name f) = Ok i) /\ exists ns, quote_xml_namespace c (lf_name f) = Some ns.
Proof.
  intros I G C If. destruct (gen_item _ _ I G) as (t & It & _). pose proof (it_read _ _ _ _ _ _ It) as H. simpl in H.
  unfold element_from_xml in H. rewrite C in H. apply bind_ok in H. destruct H as (fs & H & _). apply mapM_ok in H.
  clear -H If. induction H as [|f0 [i r] ls fs E F IH]; [destruct If|]. destruct If as [->|If]; [|auto].
  unfold leaf_from_xml in E. apply bind_ok in E. destruct E as (j & E1 & E). apply bind_ok in E. destruct E as (ns & E2 & _).
  apply xml_ns_ok in E2. eauto.
Qed.

Lemma gen_variant n d f : In n gs -> sc_get c n = Some (RootChoice d) -> In f (cd_variants d) ->
  (exists i, variant_ident (lf_name f) = Ok i) /\ exists ns, quote_xml_namespace c (lf_name f) = Some ns.
Proof.
  intros I G If. destruct (gen_item _ _ I G) as (t & It & _). pose proof (it_read _ _ _ _ _ _ It) as H. simpl in H.
  apply bind_ok in H. destruct H as (fs & H & _). apply mapM_ok in H.
  clear -H If. induction H as [|f0 a ls fs E F IH]; [destruct If|]. destruct If as [->|If]; [|auto].
  unfold variant_from_xml in E. apply bind_ok in E. destruct E as (j & E1 & E). apply bind_ok in E. destruct E as (x & _ & E).
  apply bind_ok in E. destruct E as (ns & E2 & _). apply xml_ns_ok in E2. eauto.
Qed.

Lemma gen_enum n names : In n gs -> sc_get c n = Some (RootEnum names) -> exists vs, enum_variants names = Ok vs.
Proof.
  intros I G. destruct (gen_item _ _ I G) as (t & It & _). pose proof (it_decl _ _ _ _ _ _ It) as H. simpl in H.
  apply bind_ok in H. destruct H as (vs & H & _). eauto.
Qed.

Lemma gen_simple n d n0 d0 : In n gs -> sc_get c n = Some (RootElement d) -> ed_content d = Some (EcLeaf n0 d0) ->
  exists i, field_ident n0 = Ok i.
Proof.
  intros I G C. destruct (gen_item _ _ I G) as (t & It & _). pose proof (it_read _ _ _ _ _ _ It) as H. simpl in H.
  unfold element_from_xml in H. rewrite C in H. apply bind_ok in H. destruct H as (fs & H & _).
  apply bind_ok in H. destruct H as (i & H & _). eauto.
Qed.

Lemma gen_attr n d a : In n gs -> sc_get c n = Some (RootElement d) -> In a (ed_attributes d) ->
  exists i, field_ident (a_name a) = Ok i.
Proof.
  intros I G Ia. destruct (gen_item _ _ I G) as (t & It & _). pose proof (it_read _ _ _ _ _ _ It) as H. simpl in H.
  unfold element_from_xml in H. apply bind_ok in H. destruct H as (fs & _ & H). apply bind_ok in H. destruct H as (ras & H & _).
  apply mapM_ok in H. clear -H Ia. induction H as [|f0 r ls fs E F IH]; [destruct Ia|]. destruct Ia as [->|Ia]; [|auto].
  unfold attr_from_xml in E. apply bind_ok in E. destruct E as (j & E1 & _). eauto.
Qed.
End Wf.
