(** * EncProof: the encoder's output is balanced; tagged types write one element *)
From Verif Require Import Base Libs Xml Ast Parse Decode Writer Gen Run CursorSpec GenSpec GenProof1 GenProof2
  DecSpec DecSim DecProof ReadSpec DecProof1 RepSpec RepProof WriterSpec EncSpec WfSpec WfProof.

Lemma balanced_app a b : balanced a -> balanced b -> balanced (a ++ b).
Proof.
  intros A B. induction A as [|s l A IH|n ats nss x l X IX A IH]; simpl; [exact B|now constructor|].
  rewrite <- app_assoc. simpl. now constructor.
Qed.
Lemma balanced_elem n ats nss b : balanced b -> balanced (EvStart n ats nss :: b ++ [EvEnd]).
Proof. intros B. constructor; [exact B|constructor]. Qed.
Lemma balanced_text (s : string) : balanced (if is_empty s then [] else [EvChars s]).
Proof. destruct (is_empty s); repeat constructor. Qed.

Lemma set_nss_virtual nss : forall c, wc_virtual (set_nss nss c) = wc_virtual c.
Proof. induction nss as [|d nss IH]; intros c; simpl; [reflexivity|]. unfold set_nss in IH. rewrite IH. reflexivity. Qed.
Lemma set_nss_name nss : forall c, in_name (wc_inner (set_nss nss c)) = in_name (wc_inner c).
Proof. induction nss as [|d nss IH]; intros c; simpl; [reflexivity|]. unfold set_nss in IH. rewrite IH. reflexivity. Qed.

Section Balanced.
Context {L : Libs}.
Variable p : program.

Lemma write_attrs_same t l self : forall c c', write_attrs p t l self c = Ok c' ->
  wc_virtual c' = wc_virtual c /\ in_name (wc_inner c') = in_name (wc_inner c).
Proof.
  induction l as [|a l IH]; intros c c' H; simpl in H; [injection H as <-; auto|].
  apply bind_ok in H. destruct H as (c1 & H & H'). apply IH in H'. destruct H' as [-> ->].
  unfold write_attr in H. apply bind_ok in H. destruct H as (v & _ & H).
  destruct (wa_opt a); [destruct v; try discriminate; [injection H as <-; auto|]|];
    (apply bind_ok in H; destruct H as (s & _ & H); injection H as <-; auto).
Qed.

Section Open.
  Variable call : string -> value -> wctx -> W (list event * inner).
  Hypothesis Hcall : forall id v c evs i, call id v c = Ok (evs, i) -> balanced evs.

  Lemma b_wx x v c evs i : write_wx call x v c = Ok (evs, i) -> balanced evs.
  Proof.
    destruct x as [|s|id]; simpl; intros H.
    - destruct (value_to_string v); [|discriminate]. injection H as <- <-. apply balanced_text.
    - injection H as <- <-. repeat constructor.
    - eapply Hcall; eassumption.
  Qed.

  (** The tag, if any, around balanced content. *)
  Lemma b_wrap (c : wctx) body i : balanced body ->
    balanced (fst (write_start_element c) ++ body ++ write_end_element (ctx_unwrap (snd (write_start_element c)) i)).
  Proof.
    intros B. unfold write_start_element, write_end_element. destruct (wc_virtual c) eqn:V; simpl.
    - rewrite V. now rewrite app_nil_r.
    - now apply balanced_elem.
  Qed.

  Lemma b_leaf_one w v c evs c' : write_leaf_one call w v c = Ok (evs, c') -> balanced evs.
  Proof.
    unfold write_leaf_one. intros H. destruct (wf_new w) as [n|], (wf_wrap w).
    - apply bind_ok in H. destruct H as ((e1 & i) & H & E). injection E as <- <-. apply b_wx in H.
      now apply balanced_elem.
    - apply bind_ok in H. destruct H as ((e1 & i) & H & E). injection E as <- <-. eapply b_wx; eassumption.
    - apply bind_ok in H. destruct H as ((e1 & i) & H & E). injection E as <- <-. apply b_wx in H.
      simpl. now rewrite app_nil_r.
    - apply bind_ok in H. destruct H as ((e1 & i) & H & E). injection E as <- <-. eapply b_wx; eassumption.
  Qed.

  Lemma b_each w vs : forall c evs c', write_each call w vs c = Ok (evs, c') -> balanced evs.
  Proof.
    induction vs as [|v vs IH]; intros c evs c' H; simpl in H; [injection H as <- <-; constructor|].
    apply bind_ok in H. destruct H as ((e1 & c1) & H1 & H). apply bind_ok in H. destruct H as ((e2 & c2) & H2 & H).
    injection H as <- <-. apply balanced_app; [eapply b_leaf_one|eapply IH]; eassumption.
  Qed.

  Lemma b_leaf w self c evs c' : write_leaf call w self c = Ok (evs, c') -> balanced evs.
  Proof.
    unfold write_leaf. intros H. apply bind_ok in H. destruct H as (v & _ & H).
    assert (K : forall v, (if wf_vec w then match v with VVec vs => write_each call w vs c | _ => Panic "not a Vec" end
                           else write_leaf_one call w v c) = Ok (evs, c') -> balanced evs).
    { intros w0 K. destruct (wf_vec w); [destruct w0; try discriminate; eapply b_each; eassumption|eapply b_leaf_one; eassumption]. }
    destruct (wf_opt w); [|now apply K in H].
    destruct v; try discriminate; [injection H as <- <-; constructor|now apply K in H].
  Qed.

  Lemma b_leaves ws : forall self c evs c', write_leaves call ws self c = Ok (evs, c') -> balanced evs.
  Proof.
    induction ws as [|w ws IH]; intros self c evs c' H; simpl in H; [injection H as <- <-; constructor|].
    apply bind_ok in H. destruct H as ((e1 & c1) & H1 & H). apply bind_ok in H. destruct H as ((e2 & c2) & H2 & H).
    injection H as <- <-. apply balanced_app; [eapply b_leaf|eapply IH]; eassumption.
  Qed.

  Lemma b_body b self c evs i : write_body call b self c = Ok (evs, i) -> balanced evs.
  Proof.
    destruct b as [|f x|ws]; simpl; intros H.
    - injection H as <- <-. constructor.
    - apply bind_ok in H. destruct H as (v & _ & H). eapply b_wx; eassumption.
    - apply bind_ok in H. destruct H as ((e1 & c1) & H1 & H). injection H as <- <-. eapply b_leaves; eassumption.
  Qed.

  Lemma b_arm_one a v evs : write_arm_one call a v = Ok evs -> balanced evs.
  Proof.
    unfold write_arm_one. intros H. destruct (wm_wrap a); simpl in H;
      apply bind_ok in H; destruct H as ((e1 & i) & H & E); injection E as <-; apply b_wx in H; [|exact H].
    now apply balanced_elem.
  Qed.
  Lemma b_arm_each a vs : forall evs, write_arm_each call a vs = Ok evs -> balanced evs.
  Proof.
    induction vs as [|v vs IH]; intros evs H; simpl in H; [injection H as <-; constructor|].
    apply bind_ok in H. destruct H as (e1 & H1 & H). apply bind_ok in H. destruct H as (e2 & H2 & H).
    injection H as <-. apply balanced_app; [eapply b_arm_one|eapply IH]; eassumption.
  Qed.
  Lemma b_choice arms self evs : write_choice call arms self = Ok evs -> balanced evs.
  Proof.
    unfold write_choice. destruct self; try discriminate. destruct (find _ arms) as [a|]; [|discriminate].
    destruct (wm_vec a); [destruct self; try discriminate; apply b_arm_each|apply b_arm_one].
  Qed.

  (** With a tag in an owned context: one element; without: balanced. *)
  Lemma b_wrapped (wrap : bool) c body evs i : wrapped wrap c body = Ok (evs, i) ->
    (forall c e i, body c = Ok (e, i) -> balanced e) ->
    balanced evs /\ (wrap = true -> wc_virtual c = false -> one_element (in_name (wc_inner c)) evs).
  Proof.
    unfold wrapped. intros H B. destruct wrap; [|split; [eapply B; eassumption|discriminate]].
    destruct (write_start_element c) as [e0 c0] eqn:Es. apply bind_ok in H. destruct H as ((e1 & j) & H & E).
    injection E as <- <-. apply B in H. pose proof (b_wrap c e1 j H) as K. rewrite Es in K. split; [exact K|].
    intros _ V. unfold write_start_element in Es. rewrite V in Es. injection Es as <- <-. simpl.
    unfold one_element. eauto.
  Qed.

  Lemma b_item t v c evs i : write_item p call t v c = Ok (evs, i) -> balanced evs.
  Proof.
    unfold write_item. intros H. destruct (ti_write t) as [wrap x| |ats wrap b|wrap arms].
    - destruct v; try discriminate. eapply b_wrapped; [exact H|]. intros; eapply b_wx; eassumption.
    - destruct v; try discriminate. destruct (ti_decl t); try discriminate. destruct (enum_as_str _ _); [|discriminate].
      eapply b_wrapped; [exact H|]. intros c1 e j K. injection K as <- <-. apply balanced_text.
    - apply bind_ok in H. destruct H as (c1 & _ & H). eapply b_wrapped; [exact H|]. intros; eapply b_body; eassumption.
    - eapply b_wrapped; [exact H|]. intros c1 e j K. apply bind_ok in K. destruct K as (e1 & K & E). injection E as <- <-.
      eapply b_choice; eassumption.
  Qed.
End Open.

Lemma balanced_type fuel : forall id v c evs i, write_type p fuel id v c = Ok (evs, i) -> balanced evs.
Proof.
  induction fuel as [|fuel IH]; intros id v c evs i H; simpl in H; [discriminate|].
  destruct (lookup_item p id) as [t|]; [|discriminate]. eapply b_item; eassumption.
Qed.

Lemma balanced_to_xml fuel id v evs : to_xml p fuel id v = Ok evs -> balanced evs.
Proof.
  unfold to_xml. destruct (lookup_item p id) as [t|]; [|discriminate]. intros H. apply bind_ok in H.
  destruct H as ((e & i) & H & E). injection E as <-. eapply balanced_type; eassumption.
Qed.

Variables (gfuel : nat) (c : schema_ctx) (gs : list name).
Hypothesis Hg : generated gfuel c gs p.

Lemma tagged_type n : tagged c gs n -> forall r t, item c gfuel gs n r t -> forall fuel v ctx evs i,
  wc_virtual ctx = false -> write_type p fuel (ti_id t) v ctx = Ok (evs, i) ->
  one_element (in_name (wc_inner ctx)) evs.
Proof.
  induction 1 as [n d G N|n d m m' n' r' G Cd F T Tg IH|n names G|n d G V N|n d m m' n' r' G N F T Tg IH|n d G V];
    intros r t It fuel v ctx evs i Vc H; pose proof (it_get _ _ _ _ _ _ It) as G'; rewrite G in G'; injection G' as <-;
    pose proof (it_write _ _ _ _ _ _ It) as Wr; simpl in Wr;
    (destruct fuel as [|fuel]; [discriminate|]); simpl in H;
    pose proof (gen_item _ _ _ _ Hg n _ (it_in _ _ _ _ _ _ It) G) as (t' & It' & Lk);
    assert (ti_id t' = ti_id t) as Ei by (pose proof (it_id _ _ _ _ _ _ It); pose proof (it_id _ _ _ _ _ _ It'); congruence);
    rewrite Ei in Lk; rewrite Lk in H; pose proof (it_write _ _ _ _ _ _ It') as Wr'; simpl in Wr'; rewrite Wr in Wr'; injection Wr' as Wr';
    unfold write_item in H; rewrite <- Wr' in H; rewrite <- (set_nss_name (ti_nss t') ctx);
    rewrite <- (set_nss_virtual (ti_nss t') ctx) in Vc; set (ctx1 := set_nss (ti_nss t') ctx) in *.
  - apply bind_ok in Wr. destruct Wr as (x & Ex & Wr). injection Wr as Wr. rewrite <- Wr in H.
    destruct v; try discriminate. eapply b_wrapped; [exact H| | |exact Vc].
    + intros; eapply b_wx; [|eassumption]. apply balanced_type.
    + destruct (ld_content d); try reflexivity. now destruct (N n0).
  - apply bind_ok in Wr. destruct Wr as (x & Ex & Wr). injection Wr as Wr. rewrite <- Wr in H.
    destruct v; try discriminate. unfold wrapped in H. rewrite Cd in H.
    apply content_wx in Ex. destruct Ex as (ct' & F' & X). rewrite Cd in F'. rewrite (final_det _ _ _ _ F' F) in X.
    inversion X as [| |m0 id E]; subst. simpl in H. destruct T as (I & G1 & id' & E1 & E2).
    destruct (gen_item _ _ _ _ Hg n' _ I G1) as (t1 & It1 & Lk1).
    assert (id = ti_id t1) as -> by (pose proof (it_id _ _ _ _ _ _ It1); congruence).
    eapply IH; [exact It1|exact Vc|exact H].
  - injection Wr as Wr. rewrite <- Wr in H. destruct v; try discriminate. destruct (ti_decl t'); try discriminate.
    destruct (enum_as_str _ _); [|discriminate]. eapply b_wrapped; [exact H| |reflexivity|exact Vc].
    intros c1 e j K. injection K as <- <-. apply balanced_text.
  - unfold element_to_xml in Wr. apply bind_ok in Wr. destruct Wr as (ats & Ea & Wr). apply bind_ok in Wr.
    destruct Wr as (b & Eb & Wr). injection Wr as Wr. rewrite <- Wr in H. apply bind_ok in H. destruct H as (c1 & Wa & H).
    apply write_attrs_same in Wa. destruct Wa as [V1 N1]. rewrite <- N1. eapply b_wrapped; [exact H| | |congruence].
    + intros; eapply b_body; [|eassumption]. apply balanced_type.
    + rewrite V. simpl. unfold named_content in N. destruct (ed_content d) as [[n0 [[]]|]|]; simpl in N; try reflexivity. discriminate.
  - unfold element_to_xml in Wr. apply bind_ok in Wr. destruct Wr as (ats & Ea & Wr). apply bind_ok in Wr.
    destruct Wr as (b & Eb & Wr). injection Wr as Wr. rewrite <- Wr in H. apply bind_ok in H. destruct H as (c1 & Wa & H).
    apply write_attrs_same in Wa. destruct Wa as [V1 N1]. rewrite <- N1.
    unfold named_content in N. destruct (ed_content d) as [[n0 [[] rs ds]|]|]; simpl in N; try discriminate. injection N as ->.
    rewrite andb_false_r in H. simpl in H. apply bind_ok in Eb. destruct Eb as (f & Ef & Eb). apply bind_ok in Eb.
    destruct Eb as (x & Ex & Eb). injection Eb as <-. unfold wrapped in H. simpl in H.
    apply bind_ok in H. destruct H as (w & _ & H).
    apply content_wx in Ex. destruct Ex as (ct' & F' & X). simpl in F'. rewrite (final_det _ _ _ _ F' F) in X.
    inversion X as [| |m0 id E]; subst. simpl in H. destruct T as (I & G1 & id' & E1 & E2).
    destruct (gen_item _ _ _ _ Hg n' _ I G1) as (t1 & It1 & Lk1).
    assert (id = ti_id t1) as -> by (pose proof (it_id _ _ _ _ _ _ It1); congruence).
    eapply IH; [exact It1|congruence|exact H].
  - apply bind_ok in Wr. destruct Wr as (arms & Ea & Wr). injection Wr as Wr. rewrite <- Wr in H.
    eapply b_wrapped; [exact H| |now rewrite V|exact Vc].
    intros c1 e j K. apply bind_ok in K. destruct K as (e1 & K & E). injection E as <- <-.
    eapply b_choice; [|exact K]. apply balanced_type.
Qed.

Lemma tagged_to_xml n id xn fuel v evs : In n gs -> type_ident n = Ok id -> tagged c gs n ->
  xml_name_of c n = Ok xn -> to_xml p fuel id v = Ok evs -> one_element xn evs.
Proof.
  intros I Ei T X H. assert (G : exists r, sc_get c n = Some r) by (destruct T; eauto). destruct G as (r & G).
  destruct (gen_item _ _ _ _ Hg n r I G) as (t & It & Lk).
  assert (id = ti_id t) as -> by (pose proof (it_id _ _ _ _ _ _ It); congruence).
  unfold to_xml in H. rewrite Lk in H. apply bind_ok in H. destruct H as ((e & i) & H & E). injection E as <-.
  assert (xn = ti_xml_name t) as -> by (pose proof (it_xml _ _ _ _ _ _ It); congruence).
  apply (tagged_type n T r t It fuel v (ctx_create (ti_xml_name t)) e i eq_refl H).
Qed.
End Balanced.
