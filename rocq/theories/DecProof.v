(** * DecProof: the generated decoder does what DecSpec says *)
From Verif Require Import Base Libs Xml Ast Parse Decode Gen Run CursorSpec CursorProof GenSpec GenProof1
  DecSpec DecSim.

Lemma fin_bind {E A B} (m : res E A) (k : A -> res E B) : fin (bind m k) -> fin m.
Proof. destruct m; simpl; auto. Qed.

Section DecProof.
Context {L : Libs}.
Variable c : schema_ctx.

Inductive rx_is : leaf_content -> rx -> Prop :=
| ri_lit l : rx_is (LcLiteral l) (RxText l)
| ri_fixed s : rx_is (LcFixed s) (RxFixed s)
| ri_named m id : type_ident m = Ok id -> rx_is (LcNamed m) (RxCall id).
Inductive ty_is : leaf_content -> rty -> Prop :=
| ti_lit l : ty_is (LcLiteral l) (TPrim (lit_prim l))
| ti_fixed s : ty_is (LcFixed s) TUnit
| ti_named m id : type_ident m = Ok id -> ty_is (LcNamed m) (TRef id).
Inductive wx_is : leaf_content -> wx -> Prop :=
| wi_lit l : wx_is (LcLiteral l) WxText
| wi_fixed s : wx_is (LcFixed s) (WxFixed s)
| wi_named m id : type_ident m = Ok id -> wx_is (LcNamed m) (WxCall id).

Lemma final_det ct a b : final c ct a -> final c ct b -> a = b.
Proof.
  intros H. revert b. induction H as [lit|s|m N|m d ct G F IH]; intros b K; inversion K; subst; auto.
  - exfalso. eapply N; eauto.
  - exfalso. eapply H0; eauto.
  - rewrite H0 in G. injection G as <-. auto.
Qed.

Lemma content_rx fuel : forall ct x, content_from_xml fuel c ct = Ok x -> exists ct', final c ct ct' /\ rx_is ct' x.
Proof.
  induction fuel as [|fuel IH]; intros [l|m|s] x H; simpl in H.
  - injection H as <-. eexists. split; constructor.
  - destruct (sc_get c m) as [[d|ns|d|d]|] eqn:G; try discriminate;
      (apply bind_ok in H; destruct H as (id & E & H); injection H as <-;
       exists (LcNamed m); split; [constructor; congruence|now constructor]).
  - injection H as <-. eexists. split; constructor.
  - injection H as <-. eexists. split; constructor.
  - destruct (sc_get c m) as [[d|ns|d|d]|] eqn:G;
      try (apply bind_ok in H; destruct H as (id & E & H); injection H as <-;
       exists (LcNamed m); split; [constructor; congruence|now constructor]).
    destruct (IH _ _ H) as (ct' & F & X). exists ct'. split; [|exact X]. eapply fi_alias; eauto.
  - injection H as <-. eexists. split; constructor.
Qed.

Lemma content_ty fuel : forall ct x, content_to_impl fuel c ct = Ok x -> exists ct', final c ct ct' /\ ty_is ct' x.
Proof.
  induction fuel as [|fuel IH]; intros [l|m|s] x H; simpl in H.
  - injection H as <-. eexists. split; constructor.
  - destruct (sc_get c m) as [[d|ns|d|d]|] eqn:G; try discriminate;
      (apply bind_ok in H; destruct H as (id & E & H); injection H as <-;
       exists (LcNamed m); split; [constructor; congruence|now constructor]).
  - injection H as <-. eexists. split; constructor.
  - injection H as <-. eexists. split; constructor.
  - destruct (sc_get c m) as [[d|ns|d|d]|] eqn:G;
      try (apply bind_ok in H; destruct H as (id & E & H); injection H as <-;
       exists (LcNamed m); split; [constructor; congruence|now constructor]).
    destruct (IH _ _ H) as (ct' & F & X). exists ct'. split; [|exact X]. eapply fi_alias; eauto.
  - injection H as <-. eexists. split; constructor.
Qed.

Lemma content_wx fuel : forall ct x, content_to_xml fuel c ct = Ok x -> exists ct', final c ct ct' /\ wx_is ct' x.
Proof.
  induction fuel as [|fuel IH]; intros [l|m|s] x H; simpl in H.
  - injection H as <-. eexists. split; constructor.
  - destruct (sc_get c m) as [[d|ns|d|d]|] eqn:G; try discriminate;
      (apply bind_ok in H; destruct H as (id & E & H); injection H as <-;
       exists (LcNamed m); split; [constructor; congruence|now constructor]).
  - injection H as <-. eexists. split; constructor.
  - injection H as <-. eexists. split; constructor.
  - destruct (sc_get c m) as [[d|ns|d|d]|] eqn:G;
      try (apply bind_ok in H; destruct H as (id & E & H); injection H as <-;
       exists (LcNamed m); split; [constructor; congruence|now constructor]).
    destruct (IH _ _ H) as (ct' & F & X). exists ct'. split; [|exact X]. eapply fi_alias; eauto.
  - injection H as <-. eexists. split; constructor.
Qed.

Definition rx_for (ct : leaf_content) (x : rx) : Prop := exists ct', final c ct ct' /\ rx_is ct' x.

Lemma xml_ns_ok n ns : xml_ns_of c n = Ok ns -> quote_xml_namespace c n = Some ns.
Proof. unfold xml_ns_of. destruct (quote_xml_namespace c n); intros H; [congruence|discriminate]. Qed.

(** The field reader generated for a leaf. *)
Inductive fr_for (l : leaf) : fr -> Prop :=
| ff_here x : lf_virtual l = true -> lf_is_vec l = false -> lf_is_optional l = false ->
    rx_for (ld_content (lf_def l)) x -> fr_for l (FrHere x)
| ff_iflook m id x : lf_virtual l = true -> lf_is_vec l = false -> lf_is_optional l = true ->
    ld_content (lf_def l) = LcNamed m -> look_ident m = Ok id ->
    rx_for (LcNamed m) x -> fr_for l (FrIfLook id x)
| ff_whilelook m id x : lf_virtual l = true -> lf_is_vec l = true ->
    ld_content (lf_def l) = LcNamed m -> look_ident m = Ok id ->
    rx_for (LcNamed m) x -> fr_for l (FrWhileLook id x (lf_is_optional l))
| ff_run ns x : lf_virtual l = false -> lf_is_vec l = true ->
    quote_xml_namespace c (lf_name l) = Some ns -> rx_for (ld_content (lf_def l)) x ->
    fr_for l (FrWhileNext (nm (lf_name l)) ns x (lf_is_optional l))
| ff_ifnext ns x : lf_virtual l = false -> lf_is_vec l = false -> lf_is_optional l = true ->
    quote_xml_namespace c (lf_name l) = Some ns -> rx_for (ld_content (lf_def l)) x ->
    fr_for l (FrIfNext (nm (lf_name l)) ns x)
| ff_child ns x : lf_virtual l = false -> lf_is_vec l = false -> lf_is_optional l = false ->
    lf_unordered l = true ->
    quote_xml_namespace c (lf_name l) = Some ns -> rx_for (ld_content (lf_def l)) x ->
    fr_for l (FrTryChild (nm (lf_name l)) ns x)
| ff_next ns x : lf_virtual l = false -> lf_is_vec l = false -> lf_is_optional l = false ->
    lf_unordered l = false ->
    quote_xml_namespace c (lf_name l) = Some ns -> rx_for (ld_content (lf_def l)) x ->
    fr_for l (FrTryNext (nm (lf_name l)) ns x).

Lemma virtual_target_ok l id : virtual_target l = Ok id ->
  exists m, ld_content (lf_def l) = LcNamed m /\ look_ident m = Ok id.
Proof. unfold virtual_target. destruct (ld_content (lf_def l)); try discriminate. eauto. Qed.

Lemma leaf_fr fuel l f r : leaf_from_xml fuel c l = Ok (f, r) ->
  field_ident (lf_name l) = Ok f /\ fr_for l r.
Proof.
  unfold leaf_from_xml. intros H.
  apply bind_ok in H. destruct H as (f' & E1 & H).
  apply bind_ok in H. destruct H as (ns & E2 & H). apply xml_ns_ok in E2.
  apply bind_ok in H. destruct H as (x & E3 & H). unfold def_from_xml in E3. apply content_rx in E3.
  destruct (lf_virtual l) eqn:V; [destruct (lf_is_vec l) eqn:W; [|destruct (lf_is_optional l) eqn:O]|].
  - apply bind_ok in H. destruct H as (id & E4 & H). injection H as <- <-. split; [exact E1|].
    destruct (virtual_target_ok _ _ E4) as (m & E5 & E6). rewrite E5 in E3. econstructor; eauto.
  - apply bind_ok in H. destruct H as (id & E4 & H). injection H as <- <-. split; [exact E1|].
    destruct (virtual_target_ok _ _ E4) as (m & E5 & E6). rewrite E5 in E3. econstructor; eauto.
  - injection H as <- <-. split; [exact E1|]. constructor; auto.
  - injection H as <- <-. split; [exact E1|].
    destruct (lf_is_vec l) eqn:W; [constructor; auto|].
    destruct (lf_is_optional l) eqn:O; [constructor; auto|].
    destruct (lf_unordered l) eqn:U; constructor; auto.
Qed.

Inductive arm_for (l : leaf) : arm -> Prop :=
| af_look v m id x : lf_virtual l = true -> variant_ident (lf_name l) = Ok v ->
    ld_content (lf_def l) = LcNamed m -> look_ident m = Ok id ->
    rx_for (LcNamed m) x -> arm_for l (ArmLook v id x)
| af_vec v ns x : lf_virtual l = false -> lf_is_vec l = true -> variant_ident (lf_name l) = Ok v ->
    quote_xml_namespace c (lf_name l) = Some ns -> rx_for (ld_content (lf_def l)) x ->
    arm_for l (ArmVec v (nm (lf_name l)) ns x)
| af_one v ns x : lf_virtual l = false -> lf_is_vec l = false -> variant_ident (lf_name l) = Ok v ->
    quote_xml_namespace c (lf_name l) = Some ns -> rx_for (ld_content (lf_def l)) x ->
    arm_for l (ArmOne v (nm (lf_name l)) ns x).

Lemma variant_arm fuel l a : variant_from_xml fuel c l = Ok a -> arm_for l a.
Proof.
  unfold variant_from_xml. intros H.
  apply bind_ok in H. destruct H as (v & E1 & H).
  apply bind_ok in H. destruct H as (x & E3 & H). unfold def_from_xml in E3. apply content_rx in E3.
  apply bind_ok in H. destruct H as (ns & E2 & H). apply xml_ns_ok in E2.
  destruct (lf_virtual l) eqn:V.
  - apply bind_ok in H. destruct H as (id & E4 & H). injection H as <-.
    destruct (virtual_target_ok _ _ E4) as (m & E5 & E6). rewrite E5 in E3. econstructor; eauto.
  - destruct (lf_is_vec l) eqn:W; injection H as <-; constructor; auto.
Qed.

Inductive lk_for (l : leaf) : lk1 -> Prop :=
| kf_call m id : lf_virtual l = true -> ld_content (lf_def l) = LcNamed m -> look_ident m = Ok id ->
    lk_for l (LkCall id)
| kf_peek ns : lf_virtual l = false -> quote_xml_namespace c (lf_name l) = Some ns ->
    lk_for l (LkPeek (nm (lf_name l)) ns).
Lemma leaf_lk l k : leaf_look c l = Ok k -> lk_for l k.
Proof.
  unfold leaf_look. destruct (lf_virtual l) eqn:V; intros H; apply bind_ok in H.
  - destruct H as (id & E & H). injection H as <-. destruct (virtual_target_ok _ _ E) as (m & E5 & E6).
    econstructor; eauto.
  - destruct H as (ns & E & H). injection H as <-. apply xml_ns_ok in E. now constructor.
Qed.

(** ** The program *)
Variables (gfuel : nat) (gs : list name) (p : program).
Hypothesis Hp : mapM (generate_element gfuel c) gs = Ok p.

Notation final := (final c). Notation type_of := (type_of c gs). Notation group_of := (group_of c gs).
Notation look_group := (look_group c gs). Notation look_leaf := (look_leaf c gs).
Notation look_seq := (look_seq c gs). Notation look_any := (look_any c gs).
Notation read_content := (read_content c gs). Notation read_sub := (read_sub c gs).
Notation read_root := (read_root c gs). Notation read_fields := (read_fields c gs).
Notation read_leaves := (read_leaves c gs). Notation read_leaf := (read_leaf c gs).
Notation read_groups := (read_groups c gs). Notation read_run := (read_run c gs).
Notation read_choice := (read_choice c gs). Notation read_attr := (read_attr c gs).
Notation read_attrs := (read_attrs c gs). Notation converts := (converts c gs).

Lemma find_In {A} (f : A -> bool) l x : find f l = Some x -> In x l /\ f x = true.
Proof. apply find_some. Qed.

Lemma item_inv id t : lookup_item p id = Some t ->
  ti_id t = id /\ exists n, In n gs /\ generate_element gfuel c n = Ok t.
Proof.
  unfold lookup_item. intros H. apply find_some in H. destruct H as [I E].
  apply String.eqb_eq in E. split; [exact E|]. apply mapM_ok in Hp. clear -I Hp.
  induction Hp as [|n t' l p' Ht F IH]; [destruct I|]. destruct I as [<-|I].
  - exists n. split; [now left|exact Ht].
  - destruct IH as (n' & I' & E); auto. exists n'. split; [now right|exact E].
Qed.

(** Everything about the item generated for a name. *)
Record item (n : name) (r : root) (t : titem) : Prop := mkItem {
  it_in : In n gs;
  it_get : sc_get c n = Some r;
  it_id : type_ident n = Ok (ti_id t);
  it_decl : root_to_declaration gfuel c r = Ok (ti_decl t);
  it_write : root_to_xml gfuel c r = Ok (ti_write t);
  it_xml : xml_name_of c n = Ok (ti_xml_name t);
  it_nss : element_nss c = Ok (ti_nss t);
  it_rname : ti_read_name t = nm n;
  it_rns : quote_xml_namespace c n = Some (ti_read_ns t);
  it_read : root_from_xml gfuel c r = Ok (ti_read t);
  it_look : root_lookahead c r = Ok (ti_look t)
}.

Lemma item_of n t : In n gs -> generate_element gfuel c n = Ok t -> exists r, item n r t.
Proof.
  intros I H. apply generate_element_inv in H.
  destruct H as (el & id & d & w & xn & nss & ns & r & lk & E1 & E2 & E3 & E4 & E5 & E6 & E7 & E8 & E9 & ->).
  exists el. constructor; simpl; auto using xml_ns_ok.
Qed.

Lemma item_lookup id t : lookup_item p id = Some t -> exists n r, item n r t /\ ti_id t = id.
Proof.
  intros H. destruct (item_inv _ _ H) as (E & n & I & G). destruct (item_of _ _ I G) as (r & K).
  exists n, r. auto.
Qed.

(** ** Soundness *)
Section Sound.
  Variable call : string -> xelem -> list xelem -> R (value * list xelem).
  Variable look : string -> list xelem -> R (bool * list xelem).
  Hypothesis Hcall : forall id e l o, call id e l = o -> fin o ->
    exists n r, In n gs /\ sc_get c n = Some r /\ type_ident n = Ok id /\ read_root n r e l o.
  Hypothesis Hlook : forall id l o, look id l = o -> fin o ->
    exists b, o = Ok (b, l) /\ forall m, look_ident m = Ok id -> look_group m l b.

  Lemma s_rx ct x e l o : rx_for ct x -> run_rx call x e l = o -> fin o -> read_content ct e l o.
  Proof.
    intros (ct' & F & X) H Fo. destruct X as [lit|s|m id Em]; simpl in H.
    - subst o. now apply rc_lit.
    - subst o. now apply rc_fixed.
    - destruct (Hcall _ _ _ _ H Fo) as (n & r & I & G & En & Rd).
      eapply rc_named; eauto. repeat split; eauto.
  Qed.

  Lemma s_sub ct x e o : rx_for ct x -> run_sub list_ops call x e = o -> fin o -> read_sub ct e o.
  Proof.
    intros X H Fo. unfold run_sub in H.
    destruct (run_rx call x e (op_new list_ops e)) as [[v l']|er| |] eqn:E; simpl in H; subst o; try now destruct Fo.
    - change (Ok v : R value) with (rmap fst (Ok (v, l') : R (value * list xelem))).
      constructor. eapply s_rx; eauto; exact I.
    - change (Err er : R value) with (rmap fst (Err er : R (value * list xelem))).
      constructor. eapply s_rx; eauto; exact I.
  Qed.

  Lemma s_while_look fuel m id x e : look_ident m = Ok id -> rx_for (LcNamed m) x -> forall l o,
    while_look call look fuel id x e l = o -> fin o -> read_groups m e l o.
  Proof.
    intros Em X. induction fuel as [|fuel IH]; intros l o H Fo; simpl in H; [subst o; destruct Fo|].
    destruct (look id l) as [[b l1]|er| |] eqn:El; simpl in H; try (subst o; now destruct Fo).
    2:{ destruct (Hlook _ _ _ El I) as (b & E & _). discriminate. }
    destruct (Hlook _ _ _ El I) as (b' & E & G). injection E as <- ->. specialize (G _ Em).
    destruct b; [|subst o; now constructor].
    destruct (run_rx call x e l) as [[v l1]|er| |] eqn:Er; simpl in H; try (subst o; now destruct Fo).
    - destruct (while_look call look fuel id x e l1) as [[vs l2]|er| |] eqn:Ew; simpl in H;
        try (subst o; now destruct Fo); subst o.
      + apply (rg_more c gs m e l l1 v (Ok (vs, l2))); [exact G|eapply s_rx; eauto; exact I|apply IH; [exact Ew|exact I]].
      + apply (rg_more c gs m e l l1 v (Err er)); [exact G|eapply s_rx; eauto; exact I|apply IH; [exact Ew|exact I]].
    - subst o. apply rg_err; auto. eapply s_rx; eauto; exact I.
  Qed.

  Lemma s_while_next fuel n ns ct x : rx_for ct x -> forall l o,
    while_next list_ops call fuel n ns x l = o -> fin o -> read_run n ns ct l o.
  Proof.
    intros X. induction fuel as [|fuel IH]; intros l o H Fo; simpl in H; [subst o; destruct Fo|].
    unfold list_next in H. destruct l as [|k l]; [subst o; now constructor|].
    destruct (has_name n ns k) eqn:Ek; [|subst o; now constructor].
    destruct (run_sub list_ops call x k) as [v|er| |] eqn:Es; simpl in H; try (subst o; now destruct Fo).
    - destruct (while_next list_ops call fuel n ns x l) as [[vs l2]|er| |] eqn:Ew; simpl in H;
        try (subst o; now destruct Fo); subst o.
      + apply (ru_more c gs n ns ct k l v (Ok (vs, l2))); [exact Ek|eapply s_sub; eauto; exact I|apply IH; [exact Ew|exact I]].
      + apply (ru_more c gs n ns ct k l v (Err er)); [exact Ek|eapply s_sub; eauto; exact I|apply IH; [exact Ew|exact I]].
    - subst o. apply ru_err; auto. eapply s_sub; eauto; exact I.
  Qed.

  Lemma fin_sub {E A B} (m : res E A) (k : A -> res E B) o : bind m k = o -> fin o -> fin m.
  Proof. intros <-. apply fin_bind. Qed.

  Lemma bind_rmap {E A B} (f : A -> B) (m : res E A) (k : A -> res E B) :
    (forall a, k a = Ok (f a)) -> bind m k = rmap f m.
  Proof. intros H. destruct m; simpl; auto. Qed.

  Lemma s_fr fuel f r e l o : fr_for f r -> run_fr list_ops call look fuel r e l = o -> fin o ->
    read_leaf f e l o.
  Proof.
    intros F H Fo. destruct F as [x V W O X|m id x V W O C Em X|m id x V W C Em X|ns x V W Q X
      |ns x V W O Q X|ns x V W O U Q X|ns x V W O U Q X]; cbn [run_fr] in H.
    - apply rl_group; auto. eapply s_rx; eauto.
    - pose proof (fin_sub _ _ _ H Fo) as Fl. destruct (Hlook _ _ _ eq_refl Fl) as (b & El & G).
      rewrite El in H. simpl in H. destruct b.
      + subst o. erewrite bind_rmap with (f := with_rest VSome) in * by (intros []; reflexivity).
        eapply rl_group_yes; eauto. rewrite C. eapply s_rx; eauto. destruct (run_rx call x e l); try destruct Fo; exact I.
      + subst o. eapply rl_group_no; eauto.
    - subst o. erewrite bind_rmap with (f := with_rest (vec_value (lf_is_optional f))) in * by (intros []; reflexivity).
      eapply rl_groups; eauto. eapply s_while_look; eauto.
      destruct (while_look call look fuel id x e l); try destruct Fo; exact I.
    - subst o. erewrite bind_rmap with (f := with_rest (vec_value (lf_is_optional f))) in * by (intros []; reflexivity).
      eapply rl_run; eauto. eapply s_while_next; eauto.
      destruct (while_next list_ops call fuel (nm (lf_name f)) ns x l); try destruct Fo; exact I.
    - simpl in H. unfold list_next in H. destruct l as [|k l]; [subst o; eapply rl_optional_no; eauto|].
      destruct (has_name (nm (lf_name f)) ns k) eqn:Ek; [|subst o; eapply rl_optional_no; eauto].
      subst o. erewrite bind_rmap with (f := fun v => (VSome v, l)) in * by reflexivity.
      eapply rl_optional_yes; eauto. eapply s_sub; eauto.
      destruct (run_sub list_ops call x k); try destruct Fo; exact I.
    - simpl in H. unfold list_child in H.
      destruct (remove_first (has_name (nm (lf_name f)) ns) l) as [[k l']|] eqn:Er.
      + apply remove_first_some in Er. destruct Er as (l1 & l2 & -> & -> & Fa & Hk).
        subst o. erewrite bind_rmap with (f := fun v => (v, l1 ++ l2)) in * by reflexivity.
        eapply rl_anywhere; eauto. eapply s_sub; eauto.
        destruct (run_sub list_ops call x k); try destruct Fo; exact I.
      + subst o. apply remove_first_none in Er. eapply rl_nowhere; eauto.
    - simpl in H. unfold list_next in H. destruct l as [|k l]; [subst o; eapply rl_missing; eauto|].
      destruct (has_name (nm (lf_name f)) ns k) eqn:Ek; [|subst o; eapply rl_missing; eauto].
      subst o. erewrite bind_rmap with (f := fun v => (v, l)) in * by reflexivity.
      eapply rl_next; eauto. eapply s_sub; eauto.
      destruct (run_sub list_ops call x k); try destruct Fo; exact I.
  Qed.

  Lemma s_fields fuel ls : forall fs e l o, Forall2 (fun a b => leaf_from_xml gfuel c a = Ok b) ls fs ->
    run_fields list_ops call look fuel fs e l = o -> fin o -> read_leaves ls e l o.
  Proof.
    induction ls as [|f ls IH]; intros fs e l o F H Fo; inversion F as [|? [i r] ? fs' E F']; subst.
    - simpl. constructor.
    - destruct (leaf_fr _ _ _ _ E) as [Ei Er]. simpl in *.
      destruct (run_fr list_ops call look fuel r e l) as [[v l1]|er| |] eqn:E1; simpl in *; try now destruct Fo.
      + erewrite bind_rmap with (f := with_rest (cons (i, v))) in * by (intros []; reflexivity).
        eapply rv_cons; [eapply s_fr; eauto; exact I|exact Ei|].
        eapply IH; eauto. destruct (run_fields list_ops call look fuel fs' e l1); try destruct Fo; exact I.
      + apply rv_err. eapply s_fr; eauto; exact I.
  Qed.

  Lemma s_arms fuel n id vs : type_ident n = Ok id -> forall arms e l o,
    Forall2 (fun a b => variant_from_xml gfuel c a = Ok b) vs arms ->
    run_arms list_ops call look fuel id arms e l = o -> fin o -> read_choice n vs e l o.
  Proof.
    intros En. induction vs as [|f vs IH]; intros arms e l o F H Fo; inversion F as [|? a ? arms' E F']; subst.
    - simpl. now constructor.
    - apply variant_arm in E. destruct E as [v m i x V Ev C Em X|v ns x V W Ev Q X|v ns x V W Ev Q X];
        cbn [run_arms] in *.
      + pose proof (fin_sub _ _ _ eq_refl Fo) as Fl. destruct (Hlook _ _ _ eq_refl Fl) as (b & El & G).
        rewrite El in *. simpl in *. destruct b.
        * erewrite bind_rmap with (f := with_rest (VChoice v)) in * by (intros []; reflexivity).
          eapply rh_group; eauto. eapply s_rx; eauto. destruct (run_rx call x e l); try destruct Fo; exact I.
        * eapply rh_group_no; eauto.
      + simpl in *. destruct (first_is (nm (lf_name f)) ns l) eqn:Ef.
        * erewrite bind_rmap with (f := with_rest (fun ws => VChoice v (VVec ws))) in * by (intros []; reflexivity).
          eapply rh_run; eauto. eapply s_while_next; eauto.
          destruct (while_next list_ops call fuel (nm (lf_name f)) ns x l); try destruct Fo; exact I.
        * eapply rh_elem_no; eauto.
      + simpl in *. unfold list_next in *. destruct l as [|k l]; [eapply rh_elem_no; eauto|].
        destruct (has_name (nm (lf_name f)) ns k) eqn:Ek; [|eapply rh_elem_no; eauto].
        erewrite bind_rmap with (f := fun w => (VChoice v w, l)) in * by reflexivity.
        eapply rh_elem; eauto. eapply s_sub; eauto.
        destruct (run_sub list_ops call x k); try destruct Fo; exact I.
  Qed.

  Lemma s_lk_any vs : forall ks l o, Forall2 (fun a b => leaf_look c a = Ok b) vs ks ->
    run_lk list_ops look ks l = o -> fin o -> exists b, o = Ok (b, l) /\ look_any vs l b.
  Proof.
    induction vs as [|f vs IH]; intros ks l o F H Fo; inversion F as [|? k ? ks' E F']; subst.
    - simpl. eexists. split; [reflexivity|constructor].
    - apply leaf_lk in E. destruct E as [m id V C Em|ns V Q]; cbn [run_lk] in *.
      + pose proof (fin_sub _ _ _ eq_refl Fo) as Fl. destruct (Hlook _ _ _ eq_refl Fl) as (b & El & G).
        rewrite El in *. simpl in *. specialize (G _ Em). destruct b.
        * exists true. split; [reflexivity|]. apply la_yes. econstructor; eauto.
        * destruct (IH _ _ _ F' eq_refl Fo) as (b & Eb & Lb). exists b. split; [exact Eb|].
          apply la_no; [|exact Lb]. econstructor; eauto.
      + simpl in *. destruct (first_is (nm (lf_name f)) ns l) eqn:Ef.
        * exists true. split; [reflexivity|]. apply la_yes. rewrite <- Ef. now constructor.
        * destruct (IH _ _ _ F' eq_refl Fo) as (b & Eb & Lb). exists b. split; [exact Eb|].
          apply la_no; [|exact Lb]. rewrite <- Ef. now constructor.
  Qed.

  Lemma s_lk_seq ls : forall ks l o, leaves_look c ls = Ok ks ->
    run_lk list_ops look ks l = o -> fin o -> exists b, o = Ok (b, l) /\ look_seq ls l b.
  Proof.
    induction ls as [|f ls IH]; intros ks l o F H Fo; simpl in F.
    - injection F as <-. subst o. simpl. eexists. split; [reflexivity|constructor].
    - apply bind_ok in F. destruct F as (k & Ek & F). apply leaf_lk in Ek.
      assert (K : exists b1 : bool, run_lk list_ops look ks l =
                  (if b1 then Ok (true, l)
                   else if lf_is_optional f then
                     match leaves_look c ls with Ok ks' => run_lk list_ops look ks' l | _ => OutOfFuel end
                   else Ok (false, l)) /\ look_leaf f l b1).
      { destruct Ek as [m id V C Em|ns V Q].
        - assert (Ks : exists rest, ks = LkCall id :: rest).
          { destruct (lf_is_optional f); [apply bind_ok in F; destruct F as (? & _ & F)|]; injection F as <-; eauto. }
          destruct Ks as (rest & ->). cbn [run_lk] in *.
          pose proof (fin_sub _ _ _ H Fo) as Fl. destruct (Hlook _ _ _ eq_refl Fl) as (b & El & G).
          rewrite El in *. simpl. specialize (G _ Em). exists b. split; [|econstructor; eauto].
          destruct b; [reflexivity|]. destruct (lf_is_optional f).
          + apply bind_ok in F. destruct F as (ks' & E & F). rewrite E. injection F as <-. reflexivity.
          + injection F as <-. reflexivity.
        - assert (Ks : exists rest, ks = LkPeek (nm (lf_name f)) ns :: rest).
          { destruct (lf_is_optional f); [apply bind_ok in F; destruct F as (? & _ & F)|]; injection F as <-; eauto. }
          destruct Ks as (rest & ->). cbn [run_lk] in *. simpl. exists (first_is (nm (lf_name f)) ns l).
          split; [|now constructor]. destruct (first_is (nm (lf_name f)) ns l); [reflexivity|]. destruct (lf_is_optional f).
          + apply bind_ok in F. destruct F as (ks' & E & F). rewrite E. injection F as <-. reflexivity.
          + injection F as <-. reflexivity. }
      destruct K as (b1 & Eq & Lb). rewrite Eq in H. destruct b1.
      + subst o. exists true. split; [reflexivity|]. now apply ls_yes.
      + destruct (lf_is_optional f) eqn:O.
        * apply bind_ok in F. destruct F as (ks' & E & F). rewrite E in H.
          destruct (IH _ _ _ E H Fo) as (b & Eb & Ls). exists b. split; [exact Eb|]. now apply ls_optional.
        * subst o. exists false. split; [reflexivity|]. now apply ls_required.
  Qed.
End Sound.

Lemma sound_look fuel : forall id l o, run_look list_ops p fuel id l = o -> fin o ->
  exists b, o = Ok (b, l) /\ forall m, look_ident m = Ok id -> look_group m l b.
Proof.
  induction fuel as [|fuel IH]; intros id l o H Fo; simpl in H; [subst o; destruct Fo|].
  destruct (lookup_item p id) as [t|] eqn:Lk; [|subst o; destruct Fo].
  destruct (item_lookup _ _ Lk) as (n & r & It & Eid).
  assert (G : forall m, look_ident m = Ok id -> group_of m n r).
  { intros m Em. repeat split; [apply It|apply It|]. exists id. split; [exact Em|]. rewrite <- Eid. apply It. }
  pose proof (it_look _ _ _ It) as Hl. destruct r as [d|ns|d|d]; simpl in Hl.
  - injection Hl as E. rewrite <- E in H. subst o. exists true. split; [reflexivity|]. intros m Em. eapply lg_leaf; eauto.
  - injection Hl as E. rewrite <- E in H. subst o. exists true. split; [reflexivity|]. intros m Em. eapply lg_enum; eauto.
  - destruct (ed_content d) as [[n0 d0|ls]|] eqn:Ec.
    + injection Hl as E. rewrite <- E in H. simpl in H. subst o. exists false. split; [reflexivity|].
      intros m Em. eapply lg_other; eauto. congruence.
    + apply bind_ok in Hl. destruct Hl as (ks & Ek & Hl). injection Hl as E. rewrite <- E in H.
      destruct (s_lk_seq (run_look list_ops p fuel) IH ls ks l o Ek H Fo) as (b & Eb & Ls).
      exists b. split; [exact Eb|]. intros m Em. eapply lg_leaves; eauto.
    + injection Hl as E. rewrite <- E in H. simpl in H. subst o. exists false. split; [reflexivity|].
      intros m Em. eapply lg_other; eauto. congruence.
  - apply bind_ok in Hl. destruct Hl as (ks & Ek & Hl). injection Hl as E. rewrite <- E in H. apply mapM_ok in Ek.
    destruct (s_lk_any (run_look list_ops p fuel) IH _ ks l o Ek H Fo) as (b & Eb & Ls).
    exists b. split; [exact Eb|]. intros m Em. eapply lg_choice; eauto.
Qed.

(** Attributes need no recursion. *)
Lemma enum_item_decl n r t vs : item n r t -> ti_decl t = DEnum vs ->
  exists names, r = RootEnum names /\ enum_variants names = Ok vs.
Proof.
  intros It E. pose proof (it_decl _ _ _ It) as H. rewrite E in H. destruct r as [d|ns|d|d]; simpl in H.
  - apply bind_ok in H. destruct H as (? & _ & H). discriminate.
  - apply bind_ok in H. destruct H as (vs' & H1 & H). injection H as <-. eauto.
  - unfold element_to_impl in H. apply bind_ok in H. destruct H as (? & _ & H).
    apply bind_ok in H. destruct H as (? & _ & H). discriminate.
  - apply bind_ok in H. destruct H as (? & _ & H). discriminate.
Qed.

Lemma s_ax a ra0 s o : attr_from_xml gfuel c a = Ok ra0 -> run_ax p (ra_conv ra0) s = o -> fin o ->
  converts (a_content a) s o.
Proof.
  unfold attr_from_xml. intros H R Fo. apply bind_ok in H. destruct H as (f & E1 & H).
  apply bind_ok in H. destruct H as (t & E2 & H). injection H as <-. simpl in R.
  unfold content_from_str in R. destruct (a_content a) as [lit|m|s0]; simpl in R; subst o.
  - constructor.
  - apply content_ty in E2. destruct E2 as (ct' & F & T). destruct T as [lit|s0|m' id Em].
    + destruct (lit_prim lit) eqn:Ep; simpl in Fo; try now destruct Fo. simpl. apply cv_string. exists lit. auto.
    + destruct Fo.
    + simpl in *. destruct (lookup_item p id) as [t|] eqn:Lk; [|destruct Fo].
      destruct (ti_decl t) as [| vs| |] eqn:Ed; try now destruct Fo.
      destruct (item_lookup _ _ Lk) as (n & r & It & Eid).
      destruct (enum_item_decl _ _ _ _ It Ed) as (names & -> & Ev).
      eapply cv_enum; eauto. repeat split; [apply It|apply It|]. exists id. split; [exact Em|].
      rewrite <- Eid. apply It.
  - constructor.
Qed.

Lemma s_ra a ra0 e o : attr_from_xml gfuel c a = Ok ra0 -> run_ra p ra0 e = o -> fin o ->
  exists f ov, field_ident (a_name a) = Ok f /\ read_attr a e ov /\ o = rmap (fun v => (f, v)) ov.
Proof.
  intros H R Fo. pose proof (s_ax a ra0) as SA. specialize (fun s o => SA s o H).
  unfold attr_from_xml in H. apply bind_ok in H. destruct H as (f & E1 & H).
  apply bind_ok in H. destruct H as (t & E2 & H). injection H as <-. simpl in SA. unfold run_ra in R. simpl in R.
  exists f. destruct (a_optional a) eqn:O.
  - destruct (d_attribute e (nm (a_name a))) as [s|] eqn:D.
    + destruct (run_ax p (content_from_str (a_content a) t) s) as [v|er| |] eqn:Ea; simpl in R;
        try (subst o; now destruct Fo); specialize (SA _ _ Ea I).
      * exists (Ok (VSome v)). repeat split; auto. apply (ra_present_opt c gs a e s (Ok v)); auto.
      * exists (Err er). repeat split; auto. apply (ra_present_opt c gs a e s (Err er)); auto.
    + exists (Ok VNone). repeat split; auto. now apply ra_absent_opt.
  - unfold d_try_attribute in R. destruct (d_attribute e (nm (a_name a))) as [s|] eqn:D; simpl in R.
    + destruct (run_ax p (content_from_str (a_content a) t) s) as [v|er| |] eqn:Ea; simpl in R;
        try (subst o; now destruct Fo); specialize (SA _ _ Ea I).
      * exists (Ok v). repeat split; auto. eapply ra_present_req; eauto.
      * exists (Err er). repeat split; auto. eapply ra_present_req; eauto.
    + eexists (Err _). repeat split; [exact E1|now apply ra_absent_req|]. now subst o.
Qed.

Lemma s_attrs ats : forall ras e o, Forall2 (fun a b => attr_from_xml gfuel c a = Ok b) ats ras ->
  mapM (fun a => run_ra p a e) ras = o -> fin o -> read_attrs ats e o.
Proof.
  induction ats as [|a ats IH]; intros ras e o F H Fo; inversion F as [|? ra0 ? ras' E F']; subst.
  - simpl. constructor.
  - simpl in *. pose proof (fin_sub _ _ _ eq_refl Fo) as Fa.
    destruct (s_ra _ _ _ _ E eq_refl Fa) as (f & ov & Ef & Rd & Eo). rewrite Eo in *.
    destruct ov as [v|er| |]; simpl in *; try now destruct Fo.
    + erewrite bind_rmap with (f := cons (f, v)) in * by reflexivity.
      apply rs_cons; auto. eapply IH; eauto. destruct (mapM _ ras'); try destruct Fo; exact I.
    + now apply rs_err.
Qed.

Lemma sound_type fuel : forall id e l o, run_type list_ops p fuel id e l = o -> fin o ->
  exists n r, In n gs /\ sc_get c n = Some r /\ type_ident n = Ok id /\ read_root n r e l o.
Proof.
  induction fuel as [|fuel IH]; intros id e l o H Fo; simpl in H; [subst o; destruct Fo|].
  destruct (lookup_item p id) as [t|] eqn:Lk; [|subst o; destruct Fo].
  destruct (item_lookup _ _ Lk) as (n & r & It & Eid). exists n, r.
  assert (Tn : type_ident n = Ok id) by (rewrite <- Eid; apply It).
  repeat split; [apply It|apply It|exact Tn|]. unfold run_body in H.
  pose proof (it_read _ _ _ It) as Hr. destruct r as [d|ns|d|d]; simpl in Hr.
  - apply bind_ok in Hr. destruct Hr as (x & Ex & Hr). injection Hr as E. rewrite <- E in H. subst o.
    apply content_rx in Ex. erewrite bind_rmap with (f := with_rest VTuple) in * by (intros []; reflexivity).
    constructor. eapply s_rx; eauto. destruct (run_rx _ x e l); try destruct Fo; exact I.
  - injection Hr as E. rewrite <- E in H. pose proof (it_decl _ _ _ It) as Hd. simpl in Hd.
    apply bind_ok in Hd. destruct Hd as (vs & Ev & Hd). injection Hd as Ed. rewrite <- Ed in H. subst o.
    now constructor.
  - unfold element_from_xml in Hr. apply bind_ok in Hr. destruct Hr as (fs & Ef & Hr).
    apply bind_ok in Hr. destruct Hr as (ras & Ea & Hr). injection Hr as E. rewrite <- E in H. subst o.
    assert (RF : forall o', run_fields list_ops (run_type list_ops p fuel) (run_look list_ops p fuel) fuel fs e l = o' ->
                 fin o' -> read_fields (ed_content d) e l o').
    { intros o' H Fo'. destruct (ed_content d) as [[n0 d0|ls]|].
      - apply bind_ok in Ef. destruct Ef as (f & E1 & Ef). apply bind_ok in Ef. destruct Ef as (x & E2 & Ef).
        injection Ef as <-. apply content_rx in E2. cbn [run_fields run_fr] in H.
        destruct (run_rx (run_type list_ops p fuel) x e l) as [[v l1]|er| |] eqn:Er; simpl in H; subst o'; try now destruct Fo'.
        + apply (rf_leaf c gs n0 d0 f e l (Ok (v, l1))); auto. eapply s_rx; eauto; exact I.
        + apply (rf_leaf c gs n0 d0 f e l (Err er)); auto. eapply s_rx; eauto; exact I.
      - constructor. apply mapM_ok in Ef. eapply s_fields; eauto. apply sound_look.
      - injection Ef as <-. subst o'. constructor. }
    destruct (run_fields _ _ _ fuel fs e l) as [[vs l1]|er| |] eqn:Er; simpl in *; try now destruct Fo.
    + eapply rr_element; [apply RF; [reflexivity|exact I]|]. apply mapM_ok in Ea.
      eapply s_attrs; eauto. destruct (mapM _ ras); try destruct Fo; exact I.
    + apply rr_element_err, RF; [reflexivity|exact I].
  - apply bind_ok in Hr. destruct Hr as (arms & Ea & Hr). injection Hr as E. rewrite <- E, Eid in H.
    apply mapM_ok in Ea. constructor. eapply s_arms; eauto. apply sound_look.
Qed.

(** ** Completeness *)
Hypothesis Hnd : NoDup (map ti_id p).

Lemma lookup_NoDup t : In t p -> lookup_item p (ti_id t) = Some t.
Proof.
  clear Hp. unfold lookup_item. induction p as [|t0 q IH]; simpl; [tauto|].
  inversion Hnd as [|? ? N1 N2]; subst. intros [->|H].
  - now rewrite eqb_s_refl.
  - destruct (String.eqb_spec (ti_id t0) (ti_id t)) as [E|E]; [|auto].
    exfalso. apply N1. rewrite E. now apply in_map.
Qed.

Lemma item_named n id : In n gs -> type_ident n = Ok id ->
  exists r t, item n r t /\ ti_id t = id /\ lookup_item p id = Some t.
Proof.
  intros H Ei. assert (X : exists t, In t p /\ generate_element gfuel c n = Ok t).
  { apply mapM_ok in Hp. clear Hnd. revert H. induction Hp as [|n0 t l p' Ht F IH]; intros H; [destruct H|].
    destruct H as [->|H]; [exists t; split; [now left|exact Ht]|].
    destruct IH as (t' & I' & E); auto. exists t'. split; [now right|exact E]. }
  destruct X as (t & It & G). destruct (item_of _ _ H G) as (r & K). exists r, t.
  pose proof (it_id _ _ _ K) as E. rewrite Ei in E. injection E as ->. split; [exact K|]. split; [reflexivity|]. now apply lookup_NoDup.
Qed.

Definition ev2 (P : nat -> nat -> Prop) : Prop := exists N, forall f k, N <= f -> N <= k -> P f k.
Lemma ev2_of (P : nat -> Prop) (Q : nat -> nat -> Prop) :
  (forall f k, P f -> Q f k) -> eventually P -> ev2 Q.
Proof. intros H (N & K). exists N. auto. Qed.
Lemma ev2_and P Q : ev2 P -> ev2 Q -> ev2 (fun f k => P f k /\ Q f k).
Proof. intros (N & A) (M & B). exists (max N M). intros f k H1 H2. split; [apply A|apply B]; lia. Qed.
Lemma ev2_mono (P Q : nat -> nat -> Prop) : (forall f k, P f k -> Q f k) -> ev2 P -> ev2 Q.
Proof. intros H (N & K). exists N. auto. Qed.
Lemma ev2_succ (P : nat -> nat -> Prop) : ev2 (fun f k => P f (S k)) -> ev2 P.
Proof.
  intros (N & K). exists (S N). intros f k H1 H2. destruct k as [|k]; [lia|]. apply K; lia.
Qed.
Lemma ev2_ev (P : nat -> nat -> Prop) : ev2 P -> eventually (fun f => P f f).
Proof. intros (N & K). exists N. auto. Qed.
Lemma ev_succ (P : nat -> Prop) : eventually (fun f => P (S f)) -> eventually P.
Proof. intros (N & K). exists (S N). intros f H. destruct f as [|f]; [lia|]. apply K; lia. Qed.

Notation call := (run_type list_ops p). Notation look := (run_look list_ops p).

Lemma complete_looks :
  (forall m l b, look_group m l b -> forall id, look_ident m = Ok id ->
     eventually (fun f => look f id l = Ok (b, l)))
  /\ (forall f l b, look_leaf f l b -> forall k, leaf_look c f = Ok k -> forall ks,
     eventually (fun fu => run_lk list_ops (look fu) (k :: ks) l =
       if b then Ok (true, l) else run_lk list_ops (look fu) ks l))
  /\ (forall ls l b, look_seq ls l b -> forall ks, leaves_look c ls = Ok ks ->
     eventually (fun fu => run_lk list_ops (look fu) ks l = Ok (b, l)))
  /\ (forall ls l b, look_any ls l b -> forall ks, Forall2 (fun a b => leaf_look c a = Ok b) ls ks ->
     eventually (fun fu => run_lk list_ops (look fu) ks l = Ok (b, l))).
Proof.
  assert (GI : forall m n r id, group_of m n r -> look_ident m = Ok id ->
          exists t, lookup_item p id = Some t /\ item n r t).
  { intros m n r id (I & G & id' & E1 & E2) Em. rewrite Em in E1. injection E1 as <-.
    destruct (item_named _ _ I E2) as (r' & t & It & Eid & Lk). exists t. split; [exact Lk|].
    rewrite (it_get _ _ _ It) in G. injection G as ->. exact It. }
  apply look_ind.
  - intros m n d l G id Em. destruct (GI _ _ _ _ G Em) as (t & Lk & It). apply ev_succ, ev_always. intros f.
    simpl. rewrite Lk. pose proof (it_look _ _ _ It) as H. simpl in H. injection H as <-. reflexivity.
  - intros m n ns l G id Em. destruct (GI _ _ _ _ G Em) as (t & Lk & It). apply ev_succ, ev_always. intros f.
    simpl. rewrite Lk. pose proof (it_look _ _ _ It) as H. simpl in H. injection H as <-. reflexivity.
  - intros m n d l G N id Em. destruct (GI _ _ _ _ G Em) as (t & Lk & It). apply ev_succ, ev_always. intros f.
    simpl. rewrite Lk. pose proof (it_look _ _ _ It) as H. simpl in H.
    destruct (ed_content d) as [[n0 d0|ls]|]; [|exfalso; eapply N; eauto|]; injection H as <-; reflexivity.
  - intros m n d ls l b G C S IH id Em. destruct (GI _ _ _ _ G Em) as (t & Lk & It).
    pose proof (it_look _ _ _ It) as H. simpl in H. rewrite C in H. apply bind_ok in H. destruct H as (ks & Ek & H).
    injection H as H. apply ev_succ. eapply ev_mono; [|apply (IH ks Ek)]. intros f E. simpl. now rewrite Lk, <- H.
  - intros m n d l b G S IH id Em. destruct (GI _ _ _ _ G Em) as (t & Lk & It).
    pose proof (it_look _ _ _ It) as H. simpl in H. apply bind_ok in H. destruct H as (ks & Ek & H).
    injection H as H. apply mapM_ok in Ek. apply ev_succ. eapply ev_mono; [|apply (IH ks Ek)]. intros f E. simpl. now rewrite Lk, <- H.
  - intros f m l b V C G IH k Ek ks. unfold leaf_look in Ek. rewrite V in Ek. unfold virtual_target in Ek. rewrite C in Ek.
    apply bind_ok in Ek. destruct Ek as (id & Em & Ek). injection Ek as <-.
    eapply ev_mono; [|apply (IH _ Em)]. intros fu E. cbn [run_lk]. rewrite E. destruct b; reflexivity.
  - intros f ns l V Q k Ek ks. unfold leaf_look, xml_ns_of in Ek. rewrite V, Q in Ek. simpl in Ek. injection Ek as <-.
    apply ev_always. intros fu. simpl. reflexivity.
  - intros l ks H. simpl in H. injection H as <-. apply ev_always. reflexivity.
  - intros f fs l _ IH ks H. simpl in H. apply bind_ok in H. destruct H as (k & Ek & H).
    assert (K : exists r, ks = k :: r).
    { destruct (lf_is_optional f); [apply bind_ok in H; destruct H as (? & _ & H)|]; injection H as <-; eauto. }
    destruct K as (r & ->). apply IH. exact Ek.
  - intros f fs l _ IH O ks H. simpl in H. rewrite O in H. apply bind_ok in H. destruct H as (k & Ek & H).
    injection H as <-. eapply ev_mono; [|apply (IH _ Ek [])]. intros fu E. rewrite E. reflexivity.
  - intros f fs l b _ IH O _ IH2 ks H. simpl in H. rewrite O in H. apply bind_ok in H. destruct H as (k & Ek & H).
    apply bind_ok in H. destruct H as (ks' & Eks & H). injection H as <-.
    eapply ev_mono; [|apply (ev_and _ _ (IH _ Ek ks') (IH2 _ Eks))]. intros fu [E1 E2]. now rewrite E1.
  - intros l ks H. inversion H. apply ev_always. reflexivity.
  - intros f fs l _ IH ks H. inversion H as [|? k ? ks' Ek H']; subst. apply (IH _ Ek).
  - intros f fs l b _ IH _ IH2 ks H. inversion H as [|? k ? ks' Ek H']; subst.
    eapply ev_mono; [|apply (ev_and _ _ (IH _ Ek ks') (IH2 _ H'))]. intros fu [E1 E2]. now rewrite E1.
Qed.

Lemma complete_look m l b id : look_group m l b -> look_ident m = Ok id ->
  eventually (fun f => look f id l = Ok (b, l)).
Proof. intros H. apply (proj1 complete_looks _ _ _ H). Qed.

Lemma complete_convert a ra0 s o : attr_from_xml gfuel c a = Ok ra0 -> converts (a_content a) s o ->
  run_ax p (ra_conv ra0) s = o.
Proof.
  unfold attr_from_xml. intros H Cv. apply bind_ok in H. destruct H as (f & E1 & H).
  apply bind_ok in H. destruct H as (t & E2 & H). injection H as <-. simpl.
  unfold content_from_str. destruct Cv as [lit s|fx s|m s (lit & F & Ep)|m m' n names vs s F (I & G & id & Em & En) Ev].
  - reflexivity.
  - reflexivity.
  - apply content_ty in E2. destruct E2 as (ct' & F' & T). rewrite (final_det _ _ _ F' F) in T.
    inversion T; subst. rewrite Ep. reflexivity.
  - apply content_ty in E2. destruct E2 as (ct' & F' & T). rewrite (final_det _ _ _ F' F) in T.
    inversion T as [| |? id' Em']; subst. rewrite Em in Em'. injection Em' as <-. simpl.
    destruct (item_named _ _ I En) as (r & t & It & Eid & Lk). rewrite Lk.
    rewrite (it_get _ _ _ It) in G. injection G as ->. pose proof (it_decl _ _ _ It) as Hd. simpl in Hd.
    rewrite Ev in Hd. simpl in Hd. injection Hd as <-. reflexivity.
Qed.

Lemma complete_attrs ats e o : read_attrs ats e o -> forall ras,
  Forall2 (fun a b => attr_from_xml gfuel c a = Ok b) ats ras -> mapM (fun a => run_ra p a e) ras = o.
Proof.
  assert (One : forall a ra0 ov, attr_from_xml gfuel c a = Ok ra0 -> read_attr a e ov ->
           exists f, field_ident (a_name a) = Ok f /\ run_ra p ra0 e = rmap (fun v => (f, v)) ov).
  { intros a ra0 ov H Rd. pose proof (complete_convert a ra0) as CC. specialize (fun s o => CC s o H).
    unfold attr_from_xml in H. apply bind_ok in H. destruct H as (f & E1 & H).
    apply bind_ok in H. destruct H as (t & E2 & H). injection H as <-. exists f. split; [exact E1|].
    unfold run_ra, d_try_attribute. simpl in *.
    destruct Rd as [a e D O|a e D O|a e s ov D O Cv|a e s ov D O Cv]; rewrite O, D; simpl; auto.
    - rewrite (CC _ _ Cv). destruct ov; reflexivity.
    - rewrite (CC _ _ Cv). destruct ov; reflexivity. }
  induction 1 as [e|a ats e x Rd|a ats e f v o Rd Ef _ IH]; intros ras F; inversion F as [|? ra0 ? ras' E F']; subst.
  - reflexivity.
  - destruct (One _ _ _ E Rd) as (f & _ & Er). simpl. rewrite Er. reflexivity.
  - destruct (One _ _ _ E Rd) as (f' & Ef' & Er). rewrite Ef in Ef'. injection Ef' as <-.
    simpl. rewrite Er. simpl. rewrite (IH One _ F'). destruct o; reflexivity.
Qed.

Lemma complete_reads :
  (forall ct e l o, read_content ct e l o -> forall x, rx_for ct x ->
     eventually (fun f => run_rx (call f) x e l = o))
  /\ (forall ct e o, read_sub ct e o -> forall x, rx_for ct x ->
     eventually (fun f => run_sub list_ops (call f) x e = o))
  /\ (forall n r e l o, read_root n r e l o -> In n gs -> sc_get c n = Some r -> forall id, type_ident n = Ok id ->
     eventually (fun f => call f id e l = o))
  /\ (forall ec e l o, read_fields ec e l o -> forall fs,
     match ec with
     | None => Ok []
     | Some (EcLeaf n d) => f <- field_ident n ;; x <- def_from_xml gfuel c d ;; Ok [(f, FrHere x)]
     | Some (EcLeaves ls) => mapM (leaf_from_xml gfuel c) ls
     end = Ok fs ->
     ev2 (fun f k => run_fields list_ops (call f) (look f) k fs e l = o))
  /\ (forall ls e l o, read_leaves ls e l o -> forall fs, Forall2 (fun a b => leaf_from_xml gfuel c a = Ok b) ls fs ->
     ev2 (fun f k => run_fields list_ops (call f) (look f) k fs e l = o))
  /\ (forall lf e l o, read_leaf lf e l o -> forall r, fr_for lf r ->
     ev2 (fun f k => run_fr list_ops (call f) (look f) k r e l = o))
  /\ (forall m e l o, read_groups m e l o -> forall id x, look_ident m = Ok id -> rx_for (LcNamed m) x ->
     ev2 (fun f k => while_look (call f) (look f) k id x e l = o))
  /\ (forall n ns ct l o, read_run n ns ct l o -> forall x, rx_for ct x ->
     ev2 (fun f k => while_next list_ops (call f) k n ns x l = o))
  /\ (forall n vs e l o, read_choice n vs e l o -> forall id arms, type_ident n = Ok id ->
     Forall2 (fun a b => variant_from_xml gfuel c a = Ok b) vs arms ->
     ev2 (fun f k => run_arms list_ops (call f) (look f) k id arms e l = o)).
Proof.
  assert (RX : forall ct ct' x, rx_for ct x -> final ct ct' -> rx_is ct' x).
  { intros ct ct' x (ct2 & F2 & X) F. now rewrite (final_det _ _ _ F F2). }
  apply read_ind.
  - intros ct lit e l F x X. pose proof (RX _ _ _ X F) as E. inversion E; subst. apply ev_always. reflexivity.
  - intros ct s e l F x X. pose proof (RX _ _ _ X F) as E. inversion E; subst. apply ev_always. reflexivity.
  - intros ct m n r e l o F (I & G & id & Em & En) _ IH x X. pose proof (RX _ _ _ X F) as E.
    inversion E as [| |? id' Em']; subst. rewrite Em in Em'. injection Em' as <-. simpl.
    apply IH; auto.
  - intros ct e o _ IH x X. eapply ev_mono; [|apply (IH x X)]. intros f E. unfold run_sub. simpl op_new. rewrite E.
    destruct o as [[]| | |]; reflexivity.
  - intros n d e l o _ IH I G id Ei. destruct (item_named _ _ I Ei) as (r & t & It & Eid & Lk).
    pose proof (it_get _ _ _ It) as G'. rewrite G in G'. injection G' as <-.
    pose proof (it_read _ _ _ It) as H. simpl in H. apply bind_ok in H. destruct H as (x & Ex & H). injection H as H.
    apply content_rx in Ex. apply ev_succ. eapply ev_mono; [|apply (IH x Ex)]. intros f E. simpl. rewrite Lk.
    unfold run_body. rewrite <- H, E. destruct o as [[]| | |]; reflexivity.
  - intros n names vs e l Ev I G id Ei. destruct (item_named _ _ I Ei) as (r & t & It & Eid & Lk).
    pose proof (it_get _ _ _ It) as G'. rewrite G in G'. injection G' as <-.
    pose proof (it_read _ _ _ It) as H. simpl in H. injection H as H.
    pose proof (it_decl _ _ _ It) as Hd. simpl in Hd. rewrite Ev in Hd. simpl in Hd. injection Hd as Hd.
    apply ev_succ, ev_always. intros f. simpl. rewrite Lk. unfold run_body. now rewrite <- H, <- Hd.
  - intros n d e l x _ IH I G id Ei. destruct (item_named _ _ I Ei) as (r & t & It & Eid & Lk).
    pose proof (it_get _ _ _ It) as G'. rewrite G in G'. injection G' as <-.
    pose proof (it_read _ _ _ It) as H. simpl in H. unfold element_from_xml in H.
    apply bind_ok in H. destruct H as (fs & Ef & H). apply bind_ok in H. destruct H as (ras & Ea & H). injection H as H.
    apply ev_succ. eapply ev_mono; [|apply ev2_ev, (IH fs Ef)]. intros f E. simpl. rewrite Lk.
    unfold run_body. rewrite <- H. cbv beta in E. rewrite E. reflexivity.
  - intros n d e l l' vs oa _ IH Ra I G id Ei. destruct (item_named _ _ I Ei) as (r & t & It & Eid & Lk).
    pose proof (it_get _ _ _ It) as G'. rewrite G in G'. injection G' as <-.
    pose proof (it_read _ _ _ It) as H. simpl in H. unfold element_from_xml in H.
    apply bind_ok in H. destruct H as (fs & Ef & H). apply bind_ok in H. destruct H as (ras & Ea & H). injection H as H.
    apply mapM_ok in Ea. pose proof (complete_attrs _ _ _ Ra _ Ea) as Hm.
    apply ev_succ. eapply ev_mono; [|apply ev2_ev, (IH fs Ef)]. intros f E. simpl. rewrite Lk.
    unfold run_body. rewrite <- H. cbv beta in E. rewrite E. simpl. rewrite Hm. reflexivity.
  - intros n d e l o _ IH I G id Ei. destruct (item_named _ _ I Ei) as (r & t & It & Eid & Lk).
    pose proof (it_get _ _ _ It) as G'. rewrite G in G'. injection G' as <-.
    pose proof (it_read _ _ _ It) as H. simpl in H. apply bind_ok in H. destruct H as (arms & Ea & H). injection H as H.
    apply mapM_ok in Ea. apply ev_succ. eapply ev_mono; [|apply ev2_ev, (IH id arms Ei Ea)]. intros f E. simpl. rewrite Lk.
    unfold run_body. rewrite <- H, Eid. exact E.
  - intros e l fs H. injection H as <-. exists 0. reflexivity.
  - intros n d f e l o Ei _ IH fs H. apply bind_ok in H. destruct H as (f' & E1 & H).
    rewrite Ei in E1. injection E1 as <-. apply bind_ok in H. destruct H as (x & E2 & H). injection H as <-.
    apply content_rx in E2. eapply ev2_of; [|apply (IH x E2)]. intros fu k E. cbn [run_fields run_fr]. rewrite E.
    destruct o as [[]| | |]; reflexivity.
  - intros ls e l o _ IH fs H. apply mapM_ok in H. now apply IH.
  - intros e l fs H. inversion H. exists 0. reflexivity.
  - intros f fs e l x _ IH fs0 H. inversion H as [|? [i r] ? fs' E F']; subst. destruct (leaf_fr _ _ _ _ E) as [Ei Er].
    eapply ev2_mono; [|apply (IH r Er)]. intros fu k Hk. cbn [run_fields]. rewrite Hk. reflexivity.
  - intros f fs e l l' i v o _ IH Ei _ IH2 fs0 H. inversion H as [|? [i' r] ? fs' E F']; subst.
    destruct (leaf_fr _ _ _ _ E) as [Ei' Er]. rewrite Ei in Ei'. injection Ei' as <-.
    eapply ev2_mono; [|apply (ev2_and _ _ (IH r Er) (IH2 _ F'))]. intros fu k [E1 E2].
    cbn [run_fields]. rewrite E1. simpl. rewrite E2. destruct o as [[]| | |]; reflexivity.
  (* read_leaf *)
  - intros f e l o V W O _ IH r Fr. inversion Fr; subst; try congruence.
    eapply ev2_of; [|apply IH; eauto]. intros fu k E. exact E.
  - intros f m e l V W O C G r Fr. inversion Fr as [|m' id x V' W' O' C' Em X| | | | |]; subst; try congruence.
    rewrite C in C'. injection C' as <-. eapply ev2_of; [|apply (complete_look _ _ _ _ G Em)].
    intros fu k E. cbn [run_fr]. rewrite E. reflexivity.
  - intros f m e l o V W O C G _ IH r Fr. inversion Fr as [|m' id x V' W' O' C' Em X| | | | |]; subst; try congruence.
    rewrite C in C'. injection C' as <-. rewrite C in IH.
    eapply ev2_of; [|apply (ev_and _ _ (complete_look _ _ _ _ G Em) (IH x X))].
    intros fu k [E1 E2]. cbn [run_fr]. rewrite E1. simpl. rewrite E2. destruct o as [[]| | |]; reflexivity.
  - intros f m e l o V W C _ IH r Fr. inversion Fr as [| |m' id x V' W' C' Em X| | | |]; subst; try congruence.
    rewrite C in C'. injection C' as <-. eapply ev2_mono; [|apply (IH id x Em X)].
    intros fu k E. cbn [run_fr]. rewrite E. destruct o as [[]| | |]; reflexivity.
  - intros f ns e l o V W Q _ IH r Fr. inversion Fr as [| | |ns' x V' W' Q' X| | |]; subst; try congruence.
    rewrite Q in Q'. injection Q' as <-. eapply ev2_mono; [|apply (IH x X)].
    intros fu k E. cbn [run_fr]. rewrite E. destruct o as [[]| | |]; reflexivity.
  - intros f ns e l V W O Q N r Fr. inversion Fr as [| | | |ns' x V' W' O' Q' X| |]; subst; try congruence.
    rewrite Q in Q'. injection Q' as <-. exists 0. intros fu k _ _. cbn [run_fr]. simpl. unfold list_next.
    destruct l as [|y l]; [reflexivity|]. simpl in N. rewrite N. reflexivity.
  - intros f ns e y l o V W O Q N _ IH r Fr. inversion Fr as [| | | |ns' x V' W' O' Q' X| |]; subst; try congruence.
    rewrite Q in Q'. injection Q' as <-. eapply ev2_of; [|apply (IH x X)]. intros fu k E. cbn [run_fr]. simpl. rewrite N, E.
    destruct o; reflexivity.
  - intros f ns e l V W O U Q N r Fr. inversion Fr as [| | | | | |ns' x V' W' O' U' Q' X]; subst; try congruence.
    rewrite Q in Q'. injection Q' as <-. exists 0. intros fu k _ _. cbn [run_fr]. simpl. unfold list_next.
    destruct l as [|y l]; [reflexivity|]. simpl in N. rewrite N. reflexivity.
  - intros f ns e y l o V W O U Q N _ IH r Fr. inversion Fr as [| | | | | |ns' x V' W' O' U' Q' X]; subst; try congruence.
    rewrite Q in Q'. injection Q' as <-. eapply ev2_of; [|apply (IH x X)]. intros fu k E. cbn [run_fr]. simpl. rewrite N, E.
    destruct o; reflexivity.
  - intros f ns e l V W O U Q N r Fr. inversion Fr as [| | | | |ns' x V' W' O' U' Q' X|]; subst; try congruence.
    rewrite Q in Q'. injection Q' as <-. exists 0. intros fu k _ _. cbn [run_fr]. simpl. unfold list_child.
    rewrite remove_first_all by exact N. reflexivity.
  - intros f ns e l1 y l2 o V W O U Q N Hy _ IH r Fr. inversion Fr as [| | | | |ns' x V' W' O' U' Q' X|]; subst; try congruence.
    rewrite Q in Q'. injection Q' as <-. eapply ev2_of; [|apply (IH x X)]. intros fu k E. cbn [run_fr]. simpl. unfold list_child.
    rewrite remove_first_split by assumption. rewrite E. destruct o; reflexivity.
  (* loops *)
  - intros m e l G id x Em X. apply ev2_succ. eapply ev2_of; [|apply (complete_look _ _ _ _ G Em)].
    intros fu k E. cbn [while_look]. rewrite E. reflexivity.
  - intros m e l y G _ IH id x Em X. apply ev2_succ.
    eapply ev2_of; [|apply (ev_and _ _ (complete_look _ _ _ _ G Em) (IH x X))].
    intros fu k [E1 E2]. cbn [while_look]. rewrite E1. simpl. rewrite E2. reflexivity.
  - intros m e l l' v o G _ IH _ IH2 id x Em X. apply ev2_succ.
    eapply ev2_mono; [|apply (ev2_and (fun f _ => look f id l = Ok (true, l) /\ run_rx (call f) x e l = Ok (v, l')) _
      (ev2_of _ _ (fun f k H => H) (ev_and _ _ (complete_look _ _ _ _ G Em) (IH x X))) (IH2 id x Em X))].
    intros fu k [[E1 E2] E3]. cbn [while_look]. rewrite E1. simpl. rewrite E2. simpl. rewrite E3.
    destruct o as [[]| | |]; reflexivity.
  - intros n ns ct l N x X. apply ev2_succ. exists 0. intros fu k _ _. cbn [while_next]. simpl. unfold list_next.
    destruct l as [|y l]; [reflexivity|]. simpl in N. rewrite N. reflexivity.
  - intros n ns ct y l er N _ IH x X. apply ev2_succ. eapply ev2_of; [|apply (IH x X)].
    intros fu k E. cbn [while_next]. simpl. rewrite N, E. reflexivity.
  - intros n ns ct y l v o N _ IH _ IH2 x X. apply ev2_succ.
    eapply ev2_mono; [|apply (ev2_and (fun f _ => run_sub list_ops (call f) x y = Ok v) _
      (ev2_of _ _ (fun f k H => H) (IH x X)) (IH2 x X))].
    intros fu k [E1 E2]. cbn [while_next]. simpl. rewrite N, E1. simpl. rewrite E2. destruct o as [[]| | |]; reflexivity.
  (* choice *)
  - intros n id0 e l En id arms Ei F. inversion F. rewrite En in Ei. injection Ei as <-. exists 0. reflexivity.
  - intros n f fs m e l o V C G _ IH id arms Ei F. inversion F as [|? a ? arms' E F']; subst.
    apply variant_arm in E. inversion E as [v m' i x V' Ev C' Em X| |]; subst; try congruence.
    rewrite C in C'. injection C' as <-.
    eapply ev2_mono; [|apply (ev2_and (fun f _ => look f i l = Ok (false, l)) _
      (ev2_of _ _ (fun f k H => H) (complete_look _ _ _ _ G Em)) (IH id arms' Ei F'))].
    intros fu k [E1 E2]. cbn [run_arms]. rewrite E1. simpl. exact E2.
  - intros n f fs m i e l o V C G Ev _ IH id arms Ei F. inversion F as [|? a ? arms' E F']; subst.
    apply variant_arm in E. inversion E as [v m' i' x V' Ev' C' Em X| |]; subst; try congruence.
    rewrite C in C'. injection C' as <-. rewrite Ev in Ev'. injection Ev' as <-.
    eapply ev2_of; [|apply (ev_and _ _ (complete_look _ _ _ _ G Em) (IH x X))].
    intros fu k [E1 E2]. cbn [run_arms]. rewrite E1. simpl. rewrite E2. destruct o as [[]| | |]; reflexivity.
  - intros n f fs ns e l o V Q N _ IH id arms Ei F. inversion F as [|? a ? arms' E F']; subst.
    eapply ev2_mono; [|apply (IH id arms' Ei F')]. intros fu k E2.
    apply variant_arm in E. inversion E as [|v ns' x V' W' Ev Q' X|v ns' x V' W' Ev Q' X]; subst; try congruence;
      rewrite Q in Q'; injection Q' as <-; cbn [run_arms]; simpl.
    + rewrite N. exact E2.
    + unfold list_next. destruct l as [|y l]; [exact E2|]. simpl in N. rewrite N. exact E2.
  - intros n f fs ns i e l o V Q W N Ev _ IH id arms Ei F. inversion F as [|? a ? arms' E F']; subst.
    apply variant_arm in E. inversion E as [|v ns' x V' W' Ev' Q' X|v ns' x V' W' Ev' Q' X]; subst; try congruence.
    rewrite Q in Q'; injection Q' as <-. rewrite Ev in Ev'. injection Ev' as <-.
    eapply ev2_mono; [|apply (IH x X)]. intros fu k E2. cbn [run_arms]. simpl. rewrite N, E2.
    destruct o as [[]| | |]; reflexivity.
  - intros n f fs ns i e y l o V Q W N Ev _ IH id arms Ei F. inversion F as [|? a ? arms' E F']; subst.
    apply variant_arm in E. inversion E as [|v ns' x V' W' Ev' Q' X|v ns' x V' W' Ev' Q' X]; subst; try congruence.
    rewrite Q in Q'; injection Q' as <-. rewrite Ev in Ev'. injection Ev' as <-.
    eapply ev2_of; [|apply (IH x X)]. intros fu k E2. cbn [run_arms]. simpl. rewrite N, E2.
    destruct o; reflexivity.
Qed.

(** ** Documents *)
Lemma read_doc_sound fuel n id e o : In n gs -> type_ident n = Ok id ->
  from_xml p fuel id e = o -> fin o -> read_doc c gs n e o.
Proof.
  intros I Ei H Fo. rewrite from_xml_list in H. unfold from_xml_with in H.
  destruct (item_named _ _ I Ei) as (r & t & It & Eid & Lk). rewrite Lk in H.
  rewrite (it_rname _ _ _ It) in H. pose proof (it_rns _ _ _ It) as Q. unfold doc_try_child in H.
  destruct (has_name (nm n) (ti_read_ns t) e) eqn:Hn; simpl in H.
  - destruct (run_type list_ops p fuel id e (xe_children e)) as [[v l]|er| |] eqn:Er; simpl in H; subst o; try now destruct Fo.
    + destruct (sound_type _ _ _ _ _ Er Logic.I) as (n' & r' & I' & G' & Ei' & Rd).
      assert (n' = n) as ->.
      { clear -I I' Ei Ei' Hp Hnd. apply mapM_ok in Hp.
        assert (X : forall n, In n gs -> type_ident n = Ok id -> exists k, nth_error gs k = Some n /\ nth_error (map ti_id p) k = Some id).
        { intros m Im Em. apply In_nth_error in Im. destruct Im as (k & Ek). exists k. split; [exact Ek|].
          assert (Y : exists t, nth_error p k = Some t /\ generate_element gfuel c m = Ok t).
          { clear -Hp Ek. revert k Ek. induction Hp as [|a b l q Hab F IH]; intros [|k] Ek; try discriminate; simpl in *.
            - injection Ek as <-. eauto.
            - eauto. }
          destruct Y as (t & E1 & E2). rewrite (map_nth_error _ _ _ E1).
          apply generate_element_inv in E2. destruct E2 as (el & id' & d & w & xn & nss & ns & r & lk & _ & E2 & _ & _ & _ & _ & _ & _ & _ & ->).
          simpl. rewrite Em in E2. congruence. }
        destruct (X _ I Ei) as (k1 & A1 & B1). destruct (X _ I' Ei') as (k2 & A2 & B2).
        assert (k1 = k2).
        { eapply NoDup_nth_error; [exact Hnd| |congruence]. apply nth_error_Some. congruence. }
        congruence. }
      change (Ok v : R value) with (rmap fst (Ok (v, l) : R (value * list xelem))). eapply rd_root; eauto.
    + destruct (sound_type _ _ _ _ _ Er Logic.I) as (n' & r' & I' & G' & Ei' & Rd).
      assert (n' = n) as ->.
      { clear -I I' Ei Ei' Hp Hnd. apply mapM_ok in Hp.
        assert (X : forall n, In n gs -> type_ident n = Ok id -> exists k, nth_error gs k = Some n /\ nth_error (map ti_id p) k = Some id).
        { intros m Im Em. apply In_nth_error in Im. destruct Im as (k & Ek). exists k. split; [exact Ek|].
          assert (Y : exists t, nth_error p k = Some t /\ generate_element gfuel c m = Ok t).
          { clear -Hp Ek. revert k Ek. induction Hp as [|a b l q Hab F IH]; intros [|k] Ek; try discriminate; simpl in *.
            - injection Ek as <-. eauto.
            - eauto. }
          destruct Y as (t & E1 & E2). rewrite (map_nth_error _ _ _ E1).
          apply generate_element_inv in E2. destruct E2 as (el & id' & d & w & xn & nss & ns & r & lk & _ & E2 & _ & _ & _ & _ & _ & _ & _ & ->).
          simpl. rewrite Em in E2. congruence. }
        destruct (X _ I Ei) as (k1 & A1 & B1). destruct (X _ I' Ei') as (k2 & A2 & B2).
        assert (k1 = k2).
        { eapply NoDup_nth_error; [exact Hnd| |congruence]. apply nth_error_Some. congruence. }
        congruence. }
      change (Err er : R value) with (rmap fst (Err er : R (value * list xelem))). eapply rd_root; eauto.
  - subst o. eapply rd_other; eauto.
Qed.

Lemma read_doc_complete n id e o : type_ident n = Ok id -> read_doc c gs n e o ->
  eventually (fun fuel => from_xml p fuel id e = o).
Proof.
  intros Ei H. destruct H as [n ns e I Q N|n ns r e o I Q N G Rd];
    destruct (item_named _ _ I Ei) as (r' & t & It & Eid & Lk); pose proof (it_rns _ _ _ It) as Q';
    rewrite Q in Q'; injection Q' as Q'.
  - apply ev_always. intros f. rewrite from_xml_list. unfold from_xml_with. rewrite Lk.
    rewrite (it_rname _ _ _ It), <- Q'. unfold doc_try_child. rewrite N. reflexivity.
  - destruct complete_reads as (_ & _ & CR & _). eapply ev_mono; [|apply (CR _ _ _ _ _ Rd I G _ Ei)].
    intros f E. rewrite from_xml_list. unfold from_xml_with. rewrite Lk.
    rewrite (it_rname _ _ _ It), <- Q'. unfold doc_try_child. rewrite N. simpl. rewrite E.
    destruct o as [[]| | |]; reflexivity.
Qed.
End DecProof.
