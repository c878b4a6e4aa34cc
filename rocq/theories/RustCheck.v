(** * RustCheck: deciding RustSpec *)
From Verif Require Import Base Libs Xml Ast Gen RustSpec Samples.

Definition prim_eq_dec (a b : prim) : {a = b} + {a <> b}.
Proof. decide equality. Defined.
Definition rty_eq_dec (a b : rty) : {a = b} + {a <> b}.
Proof. decide equality; [apply prim_eq_dec|apply string_dec]. Defined.
Definition rty_eqb (a b : rty) : bool := if rty_eq_dec a b then true else false.
Lemma rty_eqb_eq a b : rty_eqb a b = true <-> a = b.
Proof. unfold rty_eqb. destruct (rty_eq_dec a b); split; congruence. Qed.

Lemma existsb_In (x : string) l : existsb (String.eqb x) l = true <-> In x l.
Proof.
  rewrite existsb_exists. split.
  - intros (y & I & E). apply String.eqb_eq in E. now subst.
  - intros I. exists x. split; [exact I|apply String.eqb_refl].
Qed.
Lemma nodupb_iff l : nodupb l = true <-> NoDup l.
Proof.
  split; [apply nodupb_NoDup|]. induction 1 as [|x l N _ IH]; simpl; [reflexivity|].
  rewrite IH, andb_true_r. apply negb_true_iff. destruct (existsb (String.eqb x) l) eqn:E; [|reflexivity].
  apply existsb_In in E. contradiction.
Qed.
Lemma forallb_Forall {A} (P : A -> Prop) (b : A -> bool) l : (forall a, b a = true <-> P a) ->
  (forallb b l = true <-> Forall P l).
Proof.
  intros H. rewrite forallb_forall, Forall_forall. split; intros K a I; apply H; auto.
Qed.
Fixpoint forall2b {A B} (f : A -> B -> bool) (l : list A) (m : list B) : bool :=
  match l, m with
  | [], [] => true
  | a :: l', b :: m' => f a b && forall2b f l' m'
  | _, _ => false
  end.
Lemma forall2b_iff {A B} (P : A -> B -> Prop) (f : A -> B -> bool) l : (forall a b, f a b = true <-> P a b) ->
  forall m, forall2b f l m = true <-> Forall2 P l m.
Proof.
  intros H. induction l as [|a l IH]; intros [|b m]; simpl; split; intros K; try discriminate; try (inversion K; fail).
  - constructor.
  - reflexivity.
  - apply andb_true_iff in K. destruct K as [K1 K2]. constructor; [now apply H|now apply IH].
  - inversion K; subst. apply andb_true_iff. split; [now apply H|now apply IH].
Qed.
Definition nonempty {A} (l : list A) : bool := match l with [] => false | _ => true end.
Lemma nonempty_iff {A} (l : list A) : nonempty l = true <-> l <> [].
Proof. destruct l; split; intros H; simpl in *; congruence. Qed.
Lemma negb_existsb_In (x : string) l : negb (existsb (String.eqb x) l) = true <-> ~ In x l.
Proof. rewrite negb_true_iff, <- existsb_In. destruct (existsb (String.eqb x) l); split; congruence. Qed.

Definition plain_b (s : string) : bool := negb (existsb (String.eqb s) rust_keywords).
Lemma plain_b_iff s : plain_b s = true <-> plain_ident s.
Proof. apply negb_existsb_In. Qed.

Section Check.
Variable p : program.

Definition defined_b (id : string) : bool := existsb (String.eqb id) (map ti_id p).
Lemma defined_b_iff id : defined_b id = true <-> defined p id.
Proof. apply existsb_In. Qed.

Fixpoint type_b (t : rty) : bool :=
  match t with
  | TPrim _ | TUnit => true
  | TRef id => defined_b id
  | TVec t | TOpt t => type_b t
  end.
Lemma type_b_iff t : type_b t = true <-> type_ok p t.
Proof.
  induction t as [q| |id|t IH|t IH]; simpl.
  - split; [constructor|auto].
  - split; [constructor|auto].
  - rewrite defined_b_iff. split; [now constructor|intros H; now inversion H].
  - rewrite IH. split; [now constructor|intros H; now inversion H].
  - rewrite IH. split; [now constructor|intros H; now inversion H].
Qed.

Definition members_b (fs : list (string * rty)) : bool :=
  nodupb (map fst fs) && forallb plain_b (map fst fs) && forallb type_b (map snd fs).
Lemma members_b_iff fs : members_b fs = true <-> members_ok p fs.
Proof.
  unfold members_b, members_ok. rewrite !andb_true_iff, nodupb_iff, (forallb_Forall _ _ _ plain_b_iff),
    (forallb_Forall _ _ _ type_b_iff). tauto.
Qed.
Definition decl_b (d : decl) : bool :=
  match d with
  | DTuple t b => type_b t && (if b then match t with TPrim _ => true | _ => false end else true)
  | DEnum vs => nonempty vs && nodupb (map fst vs) && forallb plain_b (map fst vs)
  | DStruct fs => members_b fs
  | DChoice vs => nonempty vs && members_b vs
  end.
Lemma decl_b_iff d : decl_b d = true <-> decl_ok p d.
Proof.
  destruct d as [t b|vs|fs|vs]; simpl.
  - rewrite andb_true_iff, type_b_iff. split.
    + intros [A B]. constructor; [exact A|]. intros ->. destruct t; try discriminate. eauto.
    + intros H. inversion H; subst. split; [assumption|]. destruct b; [|reflexivity]. destruct H3 as (q & ->); auto.
  - rewrite !andb_true_iff, nonempty_iff, nodupb_iff, (forallb_Forall _ _ _ plain_b_iff). split.
    + intros [[A B] C]. now constructor.
    + intros H. inversion H; subst. auto.
  - rewrite members_b_iff. split; [now constructor|intros H; now inversion H].
  - rewrite andb_true_iff, nonempty_iff, members_b_iff. split; [intros [A B]; now constructor|intros H; now inversion H].
Qed.

(** ** Reading *)
Definition rx_b (x : rx) (t : rty) : bool :=
  match x with
  | RxText l => rty_eqb t (TPrim (lit_prim l))
  | RxFixed _ => rty_eqb t TUnit
  | RxCall id => defined_b id && rty_eqb t (TRef id)
  end.
Lemma rx_b_iff x t : rx_b x t = true <-> rx_type p x t.
Proof.
  destruct x; simpl; rewrite ?andb_true_iff, ?defined_b_iff, rty_eqb_eq; split;
    try (intros ->; constructor); try (intros H; now inversion H).
  intros [H ->]. now constructor.
Qed.
Definition vec_b (opt : bool) (x : rx) (t : rty) : bool :=
  match opt, t with
  | true, TOpt (TVec t) => rx_b x t
  | false, TVec t => rx_b x t
  | _, _ => false
  end.
Lemma vec_b_iff opt x t : vec_b opt x t = true <-> exists u, t = wrap_opt opt (TVec u) /\ rx_type p x u.
Proof.
  split.
  - destruct opt; simpl; [destruct t as [| | | |[]]|destruct t]; try discriminate; rewrite rx_b_iff; simpl; eauto.
  - intros (u & -> & H). destruct opt; simpl; now apply rx_b_iff.
Qed.
Definition opt_b (x : rx) (t : rty) : bool := match t with TOpt t => rx_b x t | _ => false end.
Lemma opt_b_iff x t : opt_b x t = true <-> exists u, t = TOpt u /\ rx_type p x u.
Proof.
  split.
  - destruct t; try discriminate; simpl; rewrite rx_b_iff; eauto.
  - intros (u & -> & H). now apply rx_b_iff.
Qed.
Definition fr_b (r : fr) (t : rty) : bool :=
  match r with
  | FrHere x | FrTryChild _ _ x | FrTryNext _ _ x => rx_b x t
  | FrWhileLook id x opt => defined_b id && vec_b opt x t
  | FrIfLook id x => defined_b id && opt_b x t
  | FrWhileNext _ _ x opt => vec_b opt x t
  | FrIfNext _ _ x => opt_b x t
  end.
Lemma fr_b_iff r t : fr_b r t = true <-> fr_type p r t.
Proof.
  destruct r; simpl; rewrite ?andb_true_iff, ?defined_b_iff, ?rx_b_iff, ?vec_b_iff, ?opt_b_iff; split;
    try (intros (D & u & -> & X)); try (intros (u & -> & X)); intros; try (constructor; assumption);
    match goal with H : fr_type _ _ _ |- _ => inversion H; subst; eauto end.
Qed.

Definition enum_b (id : string) : bool :=
  existsb (fun t => (ti_id t =?s id) && match ti_decl t with DEnum _ => true | _ => false end) p.
Lemma enum_b_iff id : enum_b id = true <-> is_enum_type p id.
Proof.
  unfold enum_b, is_enum_type. rewrite existsb_exists. split.
  - intros (t & I & E). apply andb_true_iff in E. destruct E as [E D]. apply String.eqb_eq in E.
    destruct (ti_decl t) as [|vs| |] eqn:Ed; try discriminate. eauto.
  - intros (t & vs & I & E & D). exists t. split; [exact I|]. rewrite D, E, String.eqb_refl. reflexivity.
Qed.
Definition ax_b (a : ax) (t : rty) : bool :=
  match a with
  | AxLit l => rty_eqb t (TPrim (lit_prim l))
  | AxUnit => rty_eqb t TUnit
  | AxFromStr u => rty_eqb t u && match u with TPrim PString => true | TRef id => enum_b id | _ => false end
  end.
Lemma ax_b_iff a t : ax_b a t = true <-> ax_type p a t.
Proof.
  destruct a as [l|u|]; simpl; rewrite ?andb_true_iff, rty_eqb_eq; split; try (intros ->; constructor);
    try (intros H; now inversion H).
  - intros [-> H]. destruct u as [[]| |id| |]; try discriminate; constructor. now apply enum_b_iff.
  - intros H. inversion H; subst; auto. split; [reflexivity|]. now apply enum_b_iff.
Qed.
Definition ra_b (a : ra) (t : rty) : bool :=
  if ra_opt a then match t with TOpt u => ax_b (ra_conv a) u | _ => false end else ax_b (ra_conv a) t.
Lemma ra_b_iff a t : ra_b a t = true <-> ra_type p a t.
Proof.
  unfold ra_b, ra_type. destruct (ra_opt a); [|apply ax_b_iff]. split.
  - destruct t; try discriminate. rewrite ax_b_iff. eauto.
  - intros (u & -> & H). now apply ax_b_iff.
Qed.

Definition variant_is (v : string) (q : rty -> bool) (vt : string * rty) : bool := (v =?s fst vt) && q (snd vt).
Lemma variant_is_iff v (q : rty -> bool) (Q : rty -> Prop) vs : (forall t, q t = true <-> Q t) ->
  (existsb (variant_is v q) vs = true <-> exists t, In (v, t) vs /\ Q t).
Proof.
  intros H. rewrite existsb_exists. unfold variant_is. split.
  - intros ([w t] & I & E). apply andb_true_iff in E. destruct E as [E1 E2]. apply String.eqb_eq in E1. simpl in *. subst w.
    exists t. split; [exact I|now apply H].
  - intros (t & I & K). exists (v, t). split; [exact I|]. simpl. rewrite String.eqb_refl. now apply H.
Qed.
Definition arm_b (vs : list (string * rty)) (a : arm) : bool :=
  match a with
  | ArmLook v id x => defined_b id && existsb (variant_is v (rx_b x)) vs
  | ArmVec v _ _ x => existsb (variant_is v (vec_b false x)) vs
  | ArmOne v _ _ x => existsb (variant_is v (rx_b x)) vs
  end.
Lemma arm_b_iff vs a : arm_b vs a = true <-> arm_type p vs a.
Proof.
  destruct a as [v id x|v n ns x|v n ns x]; simpl.
  - rewrite andb_true_iff, defined_b_iff, (variant_is_iff v _ _ vs (rx_b_iff x)). split.
    + intros (D & t & I & X). econstructor; eauto.
    + intros H. inversion H; subst. eauto.
  - rewrite (variant_is_iff v _ _ vs (vec_b_iff false x)). split.
    + intros (t & I & u & -> & X). econstructor; eauto.
    + intros H. inversion H; subst. simpl. eauto.
  - rewrite (variant_is_iff v _ _ vs (rx_b_iff x)). split.
    + intros (t & I & X). econstructor; eauto.
    + intros H. inversion H; subst. eauto.
Qed.

Definition read_b (d : decl) (b : br) : bool :=
  match d, b with
  | DTuple t _, BrTuple x => rx_b x t
  | DEnum _, BrEnum => true
  | DStruct fs, BrStruct frs ras =>
      forall2b (fun d f => (fst d =?s fst f) && fr_b (snd f) (snd d)) (firstn (length frs) fs) frs
      && forall2b (fun d a => (fst d =?s ra_field a) && ra_b a (snd d)) (skipn (length frs) fs) ras
  | DChoice vs, BrChoice arms => forallb (arm_b vs) arms
  | _, _ => false
  end.
Lemma F2_len {A B} (P : A -> B -> Prop) l l' : Forall2 P l l' -> length l = length l'.
Proof. induction 1; simpl; congruence. Qed.
Lemma read_b_iff d b : read_b d b = true <-> read_ok p d b.
Proof.
  assert (F : forall (a : string * rty) (b : string * fr), (fst a =?s fst b) && fr_b (snd b) (snd a) = true
    <-> fst a = fst b /\ fr_type p (snd b) (snd a)).
  { intros. rewrite andb_true_iff, String.eqb_eq, fr_b_iff. tauto. }
  assert (A : forall (a : string * rty) (b : ra), (fst a =?s ra_field b) && ra_b b (snd a) = true
    <-> fst a = ra_field b /\ ra_type p b (snd a)).
  { intros. rewrite andb_true_iff, String.eqb_eq, ra_b_iff. tauto. }
  destruct d as [t f|vs|fs|vs], b as [x| |frs ras|arms]; simpl; split; intros H; try discriminate; try (inversion H; fail).
  - constructor. now apply rx_b_iff.
  - inversion H; subst. now apply rx_b_iff.
  - constructor.
  - reflexivity.
  - apply andb_true_iff in H. destruct H as [H1 H2]. rewrite <- (firstn_skipn (length frs) fs). constructor.
    + now apply (forall2b_iff _ _ _ F).
    + now apply (forall2b_iff _ _ _ A).
  - inversion H as [| |ds1 ds2 f' a' F1 F2 E1|]; subst. pose proof (F2_len _ _ _ F1) as Len. apply andb_true_iff. rewrite <- Len.
    rewrite firstn_app, skipn_app, firstn_all, skipn_all, Nat.sub_diag. simpl. rewrite app_nil_r. split.
    + now apply (forall2b_iff _ _ _ F).
    + now apply (forall2b_iff _ _ _ A).
  - constructor. now apply (forallb_Forall _ _ _ (arm_b_iff vs)).
  - inversion H; subst. now apply (forallb_Forall _ _ _ (arm_b_iff vs)).
Qed.

(** ** Writing *)
Definition wx_b (x : wx) (t : rty) : bool :=
  match x with
  | WxText => match t with TPrim _ => true | _ => false end
  | WxFixed _ => true
  | WxCall id => defined_b id && rty_eqb t (TRef id)
  end.
Lemma wx_b_iff x t : wx_b x t = true <-> wx_type p x t.
Proof.
  destruct x; simpl.
  - split; [destruct t; try discriminate; constructor|intros H; now inversion H].
  - split; [constructor|auto].
  - rewrite andb_true_iff, defined_b_iff, rty_eqb_eq. split; [intros [H ->]; now constructor|intros H; now inversion H].
Qed.
Definition closes_b (wrap : bool) (x : wx) : bool := if wrap then match x with WxCall _ => false | _ => true end else true.
Lemma closes_b_iff w x : closes_b w x = true <-> closes w x.
Proof. unfold closes, closes_b, keeps_context. destruct w, x; split; auto; try discriminate; intros H; destruct (H eq_refl). Qed.

Definition unvec (b : bool) (q : rty -> bool) (t : rty) : bool :=
  if b then match t with TVec t => q t | _ => false end else q t.
Definition unopt (b : bool) (q : rty -> bool) (t : rty) : bool :=
  if b then match t with TOpt t => q t | _ => false end else q t.
Lemma unvec_iff b (q : rty -> bool) (Q : rty -> Prop) : (forall t, q t = true <-> Q t) ->
  forall t, unvec b q t = true <-> exists u, t = wrap_vec b u /\ Q u.
Proof.
  intros H t. destruct b; simpl; [|rewrite H]; split.
  - destruct t; try discriminate. rewrite H. eauto.
  - intros (u & -> & K). now apply H.
  - eauto.
  - intros (u & -> & K). exact K.
Qed.
Lemma unopt_iff b (q : rty -> bool) (Q : rty -> Prop) : (forall t, q t = true <-> Q t) ->
  forall t, unopt b q t = true <-> exists u, t = wrap_opt b u /\ Q u.
Proof.
  intros H t. destruct b; simpl; [|rewrite H]; split.
  - destruct t; try discriminate. rewrite H. eauto.
  - intros (u & -> & K). now apply H.
  - eauto.
  - intros (u & -> & K). exact K.
Qed.

Definition wf_b (fs : list (string * rty)) (w : wf) : bool :=
  existsb (variant_is (wf_field w) (unopt (wf_opt w) (unvec (wf_vec w) (wx_b (wf_x w))))) fs && closes_b (wf_wrap w) (wf_x w).
Lemma wf_b_iff fs w : wf_b fs w = true <-> wf_ok p fs w.
Proof.
  unfold wf_b, wf_ok. rewrite andb_true_iff, closes_b_iff,
    (variant_is_iff _ _ _ _ (unopt_iff (wf_opt w) _ _ (unvec_iff (wf_vec w) _ _ (wx_b_iff (wf_x w))))). split.
  - intros ((t & I & u & -> & v & -> & X) & C). eauto.
  - intros (t & I & X & C). split; [|exact C]. eexists. split; [exact I|]. eexists. split; [reflexivity|]. eauto.
Qed.
Definition shown_b (t : rty) : bool := match t with TPrim _ => true | TRef id => enum_b id | _ => false end.
Lemma shown_b_iff t : shown_b t = true <-> shown p t.
Proof.
  destruct t; simpl; rewrite ?enum_b_iff; split; try discriminate; try (now constructor); try (intros H; now inversion H).
Qed.
Definition wa_b (fs : list (string * rty)) (a : wa) : bool :=
  existsb (variant_is (wa_field a) (unopt (wa_opt a)
    (fun t => match wa_fixed a with None => shown_b t | Some _ => true end))) fs.
Lemma wa_b_iff fs a : wa_b fs a = true <-> wa_ok p fs a.
Proof.
  unfold wa_b, wa_ok.
  assert (H : forall t, match wa_fixed a with None => shown_b t | Some _ => true end = true <-> (wa_fixed a = None -> shown p t)).
  { intros t. destruct (wa_fixed a); [split; [discriminate|auto]|]. rewrite shown_b_iff. tauto. }
  rewrite (variant_is_iff _ _ _ _ (unopt_iff (wa_opt a) _ _ H)). split.
  - intros (t & I & u & -> & X). eauto.
  - intros (t & I & X). eauto.
Qed.
Definition body_b (fs : list (string * rty)) (wrap : bool) (b : wbody) : bool :=
  match b with
  | WbNone => true
  | WbLeaf f x => existsb (variant_is f (wx_b x)) fs && closes_b wrap x
  | WbLeaves ws => forallb (wf_b fs) ws
  end.
Lemma body_b_iff fs w b : body_b fs w b = true <-> body_ok p fs w b.
Proof.
  destruct b as [|f x|ws]; simpl.
  - tauto.
  - rewrite andb_true_iff, closes_b_iff, (variant_is_iff _ _ _ _ (wx_b_iff x)). split.
    + intros ((t & I & X) & C). eauto.
    + intros (t & I & X & C). eauto.
  - apply forallb_Forall, wf_b_iff.
Qed.
Definition warm_b (vs : list (string * rty)) (a : warm) : bool :=
  existsb (variant_is (wm_variant a) (unvec (wm_vec a) (wx_b (wm_x a)))) vs && closes_b (wm_wrap a) (wm_x a).
Lemma warm_b_iff vs a : warm_b vs a = true <-> warm_ok p vs a.
Proof.
  unfold warm_b, warm_ok. rewrite andb_true_iff, closes_b_iff,
    (variant_is_iff _ _ _ _ (unvec_iff (wm_vec a) _ _ (wx_b_iff (wm_x a)))). split.
  - intros ((t & I & u & -> & X) & C). eauto.
  - intros (t & I & X & C). split; [|exact C]. eexists. split; [exact I|]. eauto.
Qed.
Definition write_b (d : decl) (w : tw) : bool :=
  match d, w with
  | DTuple t _, TwTuple wrap x => wx_b x t && closes_b wrap x
  | DEnum _, TwEnum => true
  | DStruct fs, TwStruct ats wrap b => forallb (wa_b fs) ats && body_b fs wrap b
  | DChoice vs, TwChoice _ arms =>
      forallb (fun v => existsb (String.eqb v) (map wm_variant arms)) (map fst vs) && forallb (warm_b vs) arms
  | _, _ => false
  end.
Lemma write_b_iff d w : write_b d w = true <-> write_ok p d w.
Proof.
  destruct d as [t f|vs|fs|vs], w as [wr x| |ats wr b|wr arms]; simpl; split; intros H; try discriminate; try (inversion H; fail).
  - apply andb_true_iff in H. destruct H as [A B]. constructor; [now apply wx_b_iff|now apply closes_b_iff].
  - inversion H; subst. apply andb_true_iff. split; [now apply wx_b_iff|now apply closes_b_iff].
  - constructor.
  - reflexivity.
  - apply andb_true_iff in H. destruct H as [A B]. constructor; [now apply (forallb_Forall _ _ _ (wa_b_iff fs))|now apply body_b_iff].
  - inversion H; subst. apply andb_true_iff. split; [now apply (forallb_Forall _ _ _ (wa_b_iff fs))|now apply body_b_iff].
  - apply andb_true_iff in H. destruct H as [A B]. constructor; [|now apply (forallb_Forall _ _ _ (warm_b_iff vs))].
    rewrite forallb_forall in A. intros v I. apply existsb_In. now apply A.
  - inversion H as [| | |vs0 w0 arms0 I F E1]; subst. apply andb_true_iff. split; [|now apply (forallb_Forall _ _ _ (warm_b_iff vs))].
    apply forallb_forall. intros v J. apply existsb_In. now apply I.
Qed.

Definition look_b (l : lk) : bool :=
  match l with
  | LkTrue => true
  | LkOr l => forallb (fun k => match k with LkCall id => defined_b id | _ => true end) l
  end.
Lemma look_b_iff l : look_b l = true <-> look_ok p l.
Proof.
  destruct l as [|l]; simpl; [split; [constructor|auto]|]. rewrite forallb_forall. split.
  - intros H. constructor. intros id I. apply defined_b_iff. apply (H _ I).
  - intros H [id|n ns] I; [|reflexivity]. inversion H; subst. apply defined_b_iff. auto.
Qed.

(** ** Items *)
Definition item_name_b (t : titem) : bool :=
  plain_b (ti_id t) && negb (existsb (String.eqb (ti_id t)) prelude_types)
  && match ti_decl t with DTuple _ _ => negb (existsb (String.eqb (ti_id t)) prelude_values) | _ => true end.
Lemma item_name_b_iff t : item_name_b t = true <-> item_name_ok t.
Proof.
  unfold item_name_b, item_name_ok, is_tuple. rewrite !andb_true_iff, plain_b_iff, negb_existsb_In.
  destruct (ti_decl t) as [u b|vs|fs|vs]; rewrite ?negb_existsb_In; split; intros H.
  - split; [apply H|split; [apply H|]]. intros _. apply H.
  - split; [split; apply H|]. apply H. eauto.
  - split; [apply H|split; [apply H|]]. intros (? & ? & ?). discriminate.
  - split; [split; apply H|reflexivity].
  - split; [apply H|split; [apply H|]]. intros (? & ? & ?). discriminate.
  - split; [split; apply H|reflexivity].
  - split; [apply H|split; [apply H|]]. intros (? & ? & ?). discriminate.
  - split; [split; apply H|reflexivity].
Qed.
Definition functions_b (t : titem) : bool :=
  read_b (ti_decl t) (ti_read t) && write_b (ti_decl t) (ti_write t) && look_b (ti_look t).
Lemma functions_b_iff t : functions_b t = true <-> functions_ok p t.
Proof. unfold functions_b, functions_ok. rewrite !andb_true_iff, read_b_iff, write_b_iff, look_b_iff. tauto. Qed.

(** Everything but the sizes. *)
Definition rust_b : bool :=
  nodupb (map ti_id p) && forallb item_name_b p && forallb (fun t => decl_b (ti_decl t)) p && forallb functions_b p.
Lemma rust_b_iff : rust_ok p <-> rust_b = true /\ sized p.
Proof.
  assert (D : forall t : titem, decl_b (ti_decl t) = true <-> decl_ok p (ti_decl t)) by (intros t; apply decl_b_iff).
  unfold rust_ok, rust_b. rewrite !andb_true_iff, nodupb_iff, (forallb_Forall _ _ _ item_name_b_iff),
    (forallb_Forall _ _ _ D), (forallb_Forall _ _ _ functions_b_iff). split.
  - intros ([A B C E] & F). auto.
  - intros ((((A & B) & C) & F) & E). split; [constructor|]; assumption.
Qed.

(** ** Sizes *)
Fixpoint held (t : rty) : list string :=
  match t with TRef id => [id] | TOpt t => held t | _ => [] end.
Lemma held_iff t id : by_value t id <-> In id (held t).
Proof.
  induction t as [q| |i|t IH|t IH]; simpl; split; intros H; try (inversion H; fail).
  - inversion H; subst. now left.
  - destruct H as [->|[]]. constructor.
  - inversion H; subst. now apply IH.
  - constructor. now apply IH.
Qed.
Definition holds (t : titem) : list string := flat_map held (member_types (ti_decl t)).
Lemma holds_iff t id : In id (holds t) <-> exists u, In u (member_types (ti_decl t)) /\ by_value u id.
Proof.
  unfold holds. rewrite in_flat_map. split; intros (u & I & H); exists u; split; auto; now apply held_iff.
Qed.
Definition size_rank (tab : list (string * nat)) (id : string) : nat :=
  match aget String.eqb id tab with Some k => k | None => 0 end.
Fixpoint size_table (k : nat) : list (string * nat) :=
  match k with
  | O => []
  | S k => let tab := size_table k in map (fun t => (ti_id t, S (list_max (map (size_rank tab) (holds t))))) p
  end.
Definition sized_b : bool :=
  let tab := size_table (S (length p)) in
  forallb (fun t => forallb (fun id => Nat.ltb (size_rank tab id) (size_rank tab (ti_id t))) (holds t)) p.
Lemma sized_b_ok : sized_b = true -> sized p.
Proof.
  unfold sized_b. intros H. exists (size_rank (size_table (S (length p)))). intros t u id I J B.
  cbv zeta in H. rewrite forallb_forall in H. specialize (H t I). rewrite forallb_forall in H.
  apply Nat.ltb_lt, H. apply holds_iff. eauto.
Qed.
(** A chain of types each holding the next, back to the first. *)
Fixpoint chain_b (first : string) (l : list string) : bool :=
  match l with
  | [] => false
  | [x] => existsb (fun t => (ti_id t =?s x) && existsb (String.eqb first) (holds t)) p
  | x :: (y :: _) as l' => existsb (fun t => (ti_id t =?s x) && existsb (String.eqb y) (holds t)) p && chain_b first l'
  end.
Lemma link_ok rank x y : (forall t u id, In t p -> In u (member_types (ti_decl t)) -> by_value u id -> rank id < rank (ti_id t)) ->
  existsb (fun t => (ti_id t =?s x) && existsb (String.eqb y) (holds t)) p = true -> rank y < rank x.
Proof.
  intros R E. apply existsb_exists in E. destruct E as (t & I & E). apply andb_true_iff in E. destruct E as [E1 E2].
  apply String.eqb_eq in E1. apply existsb_In, holds_iff in E2. destruct E2 as (u & J & B). subst x. eauto.
Qed.
Lemma chain_ok rank first : (forall t u id, In t p -> In u (member_types (ti_decl t)) -> by_value u id -> rank id < rank (ti_id t)) ->
  forall l x, chain_b first (x :: l) = true -> rank first < rank x.
Proof.
  intros R. induction l as [|y l IH]; intros x H.
  - simpl in H. eapply link_ok; eauto.
  - change (existsb (fun t => (ti_id t =?s x) && existsb (String.eqb y) (holds t)) p && chain_b first (y :: l) = true) in H.
    apply andb_true_iff in H. destruct H as [A B]. apply IH in B. pose proof (link_ok rank x y R A). lia.
Qed.
Lemma cycle_unsized x l : chain_b x (x :: l) = true -> ~ sized p.
Proof. intros H (rank & R). pose proof (chain_ok rank x R l x H). lia. Qed.
End Check.

Lemma rust_accepts p : rust_b p = true -> sized_b p = true -> rust_ok p.
Proof. intros A B. apply rust_b_iff. split; [exact A|now apply sized_b_ok]. Qed.
Lemma rust_rejects p : rust_b p = false -> ~ rust_ok p.
Proof. intros A B. apply rust_b_iff in B. destruct B. congruence. Qed.
