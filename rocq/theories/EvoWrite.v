(** * EvoWrite: what is written for a value with absent members added *)
From Verif Require Import Base Libs Xml Ast Decode Writer Gen Run WfSpec GenProof1 EvoSpec EvoProof.

(** ** Items of the two modules *)
Inductive typed_x : rty -> wx -> Prop :=
| tx_text q : typed_x (TPrim q) WxText
| tx_fixed s : typed_x TUnit (WxFixed s)
| tx_call id : typed_x (TRef id) (WxCall id).
Definition body_leaves (b : wbody) : list wf := match b with WbLeaves ws => ws | _ => [] end.
Definition body_names (b : wbody) : list string :=
  match b with WbNone => [] | WbLeaf f _ => [f] | WbLeaves ws => map wf_field ws end.
Inductive sim_body : wbody -> wbody -> Prop :=
| sb_none : sim_body WbNone WbNone
| sb_new ws : Forall (fun w => wf_opt w = true) ws -> sim_body WbNone (WbLeaves ws)
| sb_leaf f x : sim_body (WbLeaf f x) (WbLeaf f x)
| sb_leaves ws ws' : with_more eq (fun w => wf_opt w = true) ws ws' -> sim_body (WbLeaves ws) (WbLeaves ws').

Inductive sim_item : titem -> titem -> Prop :=
| si_tuple t t' ty b b' w x : ti_decl t = DTuple ty b -> ti_decl t' = DTuple ty b' -> ti_write t = TwTuple w x -> ti_write t' = TwTuple w x ->
    typed_x ty x -> sim_item t t'
| si_enum t t' vs more : ti_decl t = DEnum vs -> ti_decl t' = DEnum (vs ++ more) -> ti_write t = TwEnum -> ti_write t' = TwEnum -> sim_item t t'
| si_struct t t' fs fs' ats ats' w b b' : ti_decl t = DStruct fs -> ti_decl t' = DStruct fs' -> ti_write t = TwStruct ats w b -> ti_write t' = TwStruct ats' w b' ->
    with_more eq (fun a => wa_opt a = true) ats ats' -> sim_body b b' ->
    map fst fs = body_names b ++ map wa_field ats -> map fst fs' = body_names b' ++ map wa_field ats' -> NoDup (map fst fs') ->
    (forall f x, b = WbLeaf f x -> exists ty, typed_x ty x /\ In (f, ty) fs /\ In (f, ty) fs') ->
    (forall l, In l (body_leaves b) -> exists ty, typed_x ty (wf_x l) /\ In (wf_field l, wrap_opt (wf_opt l) (wrap_vec (wf_vec l) ty)) fs
       /\ In (wf_field l, wrap_opt (wf_opt l) (wrap_vec (wf_vec l) ty)) fs') ->
    (forall a, In a ats -> exists ty, In (wa_field a, ty) fs /\ In (wa_field a, ty) fs') -> sim_item t t'
| si_choice t t' vs vs' w arms arms' : ti_decl t = DChoice vs -> ti_decl t' = DChoice vs' -> ti_write t = TwChoice w arms -> ti_write t' = TwChoice w arms' ->
    with_more eq (fun _ => True) arms arms' -> map fst vs' = map wm_variant arms' -> NoDup (map fst vs') -> incl vs vs' ->
    (forall a, In a arms -> exists ty, typed_x ty (wm_x a) /\ In (wm_variant a, wrap_vec (wm_vec a) ty) vs) -> sim_item t t'.

Section Write.
Context {L : Libs}.
Variables p p' : program.
Hypothesis Sim : forall id t, lookup_item p id = Some t ->
  exists t', lookup_item p' id = Some t' /\ sim_item t t' /\ ti_xml_name t' = ti_xml_name t /\ ti_nss t' = ti_nss t.

Lemma wm_avoid {A} (g : A -> string) new (l l' : list A) : with_more eq new l l' -> forall q q', incl q q' -> NoDup (map g l' ++ q') ->
  with_more eq (fun z => new z /\ ~ In (g z) (map g l ++ q)) l l'.
Proof.
  assert (Mono : forall (P Q : A -> Prop) a b, (forall z, P z -> Q z) -> with_more eq P a b -> with_more eq Q a b) by (induction 2; constructor; auto).
  assert (Sub : forall P a b, with_more eq P a b -> forall x : A, In x a -> In x b).
  { induction 1 as [|x y a b E W IH|y a b N W IH]; intros z I; cbn in *; auto. destruct I as [<-|I]; auto. }
  induction 1 as [|x y l l' E W IH|y l l' N W IH]; intros q q' Iq Nd; [constructor| |].
  - subst y. constructor; [reflexivity|]. eapply Mono; [|apply (IH (g x :: q) (g x :: q'))].
    + intros z [Nz Iz]. split; [exact Nz|]. intros H. apply Iz. cbn in H. rewrite in_app_iff in *. cbn. tauto.
    + intros z [<-|I]; cbn; auto.
    + cbn [map app] in Nd. eapply Permutation.Permutation_NoDup; [|exact Nd]. apply Permutation.Permutation_middle.
  - cbn [map app] in Nd. apply NoDup_cons_iff in Nd. destruct Nd as [Nn Nd]. constructor; [|eapply IH; eauto]. split; [exact N|]. intros H. apply Nn.
    rewrite in_app_iff in *. destruct H as [H|H]; [left|right; auto]. rewrite in_map_iff in *. destruct H as (z & Ez & Iz). exists z. split; [exact Ez|]. eapply Sub; eauto.
Qed.

Lemma aget_some {V} k (l : list (string * V)) x : aget String.eqb k l = Some x -> In (k, x) l.
Proof. intros H. apply (aget_In _ String.eqb_eq) in H. exact H. Qed.
Lemma aget_nodup {V} k (l : list (string * V)) x : NoDup (map fst l) -> In (k, x) l -> aget String.eqb k l = Some x.
Proof. intros N H. apply (In_aget _ String.eqb_eq); auto. Qed.

Lemma fields_kept fs fs' f x : grown_fields fs fs' -> In (f, x) fs -> exists x', In (f, x') fs' /\ grown x x'.
Proof.
  induction 1 as [|g v v' fs fs' G _ IH|g fs fs' _ IH]; intros I; [destruct I| |].
  - destruct I as [E|I]; [injection E as -> ->; exists v'; cbn; auto|]. destruct (IH I) as (x' & I' & Gx). exists x'. cbn. auto.
  - destruct (IH I) as (x' & I' & Gx). exists x'. cbn. auto.
Qed.
Lemma fields_new fs fs' f : grown_fields fs fs' -> In f (map fst fs') -> ~ In f (map fst fs) -> In (f, VNone) fs'.
Proof.
  induction 1 as [|g v v' fs fs' G _ IH|g fs fs' _ IH]; cbn [map fst In]; intros I N; [destruct I| |].
  - right. apply IH; [|tauto]. destruct I as [->|I]; [tauto|exact I].
  - destruct I as [->|I]; [now left|]. right. auto.
Qed.
Lemma typed_names {q} (fs : list (string * rty)) (vs : list (string * value)) : Forall2 (fun f v => fst f = fst v /\ has_type q (snd f) (snd v)) fs vs -> map fst vs = map fst fs.
Proof. induction 1 as [|a b fs vs [E _] F IH]; cbn; [reflexivity|]. now rewrite E, IH. Qed.
Lemma typed_field {q} (fs : list (string * rty)) (vs : list (string * value)) f ty x : NoDup (map fst fs) -> Forall2 (fun f v => fst f = fst v /\ has_type q (snd f) (snd v)) fs vs ->
  In (f, ty) fs -> In (f, x) vs -> has_type q ty x.
Proof.
  intros Nd F. induction F as [|[g u] [h w] fs vs [E T] F IH]; [intros []|]. cbn [fst snd] in *. subst h. cbn [map fst] in Nd. apply NoDup_cons_iff in Nd. destruct Nd as [Nn Nd].
  intros [I|I] [J|J].
  - injection I as -> ->. injection J as ->. exact T.
  - injection I as -> ->. exfalso. apply Nn. apply (in_map fst) in J. rewrite (typed_names _ _ F) in J. exact J.
  - injection J as -> ->. exfalso. apply Nn. apply (in_map fst) in I. exact I.
  - auto.
Qed.

(** What a struct has for its fields. *)
Definition related (self self' : value) (f : string) : Prop := forall x, vfield self f = Ok x -> exists x', vfield self' f = Ok x' /\ grown x x'.

Section Open.
Variables call call' : string -> value -> wctx -> W (list event * inner).
Hypothesis Call : forall id v v' c r, has_type p (TRef id) v -> has_type p' (TRef id) v' -> grown v v' -> call id v c = Ok r -> call' id v' c = Ok r.

Lemma grown_text v v' s : grown v v' -> value_to_string v = Some s -> value_to_string v' = Some s.
Proof. intros G E. destruct G; cbn in *; try discriminate; exact E. Qed.
Lemma write_x x ty v v' c r : typed_x ty x -> has_type p ty v -> has_type p' ty v' -> grown v v' -> write_wx call x v c = Ok r -> write_wx call' x v' c = Ok r.
Proof.
  intros T H H' G E. destruct T as [q|s|id]; cbn [write_wx] in *.
  - destruct (value_to_string v) as [s|] eqn:Es; [|discriminate]. now rewrite (grown_text _ _ _ G Es).
  - exact E.
  - eapply Call; eauto.
Qed.
Lemma write_one_kept w ty v v' c r : typed_x ty (wf_x w) -> has_type p ty v -> has_type p' ty v' -> grown v v' ->
  write_leaf_one call w v c = Ok r -> write_leaf_one call' w v' c = Ok r.
Proof.
  intros T H H' G E. unfold write_leaf_one in *. destruct (wf_new w) as [n|].
  - destruct (wf_wrap w).
    + destruct (write_start_element _) as [ev0 c1]. apply bind_ok in E. destruct E as ([ev1 i] & E1 & E). rewrite (write_x _ _ _ _ _ _ T H H' G E1). exact E.
    + apply bind_ok in E. destruct E as ([ev1 i] & E1 & E). rewrite (write_x _ _ _ _ _ _ T H H' G E1). exact E.
  - destruct (wf_wrap w).
    + destruct (write_start_element _) as [ev0 c1]. apply bind_ok in E. destruct E as ([ev1 i] & E1 & E). rewrite (write_x _ _ _ _ _ _ T H H' G E1). exact E.
    + apply bind_ok in E. destruct E as ([ev1 i] & E1 & E). rewrite (write_x _ _ _ _ _ _ T H H' G E1). exact E.
Qed.
Lemma write_each_kept w ty : typed_x ty (wf_x w) -> forall vs vs', grown_list vs vs' -> Forall (has_type p ty) vs -> Forall (has_type p' ty) vs' -> forall c r,
  write_each call w vs c = Ok r -> write_each call' w vs' c = Ok r.
Proof.
  intros T vs vs' G. induction G as [|v v' vs vs' G Gs IH]; intros H H' c r E; [exact E|]. inversion H; inversion H'; subst. cbn [write_each] in *.
  apply bind_ok in E. destruct E as ([e1 c1] & E1 & E). rewrite (write_one_kept _ _ _ _ _ _ T ltac:(eassumption) ltac:(eassumption) G E1). cbn [bind].
  apply bind_ok in E. destruct E as ([e2 c2] & E2 & E). rewrite (IH ltac:(assumption) ltac:(assumption) _ _ E2). exact E.
Qed.
Lemma write_leaf_kept w ty self self' x x' c r : typed_x ty (wf_x w) -> vfield self (wf_field w) = Ok x -> vfield self' (wf_field w) = Ok x' -> grown x x' ->
  has_type p (wrap_opt (wf_opt w) (wrap_vec (wf_vec w) ty)) x -> has_type p' (wrap_opt (wf_opt w) (wrap_vec (wf_vec w) ty)) x' ->
  write_leaf call w self c = Ok r -> write_leaf call' w self' c = Ok r.
Proof.
  intros T F F' G H H' E. unfold write_leaf in *. rewrite F in E. rewrite F'. cbn [bind] in *.
  assert (X : forall y y', grown y y' -> has_type p (wrap_vec (wf_vec w) ty) y -> has_type p' (wrap_vec (wf_vec w) ty) y' ->
    (if wf_vec w then match y with VVec vs => write_each call w vs c | _ => Panic "not a Vec" end else write_leaf_one call w y c) = Ok r ->
    (if wf_vec w then match y' with VVec vs => write_each call' w vs c | _ => Panic "not a Vec" end else write_leaf_one call' w y' c) = Ok r).
  { intros y y' Gy Hy Hy' Ey. destruct (wf_vec w); cbn [wrap_vec] in *.
    - destruct Gy as [| | | | | | | |vs vs' Gs| | | |]; try discriminate. inversion Hy; inversion Hy'; subst. eapply write_each_kept; eauto.
    - eapply write_one_kept; eauto. }
  destruct (wf_opt w); cbn [wrap_opt] in *; [|eauto].
  destruct G; try discriminate; [exact E|]. inversion H; inversion H'; subst. eauto.
Qed.

Lemma write_leaves_kept ws ws' self self' c r : with_more eq (fun w => wf_opt w = true /\ vfield self' (wf_field w) = Ok VNone) ws ws' ->
  (forall w, In w ws -> exists ty, typed_x ty (wf_x w) /\ forall x, vfield self (wf_field w) = Ok x -> exists x', vfield self' (wf_field w) = Ok x' /\ grown x x'
     /\ has_type p (wrap_opt (wf_opt w) (wrap_vec (wf_vec w) ty)) x /\ has_type p' (wrap_opt (wf_opt w) (wrap_vec (wf_vec w) ty)) x') ->
  write_leaves call ws self c = Ok r -> write_leaves call' ws' self' c = Ok r.
Proof.
  intros W. revert c r. induction W as [|x y l l' S W IH|y l l' [O N] W IH]; intros c r H E; [exact E| |].
  - subst y. cbn [write_leaves] in *. apply bind_ok in E. destruct E as ([e1 c1] & E1 & E). apply bind_ok in E. destruct E as ([e2 c2] & E2 & E).
    destruct (H x (or_introl eq_refl)) as (ty & T & K). pose proof E1 as E0. unfold write_leaf in E0. apply bind_ok in E0. destruct E0 as (val & V & _).
    destruct (K val V) as (x' & V' & G & T1 & T2). rewrite (write_leaf_kept _ _ _ _ _ _ _ _ T V V' G T1 T2 E1). cbn [bind].
    rewrite (IH _ _ (fun w I => H w (or_intror I)) E2). exact E.
  - cbn [write_leaves]. unfold write_leaf at 1. rewrite N, O. cbn [bind]. rewrite (IH _ _ H E). destruct r as [ev c2]. reflexivity.
Qed.

Lemma enum_as_str_app vs more x s : enum_as_str vs x = Some s -> enum_as_str (vs ++ more) x = Some s.
Proof. induction vs as [|[v t] vs IH]; [discriminate|]. cbn [enum_as_str app]. destruct (x =?s v); auto. Qed.
Lemma attr_string_kept v v' ty s : grown v v' -> attr_to_string p v (Some ty) = Ok s -> attr_to_string p' v' (Some ty) = Ok s.
Proof.
  intros G E. unfold attr_to_string in *. destruct ty as [q| | | |id];
    try (destruct (value_to_string v) as [t|] eqn:Et; [|discriminate]; now rewrite (grown_text _ _ _ G Et)).
  destruct (lookup_item p id) as [ti|] eqn:Lk; [|discriminate]. destruct (Sim _ _ Lk) as (ti' & -> & S & _).
  destruct (ti_decl ti) as [ |vs| | ] eqn:D; try discriminate. destruct S as [t t' ty b b' w x D1|t t' vs0 more D1 D2|t t' fs fs' ats ats' w b b' D1|t t' vs0 vs' w arms arms' D1]; rewrite D in D1; try discriminate.
  injection D1 as <-. rewrite D2. destruct G; try discriminate. destruct (enum_as_str vs x) as [t0|] eqn:Es; [|discriminate]. now rewrite (enum_as_str_app _ _ _ _ Es).
Qed.

Lemma write_attrs_kept t t' ats ats' self self' c r : with_more eq (fun a => wa_opt a = true /\ vfield self' (wa_field a) = Ok VNone) ats ats' ->
  (forall a, In a ats -> related self self' (wa_field a) /\ exists ty, field_type t (wa_field a) = Some ty /\ field_type t' (wa_field a) = Some ty) ->
  write_attrs p t ats self c = Ok r -> write_attrs p' t' ats' self' c = Ok r.
Proof.
  intros W. revert c r. induction W as [|x y l l' S W IH|y l l' [O N] W IH]; intros c r H E; [exact E| |].
  - subst y. cbn [write_attrs] in *. apply bind_ok in E. destruct E as (c1 & E1 & E). destruct (H x (or_introl eq_refl)) as (Re & ty & T1 & T2).
    assert (X : write_attr p' t' x self' c = Ok c1).
    { unfold write_attr in *. apply bind_ok in E1. destruct E1 as (val & V & E1). destruct (Re val V) as (val' & -> & G). cbn [bind]. rewrite T1 in E1. rewrite T2.
      destruct (wa_opt x).
      - destruct G; try discriminate; [exact E1|]. apply bind_ok in E1. destruct E1 as (s & Es & E1). destruct (wa_fixed x); cbn [bind] in *; [injection Es as <-; exact E1|].
        rewrite (attr_string_kept _ _ _ _ G Es). exact E1.
      - apply bind_ok in E1. destruct E1 as (s & Es & E1). destruct (wa_fixed x); cbn [bind] in *; [injection Es as <-; exact E1|].
        rewrite (attr_string_kept _ _ _ _ G Es). exact E1. }
    rewrite X. cbn [bind]. apply IH; auto. intros a I. apply H. now right.
  - cbn [write_attrs]. unfold write_attr. rewrite N, O. cbn [bind]. apply IH; auto.
Qed.

Lemma wrapped_kept b c body body' r : (forall c r, body c = Ok r -> body' c = Ok r) -> wrapped b c body = Ok r -> wrapped b c body' = Ok r.
Proof.
  intros H E. unfold wrapped in *. destruct b; [|auto]. destruct (write_start_element c) as [e0 c1]. apply bind_ok in E. destruct E as ([e1 i] & E1 & E). rewrite (H _ _ E1). exact E.
Qed.

Lemma arm_one_kept a ty v v' r : typed_x ty (wm_x a) -> has_type p ty v -> has_type p' ty v' -> grown v v' -> write_arm_one call a v = Ok r -> write_arm_one call' a v' = Ok r.
Proof.
  intros T H H' G E. unfold write_arm_one in *. destruct (wm_wrap a).
  - destruct (write_start_element _) as [e0 c1]. apply bind_ok in E. destruct E as ([e1 i] & E1 & E). rewrite (write_x _ _ _ _ _ _ T H H' G E1). exact E.
  - apply bind_ok in E. destruct E as ([e1 i] & E1 & E). rewrite (write_x _ _ _ _ _ _ T H H' G E1). exact E.
Qed.
Lemma arm_each_kept a ty : typed_x ty (wm_x a) -> forall vs vs', grown_list vs vs' -> Forall (has_type p ty) vs -> Forall (has_type p' ty) vs' -> forall r,
  write_arm_each call a vs = Ok r -> write_arm_each call' a vs' = Ok r.
Proof.
  intros T vs vs' G. induction G as [|v v' vs vs' G Gs IH]; intros H H' r E; [exact E|]. inversion H; inversion H'; subst. cbn [write_arm_each] in *.
  apply bind_ok in E. destruct E as (e1 & E1 & E). rewrite (arm_one_kept _ _ _ _ _ T ltac:(eassumption) ltac:(eassumption) G E1). cbn [bind].
  apply bind_ok in E. destruct E as (e2 & E2 & E). rewrite (IH ltac:(assumption) ltac:(assumption) _ E2). exact E.
Qed.

Lemma find_kept arms arms' x a : with_more eq (fun _ : warm => True) arms arms' -> NoDup (map wm_variant arms') ->
  find (fun a => wm_variant a =?s x) arms = Some a -> find (fun a => wm_variant a =?s x) arms' = Some a.
Proof.
  intros W Nd F. apply find_some in F. destruct F as [I E]. apply String.eqb_eq in E.
  assert (I' : In a arms'). { clear - W I. induction W as [|u y l l' S W IH|y l l' N W IH]; cbn in *; auto. destruct I as [<-|I]; auto. }
  clear W I. induction arms' as [|y l IH]; [destruct I'|]. cbn [map] in Nd. apply NoDup_cons_iff in Nd. destruct Nd as [Nn Nd]. cbn [find]. destruct I' as [->|I].
  - rewrite E, String.eqb_refl. reflexivity.
  - destruct (wm_variant y =?s x) eqn:Ey; [|auto]. exfalso. apply Nn. apply String.eqb_eq in Ey. rewrite Ey, <- E. now apply in_map.
Qed.

Lemma wm_sub {A} (P : A -> Prop) a b : with_more eq P a b -> forall x : A, In x a -> In x b.
Proof. induction 1 as [|x y a b E W IH|y a b N W IH]; intros z I; cbn in *; auto. destruct I as [<-|I]; auto. Qed.
Lemma wm_mono {A} (P Q : A -> Prop) a b : (forall z, P z -> Q z) -> with_more eq P a b -> with_more eq Q a b.
Proof. induction 2; constructor; auto. Qed.
Lemma wm_in_new {A} (P : A -> Prop) a b : with_more eq P a b -> with_more eq (fun z => P z /\ In z b) a b.
Proof.
  induction 1 as [|x y a b E W IH|y a b N W IH]; [constructor|constructor; auto|constructor; [cbn; auto|]]; (eapply wm_mono; [|exact IH]); cbn; tauto.
Qed.
Lemma wm_forall {A} (P : A -> Prop) l : Forall P l -> with_more eq P [] l.
Proof. induction 1; constructor; auto. Qed.

Lemma item_kept t t' v v' c r : sim_item t t' -> ti_nss t' = ti_nss t -> has_decl p (ti_decl t) v -> has_decl p' (ti_decl t') v' -> grown v v' ->
  write_item p call t v c = Ok r -> write_item p' call' t' v' c = Ok r.
Proof.
  intros S Ns T T' G E. unfold write_item in *. rewrite Ns.
  destruct S as [t t' ty b b' w x D D' W W' Tx|t t' vs more D D' W W'|t t' fs fs' ats ats' w b b' D D' W W' Wa Sb N N' Nd Tb Tl Ta|t t' vs vs' w arms arms' D D' W W' Wr Nv Nd Iv Ta];
    rewrite D in T; rewrite D' in T'; rewrite W in E; rewrite W'.
  - destruct G; try discriminate. inversion T; inversion T'; subst. eapply wrapped_kept; [|exact E]. intros. eapply write_x; eauto.
  - destruct G; try discriminate. rewrite D in E. rewrite D'. destruct (enum_as_str vs x) as [s|] eqn:Es; [|discriminate]. now rewrite (enum_as_str_app _ _ _ _ Es).
  - inversion T as [| |fs0 us F|]; subst. inversion T' as [| |fs0' us' F'|]; subst. inversion G as [| | | | | | | | | | |u u' Gf|]; subst.
    pose proof (typed_names _ _ F) as Nu. pose proof (typed_names _ _ F') as Nu'.
    assert (Ndf : NoDup (map fst fs)).
    { rewrite N. rewrite N' in Nd. assert (Sb' : with_more eq (fun _ => True) (body_names b) (body_names b')).
      { destruct Sb as [|ws _|f x|ws ws' Wm]; [constructor|apply wm_forall; now apply Forall_forall|repeat constructor|].
        cbn [body_names]. clear - Wm. induction Wm as [|x y l l' E W IH|y l l' P W IH]; cbn [map]; [constructor|subst; constructor; auto|constructor; auto]. }
      assert (Sa : with_more eq (fun _ => True) (map wa_field ats) (map wa_field ats')).
      { clear - Wa. induction Wa as [|x y l l' E W IH|y l l' P W IH]; cbn [map]; [constructor|subst; constructor; auto|constructor; auto]. }
      clear - Nd Sb' Sa. induction Sb' as [|x y l l' E W IH|y l l' P W IH]; cbn [app] in *.
      - induction Sa as [|x y l l' E W IH|y l l' P W IH]; [constructor| |apply IH; now inversion Nd].
        subst y. inversion Nd as [|? ? Nn Nd']; subst. constructor; [|auto]. intros I. apply Nn. eapply wm_sub; eauto.
      - subst y. inversion Nd as [|? ? Nn Nd']; subst. constructor; [|auto]. intros I. apply Nn. rewrite in_app_iff in *. destruct I as [I|I]; [left|right]; eapply wm_sub; eauto.
      - apply IH. now inversion Nd. }
    assert (Nd' : NoDup (map fst us')) by now rewrite Nu'. assert (Ndu : NoDup (map fst us)) by now rewrite Nu.
    assert (Re : forall f, related (VStruct us) (VStruct us') f).
    { intros f x. cbn [vfield]. destruct (aget String.eqb f us) as [y|] eqn:Ag; [|discriminate]. intros H. injection H as ->. apply aget_some in Ag.
      destruct (fields_kept _ _ _ _ Gf Ag) as (x' & I' & Gx). exists x'. rewrite (aget_nodup _ _ _ Nd' I'). auto. }
    assert (No : forall f, In f (map fst fs') -> ~ In f (map fst fs) -> vfield (VStruct us') f = Ok VNone).
    { intros f I Nf. rewrite <- Nu' in I. rewrite <- Nu in Nf. pose proof (fields_new _ _ _ Gf I Nf) as K. cbn [vfield]. now rewrite (aget_nodup _ _ _ Nd' K). }
    assert (Ty : forall f ty x x', In (f, ty) fs -> In (f, ty) fs' -> vfield (VStruct us) f = Ok x -> vfield (VStruct us') f = Ok x' -> has_type p ty x /\ has_type p' ty x').
    { intros f ty x x' I I' V V'. cbn [vfield] in *. destruct (aget String.eqb f us) as [y|] eqn:Ag; [|discriminate]. injection V as ->. destruct (aget String.eqb f us') as [y'|] eqn:Ag'; [|discriminate]. injection V' as ->.
      apply aget_some in Ag. apply aget_some in Ag'. split; [exact (typed_field _ _ _ _ _ Ndf F I Ag)|exact (typed_field _ _ _ _ _ Nd F' I' Ag')]. }
    apply bind_ok in E. destruct E as (c1 & Ea & E).
    assert (Wa' : with_more eq (fun a => wa_opt a = true /\ vfield (VStruct us') (wa_field a) = Ok VNone) ats ats').
    { assert (X : with_more eq (fun z => (wa_opt z = true /\ In z ats') /\ ~ In (wa_field z) (map wa_field ats ++ body_names b)) ats ats').
      { apply (wm_avoid wa_field _ _ _ (wm_in_new _ _ _ Wa) (body_names b) (body_names b')).
        - destruct Sb as [|ws _|f x|ws ws' Wm]; cbn [body_names]; [intros ? []|intros ? []|apply incl_refl|]. intros z I. rewrite in_map_iff in *. destruct I as (q & Eq & Iq). exists q. split; [exact Eq|]. eapply wm_sub; eauto.
        - rewrite N' in Nd. eapply Permutation.Permutation_NoDup; [|exact Nd]. apply Permutation.Permutation_app_comm. }
      eapply wm_mono; [|exact X]. cbn. intros z [[Oz Iz] Nz]. split; [exact Oz|]. apply No; [rewrite N'; apply in_or_app; right; now apply in_map|].
      rewrite N. rewrite in_app_iff in *. tauto. }
    assert (Hx : forall a, In a ats -> related (VStruct us) (VStruct us') (wa_field a) /\ exists ty, field_type t (wa_field a) = Some ty /\ field_type t' (wa_field a) = Some ty).
    { intros a Ia. split; [apply Re|]. destruct (Ta a Ia) as (ty & I1 & I2). exists (strip_opt ty). unfold field_type. rewrite D, D', (aget_nodup _ _ _ Ndf I1), (aget_nodup _ _ _ Nd I2). auto. }
    rewrite (write_attrs_kept t t' ats ats' _ _ _ _ Wa' Hx Ea).
    cbn [bind]. eapply wrapped_kept; [|exact E]. clear E. intros c2 r2 E.
    destruct Sb as [|ws Nw|f x|ws ws' Wm]; cbn [write_body] in *.
    + exact E.
    + assert (X : forall c0, write_leaves call' ws (VStruct us') c0 = Ok ([], c0)).
      { assert (Y : Forall (fun l => wf_opt l = true /\ vfield (VStruct us') (wf_field l) = Ok VNone) ws).
        { assert (X : with_more eq (fun z => (wf_opt z = true /\ In z ws) /\ ~ In (wf_field z) (map wf_field [] ++ map wa_field ats)) [] ws).
          { apply (wm_avoid wf_field _ [] ws (wm_in_new _ _ _ (wm_forall _ _ Nw)) (map wa_field ats) (map wa_field ats')).
            - intros z I. rewrite in_map_iff in *. destruct I as (q & Eq & Iq). exists q. split; [exact Eq|]. eapply wm_sub; eauto.
            - rewrite N' in Nd. exact Nd. }
          apply wm_nil_inv in X. eapply Forall_impl; [|exact X]. cbn. intros z [[Oz Iz] Nz]. split; [exact Oz|]. apply No; [rewrite N'; apply in_or_app; left; now apply in_map|].
          rewrite N. exact Nz. }
        clear - Y. induction Y as [|l ws [O V] Y IH]; intros c0; [reflexivity|]. cbn [write_leaves]. unfold write_leaf. rewrite V, O. cbn [bind]. rewrite IH. reflexivity. }
      rewrite X. exact E.
    + apply bind_ok in E. destruct E as (val & V & E). destruct (Re f val V) as (val' & V' & Gv). rewrite V'. cbn [bind]. destruct (Tb f x eq_refl) as (ty & Tx & I1 & I2).
      destruct (Ty _ _ _ _ I1 I2 V V') as [T1 T2]. eapply write_x; eauto.
    + apply bind_ok in E. destruct E as ([e c3] & E1 & E).
      assert (Wm' : with_more eq (fun l => wf_opt l = true /\ vfield (VStruct us') (wf_field l) = Ok VNone) ws ws').
      { assert (X : with_more eq (fun z => (wf_opt z = true /\ In z ws') /\ ~ In (wf_field z) (map wf_field ws ++ map wa_field ats)) ws ws').
        { apply (wm_avoid wf_field _ _ _ (wm_in_new _ _ _ Wm) (map wa_field ats) (map wa_field ats')).
          - intros z I. rewrite in_map_iff in *. destruct I as (q & Eq & Iq). exists q. split; [exact Eq|]. eapply wm_sub; eauto.
          - rewrite N' in Nd. exact Nd. }
        eapply wm_mono; [|exact X]. cbn. intros z [[Oz Iz] Nz]. split; [exact Oz|]. apply No; [rewrite N'; apply in_or_app; left; now apply in_map|].
        rewrite N. exact Nz. }
      rewrite (write_leaves_kept ws ws' (VStruct us) (VStruct us') c2 (e, c3) Wm'); [exact E| |exact E1].
      intros l Il. destruct (Tl l Il) as (ty & Tx & I1 & I2). exists ty. split; [exact Tx|]. intros x V. destruct (Re _ x V) as (x' & V' & Gx). exists x'. split; [exact V'|]. split; [exact Gx|]. exact (Ty _ _ _ _ I1 I2 V V').
  - eapply wrapped_kept; [|exact E]. clear E. intros c2 r2 E. apply bind_ok in E. destruct E as (e & E1 & E). rewrite <- E. clear E. unfold write_choice in *.
    destruct G as [| | | | | | | | | | | |x v v' G]; try discriminate. destruct (find (fun a => wm_variant a =?s x) arms) as [a|] eqn:Fa; [|discriminate].
    assert (Nd0 : NoDup (map wm_variant arms')) by now rewrite <- Nv. rewrite (find_kept _ _ _ _ Wr Nd0 Fa). apply find_some in Fa. destruct Fa as [Ia Ex]. apply String.eqb_eq in Ex.
    destruct (Ta a Ia) as (ty & Tx & Iy). rewrite Ex in Iy. inversion T as [| | |vs0 i u v0 Iu Tu]; subst. inversion T' as [| | |vs0' i' u' v0' Iu' Tu']; subst.
    assert (Un : forall u, In (wm_variant a, u) vs' -> u = wrap_vec (wm_vec a) ty).
    { intros u0 I0. pose proof (aget_nodup _ _ _ Nd I0) as A1. pose proof (aget_nodup _ _ _ Nd (Iv _ Iy)) as A2. congruence. }
    rewrite (Un u (Iv _ Iu)) in Tu. rewrite (Un u' Iu') in Tu'. destruct (wm_vec a); cbn [wrap_vec] in *.
    + destruct G as [| | | | | | | |us us' Gs| | | |]; try discriminate. inversion Tu; inversion Tu'; subst. rewrite (arm_each_kept a ty Tx us us' Gs ltac:(assumption) ltac:(assumption) _ E1). reflexivity.
    + rewrite (arm_one_kept a ty v v' _ Tx Tu Tu' G E1). reflexivity.
Qed.
End Open.

Lemma type_written fuel : forall id v v' c r, has_type p (TRef id) v -> has_type p' (TRef id) v' -> grown v v' ->
  write_type p fuel id v c = Ok r -> write_type p' fuel id v' c = Ok r.
Proof.
  induction fuel as [|fuel IH]; intros id v v' c r T T' G E; cbn [write_type] in *; [discriminate|].
  destruct (lookup_item p id) as [t|] eqn:Lk; [|discriminate]. destruct (Sim _ _ Lk) as (t' & Lk' & S & Nx & Ns). rewrite Lk'.
  inversion T as [| | | | |id0 t0 v0 L0 D0]; subst. rewrite Lk in L0. injection L0 as <-. inversion T' as [| | | | |id1 t1 v1 L1 D1]; subst. rewrite Lk' in L1. injection L1 as <-.
  eapply item_kept; eauto.
Qed.
Lemma document_written fuel id v v' evs : has_type p (TRef id) v -> has_type p' (TRef id) v' -> grown v v' ->
  to_xml p fuel id v = Ok evs -> to_xml p' fuel id v' = Ok evs.
Proof.
  intros T T' G E. unfold to_xml in *. destruct (lookup_item p id) as [t|] eqn:Lk; [|discriminate]. destruct (Sim _ _ Lk) as (t' & -> & S & Nx & _). rewrite Nx.
  apply bind_ok in E. destruct E as ([e i] & E1 & E). rewrite (type_written _ _ _ _ _ _ T T' G E1). exact E.
Qed.
End Write.
