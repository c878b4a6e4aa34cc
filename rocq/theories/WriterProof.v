(** * WriterProof: histories of context calls *)
From Verif Require Import Base Xml Writer WriterSpec.

Lemma attrs_set_app a b : attrs_set (a ++ b) = attrs_set a ++ attrs_set b.
Proof. induction a as [|[] a IH]; simpl; congruence. Qed.

Lemma aget_In {B} k (m : list (string * B)) v : aget String.eqb k m = Some v -> In (k, v) m.
Proof.
  induction m as [|[k' v'] m IH]; simpl; [discriminate|]. destruct (k =?s k') eqn:E.
  - intros H. injection H as <-. apply String.eqb_eq in E. subst. auto.
  - auto.
Qed.
Lemma aget_app {B} k (a b : list (string * B)) :
  aget String.eqb k (a ++ b) = match aget String.eqb k a with Some v => Some v | None => aget String.eqb k b end.
Proof. induction a as [|[k' v'] a IH]; simpl; [reflexivity|]. destruct (k =?s k'); auto. Qed.

(** The declarations made by a history on top of those already there. *)
Lemma ns_set_app a p u : ns_set (a ++ [CNs p u]) = ns_put p u (ns_set a).
Proof.
  unfold ns_put. induction a as [|k a IH]; simpl; [reflexivity|].
  destruct k; auto. simpl. rewrite IH. rewrite (String.eqb_sym p prefix). destruct (prefix =?s p) eqn:E.
  - apply String.eqb_eq in E. subst p.
    destruct (aget String.eqb prefix (ns_set a)); [reflexivity|].
    rewrite filter_app. simpl. rewrite String.eqb_refl. simpl. now rewrite app_nil_r.
  - assert (F : aget String.eqb p (filter (fun d => negb (fst d =?s prefix)) (ns_set a)) = aget String.eqb p (ns_set a)).
    { clear -E. induction (ns_set a) as [|[q w] l IH]; simpl; [reflexivity|].
      destruct (q =?s prefix) eqn:Q; simpl.
      - apply String.eqb_eq in Q. subst q. rewrite String.eqb_sym, E. exact IH.
      - destruct (p =?s q); auto. }
    rewrite F. destruct (aget String.eqb p (ns_set a)); [reflexivity|].
    rewrite filter_app. simpl. rewrite String.eqb_sym, E. reflexivity.
Qed.

(** The stack of contexts after the calls [b] since the last start tag: the
    innermost one has seen them all. *)
Inductive stack_for (name : string) (i : inner) : nat -> list wctx -> Prop :=
| sf_base : stack_for name i 0 [mkWctx false i]
| sf_wrap d j st : stack_for name j d st -> in_name j = name -> stack_for name i (S d) (mkWctx true i :: st).

Lemma stack_top name i d st : stack_for name i d st -> exists st',
  st = mkWctx (match d with O => false | _ => true end) i :: st'.
Proof. intros [|d' j st' H E]; eexists; reflexivity. Qed.
Lemma stack_change name i j d st : stack_for name i d st ->
  match st with [] => True | c :: st => stack_for name j d (mkWctx (wc_virtual c) j :: st) end.
Proof. intros [|d' k st' H E]; simpl; [constructor|]. econstructor; eauto. Qed.

Definition inner_of (name : string) (b : list ccall) : inner := mkInner name (attrs_set b) (ns_set b).

Lemma calls_tags name ks : forall d b st, nested d ks = true -> stack_for name (inner_of name b) d st ->
  exists evs p st', ccalls ks st = (evs, st') /\ tags name d b ks evs p.
Proof.
  induction ks as [|k ks IH]; intros d b st N S.
  - simpl. do 3 eexists. split; [reflexivity|constructor].
  - pose proof (stack_change name _ (inner_of name (b ++ [k])) d st S) as SC.
    destruct (stack_top _ _ _ _ S) as (st' & ->).
    destruct k as [n v|p u| | | |]; cbn [nested] in N; cbn [ccalls ccall_step].
    + simpl in SC. unfold inner_of in SC. rewrite attrs_set_app in SC.
      assert (Ens : ns_set (b ++ [CAttr n v]) = ns_set b) by (clear; induction b as [|[] b IH]; simpl; congruence).
      rewrite Ens in SC. unfold set_attr. simpl.
      edestruct (IH d (b ++ [CAttr n v])) as (evs & p & st2 & E & T); [exact N| |].
      { unfold inner_of. rewrite attrs_set_app, Ens. exact SC. }
      simpl in E. rewrite E. do 3 eexists. split; [reflexivity|]. econstructor; exact T.
    + simpl in SC. unfold inner_of in SC. rewrite ns_set_app in SC.
      assert (Ens : attrs_set (b ++ [CNs p u]) = attrs_set b) by (rewrite attrs_set_app; simpl; now rewrite app_nil_r).
      rewrite Ens in SC. unfold set_ns. simpl.
      edestruct (IH d (b ++ [CNs p u])) as (evs & p' & st2 & E & T); [exact N| |].
      { unfold inner_of. rewrite ns_set_app, Ens. exact SC. }
      rewrite E. do 3 eexists. split; [reflexivity|]. econstructor; exact T.
    + edestruct (IH (Datatypes.S d) b) as (evs & p & st2 & E & T); [exact N| |].
      { eapply sf_wrap; [exact S|reflexivity]. }
      unfold ctx_wrap. simpl. simpl in E. rewrite E. do 3 eexists. split; [reflexivity|]. econstructor; exact T.
    + destruct d as [|d]; [discriminate|]. inversion S as [|d' j st2 S' Ej]; subst.
      pose proof (stack_change _ _ (inner_of (in_name j) b) _ _ S') as SC'. destruct (stack_top _ _ _ _ S') as (st3 & ->).
      edestruct (IH d b) as (evs & p & st4 & E & T); [exact N|exact SC'|].
      unfold ctx_unwrap. simpl. simpl in E. rewrite E. do 3 eexists. split; [reflexivity|]. econstructor; exact T.
    + unfold write_start_element. simpl. destruct d as [|d]; simpl.
      * inversion S; subst. edestruct (IH 0 []) as (evs & p & st4 & E & T); [exact N|constructor|].
        simpl in E. unfold inner_of in E. simpl in E. rewrite E. do 3 eexists. split; [reflexivity|]. econstructor; exact T.
      * edestruct (IH (Datatypes.S d) b) as (evs & p & st4 & E & T); [exact N|exact S|].
        rewrite E. do 3 eexists. split; [reflexivity|]. econstructor; exact T.
    + unfold write_end_element. simpl. destruct d as [|d]; simpl.
      * edestruct (IH 0 b) as (evs & p & st4 & E & T); [exact N|exact S|]. rewrite E.
        do 3 eexists. split; [reflexivity|]. econstructor; exact T.
      * edestruct (IH (Datatypes.S d) b) as (evs & p & st4 & E & T); [exact N|exact S|].
        rewrite E. do 3 eexists. split; [reflexivity|]. econstructor; exact T.
Qed.

Lemma context_calls name ks : nested 0 ks = true ->
  exists p, tags name 0 [] ks (fst (ccalls ks [ctx_create name])) p.
Proof.
  intros N. destruct (calls_tags name ks 0 [] [ctx_create name] N) as (evs & p & st & E & T); [constructor|].
  rewrite E. eauto.
Qed.

Lemma tags_attrs name d b ks evs p : tags name d b ks evs p ->
  attrs_written evs ++ attrs_set p = attrs_set b ++ attrs_set ks.
Proof.
  induction 1 as [d b|d b n v ks evs p T IH|d b n v ks evs p T IH|d b ks evs p T IH|d b ks evs p T IH|b ks evs p T IH|b ks evs p T IH|d b ks evs p T IH|d b ks evs p T IH];
    simpl; rewrite ?app_nil_r; auto.
  - rewrite IH, attrs_set_app, <- app_assoc. reflexivity.
  - rewrite IH, attrs_set_app, <- app_assoc. reflexivity.
  - rewrite <- app_assoc, IH. reflexivity.
Qed.

Lemma depth_nested ks : forall d, nested d ks = match depth d ks with Some _ => true | None => false end.
Proof. induction ks as [|[] ks IH]; intros d; simpl; auto. destruct d; auto. Qed.

Lemma tags_none name d b ks evs p : tags name d b ks evs p -> attrs_set b = [] -> attrs_set ks = [] -> attrs_set p = [].
Proof.
  induction 1 as [d b|d b n v ks evs p T IH|d b n v ks evs p T IH|d b ks evs p T IH|d b ks evs p T IH|b ks evs p T IH|b ks evs p T IH|d b ks evs p T IH|d b ks evs p T IH];
    simpl; intros B K; auto; try discriminate. apply IH; [|exact K]. rewrite attrs_set_app, B. reflexivity.
Qed.

Lemma tags_last name d b ks evs p : tags name d b ks evs p -> forall pre post,
  ks = pre ++ CStart :: post -> depth d pre = Some 0 -> attrs_set post = [] -> attrs_set p = [].
Proof.
  induction 1 as [d b|d b n v ks evs p T IH|d b n v ks evs p T IH|d b ks evs p T IH|d b ks evs p T IH|b ks evs p T IH|b ks evs p T IH|d b ks evs p T IH|d b ks evs p T IH];
    intros pre post E D A; (destruct pre as [|k pre]; simpl in E; [try discriminate|
      try discriminate; injection E as <- E; simpl in D; try (eapply IH; eassumption)]).
  - injection E as <-. eapply tags_none; [exact T|reflexivity|exact A].
Qed.

Lemma all_written name pre post : depth 0 pre = Some 0 -> nested 0 post = true -> attrs_set post = [] ->
  attrs_written (fst (ccalls (pre ++ CStart :: post) [ctx_create name])) = attrs_set pre.
Proof.
  intros D N A. destruct (context_calls name (pre ++ CStart :: post)) as (p & T).
  - assert (X : forall d, depth d pre = Some 0 -> nested d (pre ++ CStart :: post) = true); [|now apply X].
    clear D. induction pre as [|k pre IH]; intros d D; simpl in *; [injection D as ->; exact N|].
    destruct k; auto. destruct d; [discriminate|auto].
  - pose proof (tags_attrs _ _ _ _ _ _ T) as E. rewrite (tags_last _ _ _ _ _ _ T pre post eq_refl D A) in E.
    rewrite app_nil_r, attrs_set_app in E. simpl in E. rewrite A, app_nil_r in E. exact E.
Qed.
