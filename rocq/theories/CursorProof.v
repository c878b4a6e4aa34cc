(** * CursorProof: the buffered cursor refines the plain list *)
From Coq Require Import Permutation.
From Verif Require Import Base Xml Decode CursorSpec.

(** The elements a cursor state still holds. *)
Definition left (s : children) : list xelem :=
  match ch_next s with Some x => [x] | None => [] end ++ ch_peeked s ++ ch_rest s.

Lemma left_new e : left (children_new e) = xe_children e.
Proof. reflexivity. Qed.

Lemma has_name_matches n ns x : has_name n ns x = true <-> matches n ns x.
Proof. apply has_name_spec. Qed.
Lemma has_name_not n ns x : has_name n ns x = false <-> ~ matches n ns x.
Proof.
  rewrite <- has_name_matches. destruct (has_name n ns x); split; intros H; try congruence; try tauto.
Qed.

Lemma pop_left s o s' : ch_next s = None -> pop_peeked_or_next s = (o, s') ->
  ch_next s' = None /\ left s = match o with Some x => x :: left s' | None => [] end /\
  (o = None -> left s' = []).
Proof.
  destruct s as [r p nx]; unfold pop_peeked_or_next, left; simpl. intros ->.
  destruct p as [|x p]; [destruct r as [|x r]|]; intros E; injection E as <- <-; simpl;
    repeat split; try reflexivity; discriminate.
Qed.

Lemma remove_first_some p l x l' : remove_first p l = Some (x, l') ->
  exists l1 l2, l = l1 ++ x :: l2 /\ l' = l1 ++ l2 /\ Forall (fun y => p y = false) l1 /\ p x = true.
Proof.
  revert l'. induction l as [|y l IH]; simpl; intros l'; [discriminate|].
  destruct (p y) eqn:E.
  - intros H; injection H as <- <-. exists [], l. auto.
  - destruct (remove_first p l) as [[z l'']|]; [|discriminate].
    intros H; injection H as <- <-. destruct (IH _ eq_refl) as (l1 & l2 & -> & -> & F & Px).
    exists (y :: l1), l2. repeat split; auto.
Qed.
Lemma remove_first_none p l : remove_first p l = None -> Forall (fun y => p y = false) l.
Proof.
  induction l as [|y l IH]; simpl; intros H; constructor.
  - destruct (p y); [discriminate|reflexivity].
  - apply IH. destruct (p y); [discriminate|]. destruct (remove_first p l) as [[]|]; [discriminate|reflexivity].
Qed.
Lemma skip_to_spec p r pk o r' pk' : skip_to p r pk = (o, r', pk') ->
  match o with
  | Some x => exists r1, r = r1 ++ x :: r' /\ pk' = pk ++ r1 /\ Forall (fun y => p y = false) r1 /\ p x = true
  | None => r' = [] /\ pk' = pk ++ r /\ Forall (fun y => p y = false) r
  end.
Proof.
  revert pk. induction r as [|y r IH]; simpl; intros pk.
  - intros H; injection H as <- <- <-. rewrite app_nil_r. auto.
  - destruct (p y) eqn:E.
    + intros H; injection H as <- <- <-. exists []. rewrite app_nil_r. auto.
    + intros H. specialize (IH _ H). destruct o as [x|].
      * destruct IH as (r1 & -> & -> & F & Px). exists (y :: r1).
        rewrite <- app_assoc. auto.
      * destruct IH as (-> & -> & F). rewrite <- app_assoc. auto.
Qed.

Lemma Forall_not n ns l : Forall (fun y => has_name n ns y = false) l -> Forall (fun y => ~ matches n ns y) l.
Proof. apply Forall_impl. intros a. apply has_name_not. Qed.

Definition plain (c : call) : Prop := match c with CTryNext _ _ | CTryChild _ _ => False | _ => True end.
Lemma step_refines_plain c s a s' : plain c -> api_step c s = (a, s') -> spec_step c (left s) a (left s').
Proof.
  intros Pl. destruct c as [n ns|n ns|n ns|n ns|n ns]; simpl; [| | |destruct Pl|destruct Pl].
  - unfold peek_child. destruct s as [r pk nx]; simpl.
    destruct nx as [x|].
    + intros E; injection E as <- <-. unfold left; simpl.
      destruct (has_name n ns x) eqn:H; constructor; [apply has_name_matches|apply has_name_not]; auto.
    + destruct (pop_peeked_or_next (mkChildren r pk None)) as [o s1] eqn:P.
      apply (pop_left (mkChildren r pk None)) in P; [|reflexivity]. destruct P as (N1 & L1 & L2).
      simpl. intros E; injection E as <- <-. rewrite L1. unfold left; simpl.
      unfold left in L1, L2. rewrite N1 in L1, L2 |- *. simpl in L1, L2 |- *. destruct o as [x|]; simpl.
      * destruct (has_name n ns x) eqn:H; constructor; [apply has_name_matches|apply has_name_not]; auto.
      * rewrite L2 by reflexivity. constructor.
  - unfold next_child. destruct s as [r pk nx]; simpl. destruct nx as [x|].
    + destruct (has_name n ns x) eqn:H; intros E; injection E as <- <-; unfold left; simpl;
        constructor; [apply has_name_matches|apply has_name_not]; auto.
    + destruct (pop_peeked_or_next (mkChildren r pk None)) as [o s1] eqn:P.
      apply (pop_left (mkChildren r pk None)) in P; [|reflexivity]. destruct P as (N1 & L1 & L2).
      rewrite L1. destruct o as [x|].
      * destruct (has_name n ns x) eqn:H; intros E; injection E as <- <-.
        -- constructor. now apply has_name_matches.
        -- unfold left at 2; simpl. unfold left in *. rewrite N1 in *. simpl in *.
           constructor. now apply has_name_not.
      * intros E; injection E as <- <-. rewrite L2 by reflexivity. constructor.
  - unfold child. destruct s as [r pk nx]; simpl. destruct nx as [x|].
    + destruct (has_name n ns x) eqn:H.
      * intros E; injection E as <- <-. unfold left; simpl.
        apply (sp_child_yes n ns [] x (pk ++ r)); [constructor|now apply has_name_matches].
      * destruct (remove_first (has_name n ns) pk) as [[y pk']|] eqn:R.
        -- intros E; injection E as <- <-. apply remove_first_some in R.
           destruct R as (l1 & l2 & -> & -> & F & Py). unfold left; simpl.
           rewrite <- app_assoc. simpl. rewrite <- app_assoc.
           apply (sp_child_yes n ns (x :: l1) y (l2 ++ r)); [|now apply has_name_matches].
           constructor; [now apply has_name_not | now apply Forall_not].
        -- destruct (skip_to (has_name n ns) r pk) as [[o r'] pk'] eqn:K.
           intros E; injection E as <- <-. apply skip_to_spec in K. apply remove_first_none in R.
           unfold left; simpl. destruct o as [y|].
           ++ destruct K as (r1 & -> & -> & F & Py). rewrite app_assoc.
              apply (sp_child_yes n ns (x :: pk ++ r1) y r'); [|now apply has_name_matches].
              constructor; [now apply has_name_not|]. apply Forall_app; split; now apply Forall_not.
           ++ destruct K as (-> & -> & F). rewrite app_nil_r.
              apply sp_child_no. constructor; [now apply has_name_not|].
              apply Forall_app; split; now apply Forall_not.
    + destruct (remove_first (has_name n ns) pk) as [[y pk']|] eqn:R.
      * intros E; injection E as <- <-. apply remove_first_some in R.
        destruct R as (l1 & l2 & -> & -> & F & Py). unfold left; simpl.
        rewrite <- app_assoc. simpl. rewrite <- app_assoc.
        apply sp_child_yes; [now apply Forall_not|now apply has_name_matches].
      * destruct (skip_to (has_name n ns) r pk) as [[o r'] pk'] eqn:K.
        intros E; injection E as <- <-. apply skip_to_spec in K. apply remove_first_none in R.
        unfold left; simpl. destruct o as [y|].
        -- destruct K as (r1 & -> & -> & F & Py). rewrite app_assoc.
           apply sp_child_yes; [|now apply has_name_matches]. apply Forall_app; split; now apply Forall_not.
        -- destruct K as (-> & -> & F). rewrite app_nil_r.
           apply sp_child_no. apply Forall_app; split; now apply Forall_not.
Qed.

Lemma step_refines c s a s' : api_step c s = (a, s') -> spec_step c (left s) a (left s').
Proof.
  destruct c as [n ns|n ns|n ns|n ns|n ns]; try (apply step_refines_plain; exact I).
  - cbn [api_step]. unfold try_next_child. destruct (next_child n ns s) as [o s1] eqn:E.
    intros H; injection H as <- <-.
    assert (St : api_step (CNext n ns) s = (AElem o, s1)) by (cbn [api_step]; now rewrite E).
    apply step_refines_plain in St; [|exact I]. inversion St; subst; cbn [or_missing]; constructor; assumption.
  - cbn [api_step]. unfold try_child. destruct (child n ns s) as [o s1] eqn:E.
    intros H; injection H as <- <-.
    assert (St : api_step (CChild n ns) s = (AElem o, s1)) by (cbn [api_step]; now rewrite E).
    apply step_refines_plain in St; [|exact I]. inversion St; subst; cbn [or_missing]; constructor; assumption.
Qed.

Lemma run_refines cs s : spec_run cs (left s) (fst (api_run cs s)) (left (snd (api_run cs s))).
Proof.
  revert s. induction cs as [|c cs IH]; intros s; simpl; [constructor|].
  destruct (api_step c s) as [a s1] eqn:E. apply step_refines in E.
  specialize (IH s1). destruct (api_run cs s1) as [ans s2]. simpl in *.
  econstructor; eauto.
Qed.

(** The specification is deterministic. *)
Lemma split_unique n ns (l1 l1' l2 l2' : list xelem) x x' :
  l1 ++ x :: l2 = l1' ++ x' :: l2' ->
  Forall (fun y => ~ matches n ns y) l1 -> Forall (fun y => ~ matches n ns y) l1' ->
  matches n ns x -> matches n ns x' -> l1 = l1' /\ x = x' /\ l2 = l2'.
Proof.
  revert l1'. induction l1 as [|y l1 IH]; intros [|y' l1'] E F F' M M'; simpl in E.
  - injection E as -> ->. auto.
  - injection E as -> ->. inversion F'; tauto.
  - injection E as E1 E2; subst. inversion F; tauto.
  - injection E as -> E. inversion F; inversion F'; subst.
    destruct (IH l1' E) as (-> & -> & ->); auto.
Qed.

Lemma spec_step_det c l a l1 a' l1' : spec_step c l a l1 -> spec_step c l a' l1' -> a = a' /\ l1 = l1'.
Proof.
  intros H H'. destruct H; inversion H'; subst; try tauto; auto.
  all: try (match goal with E : _ ++ _ :: _ = _ ++ _ :: _ |- _ =>
      eapply split_unique in E; eauto; destruct E as (E1 & E2 & E3); subst; auto end).
  all: exfalso; match goal with F : Forall _ (_ ++ _ :: _) |- _ =>
      apply Forall_app in F; destruct F as [_ F]; inversion F; tauto end.
Qed.

Lemma spec_run_det cs l a l1 a' l1' : spec_run cs l a l1 -> spec_run cs l a' l1' -> a = a' /\ l1 = l1'.
Proof.
  intros H. revert a' l1'. induction H as [l|c cs l a l1 ans l2 S R IH]; intros a' l1' H'; inversion H'; subst; auto.
  match goal with S' : spec_step _ _ _ _ |- _ => destruct (spec_step_det _ _ _ _ _ _ S S') as [-> ->] end.
  match goal with R' : spec_run _ _ _ _ |- _ => destruct (IH _ _ R') as [-> ->] end. auto.
Qed.

(** States holding the same elements are indistinguishable. *)
Lemma run_left cs s s' : left s = left s' ->
  fst (api_run cs s) = fst (api_run cs s') /\ left (snd (api_run cs s)) = left (snd (api_run cs s')).
Proof.
  intros E. pose proof (run_refines cs s) as H. pose proof (run_refines cs s') as H'. rewrite E in H.
  eapply spec_run_det; eauto.
Qed.

Lemma run_cons c cs s : api_run (c :: cs) s =
  (fst (api_step c s) :: fst (api_run cs (snd (api_step c s))), snd (api_run cs (snd (api_step c s)))).
Proof.
  cbn [api_run]. destruct (api_step c s) as [a s1]. cbn [fst snd]. destruct (api_run cs s1). reflexivity.
Qed.

Lemma run_app h1 h2 s : api_run (h1 ++ h2) s =
  (fst (api_run h1 s) ++ fst (api_run h2 (snd (api_run h1 s))), snd (api_run h2 (snd (api_run h1 s)))).
Proof.
  revert s. induction h1 as [|c h1 IH]; intros s; simpl.
  - destruct (api_run h2 s); reflexivity.
  - destruct (api_step c s) as [a s1]. rewrite IH. destruct (api_run h1 s1) as [ans s2]. reflexivity.
Qed.

Lemma run_length h s : length (fst (api_run h s)) = length h.
Proof.
  revert s. induction h as [|c h IH]; intros s; simpl; [reflexivity|].
  destruct (api_step c s) as [a s1]. specialize (IH s1). destruct (api_run h s1). simpl in *. auto.
Qed.

Lemma sublist_refl {A} (l : list A) : sublist l l.
Proof. induction l; constructor; auto. Qed.
Lemma sublist_trans {A} (a b c : list A) : sublist a b -> sublist b c -> sublist a c.
Proof.
  intros H H'. revert a H. induction H' as [|x l m H' IH|x l m H' IH]; intros a H; auto.
  - inversion H; subst; constructor; auto.
  - constructor; auto.
Qed.
Lemma sublist_nil {A} (l : list A) : sublist [] l.
Proof. induction l; constructor; auto. Qed.
Lemma sublist_skip {A} (l1 l2 : list A) x : sublist (l1 ++ l2) (l1 ++ x :: l2).
Proof. induction l1; simpl; constructor; auto using sublist_refl. Qed.

Lemma step_sublist c l a l' : spec_step c l a l' -> sublist l' l.
Proof.
  intros H; destruct H; auto using sublist_refl, sublist_nil.
  all: try apply sublist_skip.
  all: constructor; apply sublist_refl.
Qed.
Lemma run_sublist cs l a l' : spec_run cs l a l' -> sublist l' l.
Proof. induction 1; eauto using sublist_refl, sublist_trans, step_sublist. Qed.

Lemma step_perm c l a l' : spec_step c l a l' -> Permutation (taken [a] ++ l') l.
Proof.
  intros H; destruct H; simpl; auto; apply Permutation_middle.
Qed.
Lemma run_perm cs l a l' : spec_run cs l a l' -> Permutation (taken a ++ l') l.
Proof.
  induction 1 as [|c cs l a l1 ans l2 S R IH]; simpl; auto.
  apply step_perm in S. simpl in S. rewrite app_nil_r in S.
  change (taken (a :: ans)) with ((match a with AElem (Some x) | ATry (Ok x) => [x] | _ => [] end) ++ taken ans).
  rewrite <- app_assoc. etransitivity; [|exact S]. apply Permutation_app_head. exact IH.
Qed.

Lemma left_with l : left (children_new (with_children l)) = l.
Proof.
  rewrite left_new. unfold with_children, xe_children. simpl.
  induction l; simpl; congruence.
Qed.

(** ** The statements *)
Lemma cursor_is_list e h :
  exists rest, spec_run h (xe_children e) (fst (api_run h (children_new e))) rest
    /\ Permutation (taken (fst (api_run h (children_new e))) ++ rest) (xe_children e)
    /\ sublist rest (xe_children e).
Proof.
  exists (left (snd (api_run h (children_new e)))).
  pose proof (run_refines h (children_new e)) as H. rewrite left_new in H.
  split; [exact H|]. split; [eapply run_perm; eauto | eapply run_sublist; eauto].
Qed.

Lemma peek_unobservable e h1 h2 n ns :
  exists a1 a2 b,
    length a1 = length h1
    /\ fst (api_run (h1 ++ h2) (children_new e)) = a1 ++ a2
    /\ fst (api_run (h1 ++ CPeek n ns :: h2) (children_new e)) = a1 ++ ABool b :: a2.
Proof.
  set (s1 := snd (api_run h1 (children_new e))).
  destruct (peek_child n ns s1) as [b s2] eqn:P.
  exists (fst (api_run h1 (children_new e))), (fst (api_run h2 s1)), b.
  assert (St : api_step (CPeek n ns) s1 = (ABool b, s2)) by (unfold api_step; now rewrite P).
  split; [apply run_length|]. split; [now rewrite run_app|].
  rewrite run_app. cbn [fst]. fold s1. f_equal. rewrite run_cons, St. cbn [fst snd]. f_equal.
  apply run_left. apply step_refines in St. inversion St; congruence.
Qed.

Lemma child_takes_first e h n ns :
  let before := api_run h (children_new e) in
  let after := child n ns (snd before) in
  exists rest,
    Permutation (taken (fst before) ++ rest) (xe_children e)
    /\ sublist rest (xe_children e)
    /\ (forall h2, fst (api_run h2 (snd before)) = fst (api_run h2 (children_new (with_children rest))))
    /\ match fst after with
       | Some x => exists l1 l2, rest = l1 ++ x :: l2 /\ matches n ns x
                     /\ Forall (fun y => ~ matches n ns y) l1
                     /\ forall h2, fst (api_run h2 (snd after))
                                   = fst (api_run h2 (children_new (with_children (l1 ++ l2))))
       | None => Forall (fun y => ~ matches n ns y) rest
                 /\ forall h2, fst (api_run h2 (snd after)) = fst (api_run h2 (snd before))
       end.
Proof.
  intros before after. set (s := snd before).
  exists (left s).
  pose proof (run_refines h (children_new e)) as H. rewrite left_new in H. fold before in H. fold s in H.
  split; [eapply run_perm; eauto|]. split; [eapply run_sublist; eauto|].
  split.
  { intros h2. apply run_left. now rewrite left_with. }
  assert (St : api_step (CChild n ns) s = (AElem (fst after), snd after)).
  { unfold after. fold s. unfold api_step. destruct (child n ns s). reflexivity. }
  apply step_refines in St. inversion St as [| | | | | |? ? l1 x l2 F M E1 E2 E3 E4|? ? l F E1 E2 E3 E4| | | | |]; subst.
  - exists l1, l2. split; [reflexivity|]. split; [exact M|]. split; [exact F|].
    intros h2. apply run_left. rewrite left_with. auto.
  - split; [exact F|]. intros h2. apply run_left. auto.
Qed.

(** ** Text *)
Lemma text_whole e : texts_merged (xe_kids e) -> Forall is_text (xe_kids e) ->
  d_text e = Ok (all_text (xe_kids e)).
Proof.
  unfold d_text. intros M F. destruct (xe_kids e) as [|k ks]; [reflexivity|].
  inversion F as [|? ? [s ->] F']; subst. destruct ks as [|k ks].
  - simpl. now rewrite app_s_nil_r.
  - inversion F' as [|? ? [s' ->] F'']; subst. simpl in M. tauto.
Qed.

