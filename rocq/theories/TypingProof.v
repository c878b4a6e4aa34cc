(** * TypingProof: lemmas about the typing rules *)
From Verif Require Import Base Libs Xml Ast Gen Emit Rust Body RustSpec EmitSpec GramSpec GramWrite TypingSpec.
From Coq Require Import Permutation Lia.

Scheme val_mut := Induction for val Sort Prop
  with place_mut := Induction for place Sort Prop
  with stms_mut := Induction for stms Sort Prop
  with args_mut := Induction for args Sort Prop
  with fields_mut := Induction for fields Sort Prop
  with arms_mut := Induction for arms Sort Prop.
Combined Scheme typing_mut from val_mut, place_mut, stms_mut, args_mut, fields_mut, arms_mut.

(** ** Types *)
Lemma up_inj t u : up t = up u -> t = u.
Proof. revert u. induction t; intros [] H; simpl in H; try discriminate; try injection H as H; f_equal; auto. Qed.
Lemma coerces_up t u : coerces t (up u) -> t = up u.
Proof. intros H. inversion H; subst; auto; destruct u; discriminate. Qed.
Lemma copy_dec t : {copy t} + {~ copy t}.
Proof.
  induction t; try (right; intros H; inversion H; fail); try (left; constructor; fail).
  - destruct q; try (left; constructor; discriminate). right. intros H. inversion H; subst. congruence.
  - destruct IHt as [C|C]; [left; now constructor|right; intros H; inversion H; subst; contradiction].
Qed.
Lemma derefs_inv t u : derefs t u -> t = u \/ (exists t', t = YRef t' /\ derefs t' u) \/ (exists t', t = YBox t' /\ derefs t' u)
  \/ (t = YString /\ derefs YStr u).
Proof. intros H. inversion H; subst; eauto 6. Qed.

(** ** Environments *)
Lemma join_same G : join G G = G.
Proof. induction G as [|[x [t|]] G IH]; simpl; now rewrite ?IH. Qed.
Lemma out_app B G : out G (B ++ G) = G.
Proof. unfold out. rewrite app_length. replace (length B + length G - length G) with (length B) by lia.
  rewrite skipn_app, skipn_all, Nat.sub_diag. reflexivity. Qed.
Lemma out_same G : out G G = G.
Proof. apply (out_app []). Qed.
Lemma out_cons b G : out G (b :: G) = G.
Proof. apply (out_app [b]). Qed.
Lemma moved_app x B G t : var G x t -> aget String.eqb x B = None -> moved x (B ++ G) = B ++ moved x G.
Proof.
  intros V. induction B as [|[y o] B IH]; simpl; [reflexivity|]. unfold moved in *. simpl.
  destruct (x =?s y); [discriminate|]. intros N. now rewrite IH.
Qed.
Lemma moved_length x G t : var G x t -> length (moved x G) = length G.
Proof.
  unfold var, moved. induction G as [|[y o] G IH]; simpl; [discriminate|]. destruct (x =?s y); [reflexivity|].
  intros V. simpl. now rewrite IH.
Qed.

(** ** An elaboration only adds types *)
Section Proof.
Variable items : list pitem.
Notation val := (val items).
Notation place := (place items).
Notation stms := (stms items).
Notation args := (args items).
Notation fields := (fields items).
Notation arms := (arms items).

Lemma typing_erases self :
  (forall r G e e' t G', val self r G e e' t G' -> untyped e' = untyped e)
  /\ (forall r G e e' t G', place self r G e e' t G' -> untyped e' = untyped e)
  /\ (forall r G l l' G', stms self r G l l' G' -> map untyped_stm l' = map untyped_stm l)
  /\ (forall r G l l' ts G', args self r G l l' ts G' -> map untyped l' = map untyped l)
  /\ (forall r G l l' ts G', fields self r G l l' ts G' -> map (fun f => (fst f, untyped (snd f))) l' = map (fun f => (fst f, untyped (snd f))) l)
  /\ (forall r G u l l' t G', arms self r G u l l' t G' -> map (fun a => (fst a, untyped (snd a))) l' = map (fun a => (fst a, untyped (snd a))) l).
Proof.
  apply typing_mut with (self := self) (items := items); intros; try reflexivity; try assumption; try (rewrite ?untyped_block; cbn [untyped map untyped_stm fst snd]; congruence).
Qed.

Lemma stms_app self r G1 l l' G2 k k' G3 : stms self r G1 l l' G2 -> stms self r G2 k k' G3 -> stms self r G1 (l ++ k) (l' ++ k') G3.
Proof. induction 1; intros K; simpl; auto; econstructor; eauto. Qed.
Lemma stms_app_inv self r l k : forall G1 m G3, stms self r G1 (l ++ k) m G3 -> exists l' k' G2, m = l' ++ k' /\ stms self r G1 l l' G2 /\ stms self r G2 k k' G3.
Proof.
  induction l as [|s l IH]; simpl; intros G1 m G3 H.
  - exists [], m, G1. split; auto. split; auto. constructor.
  - inversion H; subst; match goal with K : TypingSpec.stms _ _ _ _ (l ++ k) _ _ |- _ => destruct (IH _ _ _ K) as (a & b & G2 & -> & A & B) end.
    + exists (SLet x e' :: a), b, G2. split; [reflexivity|]. split; [econstructor; eauto|auto].
    + exists (SExpr e' :: a), b, G2. split; [reflexivity|]. split; [econstructor; eauto|auto].
Qed.

Lemma unit_tail_like e : unit_tail e = true -> block_like e = true.
Proof. destruct e; simpl; try discriminate; auto. Qed.
Lemma unit_tail_elab self r G e e' t G' : val self r G e e' t G' -> unit_tail e' = unit_tail e.
Proof. intros H. apply typing_erases in H. rewrite <- (unit_tail_untyped e'), <- (unit_tail_untyped e). now rewrite H. Qed.
Lemma unit_tail_unit self r G e e' t G' : val self r G e e' t G' -> unit_tail e = true -> t = YUnit.
Proof.
  intros H U. destruct e; simpl in U; try discriminate.
  - destruct e3; try discriminate. inversion H; subst. match goal with K : TypingSpec.val _ _ _ _ EUnit _ _ _ |- _ => inversion K; subst end. reflexivity.
  - destruct e3; try discriminate. inversion H; subst. match goal with K : TypingSpec.val _ _ _ _ EUnit _ _ _ |- _ => inversion K; subst end. reflexivity.
  - inversion H; reflexivity.
  - inversion H; reflexivity.
  - inversion H; reflexivity.
Qed.

Lemma unit_block_val self r G l l' G' : stms self r G l l' G' -> val self r G (unit_block l) (unit_block l') YUnit (out G G').
Proof.
  destruct l as [|s l] using rev_ind; [intros H; inversion H; subst; eapply v_block; constructor|].
  intros H. apply stms_app_inv in H. destruct H as (l1 & k & G2 & -> & A & B). inversion B; subst.
  - match goal with K : TypingSpec.stms _ _ _ _ [] _ _ |- _ => inversion K; subst end.
    unfold unit_block. rewrite !rev_app_distr. cbn [rev app]. eapply v_block; [|constructor]. eapply stms_app; eauto.
  - match goal with K : TypingSpec.stms _ _ _ _ [] _ _ |- _ => inversion K; subst end.
    rewrite !unit_block_snoc. match goal with K : TypingSpec.val _ _ _ _ _ _ _ _ |- _ => rewrite (unit_tail_elab _ _ _ _ _ _ _ K) end.
    destruct (unit_tail e) eqn:U.
    + match goal with K : _ -> t = YUnit |- _ => specialize (K (unit_tail_like _ U)); subst t end. eapply v_block; eauto.
    + eapply v_block; [|constructor]. eapply stms_app; eauto.
Qed.
Lemma unit_block_inv self r G l e' t G' : val self r G (unit_block l) e' t G' ->
  exists l' G2, stms self r G l l' G2 /\ e' = unit_block l' /\ t = YUnit /\ G' = out G G2.
Proof.
  destruct l as [|s l] using rev_ind.
  { cbn. intros H. inversion H; subst. match goal with K : TypingSpec.stms _ _ _ _ [] _ _ |- _ => inversion K; subst end.
    match goal with K : TypingSpec.val _ _ _ _ EUnit _ _ _ |- _ => inversion K; subst end. exists [], G2. split; [constructor|auto]. }
  clear IHl. assert (D : forall s, (exists e, s = SExpr e /\ unit_tail e = true) \/ unit_block (l ++ [s]) = EBlock (l ++ [s]) EUnit).
  { intros [x e|e]; [right; unfold unit_block; rewrite rev_app_distr; reflexivity|]. destruct (unit_tail e) eqn:U; eauto.
    right. now rewrite unit_block_snoc, U. }
  destruct (D s) as [(e & -> & U)|Eq].
  - rewrite unit_block_snoc, U. intros H. inversion H; subst.
    match goal with A : TypingSpec.stms _ _ _ _ l ?m _, K : TypingSpec.val _ _ _ _ e ?x _ ?g |- _ =>
      pose proof (unit_tail_unit _ _ _ _ _ _ _ K U) as ->; pose proof (unit_tail_elab _ _ _ _ _ _ _ K) as W; exists (m ++ [SExpr x]), g end.
    split; [eapply stms_app; eauto; econstructor; eauto; constructor|]. rewrite unit_block_snoc, W, U. auto.
  - rewrite Eq. intros H. inversion H; subst. match goal with K : TypingSpec.val _ _ _ _ EUnit _ _ _ |- _ => inversion K; subst end.
    match goal with A : TypingSpec.stms _ _ _ _ _ ?m ?g |- _ => exists m, g; split; [exact A|]; rename A into A0 end.
    split; [|auto]. apply stms_app_inv in A0. destruct A0 as (a & b & G3 & -> & A & B). inversion B; subst.
    + match goal with K : TypingSpec.stms _ _ _ _ [] _ _ |- _ => inversion K; subst end. unfold unit_block. rewrite rev_app_distr. reflexivity.
    + match goal with K : TypingSpec.stms _ _ _ _ [] _ _ |- _ => inversion K; subst end. rewrite unit_block_snoc.
      match goal with K : TypingSpec.val _ _ _ _ _ _ _ _ |- _ => rewrite (unit_tail_elab _ _ _ _ _ _ _ K) end.
      rewrite unit_block_snoc in Eq. destruct (unit_tail e); [|reflexivity].
      injection Eq as X _. apply (f_equal (@length _)) in X. rewrite app_length in X. simpl in X. lia.
Qed.
End Proof.
