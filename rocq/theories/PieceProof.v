(** * PieceProof: character data written in pieces is read as one text *)
From Verif Require Import Base Libs Xml Writer.

Section Pieces.
Context {L : Libs}.

Lemma append_assoc a b c : (a +++ b) +++ c = a +++ (b +++ c).
Proof. induction a as [|x a IH]; simpl; [reflexivity|]. now rewrite IH. Qed.
Lemma merge_pieces ks s s' x : merge_text (ks ++ KText s :: KText s' :: x) = merge_text (ks ++ KText (s +++ s') :: x).
Proof.
  induction ks as [|k ks IH]; [|destruct k; simpl; now rewrite IH]. simpl.
  assert (N : forall t, t +++ "" = t) by (induction t; simpl; congruence).
  destruct (merge_text x) as [|[e|t|] r]; [| |now rewrite append_assoc|];
    destruct s as [|c s], s' as [|c' s']; cbn; rewrite ?N; try reflexivity.
Qed.

Definition same_frame (f g : frame) : Prop :=
  fr_tag f = fr_tag g /\ fr_ns f = fr_ns g /\ fr_attrs f = fr_attrs g /\ fr_scope f = fr_scope g
  /\ forall x, merge_text (fr_kids f ++ x) = merge_text (fr_kids g ++ x).
Lemma same_frame_refl f : same_frame f f.
Proof. repeat split. Qed.
Lemma same_add f g ks : same_frame f g -> same_frame (add_kids f ks) (add_kids g ks).
Proof.
  intros (H1 & H2 & H3 & H4 & H5). repeat split; try assumption. intros x. cbn [add_kids fr_kids].
  now rewrite <- !app_assoc.
Qed.
Lemma same_close f g : same_frame f g -> close_frame f = close_frame g.
Proof.
  intros (H1 & H2 & H3 & H4 & H5). unfold close_frame. specialize (H5 []). rewrite !app_nil_r in H5. now rewrite H5, H1, H2, H3.
Qed.
Lemma build_same evs : forall st st' done, Forall2 same_frame st st' -> build evs st done = build evs st' done.
Proof.
  induction evs as [|[n ats nss| |s] evs IH]; intros st st' done H; cbn [build].
  - now destruct H.
  - destruct H as [|f g st st' Hf H]; [reflexivity|]. destruct Hf as (H1 & H2 & H3 & H4 & H5). rewrite H4.
    destruct (open_frame _ _ _ _) as [h|]; [|reflexivity]. apply IH. constructor; [apply same_frame_refl|].
    constructor; [repeat split; assumption|exact H].
  - destruct H as [|f g st st' Hf H]; [reflexivity|]. rewrite (same_close f g Hf).
    destruct (close_frame g) as [e|]; [|reflexivity]. destruct H as [|p q st st' Hp H]; [reflexivity|].
    apply IH. constructor; [now apply same_add|exact H].
  - destruct H as [|f g st st' Hf H]; [reflexivity|]. apply IH. constructor; [now apply same_add|exact H].
Qed.
Lemma build_pieces a s s' b : forall st done,
  build (a ++ EvChars s :: EvChars s' :: b) st done = build (a ++ EvChars (s +++ s') :: b) st done.
Proof.
  induction a as [|[n ats nss| |t] a IH]; intros st done; cbn [app build].
  - destruct st as [|f st]; [reflexivity|]. apply build_same. constructor.
    + repeat split. intros x. cbn [add_kids fr_kids]. rewrite <- !app_assoc. simpl. apply merge_pieces.
    + clear. induction st; constructor; [apply same_frame_refl|assumption].
  - destruct st as [|f st]; [destruct done; [reflexivity|]|]; destruct (open_frame _ _ _ _); auto.
  - destruct st as [|f st]; [reflexivity|]. destruct (close_frame f); [|reflexivity]. destruct st; auto.
  - destruct st as [|f st]; auto.
Qed.
Lemma document_pieces a s s' b :
  document (a ++ EvChars s :: EvChars s' :: b) = document (a ++ EvChars (s +++ s') :: b).
Proof. apply build_pieces. Qed.
End Pieces.
