(** * TermProof: lookahead and progress on the real cursor (C16) *)
From Verif Require Import Base Libs Xml Ast Decode Gen Run CursorSpec CursorProof DecSpec DecSim DecProof ReadSpec DecProof1
  RepSpec WfSpec WfProof.

Lemma look_left {L : Libs} p f id s b s1 :
  run_look real_ops p f id s = Ok (b, s1) -> run_look list_ops p f id (remaining s) = Ok (b, remaining s1).
Proof. intros H. rewrite !remaining_left, real_look, H. reflexivity. Qed.

Lemma look_keeps {L : Libs} gfuel c gs p f id s b s1 : generated gfuel c gs p ->
  run_look real_ops p f id s = Ok (b, s1) -> remaining s1 = remaining s.
Proof.
  intros [Hp Hnd] H. apply look_left in H.
  destruct (sound_look c gfuel gs p Hp f id _ _ H I) as (b' & E & _). congruence.
Qed.

Lemma group_progress {L : Libs} gfuel c gs p m id f f' e s s1 v s2 : generated gfuel c gs p -> groups_ok c gs ->
  is_group c gs m -> look_ident m = Ok id ->
  run_look real_ops p f id s = Ok (true, s1) -> run_type real_ops p f' id e s1 = Ok (v, s2) ->
  remaining s1 = remaining s /\ length (remaining s2) < length (remaining s).
Proof.
  intros G K Gm El H1 H2. pose proof (look_keeps _ _ _ _ _ _ _ _ _ G H1) as R1. split; [exact R1|].
  destruct G as [Hp Hnd]. apply look_left in H1.
  destruct (sound_look c gfuel gs p Hp f id _ _ H1 I) as (b' & E & Lk). injection E as <- _. specialize (Lk m El).
  assert (H2' : run_type list_ops p f' id e (remaining s) = Ok (v, remaining s2)).
  { rewrite <- R1, !remaining_left, real_type, H2. reflexivity. }
  destruct (sound_type c gfuel gs p Hp f' id e _ _ H2' I) as (n & r & In' & Gn & En & Rr).
  destruct Gm as (Im & (id' & T & Lm) & Gr).
  assert (n = m). { apply (same_ident gfuel c gs p (conj Hp Hnd) n m id); auto. congruence. } subst n.
  eapply (proj1 (progress gfuel c gs p (conj Hp Hnd) K)); [exact Lk|reflexivity|repeat split; eauto|].
  eapply rc_named; [|repeat split; eauto|exact Rr].
  - constructor. intros d Hd. destruct Gr as [[d' Gd]|[d' Gd]]; congruence.
Qed.

(** A group that does not start here. *)
Lemma group_skipped {L : Libs} gfuel c gs p l fld r m id f k call e s s1 : generated gfuel c gs p ->
  leaf_from_xml gfuel c l = Ok (fld, r) -> lf_virtual l = true -> (lf_is_optional l = true \/ lf_is_vec l = true) ->
  ld_content (lf_def l) = LcNamed m -> look_ident m = Ok id ->
  run_look real_ops p f id s = Ok (false, s1) ->
  run_fr real_ops call (run_look real_ops p f) (S k) r e s
    = Ok (if lf_is_optional l then VNone else VVec [], s1) /\ remaining s1 = remaining s.
Proof.
  intros G Lf V O C El H. split; [|eapply look_keeps; eassumption].
  unfold leaf_from_xml in Lf. apply bind_ok in Lf. destruct Lf as (f0 & _ & Lf). apply bind_ok in Lf. destruct Lf as (ns & _ & Lf).
  apply bind_ok in Lf. destruct Lf as (x & _ & Lf). unfold virtual_target in Lf. rewrite V, C, El in Lf.
  destruct (lf_is_vec l); [|destruct (lf_is_optional l); [|destruct O; discriminate]];
    injection Lf as <- <-; unfold run_fr, while_look; rewrite H; simpl; auto.
Qed.

Lemma bind_fuel {E A B} (m : res E A) (k : A -> res E B) : m = OutOfFuel -> bind m k = OutOfFuel.
Proof. now intros ->. Qed.
