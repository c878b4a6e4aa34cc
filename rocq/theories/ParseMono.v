(** * ParseMono: more fuel never changes what the parser returns *)
From Verif Require Import Base Libs Xml Ast XsdNode Parse.

Section Mono.
Context {L : Libs}.

Definition ple {A} (m m' : P A) : Prop := forall c, m c = OutOfFuel \/ m c = m' c.

Lemma ple_refl {A} (m : P A) : ple m m.
Proof. intros c. now right. Qed.
Lemma ple_bind {A B} (m m' : P A) (k k' : A -> P B) :
  ple m m' -> (forall a, ple (k a) (k' a)) -> ple (pbind m k) (pbind m' k').
Proof.
  intros H K c. unfold pbind. destruct (H c) as [->| ->]; [now left|].
  destruct (m' c) as [[a c']|e|w|]; auto. apply K.
Qed.
Lemma ple_collect {A B} (f f' : A -> P (option B)) l : (forall a, ple (f a) (f' a)) -> ple (pcollect f l) (pcollect f' l).
Proof.
  intros H. induction l as [|a l IH]; simpl; [apply ple_refl|].
  apply ple_bind; [apply H|]. intros o. apply ple_bind; [exact IH|]. intros bs. apply ple_refl.
Qed.
Lemma ple_none {A} (m : P A) : ple (fun _ => OutOfFuel) m.
Proof. intros c. now left. Qed.

Definition mono_at (fuel : nat) : Prop :=
  (forall n p, ple (root_parse fuel n p) (root_parse (S fuel) n p))
  /\ (forall n p, ple (parse_root fuel n p) (parse_root (S fuel) n p))
  /\ (forall n p, ple (parse_child fuel n p) (parse_child (S fuel) n p))
  /\ (forall n p, ple (complex_type_parse fuel n p) (complex_type_parse (S fuel) n p))
  /\ (forall n p, ple (complex_content_parse fuel n p) (complex_content_parse (S fuel) n p))
  /\ (forall n p, ple (sequence_parse fuel n p) (sequence_parse (S fuel) n p))
  /\ (forall n p, ple (choice_parse fuel n p) (choice_parse (S fuel) n p)).

Ltac ple_step IH :=
  match goal with
  | |- ple ?m ?m => apply ple_refl
  | |- ple (pbind _ _) (pbind _ _) => apply ple_bind; [|intros ?]
  | |- ple (pcollect _ _) (pcollect _ _) => apply ple_collect; intros ?
  | |- ple (match ?x with _ => _ end) _ => destruct x
  | |- ple (let '(_, _) := ?x in _) _ => destruct x
  | |- _ => solve [apply IH]
  end.

Lemma mono_all fuel : mono_at fuel.
Proof.
  induction fuel as [|fuel IH]; [repeat split; intros; apply ple_none|].
  destruct IH as (H1 & H2 & H3 & H4 & H5 & H6 & H7).
  split; [|split; [|split; [|split; [|split; [|split]]]]]; intros n p.
  - change (ple (root_parse (S fuel) n p) (root_parse (S (S fuel)) n p)).
    cbn [root_parse]. repeat first [ple_step H2 | ple_step H4].
  - cbn [parse_root]. cbv zeta. repeat ple_step H4.
  - cbn [parse_child]. cbv zeta. repeat ple_step H1.
  - cbn [complex_type_parse]. cbv zeta. repeat first [ple_step H5|ple_step H6|ple_step H7].
  - cbn [complex_content_parse]. cbv zeta. repeat ple_step H6.
  - cbn [sequence_parse]. cbv zeta. repeat first [ple_step H3|ple_step H6|ple_step H7].
  - cbn [choice_parse]. cbv zeta. repeat first [ple_step H3|ple_step H6].
Qed.

Lemma root_parse_mono fuel fuel' n p c : fuel <= fuel' -> root_parse fuel n p c <> OutOfFuel ->
  root_parse fuel' n p c = root_parse fuel n p c.
Proof.
  induction 1 as [|fuel' Hle IH]; intros H; [reflexivity|].
  specialize (IH H). pose proof (mono_all fuel') as (H1 & _).
  destruct (H1 n p c) as [E|E]; congruence.
Qed.
End Mono.
