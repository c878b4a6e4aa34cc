(** * ParseFrame: parsing a declaration leaves the prefix table, the target
    namespace and the form default alone, and only adds names and namespaces *)
From Verif Require Import Base Libs Xml Ast XsdNode Parse ParseSpec MiscSpec ParseProof.

Section Frame.
Context {L : Libs}.

Definition keeps {A} (m : P A) : Prop :=
  forall c, match m c with Ok (_, c') => frame c c' | _ => True end.
Lemma frame_refl c : frame c c.
Proof. repeat split. Qed.
Lemma frame_trans a b c : frame a b -> frame b c -> frame a c.
Proof. intros (F1 & F2 & F3 & F4) (G1 & G2 & G3 & G4). repeat split; congruence. Qed.

Lemma keeps_bind {A B} (m : P A) (k : A -> P B) : keeps m -> (forall a, keeps (k a)) -> keeps (pbind m k).
Proof.
  intros H K c. unfold pbind. specialize (H c). destruct (m c) as [[a c1]|e|w|]; auto.
  specialize (K a c1). destruct (k a c1) as [[b c2]|e|w|]; auto. eapply frame_trans; eauto.
Qed.
Lemma keeps_ret {A} (a : A) : keeps (pret a). Proof. intros c. apply frame_refl. Qed.
Lemma keeps_err {A} e : keeps (@perr A e). Proof. intros c. exact I. Qed.
Lemma keeps_get : keeps pget. Proof. intros c. apply frame_refl. Qed.
Lemma keeps_lift {A} (m : res xsd_err A) : keeps (plift m).
Proof. intros c. unfold plift. destruct m; auto. apply frame_refl. Qed.
Lemma keeps_type a : keeps (get_type_name a).
Proof.
  intros c. unfold get_type_name. destruct (split_colon _) as [[p l]|].
  - destruct (aget _ _ _) as [uri|]; [|exact I]. destruct (_ =?s _).
    + destruct (literal_from_str l); [apply frame_refl|exact I].
    + destruct (get_or_insert _ _). repeat split.
  - destruct (opt_eqb _ _ _); [|apply frame_refl]. destruct (literal_from_str _); [apply frame_refl|exact I].
Qed.
Lemma keeps_discover n p : keeps (discover_type n p). Proof. intros c. repeat split. Qed.
Lemma keeps_add n r : keeps (add_root n r). Proof. intros c. repeat split. Qed.
Lemma keeps_virtual ns b : keeps (derive_virtual_name ns b).
Proof.
  intros c. unfold derive_virtual_name. cbv zeta.
  match goal with |- context [match ?x with Some s => _ | None => _ end] => destruct x end; [apply frame_refl|].
  destruct (concat_upper _); simpl; auto. apply frame_refl.
Qed.
Lemma keeps_collect {A B} (f : A -> P (option B)) l : (forall a, keeps (f a)) -> keeps (pcollect f l).
Proof.
  intros H. induction l as [|a l IH]; simpl; [apply keeps_ret|].
  apply keeps_bind; [apply H|]. intros o. apply keeps_bind; [exact IH|]. intros bs. apply keeps_ret.
Qed.

Ltac kstep :=
  match goal with
  | |- keeps (pbind _ _) => apply keeps_bind; [|intros ?]
  | |- keeps (pret _) => apply keeps_ret
  | |- keeps (perr _) => apply keeps_err
  | |- keeps pget => apply keeps_get
  | |- keeps (plift _) => apply keeps_lift
  | |- keeps (get_type_name _) => apply keeps_type
  | |- keeps (discover_type _ _) => apply keeps_discover
  | |- keeps (add_root _ _) => apply keeps_add
  | |- keeps (derive_virtual_name _ _) => apply keeps_virtual
  | |- keeps (pcollect _ _) => apply keeps_collect; intros ?
  | |- keeps (match ?x with _ => _ end) => destruct x
  | |- keeps (let '(_, _) := ?x in _) => destruct x
  end.

Lemma keeps_simple n : keeps (simple_type_parse n).
Proof. unfold simple_type_parse. cbv zeta. repeat kstep. Qed.
Lemma keeps_content n p ct : keeps (content_of_type n p ct).
Proof. unfold content_of_type. repeat kstep. Qed.
Lemma keeps_attribute p n : keeps (attribute_parse p n).
Proof. unfold attribute_parse. cbv zeta. repeat first [kstep | apply keeps_simple | apply keeps_content]. Qed.
Lemma keeps_simple_content n p : keeps (simple_content_parse n p).
Proof. unfold simple_content_parse. cbv zeta. repeat first [kstep | apply keeps_attribute]. Qed.

Definition keeps_at (fuel : nat) : Prop :=
  (forall n p, keeps (root_parse fuel n p)) /\ (forall n p, keeps (parse_root fuel n p))
  /\ (forall n p, keeps (parse_child fuel n p)) /\ (forall n p, keeps (complex_type_parse fuel n p))
  /\ (forall n p, keeps (complex_content_parse fuel n p)) /\ (forall n p, keeps (sequence_parse fuel n p))
  /\ (forall n p, keeps (choice_parse fuel n p)).
Lemma keeps_all fuel : keeps_at fuel.
Proof.
  induction fuel as [|fuel IH]; [repeat split; intros; intros c; exact I|].
  destruct IH as (H1 & H2 & H3 & H4 & H5 & H6 & H7).
  split; [|split; [|split; [|split; [|split; [|split]]]]]; intros n p.
  - cbn [root_parse]. repeat first [kstep | apply H2 | apply H4 | apply keeps_simple].
  - cbn [parse_root]. cbv zeta. repeat first [kstep | apply H4 | apply keeps_simple | apply keeps_content].
  - cbn [parse_child]. cbv zeta. repeat first [kstep | apply H1 | apply keeps_content].
  - cbn [complex_type_parse]. cbv zeta.
    repeat first [kstep | apply H5 | apply H6 | apply H7 | apply keeps_attribute | apply keeps_simple_content].
  - cbn [complex_content_parse]. cbv zeta. repeat first [kstep | apply H6 | apply keeps_attribute].
  - cbn [sequence_parse]. cbv zeta. repeat first [kstep | apply H3 | apply H6 | apply H7].
  - cbn [choice_parse]. cbv zeta. repeat first [kstep | apply H3 | apply H6].
Qed.
End Frame.
