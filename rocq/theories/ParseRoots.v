(** * ParseRoots: parsing a declaration only ever adds to the table of types and
    never looks at it *)
From Verif Require Import Base Libs Xml Ast XsdNode Parse ParseSpec.

Definition add_all (adds R : list (name * root)) : list (name * root) :=
  fold_left (fun m nr => aset name_eqb (fst nr) (snd nr) m) adds R.
Lemma add_all_app a b R : add_all (a ++ b) R = add_all b (add_all a R).
Proof. apply fold_left_app. Qed.
Lemma add_all_NoDup adds : forall R, NoDup (map fst R) -> NoDup (map fst (add_all adds R)).
Proof.
  induction adds as [|[k v] adds IH]; intros R H; [exact H|]. apply IH, (aset_NoDup _ name_eqb_eq), H.
Qed.
Lemma set_roots_self c : set_roots (cx_roots c) c = c.
Proof. now destruct c. Qed.
Lemma set_roots_twice R R' c : set_roots R (set_roots R' c) = set_roots R c.
Proof. reflexivity. Qed.

Section Roots.
Context {L : Libs}.

Definition uniform {A} (m : P A) : Prop :=
  forall c, match m c with
            | Ok (a, c') => exists adds, forall R, m (set_roots R c) = Ok (a, set_roots (add_all adds R) c')
            | Err e => forall R, m (set_roots R c) = Err e
            | Panic w => forall R, m (set_roots R c) = Panic w
            | OutOfFuel => forall R, m (set_roots R c) = OutOfFuel
            end.

Lemma uniform_bind {A B} (m : P A) (k : A -> P B) : uniform m -> (forall a, uniform (k a)) -> uniform (pbind m k).
Proof.
  intros H K c. unfold pbind. specialize (H c). destruct (m c) as [[a c1]|e|w|].
  - destruct H as [adds H]. specialize (K a c1). destruct (k a c1) as [[b c2]|e|w|].
    + destruct K as [adds' K]. exists (adds ++ adds'). intros R. rewrite H, K, add_all_app. reflexivity.
    + intros R. rewrite H. apply K.
    + intros R. rewrite H. apply K.
    + intros R. rewrite H. apply K.
  - intros R. now rewrite H.
  - intros R. now rewrite H.
  - intros R. now rewrite H.
Qed.
Lemma uniform_ret {A} (a : A) : uniform (pret a). Proof. intros c. now exists []. Qed.
Lemma uniform_err {A} e : uniform (@perr A e). Proof. intros c R. reflexivity. Qed.
Lemma uniform_lift {A} (m : res xsd_err A) : uniform (plift m).
Proof. intros c. unfold plift. destruct m; simpl; [now exists []|intros R; reflexivity..]. Qed.
Lemma uniform_type a : uniform (get_type_name a).
Proof.
  intros c. unfold get_type_name. simpl. destruct (split_colon _) as [[p l]|].
  - destruct (aget _ _ _) as [uri|]; [|intros R; reflexivity]. destruct (_ =?s _).
    + destruct (literal_from_str l); [now exists []|intros R; reflexivity].
    + destruct (get_or_insert _ _). now exists [].
  - destruct (opt_eqb _ _ _); [|now exists []]. destruct (literal_from_str _); [now exists []|intros R; reflexivity].
Qed.
Lemma uniform_discover n p : uniform (discover_type n p). Proof. intros c. now exists []. Qed.
Lemma uniform_add n r : uniform (add_root n r). Proof. intros c. now exists [(n, r)]. Qed.
Lemma uniform_virtual ns b : uniform (derive_virtual_name ns b).
Proof.
  intros c. unfold derive_virtual_name. cbv zeta.
  match goal with |- context [match ?x with Some s => _ | None => _ end] => destruct x end; [now exists []|].
  destruct (concat_upper _); simpl; [now exists []|intros R; reflexivity..].
Qed.
Lemma uniform_collect {A B} (f : A -> P (option B)) l : (forall a, uniform (f a)) -> uniform (pcollect f l).
Proof.
  intros H. induction l as [|a l IH]; simpl; [apply uniform_ret|].
  apply uniform_bind; [apply H|]. intros o. apply uniform_bind; [exact IH|]. intros bs. apply uniform_ret.
Qed.
(** [pget] is only used for the names of the context. *)
Lemma uniform_get {A} (k : ctx -> P A) :
  (forall c R, k (set_roots R c) = k c) -> (forall c, uniform (k c)) -> uniform (pbind pget k).
Proof.
  intros H K c. unfold pbind, pget. specialize (K c c).
  destruct (k c c) as [[a c']|e|w|].
  - destruct K as [adds K]. exists adds. intros R. now rewrite H.
  - intros R. now rewrite H.
  - intros R. now rewrite H.
  - intros R. now rewrite H.
Qed.

Ltac ustep :=
  match goal with
  | |- uniform (pbind pget _) => apply uniform_get; [reflexivity|intros ?]
  | |- uniform (pbind _ _) => apply uniform_bind; [|intros ?]
  | |- uniform (pret _) => apply uniform_ret
  | |- uniform (perr _) => apply uniform_err
  | |- uniform (plift _) => apply uniform_lift
  | |- uniform (get_type_name _) => apply uniform_type
  | |- uniform (discover_type _ _) => apply uniform_discover
  | |- uniform (add_root _ _) => apply uniform_add
  | |- uniform (derive_virtual_name _ _) => apply uniform_virtual
  | |- uniform (pcollect _ _) => apply uniform_collect; intros ?
  | |- uniform (match ?x with _ => _ end) => destruct x
  | |- uniform (let '(_, _) := ?x in _) => destruct x
  end.

Lemma uniform_simple n : uniform (simple_type_parse n).
Proof. unfold simple_type_parse. cbv zeta. repeat ustep. Qed.
Lemma uniform_content n p ct : uniform (content_of_type n p ct).
Proof. unfold content_of_type. repeat ustep. Qed.
Lemma uniform_attribute p n : uniform (attribute_parse p n).
Proof. unfold attribute_parse. cbv zeta. repeat first [ustep | apply uniform_simple | apply uniform_content]. Qed.
Lemma uniform_simple_content n p : uniform (simple_content_parse n p).
Proof. unfold simple_content_parse. cbv zeta. repeat first [ustep | apply uniform_attribute]. Qed.

Definition uniform_at (fuel : nat) : Prop :=
  (forall n p, uniform (root_parse fuel n p)) /\ (forall n p, uniform (parse_root fuel n p))
  /\ (forall n p, uniform (parse_child fuel n p)) /\ (forall n p, uniform (complex_type_parse fuel n p))
  /\ (forall n p, uniform (complex_content_parse fuel n p)) /\ (forall n p, uniform (sequence_parse fuel n p))
  /\ (forall n p, uniform (choice_parse fuel n p)).
Lemma uniform_all fuel : uniform_at fuel.
Proof.
  induction fuel as [|fuel IH]; [repeat split; intros; intros c R; reflexivity|].
  destruct IH as (H1 & H2 & H3 & H4 & H5 & H6 & H7).
  split; [|split; [|split; [|split; [|split; [|split]]]]]; intros n p.
  - cbn [root_parse]. repeat first [ustep | apply H2 | apply H4 | apply uniform_simple].
  - cbn [parse_root]. cbv zeta. repeat first [ustep | apply H4 | apply uniform_simple | apply uniform_content].
  - cbn [parse_child]. cbv zeta. repeat first [ustep | apply H1 | apply uniform_content].
  - cbn [complex_type_parse]. cbv zeta.
    repeat first [ustep | apply H5 | apply H6 | apply H7 | apply uniform_attribute | apply uniform_simple_content].
  - cbn [complex_content_parse]. cbv zeta. repeat first [ustep | apply H6 | apply uniform_attribute].
  - cbn [sequence_parse]. cbv zeta. repeat first [ustep | apply H3 | apply H6 | apply H7].
  - cbn [choice_parse]. cbv zeta. repeat first [ustep | apply H3 | apply H6].
Qed.
Lemma uniform_root fuel n p : uniform (root_parse fuel n p).
Proof. apply uniform_all. Qed.
Lemma uniform_roots fuel n p c r c' : root_parse fuel n p c = Ok (r, c') ->
  exists adds, cx_roots c' = add_all adds (cx_roots c)
    /\ forall R, root_parse fuel n p (set_roots R c) = Ok (r, set_roots (add_all adds R) c').
Proof.
  intros E. pose proof (uniform_root fuel n p c) as U. rewrite E in U. destruct U as [adds U]. exists adds.
  split; [|exact U]. specialize (U (cx_roots c)). rewrite set_roots_self, E in U. injection U as U. rewrite U at 1. reflexivity.
Qed.
End Roots.
