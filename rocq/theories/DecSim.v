(** * DecSim: cursors that correspond decode alike; more fuel changes nothing *)
From Verif Require Import Base Libs Xml Ast Decode Gen Run CursorSpec CursorProof DecSpec.

(** ** The plain list as a cursor *)
Definition list_next (n : string) (ns : option string) (l : list xelem) : option xelem * list xelem :=
  match l with
  | x :: l' => if has_name n ns x then (Some x, l') else (None, l)
  | [] => (None, [])
  end.
Definition list_child (n : string) (ns : option string) (l : list xelem) : option xelem * list xelem :=
  match remove_first (has_name n ns) l with
  | Some (x, l') => (Some x, l')
  | None => (None, l)
  end.
Definition list_ops : cursor_ops (list xelem) :=
  mkOps _ xe_children (fun n ns l => (first_is n ns l, l)) list_next list_child.

Definition mapc {E A C D} (h : C -> D) (o : res E (A * C)) : res E (A * D) :=
  match o with
  | Ok (a, s) => Ok (a, h s)
  | Err e => Err e
  | Panic w => Panic w
  | OutOfFuel => OutOfFuel
  end.

Section Hom.
  Context {L : Libs} {C D : Type} (o1 : cursor_ops C) (o2 : cursor_ops D) (h : C -> D) (p : program).
  Definition hom2 {A} (x : A * C) (y : A * D) := fst y = fst x /\ snd y = h (snd x).
  Hypothesis Hnew : forall e, op_new o2 e = h (op_new o1 e).
  Hypothesis Hpeek : forall n ns s, hom2 (op_peek o1 n ns s) (op_peek o2 n ns (h s)).
  Hypothesis Hnext : forall n ns s, hom2 (op_next o1 n ns s) (op_next o2 n ns (h s)).
  Hypothesis Hchild : forall n ns s, hom2 (op_child o1 n ns s) (op_child o2 n ns (h s)).

  Section Open.
    Variable c1 : string -> xelem -> C -> R (value * C).
    Variable c2 : string -> xelem -> D -> R (value * D).
    Variable l1 : string -> C -> R (bool * C).
    Variable l2 : string -> D -> R (bool * D).
    Hypothesis Hc : forall id e s, c2 id e (h s) = mapc h (c1 id e s).
    Hypothesis Hl : forall id s, l2 id (h s) = mapc h (l1 id s).

    Lemma hom_rx x e s : run_rx c2 x e (h s) = mapc h (run_rx c1 x e s).
    Proof.
      destruct x as [lit|t|id]; simpl; [..|apply Hc].
      - destruct (d_text e); simpl; auto. destruct (lit_from_str lit a); reflexivity.
      - destruct (d_text e); simpl; auto. destruct (a =?s t); reflexivity.
    Qed.

    Lemma hom_sub x e : run_sub o2 c2 x e = run_sub o1 c1 x e.
    Proof.
      unfold run_sub. rewrite Hnew, hom_rx. destruct (run_rx c1 x e _) as [[v s]| | |]; reflexivity.
    Qed.

    Lemma hom_while_look fuel : forall id x e s,
      while_look c2 l2 fuel id x e (h s) = mapc h (while_look c1 l1 fuel id x e s).
    Proof.
      induction fuel as [|fuel IH]; intros id x e s; simpl; [reflexivity|].
      rewrite Hl. destruct (l1 id s) as [[[|] s']| | |]; simpl; try reflexivity.
      rewrite hom_rx. destruct (run_rx c1 x e s') as [[v s'']| | |]; simpl; try reflexivity.
      rewrite IH. destruct (while_look c1 l1 fuel id x e s'') as [[vs s3]| | |]; reflexivity.
    Qed.

    Lemma hom_while_next fuel : forall n ns x s,
      while_next o2 c2 fuel n ns x (h s) = mapc h (while_next o1 c1 fuel n ns x s).
    Proof.
      induction fuel as [|fuel IH]; intros n ns x s; simpl; [reflexivity|].
      pose proof (Hnext n ns s) as H. destruct (op_next o1 n ns s) as [[k|] s'], (op_next o2 n ns (h s)) as [o t];
        destruct H as [E1 E2]; simpl in E1, E2; subst; [|reflexivity].
      rewrite hom_sub. destruct (run_sub o1 c1 x k) as [v| | |]; simpl; try reflexivity.
      rewrite IH. destruct (while_next o1 c1 fuel n ns x s') as [[vs s3]| | |]; reflexivity.
    Qed.

    Lemma hom_fr fuel f e s : run_fr o2 c2 l2 fuel f e (h s) = mapc h (run_fr o1 c1 l1 fuel f e s).
    Proof.
      destruct f as [x|id x opt|id x|n ns x opt|n ns x|n ns x|n ns x]; simpl.
      - apply hom_rx.
      - rewrite hom_while_look. destruct (while_look c1 l1 fuel id x e s) as [[vs s3]| | |]; reflexivity.
      - rewrite Hl. destruct (l1 id s) as [[[|] s']| | |]; simpl; try reflexivity.
        rewrite hom_rx. destruct (run_rx c1 x e s') as [[v s'']| | |]; reflexivity.
      - rewrite hom_while_next. destruct (while_next o1 c1 fuel n ns x s) as [[vs s3]| | |]; reflexivity.
      - pose proof (Hnext n ns s) as H. destruct (op_next o1 n ns s) as [[k|] s'], (op_next o2 n ns (h s)) as [o t];
          destruct H as [E1 E2]; simpl in E1, E2; subst; [|reflexivity].
        rewrite hom_sub. destruct (run_sub o1 c1 x k) as [v| | |]; reflexivity.
      - pose proof (Hchild n ns s) as H. destruct (op_child o1 n ns s) as [[k|] s'], (op_child o2 n ns (h s)) as [o t];
          destruct H as [E1 E2]; simpl in E1, E2; subst; [|reflexivity].
        rewrite hom_sub. destruct (run_sub o1 c1 x k) as [v| | |]; reflexivity.
      - pose proof (Hnext n ns s) as H. destruct (op_next o1 n ns s) as [[k|] s'], (op_next o2 n ns (h s)) as [o t];
          destruct H as [E1 E2]; simpl in E1, E2; subst; [|reflexivity].
        rewrite hom_sub. destruct (run_sub o1 c1 x k) as [v| | |]; reflexivity.
    Qed.

    Lemma hom_fields fuel fs e : forall s,
      run_fields o2 c2 l2 fuel fs e (h s) = mapc h (run_fields o1 c1 l1 fuel fs e s).
    Proof.
      induction fs as [|[i x] fs IH]; intros s; simpl; [reflexivity|].
      rewrite hom_fr. destruct (run_fr o1 c1 l1 fuel x e s) as [[v s']| | |]; simpl; try reflexivity.
      rewrite IH. destruct (run_fields o1 c1 l1 fuel fs e s') as [[vs s'']| | |]; reflexivity.
    Qed.

    Lemma hom_arms fuel self arms e : forall s,
      run_arms o2 c2 l2 fuel self arms e (h s) = mapc h (run_arms o1 c1 l1 fuel self arms e s).
    Proof.
      induction arms as [|[v id x|v n ns x|v n ns x] arms IH]; intros s; simpl; [reflexivity|..].
      - rewrite Hl. destruct (l1 id s) as [[[|] s']| | |]; simpl; try reflexivity; [|apply IH].
        rewrite hom_rx. destruct (run_rx c1 x e s') as [[w s'']| | |]; reflexivity.
      - pose proof (Hpeek n ns s) as H. destruct (op_peek o1 n ns s) as [b s'], (op_peek o2 n ns (h s)) as [b' t];
          destruct H as [E1 E2]; simpl in E1, E2; subst. destruct b; [|apply IH].
        rewrite hom_while_next. destruct (while_next o1 c1 fuel n ns x s') as [[ws s'']| | |]; reflexivity.
      - pose proof (Hnext n ns s) as H. destruct (op_next o1 n ns s) as [[k|] s'], (op_next o2 n ns (h s)) as [o t];
          destruct H as [E1 E2]; simpl in E1, E2; subst; [|apply IH].
        rewrite hom_sub. destruct (run_sub o1 c1 x k) as [v'| | |]; reflexivity.
    Qed.

    Lemma hom_body fuel t e s :
      run_body o2 p c2 l2 fuel t e (h s) = mapc h (run_body o1 p c1 l1 fuel t e s).
    Proof.
      unfold run_body. destruct (ti_read t) as [x| |fs ats|arms].
      - rewrite hom_rx. destruct (run_rx c1 x e s) as [[v s']| | |]; reflexivity.
      - destruct (d_text e) as [a| | |]; simpl; auto. destruct (ti_decl t); try reflexivity.
        destruct (enum_from_str variants a); reflexivity.
      - rewrite hom_fields. destruct (run_fields o1 c1 l1 fuel fs e s) as [[vs s']| | |]; simpl; try reflexivity.
        destruct (mapM _ ats); reflexivity.
      - apply hom_arms.
    Qed.

    Lemma hom_lk l : forall s, run_lk o2 l2 l (h s) = mapc h (run_lk o1 l1 l s).
    Proof.
      induction l as [|[id|n ns] l IH]; intros s; simpl; [reflexivity|..].
      - rewrite Hl. destruct (l1 id s) as [[[|] s']| | |]; simpl; try reflexivity. apply IH.
      - pose proof (Hpeek n ns s) as H. destruct (op_peek o1 n ns s) as [b s'], (op_peek o2 n ns (h s)) as [b' t];
          destruct H as [E1 E2]; simpl in E1, E2; subst. destruct b; [reflexivity|apply IH].
    Qed.
  End Open.

  Lemma hom_look fuel : forall id s, run_look o2 p fuel id (h s) = mapc h (run_look o1 p fuel id s).
  Proof.
    induction fuel as [|fuel IH]; intros id s; simpl; [reflexivity|].
    destruct (lookup_item p id) as [t|]; [|reflexivity]. destruct (ti_look t); [reflexivity|].
    apply hom_lk, IH.
  Qed.

  Lemma hom_type fuel : forall id e s, run_type o2 p fuel id e (h s) = mapc h (run_type o1 p fuel id e s).
  Proof.
    induction fuel as [|fuel IH]; intros id e s; simpl; [reflexivity|].
    destruct (lookup_item p id) as [t|]; [|reflexivity].
    apply hom_body; [exact IH|apply hom_look].
  Qed.

  Lemma hom_from_xml fuel id e : from_xml_with o2 p fuel id e = from_xml_with o1 p fuel id e.
  Proof.
    unfold from_xml_with. destruct (lookup_item p id) as [t|]; [|reflexivity].
    destruct (doc_try_child e _ _) as [x| | |]; simpl; auto.
    rewrite Hnew, hom_type. destruct (run_type o1 p fuel id x _) as [[v s]| | |]; reflexivity.
  Qed.
End Hom.

(** The real cursor decodes like the plain list of unread children. *)
Lemma left_peek n ns s : hom2 left (peek_child n ns s) (first_is n ns (left s), left s).
Proof.
  pose proof (step_refines (CPeek n ns) s) as H. unfold api_step in H.
  destruct (peek_child n ns s) as [b s']. specialize (H _ _ eq_refl). unfold hom2. simpl.
  inversion H as [? ? x l M E1 E2 E3|? ? x l M E1 E2 E3|? ? E1 E2 E3| | | | | | | | | |]; subst; simpl; split; auto.
  - apply has_name_matches, M.
  - apply has_name_not, M.
Qed.
Lemma left_next n ns s : hom2 left (next_child n ns s) (list_next n ns (left s)).
Proof.
  pose proof (step_refines (CNext n ns) s) as H. unfold api_step in H.
  destruct (next_child n ns s) as [b s']. specialize (H _ _ eq_refl). unfold hom2, list_next. simpl.
  inversion H as [| | |? ? x l M E1 E2 E3|? ? x l M E1 E2 E3|? ? E1 E2 E3| | | | | | |]; subst; simpl; auto.
  - apply has_name_matches in M. now rewrite M.
  - apply has_name_not in M. now rewrite M.
Qed.
Lemma remove_first_split p l1 (x : xelem) l2 : Forall (fun y => p y = false) l1 -> p x = true ->
  remove_first p (l1 ++ x :: l2) = Some (x, l1 ++ l2).
Proof.
  intros F Px. induction F as [|y l1 Hy F IH]; simpl; [now rewrite Px|]. now rewrite Hy, IH.
Qed.
Lemma remove_first_all p (l : list xelem) : Forall (fun y => p y = false) l -> remove_first p l = None.
Proof. induction 1 as [|y l Hy F IH]; simpl; [reflexivity|]. now rewrite Hy, IH. Qed.
Lemma left_child n ns s : hom2 left (child n ns s) (list_child n ns (left s)).
Proof.
  pose proof (step_refines (CChild n ns) s) as H. unfold api_step in H.
  destruct (child n ns s) as [b s']. specialize (H _ _ eq_refl). unfold hom2, list_child.
  inversion H as [| | | | | |? ? l1 x l2 F M E1 E2 E3|? ? l F E1 E2 E3| | | | |]; subst; simpl.
  - rewrite remove_first_split; simpl; auto.
    + eapply Forall_impl; [|exact F]. intros y. apply has_name_not.
    + apply has_name_matches, M.
  - rewrite remove_first_all; auto. eapply Forall_impl; [|exact F]. intros y. apply has_name_not.
Qed.

Lemma from_xml_list {L : Libs} p fuel id e : from_xml p fuel id e = from_xml_with list_ops p fuel id e.
Proof.
  unfold from_xml. symmetry. apply (hom_from_xml real_ops list_ops left).
  - reflexivity.
  - exact left_peek.
  - exact left_next.
  - exact left_child.
Qed.

(** ** Fuel *)
Definition le_res {E A} (a b : res E A) : Prop := a = OutOfFuel \/ a = b.
Lemma le_refl {E A} (a : res E A) : le_res a a. Proof. now right. Qed.
Lemma le_bind {E A B} (m m' : res E A) (k k' : A -> res E B) :
  le_res m m' -> (forall a, le_res (k a) (k' a)) -> le_res (bind m k) (bind m' k').
Proof. intros [->|<-] H; [now left|]. destruct m; simpl; auto using le_refl. Qed.

Section Mono.
  Context {L : Libs} {C : Type} (ops : cursor_ops C) (p : program).
  Section Open.
    Variable c1 c2 : string -> xelem -> C -> R (value * C).
    Variable l1 l2 : string -> C -> R (bool * C).
    Hypothesis Hc : forall id e s, le_res (c1 id e s) (c2 id e s).
    Hypothesis Hl : forall id s, le_res (l1 id s) (l2 id s).

    Lemma le_rx x e s : le_res (run_rx c1 x e s) (run_rx c2 x e s).
    Proof. destruct x; simpl; auto using le_refl. Qed.
    Lemma le_sub x e : le_res (run_sub ops c1 x e) (run_sub ops c2 x e).
    Proof. apply le_bind; [apply le_rx|]. intros []. apply le_refl. Qed.
    Lemma le_while_look f1 : forall f2 id x e s, f1 <= f2 ->
      le_res (while_look c1 l1 f1 id x e s) (while_look c2 l2 f2 id x e s).
    Proof.
      induction f1 as [|f1 IH]; intros f2 id x e s H; [now left|].
      destruct f2 as [|f2]; [lia|]. simpl. apply le_bind; [apply Hl|]. intros [[|] s']; [|apply le_refl].
      apply le_bind; [apply le_rx|]. intros [v s'']. apply le_bind; [apply IH; lia|].
      intros [vs s3]. apply le_refl.
    Qed.
    Lemma le_while_next f1 : forall f2 n ns x s, f1 <= f2 ->
      le_res (while_next ops c1 f1 n ns x s) (while_next ops c2 f2 n ns x s).
    Proof.
      induction f1 as [|f1 IH]; intros f2 n ns x s H; [now left|].
      destruct f2 as [|f2]; [lia|]. simpl. destruct (op_next ops n ns s) as [[k|] s']; [|apply le_refl].
      apply le_bind; [apply le_sub|]. intros v. apply le_bind; [apply IH; lia|].
      intros [vs s3]. apply le_refl.
    Qed.
    Lemma le_fr f1 f2 x e s : f1 <= f2 -> le_res (run_fr ops c1 l1 f1 x e s) (run_fr ops c2 l2 f2 x e s).
    Proof.
      intros H. destruct x as [x|id x opt|id x|n ns x opt|n ns x|n ns x|n ns x]; simpl.
      - apply le_rx.
      - apply le_bind; [now apply le_while_look|]. intros []; apply le_refl.
      - apply le_bind; [apply Hl|]. intros [[|] s']; [|apply le_refl].
        apply le_bind; [apply le_rx|]. intros []; apply le_refl.
      - apply le_bind; [now apply le_while_next|]. intros []; apply le_refl.
      - destruct (op_next ops n ns s) as [[k|] s']; [|apply le_refl].
        apply le_bind; [apply le_sub|]. intros ?; apply le_refl.
      - destruct (op_child ops n ns s) as [[k|] s']; [|apply le_refl].
        apply le_bind; [apply le_sub|]. intros ?; apply le_refl.
      - destruct (op_next ops n ns s) as [[k|] s']; [|apply le_refl].
        apply le_bind; [apply le_sub|]. intros ?; apply le_refl.
    Qed.
    Lemma le_fields f1 f2 fs e : f1 <= f2 -> forall s,
      le_res (run_fields ops c1 l1 f1 fs e s) (run_fields ops c2 l2 f2 fs e s).
    Proof.
      intros H. induction fs as [|[i x] fs IH]; intros s; simpl; [apply le_refl|].
      apply le_bind; [now apply le_fr|]. intros [v s']. apply le_bind; [apply IH|]. intros []; apply le_refl.
    Qed.
    Lemma le_arms f1 f2 self arms e : f1 <= f2 -> forall s,
      le_res (run_arms ops c1 l1 f1 self arms e s) (run_arms ops c2 l2 f2 self arms e s).
    Proof.
      intros H. induction arms as [|[v id x|v n ns x|v n ns x] arms IH]; intros s; simpl; [apply le_refl|..].
      - apply le_bind; [apply Hl|]. intros [[|] s']; [|apply IH].
        apply le_bind; [apply le_rx|]. intros []; apply le_refl.
      - destruct (op_peek ops n ns s) as [[|] s']; [|apply IH].
        apply le_bind; [now apply le_while_next|]. intros []; apply le_refl.
      - destruct (op_next ops n ns s) as [[k|] s']; [|apply IH].
        apply le_bind; [apply le_sub|]. intros ?; apply le_refl.
    Qed.
    Lemma le_body f1 f2 t e s : f1 <= f2 ->
      le_res (run_body ops p c1 l1 f1 t e s) (run_body ops p c2 l2 f2 t e s).
    Proof.
      intros H. unfold run_body. destruct (ti_read t) as [x| |fs ats|arms].
      - apply le_bind; [apply le_rx|]. intros []; apply le_refl.
      - apply le_refl.
      - apply le_bind; [now apply le_fields|]. intros []; apply le_refl.
      - now apply le_arms.
    Qed.
    Lemma le_lk l : forall s, le_res (run_lk ops l1 l s) (run_lk ops l2 l s).
    Proof.
      induction l as [|[id|n ns] l IH]; intros s; simpl; [apply le_refl|..].
      - apply le_bind; [apply Hl|]. intros [[|] s']; [apply le_refl|apply IH].
      - destruct (op_peek ops n ns s) as [[|] s']; [apply le_refl|apply IH].
    Qed.
  End Open.

  Lemma le_look f1 : forall f2 id s, f1 <= f2 -> le_res (run_look ops p f1 id s) (run_look ops p f2 id s).
  Proof.
    induction f1 as [|f1 IH]; intros f2 id s H; [now left|]. destruct f2 as [|f2]; [lia|]. simpl.
    destruct (lookup_item p id) as [t|]; [|apply le_refl]. destruct (ti_look t); [apply le_refl|].
    apply le_lk. intros. apply IH. lia.
  Qed.
  Lemma le_type f1 : forall f2 id e s, f1 <= f2 -> le_res (run_type ops p f1 id e s) (run_type ops p f2 id e s).
  Proof.
    induction f1 as [|f1 IH]; intros f2 id e s H; [now left|]. destruct f2 as [|f2]; [lia|]. simpl.
    destruct (lookup_item p id) as [t|]; [|apply le_refl].
    apply le_body; [| |lia]; intros; [apply IH|apply le_look]; lia.
  Qed.
  Lemma le_from_xml f1 f2 id e : f1 <= f2 ->
    le_res (from_xml_with ops p f1 id e) (from_xml_with ops p f2 id e).
  Proof.
    intros H. unfold from_xml_with. destruct (lookup_item p id) as [t|]; [|apply le_refl].
    apply le_bind; [apply le_refl|]. intros x. apply le_bind; [now apply le_type|]. intros []; apply le_refl.
  Qed.
End Mono.
