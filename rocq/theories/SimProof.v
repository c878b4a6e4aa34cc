(** * SimProof: similar documents decode alike *)
From Coq Require Import Permutation.
From Verif Require Import Base Libs Xml Ast Decode Gen Run CursorSpec CursorProof GenSpec DecSpec DecSim DecProof ReadSpec RepSpec RepProof SimSpec.

Section Sim.
Context {L : Libs}.
Variable c : schema_ctx.
Variable gs : list name.
Notation sim := (similar c gs).
Notation declared := (declared c gs).

Definition sims (l l' : list xelem) : Prop := exists l1 x1 l2 x2,
  l = l1 ++ x1 /\ l' = l2 ++ x2 /\ Forall2 sim l1 l2
  /\ Forall (fun x => ~ declared (xe_tag x) (xe_ns x)) x1
  /\ Forall (fun x => ~ declared (xe_tag x) (xe_ns x)) x2.

(** The children, up to their order if that does not matter. *)
Definition shuffled (A : Prop) (l l' : list xelem) : Prop :=
  l = l' \/ (A /\ NoDup (map kid_name l) /\ Permutation l l').
Definition kids_like (A : Prop) (l l' : list xelem) : Prop := exists l2, sims l l2 /\ shuffled A l2 l'.

Lemma sim_kid_name e e' : sim e e' -> kid_name e = kid_name e'.
Proof. unfold kid_name. destruct 1; congruence. Qed.

Lemma sim_kid_names l l' : Forall2 sim l l' -> map kid_name l = map kid_name l'.
Proof. induction 1 as [|a b l l' S F IH]; simpl; [reflexivity|]. now rewrite (sim_kid_name _ _ S), IH. Qed.

Lemma sim_inv e e' : sim e e' -> xe_tag e = xe_tag e' /\ xe_ns e = xe_ns e'
  /\ (forall a, declared_attr c gs a -> d_attribute e a = d_attribute e' a)
  /\ (text_name c gs (xe_tag e) (xe_ns e) -> d_text e = d_text e')
  /\ kids_like (all_name c gs (xe_tag e) (xe_ns e)) (xe_children e) (xe_children e').
Proof.
  intros H. destruct H as [e e' l1 x1 l2 x2 A1 A2 A3 A4 A5 A6 A7 A8 A9|e e' l A1 A2 A3 A4 A5 A6 A7 A8]; repeat split; auto.
  - exists (xe_children e'). split; [|now left]. exists l1, x1, l2, x2. auto.
  - exists l. split.
    + exists (xe_children e), [], l, []. rewrite !app_nil_r. auto.
    + right. rewrite <- (sim_kid_names _ _ A7). auto.
Qed.

Lemma sim_name n ns e e' : sim e e' -> has_name n ns e = has_name n ns e'.
Proof. intros H. apply sim_inv in H. destruct H as (A & B & _). unfold has_name. now rewrite A, B. Qed.

Lemma undeclared_name n ns x : declared n ns -> ~ declared (xe_tag x) (xe_ns x) -> has_name n ns x = false.
Proof.
  intros D N. destruct (has_name n ns x) eqn:E; [|reflexivity]. apply has_name_matches in E. destruct E as [<- <-]. contradiction.
Qed.

Lemma sims_first n ns l l' : declared n ns -> sims l l' -> first_is n ns l = first_is n ns l'.
Proof.
  intros D (l1 & x1 & l2 & x2 & -> & -> & F & U1 & U2). destruct F as [|a b l1 l2 S F]; simpl.
  - assert (K : forall x, Forall (fun x => ~ declared (xe_tag x) (xe_ns x)) x -> first_is n ns x = false).
    { intros [|y x] U; [reflexivity|]. inversion U; subst. now apply undeclared_name. }
    now rewrite (K _ U1), (K _ U2).
  - now apply sim_name.
Qed.

Lemma sims_head n ns x l l' : declared n ns -> has_name n ns x = true -> sims (x :: l) l' ->
  exists x' l2, l' = x' :: l2 /\ sim x x' /\ sims l l2.
Proof.
  intros D N (l1 & x1 & l2 & x2 & E & -> & F & U1 & U2). destruct F as [|a b l1 l2 S F]; simpl in E.
  - subst x1. inversion U1; subst. rewrite (undeclared_name n ns x) in N by assumption. discriminate.
  - injection E as <- ->. exists b, (l2 ++ x2). split; [reflexivity|]. split; [exact S|].
    exists l1, x1, l2, x2. auto.
Qed.

Lemma sims_split n ns a x b l' : declared n ns -> has_name n ns x = true ->
  Forall (fun y => has_name n ns y = false) a -> sims (a ++ x :: b) l' ->
  exists a' x' b', l' = a' ++ x' :: b' /\ sim x x' /\ Forall (fun y => has_name n ns y = false) a' /\ sims (a ++ b) (a' ++ b').
Proof.
  intros D N. revert l'. induction a as [|y a IH]; intros l' Fa H.
  - destruct (sims_head _ _ _ _ _ D N H) as (x' & l2 & -> & S & H'). exists [], x', l2. auto.
  - inversion Fa as [|? ? Fy Fa']; subst. destruct H as (l1 & x1 & l2 & x2 & E & -> & F & U1 & U2).
    destruct F as [|z z' l1 l2 S F]; simpl in E.
    + exfalso. subst x1. assert (In x (y :: a ++ x :: b)) by (right; apply in_elt).
      rewrite Forall_forall in U1. specialize (U1 _ H). rewrite (undeclared_name n ns x) in N by assumption. discriminate.
    + injection E as <- E. destruct (IH (l2 ++ x2) Fa') as (a' & x' & b' & E' & S' & Fa2 & l3 & x3 & l4 & x4 & E3 & E4 & F4 & U3 & U4).
      { exists l1, x1, l2, x2. auto. }
      exists (z' :: a'), x', b'. simpl. rewrite E'. repeat split; auto.
      * constructor; [|assumption]. now rewrite <- (sim_name n ns y z').
      * exists (y :: l3), x3, (z' :: l4), x4. simpl. rewrite E3, E4. repeat split; auto.
Qed.

Lemma sims_nowhere n ns l l' : declared n ns -> Forall (fun y => has_name n ns y = false) l -> sims l l' ->
  Forall (fun y => has_name n ns y = false) l'.
Proof.
  intros D Fa (l1 & x1 & l2 & x2 & -> & -> & F & U1 & U2). apply Forall_app. split.
  - apply Forall_app in Fa. destruct Fa as [Fa _]. induction F as [|a b l1 l2 S F IH]; [constructor|].
    inversion Fa; subst. constructor; [now rewrite <- (sim_name n ns a b)|auto].
  - clear -D U2. induction U2; constructor; auto. now apply undeclared_name.
Qed.

Definition sim_out {A} (o o' : R (A * list xelem)) : Prop :=
  match o, o' with
  | Ok (v, l), Ok (v', l') => v = v' /\ sims l l'
  | Err x, Err x' => x = x'
  | _, _ => False
  end.

Lemma sim_out_map {A B} (f : A -> B) (o o' : R (A * list xelem)) : sim_out o o' ->
  sim_out (rmap (with_rest f) o) (rmap (with_rest f) o').
Proof. destruct o as [[]| | |], o' as [[]| | |]; simpl; try tauto. intros [-> S]. auto. Qed.

Definition leaf_known (f : leaf) : Prop := exists m r, In m gs /\ sc_get c m = Some r /\ In f (leaves_of r).
Definition root_known (r : root) : Prop := Forall leaf_known (leaves_of r) /\
  match r with RootElement d => Forall (fun a => declared_attr c gs (nm (a_name a))) (ed_attributes d) | _ => True end.

Lemma known_declared f ns : leaf_known f -> lf_virtual f = false -> quote_xml_namespace c (lf_name f) = Some ns ->
  declared (nm (lf_name f)) ns.
Proof. intros (m & r & I & G & If) V Q. exists m, r, f. auto 10. Qed.

Lemma known_text f ns x : leaf_known f -> lf_virtual f = false -> quote_xml_namespace c (lf_name f) = Some ns ->
  has_name (nm (lf_name f)) ns x = true -> has_text c gs (ld_content (lf_def f)) -> text_name c gs (xe_tag x) (xe_ns x).
Proof.
  intros (m & r & I & G & If) V Q N T. apply has_name_matches in N. destruct N as [-> ->]. left. exists m, r, f. auto 10.
Qed.

Lemma root_is_known m n r : type_of c gs m n r -> root_known r.
Proof.
  intros (I & G & _). split.
  - apply Forall_forall. intros f If. exists n, r. auto.
  - destruct r; auto. apply Forall_forall. intros a Ia. exists n, d, a. auto.
Qed.

Lemma look_sim :
  (forall m l b, look_group c gs m l b -> forall l', sims l l' -> look_group c gs m l' b)
  /\ (forall f l b, look_leaf c gs f l b -> leaf_known f -> forall l', sims l l' -> look_leaf c gs f l' b)
  /\ (forall fs l b, look_seq c gs fs l b -> Forall leaf_known fs -> forall l', sims l l' -> look_seq c gs fs l' b)
  /\ (forall fs l b, look_any c gs fs l b -> Forall leaf_known fs -> forall l', sims l l' -> look_any c gs fs l' b).
Proof.
  assert (GK : forall m n r, group_of c gs m n r -> Forall leaf_known (leaves_of r)).
  { intros m n r (I & G & _). apply Forall_forall. intros f If. exists n, r. auto. }
  apply look_ind.
  - intros. eapply lg_leaf; eassumption.
  - intros. eapply lg_enum; eassumption.
  - intros. eapply lg_other; eassumption.
  - intros m n d ls l b G E Lk IH l' S. eapply lg_leaves; try eassumption. apply IH; [|exact S].
    apply GK in G. simpl in G. now rewrite E in G.
  - intros m n d l b G Lk IH l' S. eapply lg_choice; try eassumption. apply IH; [|exact S]. now apply GK in G.
  - intros f m l b V Cm Lk IH K l' S. eapply ll_virtual; eauto.
  - intros f ns l V Q K l' S. rewrite (sims_first _ _ l l'); [now apply ll_plain| |exact S]. now apply known_declared.
  - intros. constructor.
  - intros f fs l Lk IH K l' S. inversion K; subst. apply ls_yes. auto.
  - intros f fs l Lk IH O K l' S. inversion K; subst. apply ls_required; auto.
  - intros f fs l b Lk IH O Lks IHs K l' S. inversion K; subst. apply ls_optional; auto.
  - intros. constructor.
  - intros f fs l Lk IH K l' S. inversion K; subst. apply la_yes. auto.
  - intros f fs l b Lk IH Lks IHs K l' S. inversion K; subst. apply la_no; auto.
Qed.

Lemma read_attr_sim a e e' o : declared_attr c gs (nm (a_name a)) -> 
  (forall a, declared_attr c gs a -> d_attribute e a = d_attribute e' a) ->
  read_attr c gs a e o -> read_attr c gs a e' o.
Proof.
  intros D A H. specialize (A _ D). inversion H; subst; rewrite A in *.
  - now apply ra_absent_opt.
  - now apply ra_absent_req.
  - eapply ra_present_opt; eassumption.
  - eapply ra_present_req; eassumption.
Qed.

Lemma read_attrs_sim ats e e' o : Forall (fun a => declared_attr c gs (nm (a_name a))) ats ->
  (forall a, declared_attr c gs a -> d_attribute e a = d_attribute e' a) ->
  read_attrs c gs ats e o -> read_attrs c gs ats e' o.
Proof.
  intros D A H. revert D A. induction H; intros D A.
  - constructor.
  - inversion D; subst. constructor. eapply read_attr_sim; eauto.
  - inversion D; subst. econstructor; eauto. eapply read_attr_sim; eauto.
Qed.

(** The element whose children are read. *)
Definition same_self (txt : Prop) (e e' : xelem) : Prop :=
  (forall a, declared_attr c gs a -> d_attribute e a = d_attribute e' a) /\ (txt -> d_text e = d_text e').

Lemma self_weaken (t t' : Prop) e e' : (t' -> t) -> same_self t e e' -> same_self t' e e'.
Proof. intros W [A B]. split; auto. Qed.

Lemma known_all f ns x : leaf_known f -> lf_virtual f = false -> quote_xml_namespace c (lf_name f) = Some ns ->
  has_name (nm (lf_name f)) ns x = true -> all_name c gs (xe_tag x) (xe_ns x) -> all_content c gs (ld_content (lf_def f)).
Proof.
  intros (m & r & I & G & If) V Q N [T _]. apply has_name_matches in N. destruct N as [E1 E2]. rewrite E1, E2 in T. eauto.
Qed.

Lemma kids_weaken (t t' : Prop) l l' : (t -> t') -> kids_like t l l' -> kids_like t' l l'.
Proof. intros W (l2 & S & [E|(H & N & P)]); exists l2; split; auto; [now left|right; auto]. Qed.

Lemma sim_self f ns x x' : leaf_known f -> lf_virtual f = false -> quote_xml_namespace c (lf_name f) = Some ns ->
  has_name (nm (lf_name f)) ns x = true -> sim x x' ->
  same_self (has_text c gs (ld_content (lf_def f))) x x'
  /\ kids_like (all_content c gs (ld_content (lf_def f))) (xe_children x) (xe_children x').
Proof.
  intros K V Q N S. apply sim_inv in S. destruct S as (_ & _ & A & T & Sc). split.
  - split; [exact A|]. intros H. apply T. eapply known_text; eassumption.
  - eapply kids_weaken; [|exact Sc]. intros H. eapply known_all; eassumption.
Qed.

Ltac deq := match goal with |- context [if ?b then _ else _] => destruct b end.

Lemma text_out (g : string -> R value) e e' l l' : (forall s, fin (g s)) -> d_text e = d_text e' -> sims l l' ->
  sim_out (s <- d_text e ;; v <- g s ;; Ok (v, l)) (s <- d_text e' ;; v <- g s ;; Ok (v, l')).
Proof.
  intros Fg -> S. assert (Ft : fin (d_text e')) by (unfold d_text; destruct (xe_kids e') as [|[]]; exact I).
  destruct (d_text e') as [s| | |]; simpl; try contradiction; [|reflexivity].
  specialize (Fg s). destruct (g s); simpl; try contradiction; auto.
Qed.

Lemma enum_fin vs s : fin (enum_from_str vs s).
Proof. induction vs as [|[v lit] vs IH]; simpl; [exact I|]. destruct (s =?s lit); [exact I|exact IH]. Qed.

Lemma sim_out_ok {A} (v : A) l o' : sim_out (Ok (v, l)) o' -> exists l', o' = Ok (v, l') /\ sims l l'.
Proof. destruct o' as [[]| | |]; simpl; try tauto. intros [-> S]. eauto. Qed.
Lemma sim_out_err {A} x (o' : R (A * list xelem)) : sim_out (Err x) o' -> o' = Err x.
Proof. destruct o' as [[]| | |]; simpl; try tauto. now intros ->. Qed.
Lemma sim_out_fst {A} (o o' : R (A * list xelem)) : sim_out o o' -> rmap fst o = rmap fst o'.
Proof. destruct o as [[]| | |], o' as [[]| | |]; simpl; try tauto; try congruence. intros [-> _]. reflexivity. Qed.

Lemma sub_out {A} (o : R A) (f : A -> value) l l' : fin o -> sims l l' ->
  sim_out (rmap (fun v => (f v, l)) o) (rmap (fun v => (f v, l')) o).
Proof. intros F S. destruct o; simpl in *; auto; contradiction. Qed.

Lemma read_fin :
  (forall ct e l o, read_content c gs ct e l o -> fin o)
  /\ (forall ct x o, read_sub c gs ct x o -> fin o)
  /\ (forall n r e l o, read_root c gs n r e l o -> fin o)
  /\ (forall ec e l o, read_fields c gs ec e l o -> fin o)
  /\ (forall ls e l o, read_leaves c gs ls e l o -> fin o)
  /\ (forall f e l o, read_leaf c gs f e l o -> fin o)
  /\ (forall m e l o, read_groups c gs m e l o -> fin o)
  /\ (forall n ns ct l o, read_run c gs n ns ct l o -> fin o)
  /\ (forall n vs e l o, read_choice c gs n vs e l o -> fin o).
Proof.
  assert (M : forall A B (f : A -> B) (o : R A), fin o -> fin (rmap f o)) by (intros A B f []; simpl; auto).
  apply read_ind; intros; auto; try exact I.
  - unfold d_text. destruct (xe_kids e) as [|[]]; simpl; try exact I; unfold lit_from_str; destruct (prim_from_str _ _); exact I.
  - unfold d_text. destruct (xe_kids e) as [|[]]; simpl; try exact I; deq; exact I.
  - unfold d_text. destruct (xe_kids e) as [|[]]; simpl; try exact I;
      match goal with |- fin (bind (enum_from_str ?v ?s) _) => pose proof (enum_fin v s); destruct (enum_from_str v s); auto end.
  - assert (Fa : fin oa).
    { match goal with Ra : read_attrs _ _ _ _ _ |- _ => clear -Ra M; induction Ra as [| |a ats e f v o R Ef Rs IH]; try exact I; now apply M end. }
    destruct oa; simpl in *; auto.
Qed.

Lemma read_sub_fin ct x o : read_sub c gs ct x o -> fin o.
Proof. destruct read_fin as (_ & H & _). apply H. Qed.

(** The members of an xs:all are found in any order. *)
Lemma split_perm n ns l1 x l2 l' : Permutation (l1 ++ x :: l2) l' -> NoDup (map kid_name (l1 ++ x :: l2)) ->
  has_name n ns x = true -> exists a b, l' = a ++ x :: b /\ Forall (fun y => has_name n ns y = false) a
    /\ Permutation (l1 ++ l2) (a ++ b) /\ NoDup (map kid_name (l1 ++ l2)).
Proof.
  intros P N H. destruct (in_split x l') as (a & b & ->); [apply (Permutation_in _ P), in_elt|].
  exists a, b. assert (N' : NoDup (map kid_name (a ++ x :: b))) by (eapply Permutation_NoDup; [apply Permutation_map, P|exact N]).
  repeat split.
  - apply Forall_forall. intros y Iy. destruct (has_name n ns y) eqn:E; [|reflexivity]. exfalso.
    apply has_name_matches in E, H. rewrite map_app in N'. simpl in N'. apply NoDup_remove_2 in N'. apply N'.
    apply in_or_app. left. apply in_map_iff. exists y. split; [|exact Iy]. unfold kid_name. destruct E, H. congruence.
  - apply (Permutation_app_inv _ _ _ _ _ P).
  - rewrite map_app in *. simpl in N. now apply NoDup_remove_1 in N.
Qed.

Definition perm_out {A} (o o' : R (A * list xelem)) : Prop :=
  match o, o' with
  | Ok (v, l), Ok (v', l') => v = v' /\ Permutation l l' /\ NoDup (map kid_name l)
  | Err x, Err x' => x = x'
  | _, _ => False
  end.

Lemma perm_out_map {A B} (f : A -> B) (o o' : R (A * list xelem)) : perm_out o o' ->
  perm_out (rmap (with_rest f) o) (rmap (with_rest f) o').
Proof. destruct o as [[]| | |], o' as [[]| | |]; simpl; try tauto. intros (-> & S). auto. Qed.
Lemma perm_out_fst {A} (o o' : R (A * list xelem)) : perm_out o o' -> rmap fst o = rmap fst o'.
Proof. destruct o as [[]| | |], o' as [[]| | |]; simpl; try tauto; try congruence. intros [-> _]. reflexivity. Qed.

Lemma leaf_perm f e l o : all_leaf f -> read_leaf c gs f e l o -> forall l', Permutation l l' -> NoDup (map kid_name l) ->
  exists o', read_leaf c gs f e l' o' /\ perm_out o o'.
Proof.
  intros (Pl & Si & Re & An) H l' P N. unfold plain, single, required, anywhere in *.
  destruct H; try congruence.
  - eexists. split; [eapply rl_nowhere; eauto|reflexivity]. rewrite Forall_forall in *. intros y Iy.
    apply H4. eapply Permutation_in; [apply Permutation_sym|]; eassumption.
  - destruct (split_perm _ _ _ _ _ _ P N H5) as (a & b & -> & Fa & P' & N').
    eexists. split; [eapply rl_anywhere; eauto|].
    apply read_sub_fin in H6. destruct o; simpl in *; auto; contradiction.
Qed.

Lemma leaves_perm ls e l o : read_leaves c gs ls e l o -> Forall all_leaf ls -> forall l', Permutation l l' -> NoDup (map kid_name l) ->
  exists o', read_leaves c gs ls e l' o' /\ perm_out o o'.
Proof.
  revert l o. induction ls as [|f ls IH]; intros l o H F l' P N.
  - inversion H; subst. eexists. split; [constructor|simpl; auto].
  - inversion F as [|? ? Ff Fls]; subst. inversion H as [|? ? ? ? x R|? ? ? ? l1 i v o2 R Ef Rs]; subst.
    + destruct (leaf_perm _ _ _ _ Ff R l' P N) as (o' & R' & Po). destruct o' as [[]| | |]; try contradiction. simpl in Po. subst.
      eexists. split; [apply rv_err; eassumption|reflexivity].
    + destruct (leaf_perm _ _ _ _ Ff R l' P N) as (o' & R' & Po). destruct o' as [[v' l1']| | |]; try contradiction.
      destruct Po as (<- & P1 & N1). destruct (IH _ _ Rs Fls _ P1 N1) as (o3 & R3 & Po3).
      eexists. split; [eapply rv_cons; eassumption|now apply perm_out_map].
Qed.

Lemma root_perm n r e l o : read_root c gs n r e l o -> all_root r -> forall l', Permutation l l' -> NoDup (map kid_name l) ->
  exists o', read_root c gs n r e l' o' /\ rmap fst o = rmap fst o'.
Proof.
  intros H (d & ls & -> & E & F) l' P N. inversion H; subst; rewrite E in *;
    match goal with Hf : read_fields _ _ _ _ _ _ |- _ => inversion Hf; subst end;
    match goal with Hl : read_leaves _ _ _ _ _ _ |- _ => destruct (leaves_perm _ _ _ _ Hl F l' P N) as (o' & R' & Po) end.
  - destruct o' as [[]| | |]; try contradiction. simpl in Po. subst.
    eexists. split; [apply rr_element_err; rewrite E; apply rf_leaves; eassumption|reflexivity].
  - destruct o' as [[v' l2]| | |]; try contradiction. destruct Po as (<- & _).
    eexists. split; [eapply rr_element; [rewrite E; apply rf_leaves; eassumption|eassumption]|]. destruct oa; reflexivity.
Qed.

Lemma content_perm ct e l o : read_content c gs ct e l o -> all_content c gs ct -> forall l', Permutation l l' ->
  NoDup (map kid_name l) -> exists o', read_content c gs ct e l' o' /\ rmap fst o = rmap fst o'.
Proof.
  intros H [(m & Fm) U] l' P N. inversion H as [? ? ? ? F|? ? ? ? F|? m' n' r' ? ? ? F T R]; subst.
  - pose proof (final_det _ _ _ _ F Fm). discriminate.
  - pose proof (final_det _ _ _ _ F Fm). discriminate.
  - destruct (root_perm _ _ _ _ _ R (U _ _ _ F T) l' P N) as (o' & R' & E).
    exists o'. split; [eapply rc_named; eassumption|exact E].
Qed.

Lemma content_shuffled ct e l o l' : read_content c gs ct e l o -> shuffled (all_content c gs ct) l l' ->
  exists o', read_content c gs ct e l' o' /\ rmap fst o = rmap fst o'.
Proof. intros H [->|(A & N & P)]; eauto using content_perm. Qed.

Lemma fst_map {A B} (f : A -> B) (o o' : R (A * list xelem)) : rmap fst o = rmap fst o' ->
  rmap fst (rmap (with_rest f) o) = rmap fst (rmap (with_rest f) o').
Proof. destruct o as [[]| | |], o' as [[]| | |]; simpl; congruence. Qed.

Lemma root_shuffled n r e l o l' : read_root c gs n r e l o ->
  shuffled (all_root r \/ exists d, r = RootLeaf d /\ all_content c gs (ld_content d)) l l' ->
  exists o', read_root c gs n r e l' o' /\ rmap fst o = rmap fst o'.
Proof.
  intros H [->|([A|(d & -> & A)] & N & P)]; eauto using root_perm.
  inversion H; subst. match goal with Hc : read_content _ _ _ _ _ _ |- _ => destruct (content_perm _ _ _ _ Hc A l' P N) as (o' & R' & E) end.
  eexists. split; [apply rr_leaf; eassumption|now apply fst_map].
Qed.

Lemma read_sim :
  (forall ct e l o, read_content c gs ct e l o -> forall e' l',
     same_self (has_text c gs ct) e e' -> sims l l' -> exists o', read_content c gs ct e' l' o' /\ sim_out o o')
  /\ (forall ct x o, read_sub c gs ct x o -> forall x',
     same_self (has_text c gs ct) x x' -> kids_like (all_content c gs ct) (xe_children x) (xe_children x') -> read_sub c gs ct x' o)
  /\ (forall n r e l o, read_root c gs n r e l o -> root_known r -> forall e' l',
     same_self (root_text c gs r) e e' -> sims l l' -> exists o', read_root c gs n r e' l' o' /\ sim_out o o')
  /\ (forall ec e l o, read_fields c gs ec e l o -> forall d, ec = ed_content d -> root_known (RootElement d) -> forall e' l',
     same_self (root_text c gs (RootElement d)) e e' -> sims l l' -> exists o', read_fields c gs ec e' l' o' /\ sim_out o o')
  /\ (forall ls e l o, read_leaves c gs ls e l o -> Forall leaf_known ls -> forall e' l',
     same_self (exists f, In f ls /\ lf_virtual f = true /\ has_text c gs (ld_content (lf_def f))) e e' -> sims l l' ->
     exists o', read_leaves c gs ls e' l' o' /\ sim_out o o')
  /\ (forall f e l o, read_leaf c gs f e l o -> leaf_known f -> forall e' l',
     same_self (lf_virtual f = true /\ has_text c gs (ld_content (lf_def f))) e e' -> sims l l' ->
     exists o', read_leaf c gs f e' l' o' /\ sim_out o o')
  /\ (forall m e l o, read_groups c gs m e l o -> forall e' l',
     same_self (has_text c gs (LcNamed m)) e e' -> sims l l' -> exists o', read_groups c gs m e' l' o' /\ sim_out o o')
  /\ (forall n ns ct l o, read_run c gs n ns ct l o -> declared n ns ->
     (forall x x', has_name n ns x = true -> sim x x' -> same_self (has_text c gs ct) x x'
        /\ kids_like (all_content c gs ct) (xe_children x) (xe_children x')) ->
     forall l', sims l l' -> exists o', read_run c gs n ns ct l' o' /\ sim_out o o')
  /\ (forall n vs e l o, read_choice c gs n vs e l o -> Forall leaf_known vs -> forall e' l',
     same_self (exists f, In f vs /\ lf_virtual f = true /\ has_text c gs (ld_content (lf_def f))) e e' -> sims l l' ->
     exists o', read_choice c gs n vs e' l' o' /\ sim_out o o').
Proof.
  destruct look_sim as [LG _]. apply read_ind.
  - (* content *)
    intros ct lit e l F e' l' [_ T] S. eexists. split; [apply rc_lit; eassumption|].
    apply (text_out (lit_from_str lit)); auto.
    + intros s. unfold lit_from_str. destruct (prim_from_str _ _); exact I.
    + apply T. eapply ht_lit; eassumption.
  - intros ct s e l F e' l' [_ T] S. eexists. split; [apply rc_fixed; eassumption|].
    rewrite T by (eapply ht_fixed; eassumption). unfold d_text. destruct (xe_kids e') as [|[]]; simpl; auto.
    + deq; simpl; auto.
    + deq; simpl; auto.
  - intros ct m n r e l o F T R IH e' l' Sf S. destruct (IH (root_is_known _ _ _ T) e' l') as (o' & R' & So); auto.
    { eapply self_weaken; [|exact Sf]. intros H. eapply ht_named; eassumption. }
    exists o'. split; [eapply rc_named; eassumption|exact So].
  - (* sub *)
    intros ct x o R IH x' Sf (l2 & S & Sh). destruct (IH x' _ Sf S) as (o' & R' & So).
    destruct (content_shuffled _ _ _ _ _ R' Sh) as (o2 & R2 & E2).
    rewrite (sim_out_fst _ _ So), E2. now apply rb_sub.
  - (* root *)
    intros n d e l o R IH K e' l' Sf S. destruct (IH e' l') as (o' & R' & So); auto.
    { eapply self_weaken; [|exact Sf]. apply rt_leaf. }
    eexists. split; [apply rr_leaf; eassumption|now apply sim_out_map].
  - intros n names vs e l Ev K e' l' [_ T] S. eexists. split; [apply rr_enum; eassumption|].
    apply (text_out (enum_from_str vs)); auto using enum_fin, rt_enum.
  - intros n d e l x R IH K e' l' Sf S. destruct (IH d eq_refl K e' l' Sf S) as (o' & R' & So).
    apply sim_out_err in So. subst. eexists. split; [apply rr_element_err; eassumption|reflexivity].
  - intros n d e l l1 vs oa R IH Ra K e' l' Sf S. destruct (IH d eq_refl K e' l' Sf S) as (o' & R' & So).
    apply sim_out_ok in So. destruct So as (l1' & -> & S1). destruct K as [K1 K2]. destruct Sf as [Sa _].
    pose proof (read_attrs_sim _ _ _ _ K2 Sa Ra) as Ra'.
    eexists. split; [eapply rr_element; eassumption|].
    assert (Fa : fin oa). { clear -Ra. induction Ra as [|? ? ? ? ?|a ats e f v o R Ef Rs IH]; try exact I. destruct o; try contradiction; exact I. }
    destruct oa; simpl in *; auto; contradiction.
  - intros n d e l o R IH [K _] e' l' Sf S. destruct (IH K e' l') as (o' & R' & So); auto.
    { eapply self_weaken; [|exact Sf]. intros (f & If & V & T). eapply rt_group; eauto. }
    exists o'. split; [now apply rr_choice|exact So].
  - (* fields *)
    intros e l d E K e' l' Sf S. eexists. split; [apply rf_none|]. simpl. auto.
  - intros n ld f e l o Ef R IH d E K e' l' Sf S. destruct (IH e' l') as (o' & R' & So); auto.
    { eapply self_weaken; [|exact Sf]. eapply rt_simple. symmetry. eassumption. }
    eexists. split; [apply rf_leaf; eassumption|now apply sim_out_map].
  - intros ls e l o R IH d E [K _] e' l' Sf S. simpl in K. rewrite <- E in K.
    destruct (IH K e' l') as (o' & R' & So); auto.
    { eapply self_weaken; [|exact Sf]. intros (f & If & V & T). eapply rt_group; eauto. simpl. now rewrite <- E. }
    exists o'. split; [now apply rf_leaves|exact So].
  - (* leaves *)
    intros e l K e' l' Sf S. eexists. split; [apply rv_nil|]. simpl. auto.
  - intros f fs e l x R IH K e' l' Sf S. inversion K; subst. destruct (IH H1 e' l') as (o' & R' & So); auto.
    { eapply self_weaken; [|exact Sf]. intros [V T]. exists f. simpl. auto. }
    apply sim_out_err in So. subst. eexists. split; [apply rv_err; eassumption|reflexivity].
  - intros f fs e l l1 i v o R IH Ef Rs IHs K e' l' Sf S. inversion K; subst. destruct (IH H1 e' l') as (o' & R' & So); auto.
    { eapply self_weaken; [|exact Sf]. intros [V T]. exists f. simpl. auto. }
    apply sim_out_ok in So. destruct So as (l1' & -> & S1). destruct (IHs H2 e' l1') as (o2 & R2 & So2); auto.
    { eapply self_weaken; [|exact Sf]. intros (f' & If' & X). exists f'. simpl. auto. }
    eexists. split; [eapply rv_cons; eassumption|now apply sim_out_map].
  - (* leaf: groups *)
    intros f e l o V Ve O R IH K e' l' Sf S. destruct (IH e' l') as (o' & R' & So); auto.
    { eapply self_weaken; [|exact Sf]. auto. }
    exists o'. split; [now apply rl_group|exact So].
  - intros f m e l V Ve O Cm Lk K e' l' Sf S. eexists. split; [eapply rl_group_no; eauto|]. simpl. auto.
  - intros f m e l o V Ve O Cm Lk R IH K e' l' Sf S. destruct (IH e' l') as (o' & R' & So); auto.
    { eapply self_weaken; [|exact Sf]. auto. }
    eexists. split; [eapply rl_group_yes; eauto|now apply sim_out_map].
  - intros f m e l o V Ve Cm R IH K e' l' Sf S. destruct (IH e' l') as (o' & R' & So); auto.
    { eapply self_weaken; [|exact Sf]. rewrite Cm. auto. }
    eexists. split; [eapply rl_groups; eauto|now apply sim_out_map].
  - (* leaf: elements *)
    intros f ns e l o V Ve Q R IH K e' l' Sf S.
    destruct (IH (known_declared _ _ K V Q) (fun x x' N Sx => sim_self f ns x x' K V Q N Sx) l' S) as (o' & R' & So).
    eexists. split; [eapply rl_run; eauto|now apply sim_out_map].
  - intros f ns e l V Ve O Q N K e' l' Sf S. eexists. split; [eapply rl_optional_no; eauto|simpl; auto].
    rewrite <- (sims_first _ _ l l'); auto using known_declared.
  - intros f ns e x l o V Ve O Q N R IH K e' l' Sf S.
    destruct (sims_head _ _ _ _ _ (known_declared _ _ K V Q) N S) as (x' & l2 & -> & Sx & S2).
    destruct (sim_self f ns x x' K V Q N Sx) as [Ss Sc]. specialize (IH x' Ss Sc).
    eexists. split; [eapply rl_optional_yes; eauto|].
    + now rewrite <- (sim_name _ _ x x').
    + apply sub_out; [eapply read_sub_fin; eassumption|exact S2].
  - intros f ns e l V Ve O U Q N K e' l' Sf S. eexists. split; [eapply rl_missing; eauto|reflexivity].
    rewrite <- (sims_first _ _ l l'); auto using known_declared.
  - intros f ns e x l o V Ve O U Q N R IH K e' l' Sf S.
    destruct (sims_head _ _ _ _ _ (known_declared _ _ K V Q) N S) as (x' & l2 & -> & Sx & S2).
    destruct (sim_self f ns x x' K V Q N Sx) as [Ss Sc]. specialize (IH x' Ss Sc).
    eexists. split; [eapply rl_next; eauto|].
    + now rewrite <- (sim_name _ _ x x').
    + apply (sub_out o (fun v => v)); [eapply read_sub_fin; eassumption|exact S2].
  - intros f ns e l V Ve O U Q N K e' l' Sf S. eexists. split; [eapply rl_nowhere; eauto|reflexivity].
    eapply sims_nowhere; eauto using known_declared.
  - intros f ns e l1 x l2 o V Ve O U Q Fa N R IH K e' l' Sf S.
    destruct (sims_split _ _ _ _ _ _ (known_declared _ _ K V Q) N Fa S) as (a' & x' & b' & -> & Sx & Fa' & S2).
    destruct (sim_self f ns x x' K V Q N Sx) as [Ss Sc]. specialize (IH x' Ss Sc).
    eexists. split; [eapply rl_anywhere; eauto|].
    + now rewrite <- (sim_name _ _ x x').
    + apply (sub_out o (fun v => v)); [eapply read_sub_fin; eassumption|exact S2].
  - (* groups *)
    intros m e l Lk e' l' Sf S. eexists. split; [apply rg_stop; eauto|simpl; auto].
  - intros m e l x Lk R IH e' l' Sf S. destruct (IH e' l' Sf S) as (o' & R' & So). apply sim_out_err in So. subst.
    eexists. split; [apply rg_err; eauto|reflexivity].
  - intros m e l l1 v o Lk R IH Rs IHs e' l' Sf S. destruct (IH e' l' Sf S) as (o' & R' & So).
    apply sim_out_ok in So. destruct So as (l1' & -> & S1). destruct (IHs e' l1' Sf S1) as (o2 & R2 & So2).
    eexists. split; [eapply rg_more; eauto|now apply sim_out_map].
  - (* run *)
    intros n ns ct l N D H l' S. eexists. split; [apply ru_stop|simpl; auto]. now rewrite <- (sims_first _ _ l l').
  - intros n ns ct x l y N R IH D H l' S.
    destruct (sims_head _ _ _ _ _ D N S) as (x' & l2 & -> & Sx & S2). destruct (H _ _ N Sx) as [Ss Sc].
    eexists. split; [apply ru_err; [now rewrite <- (sim_name _ _ x x')|now apply IH]|reflexivity].
  - intros n ns ct x l v o N R IH Rs IHs D H l' S.
    destruct (sims_head _ _ _ _ _ D N S) as (x' & l2 & -> & Sx & S2). destruct (H _ _ N Sx) as [Ss Sc].
    destruct (IHs D H l2 S2) as (o' & R' & So).
    eexists. split; [apply ru_more; [now rewrite <- (sim_name _ _ x x')|now apply IH|eassumption]|now apply sim_out_map].
  - (* choice *)
    intros n id e l Ei K e' l' Sf S. eexists. split; [apply rh_none; eassumption|reflexivity].
  - intros n f fs m e l o V Cm Lk R IH K e' l' Sf S. inversion K; subst. destruct (IH H2 e' l') as (o' & R' & So); auto.
    { eapply self_weaken; [|exact Sf]. intros (f' & If' & X). exists f'. simpl. auto. }
    exists o'. split; [eapply rh_group_no; eauto|exact So].
  - intros n f fs m i e l o V Cm Lk Ei R IH K e' l' Sf S. destruct (IH e' l') as (o' & R' & So); auto.
    { eapply self_weaken; [|exact Sf]. intros T. exists f. rewrite Cm. simpl. auto. }
    eexists. split; [eapply rh_group; eauto|now apply sim_out_map].
  - intros n f fs ns e l o V Q N R IH K e' l' Sf S. inversion K; subst. destruct (IH H2 e' l') as (o' & R' & So); auto.
    { eapply self_weaken; [|exact Sf]. intros (f' & If' & X). exists f'. simpl. auto. }
    exists o'. split; [eapply rh_elem_no; eauto|exact So]. rewrite <- (sims_first _ _ l l'); auto using known_declared.
  - intros n f fs ns i e l o V Q Ve N Ei R IH K e' l' Sf S. inversion K; subst.
    destruct (IH (known_declared _ _ H1 V Q) (fun x x' N Sx => sim_self f ns x x' H1 V Q N Sx) l' S) as (o' & R' & So).
    eexists. split; [eapply rh_run; eauto|now apply sim_out_map]. rewrite <- (sims_first _ _ l l'); auto using known_declared.
  - intros n f fs ns i e x l o V Q Ve N Ei R IH K e' l' Sf S. inversion K; subst.
    destruct (sims_head _ _ _ _ _ (known_declared _ _ H1 V Q) N S) as (x' & l2 & -> & Sx & S2).
    destruct (sim_self f ns x x' H1 V Q N Sx) as [Ss Sc]. specialize (IH x' Ss Sc).
    eexists. split; [eapply rh_elem; eauto|].
    + now rewrite <- (sim_name _ _ x x').
    + apply sub_out; [eapply read_sub_fin; eassumption|exact S2].
Qed.

Lemma read_doc_similar n e e' o : sim e e' -> read_doc c gs n e o -> read_doc c gs n e' o.
Proof.
  intros S H. inversion H as [? ns ? I Q N|? ns r ? o' I Q N G R]; subst.
  - apply rd_other; auto. now rewrite <- (sim_name _ _ e e').
  - destruct read_sim as (_ & _ & RR & _). pose proof (sim_inv _ _ S) as (_ & _ & A & T & l2 & Sc & Sh).
    apply has_name_matches in N as N'. destruct N' as [N1 N2].
    destruct (RR _ _ _ _ _ R) with (e' := e') (l' := l2) as (o2 & R2 & So).
    + split; [apply Forall_forall; intros f If; exists n, r; auto|]. destruct r; auto.
      apply Forall_forall. intros a Ia. exists n, d, a. auto.
    + split; [exact A|]. intros Rt. apply T. right. exists n, r. rewrite N1, N2. auto.
    + exact Sc.
    + destruct (root_shuffled _ _ _ _ _ (xe_children e') R2) as (o3 & R3 & E3).
      * destruct Sh as [E|([_ U] & Nd & P)]; [now left|right]. rewrite N1, N2 in U. split; [|auto]. eauto.
      * rewrite (sim_out_fst _ _ So), E3. eapply rd_root; eauto. now rewrite <- (sim_name _ _ e e').
Qed.

Lemma shuffle_swap (P : xelem -> xelem -> Prop) l a b : Forall2 P l a -> Permutation l b -> exists a', Forall2 P b a' /\ Permutation a' a.
Proof.
  intros F Pm. revert a F. induction Pm as [|x l b Pm IH|x y l|l b b2 P1 IH1 P2 IH2]; intros a F.
  - inversion F; subst. exists []. auto.
  - inversion F as [|? z ? a0 Hx F0]; subst. destruct (IH _ F0) as (a' & F' & P'). exists (z :: a'). auto.
  - inversion F as [|? z ? a0 Hx F0]; subst. inversion F0 as [|? z2 ? a1 Hx2 F1]; subst.
    exists (z2 :: z :: a1). split; [auto|apply perm_swap].
  - destruct (IH1 _ F) as (a1 & F1 & Q1). destruct (IH2 _ F1) as (a2 & F2 & Q2). exists a2. split; [exact F2|now rewrite Q2].
Qed.

Lemma similar_sym : forall e e', sim e e' -> sim e' e.
Proof.
  fix IH 3. intros e e' [e0 e0' l1 x1 l2 x2 A1 A2 A3 A4 A5 A6 A7 A8 A9|e0 e0' l A1 A2 A3 A4 A5 A6 A7 A8].
  - refine (similar_intro c gs e0' e0 l2 x2 l1 x1 _ _ _ _ A6 A5 _ A9 A8).
    + now symmetry.
    + now symmetry.
    + intros a D. symmetry. now apply A3.
    + intros T. symmetry. apply A4. rewrite A1, A2. exact T.
    + clear -IH A7. induction A7; constructor; [now apply IH|assumption].
  - assert (F : Forall2 sim l (xe_children e0)).
    { clear -IH A7. induction A7; constructor; [now apply IH|assumption]. }
    assert (N : NoDup (map kid_name (xe_children e0'))).
    { clear IH F. eapply Permutation_NoDup; [apply Permutation_map, A8|]. now rewrite <- (sim_kid_names _ _ A7). }
    clear IH A7. destruct (shuffle_swap _ _ _ _ F A8) as (l' & F' & P').
    refine (similar_all c gs e0' e0 l' _ _ _ _ _ N F' P').
    + now symmetry.
    + now symmetry.
    + intros a D. symmetry. now apply A3.
    + intros T. symmetry. apply A4. rewrite A1, A2. exact T.
    + now rewrite <- A1, <- A2.
Qed.

Lemma similar_refl : forall e, sim e e.
Proof.
  fix IH 1. intros [t ns ats ss r ks]. refine (similar_intro c gs _ _ (elems_of ks) [] (elems_of ks) [] _ _ _ _ _ _ _ _ _); simpl; auto.
  - now rewrite app_nil_r.
  - now rewrite app_nil_r.
  - clear -IH. induction ks as [|[x|s|s] ks IHk]; simpl; auto.
Qed.

Lemma more_attrs_same a ats ats' : declared_attr c gs a -> more_attrs c gs ats ats' ->
  rox_attribute ats a = rox_attribute ats' a.
Proof.
  intros D. induction 1 as [|b l l' M IH|b l l' N M IH]; simpl; auto.
  - now rewrite IH.
  - destruct (String.eqb_spec (at_name b) a) as [E|E]; simpl; auto.
    destruct (opt_eqb String.eqb (at_ns b) None) eqn:E2; auto. exfalso.
    apply (opt_eqb_eq String.eqb String.eqb_eq) in E2. destruct N; [contradiction|]. subst. contradiction.
Qed.

Lemma extended_similar : (forall e e', extended c gs e e' -> sim e e')
  /\ (forall ks ks', ext_kids c gs ks ks' -> Forall2 sim (elems_of ks) (elems_of ks')
       /\ match ks, ks' with
          | [], [] => True | KElem _ :: _, KElem _ :: _ => True
          | KText s :: _, KText s' :: _ => s = s' | KOther _ :: _, KOther _ :: _ => True
          | _, _ => False
          end).
Proof.
  apply extended_ind2.
  - intros t ns ats ats' ss r ks ks' extra M K [F H] U T.
    refine (similar_intro c gs _ _ (elems_of ks) [] (elems_of ks') (elems_of extra) _ _ _ _ _ _ _ _ _); simpl; auto.
    + intros a D. unfold d_attribute. simpl. eapply more_attrs_same; eassumption.
    + intros Tn. specialize (T Tn). unfold d_text. simpl.
      destruct ks as [|[] ks], ks' as [|[] ks']; try contradiction; simpl; try reflexivity.
      * rewrite T; reflexivity.
      * congruence.
    + now rewrite app_nil_r.
    + unfold xe_children. simpl. apply elems_of_app.
  - split; [constructor|exact I].
  - intros x x' ks ks' E IHx K [IH _]. split; [simpl; auto|exact I].
  - intros s ks ks' K [IH _]. split; [exact IH|reflexivity].
  - intros s ks ks' K [IH _]. split; [exact IH|exact I].
Qed.

Lemma relaid_similar : (forall e e', relaid c gs e e' -> sim e e')
  /\ (forall ks ks', relaid_kids c gs ks ks' -> Forall2 sim (elems_of ks) (elems_of ks')).
Proof.
  apply relaid_ind2.
  - apply similar_refl.
  - intros t ns ats ss r ks ks' N K F.
    refine (similar_intro c gs _ _ (elems_of ks) [] (elems_of ks') [] _ _ _ _ _ _ _ _ _); simpl; auto.
    + intros T. contradiction.
    + now rewrite app_nil_r.
    + now rewrite app_nil_r.
  - constructor.
  - intros. simpl. auto.
  - intros [x|s|s] ks ks' N K F; [exfalso; now apply (N x)|exact F|exact F].
  - intros [x|s|s] ks ks' N K F; [exfalso; now apply (N x)|exact F|exact F].
Qed.

Lemma reordered_similar : forall e e', reordered c gs e e' -> sim e e'.
Proof.
  fix IH 3. intros e e' [e0|t ns ats ss r ks ks' F T|t ns ats ss r ks ks' l A N F P T].
  - apply similar_refl.
  - refine (similar_intro c gs _ _ (elems_of ks) [] (elems_of ks') [] _ _ _ _ _ _ _ _ _); auto;
      try (unfold xe_children; simpl; now rewrite app_nil_r).
    clear -IH F. induction F; constructor; [now apply IH|assumption].
  - refine (similar_all c gs _ _ l _ _ _ _ _ _ _ _); auto.
    unfold xe_children. cbn [xe_kids]. clear -IH F. induction F; constructor; [now apply IH|assumption].
Qed.
End Sim.

Lemma similar_agree {L : Libs} gfuel c gs p n id e e' : generated gfuel c gs p -> In n gs -> type_ident n = Ok id ->
  similar c gs e e' -> agree p id e e'.
Proof.
  intros [Hp Hnd] I Ei S o Fo. split; intros (fuel & H).
  - pose proof (read_doc_sound c gfuel gs p Hp Hnd _ _ _ _ _ I Ei H Fo) as R.
    destruct (read_doc_complete c gfuel gs p Hp Hnd _ _ _ _ Ei (read_doc_similar c gs _ _ _ _ S R)) as (N & E).
    exists N. apply E. auto.
  - pose proof (read_doc_sound c gfuel gs p Hp Hnd _ _ _ _ _ I Ei H Fo) as R.
    destruct (read_doc_complete c gfuel gs p Hp Hnd _ _ _ _ Ei (read_doc_similar c gs _ _ _ _ (similar_sym c gs _ _ S) R)) as (N & E).
    exists N. apply E. auto.
Qed.
