(** * DecProof1: single fields, choices, attributes *)
From Coq Require Import Permutation.
From Verif Require Import Base Libs Xml Ast Parse Decode Gen Run CursorSpec CursorProof GenSpec GenProof1
  DecSpec DecSim DecProof ReadSpec.

Lemma remaining_left s : remaining s = left s.
Proof. unfold remaining, left. destruct (ch_next s); reflexivity. Qed.

Lemma first_is_not n ns l : first_is n ns l = false <-> next_is_not n ns l.
Proof.
  unfold next_is_not. destruct l as [|x l]; simpl; split.
  - intros _ y l' E. discriminate.
  - reflexivity.
  - intros H y l' E. injection E as <- <-. now apply has_name_not.
  - intros H. apply has_name_not. eapply H. reflexivity.
Qed.

Lemma next_real n ns s :
  (next_is_not n ns (remaining s) -> exists s', next_child n ns s = (None, s') /\ remaining s' = remaining s)
  /\ (forall x l, next_is n ns (remaining s) x l -> exists s', next_child n ns s = (Some x, s') /\ remaining s' = l).
Proof.
  rewrite remaining_left. pose proof (left_next n ns s) as H. destruct (next_child n ns s) as [o s']. split.
  - intros N. destruct H as [E1 E2]. simpl in E1, E2. exists s'. rewrite remaining_left.
    apply first_is_not in N. unfold list_next in *. destruct (left s) as [|x l]; simpl in *; [subst; auto|].
    rewrite N in *. simpl in *. subst. auto.
  - intros x l [E M]. rewrite E in H. unfold list_next in H. apply has_name_matches in M. rewrite M in H.
    destruct H as [E1 E2]. simpl in *. subst. exists s'. rewrite remaining_left. auto.
Qed.

Lemma next_cases n ns l : next_is_not n ns l \/ exists x l', next_is n ns l x l'.
Proof.
  destruct l as [|x l]; [left; intros x l E; discriminate|].
  destruct (has_name n ns x) eqn:E.
  - right. exists x, l. split; [reflexivity|now apply has_name_matches].
  - left. apply first_is_not. exact E.
Qed.

Section Leaf.
Context {L : Libs}.
Variables (gfuel : nat) (c : schema_ctx).

(** The reader of the content, and the field reader. *)
Lemma leaf_parts l f r : leaf_from_xml gfuel c l = Ok (f, r) -> exists ns x,
  field_ident (lf_name l) = Ok f /\ quote_xml_namespace c (lf_name l) = Some ns
  /\ content_from_xml gfuel c (ld_content (lf_def l)) = Ok x
  /\ (plain l -> r = if lf_is_vec l then FrWhileNext (nm (lf_name l)) ns x (lf_is_optional l)
           else if lf_is_optional l then FrIfNext (nm (lf_name l)) ns x
           else if lf_unordered l then FrTryChild (nm (lf_name l)) ns x
           else FrTryNext (nm (lf_name l)) ns x).
Proof.
  unfold leaf_from_xml, plain. intros H.
  apply bind_ok in H. destruct H as (f' & E1 & H).
  apply bind_ok in H. destruct H as (ns & E2 & H). apply xml_ns_ok in E2.
  apply bind_ok in H. destruct H as (x & E3 & H). unfold def_from_xml in E3. exists ns, x.
  destruct (lf_virtual l) eqn:V.
  - destruct (lf_is_vec l); [|destruct (lf_is_optional l)];
      try (apply bind_ok in H; destruct H as (id & E4 & H)); injection H as <- <-; repeat split; auto; discriminate.
  - injection H as <- <-. auto.
Qed.

Lemma required_next l f r : leaf_from_xml gfuel c l = Ok (f, r) ->
  plain l -> single l -> required l -> ordered l ->
  exists ns x, quote_xml_namespace c (lf_name l) = Some ns
  /\ content_from_xml gfuel c (ld_content (lf_def l)) = Ok x
  /\ forall call look k e s,
     (next_is_not (nm (lf_name l)) ns (remaining s) ->
        run_fr real_ops call look k r e s = Err (FeMissingElement (nm (lf_name l)) ns))
     /\ (forall v s', run_fr real_ops call look k r e s = Ok (v, s') ->
          exists y, next_is (nm (lf_name l)) ns (remaining s) y (remaining s')
                    /\ run_sub real_ops call x y = Ok v).
Proof.
  intros H P S Rq O. destruct (leaf_parts _ _ _ H) as (ns & x & _ & Q & Cx & Er). exists ns, x.
  rewrite (Er P). unfold single, required, ordered in *. rewrite S, Rq, O. split; [exact Q|]. split; [exact Cx|].
  intros call look k e s. cbn [run_fr real_ops op_next]. destruct (next_real (nm (lf_name l)) ns s) as [N1 N2]. split.
  - intros N. destruct (N1 N) as (s' & E & _). simpl. rewrite E. reflexivity.
  - intros v s' R. destruct (next_cases (nm (lf_name l)) ns (remaining s)) as [N|(y & l' & N)].
    + destruct (N1 N) as (s1 & E & _). simpl in R. rewrite E in R. discriminate.
    + destruct (N2 _ _ N) as (s1 & E & E'). simpl in R. rewrite E in R. apply bind_ok in R.
      destruct R as (v' & R1 & R2). injection R2 as <- <-. exists y. rewrite E'. auto.
Qed.

Lemma optional_next l f r : leaf_from_xml gfuel c l = Ok (f, r) ->
  plain l -> single l -> optional l ->
  exists ns x, quote_xml_namespace c (lf_name l) = Some ns
  /\ content_from_xml gfuel c (ld_content (lf_def l)) = Ok x
  /\ forall call look k e s,
     (next_is_not (nm (lf_name l)) ns (remaining s) -> exists s',
        run_fr real_ops call look k r e s = Ok (VNone, s') /\ remaining s' = remaining s)
     /\ (forall y l', next_is (nm (lf_name l)) ns (remaining s) y l' -> exists s',
        run_fr real_ops call look k r e s = rmap (fun v => (VSome v, s')) (run_sub real_ops call x y)
        /\ remaining s' = l').
Proof.
  intros H P S Rq. destruct (leaf_parts _ _ _ H) as (ns & x & _ & Q & Cx & Er). exists ns, x.
  rewrite (Er P). unfold single, optional in *. rewrite S, Rq. split; [exact Q|]. split; [exact Cx|].
  intros call look k e s. cbn [run_fr real_ops op_next]. destruct (next_real (nm (lf_name l)) ns s) as [N1 N2]. split.
  - intros N. destruct (N1 N) as (s' & E & E'). simpl. rewrite E. eauto.
  - intros y l' N. destruct (N2 _ _ N) as (s1 & E & E'). simpl. rewrite E. exists s1. split; [|exact E'].
    destruct (run_sub real_ops call x y); reflexivity.
Qed.

Lemma while_next_run call n ns x : forall k s vs s',
  while_next real_ops call k n ns x s = Ok (vs, s') ->
  exists xs, longest_run n ns (remaining s) xs (remaining s')
             /\ Forall2 (fun y v => run_sub real_ops call x y = Ok v) xs vs.
Proof.
  induction k as [|k IH]; intros s vs s' H; cbn [while_next] in H; [discriminate|].
  destruct (next_real n ns s) as [N1 N2]. simpl in H.
  destruct (next_cases n ns (remaining s)) as [N|(y & l' & N)].
  - destruct (N1 N) as (s1 & E & E'). rewrite E in H. injection H as <- <-. exists [].
    repeat split; [now rewrite E'|constructor|rewrite E'; exact N|constructor].
  - destruct (N2 _ _ N) as (s1 & E & E'). rewrite E in H. apply bind_ok in H. destruct H as (v & R1 & H).
    apply bind_ok in H. destruct H as ((vs' & s2) & R2 & H). injection H as <- <-.
    destruct (IH _ _ _ R2) as (xs & (A & B & C) & F). exists (y :: xs). destruct N as [N M].
    repeat split; [simpl; rewrite N, <- E', A; reflexivity|now constructor|exact C|now constructor].
Qed.

Lemma repeated_run l f r : leaf_from_xml gfuel c l = Ok (f, r) ->
  plain l -> repeated l ->
  exists ns x, quote_xml_namespace c (lf_name l) = Some ns
  /\ content_from_xml gfuel c (ld_content (lf_def l)) = Ok x
  /\ forall call look k e s w s', run_fr real_ops call look k r e s = Ok (w, s') ->
     exists xs vs, longest_run (nm (lf_name l)) ns (remaining s) xs (remaining s')
       /\ Forall2 (fun y v => run_sub real_ops call x y = Ok v) xs vs
       /\ (required l -> w = VVec vs)
       /\ (optional l -> (xs = [] /\ w = VNone) \/ (xs <> [] /\ w = VSome (VVec vs))).
Proof.
  intros H P S. destruct (leaf_parts _ _ _ H) as (ns & x & _ & Q & Cx & Er). exists ns, x.
  rewrite (Er P). unfold repeated in *. rewrite S. split; [exact Q|]. split; [exact Cx|].
  intros call look k e s w s' R. cbn [run_fr] in R. apply bind_ok in R. destruct R as ((vs & s1) & R & E).
  injection E as <- <-. destruct (while_next_run _ _ _ _ _ _ _ _ R) as (xs & LR & F). exists xs, vs.
  split; [exact LR|]. split; [exact F|]. unfold required, optional, vec_value. split; intros ->; [reflexivity|].
  destruct F; [now left|]. right. split; [discriminate|reflexivity].
Qed.

(** ** xs:all *)
Lemma unordered_takes l f r : leaf_from_xml gfuel c l = Ok (f, r) ->
  plain l -> single l -> required l -> anywhere l ->
  exists ns x, quote_xml_namespace c (lf_name l) = Some ns
  /\ content_from_xml gfuel c (ld_content (lf_def l)) = Ok x
  /\ r = FrTryChild (nm (lf_name l)) ns x.
Proof.
  intros H P S Rq O. destruct (leaf_parts _ _ _ H) as (ns & x & _ & Q & Cx & Er). exists ns, x.
  rewrite (Er P). unfold single, required, anywhere in *. rewrite S, Rq, O. auto.
Qed.
End Leaf.

(** ** Fixed content *)
Lemma fixed_content {L : Libs} gfuel c ct s x : content_from_xml gfuel c ct = Ok x -> final c ct (LcFixed s) ->
  forall {C} (call : string -> xelem -> C -> R (value * C)) e st,
    (d_text e = Ok s -> run_rx call x e st = Ok (VUnit, st))
    /\ (forall t, d_text e = Ok t -> t <> s -> run_rx call x e st = Err (FeFixedMismatch s t))
    /\ (forall v st', run_rx call x e st = Ok (v, st') -> d_text e = Ok s /\ v = VUnit /\ st' = st).
Proof.
  intros H F C call e st. apply content_rx in H. destruct H as (ct' & F' & X).
  rewrite (final_det _ _ _ _ F' F) in X. inversion X; subst. simpl. repeat split.
  - intros ->. simpl. now rewrite eqb_s_refl.
  - intros t -> N. simpl. destruct (String.eqb_spec t s); [contradiction|reflexivity].
  - destruct (d_text e) as [t| | |]; simpl in *; try discriminate. destruct (String.eqb_spec t s); [subst; reflexivity|discriminate].
  - destruct (d_text e) as [t| | |]; simpl in *; try discriminate. destruct (String.eqb_spec t s); [congruence|discriminate].
  - destruct (d_text e) as [t| | |]; simpl in *; try discriminate. destruct (String.eqb_spec t s); [congruence|discriminate].
Qed.

(** ** Attributes *)
Lemma d_attribute_spec e n :
  (forall v, d_attribute e n = Some v <-> carries e n v) /\ (d_attribute e n = None <-> lacks e n).
Proof.
  unfold d_attribute, carries, lacks. destruct e as [t ns ats nss r ks]. simpl. clear.
  assert (B : forall a, andb (at_name a =?s n) (opt_eqb String.eqb (at_ns a) None) = true <-> at_name a = n /\ at_ns a = None).
  { intros a. rewrite andb_true_iff, String.eqb_eq, (opt_eqb_eq String.eqb String.eqb_eq). tauto. }
  induction ats as [|a ats [IH1 IH2]]; simpl.
  - split; [|split; [constructor|reflexivity]]. intros v. split; [discriminate|].
    intros (a & l1 & l2 & E & _). destruct l1; discriminate.
  - destruct (andb (at_name a =?s n) (opt_eqb String.eqb (at_ns a) None)) eqn:E.
    + pose proof (proj1 (B a) E) as [E1 E2]. split.
      * intros v. split.
        -- intros H. injection H as <-. exists a, [], ats. repeat split; auto.
        -- intros (b & l1 & l2 & A & B1 & B2 & B3 & F). destruct l1 as [|b' l1]; injection A as <- A; [congruence|].
           inversion F; subst. tauto.
      * split; [discriminate|]. intros F. inversion F; subst. tauto.
    + assert (N : ~ (at_name a = n /\ at_ns a = None)) by (rewrite <- B; congruence). split.
      * intros v. rewrite IH1. split.
        -- intros (b & l1 & l2 & A & B1 & B2 & B3 & F). exists b, (a :: l1), l2. subst ats. repeat split; auto.
        -- intros (b & l1 & l2 & A & B1 & B2 & B3 & F). destruct l1 as [|b' l1]; injection A as <- A; [tauto|].
           inversion F; subst. exists b, l1, l2. repeat split; auto.
      * rewrite IH2. split; intros F; [constructor; auto|inversion F; auto].
Qed.

Lemma attribute_read {L : Libs} gfuel c a r : attr_from_xml gfuel c a = Ok r ->
  exists f, field_ident (a_name a) = Ok f /\
  forall p e,
    (lacks e (nm (a_name a)) -> a_optional a = false -> run_ra p r e = Err (FeMissingAttribute (nm (a_name a))))
    /\ (lacks e (nm (a_name a)) -> a_optional a = true -> run_ra p r e = Ok (f, VNone))
    /\ (forall s, carries e (nm (a_name a)) s ->
         run_ra p r e = rmap (fun v => (f, if a_optional a then VSome v else v)) (run_ax p (ra_conv r) s)).
Proof.
  unfold attr_from_xml. intros H. apply bind_ok in H. destruct H as (f & E1 & H).
  apply bind_ok in H. destruct H as (t & E2 & H). injection H as <-. exists f. split; [exact E1|].
  intros p e. destruct (d_attribute_spec e (nm (a_name a))) as [S1 S2]. unfold run_ra, d_try_attribute. simpl.
  split; [|split].
  - intros La ->. apply S2 in La. now rewrite La.
  - intros La ->. apply S2 in La. now rewrite La.
  - intros s Ca. apply S1 in Ca. rewrite Ca. destruct (a_optional a); simpl; destruct (run_ax _ _ s); reflexivity.
Qed.

(** ** Choices of elements *)
Section Choice.
Context {L : Libs}.
Variables (gfuel : nat) (c : schema_ctx).
Variables (call : string -> xelem -> children -> R (value * children)).
Variables (look : string -> children -> R (bool * children)).

Lemma peek_real n ns s : exists s', remaining s' = remaining s /\
  peek_child n ns s = (first_is n ns (remaining s), s').
Proof.
  pose proof (left_peek n ns s) as H. destruct (peek_child n ns s) as [b s']. destruct H as [E1 E2]. simpl in *.
  exists s'. rewrite !remaining_left, E1. auto.
Qed.

(** What the variant [l] makes of the next child [y]. *)
Definition variant_reads (l : leaf) (k : nat) (s : children) (o : R (value * children)) : Prop :=
  exists i x ns, variant_ident (lf_name l) = Ok i /\ content_from_xml gfuel c (ld_content (lf_def l)) = Ok x
    /\ quote_xml_namespace c (lf_name l) = Some ns /\
    if lf_is_vec l then
      exists s1, remaining s1 = remaining s /\
        o = rmap (fun ws => (VChoice i (VVec (fst ws)), snd ws)) (while_next real_ops call k (nm (lf_name l)) ns x s1)
    else
      exists y s1, next_is (nm (lf_name l)) ns (remaining s) y (remaining s1)
        /\ o = rmap (fun w => (VChoice i w, s1)) (run_sub real_ops call x y).

Lemma variant_parts l a : variant_from_xml gfuel c l = Ok a -> plain l ->
  exists i x ns, variant_ident (lf_name l) = Ok i /\ content_from_xml gfuel c (ld_content (lf_def l)) = Ok x
    /\ quote_xml_namespace c (lf_name l) = Some ns
    /\ a = if lf_is_vec l then ArmVec i (nm (lf_name l)) ns x else ArmOne i (nm (lf_name l)) ns x.
Proof.
  unfold variant_from_xml, plain. intros H P. rewrite P in H.
  apply bind_ok in H. destruct H as (i & E1 & H). apply bind_ok in H. destruct H as (x & E2 & H).
  apply bind_ok in H. destruct H as (ns & E3 & H). apply xml_ns_ok in E3. exists i, x, ns.
  split; [exact E1|]. split; [exact E2|]. split; [exact E3|]. destruct (lf_is_vec l); congruence.
Qed.

Lemma choice_selects self k e : forall vs arms, mapM (variant_from_xml gfuel c) vs = Ok arms ->
  Forall plain vs -> forall s,
  (exists l, In l vs /\ (exists ns y l', quote_xml_namespace c (lf_name l) = Some ns
                          /\ next_is (nm (lf_name l)) ns (remaining s) y l')
             /\ exists s1, remaining s1 = remaining s
             /\ variant_reads l k s1 (run_arms real_ops call look k self arms e s))
  \/ ((forall l ns, In l vs -> quote_xml_namespace c (lf_name l) = Some ns ->
         next_is_not (nm (lf_name l)) ns (remaining s))
      /\ run_arms real_ops call look k self arms e s = Err (FeMissingVariant self)).
Proof.
  induction vs as [|l vs IH]; intros arms H P s; simpl in H.
  - injection H as <-. right. split; [intros l ns []|reflexivity].
  - apply bind_ok in H. destruct H as (a & Ea & H). apply bind_ok in H. destruct H as (arms' & Ear & H). injection H as <-.
    inversion P as [|? ? Pl Pvs]; subst.
    destruct (variant_parts _ _ Ea Pl) as (i & x & ns & Ei & Ex & Ens & ->).
    destruct (next_cases (nm (lf_name l)) ns (remaining s)) as [N|(y & l' & N)].
    + assert (K : exists s1, remaining s1 = remaining s /\
        run_arms real_ops call look k self
          ((if lf_is_vec l then ArmVec i (nm (lf_name l)) ns x else ArmOne i (nm (lf_name l)) ns x) :: arms') e s
        = run_arms real_ops call look k self arms' e s1).
      { destruct (lf_is_vec l); cbn [run_arms].
        - destruct (peek_real (nm (lf_name l)) ns s) as (s1 & E1 & E2). exists s1. split; [exact E1|]. cbn [op_peek real_ops]. rewrite E2.
          apply first_is_not in N. now rewrite N.
        - destruct (proj1 (next_real (nm (lf_name l)) ns s) N) as (s1 & E1 & E2). exists s1. split; [exact E2|].
          simpl. now rewrite E1. }
      destruct K as (s1 & E1 & ->). destruct (IH _ Ear Pvs s1) as [(l0 & I0 & N0 & s2 & E2 & V0)|[N0 E0]].
      * left. exists l0. split; [now right|]. rewrite <- E1. split; [exact N0|]. exists s2. split; [exact E2|exact V0].
      * right. split; [|exact E0]. rewrite <- E1. intros l0 ns0 [<-|I0] Q0; [|now apply N0].
        rewrite Ens in Q0. injection Q0 as <-. rewrite E1. exact N.
    + left. exists l. split; [now left|]. split; [exists ns, y, l'; auto|].
      destruct (lf_is_vec l) eqn:V; cbn [run_arms].
      * exists s. split; [reflexivity|]. exists i, x, ns. rewrite V. repeat split; auto.
        destruct (peek_real (nm (lf_name l)) ns s) as (s1 & E1 & E2). exists s1. split; [exact E1|]. cbn [op_peek real_ops]. rewrite E2.
        destruct N as [-> M]. simpl. apply has_name_matches in M. rewrite M.
        destruct (while_next _ _ _ _ _ _ s1) as [[]| | |]; reflexivity.
      * exists s. split; [reflexivity|]. exists i, x, ns. rewrite V. repeat split; auto.
        destruct (proj2 (next_real (nm (lf_name l)) ns s) _ _ N) as (s1 & E1 & E2). exists y, s1.
        simpl. rewrite E1, E2. split; [exact N|]. destruct (run_sub _ _ x y); reflexivity.
Qed.
End Choice.

(** The order of the variants does not matter when their names differ. *)
Definition arm_name (a : arm) : option (string * option string) :=
  match a with
  | ArmLook _ _ _ => None
  | ArmVec _ n ns _ | ArmOne _ n ns _ => Some (n, ns)
  end.

Lemma two_names n ns n' ns' l : (n, ns) <> (n', ns') -> first_is n ns l = true -> first_is n' ns' l = false.
Proof.
  destruct l as [|x l]; simpl; [discriminate|]. intros N H. apply has_name_matches in H.
  destruct (has_name n' ns' x) eqn:E; [|reflexivity]. apply has_name_matches in E.
  destruct H, E. congruence.
Qed.

Lemma arms_swap {L : Libs} call look k self a b arms e l na nb :
  arm_name a = Some na -> arm_name b = Some nb -> na <> nb ->
  run_arms list_ops call look k self (a :: b :: arms) e l = run_arms list_ops call look k self (b :: a :: arms) e l.
Proof.
  assert (St : forall a n arms l, arm_name a = Some n ->
    first_is (fst n) (snd n) l = false -> run_arms list_ops call look k self (a :: arms) e l = run_arms list_ops call look k self arms e l).
  { intros [v id x|v n ns x|v n ns x] m ar l0 E F; simpl in E; try discriminate; injection E as <-; simpl in F; cbn [run_arms]; simpl.
    - now rewrite F.
    - unfold list_next. destruct l0 as [|y l0]; [reflexivity|]. simpl in F. now rewrite F. }
  assert (Tt : forall a n arms arms' l, arm_name a = Some n ->
    first_is (fst n) (snd n) l = true -> run_arms list_ops call look k self (a :: arms) e l = run_arms list_ops call look k self (a :: arms') e l).
  { intros [v id x|v n ns x|v n ns x] m ar ar' l0 E F; simpl in E; try discriminate; injection E as <-; simpl in F; cbn [run_arms]; simpl.
    - now rewrite F.
    - unfold list_next. destruct l0 as [|y l0]; [discriminate|]. simpl in F. now rewrite F. }
  intros Ea Eb N. destruct (first_is (fst na) (snd na) l) eqn:Fa.
  - assert (Fb : first_is (fst nb) (snd nb) l = false).
    { apply (two_names (fst na) (snd na)); [|exact Fa]. destruct na, nb. exact N. }
    rewrite (St b nb (a :: arms) l Eb Fb). now apply (Tt a na).
  - rewrite (St a na (b :: arms) l Ea Fa). destruct (first_is (fst nb) (snd nb) l) eqn:Fb.
    + now apply (Tt b nb).
    + rewrite (St b nb _ l Eb Fb), (St b nb _ l Eb Fb), (St a na _ l Ea Fa). reflexivity.
Qed.

Lemma arms_perm {L : Libs} call look k self e arms arms' : Permutation arms arms' ->
  Forall (fun a => arm_name a <> None) arms -> NoDup (map arm_name arms) -> forall l,
  run_arms list_ops call look k self arms e l = run_arms list_ops call look k self arms' e l.
Proof.
  induction 1 as [|a arms arms' P IH|a b arms|a1 a2 a3 P1 IH1 P2 IH2]; intros F ND l.
  - reflexivity.
  - inversion F; inversion ND; subst. destruct a; cbn [run_arms].
    + destruct (look look0 l) as [[[|] l1]| | |]; simpl; auto.
    + destruct (op_peek list_ops n ns l) as [[|] l1]; auto.
    + destruct (op_next list_ops n ns l) as [[y|] l1]; auto.
  - inversion F as [|? ? Fb F']; inversion F' as [|? ? Fa _]; inversion ND as [|? ? N1 _]; subst.
    destruct (arm_name a) as [na|] eqn:Ea; [|congruence]. destruct (arm_name b) as [nb|] eqn:Eb; [|congruence].
    apply (arms_swap call look k self b a arms e l nb na); auto. intros ->. apply N1. left. congruence.
  - rewrite IH1 by assumption. apply IH2.
    + eapply Permutation_Forall; eassumption.
    + eapply Permutation_NoDup; [|exact ND]. now apply Permutation_map.
Qed.

Lemma mapM_perm {E A B} (f : A -> res E B) l l' : Permutation l l' -> forall r, mapM f l = Ok r ->
  exists r', mapM f l' = Ok r' /\ Permutation r r'.
Proof.
  induction 1 as [|a l l' P IH|a b l|l1 l2 l3 P1 IH1 P2 IH2]; intros r H.
  - exists r. split; [exact H|apply Permutation_refl].
  - simpl in *. apply bind_ok in H. destruct H as (x & E1 & H). apply bind_ok in H. destruct H as (xs & E2 & H).
    injection H as <-. destruct (IH _ E2) as (r' & E3 & P'). exists (x :: r'). rewrite E1. simpl. rewrite E3. split; [reflexivity|now constructor].
  - simpl in *. apply bind_ok in H. destruct H as (x & E1 & H). apply bind_ok in H. destruct H as (xs & E2 & H).
    apply bind_ok in E2. destruct E2 as (y & E2 & H2). apply bind_ok in H2. destruct H2 as (ys & E3 & H2).
    injection H2 as <-. injection H as <-. exists (y :: x :: ys). rewrite E2. simpl. rewrite E1. simpl. rewrite E3.
    split; [reflexivity|apply perm_swap].
  - destruct (IH1 _ H) as (r1 & E1 & Q1). destruct (IH2 _ E1) as (r2 & E2 & Q2). exists r2. split; [exact E2|].
    eapply Permutation_trans; eassumption.
Qed.

Lemma mapc_ext {E A C D} (h h' : C -> D) (o : res E (A * C)) : (forall s, h s = h' s) -> mapc h o = mapc h' o.
Proof. intros H. destruct o as [[a s]| | |]; simpl; try reflexivity. now rewrite H. Qed.

Lemma seen_left {E A} (o : res E (A * children)) : seen o = mapc left o.
Proof. apply mapc_ext, remaining_left. Qed.

Lemma real_type {L : Libs} p fuel id e s :
  run_type list_ops p fuel id e (left s) = mapc left (run_type real_ops p fuel id e s).
Proof. apply hom_type; [reflexivity|exact left_peek|exact left_next|exact left_child]. Qed.
Lemma real_look {L : Libs} p fuel id s :
  run_look list_ops p fuel id (left s) = mapc left (run_look real_ops p fuel id s).
Proof. apply hom_look; exact left_peek. Qed.

Lemma arm_names {L : Libs} gfuel c vs arms : mapM (variant_from_xml gfuel c) vs = Ok arms -> Forall plain vs ->
  map arm_name arms = map (fun l => match quote_xml_namespace c (lf_name l) with
                                    | Some ns => Some (nm (lf_name l), ns) | None => None end) vs
  /\ Forall (fun a => arm_name a <> None) arms.
Proof.
  intros H. apply mapM_ok in H. induction H as [|l a vs arms E F IH]; intros P; [split; constructor|].
  inversion P as [|? ? Pl Pv]; subst. destruct (variant_parts gfuel c l a E Pl) as (i & x & ns & _ & _ & Q & ->).
  destruct (IH Pv) as [A B]. simpl. rewrite Q, A. split.
  - destruct (lf_is_vec l); reflexivity.
  - constructor; [|exact B]. destruct (lf_is_vec l); discriminate.
Qed.

Lemma choice_order {L : Libs} gfuel c p f k self e vs vs' arms :
  mapM (variant_from_xml gfuel c) vs = Ok arms -> Permutation vs vs' -> Forall plain vs -> NoDup (xnames c vs) ->
  exists arms', mapM (variant_from_xml gfuel c) vs' = Ok arms' /\
  forall s, seen (run_arms real_ops (run_type real_ops p f) (run_look real_ops p f) k self arms' e s)
          = seen (run_arms real_ops (run_type real_ops p f) (run_look real_ops p f) k self arms e s).
Proof.
  intros H P Pl ND. destruct (mapM_perm _ _ _ P _ H) as (arms' & H' & P'). exists arms'. split; [exact H'|].
  intros s. rewrite !seen_left.
  assert (E : forall a, mapc left (run_arms real_ops (run_type real_ops p f) (run_look real_ops p f) k self a e s)
    = run_arms list_ops (run_type list_ops p f) (run_look list_ops p f) k self a e (left s)).
  { intros a. symmetry. apply (hom_arms real_ops list_ops left).
    - reflexivity.
    - exact left_peek.
    - exact left_next.
    - intros id e0 s0. apply real_type.
    - intros id s0. apply real_look. }
  rewrite !E. symmetry. destruct (arm_names _ _ _ _ H Pl) as [A B]. apply arms_perm; [exact P'|exact B|].
  rewrite A. clear -ND A H Pl. apply mapM_ok in H. revert ND. unfold xnames.
  assert (Q : Forall (fun l => quote_xml_namespace c (lf_name l) <> None) vs).
  { clear A. induction H as [|l a vs arms E F IH]; [constructor|]. inversion Pl; subst.
    destruct (variant_parts gfuel c l a E) as (i & x & ns & _ & _ & Q & _); auto. constructor; [congruence|auto]. }
  clear A H Pl. induction vs as [|l vs IH]; simpl; intros ND; [constructor|].
  inversion ND as [|? ? N1 N2]; inversion Q as [|? ? Q1 Q2]; subst. constructor; [|auto].
  intros I. apply N1. destruct (quote_xml_namespace c (lf_name l)) as [ns|] eqn:E; [|congruence].
  apply in_map_iff in I. destruct I as (l' & E' & I'). apply in_map_iff. exists l'. split; [|exact I'].
  destruct (quote_xml_namespace c (lf_name l')) as [ns'|]; [|discriminate]. injection E' as -> ->. reflexivity.
Qed.

(** ** xs:all: permuted children *)
Lemma remove_perm n ns l l' x r : Permutation l l' -> NoDup (map kid_name l) ->
  remove_first (has_name n ns) l = Some (x, r) ->
  exists r', remove_first (has_name n ns) l' = Some (x, r') /\ Permutation r r' /\ NoDup (map kid_name r).
Proof.
  intros P ND H. apply remove_first_some in H. destruct H as (l1 & l2 & -> & -> & F & Hx).
  assert (U : forall y, In y (l1 ++ x :: l2) -> has_name n ns y = true -> y = x).
  { intros y I Hy. apply has_name_matches in Hy, Hx. destruct (NoDup_nth_error (map kid_name (l1 ++ x :: l2))) as [K _].
    specialize (K ND). apply In_nth_error in I. destruct I as (i & Ei).
    assert (Ej : nth_error (l1 ++ x :: l2) (length l1) = Some x).
    { rewrite nth_error_app2 by lia. now rewrite Nat.sub_diag. }
    assert (i = length l1).
    { apply K.
      - apply nth_error_Some. rewrite (map_nth_error _ _ _ Ei). discriminate.
      - rewrite (map_nth_error _ _ _ Ei), (map_nth_error _ _ _ Ej). unfold kid_name. destruct Hx, Hy. congruence. }
    subst. congruence. }
  assert (Ix : In x l') by (eapply Permutation_in; [exact P|]; apply in_elt).
  destruct (remove_first (has_name n ns) l') as [[y r']|] eqn:E.
  - apply remove_first_some in E. destruct E as (m1 & m2 & -> & -> & F' & Hy).
    assert (y = x) as ->.
    { apply U; [|exact Hy]. eapply Permutation_in; [apply Permutation_sym, P|]. apply in_elt. }
    exists (m1 ++ m2). split; [reflexivity|]. split.
    + eapply Permutation_app_inv. exact P.
    + rewrite map_app in *. simpl in ND. apply NoDup_remove_1 in ND. exact ND.
  - apply remove_first_none in E. rewrite Forall_forall in E. rewrite (E _ Ix) in Hx. discriminate.
Qed.

Lemma remove_perm_none n ns l l' : Permutation l l' -> remove_first (has_name n ns) l = None ->
  remove_first (has_name n ns) l' = None.
Proof.
  intros P H. apply remove_first_none in H. apply remove_first_all. eapply Permutation_Forall; eassumption.
Qed.

Lemma all_fields {L : Libs} gfuel c call look k e ls : forall fs,
  mapM (leaf_from_xml gfuel c) ls = Ok fs -> Forall all_leaf ls -> forall l l', Permutation l l' -> NoDup (map kid_name l) ->
  rmap fst (run_fields list_ops call look k fs e l) = rmap fst (run_fields list_ops call look k fs e l').
Proof.
  induction ls as [|f ls IH]; intros fs H A l l' P ND; simpl in H.
  - injection H as <-. reflexivity.
  - apply bind_ok in H. destruct H as ((i & r) & E & H). apply bind_ok in H. destruct H as (fs' & E' & H). injection H as <-.
    inversion A as [|? ? (A1 & A2 & A3 & A4) A']; subst.
    destruct (unordered_takes gfuel c f i r E A1 A2 A3 A4) as (ns & x & _ & _ & ->).
    cbn [run_fields run_fr]. simpl. unfold list_child.
    destruct (remove_first (has_name (nm (lf_name f)) ns) l) as [[y r]|] eqn:Er.
    + destruct (remove_perm _ _ _ _ _ _ P ND Er) as (r' & Er' & P' & ND'). rewrite Er'. simpl.
      destruct (run_sub list_ops call x y) as [v| | |]; simpl; try reflexivity.
      specialize (IH _ E' A' r r' P' ND'). simpl in IH.
      destruct (run_fields list_ops call look k fs' e r) as [[vs1 s1]| | |],
        (run_fields list_ops call look k fs' e r') as [[vs2 s2]| | |]; simpl in *; try congruence.
    + rewrite (remove_perm_none _ _ _ _ P Er). reflexivity.
Qed.

Lemma body_with_kids {L : Libs} p call look k fs ats l e ks :
  Forall (fun f => match snd f with FrTryChild _ _ _ => True | _ => False end) fs ->
  rmap fst (run_fields list_ops call look k fs (with_kids e ks) l) = rmap fst (run_fields list_ops call look k fs e l)
  /\ mapM (fun a => run_ra p a (with_kids e ks)) ats = mapM (fun a => run_ra p a e) ats.
Proof.
  intros F. split.
  - revert l. induction F as [|[i r] fs H F IH]; intros l; [reflexivity|]. simpl in H. destruct r; try contradiction.
    cbn [run_fields run_fr]. destruct (op_child list_ops n ns l) as [[y|] l1]; [|reflexivity].
    destruct (run_sub list_ops call x y); simpl; try reflexivity. specialize (IH l1).
    destruct (run_fields _ _ _ _ fs (with_kids e ks) l1) as [[]| | |], (run_fields _ _ _ _ fs e l1) as [[]| | |]; simpl in *; congruence.
  - induction ats as [|a ats IH]; simpl; [reflexivity|]. rewrite IH. reflexivity.
Qed.

Lemma all_order {L : Libs} gfuel c gs p n d ls id e ks fuel :
  generated gfuel c gs p -> In n gs -> type_ident n = Ok id ->
  sc_get c n = Some (RootElement d) -> ed_content d = Some (EcLeaves ls) -> Forall all_leaf ls ->
  NoDup (map kid_name (xe_children e)) ->
  Permutation (xe_children e) (elems_of ks) ->
  from_xml p fuel id (with_kids e ks) = from_xml p fuel id e.
Proof.
  intros [Hp Hnd] I Ei G Cd A ND P. rewrite !from_xml_list. unfold from_xml_with.
  destruct (item_named c gfuel gs p Hp Hnd n id I Ei) as (r & t & It & Eid & Lk). rewrite Lk.
  pose proof (it_get _ _ _ _ _ _ It) as G'. rewrite G in G'. injection G' as <-.
  pose proof (it_read _ _ _ _ _ _ It) as Hr. simpl in Hr. unfold element_from_xml in Hr. rewrite Cd in Hr.
  apply bind_ok in Hr. destruct Hr as (fs & Ef & Hr). apply bind_ok in Hr. destruct Hr as (ras & Ea & Hr). injection Hr as Hr.
  assert (Dt : doc_try_child (with_kids e ks) (ti_read_name t) (ti_read_ns t)
             = rmap (fun x => with_kids x ks) (doc_try_child e (ti_read_name t) (ti_read_ns t))).
  { unfold doc_try_child, has_name. simpl. destruct (_ && _); reflexivity. }
  rewrite Dt. unfold doc_try_child. destruct (has_name _ _ e); [|reflexivity]. simpl.
  destruct fuel as [|fuel]; [reflexivity|]. simpl. rewrite Lk. unfold run_body. rewrite <- Hr.
  assert (Fr : Forall (fun f => match snd f with FrTryChild _ _ _ => True | _ => False end) fs).
  { clear -Ef A. apply mapM_ok in Ef. induction Ef as [|l [i r] ls fs E F IH]; [constructor|].
    inversion A as [|? ? (A1 & A2 & A3 & A4) A']; subst.
    destruct (unordered_takes gfuel c l i r E A1 A2 A3 A4) as (ns & x & _ & _ & ->). constructor; [exact Logic.I|auto]. }
  destruct (body_with_kids p (run_type list_ops p fuel) (run_look list_ops p fuel) fuel fs ras
              (xe_children (with_kids e ks)) e ks Fr) as [B1 B2].
  pose proof (all_fields gfuel c (run_type list_ops p fuel) (run_look list_ops p fuel) fuel e ls fs Ef A _ _ P ND) as B3.
  change (xe_children (with_kids e ks)) with (elems_of ks) in *. rewrite <- B3 in B1. clear B3.
  rewrite B2.
  destruct (run_fields list_ops _ _ fuel fs (with_kids e ks) _) as [[v1 s1]| | |],
    (run_fields list_ops _ _ fuel fs e _) as [[v2 s2]| | |]; simpl in *; try congruence.
  injection B1 as ->. destruct (mapM _ ras); reflexivity.
Qed.
