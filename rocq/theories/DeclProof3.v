(** * DeclProof3: the recursive descent satisfies DeclSpec.v *)
From Verif Require Import Base Libs Xml Ast XsdNode Parse TextSpec NumProof MiscSpec MiscProof ParseSpec DeclSpec
  ParseProof ParseRoots DeclProof1 DeclProof2.

Section Walk.
Context {L : Libs}.
Variable d : xelem.
Variable ns : namespace.
Notation sound := (sound d ns).

Definition root_ok (f : node -> name -> P root) : Prop :=
  forall n p, sound (f n p) (fun nss st r => declared d nss ns st (n_visited n) (n_elem n) p r).
Definition element_ok (f : node -> name -> P root) : Prop :=
  forall n p, sound (f n p) (fun nss st r => element_decl d nss ns st (n_visited n) (n_elem n) p r).
Definition member_ok (f : node -> name -> P leaf) : Prop :=
  forall x p, sound (f (node_of x) p) (fun nss st l => element_member d nss ns st p x l).
Definition complex_ok (f : node -> name -> P root) : Prop :=
  forall n p, sound (f n p) (fun nss st r => complex_type d nss ns st (n_visited n) (n_elem n) p r).
Definition content_ok (f : node -> name -> P element_def) : Prop :=
  forall x p, sound (f (node_of x) p) (fun nss st ed =>
    exists ext base t sq rest content ats, only_attrs x [] /\ take "extension" (xsd_children x) (Some ext) []
    /\ the_attr ext "base" base /\ type_of d nss (at_value base) (LcNamed t)
    /\ take "sequence" (xsd_children ext) sq rest /\ extension_content d nss ns st p t sq content
    /\ attributes_of d nss ns st p rest ats /\ ed = mkElementDef ats (Some content) false None).
Definition sequence_ok (f : node -> name -> P (list leaf)) : Prop :=
  forall n p, sound (f n p) (fun nss st ls => sequence_of d nss ns st (n_visited n) (n_elem n) p ls).
Definition choice_ok (f : node -> name -> P (list leaf)) : Prop :=
  forall n p, sound (f n p) (fun nss st ls => choice_of d nss ns st (n_visited n) (n_elem n) p ls).

Ltac incl := let x := fresh in let H := fresh in intros x H; simpl in *; tauto.

Lemma sound_bind_True {A B} (m : P A) (k : A -> P B) (R : namespaces -> list (name * root) -> B -> Prop) :
  sound m (fun _ _ _ => True) -> (forall a, sound (k a) R) -> sound (pbind m k) R.
Proof. intros H K. eapply sound_bind; [exact H|]. intros a. eapply sound_mono; [apply K|]. auto. Qed.
Ltac skip_discover := eapply sound_bind_True; [apply sound_discover; auto|intros _].

(** ** Members of a group *)
Lemma members_sound (f : node -> P (option leaf)) (M : namespaces -> list (name * root) -> xelem -> leaf -> Prop) e :
  (forall x, In x (xsd_children e) -> sound (f (node_of x)) (fun nss st o =>
     if is_annotation x then o = None else exists l, o = Some l /\ M nss st x l)) ->
  sound (pcollect f (map node_of (xsd_children e))) (fun nss st ls => Forall2 (M nss st) (particles e) ls).
Proof.
  intros H. eapply sound_mono.
  - apply (sound_collect d ns f (fun n nss st o =>
      if is_annotation (n_elem n) then o = None else exists l, o = Some l /\ M nss st (n_elem n) l)).
    intros n I. apply in_map_iff in I. destruct I as (x & <- & I). exact (H x I).
  - intros nss st ls (os & F & ->). unfold particles. clear H.
    remember (map node_of (xsd_children e)) as l eqn:El. revert El. generalize (xsd_children e) as cs.
    induction F as [|n o l os Hn Hl IH]; intros [|c cs] El; try discriminate; [constructor|].
    injection El as -> ->. simpl in Hn. simpl. destruct (is_annotation c); simpl.
    + subst o. simpl. now apply IH.
    + destruct Hn as (lf & -> & HM). simpl. constructor; [exact HM|now apply IH].
Qed.

Lemma annotation_some {A} (x : xelem) (M : A -> Prop) (o : option A) t :
  xe_tag x = t -> t <> "annotation" -> (exists l, o = Some l /\ M l) ->
  if is_annotation x then o = None else exists l, o = Some l /\ M l.
Proof.
  intros <- N H. unfold is_annotation. destruct (String.eqb_spec (xe_tag x) "annotation"); [contradiction|exact H].
Qed.

Lemma sequence_step fuel : member_ok (parse_child fuel) -> sequence_ok (sequence_parse fuel) -> choice_ok (choice_parse fuel) ->
  sequence_ok (sequence_parse (S fuel)).
Proof.
  intros HM HS HC n p. cbn [sequence_parse]. apply sound_lift. intros u PA. apply prevent_attrs in PA.
  rewrite children_nodes. eapply sound_mono; [apply members_sound with (M := fun nss st x l => sequence_member d nss ns st p x l)|].
  - intros x I. change (n_name (node_of x)) with (xe_tag x).
    destruct (String.eqb_spec (xe_tag x) "element") as [E|_].
    { eapply sound_bind; [apply HM|]. intros l. apply sound_ret. intros nss st H.
      eapply annotation_some; [exact E|discriminate|]. exists l. split; [reflexivity|]. now apply sm_element. }
    destruct (String.eqb_spec (xe_tag x) "choice") as [E|_].
    { unfold n_attribute. cbv zeta. simpl n_elem. simpl n_visited. apply sound_lift. intros min Mi. apply min_spec in Mi.
      apply sound_lift. intros max Ma. apply max_spec in Ma.
      eapply sound_bind; [apply HC|]. intros vs. apply sound_short. intros ln Hln.
      apply sound_made_up. intros rn ->. eapply sound_bind; [apply sound_add; reflexivity|]. intros u'. skip_discover.
      apply sound_ret. intros nss st Ad C. rewrite Hln. eapply annotation_some; [exact E|discriminate|]. eexists. split; [reflexivity|].
      apply sm_choice with (ls := vs); try assumption. eapply choice_of_seen; [|exact C]. incl. }
    destruct (String.eqb_spec (xe_tag x) "sequence") as [E|_].
    { destruct (child_take (node_of x) "annotation") as (an & rest & Ec & T). rewrite Ec.
      apply sound_lift. intros docs D. apply annotation_docs in D.
      unfold n_attribute. cbv zeta. simpl n_elem. simpl n_visited. apply sound_lift. intros min Mi. apply min_spec in Mi.
      eapply sound_bind; [apply HS|]. intros vs. apply sound_short. intros ln Hln.
      apply sound_made_up. intros rn ->. eapply sound_bind; [apply sound_add; reflexivity|]. intros u'. skip_discover.
      apply sound_ret. intros nss st Ad C. rewrite Hln. eapply annotation_some; [exact E|discriminate|]. eexists. split; [reflexivity|].
      eapply sm_sequence; try eassumption. }
    destruct (String.eqb_spec (xe_tag x) "annotation") as [E|_]; [|apply sound_err].
    apply sound_ret. intros nss st. unfold is_annotation. now rewrite E.
  - intros nss st ls H. now constructor.
Qed.
Lemma choice_step fuel : member_ok (parse_child fuel) -> sequence_ok (sequence_parse fuel) ->
  choice_ok (choice_parse (S fuel)).
Proof.
  intros HM HS n p. cbn [choice_parse]. apply sound_lift. intros u PA. apply prevent_attrs in PA.
  rewrite children_nodes. eapply sound_mono; [apply members_sound with (M := fun nss st x l => choice_member d nss ns st p x l)|].
  - intros x I. change (n_name (node_of x)) with (xe_tag x).
    destruct (String.eqb_spec (xe_tag x) "element") as [E|_].
    { eapply sound_bind; [apply HM|]. intros l. apply sound_ret. intros nss st H.
      eapply annotation_some; [exact E|discriminate|]. exists l. split; [reflexivity|]. now apply cmb_element. }
    destruct (String.eqb_spec (xe_tag x) "sequence") as [E|_].
    { destruct (child_take (node_of x) "annotation") as (an & rest & Ec & T). rewrite Ec.
      apply sound_lift. intros docs D. apply annotation_docs in D.
      unfold n_attribute. cbv zeta. simpl n_elem. simpl n_visited. apply sound_lift. intros min Mi. apply min_spec in Mi.
      apply sound_lift. intros max Ma. apply max_spec in Ma.
      eapply sound_bind; [apply HS|]. intros vs. apply sound_short. intros ln Hln.
      apply sound_get. intros c Hc.
      apply sound_made_up. intros rn ->. eapply sound_bind; [apply sound_add; reflexivity|]. intros u'. skip_discover.
      apply sound_ret. intros nss st Ad C. rewrite Hln. eapply annotation_some; [exact E|discriminate|]. eexists. split; [reflexivity|].
      eapply cmb_sequence; try eassumption. eapply sequence_of_seen; [|exact C]. incl. }
    destruct (String.eqb_spec (xe_tag x) "annotation") as [E|_]; [|apply sound_err].
    apply sound_ret. intros nss st. unfold is_annotation. now rewrite E.
  - intros nss st ls H. now constructor.
Qed.

Lemma take_none_filter t l o rest : take t l o rest -> (o = None <-> Forall (fun x => xe_tag x <> t) l).
Proof.
  intros H. destruct H as [l F|l x r F E]; split; auto; [discriminate|]. intros G.
  apply Forall_app in G. destruct G as [_ G]. inversion G; subst. contradiction.
Qed.
Lemma take_none_eq t l o rest : take t l o rest -> o = None -> rest = l /\ take t l None l.
Proof. intros H. destruct H as [l F|l x r F E]; [|discriminate]. intros _. split; [reflexivity|now apply tk_none]. Qed.

Lemma child_step fuel : root_ok (root_parse fuel) -> member_ok (parse_child (S fuel)).
Proof.
  intros HR x p. cbn [parse_child]. unfold n_attribute at 1. cbv iota. simpl n_elem. simpl n_visited.
  apply sound_lift. intros min Mi. apply min_spec in Mi. unfold n_attribute at 1. cbv iota. simpl n_elem. simpl n_visited.
  apply sound_lift. intros max Ma. apply max_spec in Ma. unfold n_attribute at 1. cbv iota. simpl n_elem. simpl n_visited.
  destruct (attr_lookup "ref" _) as [a|] eqn:Rf.
  { apply attr_lookup_iff in Rf. apply sound_lift. intros u PA. apply prevent_attrs in PA. simpl in PA.
    eapply sound_bind; [apply sound_type|]. intros [l|t|s]; try apply sound_err. skip_discover. apply sound_ret.
    intros nss st Ty. eapply em_ref; try eassumption. eapply only_attrs_incl; [|exact PA]. incl. }
  apply attr_lookup_no in Rf. apply sound_lift. intros [na n1] TN. apply try_attr in TN. destruct TN as [TN ->].
  simpl n_elem in *. simpl n_visited in *. apply sound_get. intros c Ec. cbv zeta. rewrite (node_name _ _ _ _ Ec).
  unfold n_attribute at 1. cbv iota. simpl n_elem. simpl n_visited. unfold n_attribute at 1. cbv iota. simpl n_elem. simpl n_visited.
  match goal with |- context [n_child ?m "annotation" _] => destruct (child_take m "annotation") as (an & rest & Ea & T) end.
  rewrite Ea. apply sound_lift. intros docs D. apply annotation_docs in D. simpl n_elem in T.
  unfold n_attribute at 1. cbv iota. simpl n_elem. simpl n_visited.
  destruct (attr_lookup "type" _) as [a|] eqn:Ty.
  - apply attr_lookup_iff in Ty.
    assert (S : sound (pbind (pbind (get_type_name a) (fun content => content_of_type
        (mkNode x ["type"; "form"; "default"; "name"; "ref"; "maxOccurs"; "minOccurs"]) p content))
      (fun cn => pbind (plift (prevent_unvisited_attributes (snd cn))) (fun _ =>
         pret (plain_leaf (mkName (at_value na) ns) (fst cn) docs min max))))
      (fun nss st l => element_member d nss ns st p x l)).
    { eapply sound_bind_pure; [apply (sound_content d ns (mkNode x ["form"; "default"; "name"; "ref"; "maxOccurs"; "minOccurs"]) p a Ty)| |].
      - intros nss st lcn (known & _ & En & _). exact En.
      - simpl. intros [lc [e2 v2]] En. simpl in *. subst e2. apply sound_lift. intros u PA. apply prevent_attrs in PA.
        apply sound_ret. intros nss st (known & Td & _ & Hk). eapply em_typed; try eassumption.
        eapply only_attrs_incl; [|exact PA]. intros k Ik. apply Hk in Ik. apply in_app_or in Ik. apply in_or_app.
        simpl in *. tauto. }
    intros c0 l c0' E0 M0. apply (S c0 l c0' E0). unfold pbind in M0 |- *.
    destruct (get_type_name a c0) as [[lc c1]|?|?|]; try discriminate.
    destruct (content_of_type _ p lc c1) as [[[lc2 n2] c2]|?|?|]; try discriminate. exact M0.
  - apply attr_lookup_no in Ty. apply sound_lift. intros u PA. apply prevent_attrs in PA. simpl in PA.
    match goal with |- context [n_child ?m "simpleType" _] => destruct (child_take m "simpleType") as (s1 & q1 & E1 & T1) end.
    match goal with |- context [n_child ?m "complexType" _] => destruct (child_take m "complexType") as (s2 & q2 & E2 & T2) end.
    rewrite E1, E2. simpl n_elem in *.
    assert (An : (s1 <> None \/ s2 <> None) -> sound
       (vn <== derive_virtual_name [p; {| nm := at_value na; nm_ns := ns |}; get_node_name c "Data" false] false ;;
        r <== root_parse fuel (mkNode x ["type"; "form"; "default"; "name"; "ref"; "maxOccurs"; "minOccurs"]) vn ;;
        add_root vn r ;== discover_type vn p ;==
        pret (plain_leaf (mkName (at_value na) ns) (LcNamed vn) docs min max))
       (fun nss st l => element_member d nss ns st p x l)).
    { intros Hs. apply sound_made_up. intros vn ->. eapply sound_bind; [apply HR|]. intros r.
      eapply sound_bind; [apply sound_add; reflexivity|]. intros u'. skip_discover. apply sound_ret.
      intros nss st Ad De. eapply em_anonymous; try eassumption.
      - eapply only_attrs_incl; [|exact PA]. incl.
      - destruct Hs as [Hs|Hs].
        + destruct T1 as [? ?|l1 y r1 F1 Ey]; [contradiction|]. apply Exists_exists. exists y. split; [apply in_or_app; right; now left|auto].
        + destruct T2 as [? ?|l1 y r1 F1 Ey]; [contradiction|]. apply Exists_exists. exists y. split; [apply in_or_app; right; now left|auto].
      - eapply declared_seen; [|exact De]. incl. }
    destruct s1 as [s1|]; [apply An; left; discriminate|]. destruct s2 as [s2|]; [apply An; right; discriminate|].
    apply sound_ret. intros nss st. eapply em_any; try eassumption.
    + eapply only_attrs_incl; [|exact PA]. incl.
    + apply (proj1 (take_none_filter _ _ _ _ T1)) in T1 as F1 || pose proof (proj1 (take_none_filter _ _ _ _ T1) eq_refl) as F1.
      pose proof (proj1 (take_none_filter _ _ _ _ T2) eq_refl) as F2. rewrite Forall_forall in *. intros y Iy. auto.
Qed.

Lemma element_step fuel : complex_ok (complex_type_parse fuel) -> element_ok (parse_root (S fuel)).
Proof.
  intros HC [e v] p. cbn [parse_root]. cbv zeta. rewrite children_nodes. simpl n_elem. simpl n_visited.
  destruct (remove_take "annotation" _ (children_xsd e)) as (an & rest & E & T & F). rewrite E.
  apply sound_lift. intros docs D. apply annotation_docs in D. unfold n_attribute at 1. cbv iota. simpl n_elem. simpl n_visited.
  destruct (attr_lookup "type" _) as [a|] eqn:Ty.
  - apply attr_lookup_iff in Ty.
    assert (S : sound (pbind (pbind (get_type_name a) (fun content => content_of_type (mkNode e ("type" :: v)) p content))
      (fun cn => pbind (plift (prevent_unvisited_attributes (snd cn))) (fun _ =>
         pbind (plift (prevent_unvisited_children (snd cn) (map node_of rest))) (fun _ =>
         pret (RootLeaf (mkLeafDef (fst cn) [] docs))))))
      (fun nss st r => element_decl d nss ns st v e p r)).
    { eapply sound_bind_pure; [apply (sound_content d ns (mkNode e v) p a Ty)| |].
      - intros nss st lcn (known & _ & En & _). exact En.
      - simpl. intros [lc [e2 v2]] En. simpl in *. subst e2. apply sound_lift. intros u PA. apply prevent_attrs in PA.
        apply sound_lift. intros u' PC. apply prevent_children in PC. subst rest.
        apply sound_ret. intros nss st (known & Td & _ & Hk). eapply ed_typed; try eassumption.
        eapply only_attrs_incl; [|exact PA]. intros k Ik. now apply Hk in Ik. }
    intros c0 l c0' E0 M0. apply (S c0 l c0' E0). unfold pbind in M0 |- *.
    destruct (get_type_name a c0) as [[lc c1]|?|?|]; try discriminate.
    destruct (content_of_type _ p lc c1) as [[[lc2 n2] c2]|?|?|]; try discriminate. exact M0.
  - apply attr_lookup_no in Ty. apply sound_lift. intros u PA. apply prevent_attrs in PA. simpl in PA.
    destruct (remove_take "complexType" _ F) as (ct & r1 & E1 & T1 & F1). rewrite E1.
    destruct ct as [ct|]; simpl option_map; cbv iota.
    + eapply (sound_bind_pure d ns (fun rc => snd rc = map node_of r1) _ _ (fun nss st rc =>
         complex_type d nss ns st [] ct p (fst rc) /\ snd rc = map node_of r1)).
      * eapply sound_bind; [apply HC|]. intros r. apply sound_ret. auto.
      * tauto.
      * intros [r ch]. simpl. intros ->. apply sound_lift. intros u' PC. apply prevent_children in PC. subst r1.
        apply sound_ret. intros nss st [C _]. rewrite docs_eq. eapply ed_complex; eassumption.
    + destruct (take_none_eq _ _ _ _ T1 eq_refl) as [-> T1'].
      destruct (remove_take "simpleType" _ F) as (s & r2 & E2 & T2 & F2). rewrite E2.
      destruct s as [s|]; simpl option_map; cbv iota; [|eapply (sound_bind d ns _ _ (fun _ _ _ => False)); [apply sound_err|]; intros [? ?]; apply sound_lift; intros; apply sound_ret; contradiction].
      eapply (sound_bind_pure d ns (fun rc => snd rc = map node_of r2) _ _ (fun nss st rc =>
         simple_type d [] s (fst rc) /\ snd rc = map node_of r2)).
      * eapply sound_bind; [apply (simple_sound d ns (node_of s))|]. intros r. apply sound_ret. auto.
      * tauto.
      * intros [r ch]. simpl. intros ->. apply sound_lift. intros u' PC. apply prevent_children in PC. subst r2.
        apply sound_ret. intros nss st [C _]. rewrite docs_eq. eapply ed_simple; eassumption.
Qed.

Lemma group_sound fuel x p (b : bool) (rest : list node) : sequence_ok (sequence_parse fuel) ->
  sound (let '(mi, child) := n_attribute (node_of x) "minOccurs" in
         min <== plift (parse_min_occurs mi) ;;
         let '(ma, child) := n_attribute child "maxOccurs" in
         max <== plift (parse_max_occurs ma) ;;
         leaves <== sequence_parse fuel child p ;;
         let leaves := if b then map set_unordered leaves else leaves in
         if orb (max_is_vec max) (negb (N.eqb min min_default)) then
           leaf_name <== derive_virtual_name (map lf_name leaves) true ;;
           root_name <== derive_virtual_name [p; leaf_name] false ;;
           add_root root_name (virtual_root leaves) ;==
           discover_type root_name p ;==
           pret (Some (EcLeaves [named_leaf leaf_name root_name None min max]), rest)
         else pret (Some (EcLeaves leaves), rest))
    (fun nss st o => snd o = rest /\ exists content, fst o = Some content
       /\ group_content d nss ns st x p (if b then unordered else fun l => l) content).
Proof.
  intros HS. unfold n_attribute. cbv iota. simpl n_elem. simpl n_visited.
  apply sound_lift. intros min Mi. apply min_spec in Mi. apply sound_lift. intros max Ma. apply max_spec in Ma.
  eapply sound_bind; [apply HS|]. intros ls. cbv zeta.
  assert (Em : (if b then map set_unordered ls else ls) = map (if b then unordered else fun l => l) ls).
  { destruct b; [reflexivity|symmetry; apply map_id]. }
  rewrite Em. destruct (orb _ _) eqn:O.
  - apply sound_short. intros ln Hln. apply sound_made_up. intros rn ->.
    eapply sound_bind; [apply sound_add; reflexivity|]. intros u'. skip_discover. apply sound_ret. intros nss st Ad Sq. rewrite Hln.
    split; [reflexivity|]. eexists. split; [reflexivity|].
    apply gc_group with (ls := ls); try assumption; [|eapply sequence_of_seen; [|exact Sq]; incl].
    intros X. apply once_spec in X. congruence.
  - apply once_spec in O. apply sound_ret. intros nss st Sq. split; [reflexivity|]. eexists. split; [reflexivity|].
    eapply gc_inline; try eassumption. eapply sequence_of_seen; [|exact Sq]; incl.
Qed.

Lemma content_step fuel : sequence_ok (sequence_parse fuel) -> content_ok (complex_content_parse (S fuel)).
Proof.
  intros HS x p. cbn [complex_content_parse]. apply sound_lift. intros u PA. apply prevent_attrs in PA. simpl in PA.
  rewrite children_nodes. simpl n_elem. apply sound_lift. intros [ext rest] TR. apply try_remove in TR; [|apply children_xsd].
  destruct TR as (y & ys & -> & -> & T & F). apply sound_lift. intros u' PC. apply prevent_children in PC. subst ys.
  apply sound_lift. intros [base ext'] TA. apply try_attr in TA. destruct TA as [TA ->]. simpl n_elem in *.
  eapply sound_bind; [apply sound_type|]. intros [l|t|s]; try apply sound_err. skip_discover. cbv zeta.
  rewrite children_nodes. simpl n_elem.
  destruct (remove_take "sequence" _ (children_xsd y)) as (sq & r1 & E1 & T1 & F1). rewrite E1.
  eapply (sound_bind d ns _ _ (fun nss st vl => match sq with
     | None => vl = []
     | Some sq => exists min ls, min_of sq min /\ sequence_of d nss ns st ["minOccurs"] sq p ls
         /\ In (made_up ns [nm p; nm t], group_type ls) st
         /\ vl = [group_leaf (mkName (nm t) ns) (made_up ns [nm p; nm t]) None min (MaxNumber 1)] end)).
  - destruct sq as [sq|]; simpl option_map; cbv iota; [|apply sound_ret; reflexivity].
    unfold n_attribute. cbv iota. simpl n_elem. simpl n_visited. apply sound_lift. intros min Mi. apply min_spec in Mi.
    eapply sound_bind; [apply HS|]. intros ls. apply sound_get. intros c Ec. cbv zeta. rewrite (node_name _ _ _ _ Ec).
    apply sound_made_up. intros rn ->. eapply sound_bind; [apply sound_add; reflexivity|]. intros u2. skip_discover.
    apply sound_ret. intros nss st Ad Sq. exists min, ls. auto.
  - intros vl. apply attributes_sound; [exact F1|]. intros ats. apply sound_get. intros c Ec. rewrite (node_name _ _ _ _ Ec).
    apply sound_ret. intros nss st At Hv Ty. exists y, base, t, sq, r1.
    destruct sq as [sq|].
    + destruct Hv as (min & ls & Mi & Sq & Ad & ->). eexists _, ats. repeat (split; [first [eassumption|reflexivity]|]).
      split; [eapply xc_sequence; eassumption|]. split; [exact At|reflexivity].
    + subst vl. eexists _, ats. repeat (split; [first [eassumption|reflexivity]|]).
      split; [apply xc_none|]. split; [exact At|reflexivity].
Qed.

Lemma take_tag t l x rest : take t l (Some x) rest -> xe_tag x = t.
Proof. intros H. now inversion H. Qed.

Lemma ed_docs_eq ats content b docs : ed_with_docs (mkElementDef ats content b None) docs = mkElementDef ats content b docs.
Proof. destruct docs; reflexivity. Qed.

Lemma complex_step fuel : content_ok (complex_content_parse fuel) -> sequence_ok (sequence_parse fuel) ->
  choice_ok (choice_parse fuel) -> complex_ok (complex_type_parse (S fuel)).
Proof.
  intros HX HS HC [e v] p. cbn [complex_type_parse]. unfold n_attribute at 1. cbv iota. simpl n_elem. simpl n_visited.
  match goal with |- context [if ?b then _ else _] => destruct b eqn:Mx end; [apply sound_err|].
  assert (Mixed : forall a, the_attr e "mixed" a -> at_value a <> "true").
  { intros a Ha. apply attr_lookup_iff in Ha. rewrite Ha in Mx. now apply String.eqb_neq in Mx. }
  clear Mx. apply sound_lift. intros u PA. apply prevent_attrs in PA. simpl in PA. cbv zeta. rewrite children_nodes. simpl n_elem.
  destruct (remove_take "annotation" _ (children_xsd e)) as (an & rest & E & T & F). rewrite E.
  apply sound_lift. intros docs D. apply annotation_docs in D.
  destruct (remove_take "simpleContent" _ F) as (sc & r1 & E1 & T1 & F1). rewrite E1.
  destruct sc as [sc|]; simpl option_map; cbv iota.
  { apply sound_lift. intros u' PC. apply prevent_children in PC. subst r1.
    eapply sound_bind; [apply simple_content_sound|]. intros ed. apply sound_ret.
    intros nss st (ext & base & lc & ats & O & Te & B & Ty & At & ->). rewrite ed_docs_eq. eapply ct_simple_content; try eassumption; reflexivity. }
  destruct (take_none_eq _ _ _ _ T1 eq_refl) as [-> T1'].
  destruct (remove_take "complexContent" _ F) as (cc & r2 & E2 & T2 & F2). rewrite E2.
  destruct cc as [cc|]; simpl option_map; cbv iota.
  { apply sound_lift. intros u' PC. apply prevent_children in PC. subst r2.
    eapply sound_bind; [apply HX|]. intros ed. apply sound_ret.
    intros nss st (ext & base & t & sq & rest' & content & ats & O & Te & B & Ty & Ts & X & At & ->). rewrite ed_docs_eq.
    eapply ct_complex_content; eassumption. }
  destruct (take_none_eq _ _ _ _ T2 eq_refl) as [-> T2'].
  destruct (remove_take "sequence" _ F) as (sq & r3 & E3 & T3 & F3). rewrite E3.
  (* finishing: the attributes *)
  assert (Fin : forall r, Forall xsd r -> forall (m : P (option element_content * list node)),
    sound m (fun nss st o => snd o = map node_of r /\ content_model d nss ns st p rest (fst o) r) ->
    sound ('(content, children) <== m ;;
           attributes <== pcollect (attribute_parse p) (select_all "attribute" children) ;;
           plift (prevent_unvisited_children (mkNode e ("mixed" :: v)) (remove_all "attribute" children)) ;==
           pret (RootElement (mkElementDef attributes content false docs)))
      (fun nss st r => complex_type d nss ns st v e p r)).
  { intros r Fr m Hm. eapply (sound_bind_pure d ns (fun o => snd o = map node_of r)); [exact Hm|intros nss st o [H _]; exact H|].
    intros [content ch]. simpl. intros ->. apply attributes_sound; [exact Fr|]. intros ats. apply sound_ret.
    intros nss st At [_ C]. eapply ct_particles; eassumption. }
  destruct sq as [sq|]; simpl option_map; cbv iota.
  { apply (Fin r3 F3). change (n_name (node_of sq)) with (xe_tag sq). rewrite (take_tag _ _ _ _ T3).
    change ("sequence" =?s "all") with false. eapply sound_mono; [apply (group_sound fuel sq p false (map node_of r3) HS)|].
    intros nss st o (H1 & content & H2 & G). split; [exact H1|]. rewrite H2. eapply cm_sequence; eassumption. }
  destruct (take_none_eq _ _ _ _ T3 eq_refl) as [-> T3'].
  destruct (remove_take "all" _ F) as (al & r4 & E4 & T4 & F4). rewrite E4.
  destruct al as [al|]; simpl option_map; cbv iota.
  { apply (Fin r4 F4). change (n_name (node_of al)) with (xe_tag al). rewrite (take_tag _ _ _ _ T4).
    change ("all" =?s "all") with true. eapply sound_mono; [apply (group_sound fuel al p true (map node_of r4) HS)|].
    intros nss st o (H1 & content & H2 & G). split; [exact H1|]. rewrite H2. eapply cm_all; eassumption. }
  destruct (take_none_eq _ _ _ _ T4 eq_refl) as [-> T4'].
  destruct (remove_take "choice" _ F) as (ch & r5 & E5 & T5 & F5). rewrite E5.
  destruct ch as [ch|]; simpl option_map; cbv iota.
  { apply (Fin r5 F5). eapply sound_bind; [apply HC|]. intros vs. apply sound_get. intros c Ec.
    apply sound_made_up. intros rn ->. eapply sound_bind; [apply sound_add; reflexivity|]. intros u2. skip_discover.
    apply sound_ret. intros nss st Ad C. split; [reflexivity|]. eapply cm_choice; eassumption. }
  destruct (take_none_eq _ _ _ _ T5 eq_refl) as [-> T5'].
  apply (Fin rest F). apply sound_ret. intros nss st. split; [reflexivity|]. now apply cm_none.
Qed.

Lemma walk_ok fuel : root_ok (root_parse fuel) /\ element_ok (parse_root fuel) /\ member_ok (parse_child fuel)
  /\ complex_ok (complex_type_parse fuel) /\ content_ok (complex_content_parse fuel)
  /\ sequence_ok (sequence_parse fuel) /\ choice_ok (choice_parse fuel).
Proof.
  induction fuel as [|fuel (HR & HE & HM & HT & HX & HS & HC)].
  { repeat (split; [intros ? ?; apply sound_fuel|]). intros ? ?; apply sound_fuel. }
  split.
  { intros n p. cbn [root_parse]. change (n_name n) with (xe_tag (n_elem n)).
    destruct (String.eqb_spec (xe_tag (n_elem n)) "element") as [E|_].
    { eapply sound_mono; [apply HE|]. intros. now apply dc_element. }
    destruct (String.eqb_spec (xe_tag (n_elem n)) "complexType") as [E|_].
    { eapply sound_mono; [apply HT|]. intros. now apply dc_complex. }
    destruct (String.eqb_spec (xe_tag (n_elem n)) "simpleType") as [E|_]; [|apply sound_err].
    eapply sound_mono; [apply simple_sound|]. intros. now apply dc_simple. }
  split; [now apply element_step|]. split; [now apply child_step|]. split; [now apply complex_step|].
  split; [now apply content_step|]. split; [now apply sequence_step|]. now apply choice_step.
Qed.
End Walk.
