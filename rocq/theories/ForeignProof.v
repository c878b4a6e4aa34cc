(** * ForeignProof: foreign markup is ignored (C32) *)
From Verif Require Import Base Libs Xml Ast XsdNode Parse MiscProof ParseSpec DeclSpec ParseProof DeclProof1 DeclMain ForeignSpec.

Scheme dressed_mind := Induction for dressed Sort Prop
  with dressed_kids_mind := Induction for dressed_kids Sort Prop.

Section Positions.
Variable At : range -> range -> Prop.
Notation more_attrs := (ForeignSpec.more_attrs At).
Notation moved_attr := (ForeignSpec.moved_attr At).
Notation dressed := (ForeignSpec.dressed At).
Notation dressed_kids := (ForeignSpec.dressed_kids At).
Notation moved_err := (ForeignSpec.moved_err At).

(** ** Attributes *)
Definition oattr (o o' : option attr) : Prop := match o, o' with Some a, Some a' => moved_attr a a' | None, None => True | _, _ => False end.
Lemma more_lookup_in bare n l l' : more_attrs bare l l' -> (In n xsd_attr_names \/ In n bare) -> oattr (attr_lookup n l) (attr_lookup n l').
Proof.
  intros H Hn. induction H as [|a b l l' Hab _ IH|a l l' _ N1 N2 _ IH]; simpl; [exact I| |].
  - destruct (attr_lookup n l), (attr_lookup n l'); simpl in IH; try contradiction; [exact IH|].
    rewrite (proj1 (proj1 Hab)). destruct (at_name a =?s n); simpl; [exact Hab|exact I].
  - destruct (attr_lookup n l), (attr_lookup n l'); simpl in IH; try contradiction; [exact IH|].
    destruct (at_name a =?s n) eqn:E; [|exact I]. apply String.eqb_eq in E. subst. destruct Hn; contradiction.
Qed.
Lemma in_bare l a : In a l -> at_ns a = None -> In (at_name a) (bare_names l).
Proof. intros I N. apply in_map. apply filter_In. split; [exact I|]. now rewrite N. Qed.
Lemma attr_lookup_in n l a : attr_lookup n l = Some a -> In a l /\ at_name a = n.
Proof.
  induction l as [|b l IH]; simpl; [discriminate|]. destruct (attr_lookup n l) as [c|].
  - intros E. injection E as ->. destruct (IH eq_refl). auto.
  - destruct (at_name b =?s n) eqn:E; [|discriminate]. intros E'. injection E' as ->. apply String.eqb_eq in E. auto.
Qed.
Lemma more_in bare l l' a : more_attrs bare l l' -> In a l' -> at_ns a = None -> exists b, In b l /\ at_ns b = None /\ at_name b = at_name a.
Proof.
  intros H. induction H as [|b b' l l' Hb _ IH|b l l' N0 _ _ _ IH]; simpl; [tauto| |]; intros [->|I] N.
  - destruct Hb as ((E1 & E2 & _) & _). exists b. rewrite <- E2. auto.
  - destruct (IH I N) as (c & Hc & H). exists c. auto.
  - contradiction.
  - destruct (IH I N) as (c & Hc & H). exists c. auto.
Qed.
(** A lookup of any name: the same, or both are in a namespace. *)
Lemma more_lookup ats ats' n : more_attrs (bare_names ats) ats ats' ->
  oattr (attr_lookup n ats) (attr_lookup n ats')
  \/ (forall b, attr_lookup n ats = Some b -> at_ns b <> None) /\ (forall b, attr_lookup n ats' = Some b -> at_ns b <> None).
Proof.
  intros H. destruct (in_dec string_dec n (bare_names ats)) as [I|I]; [left; apply (more_lookup_in _ _ _ _ H); auto|].
  right. split.
  - intros b E N. apply attr_lookup_in in E. destruct E as [E <-]. apply I, in_bare; assumption.
  - intros b E N. apply attr_lookup_in in E. destruct E as [E <-]. apply I.
    destruct (more_in _ _ _ _ H E N) as (c & Hc & Nc & <-). now apply in_bare.
Qed.
Lemma more_unvisited bare all all' vis l l' :
  (forall n, oattr (attr_lookup n all) (attr_lookup n all')
    \/ (forall b, attr_lookup n all = Some b -> at_ns b <> None) /\ (forall b, attr_lookup n all' = Some b -> at_ns b <> None)) ->
  (forall a b, In a l' -> attr_lookup (at_name a) all' = Some b -> at_ns b = None -> In (at_name a) bare) ->
  more_attrs bare l l' -> oattr (unvisited all vis l) (unvisited all' vis l').
Proof.
  intros Hl Hi H. induction H as [|a a' l l' Ha H IH|a l l' N0 N1 N2 H IH]; simpl; [exact I| |].
  - assert (IH' := IH (fun x b I => Hi x b (or_intror I))). rewrite (proj1 (proj1 Ha)).
    destruct (Hl (at_name a)) as [E|[E1 E2]].
    + destruct (attr_lookup (at_name a) all) as [b|], (attr_lookup (at_name a) all') as [b'|]; simpl in E; try contradiction; [|exact IH'].
      pose proof E as ((F1 & F2 & _) & _). rewrite F1, F2. destruct (andb _ _); [exact E|exact IH'].
    + destruct (attr_lookup (at_name a) all) as [b|]; destruct (attr_lookup (at_name a) all') as [b'|]; try exact IH'.
      * specialize (E1 b eq_refl). specialize (E2 b' eq_refl). destruct (at_ns b); [|congruence]. destruct (at_ns b'); [|congruence]. exact IH'.
      * specialize (E1 b eq_refl). destruct (at_ns b); [|congruence]. exact IH'.
      * specialize (E2 b' eq_refl). destruct (at_ns b'); [|congruence]. exact IH'.
  - assert (IH' := IH (fun x b I => Hi x b (or_intror I))).
    destruct (attr_lookup (at_name a) all') as [b|] eqn:E; [|exact IH'].
    destruct (at_ns b) eqn:Nb; [exact IH'|]. exfalso. apply N2. eapply Hi; [now left|exact E|exact Nb].
Qed.

(** ** Nodes *)
(** Results that are related, errors the same up to the position. *)
Definition lrel {A} (Q : A -> A -> Prop) (m m' : res xsd_err A) : Prop :=
  match m, m' with
  | Ok a, Ok a' => Q a a'
  | Err e, Err e' => moved_err e e'
  | Panic w, Panic w' => w' = w
  | OutOfFuel, OutOfFuel => True
  | _, _ => False
  end.
Lemma lrel_bind {A B} (Q : A -> A -> Prop) (S : B -> B -> Prop) m m' (k k' : A -> res xsd_err B) :
  lrel Q m m' -> (forall a a', Q a a' -> lrel S (k a) (k' a')) -> lrel S (bind m k) (bind m' k').
Proof. intros H K. destruct m, m'; simpl in *; try contradiction; auto. Qed.

Definition nrel (n n' : node) : Prop := dressed (n_elem n) (n_elem n') /\ n_visited n = n_visited n'.
Lemma dressed_same e e' : dressed e e' -> xe_tag e' = xe_tag e /\ xe_ns e' = xe_ns e
  /\ more_attrs (bare_names (xe_attrs e)) (xe_attrs e) (xe_attrs e') /\ dressed_kids (xe_kids e) (xe_kids e')
  /\ (xe_tag e = "documentation" -> first_text (xe_kids e') = first_text (xe_kids e)) /\ At (xe_range e) (xe_range e').
Proof. intros H. destruct H; simpl; auto 10. Qed.
Lemma nrel_range n n' : dressed (n_elem n) (n_elem n') /\ n_visited n = n_visited n' -> At (n_range n) (n_range n').
Proof. intros [H _]. apply (dressed_same _ _ H). Qed.
Lemma moved_at e e' r r' : err_text e' = err_text e -> xsd_err_range e = Some r -> xsd_err_range e' = Some r' -> At r r' -> moved_err e e'.
Proof. intros T E E' H. split; [exact T|]. intros ? ? F F'. rewrite E in F. rewrite E' in F'. injection F as <-. injection F' as <-. exact H. Qed.
Ltac mv := eapply moved_at; [simpl; first [reflexivity|congruence]|reflexivity|reflexivity|first [eassumption|now apply nrel_range]].
Lemma nrel_name n n' : nrel n n' -> n_name n' = n_name n.
Proof. intros [H _]. apply (dressed_same _ _ H). Qed.
Lemma nrel_attr n n' k : nrel n n' -> In k xsd_attr_names ->
  exists o o' m m', n_attribute n k = (o, m) /\ n_attribute n' k = (o', m') /\ oattr o o' /\ nrel m m'.
Proof.
  intros [D V] I. unfold n_attribute. exists (attr_lookup k (xe_attrs (n_elem n))), (attr_lookup k (xe_attrs (n_elem n'))), (mkNode (n_elem n) (k :: n_visited n)), (mkNode (n_elem n') (k :: n_visited n')).
  split; [reflexivity|]. split; [reflexivity|]. split; [|split; [exact D|simpl; now rewrite V]]. destruct (dressed_same _ _ D) as (_ & _ & H & _). apply (more_lookup_in _ _ _ _ H). auto.
Qed.
Lemma nrel_unvisited n n' : nrel n n' -> lrel eq (prevent_unvisited_attributes n) (prevent_unvisited_attributes n').
Proof.
  intros R. unfold prevent_unvisited_attributes. rewrite (nrel_name _ _ R). destruct R as [D V]. rewrite <- V.
  destruct (dressed_same _ _ D) as (_ & _ & H & _). set (ats := xe_attrs (n_elem n)) in *. set (ats' := xe_attrs (n_elem n')) in *.
  assert (U : oattr (unvisited ats (n_visited n) ats) (unvisited ats' (n_visited n) ats')).
  { apply (more_unvisited (bare_names ats)); [intros m; now apply more_lookup| |exact H].
    intros a b I E Nb. apply attr_lookup_in in E. destruct E as [E <-].
    destruct (more_in _ _ _ _ H E Nb) as (c & Hc & Nc & <-). now apply in_bare. }
  destruct (unvisited ats (n_visited n) ats) as [a|], (unvisited ats' (n_visited n) ats') as [a'|]; simpl in U; try contradiction; simpl; [|reflexivity].
  destruct U as ((-> & _) & U). split; [reflexivity|]. simpl. intros ? ? [= <-] [= <-]. exact U.
Qed.
Lemma has_name_dressed e e' t ns : dressed e e' -> has_name t ns e' = has_name t ns e.
Proof. intros H. unfold has_name. destruct (dressed_same _ _ H) as (-> & -> & _). reflexivity. Qed.

Lemma dressed_refl : (forall r, At r r) -> forall e, dressed e e.
Proof.
  intros Hr. fix IH 1. intros [t ns ats nss r ks]. constructor.
  - generalize (bare_names ats). intros b. induction ats; constructor; auto. split; [repeat split|apply Hr].
  - reflexivity.
  - apply Hr.
  - induction ks as [|[e|s|s] ks I]; [constructor|apply dk_elem; [apply IH|exact I]|now apply dk_text|now apply dk_other].
Qed.
Lemma dressed_children ks ks' : dressed_kids ks ks' ->
  Forall2 dressed (filter (fun c => opt_eqb String.eqb (xe_ns c) (Some NS_XSD)) (elems_of ks))
    (filter (fun c => opt_eqb String.eqb (xe_ns c) (Some NS_XSD)) (elems_of ks')).
Proof.
  intros H. induction H as [|e e' ks ks' He H IH|k ks ks' H IH|k k' ks ks' H IH|k ks ks' N H IH]; simpl; [constructor| |exact IH|exact IH|].
  - assert (E : xe_ns e' = xe_ns e) by apply (dressed_same _ _ He). rewrite E. destruct (opt_eqb _ _ _); [constructor|]; assumption.
  - destruct k as [e|s|s]; simpl; try exact IH. destruct (opt_eqb String.eqb (xe_ns e) (Some NS_XSD)) eqn:E; [|exact IH].
    apply opt_eqb_Some in E. exfalso. exact (N e eq_refl E).
Qed.
Lemma nrel_children n n' : nrel n n' -> Forall2 nrel (n_children n NS_XSD) (n_children n' NS_XSD).
Proof.
  intros [D _]. unfold n_children, xe_children. destruct (dressed_same _ _ D) as (_ & _ & _ & K & _). set (ks := xe_kids (n_elem n)) in *. set (ks' := xe_kids (n_elem n')) in *.
  apply dressed_children in K. induction K as [|x x' l l' Hx K IH]; simpl; [constructor|].
  constructor; [split; [exact Hx|reflexivity]|exact IH].
Qed.
Definition orel (o o' : option node) : Prop := match o, o' with Some n, Some n' => nrel n n' | None, None => True | _, _ => False end.
Lemma crel_remove t l l' : Forall2 nrel l l' -> exists o r o' r',
  c_remove t (Some NS_XSD) l = (o, r) /\ c_remove t (Some NS_XSD) l' = (o', r') /\ orel o o' /\ Forall2 nrel r r'.
Proof.
  induction 1 as [|n n' l l' H F IH]; simpl; [exists None, [], None, []; simpl; auto|].
  rewrite (has_name_dressed _ _ _ _ (proj1 H)). destruct (has_name t (Some NS_XSD) (n_elem n)).
  - exists (Some n), l, (Some n'), l'. auto.
  - destruct IH as (o & r & o' & r' & -> & -> & Ho & Hr). exists o, (n :: r), o', (n' :: r'). auto.
Qed.
Lemma crel_unvisited p p' l l' : nrel p p' -> Forall2 nrel l l' -> lrel eq (prevent_unvisited_children p l) (prevent_unvisited_children p' l').
Proof.
  intros Hp F. inversion F as [|n n' r r' H F']; subst; simpl; [reflexivity|].
  rewrite (nrel_name _ _ H), (nrel_name _ _ Hp). mv.
Qed.
Lemma crel_filter (p : node -> bool) l l' : (forall n n', nrel n n' -> p n' = p n) -> Forall2 nrel l l' ->
  Forall2 nrel (filter p l) (filter p l').
Proof.
  intros Hp. induction 1 as [|n n' l l' H F IH]; simpl; [constructor|]. rewrite (Hp _ _ H). destruct (p n); [constructor|]; assumption.
Qed.
Lemma crel_remove_all t l l' : Forall2 nrel l l' -> Forall2 nrel (remove_all t l) (remove_all t l').
Proof. apply crel_filter. intros n n' [D _]. now rewrite (has_name_dressed _ _ _ _ D). Qed.
Lemma crel_select_all t l l' : Forall2 nrel l l' -> Forall2 nrel (select_all t l) (select_all t l').
Proof. apply crel_filter. intros n n' [D _]. now rewrite (has_name_dressed _ _ _ _ D). Qed.
Lemma find_children t (l : list xelem) : find (has_name t (Some NS_XSD)) (filter (fun c => opt_eqb String.eqb (xe_ns c) (Some NS_XSD)) l)
  = find (has_name t (Some NS_XSD)) l.
Proof.
  induction l as [|e l IH]; simpl; [reflexivity|]. unfold has_name at 2. destruct (opt_eqb String.eqb (xe_ns e) (Some NS_XSD)) eqn:E; simpl.
  - unfold has_name at 1. rewrite E. destruct (andb _ _); [reflexivity|exact IH].
  - rewrite andb_false_r. exact IH.
Qed.
Lemma nrel_child n n' t : nrel n n' -> orel (n_child n t (Some NS_XSD)) (n_child n' t (Some NS_XSD)).
Proof.
  intros [D _]. unfold n_child, xe_children. destruct (dressed_same _ _ D) as (_ & _ & _ & K & _). set (ks := xe_kids (n_elem n)) in *. set (ks' := xe_kids (n_elem n')) in *.
  rewrite <- (find_children t (elems_of ks)), <- (find_children t (elems_of ks')).
  apply dressed_children in K. induction K as [|x x' l l' Hx K IH]; simpl; [exact I|].
  rewrite (has_name_dressed _ _ _ _ Hx). destruct (has_name t _ x); [|exact IH]. simpl. split; [exact Hx|reflexivity].
Qed.
Definition arel (x x' : attr * node) : Prop := moved_attr (fst x) (fst x') /\ nrel (snd x) (snd x').
Lemma nrel_try_attr n n' k : nrel n n' -> In k xsd_attr_names -> lrel arel (n_try_attribute n k) (n_try_attribute n' k).
Proof.
  intros R I. unfold n_try_attribute. destruct (nrel_attr n n' k R I) as (o & o' & m & m' & -> & -> & Ho & H).
  destruct o as [a|], o' as [a'|]; simpl in Ho; try contradiction; [split; assumption|]. simpl. rewrite (nrel_name _ _ R). mv.
Qed.
Lemma crel_try_remove p p' t l l' : nrel p p' -> Forall2 nrel l l' ->
  lrel (fun x x' => nrel (fst x) (fst x') /\ Forall2 nrel (snd x) (snd x'))
    (c_try_remove p t (Some NS_XSD) l) (c_try_remove p' t (Some NS_XSD) l').
Proof.
  intros R F. unfold c_try_remove. destruct (crel_remove t l l' F) as (o & r & o' & r' & -> & -> & Ho & Hr).
  destruct o, o'; simpl in Ho; try contradiction; simpl; auto. mv.
Qed.
Lemma doc_text n n' : nrel n n' -> n_name n = "documentation" -> lrel eq (n_try_text n) (n_try_text n').
Proof.
  intros R E. unfold n_try_text. rewrite (nrel_name _ _ R). pose proof R as [D _].
  destruct (dressed_same _ _ D) as (_ & _ & _ & _ & K & _). specialize (K E).
  destruct (xe_kids (n_elem n)) as [|[x|x|x] l], (xe_kids (n_elem n')) as [|[y|y|y] l']; simpl in K; try discriminate; simpl; try mv.
  now injection K as ->.
Qed.
Lemma c_remove_tag t ns l n r : c_remove t ns l = (Some n, r) -> n_name n = t.
Proof.
  revert r. induction l as [|x l IH]; simpl; intros r H; [discriminate|]. destruct (has_name t ns (n_elem x)) eqn:E.
  - injection H as -> _. unfold has_name in E. apply andb_true_iff in E. now apply String.eqb_eq.
  - destruct (c_remove t ns l) as [o r']. injection H as -> _. exact (IH _ eq_refl).
Qed.
Lemma rel_annotation o o' : orel o o' -> lrel eq (parse_annotation o) (parse_annotation o').
Proof.
  destruct o as [n|], o' as [n'|]; simpl; try contradiction; auto. intros R. unfold annotation_parse.
  destruct (crel_remove "documentation" _ _ (nrel_children _ _ R)) as (d & r & d' & r' & E & E' & Hd & Hr). rewrite E, E'.
  apply (lrel_bind eq).
  - destruct d as [d|], d' as [d'|]; simpl in Hd; try contradiction; [|reflexivity].
    apply (lrel_bind eq); [apply (doc_text _ _ Hd (c_remove_tag _ _ _ _ _ E))|]. intros s _ <-. reflexivity.
  - intros s _ <-. apply (lrel_bind eq); [apply (crel_unvisited _ _ _ _ R (crel_remove_all "documentation" _ _ Hr))|]. intros _ _ _.
    apply (lrel_bind eq); [apply (nrel_unvisited _ _ R)|]. reflexivity.
Qed.
Lemma rel_min o o' : oattr o o' -> lrel eq (parse_min_occurs o) (parse_min_occurs o').
Proof.
  destruct o as [a|], o' as [a'|]; simpl; try contradiction; auto. intros ((_ & _ & ->) & A). destruct (u32_from_str _); [reflexivity|mv].
Qed.
Lemma rel_max o o' : oattr o o' -> lrel eq (parse_max_occurs o) (parse_max_occurs o').
Proof.
  destruct o as [a|], o' as [a'|]; simpl; try contradiction; auto. intros ((_ & _ & ->) & A).
  destruct (_ =?s _); [reflexivity|]. destruct (u32_from_str _); [reflexivity|mv].
Qed.

Section Foreign.
Context {L : Libs}.
Lemma rel_facet n n' : nrel n n' -> lrel eq (parse_facet n) (parse_facet n').
Proof.
  intros R. unfold parse_facet. rewrite (nrel_name _ _ R).
  assert (H : In "value" xsd_attr_names) by (simpl; tauto). apply (nrel_try_attr n n' "value" R) in H.
  destruct (n_try_attribute n "value") as [[a m]|e|w|], (n_try_attribute n' "value") as [[a' m']|e'|w'|]; simpl in H; try contradiction.
  - destruct H as [((_ & _ & H) & A) _]. simpl in H, A. simpl. rewrite H.
    repeat match goal with |- context [if ?b then _ else _] => destruct b end; try reflexivity;
    repeat match goal with |- lrel _ (match ?x with Some _ => _ | None => _ end) _ => destruct x end; try reflexivity; simpl; mv.
  - simpl. repeat match goal with |- context [if ?b then _ else _] => destruct b end; simpl; try exact H; try reflexivity; mv.
  - simpl. subst. repeat match goal with |- context [if ?b then _ else _] => destruct b end; try reflexivity; simpl; mv.
  - simpl. repeat match goal with |- context [if ?b then _ else _] => destruct b end; try reflexivity; simpl; mv.
Qed.

(** ** Parsers *)
Variable strict : Prop.
Definition set_nss (N : list (string * string)) (c : ctx) : ctx :=
  mkCtx (cx_roots c) (cx_default_ns c) (cx_target c) N (cx_qualified c) (cx_shared c).
Definition crel (c c' : ctx) : Prop :=
  c' = set_nss (cx_doc_nss c') c
  /\ (forall p u, aget String.eqb p (cx_doc_nss c) = Some u -> aget String.eqb p (cx_doc_nss c') = Some u)
  /\ (strict -> cx_doc_nss c' = cx_doc_nss c).
Definition rel {A} (Q : A -> A -> Prop) (m m' : P A) : Prop := forall c c', crel c c' ->
  match m c with
  | Ok (a, c1) => exists a' c1', m' c' = Ok (a', c1') /\ Q a a' /\ crel c1 c1'
  | Err e => strict -> exists e', m' c' = Err e' /\ moved_err e e'
  | Panic w => strict -> m' c' = Panic w
  | OutOfFuel => strict -> m' c' = OutOfFuel
  end.
Lemma rel_bind {A B} (Q : A -> A -> Prop) (S : B -> B -> Prop) (m m' : P A) (k k' : A -> P B) :
  rel Q m m' -> (forall a a', Q a a' -> rel S (k a) (k' a')) -> rel S (pbind m k) (pbind m' k').
Proof.
  intros H K c c' C. specialize (H c c' C). unfold pbind. destruct (m c) as [[a c1]|e|w|].
  - destruct H as (a' & c1' & -> & Qa & C1). exact (K a a' Qa c1 c1' C1).
  - intros St. destruct (H St) as (e' & -> & E). exists e'. auto.
  - intros St. now rewrite (H St).
  - intros St. now rewrite (H St).
Qed.
Lemma rel_ret {A} (Q : A -> A -> Prop) a a' : Q a a' -> rel Q (pret a) (pret a').
Proof. intros H c c' C. simpl. exists a', c'. auto. Qed.
Lemma rel_err {A} (Q : A -> A -> Prop) e e' : moved_err e e' -> rel Q (perr e) (perr e').
Proof. intros H c c' C. simpl. intros _. exists e'. auto. Qed.
Lemma rel_fuel {A} (Q : A -> A -> Prop) : rel Q (fun _ => OutOfFuel) (fun _ => OutOfFuel).
Proof. intros c c' C. simpl. auto. Qed.
Lemma rel_plift {A} (Q : A -> A -> Prop) (m m' : res xsd_err A) : lrel Q m m' -> rel Q (plift m) (plift m').
Proof.
  intros H c c' C. destruct m as [a|e|w|], m' as [a'|e'|w'|]; simpl in *; try contradiction; auto.
  - exists a', c'. auto.
  - intros _. exists e'. auto.
  - intros _. now rewrite H.
Qed.
Lemma rel_get : rel crel pget pget.
Proof. intros c c' C. simpl. exists c', c'. auto. Qed.
Lemma rel_try_attr n n' k : nrel n n' -> In k xsd_attr_names -> rel arel (plift (n_try_attribute n k)) (plift (n_try_attribute n' k)).
Proof. intros R I. apply rel_plift. now apply nrel_try_attr. Qed.
Lemma rel_try_remove p p' t l l' : nrel p p' -> Forall2 nrel l l' ->
  rel (fun x x' => nrel (fst x) (fst x') /\ Forall2 nrel (snd x) (snd x'))
    (plift (c_try_remove p t (Some NS_XSD) l)) (plift (c_try_remove p' t (Some NS_XSD) l')).
Proof. intros R F. apply rel_plift. now apply crel_try_remove. Qed.
Lemma crel_shared s c c' : crel c c' -> crel (set_shared s c) (set_shared s c').
Proof. intros (E & H). rewrite E. split; [reflexivity|exact H]. Qed.
Lemma crel_same c c' : crel c c' -> cx_shared c' = cx_shared c /\ cx_target c' = cx_target c /\ cx_qualified c' = cx_qualified c
  /\ cx_default_ns c' = cx_default_ns c /\ cx_roots c' = cx_roots c.
Proof. intros (E & _). rewrite E. auto. Qed.
Lemma rel_type a a' : moved_attr a a' -> rel eq (get_type_name a) (get_type_name a').
Proof.
  intros ((_ & _ & Ev) & Av) c c' C. unfold get_type_name. rewrite Ev. destruct (crel_same _ _ C) as (Es & _ & _ & Ed & _). rewrite Es, Ed.
  destruct (split_colon (at_value a)) as [[p l]|].
  - destruct C as (E & Ha & Hs). destruct (aget String.eqb p (cx_doc_nss c)) as [u|] eqn:G.
    + rewrite (Ha _ _ G). destruct (u =?s NS_XSD).
      * destruct (literal_from_str l); [|intros _; eexists; split; [reflexivity|mv]]. do 2 eexists. split; [reflexivity|]. split; [reflexivity|]. split; auto.
      * destruct (get_or_insert _ u). do 2 eexists. split; [reflexivity|]. split; [reflexivity|]. apply crel_shared. split; auto.
    + intros St. rewrite (Hs St), G. eexists. split; [reflexivity|mv].
  - destruct (opt_eqb _ _ _); [destruct (literal_from_str _); [|intros _; eexists; split; [reflexivity|mv]]|]; do 2 eexists; (split; [reflexivity|]); auto.
Qed.
Lemma rel_discover n p : rel eq (discover_type n p) (discover_type n p).
Proof.
  intros c c' C. unfold discover_type, pmod. destruct (crel_same _ _ C) as (Es & _). rewrite Es.
  do 2 eexists. split; [reflexivity|]. split; [reflexivity|]. now apply crel_shared.
Qed.
Lemma rel_add n r : rel eq (add_root n r) (add_root n r).
Proof.
  intros c c' C. unfold add_root, pmod. destruct (crel_same _ _ C) as (_ & _ & _ & _ & Er). rewrite Er.
  do 2 eexists. split; [reflexivity|]. split; [reflexivity|]. destruct C as (E & H). rewrite E. split; [reflexivity|exact H].
Qed.
Lemma crel_name c c' s b : crel c c' -> get_node_name c' s b = get_node_name c s b.
Proof. intros C. unfold get_node_name. destruct (crel_same _ _ C) as (_ & -> & -> & _). reflexivity. Qed.
Lemma concat_err l e : concat_upper l <> Err e.
Proof.
  induction l as [|[|c r] l IH]; simpl; [discriminate|exact IH|]. destruct (starts_with_cont r); [discriminate|]. destruct (concat_upper l); simpl; congruence.
Qed.
Lemma rel_virtual ns b : rel eq (derive_virtual_name ns b) (derive_virtual_name ns b).
Proof.
  intros c c' C. unfold derive_virtual_name. cbv zeta.
  match goal with |- context [match ?x with Some s => _ | None => _ end] => destruct x end.
  - do 2 eexists. split; [reflexivity|]. split; [now rewrite (crel_name _ _ _ _ C)|exact C].
  - destruct (concat_upper _) eqn:Ecu; simpl; auto; [|exfalso; exact (concat_err _ _ Ecu)]. do 2 eexists. split; [reflexivity|]. split; [now rewrite (crel_name _ _ _ _ C)|exact C].
Qed.
Lemma rel_collect {B} (f f' : node -> P (option B)) l l' : (forall n n', nrel n n' -> rel eq (f n) (f' n')) ->
  Forall2 nrel l l' -> rel eq (pcollect f l) (pcollect f' l').
Proof.
  intros H. induction 1 as [|n n' l l' Hn F IH]; simpl; [now apply rel_ret|].
  apply (rel_bind eq); [now apply H|]. intros o o' <-. apply (rel_bind eq); [exact IH|]. intros bs bs' <-. now apply rel_ret.
Qed.
Lemma rel_content n n' p ct : nrel n n' ->
  rel (fun x x' => fst x = fst x' /\ nrel (snd x) (snd x')) (content_of_type n p ct) (content_of_type n' p ct).
Proof.
  intros R. unfold content_of_type. destruct ct.
  - destruct (nrel_attr n n' "fixed" R) as (o & o' & m & m' & -> & -> & Ho & H); [simpl; tauto|]. apply rel_ret.
    destruct o as [a|], o' as [a'|]; simpl in Ho; try contradiction; simpl; [|auto]. destruct Ho as ((_ & _ & ->) & _). auto.
  - apply (rel_bind eq); [apply rel_discover|]. intros _ _ _. apply rel_ret. auto.
  - apply rel_ret. auto.
Qed.

Ltac xin := simpl; tauto.
(** [x <- plift (check n) ;; k] on both sides. *)
Lemma rel_check {A} (Q : A -> A -> Prop) (m m' : res xsd_err unit) (k k' : P A) : lrel eq m m' -> rel Q k k' ->
  rel Q (pbind (plift m) (fun _ => k)) (pbind (plift m') (fun _ => k')).
Proof. intros E H. apply (rel_bind eq); [now apply rel_plift|]. intros _ _ _. exact H. Qed.
Lemma rel_lift {A B} (Q : B -> B -> Prop) (m m' : res xsd_err A) (k k' : A -> P B) : lrel eq m m' -> (forall a, rel Q (k a) (k' a)) ->
  rel Q (pbind (plift m) k) (pbind (plift m') k').
Proof. intros E H. apply (rel_bind eq); [now apply rel_plift|]. intros a _ <-. apply H. Qed.
Lemma rel_eqb {A B} (Q : B -> B -> Prop) (m m' : P A) (k k' : A -> P B) : rel eq m m' -> (forall a, rel Q (k a) (k' a)) ->
  rel Q (pbind m k) (pbind m' k').
Proof. intros E H. apply (rel_bind eq); [exact E|]. intros a _ <-. apply H. Qed.
Lemma rel_names {B} (Q : B -> B -> Prop) (k k' : ctx -> P B) :
  (forall c c', crel c c' -> rel Q (k c) (k' c')) -> rel Q (pbind pget k) (pbind pget k').
Proof. intros H. apply (rel_bind crel); [apply rel_get|exact H]. Qed.

Ltac remove_step t Hl o o' Ho r r' Hr :=
  let E := fresh in let E' := fresh in
  destruct (crel_remove t _ _ Hl) as (o & r & o' & r' & E & E' & Ho & Hr); rewrite E, E'; clear E E'.
Ltac attr_step k Hn o o' Ho m m' Hm :=
  let E := fresh in let E' := fresh in
  destruct (nrel_attr _ _ k Hn) as (o & o' & m & m' & E & E' & Ho & Hm); [xin|]; rewrite E, E'; clear E E'.

Lemma rel_simple n n' : nrel n n' -> rel eq (simple_type_parse n) (simple_type_parse n').
Proof.
  intros R. unfold simple_type_parse. apply rel_check; [apply (nrel_unvisited _ _ R)|].
  pose proof (nrel_children _ _ R) as Hc. remove_step "annotation" Hc an an' Han r r' Hr.
  apply rel_lift; [apply (rel_annotation _ _ Han)|]. intros docs.
  eapply rel_bind; [apply (rel_try_remove _ _ "restriction" _ _ R Hr)|]. intros [x l] [x' l'] [Hx Hl]. simpl in Hx, Hl.
  eapply rel_bind; [apply (rel_try_attr _ _ "base" Hx); xin|]. intros [a m] [a' m'] [Ea Hm]. simpl in Ea, Hm. pose proof Ea as ((_ & _ & Ev) & Av).
  apply rel_eqb; [apply (rel_type _ _ Ea)|]. intros [lit|nm|fx]; try (apply rel_err; mv).
  apply rel_check; [apply (crel_unvisited _ _ _ _ R Hl)|].
  apply rel_lift; [|intros fs; now apply rel_ret].
  pose proof (nrel_children _ _ Hm) as F. induction F as [|y y' ys ys' Hy F IH]; simpl; [reflexivity|].
  apply (lrel_bind eq); [now apply rel_facet|]. intros b _ <-. apply (lrel_bind eq); [exact IH|]. now intros bs _ <-.
Qed.

Lemma rel_attribute p n n' : nrel n n' -> rel eq (attribute_parse p n) (attribute_parse p n').
Proof.
  intros R. unfold attribute_parse.
  eapply rel_bind; [apply (rel_try_attr _ _ "name" R); xin|]. intros [na m] [na' m'] [Ea Hm]. simpl in Ea, Hm. pose proof Ea as ((_ & _ & Ev) & Av). rewrite Ev.
  pose proof (nrel_children _ _ Hm) as Hc. remove_step "annotation" Hc an an' Han r r' Hr.
  apply rel_lift; [apply (rel_annotation _ _ Han)|]. intros docs.
  remove_step "simpleType" Hr st st' Hst q q' Hq.
  apply (rel_bind (fun x x' => fst x = fst x' /\ nrel (snd x) (snd x'))).
  - destruct st as [st|], st' as [st'|]; simpl in Hst; try contradiction.
    + apply rel_eqb; [apply (rel_simple _ _ Hst)|]. intros rt.
      assert (G : rel (fun x x' => fst x = fst x' /\ nrel (snd x) (snd x'))
        (c <== pget ;; vn <== derive_virtual_name [p; mkName (at_value na) NsNone; get_node_name c "Data" false] false ;;
            add_root vn rt ;== discover_type vn p ;== pret (LcNamed vn, m))
        (c <== pget ;; vn <== derive_virtual_name [p; mkName (at_value na) NsNone; get_node_name c "Data" false] false ;;
            add_root vn rt ;== discover_type vn p ;== pret (LcNamed vn, m'))).
      { apply rel_names. intros c c' C. rewrite (crel_name _ _ _ _ C). apply rel_eqb; [apply rel_virtual|]. intros vn.
        apply rel_eqb; [apply rel_add|]. intros _. apply rel_eqb; [apply rel_discover|]. intros _. apply rel_ret. auto. }
      destruct rt as [[[l|nm|fx] rs ds]|ns|ed|cd]; try exact G. apply rel_ret. auto.
    + eapply rel_bind; [apply (rel_try_attr _ _ "type" Hm); xin|]. intros [ta k] [ta' k'] [Et Hk]. simpl in Et, Hk.
      apply rel_eqb; [apply (rel_type _ _ Et)|]. intros ct. now apply rel_content.
  - intros [ct k] [ct' k'] [Ec Hk]. simpl in Ec, Hk. subst ct'. apply rel_check; [apply (crel_unvisited _ _ _ _ Hk Hq)|].
    attr_step "default" Hk def defx defr k1 k1' Hk1. attr_step "use" Hk1 use usex user k2 k2' Hk2.
    rewrite (nrel_name _ _ Hk2).
    assert (G : forall b, rel eq
      (if andb (is_some def) (negb b) then perr (XeUnexpectedAttribute "default" (n_name k2) (n_range k2))
       else plift (prevent_unvisited_attributes k2) ;== pret (Some (mkAttribute (mkName (at_value na) NsNone) ct (option_map at_value def) b docs)))
      (if andb (is_some defx) (negb b) then perr (XeUnexpectedAttribute "default" (n_name k2) (n_range k2'))
       else plift (prevent_unvisited_attributes k2') ;== pret (Some (mkAttribute (mkName (at_value na) NsNone) ct (option_map at_value defx) b docs)))).
    { intros b. assert (E1 : is_some defx = is_some def) by (destruct def, defx; simpl in defr; try contradiction; reflexivity).
      assert (E2 : option_map at_value defx = option_map at_value def) by (destruct def, defx; simpl in defr; try contradiction; simpl; f_equal; apply defr).
      rewrite E1, E2. destruct (andb _ _); [apply rel_err; mv|]. apply rel_check; [apply (nrel_unvisited _ _ Hk2)|]. now apply rel_ret. }
    cbv zeta. destruct use as [u|], usex as [u'|]; simpl in user; try contradiction; [|apply G]. destruct user as ((_ & _ & Eu) & Au). rewrite Eu.
    destruct (at_value u =?s "required"); [apply G|]. destruct (at_value u =?s "optional"); [apply G|].
    destruct (at_value u =?s "prohibited"); [now apply rel_ret|apply rel_err; mv].
Qed.

Lemma rel_simple_content n n' p : nrel n n' -> rel eq (simple_content_parse n p) (simple_content_parse n' p).
Proof.
  intros R. unfold simple_content_parse. apply rel_check; [apply (nrel_unvisited _ _ R)|].
  eapply rel_bind; [apply (rel_try_remove _ _ "extension" _ _ R (nrel_children _ _ R))|]. intros [x l] [x' l'] [Hx Hl]. simpl in Hx, Hl.
  apply rel_check; [apply (crel_unvisited _ _ _ _ R Hl)|].
  eapply rel_bind; [apply (rel_try_attr _ _ "base" Hx); xin|]. intros [a m] [a' m'] [Ea Hm]. simpl in Ea, Hm. pose proof Ea as ((_ & _ & Ev) & Av).
  apply rel_eqb; [apply (rel_type _ _ Ea)|]. intros ct. apply rel_eqb.
  { destruct ct; try (now apply rel_ret). apply rel_eqb; [apply rel_discover|]. intros _. now apply rel_ret. }
  intros ln. pose proof (nrel_children _ _ Hm) as Hc. apply rel_eqb.
  { apply rel_collect; [intros y y' Hy; now apply rel_attribute|]. now apply crel_select_all. }
  intros ats. apply rel_check; [apply (crel_unvisited _ _ _ _ Hm (crel_remove_all "attribute" _ _ Hc))|]. now apply rel_ret.
Qed.

Definition all_rel (fuel : nat) : Prop := forall n n' p, nrel n n' ->
  rel eq (root_parse fuel n p) (root_parse fuel n' p) /\ rel eq (parse_root fuel n p) (parse_root fuel n' p)
  /\ rel eq (parse_child fuel n p) (parse_child fuel n' p) /\ rel eq (complex_type_parse fuel n p) (complex_type_parse fuel n' p)
  /\ rel eq (complex_content_parse fuel n p) (complex_content_parse fuel n' p)
  /\ rel eq (sequence_parse fuel n p) (sequence_parse fuel n' p) /\ rel eq (choice_parse fuel n p) (choice_parse fuel n' p).

Section Step.
Variable fuel : nat.
Hypothesis IH : all_rel fuel.

Lemma rel_root n n' p : nrel n n' -> rel eq (root_parse (S fuel) n p) (root_parse (S fuel) n' p).
Proof.
  intros R. cbn [root_parse]. cbv zeta. rewrite (nrel_name _ _ R). destruct (IH _ _ p R) as (_ & H1 & _ & H2 & _).
  destruct (n_name n =?s "element"); [exact H1|]. destruct (n_name n =?s "complexType"); [exact H2|].
  destruct (n_name n =?s "simpleType"); [now apply rel_simple|apply rel_err; mv].
Qed.
Lemma rel_parse_root n n' p : nrel n n' -> rel eq (parse_root (S fuel) n p) (parse_root (S fuel) n' p).
Proof.
  intros R. cbn [parse_root]. cbv zeta. pose proof (nrel_children _ _ R) as Hc. remove_step "annotation" Hc an an' Han r r' Hr.
  apply rel_lift; [apply (rel_annotation _ _ Han)|]. intros docs. attr_step "type" R ty tyx tyr m m' Hm.
  destruct ty as [a|], tyx as [a'|]; simpl in tyr; try contradiction.
  - apply rel_eqb; [apply (rel_type _ _ tyr)|]. intros ct. eapply rel_bind; [apply (rel_content _ _ _ _ Hm)|].
    intros [ct1 k] [ct1' k'] [Ec Hk]. simpl in Ec, Hk. subst ct1'. apply rel_check; [apply (nrel_unvisited _ _ Hk)|].
    apply rel_check; [apply (crel_unvisited _ _ _ _ Hk Hr)|]. now apply rel_ret.
  - apply rel_check; [apply (nrel_unvisited _ _ Hm)|]. remove_step "complexType" Hr ct ct' Hct q q' Hq.
    apply (rel_bind (fun x x' => fst x = fst x' /\ Forall2 nrel (snd x) (snd x'))).
    + destruct ct as [ct|], ct' as [ct'|]; simpl in Hct; try contradiction.
      * destruct (IH _ _ p Hct) as (_ & _ & _ & H & _). apply rel_eqb; [exact H|]. intros rt. apply rel_ret. auto.
      * remove_step "simpleType" Hq st st' Hst s s' Hs. destruct st as [st|], st' as [st'|]; simpl in Hst; try contradiction.
        -- apply rel_eqb; [now apply rel_simple|]. intros rt. apply rel_ret. auto.
        -- rewrite (nrel_name _ _ Hm). apply rel_err; mv.
    + intros [rt l] [rt' l'] [Er Hl]. simpl in Er, Hl. subst rt'. apply rel_check; [apply (crel_unvisited _ _ _ _ Hm Hl)|]. now apply rel_ret.
Qed.
Lemma rel_parse_child n n' p : nrel n n' -> rel eq (parse_child (S fuel) n p) (parse_child (S fuel) n' p).
Proof.
  intros R. cbn [parse_child]. cbv zeta. attr_step "minOccurs" R mi mix mir m1 m1' H1. apply rel_lift; [apply (rel_min _ _ mir)|]. intros mn. attr_step "maxOccurs" H1 ma ma_x mar m2 m2' H2.
  apply rel_lift; [apply (rel_max _ _ mar)|]. intros mx. attr_step "ref" H2 rf rfx rfr m3 m3' H3. destruct rf as [a|], rfx as [a'|]; simpl in rfr; try contradiction.
  - apply rel_check; [apply (nrel_unvisited _ _ H3)|]. apply rel_eqb; [apply (rel_type _ _ rfr)|]. destruct rfr as ((_ & _ & Er) & Ar). intros [l|t|fx]; try (apply rel_err; mv).
    apply rel_eqb; [apply rel_discover|]. intros _. now apply rel_ret.
  - eapply rel_bind; [apply (rel_try_attr _ _ "name" H3); xin|]. intros [na m4] [na' m4'] [Ea H4]. simpl in Ea, H4. pose proof Ea as ((_ & _ & Ev) & Av). rewrite Ev.
    apply rel_names. intros c c' C. rewrite !(crel_name _ _ _ _ C). attr_step "default" H4 o5 o5x o5r m5 m5' H5. attr_step "form" H5 o6 o6x o6r m6 m6' H6.
    apply rel_lift; [apply (rel_annotation _ _ (nrel_child _ _ "annotation" H6))|]. intros docs. attr_step "type" H6 ty tyx tyr m7 m7' H7.
    destruct ty as [a|], tyx as [a'|]; simpl in tyr; try contradiction.
    + apply rel_eqb; [apply (rel_type _ _ tyr)|]. intros ct. eapply rel_bind; [apply (rel_content _ _ _ _ H7)|].
      intros [ct1 k] [ct1' k'] [Ec Hk]. simpl in Ec, Hk. subst ct1'. apply rel_check; [apply (nrel_unvisited _ _ Hk)|]. now apply rel_ret.
    + apply rel_check; [apply (nrel_unvisited _ _ H7)|].
      pose proof (nrel_child _ _ "simpleType" H7) as K1. pose proof (nrel_child _ _ "complexType" H7) as K2.
      assert (G : rel eq
        (vn <== derive_virtual_name [p; get_node_name c (at_value na) false; get_node_name c "Data" false] false ;;
          r <== root_parse fuel m7 vn ;; add_root vn r ;== discover_type vn p ;== pret (plain_leaf (get_node_name c (at_value na) false) (LcNamed vn) docs mn mx))
        (vn <== derive_virtual_name [p; get_node_name c (at_value na) false; get_node_name c "Data" false] false ;;
          r <== root_parse fuel m7' vn ;; add_root vn r ;== discover_type vn p ;== pret (plain_leaf (get_node_name c (at_value na) false) (LcNamed vn) docs mn mx))).
      { apply rel_eqb; [apply rel_virtual|]. intros vn. destruct (IH _ _ vn H7) as (H & _). apply rel_eqb; [exact H|]. intros r.
        apply rel_eqb; [apply rel_add|]. intros _. apply rel_eqb; [apply rel_discover|]. intros _. now apply rel_ret. }
      destruct (n_child m7 "simpleType" _), (n_child m7' "simpleType" _), (n_child m7 "complexType" _), (n_child m7' "complexType" _);
        simpl in K1, K2; try contradiction; try exact G. now apply rel_ret.
Qed.
Lemma rel_sequence n n' p : nrel n n' -> rel eq (sequence_parse (S fuel) n p) (sequence_parse (S fuel) n' p).
Proof.
  intros R. cbn [sequence_parse]. cbv zeta. apply rel_check; [apply (nrel_unvisited _ _ R)|]. apply rel_collect; [|now apply nrel_children].
  intros x x' Hx. rewrite (nrel_name _ _ Hx). destruct (n_name x =?s "element").
  { destruct (IH _ _ p Hx) as (_ & _ & H & _). apply rel_eqb; [exact H|]. intros l. now apply rel_ret. }
  destruct (n_name x =?s "choice").
  { attr_step "minOccurs" Hx mi mix mir m1 m1' H1. apply rel_lift; [apply (rel_min _ _ mir)|]. intros mn. attr_step "maxOccurs" H1 ma ma_x mar m2 m2' H2. apply rel_lift; [apply (rel_max _ _ mar)|]. intros mx.
    destruct (IH _ _ p H2) as (_ & _ & _ & _ & _ & _ & H). apply rel_eqb; [exact H|]. intros vs. apply rel_eqb; [apply rel_virtual|]. intros ln.
    apply rel_eqb; [apply rel_virtual|]. intros rn. apply rel_eqb; [apply rel_add|]. intros _. apply rel_eqb; [apply rel_discover|]. intros _.
    now apply rel_ret. }
  destruct (n_name x =?s "sequence").
  { apply rel_lift; [apply (rel_annotation _ _ (nrel_child _ _ "annotation" Hx))|]. intros docs.
    attr_step "minOccurs" Hx mi mix mir m1 m1' H1. apply rel_lift; [apply (rel_min _ _ mir)|]. intros mn.
    destruct (IH _ _ p H1) as (_ & _ & _ & _ & _ & H & _). apply rel_eqb; [exact H|]. intros vs. apply rel_eqb; [apply rel_virtual|]. intros ln.
    apply rel_eqb; [apply rel_virtual|]. intros rn. apply rel_eqb; [apply rel_add|]. intros _. apply rel_eqb; [apply rel_discover|]. intros _.
    now apply rel_ret. }
  destruct (n_name x =?s "annotation"); [now apply rel_ret|apply rel_err; mv].
Qed.
Lemma rel_choice n n' p : nrel n n' -> rel eq (choice_parse (S fuel) n p) (choice_parse (S fuel) n' p).
Proof.
  intros R. cbn [choice_parse]. cbv zeta. apply rel_check; [apply (nrel_unvisited _ _ R)|]. apply rel_collect; [|now apply nrel_children].
  intros x x' Hx. rewrite (nrel_name _ _ Hx). destruct (n_name x =?s "element").
  { destruct (IH _ _ p Hx) as (_ & _ & H & _). apply rel_eqb; [exact H|]. intros l. now apply rel_ret. }
  destruct (n_name x =?s "sequence").
  { apply rel_lift; [apply (rel_annotation _ _ (nrel_child _ _ "annotation" Hx))|]. intros docs.
    attr_step "minOccurs" Hx mi mix mir m1 m1' H1. apply rel_lift; [apply (rel_min _ _ mir)|]. intros mn. attr_step "maxOccurs" H1 ma ma_x mar m2 m2' H2. apply rel_lift; [apply (rel_max _ _ mar)|]. intros mx.
    destruct (IH _ _ p H2) as (_ & _ & _ & _ & _ & H & _). apply rel_eqb; [exact H|]. intros vs. apply rel_eqb; [apply rel_virtual|]. intros ln.
    apply rel_names. intros c c' C. rewrite (crel_name _ _ _ _ C).
    apply rel_eqb; [apply rel_virtual|]. intros rn. apply rel_eqb; [apply rel_add|]. intros _. apply rel_eqb; [apply rel_discover|]. intros _.
    now apply rel_ret. }
  destruct (n_name x =?s "annotation"); [now apply rel_ret|apply rel_err; mv].
Qed.
Lemma rel_complex_content n n' p : nrel n n' -> rel eq (complex_content_parse (S fuel) n p) (complex_content_parse (S fuel) n' p).
Proof.
  intros R. cbn [complex_content_parse]. cbv zeta. apply rel_check; [apply (nrel_unvisited _ _ R)|].
  eapply rel_bind; [apply (rel_try_remove _ _ "extension" _ _ R (nrel_children _ _ R))|]. intros [x l] [x' l'] [Hx Hl]. simpl in Hx, Hl.
  apply rel_check; [apply (crel_unvisited _ _ _ _ R Hl)|].
  eapply rel_bind; [apply (rel_try_attr _ _ "base" Hx); xin|]. intros [a m] [a' m'] [Ea Hm]. simpl in Ea, Hm. pose proof Ea as ((_ & _ & Ev) & Av).
  apply rel_eqb; [apply (rel_type _ _ Ea)|]. intros [lit|t|fx]; try (apply rel_err; mv).
  apply rel_eqb; [apply rel_discover|]. intros _. pose proof (nrel_children _ _ Hm) as Hc. remove_step "sequence" Hc sq sq' Hsq r r' Hr.
  apply rel_eqb.
  { destruct sq as [sq|], sq' as [sq'|]; simpl in Hsq; try contradiction; [|now apply rel_ret].
    attr_step "minOccurs" Hsq mi mix mir m1 m1' H1. apply rel_lift; [apply (rel_min _ _ mir)|]. intros mn.
    destruct (IH _ _ p H1) as (_ & _ & _ & _ & _ & H & _). apply rel_eqb; [exact H|]. intros vs. apply rel_names. intros c c' C.
    rewrite (crel_name _ _ _ _ C). apply rel_eqb; [apply rel_virtual|]. intros rn. apply rel_eqb; [apply rel_add|]. intros _.
    apply rel_eqb; [apply rel_discover|]. intros _. now apply rel_ret. }
  intros vl. apply rel_eqb; [apply rel_collect; [intros y y' Hy; now apply rel_attribute|now apply crel_select_all]|].
  intros ats. apply rel_check; [apply (crel_unvisited _ _ _ _ Hm (crel_remove_all "attribute" _ _ Hr))|].
  apply rel_names. intros c c' C. rewrite (crel_name _ _ _ _ C). now apply rel_ret.
Qed.
Lemma rel_complex_type n n' p : nrel n n' -> rel eq (complex_type_parse (S fuel) n p) (complex_type_parse (S fuel) n' p).
Proof.
  intros R. cbn [complex_type_parse]. cbv zeta. attr_step "mixed" R mx mxx mxr m m' Hm. rewrite (nrel_name _ _ Hm).
  assert (Ex : (match mxx with Some a => at_value a =?s "true" | None => false end) = (match mx with Some a => at_value a =?s "true" | None => false end)).
  { destruct mx, mxx; simpl in mxr; try contradiction; [|reflexivity]. destruct mxr as ((_ & _ & ->) & _). reflexivity. }
  rewrite Ex. destruct (match mx with Some a => _ | None => _ end); [apply rel_err; mv|]. apply rel_check; [apply (nrel_unvisited _ _ Hm)|].
  pose proof (nrel_children _ _ Hm) as Hc. remove_step "annotation" Hc an an' Han r r' Hr.
  apply rel_lift; [apply (rel_annotation _ _ Han)|]. intros docs. remove_step "simpleContent" Hr sc sc' Hsc r1 r1' Hr1.
  destruct sc as [sc|], sc' as [sc'|]; simpl in Hsc; try contradiction.
  { apply rel_check; [apply (crel_unvisited _ _ _ _ Hm Hr1)|]. apply rel_eqb; [now apply rel_simple_content|]. intros d. now apply rel_ret. }
  remove_step "complexContent" Hr1 cc cc' Hcc r2 r2' Hr2.
  destruct cc as [cc|], cc' as [cc'|]; simpl in Hcc; try contradiction.
  { apply rel_check; [apply (crel_unvisited _ _ _ _ Hm Hr2)|]. destruct (IH _ _ p Hcc) as (_ & _ & _ & _ & H & _).
    apply rel_eqb; [exact H|]. intros d. now apply rel_ret. }
  remove_step "sequence" Hr2 sq sq' Hsq r3 r3' Hr3.
  assert (S : exists o l o' l', (match sq with Some _ => (sq, r3) | None => c_remove "all" (Some NS_XSD) r3 end) = (o, l)
    /\ (match sq' with Some _ => (sq', r3') | None => c_remove "all" (Some NS_XSD) r3' end) = (o', l') /\ orel o o' /\ Forall2 nrel l l').
  { destruct sq as [sq|], sq' as [sq'|]; simpl in Hsq; try contradiction; [do 4 eexists; eauto|]. now apply crel_remove. }
  destruct S as (o & l & o' & l' & -> & -> & Ho & Hl).
  apply (rel_bind (fun x x' => fst x = fst x' /\ Forall2 nrel (snd x) (snd x'))).
  - destruct o as [k|], o' as [k'|]; simpl in Ho; try contradiction.
    + rewrite (nrel_name _ _ Ho). attr_step "minOccurs" Ho mi mix mir m1 m1' H1. apply rel_lift; [apply (rel_min _ _ mir)|]. intros mn. attr_step "maxOccurs" H1 ma ma_x mar m2 m2' H2.
      apply rel_lift; [apply (rel_max _ _ mar)|]. intros mxo. destruct (IH _ _ p H2) as (_ & _ & _ & _ & _ & H & _). apply rel_eqb; [exact H|]. intros vs.
      destruct (orb _ _); [|apply rel_ret; auto].
      apply rel_eqb; [apply rel_virtual|]. intros ln. apply rel_eqb; [apply rel_virtual|]. intros rn. apply rel_eqb; [apply rel_add|]. intros _.
      apply rel_eqb; [apply rel_discover|]. intros _. apply rel_ret. auto.
    + remove_step "choice" Hl ch ch' Hch q q' Hq. destruct ch as [ch|], ch' as [ch'|]; simpl in Hch; try contradiction; [|apply rel_ret; auto].
      destruct (IH _ _ p Hch) as (_ & _ & _ & _ & _ & _ & H). apply rel_eqb; [exact H|]. intros vs. apply rel_names. intros c c' C.
      rewrite (crel_name _ _ _ _ C). apply rel_eqb; [apply rel_virtual|]. intros rn. apply rel_eqb; [apply rel_add|]. intros _.
      apply rel_eqb; [apply rel_discover|]. intros _. apply rel_ret. auto.
  - intros [ct q] [ct' q'] [Ec Hq]. simpl in Ec, Hq. subst ct'.
    apply rel_eqb; [apply rel_collect; [intros y y' Hy; now apply rel_attribute|now apply crel_select_all]|].
    intros ats. apply rel_check; [apply (crel_unvisited _ _ _ _ Hm (crel_remove_all "attribute" _ _ Hq))|]. now apply rel_ret.
Qed.
End Step.
Lemma rel_all fuel : all_rel fuel.
Proof.
  induction fuel as [|fuel IH]; intros n n' p R.
  - repeat split; apply rel_fuel.
  - split; [now apply rel_root|]. split; [now apply rel_parse_root|]. split; [now apply rel_parse_child|]. split; [now apply rel_complex_type|].
    split; [now apply rel_complex_content|]. split; [now apply rel_sequence|now apply rel_choice].
Qed.
End Foreign.
End Positions.
