(** * ParseProof: one walk through the parser for all its invariants *)
From Verif Require Import Base Libs Xml Ast XsdNode Parse ParseSpec MiscSpec MiscProof.

(** ** Strings *)
Lemma ascii_only_app a b : ascii_only (a +++ b) <-> ascii_only a /\ ascii_only b.
Proof.
  unfold ascii_only. induction a as [|x a IH]; simpl.
  - split; [split; [constructor|auto]|tauto].
  - rewrite !Forall_cons_iff, IH. tauto.
Qed.
Lemma ascii_only_cons c s : ascii_only (String c s) <-> nat_of_ascii c < 128 /\ ascii_only s.
Proof. apply Forall_cons_iff. Qed.
Lemma ascii_only_nil : ascii_only "".
Proof. constructor. Qed.
Lemma ascii_only_starts s : ascii_only s -> starts_with_cont s = false.
Proof.
  destruct s as [|c s]; simpl; [reflexivity|]. rewrite ascii_only_cons. unfold is_cont_byte.
  intros [H _]. apply andb_false_iff. left. apply Nat.leb_gt. exact H.
Qed.
Lemma ascii_only_concat l : Forall ascii_only l -> ascii_only (concat_str l).
Proof.
  induction 1 as [|x l Hx Hl IH]; [apply ascii_only_nil|]. destruct l as [|y l]; [exact Hx|].
  change (ascii_only (x +++ "" +++ concat_str (y :: l))). apply ascii_only_app. split; [exact Hx|exact IH].
Qed.
Lemma ascii_only_chars s : ascii_only s -> Forall ascii_only (utf8_chars s).
Proof.
  induction s as [|c s IH]; simpl; [constructor|]. rewrite ascii_only_cons. intros [Hc Hs].
  specialize (IH Hs). assert (Ho : ascii_only (String c "")) by (apply ascii_only_cons; split; [exact Hc|apply ascii_only_nil]).
  destruct (utf8_chars s) as [|h t]; [auto|]. destruct (starts_with_cont h) eqn:E.
  - inversion IH; subst. constructor; [|assumption]. apply ascii_only_cons; auto.
  - auto.
Qed.
Lemma ascii_upper_lt c : nat_of_ascii c < 128 -> nat_of_ascii (ascii_upper c) < 128.
Proof.
  unfold ascii_upper. intros H. destruct (andb _ _); [|exact H].
  rewrite nat_ascii_embedding; lia.
Qed.
Lemma common_chars_incl a b : incl (common_chars a b) a.
Proof.
  revert b. induction a as [|x a IH]; intros [|y b]; simpl; try apply incl_nil_l.
  destruct (andb _ _); [|apply incl_nil_l]. intros z [->|H]; [now left|right]. apply (IH b), H.
Qed.

Lemma split_colon_app s a b : split_colon s = Some (a, b) -> s = a +++ String ":" b.
Proof.
  revert a b. induction s as [|c s IH]; simpl; intros a b; [discriminate|].
  destruct (Ascii.eqb_spec c ":") as [->|N].
  - intros H; injection H as <- <-. reflexivity.
  - destruct (split_colon s) as [[a' b']|]; [|discriminate]. intros H; injection H as <- <-.
    simpl. now rewrite (IH a' b').
Qed.

(** ** Contexts *)
Definition nss_of (c : ctx) : namespaces := sh_namespaces (cx_shared c).
Definition deps_of (c : ctx) : list (name * list name) := sh_dependencies (cx_shared c).
Definition dep (c : ctx) (p t : name) : Prop := depends (deps_of c) p t.
(** The namespace of names made up by the parser. *)
Definition vns (c : ctx) : namespace := if cx_qualified c then cx_target c else NsNone.

Definition nvalid (s : namespaces) (ns : namespace) : Prop :=
  match ns with NsNone => True | NsId k => get_by_id s k <> None end.
Definition cwf (c : ctx) (p : name) (lc : leaf_content) : Prop :=
  match lc with LcNamed n => nvalid (nss_of c) (nm_ns n) /\ dep c p n | _ => True end.
Definition lwf (c : ctx) (p : name) (l : leaf) : Prop :=
  nvalid (nss_of c) (nm_ns (lf_name l)) /\ cwf c p (ld_content (lf_def l))
  /\ (lf_virtual l = true -> exists n, ld_content (lf_def l) = LcNamed n).
Definition awf (c : ctx) (p : name) (a : attribute) : Prop :=
  nm_ns (a_name a) = NsNone /\ cwf c p (a_content a).
Definition ewf (c : ctx) (p : name) (d : element_def) : Prop :=
  Forall (awf c p) (ed_attributes d)
  /\ match ed_content d with
     | None => True
     | Some (EcLeaf n d) => cwf c p (ld_content d)
     | Some (EcLeaves ls) => Forall (lwf c p) ls
     end.
Definition rwf (c : ctx) (p : name) (r : root) : Prop :=
  match r with
  | RootLeaf d => cwf c p (ld_content d)
  | RootEnum _ => True
  | RootElement d => ewf c p d
  | RootChoice d => Forall (lwf c p) (cd_variants d)
  end.
(** A stored root: its references are dependencies of the declaration it belongs to. *)
Definition owned (c : ctx) (nr : name * root) : Prop :=
  nvalid (nss_of c) (nm_ns (fst nr))
  /\ exists p, (p = fst nr \/ dep c p (fst nr)) /\ rwf c p (snd nr).
Definition Inv (c : ctx) : Prop :=
  ns_wf (nss_of c) /\ nvalid (nss_of c) (cx_target c) /\ Forall (owned c) (cx_roots c).

Definition nss_le (s s' : namespaces) : Prop :=
  (forall v k, aget String.eqb v (by_namespace s) = Some k -> aget String.eqb v (by_namespace s') = Some k)
  /\ (forall k d, get_by_id s k = Some d -> get_by_id s' k = Some d).
Definition frame (c c' : ctx) : Prop :=
  cx_default_ns c' = cx_default_ns c /\ cx_target c' = cx_target c
  /\ cx_doc_nss c' = cx_doc_nss c /\ cx_qualified c' = cx_qualified c.
Definition ext (c c' : ctx) : Prop :=
  frame c c' /\ nss_le (nss_of c) (nss_of c')
  /\ (forall p t, dep c p t -> dep c' p t)
  /\ (forall n, nm_ns n <> vns c -> aget name_eqb n (cx_roots c') = aget name_eqb n (cx_roots c))
  /\ (forall n, aget name_eqb n (cx_roots c) <> None -> aget name_eqb n (cx_roots c') <> None).

Lemma ext_refl c : ext c c.
Proof. repeat split; auto. Qed.
Lemma vns_ext c c' : ext c c' -> vns c' = vns c.
Proof. intros ((_ & E1 & _ & E2) & _). unfold vns. now rewrite E1, E2. Qed.
Lemma ext_trans a b c : ext a b -> ext b c -> ext a c.
Proof.
  intros H1 H2. pose proof (vns_ext _ _ H1) as V.
  destruct H1 as ((F1 & F2 & F3 & F4) & (N1 & N2) & D1 & R1 & P1).
  destruct H2 as ((G1 & G2 & G3 & G4) & (M1 & M2) & D2 & R2 & P2).
  split; [split; [congruence|split; [congruence|split; congruence]]|].
  split; [split; eauto|]. split; [eauto|]. split; [|eauto].
  intros n H. rewrite R2 by (rewrite V; exact H). now apply R1.
Qed.

Lemma nvalid_le s s' ns : nss_le s s' -> nvalid s ns -> nvalid s' ns.
Proof.
  intros [_ H]. destruct ns as [|k]; simpl; [auto|]. intros N.
  destruct (get_by_id s k) as [d|] eqn:E; [|tauto]. now rewrite (H _ _ E).
Qed.
Lemma nvalid_ext c c' ns : ext c c' -> nvalid (nss_of c) ns -> nvalid (nss_of c') ns.
Proof. intros (_ & H & _). apply nvalid_le, H. Qed.
Lemma cwf_ext c c' p lc : ext c c' -> cwf c p lc -> cwf c' p lc.
Proof.
  intros E. destruct lc; simpl; auto. intros [H1 H2]. split; [eapply nvalid_ext; eauto|].
  destruct E as (_ & _ & D & _). auto.
Qed.
Lemma lwf_ext c c' p l : ext c c' -> lwf c p l -> lwf c' p l.
Proof.
  intros E (H1 & H2 & H3). split; [eapply nvalid_ext; eauto|]. split; [eapply cwf_ext; eauto|auto].
Qed.
Lemma awf_ext c c' p l : ext c c' -> awf c p l -> awf c' p l.
Proof. intros E (H1 & H2). split; [auto|eapply cwf_ext; eauto]. Qed.
Lemma Forall_impl' {A} (P Q : A -> Prop) l : (forall a, P a -> Q a) -> Forall P l -> Forall Q l.
Proof. intros H. apply Forall_impl, H. Qed.
Lemma ewf_ext c c' p d : ext c c' -> ewf c p d -> ewf c' p d.
Proof.
  intros E (H1 & H2). split; [eapply Forall_impl; [intros; eapply awf_ext; eauto|eauto]|].
  destruct (ed_content d) as [[n d'|ls]|]; auto.
  - eapply cwf_ext; eauto.
  - eapply Forall_impl; [intros; eapply lwf_ext; eauto|eauto].
Qed.
Lemma rwf_ext c c' p r : ext c c' -> rwf c p r -> rwf c' p r.
Proof.
  intros E. destruct r; simpl; auto.
  - apply cwf_ext, E.
  - apply ewf_ext, E.
  - intros H. eapply Forall_impl; [intros; eapply lwf_ext; eauto|eauto].
Qed.
Lemma owned_ext c c' nr : ext c c' -> owned c nr -> owned c' nr.
Proof.
  intros E (H1 & p & H2 & H3). split; [eapply nvalid_ext; eauto|]. exists p.
  split; [|eapply rwf_ext; eauto]. destruct E as (_ & _ & D & _). intuition.
Qed.

(** ** The walk *)
Section Walk.
Context {L : Libs}.
Variable d : xelem.
(** What excludes panics. *)
Variable nice : Prop.
Hypothesis nice_attrs : nice -> ascii_attrs d.
Hypothesis nice_snake : nice -> snake_keeps_ascii L.

Definition located (e : xsd_err) : Prop := exists r, xsd_err_range e = Some r /\ points_into d r.
Definition asc (s : string) : Prop := nice -> ascii_only s.

(** Partial correctness with exceptions: [T] is what running out of fuel tells. *)
Definition wp {A} (T : Prop) (m : P A) (c : ctx) (Q : A -> ctx -> Prop) : Prop :=
  match m c with
  | Ok (a, c') => Q a c'
  | Err e => located e
  | Panic _ => ~ nice
  | OutOfFuel => T
  end.

Lemma wp_bind {A B} T (m : P A) (k : A -> P B) c Q :
  wp T m c (fun a c' => wp T (k a) c' Q) -> wp T (pbind m k) c Q.
Proof. unfold wp, pbind. destruct (m c) as [[a c']|e|w|]; auto. Qed.
Lemma wp_mono {A} (T T' : Prop) (m : P A) c (Q Q' : A -> ctx -> Prop) :
  wp T m c Q -> (T -> T') -> (forall a c', Q a c' -> Q' a c') -> wp T' m c Q'.
Proof. unfold wp. destruct (m c) as [[a c']|e|w|]; auto. Qed.
Lemma wp_ret {A} T (a : A) c (Q : A -> ctx -> Prop) : Q a c -> wp T (pret a) c Q.
Proof. exact (fun H => H). Qed.
Lemma wp_err {A} T e c (Q : A -> ctx -> Prop) : located e -> wp T (perr e) c Q.
Proof. exact (fun H => H). Qed.
Lemma wp_get T c (Q : ctx -> ctx -> Prop) : Q c c -> wp T pget c Q.
Proof. exact (fun H => H). Qed.

(** Pure steps. *)
Definition rok {A} (m : res xsd_err A) (Q : A -> Prop) : Prop :=
  match m with Ok a => Q a | Err e => located e | _ => False end.
Lemma wp_lift {A} T (m : res xsd_err A) c (Q : A -> ctx -> Prop) : rok m (fun a => Q a c) -> wp T (plift m) c Q.
Proof. unfold wp, plift, rok. destruct m; tauto. Qed.
Lemma rok_bind {A B} (m : res xsd_err A) (k : A -> res xsd_err B) Q :
  rok m (fun a => rok (k a) Q) -> rok (bind m k) Q.
Proof. destruct m; auto. Qed.
Lemma rok_mono {A} (m : res xsd_err A) (Q Q' : A -> Prop) : rok m Q -> (forall a, Q a -> Q' a) -> rok m Q'.
Proof. destruct m; simpl; auto. Qed.

(** ** Nodes *)
Definition inn (n : node) : Prop := within d (n_elem n).
Definition below (h : nat) (n : node) : Prop := inn n /\ height (n_elem n) < h.
Definition obelow (h : nat) (o : option node) : Prop := match o with Some n => below h n | None => True end.

Lemma points_node n : inn n -> points_into d (n_range n).
Proof. intros H. exists (n_elem n). split; [exact H|]. left. reflexivity. Qed.
Lemma points_attr n a : inn n -> In a (xe_attrs (n_elem n)) -> points_into d (at_range a).
Proof. intros H Ha. exists (n_elem n). split; [exact H|]. right. eauto. Qed.
Lemma loc_node n e : inn n -> xsd_err_range e = Some (n_range n) -> located e.
Proof. intros H E. exists (n_range n). split; [exact E|]. now apply points_node. Qed.

Definition iattr (a : attr) : Prop := points_into d (at_range a) /\ asc (at_value a).
Lemma iattr_In n a : inn n -> In a (xe_attrs (n_elem n)) -> iattr a.
Proof.
  intros H Ha. split; [eapply points_attr; eauto|]. intros N. eapply nice_attrs; eauto.
Qed.
Lemma attr_lookup_In k l a : attr_lookup k l = Some a -> In a l /\ at_name a = k.
Proof.
  induction l as [|x l IH]; simpl; [discriminate|].
  destruct (attr_lookup k l) as [b|].
  - intros H. destruct (IH H). auto.
  - destruct (String.eqb_spec (at_name x) k); [|discriminate]. intros H; injection H as ->. auto.
Qed.
Lemma attr_lookup_None k l : attr_lookup k l = None -> forall a, In a l -> at_name a <> k.
Proof.
  induction l as [|x l IH]; simpl; [tauto|].
  destruct (attr_lookup k l) as [b|]; [discriminate|].
  destruct (String.eqb_spec (at_name x) k); [discriminate|]. intros _ a [<-|H]; auto.
Qed.
Definition oattr (o : option attr) : Prop := match o with Some a => iattr a | None => True end.
Lemma lookup_iattr n k : inn n -> oattr (attr_lookup k (xe_attrs (n_elem n))).
Proof.
  intros H. destruct (attr_lookup _ _) as [a|] eqn:E; [|exact I].
  apply attr_lookup_In in E. simpl. eapply iattr_In; eauto. tauto.
Qed.

Lemma unvisited_In all v l a : unvisited all v l = Some a -> In a all.
Proof.
  induction l as [|x l IH]; simpl; [discriminate|].
  destruct (attr_lookup (at_name x) all) as [b|] eqn:E; [|auto].
  destruct (andb _ _); [|auto]. intros H; injection H as ->. apply attr_lookup_In in E. tauto.
Qed.
Lemma rok_attrs n (Q : unit -> Prop) : inn n -> Q tt -> rok (prevent_unvisited_attributes n) Q.
Proof.
  intros H HQ. unfold prevent_unvisited_attributes. destruct (unvisited _ _ _) as [a|] eqn:E; simpl; [|exact HQ].
  apply unvisited_In in E. exists (at_range a). split; [reflexivity|]. eapply points_attr; eauto.
Qed.
Lemma rok_children n cs (Q : unit -> Prop) : Forall inn cs -> Q tt -> rok (prevent_unvisited_children n cs) Q.
Proof.
  intros H HQ. destruct cs as [|c cs]; simpl; [exact HQ|]. inversion H; subst.
  eapply loc_node; [eassumption|reflexivity].
Qed.
Lemma rok_try n k (Q : attr * node -> Prop) : inn n ->
  (forall a, iattr a -> In a (xe_attrs (n_elem n)) -> at_name a = k -> attr_lookup k (xe_attrs (n_elem n)) = Some a ->
     Q (a, mkNode (n_elem n) (k :: n_visited n))) ->
  rok (n_try_attribute n k) Q.
Proof.
  intros H HQ. unfold n_try_attribute, n_attribute. destruct (attr_lookup _ _) as [a|] eqn:E; simpl.
  - pose proof (attr_lookup_In _ _ _ E) as [E1 E2]. apply HQ; auto. eapply iattr_In; eauto.
  - eapply loc_node; [exact H|reflexivity].
Qed.

Lemma children_below n : inn n -> Forall (below (height (n_elem n))) (n_children n NS_XSD).
Proof.
  intros H. apply Forall_forall. intros x Hx. unfold n_children in Hx. apply in_map_iff in Hx.
  destruct Hx as (e & <- & He). apply filter_In in He. destruct He as [He _].
  split; [|apply height_child, He]. unfold inn. simpl. eapply wi_child; eauto.
Qed.
Lemma child_below n t ns : inn n -> obelow (height (n_elem n)) (n_child n t ns).
Proof.
  intros H. unfold n_child. destruct (find _ _) as [e|] eqn:E; simpl; [|exact I].
  apply find_some in E. destruct E as [E _].
  split; [|apply height_child, E]. unfold inn. simpl. eapply wi_child; eauto.
Qed.
Lemma below_inn h l : Forall (below h) l -> Forall inn l.
Proof. apply Forall_impl. now intros n [H _]. Qed.
Lemma c_remove_split t ns cs o cs' : c_remove t ns cs = (o, cs') ->
  match o with
  | Some x => has_name t ns (n_elem x) = true /\ exists l r, cs = l ++ x :: r /\ cs' = l ++ r
              /\ Forall (fun y => has_name t ns (n_elem y) = false) l
  | None => cs' = cs /\ Forall (fun y => has_name t ns (n_elem y) = false) cs
  end.
Proof.
  revert o cs'. induction cs as [|c cs IH]; simpl; intros o cs' H.
  - injection H as <- <-. auto.
  - destruct (has_name t ns (n_elem c)) eqn:E.
    + injection H as <- <-. split; [exact E|]. exists [], cs. auto.
    + destruct (c_remove t ns cs) as [r cs''] eqn:R. injection H as <- <-.
      specialize (IH _ _ eq_refl). destruct r as [x|].
      * destruct IH as (H1 & l & r & -> & -> & H2). split; [exact H1|]. exists (c :: l), r. auto.
      * destruct IH as (-> & H2). auto.
Qed.
Lemma c_remove_below h t ns cs : Forall (below h) cs ->
  obelow h (fst (c_remove t ns cs)) /\ Forall (below h) (snd (c_remove t ns cs)).
Proof.
  destruct (c_remove t ns cs) as [o cs'] eqn:E. apply c_remove_split in E. simpl.
  destruct o as [x|]; [destruct E as (_ & l & r & -> & -> & _)|destruct E as [-> _]; simpl; auto].
  rewrite !Forall_app, Forall_cons_iff. simpl. tauto.
Qed.
Lemma filter_below {A} (P : A -> Prop) f l : Forall P l -> Forall P (filter f l).
Proof. rewrite !Forall_forall. intros H x Hx. apply filter_In in Hx. apply H. tauto. Qed.
Lemma rok_try_remove h n t ns cs (Q : node * list node -> Prop) : inn n -> Forall (below h) cs ->
  (forall x cs', below h x -> Forall (below h) cs' -> Q (x, cs')) -> rok (c_try_remove n t ns cs) Q.
Proof.
  intros Hn H HQ. unfold c_try_remove. pose proof (c_remove_below h t ns cs H) as [H1 H2].
  destruct (c_remove t ns cs) as [[x|] cs']; simpl in *; [now apply HQ|].
  eapply loc_node; [exact Hn|reflexivity].
Qed.

Lemma rok_text n (Q : string -> Prop) : inn n -> (forall s, Q s) -> rok (n_try_text n) Q.
Proof.
  intros H HQ. unfold n_try_text. destruct (xe_kids (n_elem n)) as [|[e|s|s] ks];
    simpl; try (eapply loc_node; [exact H|reflexivity]). apply HQ.
Qed.
Lemma rok_annotation n (Q : option string -> Prop) : inn n -> (forall o, Q o) -> rok (annotation_parse n) Q.
Proof.
  intros H HQ. unfold annotation_parse.
  pose proof (c_remove_below _ "documentation" (Some NS_XSD) _ (children_below n H)) as [H1 H2].
  destruct (c_remove _ _ _) as [o cs]; simpl in *. apply rok_bind.
  assert (K : forall docs, rok (bind (prevent_unvisited_children n (remove_all "documentation" cs))
                                  (fun _ => bind (prevent_unvisited_attributes n) (fun _ => Ok docs))) Q).
  { intros docs. apply rok_bind, rok_children; [eapply filter_below, below_inn, H2|].
    apply rok_bind, rok_attrs; [exact H|]. apply HQ. }
  destruct o as [x|]; [|apply K]. apply rok_bind, rok_text; [apply H1|]. intros s. apply K.
Qed.
Lemma rok_oannotation h o (Q : option string -> Prop) : obelow h o -> (forall s, Q s) -> rok (parse_annotation o) Q.
Proof. intros H HQ. destruct o as [n|]; [apply rok_annotation; [apply H|exact HQ]|apply HQ]. Qed.

Lemma rok_min o (Q : N -> Prop) : oattr o -> (forall n, parse_min_occurs o = Ok n -> Q n) -> rok (parse_min_occurs o) Q.
Proof.
  intros H HQ. destruct o as [a|]; simpl in *; [|now apply HQ].
  destruct (u32_from_str _) eqn:E; [now apply HQ|]. exists (at_range a). split; [reflexivity|apply H].
Qed.
Lemma rok_max o (Q : max_occurs -> Prop) : oattr o -> (forall n, parse_max_occurs o = Ok n -> Q n) -> rok (parse_max_occurs o) Q.
Proof.
  intros H HQ. destruct o as [a|]; simpl in *; [|now apply HQ].
  destruct (_ =?s _) eqn:E0; [now apply HQ|].
  destruct (u32_from_str _) eqn:E; [now apply HQ|]. exists (at_range a). split; [reflexivity|apply H].
Qed.
Lemma rok_facet n (Q : facet -> Prop) : inn n -> (forall f, Q f) -> rok (parse_facet n) Q.
Proof.
  intros H HQ. unfold parse_facet.
  repeat match goal with |- rok (if ?b then _ else _) _ => destruct b end;
    try (apply rok_bind, rok_try; [exact H|intros a Ha _ _ _];
         first [ apply HQ
               | match goal with |- rok (match ?x with _ => _ end) _ => destruct x end;
                 [apply HQ|exists (at_range a); split; [reflexivity|apply Ha]] ]).
  eapply loc_node; [exact H|reflexivity].
Qed.
Lemma rok_mapM {A B} (f : A -> res xsd_err B) l (Q : list B -> Prop) :
  Forall (fun a => rok (f a) (fun _ => True)) l -> (forall bs, Q bs) -> rok (mapM f l) Q.
Proof.
  intros H. revert Q. induction H as [|a l Ha Hl IH]; intros Q HQ; [apply HQ|].
  simpl. apply rok_bind. eapply rok_mono; [exact Ha|]. intros b _. apply rok_bind. apply IH. intros bs. apply HQ.
Qed.

(** ** Context steps *)
Definition at_ (c0 c : ctx) : Prop := Inv c /\ ext c0 c.
Lemma at_refl c : Inv c -> at_ c c.
Proof. intros H. split; [exact H|apply ext_refl]. Qed.

Lemma ext_set_nss c nss : nss_le (nss_of c) nss -> ext c (set_shared (mkShared nss (deps_of c)) c).
Proof. intros H. split; [repeat split|]. split; [exact H|]. split; [auto|]. split; auto. Qed.

Lemma Inv_ext_roots c c' : Inv c -> ext c c' -> ns_wf (nss_of c') -> cx_roots c' = cx_roots c -> Inv c'.
Proof.
  intros (H1 & H2 & H3) E W R. split; [exact W|]. split.
  - destruct E as ((_ & -> & _) & H & _). eapply nvalid_le; eauto.
  - rewrite R. eapply Forall_impl; [intros; eapply owned_ext; eauto|exact H3].
Qed.

Lemma wp_type_name T a c (Q : leaf_content -> ctx -> Prop) : Inv c -> iattr a ->
  (forall lc c', Inv c' -> ext c c' -> cx_roots c' = cx_roots c ->
     match lc with
     | LcNamed n => nvalid (nss_of c') (nm_ns n) /\ asc (nm n)
     | LcLiteral _ => True
     | LcFixed _ => False
     end -> Q lc c') ->
  wp T (get_type_name a) c Q.
Proof.
  intros HI [Hr Ha] HQ. unfold wp, get_type_name. destruct (split_colon (at_value a)) as [[p l]|] eqn:S.
  - destruct (aget String.eqb p (cx_doc_nss c)) as [uri|].
    2:{ exists (at_range a). auto. }
    destruct (uri =?s NS_XSD).
    + destruct (literal_from_str l); [apply HQ; auto using ext_refl|]. exists (at_range a). auto.
    + destruct (get_or_insert _ uri) as [ns nss] eqn:G.
      pose proof HI as (W & _ & _). apply get_or_insert_wf in G; [|exact W].
      destruct G as (W' & (k & -> & K) & N1 & N2).
      assert (E : ext c (set_shared (mkShared nss (deps_of c)) c)).
      { apply ext_set_nss. split; assumption. }
      apply HQ; [|exact E|reflexivity|].
      * eapply Inv_ext_roots; eauto.
      * simpl. split.
        -- destruct W' as (_ & W' & _). apply W' in K. destruct K as [_ K]. unfold nss_of. simpl. now rewrite K.
        -- intros N. apply split_colon_app in S. specialize (Ha N). rewrite S in Ha.
           apply ascii_only_app in Ha. destruct Ha as [_ Ha]. apply ascii_only_cons in Ha. tauto.
  - destruct (opt_eqb _ _ _).
    + destruct (literal_from_str _); [apply HQ; auto using ext_refl|]. exists (at_range a). auto.
    + apply HQ; auto using ext_refl. simpl. auto.
Qed.

Lemma dep_add c n p : dep (set_shared (mkShared (nss_of c) (add_dependency n p (deps_of c))) c) p n.
Proof.
  unfold dep, depends, deps_of, add_dependency. simpl.
  eexists. split; [apply (aget_aset_same _ name_eqb_eq)|].
  match goal with |- In _ (if mem ?e ?x ?l then _ else _) => destruct (mem e x l) eqn:M end.
  - now apply (mem_In _ name_eqb_eq) in M.
  - apply in_or_app. right. now left.
Qed.
Lemma dep_add_mono c n p q t : dep c q t ->
  dep (set_shared (mkShared (nss_of c) (add_dependency n p (deps_of c))) c) q t.
Proof.
  unfold dep, depends, deps_of, add_dependency. simpl. intros (ds & H1 & H2).
  destruct (name_eqb p q) eqn:E.
  - apply name_eqb_eq in E. subst q. rewrite H1. eexists. split; [apply (aget_aset_same _ name_eqb_eq)|].
    destruct (mem _ _ _); [exact H2|]. apply in_or_app. now left.
  - exists ds. split; [|exact H2]. rewrite (aget_aset_other _ name_eqb_eq); [exact H1|].
    intros ->. rewrite name_eqb_refl in E. discriminate.
Qed.
Lemma wp_discover T n p c (Q : unit -> ctx -> Prop) : Inv c ->
  (forall c', Inv c' -> ext c c' -> cx_roots c' = cx_roots c -> dep c' p n -> Q tt c') ->
  wp T (discover_type n p) c Q.
Proof.
  intros HI HQ. unfold wp, discover_type, pmod.
  assert (E : ext c (set_shared (mkShared (sh_namespaces (cx_shared c)) (add_dependency n p (sh_dependencies (cx_shared c)))) c)).
  { split; [repeat split|]. split; [split; auto|]. split; [intros q t; apply dep_add_mono|]. split; auto. }
  apply HQ; [|exact E|reflexivity|apply dep_add].
  eapply Inv_ext_roots; eauto. apply HI.
Qed.

(** A root made up by the parser. *)
Lemma wp_add_virtual T n r p q c (Q : unit -> ctx -> Prop) : Inv c -> nm_ns n = vns c -> rwf c q r -> q = n \/ q = p ->
  (forall c', Inv c' -> ext c c' -> dep c' p n -> Q tt c') ->
  wp T (add_root n r ;== discover_type n p) c Q.
Proof.
  intros HI Hn Hr Hq HQ. unfold wp, add_root, discover_type, pbind, pmod.
  set (c1 := set_roots _ c).
  set (c2 := set_shared _ c1).
  assert (E1 : ext c c1).
  { split; [repeat split|]. split; [split; auto|]. split; [auto|]. simpl. split.
    - intros m Hm. apply (aget_aset_other _ name_eqb_eq). congruence.
    - intros m Hm. destruct (name_eqb n m) eqn:E.
      + apply name_eqb_eq in E. subst m. rewrite (aget_aset_same _ name_eqb_eq). discriminate.
      + rewrite (aget_aset_other _ name_eqb_eq); [exact Hm|]. intros ->. rewrite name_eqb_refl in E. discriminate. }
  assert (E2 : ext c1 c2).
  { split; [repeat split|]. split; [split; auto|]. split; [intros q0 t; apply dep_add_mono|]. split; auto. }
  assert (E : ext c c2) by (eapply ext_trans; eauto).
  assert (D : dep c2 p n) by apply dep_add.
  apply HQ; [|exact E|exact D].
  destruct HI as (W & Tv & R). split; [exact W|]. split; [exact Tv|].
  apply Forall_forall. intros [m r'] Hm. apply aset_In in Hm. destruct Hm as [[-> ->]|Hm].
  - split; simpl; [rewrite Hn; unfold vns; destruct (cx_qualified c); [exact Tv|exact I]|].
    exists q. split; [destruct Hq as [->| ->]; auto|]. eapply rwf_ext; eauto.
  - eapply owned_ext; [exact E|]. rewrite Forall_forall in R. now apply R.
Qed.

Lemma vname_ns c s : nm_ns (get_node_name c s false) = vns c.
Proof. unfold get_node_name, vns. simpl. now rewrite orb_false_r. Qed.

Lemma mutal_asc f names : (forall a b, nice -> ascii_only a -> ascii_only b -> ascii_only (f a b)) ->
  nice -> Forall ascii_only names -> forall s, derive_mutal f names = Some s -> ascii_only s.
Proof.
  intros Hf N H s. destruct H as [|x l Hx Hl]; simpl; [discriminate|].
  assert (K : forall acc, ascii_only acc -> ascii_only (fold_left f l acc)).
  { clear Hx. induction Hl as [|y l Hy Hl IH]; intros acc Hacc; simpl; [exact Hacc|]. apply IH. auto. }
  specialize (K x Hx). destruct (is_empty _); [discriminate|]. intros E; injection E as <-. exact K.
Qed.
Lemma mutal_prefix_asc a b : nice -> ascii_only a -> ascii_only b -> ascii_only (mutal_prefix a b).
Proof.
  intros N Ha Hb. apply ascii_only_concat. rewrite Forall_forall. intros x Hx. apply common_chars_incl in Hx.
  pose proof (ascii_only_chars _ (nice_snake N _ Ha)) as K. rewrite Forall_forall in K. auto.
Qed.
Lemma mutal_suffix_asc a b : nice -> ascii_only a -> ascii_only b -> ascii_only (mutal_suffix a b).
Proof.
  intros N Ha Hb. apply ascii_only_concat. rewrite Forall_forall. intros x Hx. apply in_rev in Hx.
  apply common_chars_incl in Hx. apply in_rev in Hx.
  pose proof (ascii_only_chars _ (nice_snake N _ Ha)) as K. rewrite Forall_forall in K. auto.
Qed.
Lemma concat_upper_asc names : Forall ascii_only names ->
  exists s, concat_upper names = Ok s /\ ascii_only s.
Proof.
  induction 1 as [|x l Hx Hl IH]; simpl; [exists ""; split; [reflexivity|apply ascii_only_nil]|].
  destruct x as [|c x]; [exact IH|]. apply ascii_only_cons in Hx. destruct Hx as [Hc Hx].
  rewrite ascii_only_starts by exact Hx. destruct IH as (s & -> & Hs). simpl. eexists. split; [reflexivity|].
  apply ascii_only_cons. split; [now apply ascii_upper_lt|]. apply ascii_only_app. auto.
Qed.
Lemma concat_upper_noerr names : match concat_upper names with Ok _ | Panic _ => True | _ => False end.
Proof.
  induction names as [|x l IH]; simpl; [exact I|]. destruct x as [|c x]; [exact IH|].
  destruct (starts_with_cont x); [exact I|]. destruct (concat_upper l); simpl; auto.
Qed.

Lemma wp_virtual_name T names sh c (Q : name -> ctx -> Prop) : Forall (fun n => asc (nm n)) names ->
  (forall n, nm_ns n = vns c -> asc (nm n) -> Q n c) ->
  wp T (derive_virtual_name names sh) c Q.
Proof.
  intros H HQ. unfold wp, derive_virtual_name.
  assert (HA : nice -> Forall ascii_only (map nm names)).
  { intros N. apply Forall_map. eapply Forall_impl; [|exact H]. intros a Ha. apply Ha, N. }
  set (short := if sh then _ else None).
  assert (HS : nice -> forall s, short = Some s -> ascii_only s).
  { intros N s. subst short. destruct sh; [|discriminate]. specialize (HA N).
    destruct (derive_mutal_prefix _) as [p|] eqn:E1; destruct (derive_mutal_suffix _) as [q|] eqn:E2;
      try discriminate; intros E; injection E as <-;
      try (destruct (Nat.ltb _ _));
      first [ eapply (mutal_asc mutal_prefix); [exact mutal_prefix_asc|exact N|exact HA|exact E1]
            | eapply (mutal_asc mutal_suffix); [exact mutal_suffix_asc|exact N|exact HA|exact E2] ]. }
  destruct short as [s|].
  - apply HQ; [apply vname_ns|]. intros N. simpl. now apply HS.
  - pose proof (concat_upper_noerr (map nm names)) as K.
    destruct (concat_upper (map nm names)) as [s|e|w|] eqn:E; try contradiction; cbn [bind].
    + apply HQ; [apply vname_ns|]. intros N. simpl. destruct (concat_upper_asc _ (HA N)) as (s' & E' & Hs). congruence.
    + intros N. destruct (concat_upper_asc _ (HA N)) as (s' & E' & Hs). congruence.
Qed.


(** ** Declarations without recursion *)
Definition post {A} (c : ctx) (Q : A -> ctx -> Prop) : A -> ctx -> Prop :=
  fun a c' => Inv c' /\ ext c c' /\ Q a c'.

Lemma wp_pcollect {A B} T (f : A -> P (option B)) (G : A -> Prop) (R : ctx -> B -> Prop) :
  (forall c c' b, ext c c' -> R c b -> R c' b) ->
  forall l c,
  (forall a c, G a -> Inv c ->
     wp T (f a) c (post c (fun o c' => match o with Some b => R c' b | None => True end))) ->
  Forall G l -> Inv c ->
  wp T (pcollect f l) c (post c (fun bs c' => Forall (R c') bs)).
Proof.
  intros Rm l c Hf HG. revert c. induction HG as [|a l Ha Hl IH]; intros c HI; simpl.
  - apply wp_ret. split; [exact HI|]. split; [apply ext_refl|constructor].
  - apply wp_bind. eapply wp_mono; [apply Hf; assumption|auto|]. intros o c1 (I1 & E1 & R1).
    apply wp_bind. eapply wp_mono; [apply IH, I1|auto|]. intros bs c2 (I2 & E2 & R2).
    apply wp_ret. split; [exact I2|]. split; [eapply ext_trans; eauto|].
    destruct o as [b|]; [|exact R2]. constructor; [eapply Rm; eauto|exact R2].
Qed.

Ltac rem h cs HB o cs' H1 H2 :=
  let E := fresh in
  match goal with |- context [c_remove ?t ?ns cs] =>
    pose proof (c_remove_below h t ns cs HB) as [H1 H2];
    destruct (c_remove t ns cs) as [o cs']; cbn [fst snd] in H1, H2
  end.

Lemma wp_simple_type T n c p : inn n -> Inv c ->
  wp T (simple_type_parse n) c (post c (fun r c' => rwf c' p r)).
Proof.
  intros Hn HI. unfold simple_type_parse. apply wp_bind, wp_lift, rok_attrs; [exact Hn|].
  pose proof (children_below n Hn) as HB. cbv zeta.
  rem (height (n_elem n)) (n_children n NS_XSD) HB an cs H1 H2.
  apply wp_bind, wp_lift. eapply rok_oannotation; [exact H1|]. intros docs.
  apply wp_bind, wp_lift. eapply rok_try_remove; [exact Hn|exact H2|]. intros x cs' Hx Hcs.
  apply wp_bind, wp_lift, rok_try; [apply Hx|]. intros a Ha _ _ _.
  apply wp_bind, wp_type_name; [exact HI|exact Ha|]. intros lc c' I1 E1 _ Hlc.
  destruct lc as [lit|t|s]; [|exists (at_range a); split; [reflexivity|apply Ha]|destruct Hlc].
  apply wp_bind, wp_lift, rok_children; [eapply below_inn, Hcs|].
  apply wp_bind, wp_lift, rok_mapM.
  { eapply Forall_impl; [|apply (children_below (mkNode (n_elem x) ("base" :: n_visited x)))].
    - intros y [Hy _]. apply rok_facet; auto.
    - apply Hx. }
  intros fs. apply wp_ret. split; [exact I1|]. split; [exact E1|].
  destruct (facet_names fs); exact I.
Qed.

Lemma wp_content T n p content c : inn n -> Inv c ->
  match content with
  | LcNamed t => nvalid (nss_of c) (nm_ns t)
  | _ => True
  end ->
  wp T (content_of_type n p content) c
    (post c (fun r c' => n_elem (snd r) = n_elem n /\ cwf c' p (fst r))).
Proof.
  intros Hn HI H. destruct content as [l|t|s]; cbn [content_of_type].
  - apply wp_ret. split; [exact HI|]. split; [apply ext_refl|]. split; [reflexivity|]. cbn [fst].
    destruct (attr_lookup _ _); exact I.
  - apply wp_bind, wp_discover; [exact HI|]. intros c' I1 E1 _ D. apply wp_ret.
    split; [exact I1|]. split; [exact E1|]. split; [reflexivity|]. split; [eapply nvalid_ext; eauto|exact D].
  - apply wp_ret. split; [exact HI|]. split; [apply ext_refl|]. split; [reflexivity|exact I].
Qed.

Lemma asc_const s : ascii_only s -> asc s.
Proof. intros H _. exact H. Qed.
Ltac ascii_const := repeat first [apply ascii_only_nil | apply ascii_only_cons; split; [apply Nat.ltb_lt; reflexivity|]].

Lemma wp_attribute T p n c : asc (nm p) -> inn n -> Inv c ->
  wp T (attribute_parse p n) c
    (post c (fun o c' => match o with Some a => awf c' p a | None => True end)).
Proof.
  intros Hp Hn HI. unfold attribute_parse.
  apply wp_bind, wp_lift, rok_try; [exact Hn|]. intros na Hna _ _ _. cbv beta iota zeta.
  set (n1 := mkNode (n_elem n) _). assert (Hn1 : inn n1) by exact Hn.
  pose proof (children_below n1 Hn1) as HB.
  rem (height (n_elem n1)) (n_children n1 NS_XSD) HB an cs H1 H2.
  apply wp_bind, wp_lift. eapply rok_oannotation; [exact H1|]. intros docs.
  rem (height (n_elem n1)) cs H2 st cs' H3 H4.
  apply wp_bind. set (m := match st with Some _ => _ | None => _ end).
  assert (Hm : wp T m c (post c (fun r c' => n_elem (snd r) = n_elem n /\ cwf c' p (fst r)))).
  { subst m. destruct st as [st|].
    - apply wp_bind. eapply wp_mono; [apply (wp_simple_type T st c p); [apply H3|exact HI]|auto|].
      intros r c1 (I1 & E1 & R1).
      assert (V : wp T (c <== pget ;; vn <== derive_virtual_name [p; mkName (at_value na) NsNone; get_node_name c "Data" false] false ;;
                        add_root vn r ;== discover_type vn p ;== pret (LcNamed vn, n1)) c1
                    (post c (fun r c' => n_elem (snd r) = n_elem n /\ cwf c' p (fst r)))).
      { apply wp_bind, wp_get. apply wp_bind, wp_virtual_name.
        - apply Forall_cons; [exact Hp|]. apply Forall_cons; [apply Hna|]. apply Forall_cons; [|apply Forall_nil].
          apply asc_const. simpl. ascii_const.
        - intros vn Hvn _.
          assert (W : wp T (add_root vn r ;== discover_type vn p) c1
             (post c1 (fun _ c' => dep c' p vn))).
          { eapply wp_add_virtual; eauto. intros c' J1 J2 J3. split; [exact J1|]. split; [exact J2|exact J3]. }
          assert (Eq : forall c0, (add_root vn r ;== discover_type vn p ;== pret (LcNamed vn, n1)) c0
                        = ((add_root vn r ;== discover_type vn p) ;== pret (LcNamed vn, n1)) c0) by reflexivity.
          unfold wp. rewrite Eq. apply wp_bind. eapply wp_mono; [exact W|auto|].
          intros _ c2 (I2 & E2 & D2). apply wp_ret. split; [exact I2|]. split; [eapply ext_trans; eauto|].
          split; [reflexivity|]. split; [|exact D2]. rewrite Hvn. eapply nvalid_ext; [exact E2|].
          destruct I1 as (_ & Tv & _). unfold vns. destruct (cx_qualified c1); [exact Tv|exact I]. }
      destruct r as [[[l|t|s] rs ds]|ns|e|ch]; try exact V.
      apply wp_ret. split; [exact I1|]. split; [exact E1|]. split; [reflexivity|exact I].
    - apply wp_bind, wp_lift, rok_try; [exact Hn1|]. intros ta Hta _ _ _. cbv beta iota.
      apply wp_bind, wp_type_name; [exact HI|exact Hta|]. intros lc c1 I1 E1 _ Hlc.
      eapply wp_mono; [apply (wp_content T); [exact Hn1|exact I1|destruct lc; tauto]|auto|].
      intros r c2 (I2 & E2 & Q2). split; [exact I2|]. split; [eapply ext_trans; eauto|exact Q2]. }
  eapply wp_mono; [exact Hm|auto|]. clear Hm m. intros [content n2] c1 (I1 & E1 & Q1 & Q2). cbn [fst snd] in *.
  apply wp_bind, wp_lift, rok_children; [eapply below_inn, H4|]. cbv beta iota zeta delta [n_attribute].
  set (n3 := mkNode _ (_ :: n_visited (mkNode _ _))).
  assert (Hn3 : inn n3) by (unfold inn; simpl; rewrite Q1; exact Hn).
  assert (F : forall opt, wp T
    (if andb (is_some (attr_lookup "default" (xe_attrs (n_elem n2)))) (negb opt)
     then perr (XeUnexpectedAttribute "default" (n_name n3) (n_range n3))
     else plift (prevent_unvisited_attributes n3) ;==
          pret (Some (mkAttribute (mkName (at_value na) NsNone) content
            (option_map at_value (attr_lookup "default" (xe_attrs (n_elem n2)))) opt docs))) c1
    (post c (fun o c' => match o with Some a => awf c' p a | None => True end))).
  { intros opt. destruct (andb _ _).
    - eapply loc_node; [exact Hn3|reflexivity].
    - apply wp_bind, wp_lift, rok_attrs; [exact Hn3|]. apply wp_ret. split; [exact I1|]. split; [exact E1|].
      split; [reflexivity|exact Q2]. }
  cbn [n_elem] in *. destruct (attr_lookup "use" _) as [u|]; [|apply F].
  destruct (at_value u =?s "required"); [apply F|]. destruct (at_value u =?s "optional"); [apply F|].
  destruct (at_value u =?s "prohibited").
  - apply wp_ret. split; [exact I1|]. split; [exact E1|exact I].
  - eapply loc_node; [exact Hn3|reflexivity].
Qed.

Lemma wp_attributes T p cs h c : asc (nm p) -> Forall (below h) cs -> Inv c ->
  wp T (pcollect (attribute_parse p) (select_all "attribute" cs)) c
    (post c (fun l c' => Forall (awf c' p) l)).
Proof.
  intros Hp H HI. apply (wp_pcollect T (attribute_parse p) inn (fun c a => awf c p a)).
  - intros c0 c1 b E. apply awf_ext, E.
  - intros a c0 Ha. now apply wp_attribute.
  - apply filter_below. eapply below_inn, H.
  - exact HI.
Qed.

Lemma wp_simple_content T n p c : asc (nm p) -> inn n -> Inv c ->
  wp T (simple_content_parse n p) c (post c (fun e c' => ewf c' p e)).
Proof.
  intros Hp Hn HI. unfold simple_content_parse. apply wp_bind, wp_lift, rok_attrs; [exact Hn|].
  pose proof (children_below n Hn) as HB.
  apply wp_bind, wp_lift. eapply rok_try_remove; [exact Hn|exact HB|]. intros x rest Hx Hr. cbv beta iota.
  apply wp_bind, wp_lift, rok_children; [eapply below_inn, Hr|].
  apply wp_bind, wp_lift, rok_try; [apply Hx|]. intros a Ha _ _ _. cbv beta iota.
  set (x1 := mkNode (n_elem x) _). assert (Hx1 : inn x1) by apply Hx.
  apply wp_bind, wp_type_name; [exact HI|exact Ha|]. intros lc c1 I1 E1 _ Hlc.
  apply wp_bind. set (m := match lc with LcNamed t => _ | _ => _ end).
  assert (Hm : wp T m c1 (post c1 (fun _ c' => cwf c' p lc))).
  { subst m. destruct lc as [l|t|s]; [| |destruct Hlc].
    - apply wp_ret. split; [exact I1|]. split; [apply ext_refl|exact I].
    - apply wp_bind, wp_discover; [exact I1|]. intros c2 I2 E2 _ D. apply wp_ret.
      split; [exact I2|]. split; [exact E2|]. split; [eapply nvalid_ext; [exact E2|apply Hlc]|exact D]. }
  eapply wp_mono; [exact Hm|auto|]. intros ln c2 (I2 & E2 & Q2). cbv beta iota zeta.
  pose proof (children_below x1 Hx1) as HB1.
  apply wp_bind. eapply wp_mono; [eapply (wp_attributes T); [exact Hp|exact HB1|exact I2]|auto|].
  intros ats c3 (I3 & E3 & Q3).
  apply wp_bind, wp_lift, rok_children; [eapply filter_below, below_inn, HB1|].
  apply wp_ret. split; [exact I3|]. split; [eapply ext_trans; [exact E1|eapply ext_trans; eauto]|].
  split; [exact Q3|]. simpl. eapply cwf_ext; eauto.
Qed.


(** ** The recursive descent *)
Lemma wp_add_then {A} T n r p q c (k : P A) (Q : A -> ctx -> Prop) : Inv c -> nm_ns n = vns c -> rwf c q r ->
  q = n \/ q = p ->
  (forall c', Inv c' -> ext c c' -> dep c' p n -> nvalid (nss_of c') (nm_ns n) -> wp T k c' Q) ->
  wp T (add_root n r ;== discover_type n p ;== k) c Q.
Proof.
  intros HI Hn Hr Hq HQ.
  change (wp T ((add_root n r ;== discover_type n p) ;== k) c Q).
  apply wp_bind. eapply wp_add_virtual; eauto. intros c' I1 E1 D1. apply HQ; auto.
  rewrite Hn. eapply nvalid_ext; [exact E1|]. destruct HI as (_ & Tv & _). unfold vns.
  destruct (cx_qualified c); [exact Tv|exact I].
Qed.

Definition lgood (c : ctx) (p : name) (l : leaf) : Prop := lwf c p l /\ asc (nm (lf_name l)).
Lemma lgood_ext c c' p l : ext c c' -> lgood c p l -> lgood c' p l.
Proof. intros E [H1 H2]. split; [eapply lwf_ext; eauto|exact H2]. Qed.
Lemma lgood_lwf c p ls : Forall (lgood c p) ls -> Forall (lwf c p) ls.
Proof. apply Forall_impl. now intros l [H _]. Qed.
Lemma lgood_names c p ls : Forall (lgood c p) ls -> Forall (fun n => asc (nm n)) (map lf_name ls).
Proof. intros H. apply Forall_map. eapply Forall_impl; [|exact H]. now intros l [_ K]. Qed.
Lemma lgoods_ext c c' p ls : ext c c' -> Forall (lgood c p) ls -> Forall (lgood c' p) ls.
Proof. intros E. apply Forall_impl. intros l. apply lgood_ext, E. Qed.
Lemma virtual_root_wf c p ls : Forall (lgood c p) ls -> rwf c p (virtual_root ls).
Proof. intros H. split; [constructor|]. simpl. eapply lgood_lwf, H. Qed.
Lemma named_leaf_good c p n rn docs mi ma : nvalid (nss_of c) (nm_ns n) -> nvalid (nss_of c) (nm_ns rn) ->
  dep c p rn -> asc (nm n) -> lgood c p (named_leaf n rn docs mi ma).
Proof. intros H1 H2 H3 H4. split; [|exact H4]. split; [exact H1|]. split; [split; assumption|]. intros _. eexists. reflexivity. Qed.
Lemma vns_valid c : Inv c -> nvalid (nss_of c) (vns c).
Proof. intros (_ & Tv & _). unfold vns. destruct (cx_qualified c); [exact Tv|exact I]. Qed.
Lemma plain_leaf_good c p n ct docs mi ma : nvalid (nss_of c) (nm_ns n) -> cwf c p ct -> asc (nm n) ->
  lgood c p (plain_leaf n ct docs mi ma).
Proof. intros H1 H2 H3. split; [|exact H3]. split; [exact H1|]. split; [exact H2|]. discriminate. Qed.
Lemma set_unordered_good c p ls : Forall (lgood c p) ls -> Forall (lgood c p) (map set_unordered ls).
Proof. intros H. apply Forall_map. exact H. Qed.

Definition ht (n : node) : nat := height (n_elem n).
Definition walk_ok (fuel : nat) : Prop :=
  (forall n p c, inn n -> asc (nm p) -> Inv c ->
     wp (fuel < 3 * ht n + 2) (root_parse fuel n p) c (post c (fun r c' => rwf c' p r)))
  /\ (forall n p c, inn n -> asc (nm p) -> Inv c ->
     wp (fuel < 3 * ht n + 1) (parse_root fuel n p) c (post c (fun r c' => rwf c' p r)))
  /\ (forall n p c, inn n -> asc (nm p) -> Inv c ->
     wp (fuel < 3 * ht n + 3) (parse_child fuel n p) c (post c (fun l c' => lgood c' p l)))
  /\ (forall n p c, inn n -> asc (nm p) -> Inv c ->
     wp (fuel < 3 * ht n + 1) (complex_type_parse fuel n p) c (post c (fun r c' => rwf c' p r)))
  /\ (forall n p c, inn n -> asc (nm p) -> Inv c ->
     wp (fuel < 3 * ht n + 1) (complex_content_parse fuel n p) c (post c (fun e c' => ewf c' p e)))
  /\ (forall n p c, inn n -> asc (nm p) -> Inv c ->
     wp (fuel < 3 * ht n + 1) (sequence_parse fuel n p) c (post c (fun ls c' => Forall (lgood c' p) ls)))
  /\ (forall n p c, inn n -> asc (nm p) -> Inv c ->
     wp (fuel < 3 * ht n + 1) (choice_parse fuel n p) c (post c (fun ls c' => Forall (lgood c' p) ls))).

Ltac asc_names := repeat first [apply Forall_nil | apply Forall_cons]; auto;
  try solve [apply asc_const; cbn [nm get_node_name]; ascii_const].

Lemma walk_root_parse fuel : walk_ok fuel -> forall n p c, inn n -> asc (nm p) -> Inv c ->
  wp (S fuel < 3 * ht n + 2) (root_parse (S fuel) n p) c (post c (fun r c' => rwf c' p r)).
Proof.
  intros (_ & HR & _ & HC & _) n p c Hn Hp HI. cbn [root_parse].
  destruct (n_name n =?s "element").
  { eapply wp_mono; [apply HR; assumption|lia|auto]. }
  destruct (n_name n =?s "complexType").
  { eapply wp_mono; [apply HC; assumption|lia|auto]. }
  destruct (n_name n =?s "simpleType"); [apply wp_simple_type; assumption|].
  eapply loc_node; [exact Hn|reflexivity].
Qed.

Lemma rwf_docs c p r docs : rwf c p r -> rwf c p (root_with_docs r docs).
Proof. unfold root_with_docs. destruct (is_some docs); [|auto]. destruct r; auto. Qed.
Lemma ewf_docs c p e docs : ewf c p e -> ewf c p (ed_with_docs e docs).
Proof. unfold ed_with_docs. destruct (is_some docs); auto. Qed.

Lemma walk_parse_root fuel : walk_ok fuel -> forall n p c, inn n -> asc (nm p) -> Inv c ->
  wp (S fuel < 3 * ht n + 1) (parse_root (S fuel) n p) c (post c (fun r c' => rwf c' p r)).
Proof.
  intros (_ & _ & _ & HC & _) n p c Hn Hp HI. cbn [parse_root]. cbv zeta.
  set (T := S fuel < _). pose proof (children_below n Hn) as HB.
  rem (height (n_elem n)) (n_children n NS_XSD) HB an cs H1 H2.
  apply wp_bind, wp_lift. eapply rok_oannotation; [exact H1|]. intros docs.
  unfold n_attribute. cbv beta iota zeta.
  set (n1 := mkNode (n_elem n) _). assert (Hn1 : inn n1) by exact Hn.
  pose proof (lookup_iattr n "type" Hn) as Hty.
  destruct (attr_lookup "type" _) as [a|].
  - apply wp_bind, wp_type_name; [exact HI|exact Hty|]. intros lc c1 I1 E1 _ Hlc.
    apply wp_bind. eapply wp_mono; [apply (wp_content T); [exact Hn1|exact I1|destruct lc; tauto]|auto|].
    intros [ct n2] c2 (I2 & E2 & Q1 & Q2). cbn [fst snd] in *.
    assert (Hn2 : inn n2) by (unfold inn; rewrite Q1; exact Hn).
    apply wp_bind, wp_lift, rok_attrs; [exact Hn2|].
    apply wp_bind, wp_lift, rok_children; [eapply below_inn, H2|].
    apply wp_ret. split; [exact I2|]. split; [eapply ext_trans; eauto|exact Q2].
  - apply wp_bind, wp_lift, rok_attrs; [exact Hn1|].
    rem (height (n_elem n)) cs H2 ct cs1 H3 H4.
    apply wp_bind. set (m := match ct with Some _ => _ | None => _ end).
    assert (Hm : wp T m c (post c (fun r c' => rwf c' p (fst r) /\ Forall inn (snd r)))).
    { subst m. destruct ct as [ct|].
      - apply wp_bind. eapply wp_mono; [apply HC; [apply H3|exact Hp|exact HI]| |].
        + subst T. destruct H3 as [_ H3]. unfold ht. lia.
        + intros r c1 (I1 & E1 & R1). apply wp_ret. split; [exact I1|]. split; [exact E1|].
          split; [exact R1|]. eapply below_inn, H4.
      - rem (height (n_elem n)) cs1 H4 st cs2 H5 H6. destruct st as [st|].
        + apply wp_bind. eapply wp_mono; [apply (wp_simple_type T st c p); [apply H5|exact HI]|auto|].
          intros r c1 (I1 & E1 & R1). apply wp_ret. split; [exact I1|]. split; [exact E1|].
          split; [exact R1|]. eapply below_inn, H6.
        + eapply loc_node; [exact Hn1|reflexivity]. }
    eapply wp_mono; [exact Hm|auto|]. intros [r cs2] c1 (I1 & E1 & Q1 & Q2). cbn [fst snd] in *.
    apply wp_bind, wp_lift, rok_children; [exact Q2|]. apply wp_ret.
    split; [exact I1|]. split; [exact E1|]. now apply rwf_docs.
Qed.

Lemma walk_parse_child fuel : walk_ok fuel -> forall n p c, inn n -> asc (nm p) -> Inv c ->
  wp (S fuel < 3 * ht n + 3) (parse_child (S fuel) n p) c (post c (fun l c' => lgood c' p l)).
Proof.
  intros (HP & _) n p c Hn Hp HI. cbn [parse_child]. unfold n_attribute. cbv beta iota zeta. cbn [n_elem].
  set (T := S fuel < _).
  apply wp_bind, wp_lift, rok_min; [apply lookup_iattr, Hn|]. intros mi _.
  apply wp_bind, wp_lift, rok_max; [apply lookup_iattr, Hn|]. intros ma _.
  pose proof (lookup_iattr n "ref" Hn) as Hrf. destruct (attr_lookup "ref" _) as [a|].
  - apply wp_bind, wp_lift, rok_attrs; [exact Hn|].
    apply wp_bind, wp_type_name; [exact HI|exact Hrf|]. intros lc c1 I1 E1 _ Hlc.
    destruct lc as [l|t|s]; [exists (at_range a); split; [reflexivity|apply Hrf]| |destruct Hlc].
    apply wp_bind, wp_discover; [exact I1|]. intros c2 I2 E2 _ D. apply wp_ret.
    split; [exact I2|]. split; [eapply ext_trans; eauto|].
    assert (V : nvalid (nss_of c2) (nm_ns t)) by (eapply nvalid_ext; [exact E2|apply Hlc]).
    apply plain_leaf_good; [exact V|split; assumption|apply Hlc].
  - apply wp_bind, wp_lift, rok_try; [exact Hn|]. intros na Hna _ _ _. cbv beta iota. cbn [n_elem].
    apply wp_bind, wp_get.
    set (nn := mkNode (n_elem n) ("form" :: _)). assert (Hnn : inn nn) by exact Hn.
    apply wp_bind, wp_lift. eapply rok_oannotation; [apply child_below, Hnn|]. intros docs.
    pose proof (lookup_iattr n "type" Hn) as Hty.
    set (nt := mkNode (n_elem n) ("type" :: _)). assert (Hnt : inn nt) by exact Hn.
    destruct (attr_lookup "type" _) as [a|].
    + apply wp_bind, wp_type_name; [exact HI|exact Hty|]. intros lc c1 I1 E1 _ Hlc.
      apply wp_bind. eapply wp_mono; [apply (wp_content T); [exact Hnt|exact I1|destruct lc; tauto]|auto|].
      intros [ct n2] c2 (I2 & E2 & Q1 & Q2). cbn [fst snd] in *.
      apply wp_bind, wp_lift, rok_attrs; [unfold inn; rewrite Q1; exact Hn|].
      apply wp_ret. assert (E : ext c c2) by (eapply ext_trans; eauto).
      split; [exact I2|]. split; [exact E|]. apply plain_leaf_good; [|exact Q2|apply Hna].
      rewrite vname_ns. rewrite <- (vns_ext _ _ E). apply vns_valid, I2.
    + apply wp_bind, wp_lift, rok_attrs; [exact Hnt|].
      assert (V : wp T (vn <== derive_virtual_name [p; get_node_name c (at_value na) false; get_node_name c "Data" false] false ;;
                   r <== root_parse fuel nt vn ;;
                   add_root vn r ;== discover_type vn p ;==
                   pret (plain_leaf (get_node_name c (at_value na) false) (LcNamed vn) docs mi ma)) c
                  (post c (fun l c' => lgood c' p l))).
      { apply wp_bind, wp_virtual_name; [asc_names; exact (proj2 Hna)|]. intros vn Hvn Avn.
        apply wp_bind. eapply wp_mono; [apply HP; [exact Hnt|exact Avn|exact HI]| |].
        { subst T. unfold ht. cbn [n_elem nt]. lia. }
        intros r c1 (I1 & E1 & R1).
        pose proof (vns_ext _ _ E1) as V1.
        eapply wp_add_then; [exact I1|rewrite V1; exact Hvn|exact R1|now left|].
        intros c2 I2 E2 D2 N2. apply wp_ret. assert (E : ext c c2) by (eapply ext_trans; eauto).
        split; [exact I2|]. split; [exact E|]. apply plain_leaf_good; [|split; assumption|apply Hna].
        rewrite vname_ns. rewrite <- (vns_ext _ _ E). apply vns_valid, I2. }
      destruct (n_child nt "simpleType" (Some NS_XSD)), (n_child nt "complexType" (Some NS_XSD)); try exact V.
      apply wp_ret. split; [exact HI|]. split; [apply ext_refl|]. apply plain_leaf_good; [|exact I|apply Hna].
      rewrite vname_ns. now apply vns_valid.
Qed.

Lemma walk_complex_type fuel : walk_ok fuel -> forall n p c, inn n -> asc (nm p) -> Inv c ->
  wp (S fuel < 3 * ht n + 1) (complex_type_parse (S fuel) n p) c (post c (fun r c' => rwf c' p r)).
Proof.
  intros (_ & _ & _ & _ & HCC & HS & HCh) n p c Hn Hp HI. cbn [complex_type_parse]. unfold n_attribute.
  cbv beta iota zeta. set (T := S fuel < _).
  match goal with |- wp _ (if ?b then _ else _) _ _ => destruct b end.
  { eapply loc_node; [exact Hn|reflexivity]. }
  set (n1 := mkNode (n_elem n) _). assert (Hn1 : inn n1) by exact Hn.
  apply wp_bind, wp_lift, rok_attrs; [exact Hn1|].
  pose proof (children_below n1 Hn1) as HB. change (height (n_elem n1)) with (ht n) in HB.
  rem (ht n) (n_children n1 NS_XSD) HB an cs H1 H2.
  apply wp_bind, wp_lift. eapply rok_oannotation; [exact H1|]. intros docs.
  rem (ht n) cs H2 sc cs1 H3 H4. destruct sc as [x|].
  { apply wp_bind, wp_lift, rok_children; [eapply below_inn, H4|].
    apply wp_bind. eapply wp_mono; [apply (wp_simple_content T); [exact Hp|apply H3|exact HI]|auto|].
    intros e c1 (I1 & E1 & Q1). apply wp_ret. split; [exact I1|]. split; [exact E1|]. now apply ewf_docs. }
  rem (ht n) cs1 H4 cc cs2 H5 H6. destruct cc as [x|].
  { apply wp_bind, wp_lift, rok_children; [eapply below_inn, H6|].
    apply wp_bind. eapply wp_mono; [apply HCC; [apply H5|exact Hp|exact HI]| |].
    { subst T. destruct H5 as [_ H5]. unfold ht in *. lia. }
    intros e c1 (I1 & E1 & Q1). apply wp_ret. split; [exact I1|]. split; [exact E1|]. now apply ewf_docs. }
  rem (ht n) cs2 H6 sq0 cs3 H7 H8.
  set (sqcs := match sq0 with Some _ => _ | None => _ end).
  assert (Hsq : obelow (ht n) (fst sqcs) /\ Forall (below (ht n)) (snd sqcs)).
  { subst sqcs. destruct sq0 as [x|]; [split; assumption|]. apply c_remove_below, H8. }
  destruct sqcs as [sq cs4]. cbn [fst snd] in Hsq. destruct Hsq as [H9 H10]. clear sq0 cs3 H7 H8.
  apply wp_bind. set (m := match sq with Some _ => _ | None => _ end).
  assert (Hm : wp T m c (post c (fun r c' =>
            match fst r with
            | None => True
            | Some (EcLeaf n d) => cwf c' p (ld_content d)
            | Some (EcLeaves ls) => Forall (lwf c' p) ls
            end /\ Forall (below (ht n)) (snd r)))).
  { subst m. destruct sq as [x|].
    - destruct H9 as [Hx Hxh]. cbn [n_elem].
      apply wp_bind, wp_lift, rok_min; [apply lookup_iattr, Hx|]. intros mi _.
      apply wp_bind, wp_lift, rok_max; [apply lookup_iattr, Hx|]. intros ma _.
      apply wp_bind. eapply wp_mono; [apply HS; [exact Hx|exact Hp|exact HI]| |].
      { subst T. unfold ht in *. cbn [n_elem]. lia. }
      intros ls0 c1 (I1 & E1 & Q1).
      set (ls := if _ =?s _ then _ else _).
      assert (Q2 : Forall (lgood c1 p) ls) by (subst ls; destruct (_ =?s _); [apply set_unordered_good|]; exact Q1).
      destruct (orb _ _).
      + apply wp_bind, wp_virtual_name; [eapply lgood_names, Q2|]. intros ln Hln Aln.
        apply wp_bind, wp_virtual_name; [asc_names|]. intros rn Hrn Arn.
        eapply (wp_add_then T rn (virtual_root ls) p p);
          [exact I1|exact Hrn|apply virtual_root_wf, Q2|now right|].
        intros c2 I2 E2 D2 N2. apply wp_ret. split; [exact I2|]. split; [eapply ext_trans; eauto|].
        cbn [fst snd]. split; [|exact H10]. apply Forall_cons; [|apply Forall_nil].
        apply named_leaf_good; [|exact N2|exact D2|exact Aln].
        rewrite Hln, <- (vns_ext _ _ E2). apply vns_valid, I2.
      + apply wp_ret. split; [exact I1|]. split; [exact E1|]. cbn [fst snd]. split; [eapply lgood_lwf, Q2|exact H10].
    - rem (ht n) cs4 H10 ch cs5 H11 H12. destruct ch as [x|].
      + destruct H11 as [Hx Hxh].
        apply wp_bind. eapply wp_mono; [apply HCh; [exact Hx|exact Hp|exact HI]| |].
        { subst T. unfold ht in *. lia. }
        intros vs c1 (I1 & E1 & Q1). apply wp_bind, wp_get.
        apply wp_bind, wp_virtual_name; [asc_names|]. intros rn Hrn Arn.
        eapply (wp_add_then T rn _ p p); [exact I1|exact Hrn|eapply lgood_lwf, Q1|now right|].
        intros c2 I2 E2 D2 N2. apply wp_ret. split; [exact I2|]. split; [eapply ext_trans; eauto|].
        cbn [fst snd]. split; [|exact H12]. split; assumption.
      + apply wp_ret. split; [exact HI|]. split; [apply ext_refl|]. cbn [fst snd]. auto. }
  eapply wp_mono; [exact Hm|auto|]. clear Hm m. intros [ct cs5] c1 (I1 & E1 & Q1 & Q2). cbn [fst snd] in *.
  apply wp_bind. eapply wp_mono; [eapply (wp_attributes T); [exact Hp|exact Q2|exact I1]|auto|].
  intros ats c2 (I2 & E2 & Q3).
  apply wp_bind, wp_lift, rok_children; [eapply filter_below, below_inn, Q2|].
  apply wp_ret. split; [exact I2|]. split; [eapply ext_trans; eauto|]. split; [exact Q3|]. simpl.
  destruct ct as [[nl dl|ls]|]; [eapply cwf_ext; eauto| |exact I].
  eapply Forall_impl; [|exact Q1]. intros l. apply lwf_ext, E2.
Qed.

Lemma walk_complex_content fuel : walk_ok fuel -> forall n p c, inn n -> asc (nm p) -> Inv c ->
  wp (S fuel < 3 * ht n + 1) (complex_content_parse (S fuel) n p) c (post c (fun e c' => ewf c' p e)).
Proof.
  intros (_ & _ & _ & _ & _ & HS & _) n p c Hn Hp HI. cbn [complex_content_parse]. set (T := S fuel < _).
  apply wp_bind, wp_lift, rok_attrs; [exact Hn|].
  pose proof (children_below n Hn) as HB.
  apply wp_bind, wp_lift. eapply rok_try_remove; [exact Hn|exact HB|]. intros x rest Hx Hr. cbv beta iota.
  apply wp_bind, wp_lift, rok_children; [eapply below_inn, Hr|].
  apply wp_bind, wp_lift, rok_try; [apply Hx|]. intros a Ha _ _ _. cbv beta iota.
  set (x1 := mkNode (n_elem x) _). assert (Hx1 : inn x1) by apply Hx.
  apply wp_bind, wp_type_name; [exact HI|exact Ha|]. intros lc c1 I1 E1 _ Hlc.
  destruct lc as [l|t|s]; [exists (at_range a); split; [reflexivity|apply Ha]| |destruct Hlc].
  apply wp_bind, wp_discover; [exact I1|]. intros c2 I2 E2 _ D2. cbv beta iota zeta.
  assert (N2 : nvalid (nss_of c2) (nm_ns t)) by (eapply nvalid_ext; [exact E2|apply Hlc]).
  pose proof (children_below x1 Hx1) as HB1.
  rem (height (n_elem x1)) (n_children x1 NS_XSD) HB1 sq cs H1 H2.
  apply wp_bind. set (m := match sq with Some _ => _ | None => _ end).
  assert (Hm : wp T m c2 (post c2 (fun ls c' => Forall (lgood c' p) ls))).
  { subst m. destruct sq as [y|].
    - destruct H1 as [Hy Hyh]. unfold n_attribute. cbv beta iota. cbn [n_elem].
      apply wp_bind, wp_lift, rok_min; [apply lookup_iattr, Hy|]. intros mi _.
      apply wp_bind. eapply wp_mono; [apply HS; [exact Hy|exact Hp|exact I2]| |].
      { subst T. destruct Hx as [_ Hx]. unfold ht in *. cbn [n_elem x1] in *. lia. }
      intros ls c3 (I3 & E3 & Q3). apply wp_bind, wp_get. cbv zeta.
      apply wp_bind, wp_virtual_name; [asc_names; apply Hlc|]. intros rn Hrn Arn.
      eapply (wp_add_then T rn (virtual_root ls) p p);
        [exact I3|exact Hrn|apply virtual_root_wf, Q3|now right|].
      intros c4 I4 E4 D4 N4. apply wp_ret. split; [exact I4|]. split; [eapply ext_trans; eauto|].
      apply Forall_cons; [|apply Forall_nil].
      apply named_leaf_good; [|exact N4|exact D4|apply Hlc].
      rewrite vname_ns, <- (vns_ext _ _ E4). apply vns_valid, I4.
    - apply wp_ret. split; [exact I2|]. split; [apply ext_refl|constructor]. }
  eapply wp_mono; [exact Hm|auto|]. clear Hm m. intros vls c3 (I3 & E3 & Q3).
  apply wp_bind. eapply wp_mono; [eapply (wp_attributes T); [exact Hp|exact H2|exact I3]|auto|].
  intros ats c4 (I4 & E4 & Q4).
  apply wp_bind, wp_lift, rok_children; [eapply filter_below, below_inn, H2|].
  apply wp_bind, wp_get. apply wp_ret.
  assert (E24 : ext c2 c4) by (eapply ext_trans; eauto).
  assert (C4 : cwf c4 p (LcNamed t)) by (eapply cwf_ext; [exact E24|split; assumption]).
  split; [exact I4|]. split; [eapply ext_trans; [exact E1|eapply ext_trans; eauto]|]. split; [exact Q4|]. simpl.
  destruct vls as [|vl vls]; [exact C4|]. apply Forall_cons.
  - split; [|split; [exact C4|intros _; eexists; reflexivity]].
    cbn [lf_name]. rewrite vname_ns. apply vns_valid, I4.
  - apply lgood_lwf. eapply lgoods_ext; [exact E4|exact Q3].
Qed.

Lemma walk_sequence fuel : walk_ok fuel -> forall n p c, inn n -> asc (nm p) -> Inv c ->
  wp (S fuel < 3 * ht n + 1) (sequence_parse (S fuel) n p) c (post c (fun ls c' => Forall (lgood c' p) ls)).
Proof.
  intros (_ & _ & HPC & _ & _ & HS & HCh) n p c Hn Hp HI. cbn [sequence_parse]. set (T := S fuel < _).
  apply wp_bind, wp_lift, rok_attrs; [exact Hn|].
  apply (wp_pcollect T _ (below (ht n)) (fun c l => lgood c p l)); [intros; eapply lgood_ext; eauto| |apply children_below, Hn|exact HI].
  clear c HI. intros x c [Hx Hxh] HI. destruct (n_name x =?s "element").
  { apply wp_bind. eapply wp_mono; [apply HPC; [exact Hx|exact Hp|exact HI]| |].
    { subst T. unfold ht in *. lia. }
    intros l c1 (I1 & E1 & Q1). apply wp_ret. split; [exact I1|]. split; [exact E1|exact Q1]. }
  unfold n_attribute. cbv beta iota zeta. cbn [n_elem].
  destruct (n_name x =?s "choice").
  { apply wp_bind, wp_lift, rok_min; [apply lookup_iattr, Hx|]. intros mi _.
    apply wp_bind, wp_lift, rok_max; [apply lookup_iattr, Hx|]. intros ma _.
    apply wp_bind. eapply wp_mono; [apply HCh; [exact Hx|exact Hp|exact HI]| |].
    { subst T. unfold ht in *. cbn [n_elem]. lia. }
    intros vs c1 (I1 & E1 & Q1).
    apply wp_bind, wp_virtual_name; [eapply lgood_names, Q1|]. intros ln Hln Aln.
    apply wp_bind, wp_virtual_name; [asc_names|]. intros rn Hrn Arn.
    eapply (wp_add_then T rn _ p p); [exact I1|exact Hrn|eapply lgood_lwf, Q1|now right|].
    intros c2 I2 E2 D2 N2. apply wp_ret. split; [exact I2|]. split; [eapply ext_trans; eauto|].
    apply named_leaf_good; [|exact N2|exact D2|exact Aln].
    rewrite Hln, <- (vns_ext _ _ E2). apply vns_valid, I2. }
  destruct (n_name x =?s "sequence").
  { apply wp_bind, wp_lift. eapply rok_oannotation; [apply child_below, Hx|]. intros docs.
    apply wp_bind, wp_lift, rok_min; [apply lookup_iattr, Hx|]. intros mi _.
    apply wp_bind. eapply wp_mono; [apply HS; [exact Hx|exact Hp|exact HI]| |].
    { subst T. unfold ht in *. cbn [n_elem]. lia. }
    intros vs c1 (I1 & E1 & Q1).
    apply wp_bind, wp_virtual_name; [eapply lgood_names, Q1|]. intros ln Hln Aln.
    apply wp_bind, wp_virtual_name; [asc_names|]. intros rn Hrn Arn.
    eapply (wp_add_then T rn _ p p); [exact I1|exact Hrn|apply virtual_root_wf, Q1|now right|].
    intros c2 I2 E2 D2 N2. apply wp_ret. split; [exact I2|]. split; [eapply ext_trans; eauto|].
    apply named_leaf_good; [|exact N2|exact D2|exact Aln].
    rewrite Hln, <- (vns_ext _ _ E2). apply vns_valid, I2. }
  destruct (n_name x =?s "annotation").
  - apply wp_ret. split; [exact HI|]. split; [apply ext_refl|exact I].
  - eapply loc_node; [exact Hx|reflexivity].
Qed.

Lemma walk_choice fuel : walk_ok fuel -> forall n p c, inn n -> asc (nm p) -> Inv c ->
  wp (S fuel < 3 * ht n + 1) (choice_parse (S fuel) n p) c (post c (fun ls c' => Forall (lgood c' p) ls)).
Proof.
  intros (_ & _ & HPC & _ & _ & HS & HCh) n p c Hn Hp HI. cbn [choice_parse]. set (T := S fuel < _).
  apply wp_bind, wp_lift, rok_attrs; [exact Hn|].
  apply (wp_pcollect T _ (below (ht n)) (fun c l => lgood c p l)); [intros; eapply lgood_ext; eauto| |apply children_below, Hn|exact HI].
  clear c HI. intros x c [Hx Hxh] HI. destruct (n_name x =?s "element").
  { apply wp_bind. eapply wp_mono; [apply HPC; [exact Hx|exact Hp|exact HI]| |].
    { subst T. unfold ht in *. lia. }
    intros l c1 (I1 & E1 & Q1). apply wp_ret. split; [exact I1|]. split; [exact E1|exact Q1]. }
  unfold n_attribute. cbv beta iota zeta. cbn [n_elem].
  destruct (n_name x =?s "sequence").
  { apply wp_bind, wp_lift. eapply rok_oannotation; [apply child_below, Hx|]. intros docs.
    apply wp_bind, wp_lift, rok_min; [apply lookup_iattr, Hx|]. intros mi _.
    apply wp_bind, wp_lift, rok_max; [apply lookup_iattr, Hx|]. intros ma _.
    apply wp_bind. eapply wp_mono; [apply HS; [exact Hx|exact Hp|exact HI]| |].
    { subst T. unfold ht in *. cbn [n_elem]. lia. }
    intros vs c1 (I1 & E1 & Q1).
    apply wp_bind, wp_virtual_name; [eapply lgood_names, Q1|]. intros ln Hln Aln.
    apply wp_bind, wp_get.
    apply wp_bind, wp_virtual_name; [asc_names|]. intros rn Hrn Arn.
    eapply (wp_add_then T rn _ p p); [exact I1|exact Hrn|apply virtual_root_wf, Q1|now right|].
    intros c2 I2 E2 D2 N2. apply wp_ret. split; [exact I2|]. split; [eapply ext_trans; eauto|].
    apply named_leaf_good; [|exact N2|exact D2|exact Aln].
    rewrite Hln, <- (vns_ext _ _ E2). apply vns_valid, I2. }
  destruct (n_name x =?s "annotation").
  - apply wp_ret. split; [exact HI|]. split; [apply ext_refl|exact I].
  - eapply loc_node; [exact Hx|reflexivity].
Qed.

Lemma walk fuel : walk_ok fuel.
Proof.
  induction fuel as [|fuel IH].
  - repeat split; intros; unfold wp; simpl; lia.
  - split; [apply walk_root_parse, IH|]. split; [apply walk_parse_root, IH|]. split; [apply walk_parse_child, IH|].
    split; [apply walk_complex_type, IH|]. split; [apply walk_complex_content, IH|].
    split; [apply walk_sequence, IH|apply walk_choice, IH].
Qed.

End Walk.
