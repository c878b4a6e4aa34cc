(** * TypingItems: what the text of a module declares and implements *)
From Verif Require Import Base Libs Xml Ast Gen Emit Rust Body RustSpec EmitSpec GramSpec GramWrite TypingSpec TypingProof.
From Coq Require Import Permutation Lia.

(** The same declaration, as far as its shape goes. *)
Definition alike (d d' : decl) : Prop :=
  match d, d' with
  | DTuple t _, DTuple t' _ => t = t'
  | DEnum vs, DEnum vs' => map fst vs = map fst vs'
  | DStruct fs, DStruct fs' => fs = fs'
  | DChoice vs, DChoice vs' => vs = vs'
  | DEnum vs, DChoice vs' => vs = [] /\ vs' = []
  | DChoice vs, DEnum vs' => vs = [] /\ vs' = []
  | _, _ => False
  end.
Lemma denotes_det y t : denotes y t -> forall u, denotes y u -> t = u.
Proof.
  induction 1; intros u' K; inversion K; subst; auto; try (exfalso; match goal with N : ~ In _ _ |- _ => apply N; simpl; tauto end).
  - f_equal. auto.
  - f_equal. auto.
Qed.
Lemma declares_alike sh docs d docs' d' : declares sh docs d -> declares sh docs' d' -> alike d d'.
Proof.
  intros H K. destruct H as [t u b Ht|vs vs' F|fs ds fs' F _|vs vs' F]; inversion K as [t0 u0 b0 Ht0|vs0 vs0' F0|fs0 ds0 fs0' F0 E0|vs0 vs0' F0]; subst; simpl.
  - eapply denotes_det; eauto.
  - revert vs0' F0 K. induction F as [|a b vs vs' (A & _) F IH]; intros l F0 K; inversion F0; subst; [reflexivity|].
    simpl. f_equal; [destruct H1; congruence|]. apply IH; auto. now constructor.
  - destruct F as [|a b vs vs' (A & B & C) F]; inversion F0; subst; auto. destruct H1 as (_ & (t & X & _) & _). congruence.
  - clear K. revert fs0' F0. induction F as [|a b vs vs' (_ & A & B) F IH]; intros l F0; inversion F0; subst; [reflexivity|].
    destruct H1 as (_ & A' & B'). pose proof (denotes_det _ _ B _ B'). f_equal; auto. destruct b, y; simpl in *; congruence.
  - destruct F as [|a b vs vs' (A & (t & B & _) & C) F]; inversion F0; subst; auto. destruct H1 as (_ & X & _). congruence.
  - clear K. revert vs0' F0. induction F as [|a b vs vs' (A & (t & B & T) & _) F IH]; intros l F0; inversion F0; subst; [reflexivity|].
    destruct H1 as (A' & (t' & B' & T') & _). rewrite B in B'. injection B' as <-. pose proof (denotes_det _ _ T _ T'). f_equal; auto.
    destruct b, y; simpl in *; congruence.
Qed.

Lemma defined_in p id : defined p id <-> exists t, In t p /\ ti_id t = id.
Proof. unfold defined. rewrite in_map_iff. split; intros (t & A & B); eauto. Qed.

Section Items.
Variables (items : list pitem) (l : list (root * titem)) (p : program).
Hypothesis Hh : holds items l.
Hypothesis Hl : forall t, In t p <-> In t (map snd l).
Hypothesis Hd : decls_ok p.

Lemma type_in y : In (IType y) items -> exists r t, In t p /\ describes y r t.
Proof.
  assert (X : In (IType y) items -> exists r t, In t (map snd l) /\ describes y r t);
    [|intros K; destruct (X K) as (r & t & A & B); exists r, t; rewrite Hl; auto].
  clear Hl Hd. induction Hh as [|y' r t its l' D H IH]; [intros []|]. intros [E|K].
  - injection E as <-. exists r, t. split; [now left|exact D].
  - apply in_app_or in K. destruct K as [K|K]; [apply in_map_iff in K; destruct K as (? & ? & _); discriminate|].
    destruct (IH H K) as (r' & t' & I & D'). exists r', t'. split; [now right|exact D'].
Qed.
Lemma in_type t : In t p -> exists y r, In (IType y) items /\ describes y r t.
Proof.
  rewrite Hl. clear Hl Hd. induction Hh as [|y' r t' its l' D H IH]; [intros []|]. intros [E|K].
  - simpl in E. subst t'. exists y', r. split; [now left|exact D].
  - destruct (IH H K) as (y & r' & I & D'). exists y, r'. split; [right; apply in_or_app; now right|exact D'].
Qed.
Lemma impl_in i : In (IImpl i) items <-> exists t, In t p /\ In i (impls_of t).
Proof.
  assert (X : In (IImpl i) items <-> exists t, In t (map snd l) /\ In i (impls_of t)); [|rewrite X; split; intros (t & A & B); exists t; now rewrite Hl in *].
  clear Hl Hd. induction Hh as [|y' r t' its l' D H IH]; [split; [intros []|intros (t & [] & _)]|]. simpl. rewrite in_app_iff, (IH H). split.
  - intros [E|[K|(t & I & J)]]; [discriminate| |exists t; auto]. apply in_map_iff in K. destruct K as (i' & E & K). injection E as ->. exists t'. auto.
  - intros (t & [<-|I] & J); [right; left; now apply in_map|right; right; eauto].
Qed.

Lemma in_declared t : In t p -> declared items (ti_id t) (ti_decl t).
Proof. intros I. destruct (in_type _ I) as (y & r & K & sh & -> & D). eexists. exists (fields_docs r). split; [exact K|]. auto. Qed.
Lemma declared_in id d : declared items id d -> exists t, In t p /\ ti_id t = id /\ alike d (ti_decl t).
Proof.
  intros (y & docs & K & E & D). destruct (type_in _ K) as (r & t & I & sh & -> & D'). exists t. split; [exact I|]. split; [exact E|].
  eapply declares_alike; eauto.
Qed.
Lemma same_item t t' : In t p -> In t' p -> ti_id t = ti_id t' -> t = t'.
Proof.
  intros I J E. pose proof (ds_distinct p Hd) as N. clear - I J E N. induction p as [|x q IH]; [destruct I|].
  simpl in N. inversion N; subst. destruct I as [<-|I], J as [<-|J]; auto.
  - destruct H1. rewrite E. now apply in_map.
  - destruct H1. rewrite <- E. now apply in_map.
Qed.
Lemma declared_item t d : In t p -> declared items (ti_id t) d -> alike d (ti_decl t).
Proof. intros I D. destruct (declared_in _ _ D) as (t' & I' & E & A). now rewrite (same_item t t') by auto. Qed.
Lemma item_name t : In t p -> item_name_ok t.
Proof. intros I. pose proof (ds_names p Hd) as N. rewrite Forall_forall in N. auto. Qed.
Lemma prelude_no_type x : In x prelude_types -> no_type items x.
Proof. intros I d D. destruct (declared_in _ _ D) as (t & J & <- & _). now apply (item_name t J) in I. Qed.
Lemma prelude_no_tuple x : In x prelude_values -> no_tuple items x.
Proof.
  intros I t b D. destruct (declared_in _ _ D) as (t' & J & <- & A). destruct (item_name t' J) as (_ & _ & N). destruct (ti_decl t') eqn:E; try contradiction.
  apply N in I; auto. unfold is_tuple. eauto.
Qed.

(** ** Implementations *)
Lemma impls_type t i : In i (impls_of t) -> pi_type i = ti_id t.
Proof.
  unfold impls_of. intros H. apply in_app_or in H. destruct H as [H|H].
  - destruct (ti_decl t) as [? []| | |]; simpl in H; intuition (subst; auto).
  - simpl in H. intuition (subst; auto).
Qed.
Definition from_str_impl t := mkPimpl (Some from_str_path) (ti_id t) [("Err", decode_error)] (fn_of t "from_str").
Definition display_impl t := mkPimpl (Some display_path) (ti_id t) [] (fn_of t "fmt").
Lemma impls_trait t i tr : In i (impls_of t) -> pi_trait i = Some tr ->
  (i = from_str_impl t \/ i = display_impl t) /\ ((exists u, ti_decl t = DTuple u true) \/ exists vs, ti_decl t = DEnum vs).
Proof.
  unfold impls_of. intros H E. apply in_app_or in H. destruct H as [H|H].
  - destruct (ti_decl t) as [u []| | |]; simpl in H; intuition (subst; try discriminate; eauto).
  - simpl in H. intuition (subst; discriminate).
Qed.
Lemma trait_impls t : ((exists u, ti_decl t = DTuple u true) \/ exists vs, ti_decl t = DEnum vs) ->
  In (from_str_impl t) (impls_of t) /\ In (display_impl t) (impls_of t).
Proof. unfold impls_of. intros [(u & ->)|(vs & ->)]; simpl; unfold from_str_impl, display_impl; auto. Qed.

(** Which functions there are. *)
Definition own_names : list string := ["to_xml"; "to_xml_writer"; "from_xml"; "from_xml_node"; "lookahead"].
Lemma fn_of_name t f q : In q (fn_of t f) -> pf_name q = f.
Proof. unfold fn_of. destruct (item_fn t f); [|intros []]. destruct (signature f) as [[[[? ?] ?] ?]|]; [|intros []]. intros [<-|[]]. reflexivity. Qed.
Lemma inherent_in id f i q : inherent items id f i q -> exists t, In t p /\ ti_id t = id /\ In i (impls_of t) /\ pi_trait i = None
  /\ In q (fn_of t f) /\ (In f own_names \/ (f = "as_str" /\ exists vs, ti_decl t = DEnum vs)).
Proof.
  intros (K & N & E & Q & F). apply impl_in in K. destruct K as (t & I & J). exists t. split; [exact I|].
  split; [rewrite <- E; symmetry; now apply impls_type|]. split; [exact J|]. split; [exact N|].
  unfold impls_of in J. apply in_app_or in J. destruct J as [J|J].
  - assert (K : (exists vs, ti_decl t = DEnum vs) /\ In q (fn_of t "as_str")).
    { destruct (ti_decl t) as [u []|vs| |]; cbn [In] in J.
      - destruct J as [<-|[<-|[]]]; discriminate.
      - destruct J.
      - destruct J as [<-|[<-|[<-|[]]]]; try discriminate. split; [eauto|]. cbn [pi_fns flat_map] in Q. now rewrite app_nil_r in Q.
      - destruct J.
      - destruct J. }
    destruct K as (D & Q'). clear Q. rename Q' into Q. pose proof (fn_of_name _ _ _ Q) as X. rewrite X in F. subst f. auto.
  - cbn [In] in J.
    assert (One : forall g, In q (fn_of t g) -> g = f) by (intros g Hg; rewrite <- F; symmetry; now apply fn_of_name in Hg).
    assert (K : exists g, In q (fn_of t g) /\ In g own_names).
    { destruct J as [<-|[<-|[<-|[]]]]; apply in_flat_map in Q; destruct Q as (g & G1 & G2); exists g; (split; [exact G2|]); simpl in G1 |- *; tauto. }
    destruct K as (g & K1 & K2). rewrite <- (One g K1). auto.
Qed.
Lemma in_inherent t f : In t p -> In f own_names -> exists i q, inherent items (ti_id t) f i q /\ In q (fn_of t f).
Proof.
  intros I J.
  assert (K : exists g s, item_fn t f = Some g /\ signature f = Some s) by (simpl in J; intuition (subst; eexists; eexists; split; reflexivity)).
  destruct K as (g & [[[pub gs] tys] ret] & G & S).
  assert (F : fn_of t f = [mkPfn pub f gs (combine (fn_params g) tys) ret (as_body (untyped (fn_body g)))]) by (unfold fn_of; now rewrite G, S).
  set (q := mkPfn pub f gs (combine (fn_params g) tys) ret (as_body (untyped (fn_body g)))) in *.
  assert (X : exists i, In i (impls_of t) /\ pi_trait i = None /\ In q (pi_fns i)).
  { unfold impls_of. simpl in J. destruct J as [J|[J|[J|[J|[J|[]]]]]]; subst f;
      [exists (mkPimpl None (ti_id t) [] (flat_map (fn_of t) ["to_xml"; "to_xml_writer"]))
      |exists (mkPimpl None (ti_id t) [] (flat_map (fn_of t) ["to_xml"; "to_xml_writer"]))
      |exists (mkPimpl None (ti_id t) [] (flat_map (fn_of t) ["from_xml"; "from_xml_node"]))
      |exists (mkPimpl None (ti_id t) [] (flat_map (fn_of t) ["from_xml"; "from_xml_node"]))
      |exists (mkPimpl None (ti_id t) [] (flat_map (fn_of t) ["lookahead"]))];
      (split; [apply in_or_app; right; simpl; tauto|]; split; [reflexivity|]; cbn [pi_fns flat_map]; rewrite !in_app_iff, F; simpl; tauto). }
  destruct X as (i & Ii & N & Q). exists i, q. split; [|rewrite F; now left]. split; [apply impl_in; eauto|]. split; [exact N|].
  split; [now apply impls_type|]. split; [exact Q|reflexivity].
Qed.
(** Their types. *)
Lemma fn_sig t i f q : In i (impls_of t) -> pi_trait i = None -> In q (fn_of t f) ->
  sig_of i q =
    if f =?s "from_xml" then Some ([YText], YRes (YNamed (ti_id t)) DecodeError)
    else if f =?s "from_xml_node" then Some ([YRef Node], YRes (YNamed (ti_id t)) DecodeError)
    else if f =?s "lookahead" then Some ([YRef Node], YBool)
    else if f =?s "to_xml" then Some ([YRef (YNamed (ti_id t))], YRes (YVec Byte) WriterError)
    else if f =?s "to_xml_writer" then Some ([YRef (YNamed (ti_id t)); Context; YRef (YWriter (YVar "W"))], YRes YUnit WriterError)
    else if f =?s "as_str" then Some ([YRef (YNamed (ti_id t))], str_ref)
    else sig_of i q.
Proof.
  intros Ii N Q. pose proof (impls_type _ _ Ii) as E. assert (A : assoc_of i = []).
  { unfold impls_of in Ii. apply in_app_or in Ii. destruct Ii as [J|J].
    - destruct (ti_decl t) as [u []|vs| |]; simpl in J; intuition (subst; try discriminate; auto).
    - simpl in J. intuition (subst; auto). }
  unfold sig_of. rewrite E, A. unfold fn_of, item_fn, signature in Q.
  destruct (String.eqb_spec f "from_xml") as [->|_]; [destruct Q as [<-|[]]; reflexivity|].
  destruct (String.eqb_spec f "from_xml_node") as [->|_]; [destruct Q as [<-|[]]; reflexivity|].
  destruct (String.eqb_spec f "lookahead") as [->|_]; [destruct Q as [<-|[]]; reflexivity|].
  destruct (String.eqb_spec f "to_xml") as [->|_]; [destruct Q as [<-|[]]; reflexivity|].
  destruct (String.eqb_spec f "to_xml_writer") as [->|_]; [destruct Q as [<-|[]]; reflexivity|].
  destruct (String.eqb_spec f "as_str") as [->|_]; [|reflexivity].
  destruct (ti_decl t) as [u []|vs| |]; simpl in Q; try (now destruct Q). destruct Q as [<-|[]]. reflexivity.
Qed.
Lemma from_str_sig t q : In q (fn_of t "from_str") -> sig_of (from_str_impl t) q = Some ([str_ref], YRes (YNamed (ti_id t)) DecodeError).
Proof. unfold fn_of, item_fn. destruct (ti_decl t) as [u []|vs| |]; simpl; try (intros []; fail); intros [<-|[]]; reflexivity. Qed.
Lemma fmt_sig t q : In q (fn_of t "fmt") -> sig_of (display_impl t) q = Some ([YRef (YNamed (ti_id t)); YRef Formatter], YRes YUnit FmtError).
Proof. unfold fn_of, item_fn. destruct (ti_decl t) as [u []|vs| |]; simpl; try (intros []; fail); intros [<-|[]]; reflexivity. Qed.

(** ** Traits *)
Definition converted (d : decl) : Prop := (exists u, d = DTuple u true) \/ exists vs, d = DEnum vs.
Lemma implements_in id tr i : implements items id tr i -> exists t, In t p /\ ti_id t = id /\ converted (ti_decl t)
  /\ ((tr = from_str_path /\ i = from_str_impl t) \/ (tr = display_path /\ i = display_impl t)).
Proof.
  intros (K & E & T). apply impl_in in K. destruct K as (t & I & J). exists t. split; [exact I|].
  split; [rewrite <- E; symmetry; now apply impls_type|]. destruct (impls_trait _ _ _ J T) as ([-> | ->] & D).
  - split; [exact D|]. left. split; [|reflexivity]. simpl in T. congruence.
  - split; [exact D|]. right. split; [|reflexivity]. simpl in T. congruence.
Qed.
Lemma own_from_str t : In t p -> converted (ti_decl t) -> from_str items (TRef (ti_id t)) DecodeError.
Proof.
  intros I D. eapply fs_own with (i := from_str_impl t); [|reflexivity]. split; [apply impl_in; exists t; split; [exact I|]; now apply trait_impls|]. auto.
Qed.
Lemma own_displays t : In t p -> converted (ti_decl t) -> displays items (YNamed (ti_id t)).
Proof.
  intros I D. eapply ds_own with (i := display_impl t). split; [apply impl_in; exists t; split; [exact I|]; now apply trait_impls|]. auto.
Qed.
Lemma from_str_inv u e : from_str items u e -> (exists q, u = TPrim q /\ e = YErr q) \/ (exists t, In t p /\ u = TRef (ti_id t) /\ e = DecodeError /\ converted (ti_decl t)).
Proof.
  intros H. inversion H as [q|id i e' K A]; subst; [left; eauto|]. right. destruct (implements_in _ _ _ K) as (t & I & <- & D & [[_ ->]|[X _]]); [|discriminate].
  exists t. split; [exact I|]. split; [reflexivity|]. cbn in A. injection A as <-. auto.
Qed.
Lemma displays_inv t : displays items t -> (exists q, t = YPrim q) \/ t = YStr \/ exists it, In it p /\ t = YNamed (ti_id it) /\ converted (ti_decl it).
Proof.
  intros H. inversion H as [q| |id i K]; subst; eauto. right. right. destruct (implements_in _ _ _ K) as (it & I & <- & D & _). eauto.
Qed.
End Items.
