(** * SchemaProof: when the declarations of a generated module are accepted *)
From Verif Require Import Base Libs Xml Ast Parse Decode Gen Run LitSpec GenSpec GenProof1 DecSpec DecSim DecProof
  RepSpec WfSpec CanonProof2 RustSpec RustProof RustLook RustGen SchemaSpec.

Lemma mapM_map {A B C E} (g : A -> B) (f : B -> res E C) l : mapM f (map g l) = mapM (fun a => f (g a)) l.
Proof. induction l as [|a l IH]; simpl; [reflexivity|]. now rewrite IH. Qed.

Section Gen.
Context {L : Libs}.
Variables (gfuel : nat) (c : schema_ctx) (gs : list name) (p : program).
Hypothesis Hp : mapM (generate_element gfuel c) gs = Ok p.

(** ** Members *)
Definition wraps (in_place : bool) (u t : rty) : Prop :=
  if in_place then t = u \/ t = TOpt u else t = TVec u \/ t = TOpt (TVec u).
Definition member_ty (m : member) (t : rty) : Prop := exists u ct,
  wraps (mb_in_place m) u t /\ final c (mb_content m) ct /\ ty_is ct u.

Lemma leaf_wraps l u : wraps (negb (lf_is_vec l)) u (wrap_opt (lf_is_optional l) (wrap_vec (lf_is_vec l) u)).
Proof. destruct (lf_is_vec l), (lf_is_optional l); simpl; auto. Qed.

Definition named_member (ident : name -> G string) (m : member) (ft : string * rty) : Prop :=
  ident (mb_name m) = Ok (fst ft) /\ member_ty m (snd ft).
Lemma leaf_named l ft : leaf_to_impl gfuel c l = Ok ft -> named_member field_ident (leaf_member l) ft.
Proof.
  destruct ft as [f t]. intros H. apply leaf_ty in H. destruct H as (u & Ef & -> & ct & F & T).
  split; [exact Ef|]. exists u, ct. split; [apply leaf_wraps|auto].
Qed.
Lemma attr_named a ft : attr_to_impl gfuel c a = Ok ft -> named_member field_ident (a_name a, a_content a, true) ft.
Proof.
  destruct ft as [f t]. intros H. apply attr_ty in H. destruct H as (u & Ef & -> & H).
  destruct (content_ty _ _ _ _ H) as (ct & F & T). split; [exact Ef|]. exists u, ct. split; [|auto].
  destruct (a_optional a); simpl; auto.
Qed.
Lemma F2_map_l {A B C} (f : A -> B) (R : B -> C -> Prop) l l' : Forall2 (fun a => R (f a)) l l' -> Forall2 R (map f l) l'.
Proof. induction 1; simpl; constructor; auto. Qed.
Lemma F2_impl {A B} (R S : A -> B -> Prop) l l' : (forall a b, R a b -> S a b) -> Forall2 R l l' -> Forall2 S l l'.
Proof. induction 2; constructor; auto. Qed.
Lemma fields_named d dc : element_to_impl gfuel c d = Ok dc ->
  exists fs, dc = DStruct fs /\ Forall2 (named_member field_ident) (fields_of d) fs.
Proof.
  unfold element_to_impl. intros H. apply bind_ok in H. destruct H as (fs & E1 & H).
  apply bind_ok in H. destruct H as (ats & E2 & H). injection H as <-. exists (fs ++ ats). split; [reflexivity|].
  unfold fields_of. apply Forall2_app.
  - destruct (ed_content d) as [[n def|ls]|].
    + apply bind_ok in E1. destruct E1 as (f & Ef & E1). apply bind_ok in E1. destruct E1 as (t & Et & E1). injection E1 as <-.
      constructor; [|constructor]. split; [exact Ef|]. destruct (content_ty _ _ _ _ Et) as (ct & F & T).
      exists t, ct. split; [now left|auto].
    + apply mapM_ok in E1. apply F2_map_l. revert E1. apply F2_impl. intros a b. apply leaf_named.
    + injection E1 as <-. constructor.
  - apply mapM_ok in E2. apply F2_map_l. revert E2. apply F2_impl. intros a b. apply attr_named.
Qed.
Lemma variants_named d vs :
  mapM (fun l => v <- variant_ident (lf_name l) ;; t <- def_to_impl gfuel c (lf_def l) ;; Ok (v, wrap_vec (lf_is_vec l) t)) (cd_variants d) = Ok vs ->
  Forall2 (named_member variant_ident) (map leaf_member (cd_variants d)) vs.
Proof.
  intros H. apply mapM_ok in H. apply F2_map_l. revert H. apply F2_impl. intros l [v t] H.
  apply bind_ok in H. destruct H as (v' & E1 & H). apply bind_ok in H. destruct H as (u & E2 & H). injection H as <- <-.
  split; [exact E1|]. destruct (content_ty _ _ _ _ E2) as (ct & F & T). exists u, ct. split; [|auto].
  unfold leaf_member, mb_in_place. simpl. destruct (lf_is_vec l); simpl; auto.
Qed.
Lemma F2_snd ident ms fs : Forall2 (named_member ident) ms fs -> Forall2 member_ty ms (map snd fs).
Proof. induction 1 as [|m f ms fs [_ H] _ IH]; simpl; constructor; auto. Qed.
Lemma F2_fst ident ms fs : Forall2 (named_member ident) ms fs -> Forall2 (fun n f => ident n = Ok f) (map mb_name ms) (map fst fs).
Proof. induction 1 as [|m f ms fs [H _] _ IH]; simpl; constructor; auto. Qed.
Lemma F2_det {A B E} (f : A -> res E B) l m m' : Forall2 (fun a b => f a = Ok b) l m -> Forall2 (fun a b => f a = Ok b) l m' -> m = m'.
Proof.
  intros H. revert m'. induction H as [|a b l m Ea _ IH]; intros m' H; inversion H as [|? b' ? m2 E' H']; subst; [reflexivity|].
  f_equal; [congruence|]. now apply IH.
Qed.

Lemma decl_members r d : root_to_declaration gfuel c r = Ok d -> Forall2 member_ty (members_of r) (member_types d).
Proof.
  destruct r as [ld|ns|ed|cd]; simpl; intros H.
  - apply bind_ok in H. destruct H as (t & E & H). injection H as <-. constructor; [|constructor].
    destruct (content_ty _ _ _ _ E) as (ct & F & T). exists t, ct. split; [now left|auto].
  - apply bind_ok in H. destruct H as (vs & E & H). injection H as <-. constructor.
  - destruct (fields_named _ _ H) as (fs & -> & F). eapply F2_snd, F.
  - apply bind_ok in H. destruct H as (vs & E & H). injection H as <-. eapply F2_snd. eapply variants_named, E.
Qed.

(** ** Types of members *)
Lemma wraps_type b u t : wraps b u t -> (type_ok p t <-> type_ok p u).
Proof.
  destruct b; intros [->| ->]; (split; [|repeat constructor; auto]); intros H; auto; inversion H as [| | | |? H1]; auto; now inversion H1.
Qed.
Lemma wraps_value b u t id : wraps b u t -> (by_value t id <-> b = true /\ by_value u id).
Proof.
  destruct b; intros [->| ->]; split; intros H.
  - auto.
  - apply H.
  - inversion H; auto.
  - constructor. apply H.
  - inversion H.
  - destruct H; discriminate.
  - inversion H as [|? ? H1]. inversion H1.
  - destruct H; discriminate.
Qed.
Lemma ref_types m : (exists id, type_ident m = Ok id /\ defined p id) <-> exists n r, type_of c gs m n r.
Proof.
  split.
  - intros (id & E & D). apply (defined_named _ _ _ _ Hp) in D. destruct D as (n & I & E').
    destruct (name_item _ _ _ _ Hp _ I) as (r & t & _ & K). exists n, r. split; [exact I|]. split; [apply (it_get _ _ _ _ _ _ K)|]. eauto.
  - intros (n & r & I & _ & id & E & E'). exists id. split; [exact E|]. apply (defined_named _ _ _ _ Hp). eauto.
Qed.
Lemma member_type_ok m t : member_ty m t ->
  (type_ok p t <-> forall x, final c (mb_content m) (LcNamed x) -> exists n r, type_of c gs x n r).
Proof.
  intros (u & ct & W & F & T). rewrite (wraps_type _ _ _ W). destruct T as [l|s|y id E]; split; intros H.
  - intros x F'. pose proof (final_det _ _ _ _ F F'). discriminate.
  - constructor.
  - intros x F'. pose proof (final_det _ _ _ _ F F'). discriminate.
  - constructor.
  - intros x F'. pose proof (final_det _ _ _ _ F F') as Ex. injection Ex as <-. apply ref_types. inversion H; eauto.
  - constructor. destruct (proj2 (ref_types y) (H y F)) as (id' & E' & D). congruence.
Qed.
Lemma member_value m t id : member_ty m t -> (by_value t id <->
  mb_in_place m = true /\ exists x, final c (mb_content m) (LcNamed x) /\ type_ident x = Ok id).
Proof.
  intros (u & ct & W & F & T). rewrite (wraps_value _ _ _ _ W). split; intros [Hb H]; (split; [exact Hb|]).
  - destruct T as [l|s|y id' E]; inversion H; subst. eauto.
  - destruct H as (x & F' & E'). pose proof (final_det _ _ _ _ F F') as ->. inversion T; subst.
    assert (id0 = id) by congruence. subst. constructor.
Qed.
Lemma members_types ms ts : Forall2 member_ty ms ts ->
  (Forall (type_ok p) ts <-> forall m x, In m ms -> final c (mb_content m) (LcNamed x) -> exists n r, type_of c gs x n r).
Proof.
  induction 1 as [|m t ms ts H _ IH]; split; intros K.
  - intros m x [].
  - constructor.
  - inversion K as [|? ? K1 K2]; subst. intros m' x [<-|I].
    + now apply (member_type_ok _ _ H).
    + apply IH; auto.
  - constructor.
    + apply (member_type_ok _ _ H). intros x. apply K. now left.
    + apply IH. intros m' x I. apply K. now right.
Qed.

(** ** Variants of enumerations *)
Lemma keyword_variant k : plain_ident ("Variant" +++ show_nat k).
Proof. intros H. simpl in H. repeat (destruct H as [H|H]; [discriminate|]). exact H. Qed.
Lemma fresh_from fuel : forall taken count v v' count', enum_fresh fuel taken count v = Some (v', count') ->
  (v' = v \/ exists k, v' = "Variant" +++ show_nat k) /\ (v' = v \/ v = "" \/ In v (map fst taken)).
Proof.
  induction fuel as [|fuel IH]; intros taken count v v' count' H; simpl in H.
  - destruct (is_empty v || is_some (aget String.eqb v taken))%bool; [discriminate|]. injection H as <- _. auto.
  - destruct (is_empty v || is_some (aget String.eqb v taken))%bool eqn:B; [|injection H as <- _; auto].
    destruct (IH _ _ _ _ _ H) as ([->|(k & ->)] & _).
    + split; [right; exists (S count); reflexivity|]. apply orb_true_iff in B. destruct B as [B|B].
      * right. left. destruct v; [reflexivity|discriminate].
      * right. right. destruct (aget String.eqb v taken) as [x|] eqn:G; [|discriminate].
        apply (aget_In String.eqb String.eqb_eq) in G. apply in_map_iff. exists (v, x). auto.
    + split; [right; eauto|]. apply orb_true_iff in B. destruct B as [B|B].
      * right. left. destruct v; [reflexivity|discriminate].
      * right. right. destruct (aget String.eqb v taken) as [x|] eqn:G; [|discriminate].
        apply (aget_In String.eqb String.eqb_eq) in G. apply in_map_iff. exists (v, x). auto.
Qed.

Lemma go_names names : forall taken count l, escape_enum_go names taken count = Some l ->
  (forall v, In v (map fst l) -> In v (map fst taken) \/ (exists n, In n names /\ v = enum_base_name (nm n))
     \/ exists k, v = "Variant" +++ show_nat k)
  /\ (forall v, In v (map fst taken) -> In v (map fst l))
  /\ (forall n, In n names -> enum_base_name (nm n) = "" \/ In (enum_base_name (nm n)) (map fst l)).
Proof.
  induction names as [|n names IH]; intros taken count l H; cbn [escape_enum_go] in H.
  - injection H as <-. split; [auto|]. split; [auto|]. intros n [].
  - destruct (enum_fresh _ taken count (enum_base_name (nm n))) as [[v k]|] eqn:F; [|discriminate].
    apply fresh_from in F. destruct F as [F1 F2]. destruct (IH _ _ _ H) as (A & B & C). split; [|split].
    + intros w I. destruct (A _ I) as [I1|[(m & I1 & E)|I1]]; [|right; left; exists m; split; [now right|exact E]|auto].
      apply (aset_keys _ String.eqb_eq) in I1. destruct I1 as [->|I1]; [|auto].
      destruct F1 as [->|F1]; [|auto]. right. left. exists n. split; [now left|reflexivity].
    + intros w I. apply B. apply (aset_keys _ String.eqb_eq). now right.
    + intros m [<-|I]; [|auto]. destruct F2 as [<-|[F2|F2]]; [|now left|]; right; apply B; apply (aset_keys _ String.eqb_eq); auto.
Qed.
Lemma enum_decl names vs : enum_variants names = Ok vs ->
  (vs <> [] <-> names <> []) /\ NoDup (map fst vs)
  /\ (Forall plain_ident (map fst vs) <-> forall v, In v names -> plain_ident (enum_base_name (nm v))).
Proof.
  unfold enum_variants. destruct (escape_enum_names_spec names) as (l & E & ND & NE & S). rewrite E. intros H.
  assert (M : map fst vs = map fst l).
  { apply mapM_ok in H. clear -H. induction H as [|[v n] [w s] l vs H _ IH]; [reflexivity|]. simpl.
    apply bind_ok in H. destruct H as (v' & H & H1). injection H1 as <- _. unfold format_ident in H. simpl in H.
    destruct (ident_valid v); [|discriminate]. injection H as <-. now f_equal. }
  destruct (go_names _ _ _ _ E) as (A & _ & C). rewrite M. split; [|split; [exact ND|split]].
  - apply mapM_ok in H. split; intros N K.
    + rewrite K in S. destruct l; [|discriminate S]. inversion H. subst. auto.
    + rewrite K in H. inversion H. subst. auto.
  - intros F v I Kw. destruct (C _ I) as [Z|Z].
    + rewrite Z in Kw. simpl in Kw. repeat (destruct Kw as [Kw|Kw]; [discriminate|]). exact Kw.
    + rewrite Forall_forall in F. exact (F _ Z Kw).
  - intros F. apply Forall_forall. intros v I. destruct (A _ I) as [[]|[(n & In_ & ->)|(k & ->)]]; [auto|apply keyword_variant].
Qed.

(** ** Declarations *)
Lemma decl_iff n r t : item c gfuel gs n r t ->
  (decl_ok p (ti_decl t) <-> members_named r
     /\ forall m x, In m (members_of r) -> final c (mb_content m) (LcNamed x) -> exists n' r', type_of c gs x n' r').
Proof.
  intros K. pose proof (it_decl _ _ _ _ _ _ K) as D. pose proof (decl_members _ _ D) as M.
  pose proof (members_types _ _ M) as T. rewrite <- T. clear T M.
  destruct r as [ld|ns|ed|cd]; simpl in D.
  - apply bind_ok in D. destruct D as (u & E & D). injection D as <-. simpl. split; intros H.
    + inversion H; subst. split; constructor; auto.
    + destruct H as [_ H]. inversion H; subst. constructor; [assumption|]. intros Hb.
      unfold def_to_impl in E. destruct (ld_content ld) as [lit| |]; try discriminate Hb. destruct gfuel; simpl in E; injection E as <-; eauto.
  - apply bind_ok in D. destruct D as (vs & E & D). injection D as <-. apply enum_decl in E. destruct E as (E1 & E2 & E3). simpl. split; intros H.
    + inversion H; subst. split; [|constructor]. constructor; [now apply E1|now apply E3].
    + destruct H as [H _]. inversion H; subst. constructor; [now apply E1|assumption|now apply E3].
  - destruct (fields_named _ _ D) as (fs & -> & F). simpl. pose proof (F2_fst _ _ _ F) as Fn. split; intros H.
    + inversion H as [| |? (H1 & H2 & H3)|]; subst. split; [|exact H3]. constructor. exists (map fst fs). auto.
    + destruct H as [H1 H2]. inversion H1 as [| |? (fs' & G1 & G2 & G3)|]; subst. constructor.
      rewrite <- (F2_det _ _ _ _ Fn G1) in G2, G3. repeat split; assumption.
  - apply bind_ok in D. destruct D as (vs & E & D). injection D as <-. apply variants_named in E. simpl.
    pose proof (F2_fst _ _ _ E) as Fn. rewrite map_map in Fn.
    assert (NE : vs <> [] <-> cd_variants cd <> []).
    { split; intros N Z; rewrite Z in E; inversion E; subst; auto. destruct (cd_variants cd); [auto|discriminate]. }
    split; intros H.
    + inversion H as [| | |? H0 (H1 & H2 & H3)]; subst. split; [|exact H3]. constructor; [now apply NE|]. exists (map fst vs). auto.
    + destruct H as [H1 H2]. inversion H1 as [| | |? H0 (fs' & G1 & G2 & G3)]; subst. constructor; [now apply NE|].
      change (map lf_name (cd_variants cd)) with (map (fun x => mb_name (leaf_member x)) (cd_variants cd)) in G1.
      rewrite <- (F2_det _ _ _ _ Fn G1) in G2, G3. repeat split; assumption.
Qed.

Lemma item_member n r t : item c gfuel gs n r t -> forall u, In u (member_types (ti_decl t)) -> exists m, In m (members_of r) /\ member_ty m u.
Proof.
  intros K u I. pose proof (decl_members _ _ (it_decl _ _ _ _ _ _ K)) as M.
  induction M as [|m u' ms us H _ IH]; [destruct I|]. destruct I as [<-|I].
  - exists m. split; [now left|exact H].
  - destruct (IH I) as (m' & I' & H'). exists m'. split; [now right|exact H'].
Qed.
Lemma member_item n r t : item c gfuel gs n r t -> forall m, In m (members_of r) -> exists u, In u (member_types (ti_decl t)) /\ member_ty m u.
Proof.
  intros K m I. pose proof (decl_members _ _ (it_decl _ _ _ _ _ _ K)) as M.
  induction M as [|m' u ms us H _ IH]; [destruct I|]. destruct I as [<-|I].
  - exists u. split; [now left|exact H].
  - destruct (IH I) as (u' & I' & H'). exists u'. split; [now right|exact H'].
Qed.

Definition id_of (n : name) : string := match type_ident n with Ok id => id | _ => "" end.
Definition named_as (id : string) (n : name) : bool := match type_ident n with Ok i => i =?s id | _ => false end.
Lemma sized_iff : (forall n n' id, In n gs -> In n' gs -> type_ident n = Ok id -> type_ident n' = Ok id -> n = n') ->
  (sized p <-> exists rank : name -> nat, forall n r m t n' r', In n gs -> sc_get c n = Some r -> In m (members_of r) ->
    mb_in_place m = true -> final c (mb_content m) (LcNamed t) -> type_of c gs t n' r' -> rank n' < rank n).
Proof.
  intros U. split.
  - intros (rank & H). exists (fun n => rank (id_of n)). intros n r m x n' r' I G Im Pl F (I' & G' & id & Ex & En).
    destruct (name_item _ _ _ _ Hp _ I) as (r0 & t & It & K). pose proof (it_get _ _ _ _ _ _ K) as G0. rewrite G in G0. injection G0 as <-.
    destruct (member_item _ _ _ K _ Im) as (u & Iu & Mu). specialize (H t u id It Iu).
    unfold id_of. rewrite En, (it_id _ _ _ _ _ _ K). apply H. apply (member_value _ _ _ Mu). eauto.
  - intros (rank & H). exists (fun id => match find (named_as id) gs with Some n => S (rank n) | None => 0 end).
    intros t u id It Iu B. destruct (in_item _ _ _ _ Hp _ It) as (n & r & K).
    destruct (item_member _ _ _ K _ Iu) as (m & Im & Mu). apply (member_value _ _ _ Mu) in B. destruct B as (Pl & x & F & Ex).
    pose proof (it_in _ _ _ _ _ _ K) as I. pose proof (it_id _ _ _ _ _ _ K) as En.
    assert (Fn : find (named_as (ti_id t)) gs = Some n).
    { destruct (find (named_as (ti_id t)) gs) as [n1|] eqn:Fd.
      - apply find_some in Fd. destruct Fd as [I1 E1]. unfold named_as in E1. destruct (type_ident n1) as [i| | |] eqn:T1; try discriminate.
        apply String.eqb_eq in E1. subst i. f_equal. now apply (U _ _ (ti_id t)).
      - apply (find_none _ _ Fd) in I. unfold named_as in I. rewrite En, String.eqb_refl in I. discriminate. }
    rewrite Fn. destruct (find (named_as id) gs) as [n'|] eqn:Fd.
    + apply find_some in Fd. destruct Fd as [I1 E1]. unfold named_as in E1. destruct (type_ident n') as [i| | |] eqn:T1; try discriminate.
      apply String.eqb_eq in E1. subst i. destruct (name_item _ _ _ _ Hp _ I1) as (r' & t' & It' & K').
      apply -> Nat.succ_lt_mono. apply (H n r m x n' r'); auto; [apply (it_get _ _ _ _ _ _ K)|]. split; [exact I1|]. split; [apply (it_get _ _ _ _ _ _ K')|]. eauto.
    + lia.
Qed.

Lemma items_forall (P : titem -> Prop) (Q : name -> root -> Prop) : (forall n r t, item c gfuel gs n r t -> (P t <-> Q n r)) ->
  (Forall P p <-> forall n r, In n gs -> sc_get c n = Some r -> Q n r).
Proof.
  intros H. rewrite Forall_forall. split.
  - intros F n r I G. destruct (name_item _ _ _ _ Hp _ I) as (r0 & t & It & K). pose proof (it_get _ _ _ _ _ _ K) as G0.
    rewrite G in G0. injection G0 as <-. apply (H _ _ _ K). auto.
  - intros F t It. destruct (in_item _ _ _ _ Hp _ It) as (n & r & K). apply (H _ _ _ K).
    apply F; [apply (it_in _ _ _ _ _ _ K)|apply (it_get _ _ _ _ _ _ K)].
Qed.
Lemma tuple_root r d : root_to_declaration gfuel c r = Ok d -> (is_tuple d <-> exists ld, r = RootLeaf ld).
Proof.
  intros D. destruct r as [ld|ns|ed|cd]; simpl in D.
  - apply bind_ok in D. destruct D as (u & E & D). injection D as <-. split; intros _; [eauto|]. do 2 eexists. reflexivity.
  - apply bind_ok in D. destruct D as (u & E & D). injection D as <-. split; [intros (? & ? & ?)|intros (? & ?)]; discriminate.
  - destruct (fields_named _ _ D) as (fs & -> & _). split; [intros (? & ? & ?)|intros (? & ?)]; discriminate.
  - apply bind_ok in D. destruct D as (u & E & D). injection D as <-. split; [intros (? & ? & ?)|intros (? & ?)]; discriminate.
Qed.
Lemma idents_F2 : Forall2 (fun n id => type_ident n = Ok id) gs (map ti_id p).
Proof.
  apply mapM_ok in Hp. induction Hp as [|n t l q E F IH]; simpl; constructor; auto.
  - destruct (item_of c gfuel [n] n t) as (r & K); [now left|exact E|]. apply (it_id _ _ _ _ _ _ K).
Qed.
Lemma F2_NoDup {A B} (R : A -> B -> Prop) l m : (forall a b b', R a b -> R a b' -> b = b') -> NoDup l -> Forall2 R l m ->
  (NoDup m <-> forall a a' b, In a l -> In a' l -> R a b -> R a' b -> a = a').
Proof.
  intros Fn ND F. induction F as [|a b l m Hab F IH].
  - split; [intros _ a a' b []|constructor].
  - inversion ND as [|? ? Na ND']; subst. specialize (IH ND'). split.
    + intros Nm. inversion Nm as [|? ? Nb Nm']; subst. intros x y z Ix Iy Rx Ry.
      assert (Imm : forall w z, In w l -> R w z -> In z m).
      { clear -F Fn. induction F as [|a b l m H F IH]; intros w z []; intros Rw.
        - subst. left. eauto.
        - right. eauto. }
      destruct Ix as [<-|Ix], Iy as [<-|Iy].
      * reflexivity.
      * exfalso. rewrite (Fn _ _ _ Rx Hab) in Ry. eauto.
      * exfalso. rewrite (Fn _ _ _ Ry Hab) in Rx. eauto.
      * apply (proj1 IH Nm' x y z); auto.
    + intros U. constructor.
      * intros Ib. assert (X : exists a', In a' l /\ R a' b).
        { clear -F Ib. induction F as [|a0 b0 l m H F IH]; [destruct Ib|]. destruct Ib as [<-|Ib]; [exists a0; split; [now left|auto]|].
          destruct (IH Ib) as (a' & I & R'). exists a'. split; [now right|auto]. }
        destruct X as (a' & Ia & Ra). assert (a = a') by (apply (U a a' b); [now left|now right|auto|auto]). subst. contradiction.
      * apply IH. intros x y z Ix Iy. apply U; now right.
Qed.

Lemma declarations_iff : NoDup gs -> (decls_ok p <-> schema_ok c gs).
Proof.
  intros NG.
  assert (D1 : NoDup (map ti_id p) <-> forall n n' id, In n gs -> In n' gs -> type_ident n = Ok id -> type_ident n' = Ok id -> n = n').
  { apply (F2_NoDup (fun n id => type_ident n = Ok id)); [intros; congruence|exact NG|exact idents_F2]. }
  assert (D2 := items_forall item_name_ok (fun n r => forall id, type_ident n = Ok id -> plain_ident id /\ ~ In id prelude_types
    /\ ((exists d, r = RootLeaf d) -> ~ In id prelude_values))).
  assert (D3 := items_forall _ _ decl_iff).
  assert (H2 : Forall item_name_ok p <-> forall n r, In n gs -> sc_get c n = Some r -> forall id, type_ident n = Ok id ->
    plain_ident id /\ ~ In id prelude_types /\ ((exists d, r = RootLeaf d) -> ~ In id prelude_values)).
  { apply D2. intros n r t K. unfold item_name_ok. rewrite (tuple_root _ _ (it_decl _ _ _ _ _ _ K)).
    pose proof (it_id _ _ _ _ _ _ K) as E. split.
    - intros H id E'. rewrite E in E'. injection E' as <-. exact H.
    - intros H. apply H, E. }
  clear D2. split.
  - intros [A B C S]. constructor.
    + apply D1, A.
    + intros n id I E. destruct (name_item _ _ _ _ Hp _ I) as (r & t & It & K). pose proof (it_get _ _ _ _ _ _ K) as G.
      destruct (proj1 H2 B n r I G id E) as (B1 & B2 & B3). split; [exact B1|]. split; [exact B2|].
      intros (d & G'). apply B3. exists d. congruence.
    + intros n r I G. apply (proj1 D3 C n r I G).
    + intros n r m x I G. apply (proj1 D3 C n r I G).
    + apply sized_iff; [apply D1, A|exact S].
  - intros [A B C T S]. constructor.
    + apply D1, A.
    + apply H2. intros n r I G id E. destruct (B n id I E) as (B1 & B2 & B3). split; [exact B1|]. split; [exact B2|].
      intros (d & ->). apply B3. eauto.
    + apply D3. intros n r I G. split; [now apply (C n)|]. intros m x. now apply (T n r m x).
    + now apply sized_iff.
Qed.
End Gen.
