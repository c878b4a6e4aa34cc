(** * LlProof: with one element of lookahead, the decoder finds the intended reading *)
From Verif Require Import Base Libs Xml Ast Decode Gen Run CursorSpec CursorProof DecSpec RepSpec WfSpec WfCheck
  TotalProof LlSpec.

Lemma qn_eqb_eq a b : qn_eqb a b = true <-> a = b.
Proof.
  destruct a as [a1 a2], b as [b1 b2]. unfold qn_eqb. simpl. rewrite andb_true_iff, String.eqb_eq.
  split.
  - intros [-> H]. f_equal. destruct a2, b2; simpl in H; try discriminate; auto. apply String.eqb_eq in H. now subst.
  - intros H. injection H as -> ->. split; [reflexivity|]. destruct b2; simpl; auto. apply String.eqb_refl.
Qed.
Lemma mem_qn q l : mem qn_eqb q l = true <-> In q l.
Proof.
  induction l as [|y l IH]; simpl; [split; [discriminate|tauto]|]. rewrite orb_true_iff, qn_eqb_eq, IH. split; intros [H|H]; auto.
Qed.
Lemma mem_qn_not q l : negb (mem qn_eqb q l) = true <-> ~ In q l.
Proof. rewrite negb_true_iff, <- mem_qn. destruct (mem qn_eqb q l); split; intros; try congruence; tauto. Qed.
Lemma disjoint_ok a b q : disjoint a b = true -> In q a -> In q b -> False.
Proof. unfold disjoint. rewrite forallb_forall. intros H A. specialize (H q A). apply mem_qn_not in H. auto. Qed.
Lemma subset_ok a b q : subset a b = true -> In q a -> In q b.
Proof. unfold subset. rewrite forallb_forall. intros H A. specialize (H q A). now apply mem_qn in H. Qed.
Lemma oapp_some a b r : oapp a b = Some r -> exists x y, a = Some x /\ b = Some y /\ r = x ++ y.
Proof. destruct a, b; simpl; intros H; try discriminate. injection H as <-. eauto. Qed.
Lemma matches_qn n ns x : matches n ns x <-> qn_of x = (n, ns).
Proof. unfold matches, qn_of. split; [intros [-> ->]; reflexivity|intros H; injection H; auto]. Qed.

(** The first of [l] is in [s]. *)
Definition head_in (s : list qn) (l : list xelem) : bool :=
  match l with x :: _ => mem qn_eqb (qn_of x) s | [] => false end.
Lemma head_in_app a b l : head_in (a ++ b) l = head_in a l || head_in b l.
Proof.
  destruct l as [|x l]; simpl; auto. induction a as [|q a IH]; simpl; auto. now rewrite IH, orb_assoc.
Qed.
Lemma head_in_one q l : head_in [q] l = first_is (fst q) (snd q) l.
Proof.
  destruct l as [|x l]; simpl; auto. rewrite orb_false_r. destruct q as [n ns].
  cbn [fst snd]. destruct (has_name n ns x) eqn:E.
  - pose proof (proj1 (matches_qn _ _ _) (proj1 (has_name_matches _ _ _) E)) as Q. rewrite Q. now apply qn_eqb_eq.
  - destruct (qn_eqb (qn_of x) (n, ns)) eqn:E2; auto. apply qn_eqb_eq, matches_qn, has_name_matches in E2. congruence.
Qed.

Definition starts (l : list xelem) (fi : list qn) (nu : bool) : Prop :=
  match l with [] => nu = true | x :: _ => In (qn_of x) fi end.
Definition follows (fol : list qn) (l : list xelem) : Prop := match l with [] => True | x :: _ => In (qn_of x) fol end.

Lemma starts_app l1 l2 f1 n1 f2 n2 : starts l1 f1 n1 -> starts l2 f2 n2 ->
  starts (l1 ++ l2) (if n1 then f1 ++ f2 else f1) (n1 && n2).
Proof.
  destruct l1 as [|x l1]; simpl.
  - intros -> H. simpl. destruct l2; simpl in *; auto. apply in_or_app. auto.
  - intros H _. destruct n1; auto. apply in_or_app. auto.
Qed.
Lemma starts_follows l fi nu fol l2 : starts l fi nu -> follows fol l2 -> follows (fi ++ if nu then fol else []) (l ++ l2).
Proof.
  destruct l as [|x l]; simpl.
  - intros ->. destruct l2; simpl; auto. intros H. apply in_or_app. auto.
  - intros H _. apply in_or_app. auto.
Qed.
Lemma follows_head fol s l : follows fol l -> disjoint s fol = true -> head_in s l = false.
Proof.
  destruct l as [|x l]; simpl; auto. intros H D. destruct (mem qn_eqb (qn_of x) s) eqn:E; auto.
  apply mem_qn in E. exfalso. eapply disjoint_ok; eauto.
Qed.
Lemma follows_not_first fol q l : follows fol l -> ~ In q fol -> first_is (fst q) (snd q) l = false.
Proof.
  intros H N. rewrite <- head_in_one. eapply follows_head; [exact H|]. unfold disjoint. simpl. rewrite andb_true_r.
  now apply mem_qn_not.
Qed.

Section Look.
Context {L : Libs}.
Variable c : schema_ctx.
Variable gs : list name.
Hypothesis inj : forall n m id, In n gs -> In m gs -> type_ident n = Ok id -> type_ident m = Ok id -> n = m.
Variable vn : bool.

(** What is not accounted for, and how many values a repeated member has, does not
    matter for the first elements. *)
Variable K : list xelem -> list xelem -> Prop.
Variable V : leaf -> list value -> Prop.
Hypothesis HV : forall f vs, V f vs -> counted vn f vs.

Notation rep_content := (rep_content c gs appended K V).
Notation rep_sub := (rep_sub c gs appended K V).
Notation rep_root := (rep_root c gs appended K V).
Notation rep_fields := (rep_fields c gs appended K V).
Notation rep_leaves := (rep_leaves c gs appended K V).
Notation rep_leaf := (rep_leaf c gs appended K V).
Notation rep_groups := (rep_groups c gs appended K V).
Notation rep_run := (rep_run c gs appended K V).
Notation rep_variant := (rep_variant c gs appended K V).

Lemma type_det m n r n' r' : type_of c gs m n r -> type_of c gs m n' r' -> n = n' /\ r = r'.
Proof.
  intros (I & G & id & A & B) (I' & G' & id' & A' & B'). assert (n = n') by (apply (inj n n' id); auto; congruence).
  subst. split; congruence.
Qed.

(** ** Lookahead is membership in [looks] *)
Lemma looks_leaf k f s (Hk : forall m s, glooks c gs k m = Some s -> forall l, look_group c gs m l (head_in s l)) :
  leaf_looks c (glooks c gs k) f = Some s -> forall l, look_leaf c gs f l (head_in s l).
Proof.
  unfold leaf_looks. destruct (lf_virtual f) eqn:Vf.
  - destruct (ld_content (lf_def f)) as [x|m|x] eqn:C; try discriminate. intros H l. eapply ll_virtual; eauto.
  - unfold leaf_qn. destruct (quote_xml_namespace c (lf_name f)) as [ns|] eqn:Q; try discriminate. simpl.
    intros H l. injection H as <-. rewrite head_in_one. simpl. now constructor.
Qed.
Lemma looks_ok k : forall m s, glooks c gs k m = Some s -> forall l, look_group c gs m l (head_in s l).
Proof.
  induction k as [|k IH]; intros m s; simpl; [discriminate|]. unfold group_root.
  destruct (is_group_b c gs m) eqn:Gb; [|discriminate]. apply is_group_b_ok in Gb.
  destruct (group_type _ _ _ Gb) as (r & G & _ & Go). rewrite G. intros H l.
  destruct r as [d|ns|d|d]; simpl in H; try discriminate.
  - destruct (ed_content d) as [[n0 d0|ls]|] eqn:E.
    + injection H as <-. replace (head_in [] l) with false by now destruct l. eapply lg_other; eauto. congruence.
    + eapply lg_leaves; eauto. clear E Go G. revert s H. induction ls as [|f ls IHl]; intros s H; simpl in H.
      * injection H as <-. replace (head_in [] l) with false by now destruct l. constructor.
      * destruct (lf_is_optional f) eqn:Op.
        -- apply oapp_some in H. destruct H as (a & b & A & B & ->). rewrite head_in_app.
           pose proof (looks_leaf _ _ _ IH A l) as X. destruct (head_in a l); simpl.
           ++ now apply ls_yes.
           ++ apply ls_optional; auto.
        -- pose proof (looks_leaf _ _ _ IH H l) as X. destruct (head_in s l); [now apply ls_yes|now apply ls_required].
    + injection H as <-. replace (head_in [] l) with false by now destruct l. eapply lg_other; eauto. congruence.
  - eapply lg_choice; eauto. clear Go G. revert s H. induction (cd_variants d) as [|f ls IHl]; intros s H; simpl in H.
    + injection H as <-. replace (head_in [] l) with false by now destruct l. constructor.
    + apply oapp_some in H. destruct H as (a & b & A & B & ->). rewrite head_in_app.
      pose proof (looks_leaf _ _ _ IH A l) as X. destruct (head_in a l); simpl; [now apply la_yes|apply la_no; auto].
Qed.

(** ** What a member can start with *)
Definition P_content (ct : leaf_content) (v : value) (e : xelem) (l : list xelem) : Prop :=
  forall m k fi nu, ct = LcNamed m -> gstart c gs vn k m = Some (fi, nu) -> starts l fi nu.
Definition P_root (n : name) (r : root) (v : value) (e : xelem) (l : list xelem) : Prop :=
  forall k fi nu, root_start c vn (gstart c gs vn k) r = Some (fi, nu) -> starts l fi nu.
Definition P_leaves (ls : list leaf) (vs : list (string * value)) (e : xelem) (l : list xelem) : Prop :=
  forall k fi nu, seq_start c vn (gstart c gs vn k) ls = Some (fi, nu) -> starts l fi nu.
Definition P_fields (ec : option element_content) (vs : list (string * value)) (e : xelem) (l : list xelem) : Prop :=
  match ec with
  | None => l = []
  | Some (EcLeaf _ _) => True
  | Some (EcLeaves ls) => P_leaves ls vs e l
  end.
Definition P_leaf (f : leaf) (v : value) (e : xelem) (l : list xelem) : Prop :=
  forall k fi nu, leaf_start c vn (gstart c gs vn k) f = Some (fi, nu) -> starts l fi nu.
Definition P_groups (ct : leaf_content) (vs : list value) (e : xelem) (l : list xelem) : Prop :=
  forall m k fi nu, ct = LcNamed m -> gstart c gs vn k m = Some (fi, nu) ->
    starts l fi (match vs with [] => true | _ => nu end).
Definition P_run (n : string) (ns : option string) (ct : leaf_content) (vs : list value) (l : list xelem) : Prop :=
  starts l [(n, ns)] (match vs with [] => true | _ => false end).
Definition P_variant (f : leaf) (v : value) (e : xelem) (l : list xelem) : Prop :=
  forall k fi nu, one_start c (gstart c gs vn k) f = Some (fi, nu) -> starts l fi nu.

Lemma starts_weaken l fi a b : starts l fi a -> (a = true -> b = true) -> starts l fi b.
Proof. destruct l; simpl; auto. Qed.

Lemma start_group k m s : gstart c gs vn k m = Some s -> is_group c gs m.
Proof.
  destruct k; simpl; [discriminate|]. unfold group_root. destruct (is_group_b c gs m) eqn:E; [|discriminate].
  intros _. now apply is_group_b_ok.
Qed.
Lemma run_one f k fi nu b l : lf_virtual f = false -> leaf_start c vn (gstart c gs vn k) f = Some (fi, nu) ->
  forall ns, quote_xml_namespace c (lf_name f) = Some ns -> starts l [(nm (lf_name f), ns)] b -> (b = true -> nu = true) ->
  starts l fi nu.
Proof.
  intros Vf H ns Q S B. unfold leaf_start, one_start, leaf_qn in H. rewrite Vf, Q in H. simpl in H. injection H as <- <-.
  eapply starts_weaken; eauto.
Qed.

Lemma firsts_all :
  (forall ct v e l, rep_content ct v e l -> P_content ct v e l) /\
  (forall ct v x, rep_sub ct v x -> True) /\
  (forall n r v e l, rep_root n r v e l -> P_root n r v e l) /\
  (forall ec vs e l, rep_fields ec vs e l -> P_fields ec vs e l) /\
  (forall ls vs e l, rep_leaves ls vs e l -> P_leaves ls vs e l) /\
  (forall f v e l, rep_leaf f v e l -> P_leaf f v e l) /\
  (forall ct vs e l, rep_groups ct vs e l -> P_groups ct vs e l) /\
  (forall n ns ct vs l, rep_run n ns ct vs l -> P_run n ns ct vs l) /\
  (forall f v e l, rep_variant f v e l -> P_variant f v e l).
Proof.
  apply rep_ind.
  - intros ct lit s v e Hf _ _ m k fi nu -> Hs. exfalso. apply start_group in Hs. apply (group_final_self c gs) in Hs.
    pose proof (final_b_det _ _ _ _ Hf Hs). discriminate.
  - intros ct s e Hf _ m k fi nu -> Hs. exfalso. apply start_group in Hs. apply (group_final_self c gs) in Hs.
    pose proof (final_b_det _ _ _ _ Hf Hs). discriminate.
  - intros ct m n r v e l Hf T _ IH m' k fi nu -> Hs. pose proof (start_group _ _ _ Hs) as Hg.
    pose proof (final_b_det _ _ _ _ Hf (group_final_self c gs _ Hg)) as X. injection X as ->.
    destruct (group_type _ _ _ Hg) as (r' & G & T' & _). destruct (type_det _ _ _ _ _ T T') as [-> ->].
    destruct k as [|k]; simpl in Hs; [discriminate|]. unfold group_root in Hs.
    destruct (is_group_b c gs m'); [|discriminate]. rewrite G in Hs. eapply IH; eauto.
  - trivial.
  - intros n d v e l _ _ k fi nu H. discriminate.
  - intros n names vs s v e _ _ _ k fi nu H. discriminate.
  - intros n d vs avs e l _ IH _ k fi nu Hf. simpl in Hf. unfold P_fields in IH.
    destruct (ed_content d) as [[n0 d0|ls]|]; try discriminate; [eauto|]. subst l. injection Hf as <- <-. reflexivity.
  - intros n d f i w e l If _ _ IH k fi nu Hf. simpl in Hf. revert fi nu Hf.
    induction (cd_variants d) as [|g fs IHl]; [destruct If|]; intros fi nu Hf. simpl in Hf.
    destruct (one_start c (gstart c gs vn k) g) as [[f1 n1]|] eqn:N1; [|discriminate].
    destruct (any_start c (gstart c gs vn k) fs) as [[f2 n2]|] eqn:N2; [|discriminate]. injection Hf as <- <-.
    destruct If as [->|If].
    + specialize (IH _ _ _ N1). destruct l; simpl in *; [subst; auto|apply in_or_app; auto].
    + specialize (IHl If _ _ eq_refl). destruct l; simpl in *; [subst; apply orb_true_r|apply in_or_app; auto].
  - intros e. reflexivity.
  - intros n d f v e l _ _ _. exact I.
  - intros ls vs e l _ IH. exact IH.
  - intros e k fi nu Hf. injection Hf as <- <-. reflexivity.
  - intros f fs i v vs e l1 l2 l _ IH1 _ _ IH2 -> k fi nu Hf. simpl in Hf.
    destruct (leaf_start c vn (gstart c gs vn k) f) as [[f1 n1]|] eqn:N1; [|discriminate].
    destruct (seq_start c vn (gstart c gs vn k) fs) as [[f2 n2]|] eqn:N2; [|discriminate]. injection Hf as <- <-.
    apply starts_app; eauto.
  - intros f v e l Vf Nv No _ IH k fi nu Hf. unfold leaf_start, one_start in Hf. rewrite Vf, Nv, No in Hf.
    destruct (ld_content (lf_def f)) as [x|m|x] eqn:C; try discriminate.
    destruct (gstart c gs vn k m) as [[f1 n1]|] eqn:N1; [|discriminate]. injection Hf as <- <-.
    eapply starts_weaken; [eapply IH; eauto|]. intros ->. reflexivity.
  - intros f e Vf Nv No k fi nu Hf. unfold leaf_start in Hf. rewrite No in Hf.
    destruct (one_start c (gstart c gs vn k) f) as [[f1 n1]|]; [|discriminate]. injection Hf as <- <-. simpl.
    now rewrite orb_true_r.
  - intros f v e l Vf Nv No _ IH k fi nu Hf. unfold leaf_start, one_start in Hf. rewrite Vf, Nv, No in Hf.
    destruct (ld_content (lf_def f)) as [x|m|x] eqn:C; try discriminate.
    destruct (gstart c gs vn k m) as [[f1 n1]|] eqn:N1; [|discriminate]. injection Hf as <- <-.
    eapply starts_weaken; [eapply IH; eauto|]. intros ->. reflexivity.
  - intros f vs e l Vf Nv _ IH Cn k fi nu Hf. unfold leaf_start, one_start in Hf. rewrite Vf, Nv in Hf.
    destruct (ld_content (lf_def f)) as [x|m|x] eqn:C; try discriminate.
    destruct (gstart c gs vn k m) as [[f1 n1]|] eqn:N1; [|discriminate]. injection Hf as <- <-.
    eapply starts_weaken; [eapply IH; eauto|]. destruct vs as [|v vs].
    + apply HV in Cn. intros _. destruct (lf_is_optional f) eqn:O; [now rewrite orb_true_r|]. destruct vn eqn:Ev; [now rewrite !orb_true_r|].
      exfalso. apply (Cn eq_refl O). reflexivity.
    + intros ->. reflexivity.
  - intros f ns vs e l Vf Nv Q _ IH Cn k fi nu Hf. eapply run_one; eauto.
    unfold leaf_start in Hf. destruct (one_start c (gstart c gs vn k) f) as [[f1 n1]|]; [|discriminate]. injection Hf as <- <-.
    apply HV in Cn. destruct vs as [|v vs]; [|discriminate]. intros _. rewrite Nv.
    destruct (lf_is_optional f) eqn:O; [now rewrite orb_true_r|]. destruct vn eqn:Ev; [now rewrite !orb_true_r|].
    exfalso. apply (Cn eq_refl O). reflexivity.
  - intros f e Vf Nv No k fi nu Hf. unfold leaf_start in Hf. rewrite No in Hf.
    destruct (one_start c (gstart c gs vn k) f) as [[f1 n1]|]; [|discriminate]. injection Hf as <- <-. simpl.
    now rewrite orb_true_r.
  - intros f ns v x e Vf Nv No Q M _ _ k fi nu Hf. apply matches_qn in M.
    eapply (run_one f _ _ _ false); eauto; [simpl; auto|discriminate].
  - intros f ns v x e Vf Nv No Q M _ _ k fi nu Hf. apply matches_qn in M.
    eapply (run_one f _ _ _ false); eauto; [simpl; auto|discriminate].
  - intros ct e m k fi nu -> H. reflexivity.
  - intros ct v vs e l1 l2 l _ IH1 _ IH2 -> m k fi nu -> H. specialize (IH1 _ _ _ _ eq_refl H). specialize (IH2 _ _ _ _ eq_refl H).
    destruct l1 as [|x l1]; simpl in *; [|exact IH1]. subst nu. eapply starts_weaken; [exact IH2|auto].
  - intros. reflexivity.
  - intros n ns ct v vs x l M _ _ _ _. apply matches_qn in M. left. congruence.
  - intros f w e l Vf _ IH k fi nu Hf. unfold one_start in Hf. rewrite Vf in Hf.
    destruct (ld_content (lf_def f)) as [x|m|x]; try discriminate. eapply IH; eauto.
  - intros f ns w ws e l Vf Nv Q _ IH k fi nu Hf. unfold one_start, leaf_qn in Hf. rewrite Vf, Q in Hf. injection Hf as <- <-. exact IH.
  - intros f ns w x e Vf Nv Q M _ _ k fi nu Hf. unfold one_start, leaf_qn in Hf. rewrite Vf, Q in Hf. injection Hf as <- <-.
    apply matches_qn in M. left. congruence.
Qed.

End Look.

Section Ll.
Context {L : Libs}.
Variable c : schema_ctx.
Variable gs : list name.
Hypothesis inj : forall n m id, In n gs -> In m gs -> type_ident n = Ok id -> type_ident m = Ok id -> n = m.
Variable vn : bool.

Notation rep_content := (rep_content c gs appended exactly (counted vn)).
Notation rep_sub := (rep_sub c gs appended exactly (counted vn)).
Notation rep_root := (rep_root c gs appended exactly (counted vn)).
Notation rep_fields := (rep_fields c gs appended exactly (counted vn)).
Notation rep_leaves := (rep_leaves c gs appended exactly (counted vn)).
Notation rep_leaf := (rep_leaf c gs appended exactly (counted vn)).
Notation rep_groups := (rep_groups c gs appended exactly (counted vn)).
Notation rep_run := (rep_run c gs appended exactly (counted vn)).
Notation rep_variant := (rep_variant c gs appended exactly (counted vn)).

(** ** The reading found *)
Variable F : nat.
Notation ck := (ck c gs vn F).
Hypothesis Hun : unambiguous_b c gs vn F = true.

Lemma sub_ck ct : content_b c gs ct = true -> ck (S F) [] ct = true.
Proof.
  unfold content_b. cbn [LlSpec.ck]. destruct (final_b c (chain_fuel c) ct) as [[x|m|x]|]; auto.
  destruct (type_b c gs m) as [[n r]|] eqn:T; [|discriminate]. intros _. apply type_b_ok in T. destruct T as (I & G & _).
  apply (each_root_ok _ _ _ _ _ Hun I G).
Qed.
Lemma recognised_ok m fol : recognised c gs vn F m fol = true ->
  exists lk fi, glooks c gs F m = Some lk /\ gstart c gs vn F m = Some (fi, false) /\
    (forall q, In q fi -> In q lk) /\ disjoint lk fol = true.
Proof.
  unfold recognised. destruct (glooks c gs F m) as [lk|]; [|discriminate].
  destruct (gstart c gs vn F m) as [[fi nu]|]; [|discriminate]. rewrite !andb_true_iff. intros [[A B] D].
  destruct nu; [discriminate|]. exists lk, fi. repeat split; auto. intros q. now apply subset_ok.
Qed.
Lemma recognised_no m fol l : recognised c gs vn F m fol = true -> follows fol l -> look_group c gs m l false.
Proof.
  intros H Fl. apply recognised_ok in H. destruct H as (lk & fi & A & _ & _ & D).
  rewrite <- (follows_head _ _ _ Fl D). now apply looks_ok with (k := F).
Qed.
Lemma recognised_yes m fol v e l l2 : recognised c gs vn F m fol = true -> rep_content (LcNamed m) v e l ->
  look_group c gs m (l ++ l2) true /\ exists x l', l = x :: l'.
Proof.
  intros H R. apply recognised_ok in H. destruct H as (lk & fi & A & B & Sub & _).
  destruct (firsts_all c gs inj vn exactly (counted vn) (fun f vs H => H)) as (FC & _). specialize (FC _ _ _ _ R _ _ _ _ eq_refl B).
  destruct l as [|x l]; [discriminate FC|]. split; [|eauto]. simpl in FC. apply Sub in FC.
  replace true with (head_in lk ((x :: l) ++ l2)); [now apply looks_ok with (k := F)|]. simpl. now apply mem_qn.
Qed.

Definition R_content ct v e l := forall k fol l2, ck k fol ct = true -> follows fol l2 ->
  read_content c gs ct e (l ++ l2) (Ok (v, l2)).
Definition R_sub ct v x := content_b c gs ct = true -> read_sub c gs ct x (Ok v).
Definition R_root n r v e l := forall k fol l2, ck_root c gs vn F (ck k) fol r = true -> follows fol l2 ->
  read_root c gs n r e (l ++ l2) (Ok (v, l2)).
Definition R_fields (ec : option element_content) vs e l := forall k fol l2,
  match ec with None => true | Some (EcLeaf _ d) => ck k fol (ld_content d)
              | Some (EcLeaves ls) => ck_seq c gs vn F (ck k) fol ls end = true ->
  follows fol l2 -> read_fields c gs ec e (l ++ l2) (Ok (vs, l2)).
Definition R_leaves ls vs e l := forall k fol l2, ck_seq c gs vn F (ck k) fol ls = true -> follows fol l2 ->
  read_leaves c gs ls e (l ++ l2) (Ok (vs, l2)).
Definition R_leaf f v e l := forall k fol l2, ck_leaf c gs vn F (ck k) fol f = true -> follows fol l2 ->
  read_leaf c gs f e (l ++ l2) (Ok (v, l2)).
Definition R_groups ct vs e l := forall m k fol l2 fi nu, ct = LcNamed m -> gstart c gs vn F m = Some (fi, nu) ->
  ck k (fi ++ fol) (LcNamed m) = true -> recognised c gs vn F m fol = true -> follows fol l2 ->
  read_groups c gs m e (l ++ l2) (Ok (vs, l2)).
Definition R_run n ns ct vs l := forall fol l2, content_b c gs ct = true -> ~ In (n, ns) fol -> follows fol l2 ->
  read_run c gs n ns ct (l ++ l2) (Ok (vs, l2)).
Definition R_variant f w e l := forall k fol l2 n fs i, ck_variant c gs vn F (ck k) fol f = true -> follows fol l2 ->
  variant_ident (lf_name f) = Ok i -> read_choice c gs n (f :: fs) e (l ++ l2) (Ok (VChoice i w, l2)).

Lemma rep_attr_read a v e : rep_attr c gs a v e -> read_attr c gs a e (Ok v).
Proof.
  destruct 1.
  - now constructor.
  - replace (Ok (VSome v)) with (rmap (E:=from_xml_err) VSome (Ok v)) by reflexivity. econstructor; eauto.
  - econstructor; eauto.
Qed.
Lemma rep_attrs_read ats avs e : rep_attrs c gs ats avs e -> read_attrs c gs ats e (Ok avs).
Proof.
  induction 1 as [|a [i v] ats avs [E H] _ IH]; [constructor|]. simpl in *.
  replace (Ok ((i, v) :: avs)) with (rmap (E:=from_xml_err) (cons (i, v)) (Ok avs)) by reflexivity.
  apply rs_cons; auto. now apply rep_attr_read.
Qed.

Lemma final_ck k fol ct ct' : final c ct ct' -> ck k fol ct = true -> final_b c (chain_fuel c) ct = Some ct'.
Proof.
  intros Hf H. assert (X : exists a, final_b c (chain_fuel c) ct = Some a).
  { destruct k; cbn [LlSpec.ck] in H; destruct (final_b c (chain_fuel c) ct); eauto; discriminate. }
  destruct X as (a & X). rewrite X. f_equal. eapply final_b_det; [eapply final_b_ok; exact X|exact Hf].
Qed.

Lemma ll_read_all :
  (forall ct v e l, rep_content ct v e l -> R_content ct v e l) /\
  (forall ct v x, rep_sub ct v x -> R_sub ct v x) /\
  (forall n r v e l, rep_root n r v e l -> R_root n r v e l) /\
  (forall ec vs e l, rep_fields ec vs e l -> R_fields ec vs e l) /\
  (forall ls vs e l, rep_leaves ls vs e l -> R_leaves ls vs e l) /\
  (forall f v e l, rep_leaf f v e l -> R_leaf f v e l) /\
  (forall ct vs e l, rep_groups ct vs e l -> R_groups ct vs e l) /\
  (forall n ns ct vs l, rep_run n ns ct vs l -> R_run n ns ct vs l) /\
  (forall f v e l, rep_variant f v e l -> R_variant f v e l).
Proof.
  apply rep_ind.
  - intros ct lit s v e Hf T E k fol l2 _ _. simpl.
    replace (Ok (v, l2)) with (s <- d_text e ;; v <- lit_from_str lit s ;; Ok (v, l2)) by (rewrite T; simpl; rewrite E; reflexivity).
    now constructor.
  - intros ct s e Hf T k fol l2 _ _. simpl.
    replace (Ok (VUnit, l2)) with (t <- d_text e ;; if t =?s s then Ok (VUnit, l2) else Err (FeFixedMismatch s t))
      by (rewrite T; simpl; now rewrite String.eqb_refl).
    now constructor.
  - intros ct m n r v e l Hf T _ IH k fol l2 H Fl. eapply rc_named; eauto. pose proof (final_ck _ _ _ _ Hf H) as Fb.
    destruct k as [|k]; cbn [LlSpec.ck] in H; rewrite Fb in H; [discriminate|].
    destruct (type_b c gs m) as [[n' r']|] eqn:Tb; [|discriminate]. apply type_b_ok in Tb.
    destruct (type_det c gs inj _ _ _ _ _ T Tb) as [<- <-]. eapply IH; eauto.
  - intros ct v x l _ IH Ek H. replace (Ok v) with (rmap (E:=from_xml_err) fst (Ok (v, @nil xelem))) by reflexivity.
    constructor. rewrite Ek, <- (app_nil_r l). apply (IH (S F) []); [now apply sub_ck|exact I].
  - intros n d v e l _ IH k fol l2 H Fl.
    replace (Ok (VTuple v, l2)) with (rmap (E:=from_xml_err) (with_rest VTuple) (Ok (v, l2))) by reflexivity.
    constructor. eapply IH; eauto.
  - intros n names vs s v e Ev T E k fol l2 _ _. simpl.
    replace (Ok (v, l2)) with (s <- d_text e ;; v <- enum_from_str vs s ;; Ok (v, l2)) by (rewrite T; simpl; rewrite E; reflexivity).
    now constructor.
  - intros n d vs avs e l _ IH A k fol l2 H Fl. apply rep_attrs_read in A.
    replace (Ok (VStruct (vs ++ avs), l2)) with (avs <- (Ok avs : R _) ;; Ok (VStruct (vs ++ avs), l2)) by reflexivity.
    eapply rr_element; eauto.
  - intros n d f i w e l If Ei Rv IH k fol l2 H Fl. constructor. simpl in H. revert H.
    induction (cd_variants d) as [|g fs IHl]; [destruct If|]. simpl.
    destruct (leaf_looks c (glooks c gs F) g) as [lk|] eqn:Lk; [|discriminate].
    destruct (any_start c (gstart c gs vn F) fs) as [[fi nu]|] eqn:St; [|discriminate].
    rewrite !andb_true_iff. intros [[Cv Dj] Cc]. destruct If as [->|If]; [eapply IH; eauto|].
    specialize (IHl If Cc).
    (* [g] does not start with the first element of [l] *)
    assert (St2 : forall fs fi nu, In f fs -> any_start c (gstart c gs vn F) fs = Some (fi, nu) -> ck_choice c gs vn F (ck k) fol fs = true ->
                  exists x l', l = x :: l' /\ In (qn_of x) fi).
    { clear -Rv inj. intros fs. induction fs as [|h fs IH]; intros fi nu If; [destruct If|]. simpl.
      destruct (one_start c (gstart c gs vn F) h) as [[f1 n1]|] eqn:O; [|discriminate].
      destruct (any_start c (gstart c gs vn F) fs) as [[f2 n2]|] eqn:St; [|discriminate].
      intros H. injection H as <- <-. destruct (leaf_looks c (glooks c gs F) h) as [lk|]; [|discriminate].
      rewrite !andb_true_iff. intros [[Cv _] Cc]. destruct If as [->|If].
      - destruct (firsts_all c gs inj vn exactly (counted vn) (fun f vs H => H)) as (_ & _ & _ & _ & _ & _ & _ & _ & FV). specialize (FV _ _ _ _ Rv _ _ _ O).
        assert (n1 = false).
        { unfold one_start in O. unfold ck_variant in Cv. destruct (lf_virtual f).
          - destruct (ld_content (lf_def f)) as [x|m|x]; try discriminate. rewrite !andb_true_iff in Cv. destruct Cv as [_ Cv].
            apply recognised_ok in Cv. destruct Cv as (lk' & fi & _ & B & _). rewrite O in B. now injection B.
          - destruct (leaf_qn c f); [|discriminate]. simpl in O. now injection O as _ <-. }
        subst n1. destruct l as [|x l]; [discriminate FV|]. exists x, l. split; auto. apply in_or_app. auto.
      - destruct (IH _ _ If eq_refl Cc) as (x & l' & -> & X). exists x, l'. split; auto. apply in_or_app. auto. }
    destruct (St2 _ _ _ If St Cc) as (x & l' & -> & X).
    assert (Hh : head_in lk ((x :: l') ++ l2) = false).
    { simpl. destruct (mem qn_eqb (qn_of x) lk) eqn:E; auto. apply mem_qn in E. exfalso. eapply disjoint_ok; eauto. }
    unfold leaf_looks in Lk. destruct (lf_virtual g) eqn:Vg.
    + destruct (ld_content (lf_def g)) as [y|m|y] eqn:C; try discriminate. eapply rh_group_no; eauto.
      rewrite <- Hh. now apply looks_ok with (k := F).
    + unfold leaf_qn in Lk. destruct (quote_xml_namespace c (lf_name g)) as [ns|] eqn:Q; [|discriminate]. injection Lk as <-.
      rewrite head_in_one in Hh. eapply rh_elem_no; eauto.
  - intros e k fol l2 _ _. constructor.
  - intros n d f v e l Ef _ IH k fol l2 H Fl.
    replace (Ok ([(f, v)], l2)) with (rmap (E:=from_xml_err) (with_rest (fun v => [(f, v)])) (Ok (v, l2))) by reflexivity.
    constructor; auto. eapply IH; eauto.
  - intros ls vs e l _ IH k fol l2 H Fl. constructor. eapply IH; eauto.
  - intros e k fol l2 _ _. constructor.
  - intros f fs i v vs e l1 l2 l _ IH1 Ei R2 IH2 -> k fol l3 H Fl. simpl in H.
    destruct (seq_start c vn (gstart c gs vn F) fs) as [[fi nu]|] eqn:St; [|discriminate].
    apply andb_true_iff in H. destruct H as [H1 H2].
    replace (Ok ((i, v) :: vs, l3)) with (rmap (E:=from_xml_err) (with_rest (cons (i, v))) (Ok (vs, l3))) by reflexivity.
    rewrite <- app_assoc. eapply rv_cons; eauto. eapply IH1; eauto. apply starts_follows; auto.
    destruct (firsts_all c gs inj vn exactly (counted vn) (fun f vs H => H)) as (_ & _ & _ & _ & FL & _). eapply FL; eauto.
  - (* groups *)
    intros f v e l Vf Nv No _ IH k fol l2 H Fl. unfold ck_leaf in H. rewrite Vf, Nv, No in H.
    apply rl_group; auto. destruct (ld_content (lf_def f)) as [y|m|y] eqn:C; try discriminate.
    rewrite !andb_true_iff in H. destruct H as [_ [H _]]. eapply IH; eauto.
  - intros f e Vf Nv No k fol l2 H Fl. unfold ck_leaf in H. rewrite Vf, Nv, No in H.
    destruct (ld_content (lf_def f)) as [y|m|y] eqn:C; try discriminate.
    rewrite !andb_true_iff in H. destruct H as [_ [_ H]]. eapply rl_group_no; eauto. eapply recognised_no; eauto.
  - intros f v e l Vf Nv No Rc IH k fol l2 H Fl. unfold ck_leaf in H. rewrite Vf, Nv, No in H.
    destruct (ld_content (lf_def f)) as [y|m|y] eqn:C; try discriminate.
    rewrite !andb_true_iff in H. destruct H as [_ [Hc H]].
    replace (Ok (VSome v, l2)) with (rmap (E:=from_xml_err) (with_rest VSome) (Ok (v, l2))) by reflexivity.
    eapply rl_group_yes; eauto.
    + eapply recognised_yes; eauto.
    + rewrite C. eapply IH; eauto.
  - intros f vs e l Vf Nv _ IH _ k fol l2 H Fl. unfold ck_leaf in H. rewrite Vf, Nv in H.
    destruct (ld_content (lf_def f)) as [y|m|y] eqn:C; try discriminate.
    destruct (gstart c gs vn F m) as [[fi nu]|] eqn:St; [|rewrite andb_false_r in H; discriminate].
    rewrite !andb_true_iff in H. destruct H as [_ [Hc H]].
    replace (Ok (vec_value (lf_is_optional f) vs, l2)) with (rmap (E:=from_xml_err) (with_rest (vec_value (lf_is_optional f))) (Ok (vs, l2))) by reflexivity.
    eapply rl_groups; eauto.
  - intros f ns vs e l Vf Nv Q _ IH _ k fol l2 H Fl. unfold ck_leaf, leaf_qn in H. rewrite Vf, Nv, Q in H.
    simpl in H. rewrite andb_true_iff, mem_qn_not in H. destruct H as [H1 H2].
    replace (Ok (vec_value (lf_is_optional f) vs, l2)) with (rmap (E:=from_xml_err) (with_rest (vec_value (lf_is_optional f))) (Ok (vs, l2))) by reflexivity.
    eapply rl_run; eauto.
  - intros f e Vf Nv No k fol l2 H Fl. unfold ck_leaf, leaf_qn in H. rewrite Vf, Nv, No in H.
    destruct (quote_xml_namespace c (lf_name f)) as [ns|] eqn:Q; [|rewrite andb_false_r in H; discriminate].
    simpl in H. rewrite andb_true_iff, mem_qn_not in H. destruct H as [H1 H2].
    eapply rl_optional_no; eauto. exact (follows_not_first _ _ _ Fl H2).
  - intros f ns v x e Vf Nv No Q M _ IH k fol l2 H Fl. unfold ck_leaf, leaf_qn in H. rewrite Vf, Nv, No, Q in H.
    rewrite andb_true_iff in H. destruct H as [H1 _].
    replace (Ok (VSome v, l2)) with (rmap (E:=from_xml_err) (fun v => (VSome v, l2)) (Ok v)) by reflexivity.
    eapply rl_optional_yes; eauto. now apply has_name_matches.
  - intros f ns v x e Vf Nv No Q M _ IH k fol l2 H Fl. unfold ck_leaf, leaf_qn in H. rewrite Vf, Nv, No, Q in H.
    rewrite andb_true_iff in H. destruct H as [H1 _]. apply has_name_matches in M.
    replace (Ok (v, l2)) with (rmap (E:=from_xml_err) (fun v => (v, l2)) (Ok v)) by reflexivity.
    destruct (lf_unordered f) eqn:Un.
    + apply (rl_anywhere c gs f ns e [] x l2); auto.
    + eapply rl_next; eauto.
  - intros ct e m k fol l2 fi nu -> _ _ Hr Fl. constructor. eapply recognised_no; eauto.
  - intros ct v vs e l1 l2 l R1 IH1 R2 IH2 -> m k fol l3 fi nu -> St Hc Hr Fl. rewrite <- app_assoc.
    replace (Ok (v :: vs, l3)) with (rmap (E:=from_xml_err) (with_rest (cons v)) (Ok (vs, l3))) by reflexivity.
    eapply rg_more; [eapply recognised_yes; eauto| |eapply IH2; eauto].
    eapply IH1; [exact Hc|]. destruct (firsts_all c gs inj vn exactly (counted vn) (fun f vs H => H)) as (_ & _ & _ & _ & _ & _ & FG & _).
    specialize (FG _ _ _ _ R2 _ _ _ _ eq_refl St). destruct l2 as [|x l2]; simpl in *.
    + destruct l3; simpl in *; auto. apply in_or_app. auto.
    + apply in_or_app. auto.
  - intros n ns ct fol l2 _ N Fl. constructor. exact (follows_not_first _ _ _ Fl N).
  - intros n ns ct v vs x l M _ IHs _ IH fol l2 H N Fl. simpl.
    replace (Ok (v :: vs, l2)) with (rmap (E:=from_xml_err) (with_rest (cons v)) (Ok (vs, l2))) by reflexivity.
    apply ru_more; [now apply has_name_matches|auto|eapply IH; eauto].
  - intros f w e l Vf Rc IH k fol l2 n fs i H Fl Ei. unfold ck_variant in H. rewrite Vf in H.
    destruct (ld_content (lf_def f)) as [y|m|y] eqn:C; try discriminate.
    rewrite !andb_true_iff in H. destruct H as [[_ Hc] H].
    replace (Ok (VChoice i w, l2)) with (rmap (E:=from_xml_err) (with_rest (VChoice i)) (Ok (w, l2))) by reflexivity.
    eapply rh_group; eauto. eapply recognised_yes; eauto.
  - intros f ns w ws e l Vf Nv Q Rr IH k fol l2 n fs i H Fl Ei. unfold ck_variant, leaf_qn in H. rewrite Vf, Nv, Q in H.
    rewrite andb_true_iff, mem_qn_not in H. destruct H as [H1 H2].
    replace (Ok (VChoice i (VVec (w :: ws)), l2)) with (rmap (E:=from_xml_err) (with_rest (fun ws => VChoice i (VVec ws))) (Ok (w :: ws, l2))) by reflexivity.
    eapply rh_run; eauto. inversion Rr; subst. simpl. now apply has_name_matches.
  - intros f ns w x e Vf Nv Q M _ IH k fol l2 n fs i H Fl Ei. unfold ck_variant, leaf_qn in H. rewrite Vf, Nv, Q in H.
    rewrite andb_true_iff in H. destruct H as [H1 _].
    replace (Ok (VChoice i w, l2)) with (rmap (E:=from_xml_err) (fun w => (VChoice i w, l2)) (Ok w)) by reflexivity.
    eapply rh_elem; eauto. now apply has_name_matches.
Qed.

Lemma ll_doc n v e : rep_doc c gs appended exactly (counted vn) n v e -> read_doc c gs n e (Ok v).
Proof.
  intros H. destruct H as [n ns r v e l I Q M G R Ek].
  replace (Ok v) with (rmap (E:=from_xml_err) fst (Ok (v, @nil xelem))) by reflexivity.
  eapply rd_root; eauto; [now apply has_name_matches|].
  destruct ll_read_all as (_ & _ & RR & _). rewrite Ek, <- (app_nil_r l).
  apply (RR _ _ _ _ _ R F []); [|exact Logic.I]. exact (each_root_ok _ _ _ _ _ Hun I G).
Qed.
End Ll.
