(** * TypingFnInv: the functions that read have one meaning, and what their types say *)
From Verif Require Import Base Libs Xml Ast Gen Emit Rust Body RustSpec EmitSpec GramSpec GramWrite TypingSpec TypingProof TypingItems TypingRead TypingInv TypingReadInv.
From Coq Require Import Permutation Lia.

Lemma keys_in {A} (a : list (string * A)) k x y : NoDup (map fst a) -> In (k, x) a -> In (k, y) a -> x = y.
Proof.
  intros N I J. induction a as [|[k0 z] a IH]; [destruct I|]. inversion N; subst. destruct I as [I|I], J as [J|J]; try congruence.
  - injection I as -> _. destruct H1. now apply (in_map fst) in J.
  - injection J as -> _. destruct H1. now apply (in_map fst) in I.
  - auto.
Qed.
Lemma same_keys {A} (a b : list (string * A)) : NoDup (map fst a) -> map fst a = map fst b -> Permutation a b -> a = b.
Proof.
  intros N E P. assert (X : forall x, In x b -> In x a) by (intros x I; eapply Permutation_in; [apply Permutation_sym; exact P|exact I]). clear P.
  revert a N E X. induction b as [|[k y] b IH]; intros [|[k' x] a] N E X; try discriminate; [reflexivity|]. injection E as -> E.
  assert (x = y) as -> by (apply (keys_in ((k, x) :: a) k); [exact N|now left|apply X; now left]). f_equal. simpl in N. inversion N; subst. apply IH; auto.
  intros z I. destruct (X z (or_intror I)) as [Z|Z]; [|exact Z]. subst z. destruct H1. rewrite E. now apply (in_map fst) in I.
Qed.
Lemma combine_fst {A B} (a : list A) (b : list B) : length a = length b -> map fst (combine a b) = a.
Proof. revert b. induction a as [|x a IH]; intros [|y b] E; try discriminate; [reflexivity|]. simpl. f_equal. apply IH. now injection E. Qed.
Lemma Forall2_len {A B} (P : A -> B -> Prop) l l' : Forall2 P l l' -> length l = length l'.
Proof. induction 1; simpl; congruence. Qed.

Lemma combine_app {A B} (a a' : list A) (b b' : list B) : length a = length b -> combine (a ++ a') (b ++ b') = combine a b ++ combine a' b'.
Proof. revert b. induction a as [|x a IH]; intros [|y b] E; try discriminate; [reflexivity|]. simpl. f_equal. apply IH. now injection E. Qed.
Lemma app_inv_len {A} (a b a' b' : list A) : a ++ b = a' ++ b' -> length a = length a' -> a = a' /\ b = b'.
Proof. revert a'. induction a as [|x a IH]; intros [|y a'] E L; try discriminate; [auto|]. injection E as -> E. injection L as L. destruct (IH _ E L) as (-> & ->). auto. Qed.

Section Functions.
Variables (items : list pitem) (l : list (root * titem)) (p : program).
Hypothesis Hh : holds items l.
Hypothesis Hl : forall t, In t p <-> In t (map snd l).
Hypothesis Hd : decls_ok p.
Notation val := (val items).
Variable t : titem.
Hypothesis It : In t p.
Notation self := (ti_id t).

Lemma body_inv r G e b u G' : val self r G (as_body (untyped e)) b u G' -> exists b0 G1, val self r G (untyped e) b0 u G1 /\ b = as_body b0.
Proof.
  intros H. assert (X : (exists ss x, untyped e = EBlock ss x) \/ ((forall ss x, untyped e <> EBlock ss x) /\ as_body (untyped e) = EBlock [] (untyped e))).
  { destruct (untyped e); eauto; right; (split; [discriminate|reflexivity]). }
  destruct X as [(ss & x & E)|(Ne & E)].
  - rewrite E in H |- *. cbn [as_body] in H. exists b, G'. split; [exact H|]. apply block_inv in H. destruct H as (ss1 & e1 & G1 & G2 & -> & _). reflexivity.
  - rewrite E in H. apply block_one_inv in H. destruct H as (b0 & G2 & -> & H & ->). exists b0, G2. split; [exact H|].
    pose proof (proj1 (typing_erases items self) _ _ _ _ _ _ H) as Er. destruct b0; try reflexivity. exfalso. revert Ne Er. generalize (untyped e). intros [] Ne Er; try discriminate Er. now apply (Ne l1 e0).
Qed.

Lemma fields_app_inv r G a b fs' ts G' : fields items self r G (a ++ b) fs' ts G' ->
  exists t1 t2 G1 f1 f2, fs' = f1 ++ f2 /\ ts = t1 ++ t2 /\ fields items self r G a f1 t1 G1 /\ fields items self r G1 b f2 t2 G'.
Proof.
  revert G fs' ts. induction a as [|[f e] a IH]; intros G fs' ts H; cbn [app] in H.
  - exists [], ts, G, [], fs'. repeat split; auto. constructor.
  - apply fields_cons_inv in H. destruct H as (e1 & fs1 & u & t0 & ts1 & G1 & -> & -> & A & C & H). destruct (IH _ _ _ H) as (t1 & t2 & G2 & f1 & f2 & -> & -> & F1 & F2).
    exists (t0 :: t1), t2, G2, ((f, e1) :: f1), f2. repeat split; auto. econstructor; eauto.
Qed.
Lemma each_field_inv {A} (nm : A -> string) (cd : A -> ex) (P : A -> rty -> ex -> Prop) r G fs :
  (forall f, In f fs -> forall e' t0 G1, val self r G (untyped (cd f)) e' t0 G1 -> exists u, t0 = up u /\ P f u e' /\ G1 = G) ->
  forall fs' ts G', fields items self r G (map (fun f => (nm f, untyped (cd f))) fs) fs' ts G' ->
  exists ys, Forall2 (fun f y => P f (fst y) (snd y)) fs ys /\ ts = map (fun y => up (fst y)) ys /\ fs' = combine (map nm fs) (map snd ys) /\ G' = G.
Proof.
  induction fs as [|f fs IH]; intros X fs' ts G' H; cbn [map] in H.
  - apply fields_nil_inv in H. destruct H as (-> & -> & ->). exists []. repeat split; constructor.
  - apply fields_cons_inv in H. destruct H as (e1 & fs1 & u & t0 & ts1 & G1 & -> & -> & A0 & C & H).
    destruct (X f (or_introl eq_refl) _ _ _ A0) as (u0 & -> & Pf & ->). apply coerces_from_up in C. subst t0.
    destruct (IH (fun g I => X g (or_intror I)) _ _ _ H) as (ys & F & -> & -> & ->). exists ((u0, e1) :: ys). repeat split; auto.
Qed.

(** ** [lookahead] *)
Definition look_weak (k : lk) : Prop := match k with LkTrue => True | LkOr ks => forall id, In (LkCall id) ks -> defined p (type_name self id) end.
Lemma look_fn_inv r G k e' G' : var G "node" (YRef Node) -> val self r G (untyped (look_code k)) e' YBool G' -> look_weak k /\ e' = look_code k /\ G' = G.
Proof.
  intros V H. destruct k as [|ks]; cbn [look_code] in H |- *.
  - cbn [untyped] in H. inversion H; subst. split; [exact I|auto].
  - rewrite untyped_fold in H. cbn [look_weak].
    assert (X : forall ks e e0, (forall e1 T G1, val self r G e e1 T G1 -> e1 = e0 /\ G1 = G) ->
      forall e' G', val self r G (fold_left (fun e k => EOr e (untyped (lk1_code k))) ks e) e' YBool G' ->
      (forall id, In (LkCall id) ks -> defined p (type_name self id)) /\ e' = fold_left (fun e k => EOr e (lk1_code k)) ks e0 /\ G' = G).
    { clear H e' G' ks. induction ks as [|k ks IH]; intros e e0 X e' G' H; cbn [fold_left] in H |- *.
      - destruct (X _ _ _ H) as (-> & ->). split; [intros id []|auto].
      - assert (Y : forall e1 T G1, val self r G (EOr e (untyped (lk1_code k))) e1 T G1 -> (forall id, k = LkCall id -> defined p (type_name self id)) /\ e1 = EOr e0 (lk1_code k) /\ G1 = G).
        { intros e1 T G1 K. apply or_inv in K. destruct K as (a1 & b1 & G2 & G3 & -> & -> & A & B & ->). destruct (X _ _ _ A) as (-> & ->).
          destruct k as [id|n ns]; cbn [lk1_code] in B |- *.
          - cbn [untyped map v] in B. eapply look_inv in B; eauto. destruct B as (D & -> & ->). rewrite join_same. split; [|auto]. intros id' E. now injection E as <-.
          - eapply child_call_inv in B; eauto; [|now right|discriminate]. destruct B as (-> & _ & ->). rewrite join_same. split; [discriminate|auto]. }
        assert (Z : exists e1 T G1, val self r G (EOr e (untyped (lk1_code k))) e1 T G1).
        { clear - H. revert H. generalize (EOr e (untyped (lk1_code k))). intros x H. revert x e' G' H. induction ks as [|k' ks IH]; intros x e' G' H; cbn [fold_left] in H; [eauto|].
          destruct (IH _ _ _ H) as (e1 & T & G1 & K). apply or_inv in K. destruct K as (a1 & b1 & G2 & G3 & _ & _ & A & _). eauto. }
        destruct Z as (e1 & T & G1 & Z). destruct (Y _ _ _ Z) as (D & _).
        destruct (IH (EOr e (untyped (lk1_code k))) (EOr e0 (lk1_code k)) (fun e1 T G1 K => proj2 (Y e1 T G1 K)) _ _ H) as (A & -> & ->).
        split; [|auto]. intros id [->|I]; [now apply D|auto]. }
    apply (X ks (EBool false) (EBool false)); [|exact H]. intros e1 T G1 K. inversion K; subst. auto.
Qed.

(** ** [from_xml_node] *)
Definition read_weak : Prop :=
  match ti_decl t, ti_read t with
  | DStruct ds, BrStruct fs ats => Forall (fun f => fr_weak p self (snd f)) fs /\ Forall (fun a => exists u, In (ra_field a, u) ds /\ ra_weak p a u) ats
  | DChoice vs, BrChoice ms => Forall (arm_weak items p self vs) ms
  | _, _ => True
  end.
Definition read_result : typ := YRes (YNamed self) DecodeError.
Lemma tuple_inv r G es e' T G' : is_tuple (ti_decl t) -> val self r G (ECall (PName self) None es) e' T G' ->
  exists ty b es1, ti_decl t = DTuple ty b /\ args items self r G es es1 [up ty] G' /\ e' = ECall (PName self) None es1.
Proof.
  intros Tu H. destruct (item_name _ Hd t It) as (_ & _ & N). specialize (N Tu). destruct Tu as (ty & b & Ed).
  remember self as x eqn:Ex. inversion H; subst; try (exfalso; apply N; simpl; tauto).
  match goal with K : declared _ _ _ |- _ => apply (declared_item _ _ _ Hh Hl Hd) in K; [|exact It]; rewrite Ed in K; cbn in K; subst end. eauto 8.
Qed.
Lemma read_fn_inv G e' u G' : G = [("node", Some (YRef Node))] -> val self read_result G (untyped (read_code t)) e' u G' -> coerces u read_result ->
  read_weak /\ (read_ok p (ti_decl t) (ti_read t) -> e' = read_code t).
Proof.
  intros -> H C. set (G := [("node", Some (YRef Node))] : tenv) in *. assert (V : var G "node" (YRef Node)) by reflexivity. assert (N : node_like (YRef Node)) by now right.
  assert (D : decoding read_result) by (eexists; reflexivity).
  unfold read_code in H |- *. cbn [untyped map] in H. eapply ok_inv in H; eauto. destruct H as (e1 & u1 & t1 & w & -> & -> & H & C1).
  apply coerces_res in C. injection C as <- <-. apply (coerces_up _ (TRef self)) in C1. cbn [up] in C1. subst u1.
  unfold read_weak. destruct (ti_read t) as [x| |fs ats|ms] eqn:Er.
  - split; [destruct (ti_decl t); exact I|]. intros K. inversion K as [ty b x' X E1 E2| | |]; subst. cbn [untyped map] in H.
    apply tuple_inv in H; [|unfold is_tuple; eauto]. destruct H as (ty' & b' & es1 & E & A & ->). rewrite <- E1 in E. injection E as <- <-.
    apply args_one_inv in A. destruct A as (e2 & u2 & t2 & -> & E & A & C). injection E as <-. eapply rx_inv in A; eauto. destruct A as (u0 & -> & Z & ->).
    apply coerces_from_up in C. apply up_inj in C. subst u0. now rewrite (rx_elab_code _ _ _ _ _ _ Z X).
  - split; [destruct (ti_decl t); exact I|]. intros _. rewrite untyped_block in H. cbn [map untyped_stm] in H. apply block_let_inv in H.
    destruct H as (a1 & e2 & u2 & G1 & G2 & -> & A & B & ->). cbn [untyped call map] in A. eapply text_inv in A; eauto. destruct A as (-> & -> & ->).
    cbn [untyped map v] in B. apply try_inv in B. destruct B as (e3 & w & a & b & -> & _ & B & _). apply from_str_call_inv in B; [|reflexivity|reflexivity].
    destruct B as (u3 & w1 & -> & E & _ & ->). injection E as E _. change (YNamed self) with (up (TRef self)) in E. apply up_inj in E. subst u3. reflexivity.
  - cbn [untyped] in H. apply struct_inv in H. destruct H as (ds & fs1 & ts & Dd & F & P & -> & _).
    apply (declared_item _ _ _ Hh Hl Hd) in Dd; [|exact It]. destruct (ti_decl t) as [| |ds'|] eqn:Ed; try contradiction. cbn in Dd. subst ds'.
    rewrite map_app, !map_map in F, P. cbn [fst snd] in F, P. apply fields_app_inv in F. destruct F as (ts1 & ts2 & G1 & fs2 & fs3 & -> & -> & F1 & F2).
    eapply (each_field_inv fst (fun f => fr_code (snd f)) (fun f u e => fr_weak p self (snd f) /\ (fr_type p (snd f) u -> e = fr_code (snd f)))) in F1.
    2:{ intros f _ e' T G2 K. eapply fr_inv in K; eauto. destruct K as (u & -> & W & Q & ->). exists u. auto. }
    destruct F1 as (y1 & F1 & -> & -> & ->).
    eapply (each_field_inv ra_field ra_code (fun a u e => ra_weak p a u /\ (ra_type p a u -> e = ra_code a))) in F2.
    2:{ intros a _ e' T G2 K. eapply ra_inv in K; eauto. destruct K as (u & -> & W & Q & ->). exists u. auto. }
    destruct F2 as (y2 & F2 & -> & -> & _).
    assert (Dg : decl_ok p (DStruct ds)) by (rewrite <- Ed; eapply decl_good; eauto). inversion Dg as [| |ds' M|]; subst. destruct M as (Nd & _).
    pose proof (Forall2_len _ _ _ F1) as L1. pose proof (Forall2_len _ _ _ F2) as L2.
    rewrite map_app, !map_map in P. cbn [fst] in P. rewrite combine_app in P by now rewrite !map_length.
    split.
    + assert (X : forall x u, In (x, up u) (combine (map fst fs) (map (fun y => up (fst y)) y1) ++ combine (map ra_field ats) (map (fun y => up (fst y)) y2)) -> In (x, u) ds).
      { intros x u I. eapply Permutation_in in I; [|exact P]. apply in_map_iff in I. destruct I as ([k z] & E & I). cbn in E. injection E as -> E. apply up_inj in E. now subst z. }
      split.
      * clear - F1. induction F1 as [|f y fs ys (W & _) F IH]; constructor; auto.
      * assert (Y : forall x u, In (x, up u) (combine (map ra_field ats) (map (fun y => up (fst y)) y2)) -> In (x, u) ds) by (intros; apply X; apply in_app_iff; now right).
        clear - F2 Y. induction F2 as [|a y ats ys (W & _) F IH]; constructor.
        -- exists (fst y). split; [|exact W]. apply Y. now left.
        -- apply IH. intros x u I. apply Y. now right.
    + intros K. inversion K as [| |ds1 ds2 fs' ats' K1 K2 E|]; subst.
      pose proof (Forall2_len _ _ _ K1) as L3. pose proof (Forall2_len _ _ _ K2) as L4.
      apply same_keys in P.
      * rewrite map_app in P. apply app_inv_len in P; [|rewrite combine_length, !map_length; lia]. destruct P as (P1 & P2).
        f_equal. f_equal. f_equal. f_equal.
        -- clear - F1 K1 P1. revert y1 F1 P1. induction K1 as [|d f ds fs (E & Ft) K IH]; intros y1 F1 P1; inversion F1; subst; [reflexivity|].
           cbn [map combine fst snd] in P1 |- *. injection P1 as _ E1 P1. apply up_inj in E1. destruct H1 as (_ & Q). f_equal; [|apply IH; auto]. rewrite Q; [reflexivity|]. congruence.
        -- clear - F2 K2 P2. revert y2 F2 P2. induction K2 as [|d f ds fs (E & Ft) K IH]; intros y1 F1 P1; inversion F1; subst; [reflexivity|].
           cbn [map combine fst snd] in P1 |- *. injection P1 as _ E1 P1. apply up_inj in E1. destruct H1 as (_ & Q). f_equal; [|apply IH; auto]. rewrite Q; [reflexivity|]. congruence.
      * eapply Permutation_NoDup; [apply Permutation_map, Permutation_sym, P|]. rewrite map_map. exact Nd.
      * rewrite map_app, !combine_fst by now rewrite !map_length. rewrite map_map. cbn [fst]. rewrite map_app. f_equal.
        -- clear - K1. induction K1 as [|d f ds fs (E & _) K IH]; cbn; congruence.
        -- clear - K2. induction K2 as [|d f ds fs (E & _) K IH]; cbn; congruence.
  - cbn [untyped] in H. 
    destruct (ti_decl t) as [| | |vs] eqn:Ed; try (split; [exact I|]; intros K; inversion K; fail).
    assert (Dg : decl_ok p (DChoice vs)) by (rewrite <- Ed; eapply decl_good; eauto).
    assert (Nd : NoDup (map fst vs)) by (inversion Dg; subst; match goal with M : members_ok _ _ |- _ => destruct M; assumption | M : _ /\ _ |- _ => destruct M; assumption end).
    eapply arms_inv in H; eauto. destruct H as (W & Q & _). split; [exact W|]. intros K. inversion K; subst. now rewrite Q.
Qed.
(** ** The other functions that read *)
Lemma function_inv r G f es e' u G' : from_str_fn f = false -> val self r G (ECall (PLib f) None es) e' u G' ->
  exists es1 ts, function_of f ts u /\ args items self r G es es1 ts G' /\ e' = ECall (PLib f) None es1.
Proof. intros F H. inversion H; subst; [eauto|congruence]. Qed.
Lemma coerces_to_res u a b : coerces u (YRes a b) -> u = YRes a b.
Proof. intros H. now inversion H. Qed.
Lemma from_xml_inv G e' u G' : var G "input" YText -> val self read_result G (untyped (from_xml_code t)) e' u G' -> coerces u read_result -> e' = from_xml_code t.
Proof.
  intros V H C. apply coerces_to_res in C. subst u. unfold from_xml_code in H |- *. rewrite untyped_block in H. cbn [map untyped_stm] in H.
  apply block_inv in H. destruct H as (ss1 & e1 & G1 & G2 & -> & H & K & _).
  apply stms_let_inv in H. destruct H as (d & ss2 & T & G3 & -> & A & H). cbn [untyped map call v] in A. apply try_inv in A.
  destruct A as (d1 & w & a & b & -> & _ & A & _). apply function_inv in A; [|reflexivity]. destruct A as (es1 & ts & F & A & ->). inversion F; subst.
  apply args_one_inv in A. destruct A as (e2 & u2 & t2 & -> & _ & A & _). apply lib_method_inv in A.
  2:{ intros e3 T3 G4 P id D. apply place_var_inv in P. destruct P as (_ & V' & _). pose proof (var_fun _ _ _ _ V V') as <-. inversion D. }
  destruct A as (e3 & es1 & t3 & u3 & ts & G4 & P & D & A & -> & M). apply place_var_inv in P. destruct P as (-> & V' & ->).
  apply args_nil_inv in A. destruct A as (-> & -> & ->).
  apply stms_let_inv in H. destruct H as (n & ss3 & T & G4 & -> & A & H). apply stms_nil_inv in H. destruct H as (-> & ->).
  cbn [untyped map call v] in A. apply try_inv in A. destruct A as (n1 & w1 & a1 & b1 & -> & _ & A & _). apply lib_method_inv in A.
  2:{ intros e3 T3 G5 P id D0. apply place_var_inv in P. destruct P as (_ & V2 & _). injection V2 as <-. inversion D0. }
  destruct A as (e3 & es1 & t4 & u4 & ts & G5 & P & D2 & A & -> & M2). apply place_var_inv in P. destruct P as (-> & V2 & ->). injection V2 as <-.
  apply derefs_lib in D2. subst u4. eapply child_args_inv in A; eauto. destruct A as (-> & ->).
  cbn [untyped map v] in K. eapply own_fn_inv in K; eauto; [|simpl; tauto|discriminate]. destruct K as (t0 & i & q & ts0 & u & s & es1 & _ & _ & _ & _ & _ & _ & A & _ & ->).
  apply args_one_inv in A. destruct A as (e4 & u5 & t5 & -> & _ & A & _). apply ref_inv in A. destruct A as (e5 & u6 & -> & -> & A). apply place_var_inv in A. destruct A as (-> & _ & _).
  reflexivity.
Qed.

Lemma arms_same (ms : list (pat * ex)) r G u : (forall m B e' T G1, In m ms -> binds items self (fst m) u B -> val self r (B ++ G) (untyped (snd m)) e' T G1 -> e' = snd m) ->
  forall ms' T G', arms items self r G u (map (fun a => (fst a, untyped (snd a))) ms) ms' T G' -> ms' = ms.
Proof.
  induction ms as [|[q b] ms IH]; intros X ms' T G' H; cbn [map fst snd] in H; [inversion H|]. destruct ms as [|m ms]; cbn [map] in H.
  - apply arms_one_inv in H. destruct H as (b1 & B & G1 & -> & Bi & K & _). now rewrite (X (q, b) _ _ _ _ (or_introl eq_refl) Bi K).
  - apply arms_cons_inv in H. destruct H as (b1 & ms1 & B & G1 & G2 & -> & Bi & K & A & _). rewrite (X (q, b) _ _ _ _ (or_introl eq_refl) Bi K). f_equal.
    eapply IH; [|exact A]. intros m0 B0 e0 T0 G0 I0. apply X. now right.
Qed.
Lemma path_inv r G x w e' T G' : val self r G (EPath (PAssoc x w)) e' T G' -> e' = EPath (PAssoc x w).
Proof. intros H. now inversion H. Qed.
Lemma binds_lit x u B : binds items self (PLit x) u B -> B = [] /\ u = str_ref.
Proof. intros H. inversion H; auto. Qed.
Lemma binds_any u B : binds items self PAny u B -> B = [].
Proof. intros H. now inversion H. Qed.
Lemma enum_from_str_inv vs r G e' u G' : var G "s" str_ref -> val self r G (untyped (enum_from_str_code self vs)) e' u G' -> e' = enum_from_str_code self vs.
Proof.
  intros V H. unfold enum_from_str_code in H |- *. cbn [untyped map] in H. eapply ok_inv in H; eauto. destruct H as (e1 & u1 & t1 & w & -> & _ & H & _). f_equal. f_equal.
  apply match_inv in H. destruct H as (e2 & ms1 & u2 & G1 & -> & A & _ & H). cbn [untyped v] in A. eapply copied in A; [|exact V|constructor].
  destruct A as (-> & -> & ->). f_equal. eapply arms_same; [|exact H]. intros [q b] B e0 T G2 I Bi K. cbn [fst snd] in *. apply in_app_iff in I. destruct I as [I|[I|[]]].
  - apply in_map_iff in I. destruct I as (d & E & _). injection E as <- <-. cbn [untyped] in K. eapply path_inv; eauto.
  - injection I as <- <-. apply binds_any in Bi. subst B. cbn [untyped map app] in K. apply return_inv in K. destruct K as (e3 & u3 & -> & K & _). f_equal.
    eapply err_inv in K; eauto. destruct K as (e4 & u4 & t4 & w4 & -> & _ & K & _). f_equal. f_equal. unfold err_struct in K. cbn [untyped map fst snd] in K.
    apply lib_struct_inv in K. destruct K as (ds & fs1 & ts & _ & F & _ & ->). unfold err_struct. f_equal. apply fields_cons_inv in F.
    destruct F as (e5 & fs2 & u5 & t5 & ts5 & G5 & -> & _ & A & _ & F). apply fields_nil_inv in F. destruct F as (-> & _ & _).
    eapply str_of_var_inv in A; eauto. now destruct A as (-> & _ & _).
Qed.
Lemma enum_as_str_inv vs r G e' u G' : val self r G (untyped (enum_as_str_code vs)) e' u G' -> e' = enum_as_str_code vs.
Proof.
  intros H. unfold enum_as_str_code in H |- *. cbn [untyped map] in H. apply match_inv in H. destruct H as (e2 & ms1 & u2 & G1 & -> & A & _ & H).
  cbn [untyped v] in A. apply var_inv in A. destruct A as (-> & _ & _). f_equal. eapply arms_same; [|exact H]. intros [q b] B e0 T G2 I Bi K. cbn [fst snd] in *.
  apply in_map_iff in I. destruct I as (d & E & _). injection E as <- <-. cbn [untyped] in K. apply str_inv in K. tauto.
Qed.
Lemma self_derefs u : derefs (YRef (YNamed self)) u -> u = YRef (YNamed self) \/ u = YNamed self.
Proof. intros D. inversion D; subst; auto. match goal with X : derefs (YNamed _) _ |- _ => inversion X; subst; auto end. Qed.
Lemma enum_fmt_inv r G e' u G' : var G "f" (YRef Formatter) -> var G "self" (YRef (YNamed self)) -> val self r G (untyped (enum_fmt_code self)) e' u G' -> e' = enum_fmt_code self.
Proof.
  intros V W H. unfold enum_fmt_code in H |- *. cbn [untyped map call v] in H. apply lib_method_inv in H.
  2:{ intros e3 T3 G4 P id D. apply place_var_inv in P. destruct P as (_ & V' & _). pose proof (var_fun _ _ _ _ V V') as <-. inversion D; subst. match goal with X : derefs Formatter _ |- _ => inversion X end. }
  destruct H as (e1 & es1 & t1 & u1 & ts & G1 & P & _ & A & -> & _). apply place_var_inv in P. destruct P as (-> & _ & ->). apply args_one_inv in A.
  destruct A as (e2 & u2 & t2 & -> & _ & A & _). apply method_inv in A. destruct A as (e3 & es1 & t3 & u3 & ts3 & G3 & P & D & A & -> & M).
  apply place_var_inv in P. destruct P as (-> & W' & ->). pose proof (var_fun _ _ _ _ W W') as <-. apply args_nil_inv in A. destruct A as (-> & _ & _).
  destruct (self_derefs _ D) as [->| ->]; [|reflexivity]. destruct M as [M|(id & i & q & s & ts0 & w0 & E & _)]; [inversion M|discriminate].
Qed.
Lemma tuple_from_str_inv ty r G e' u G' : ti_decl t = DTuple ty true -> var G "s" str_ref -> val self r G (untyped (tuple_from_str_code self ty)) e' u G' -> e' = tuple_from_str_code self ty.
Proof.
  intros Ed V H. unfold tuple_from_str_code in H |- *. cbn [untyped map] in H. eapply ok_inv in H; eauto. destruct H as (e1 & u1 & t1 & w & -> & _ & H & _). f_equal. f_equal.
  apply tuple_inv in H; [|unfold is_tuple; eauto]. destruct H as (ty' & b & es1 & E & A & ->). rewrite Ed in E. injection E as <- <-. f_equal.
  apply args_one_inv in A. destruct A as (e2 & u2 & t2 & -> & E & A & C). injection E as <-. f_equal. apply try_inv in A. destruct A as (e3 & w3 & a & b & -> & _ & A & _). f_equal.
  apply map_err_inv in A. destruct A as (e4 & b4 & t4 & w4 & u4 & G4 & -> & E & A & B & _). injection E as <- <-. cbn [untyped v] in A.
  apply from_str_call_inv in A; [|reflexivity|exact V]. destruct A as (u5 & w5 & -> & E & F & ->). injection E as -> ->. apply coerces_from_up in C. apply up_inj in C. subst u5. f_equal.
  unfold value_block in *. cbn [map] in B. apply block_one_inv in B. destruct B as (e5 & G5 & -> & B & _). f_equal.
  eapply (parse_error_inv _ _ _ Hh Hl Hd) with (n := w5) in B; [now destruct B as (-> & _)|exact V|discriminate|reflexivity|eapply from_str_error; eauto].
Qed.
Lemma first_inv r G e' T G' ty b : ti_decl t = DTuple ty b -> var G "self" (YRef (YNamed self)) -> place items self r G (EField (EVar "self") "0") e' T G' ->
  e' = EField (EVar "self") "0" /\ T = up ty /\ G' = G.
Proof.
  intros Ed V H.
  assert (X : forall e1 T1 G1 id, place items self r G (EVar "self") e1 T1 G1 -> derefs T1 (YNamed id) -> e1 = EVar "self" /\ G1 = G /\ id = self).
  { intros e1 T1 G1 id P D. apply place_var_inv in P. destruct P as (-> & V' & ->). pose proof (var_fun _ _ _ _ V V') as <-. destruct (self_derefs _ D) as [E|E]; [discriminate|]. now injection E as <-. }
  inversion H; subst; [..|discriminate].
  - match goal with P : place _ _ _ _ _ _ _ _, D : derefs _ _ |- _ => destruct (X _ _ _ _ P D) as (-> & -> & ->) end.
    match goal with K : declared _ _ _ |- _ => apply (declared_item _ _ _ Hh Hl Hd) in K; [|exact It]; rewrite Ed in K; destruct K end.
  - match goal with P : place _ _ _ _ _ _ _ _, D : derefs _ _ |- _ => destruct (X _ _ _ _ P D) as (-> & -> & ->) end.
    match goal with K : declared _ _ _ |- _ => apply (declared_item _ _ _ Hh Hl Hd) in K; [|exact It]; rewrite Ed in K; cbn in K; subst end. auto.
Qed.
Lemma tuple_fmt_inv q b r G e' u G' : ti_decl t = DTuple (TPrim q) b -> var G "self" (YRef (YNamed self)) -> val self r G (untyped (tuple_fmt_code (TPrim q))) e' u G' -> e' = tuple_fmt_code (TPrim q).
Proof.
  intros Ed V H. unfold tuple_fmt_code in H |- *. cbn [untyped map v] in H. apply method_inv in H. destruct H as (e3 & es1 & t3 & u3 & ts3 & G3 & P & D & A & -> & _).
  eapply first_inv in P; eauto. destruct P as (-> & -> & ->). apply args_one_inv in A. destruct A as (e2 & u2 & t2 & -> & _ & A & _). apply var_inv in A. destruct A as (-> & _ & _).
  f_equal. cbn [up Body.own_type] in *. destruct q; inversion D; subst; try reflexivity. match goal with X : derefs YStr _ |- _ => inversion X; reflexivity end.
Qed.
End Functions.
