(** * RustWrite: in modules rustc accepts every value of the types can be written *)
From Verif Require Import Base Libs Xml Ast Decode Writer Gen Run LitSpec DecSpec RepSpec WfSpec GenProof2 TypeProof RustSpec RustProof.

Fixpoint vdepth (v : value) : nat :=
  match v with
  | VSome v => vdepth v
  | VVec vs => list_max (map vdepth vs)
  | VTuple v => S (vdepth v)
  | VEnum _ => 1
  | VStruct fs => S (list_max (map (fun f => vdepth (snd f)) fs))
  | VChoice _ v => S (vdepth v)
  | _ => 0
  end.

Definition total {E A} (r : res E A) : Prop := exists a, r = Ok a.
Lemma total_bind {E A B} (r : res E A) (f : A -> res E B) :
  total r -> (forall a, total (f a)) -> total (bind r f).
Proof. intros [a ->] K. apply K. Qed.

Lemma in_max n l : In n l -> n <= list_max l.
Proof.
  intros H. assert (F : Forall (fun k => k <= list_max l) l) by (now apply list_max_le).
  rewrite Forall_forall in F. auto.
Qed.

Section Sound.
Context {L : Libs}.
Variable p : program.
Hypothesis OK : rust_ok p.

Lemma prim_shown q v : has_type p (TPrim q) v -> exists s, value_to_string v = Some s.
Proof.
  intros H. inversion H as [q' v' Hv| | | | |]; subst. destruct q, v; simpl in *; try contradiction; eauto.
Qed.
Lemma enum_shown vs x : In x (map fst vs) -> exists s, enum_as_str vs x = Some s.
Proof.
  induction vs as [|[a b] vs IH]; simpl; [tauto|]. intros [->|H].
  - rewrite String.eqb_refl. eauto.
  - destruct (x =?s a); eauto.
Qed.

(** Fields of a struct value. *)
Lemma field_value fs vs f t : NoDup (map fst fs) ->
  Forall2 (fun d v => fst d = fst v /\ has_type p (snd d) (snd v)) fs vs -> In (f, t) fs ->
  exists v, aget String.eqb f vs = Some v /\ has_type p t v /\ In (f, v) vs.
Proof.
  intros N H. revert N. induction H as [|[d u] [g w] fs vs [E H] _ IH]; simpl; intros N I; [destruct I|].
  simpl in E, H. subst g. inversion N as [|? ? Nd N']; subst.
  destruct I as [I|I].
  - injection I as -> ->. rewrite String.eqb_refl. eauto.
  - destruct (String.eqb_spec f d) as [->|Ne].
    + exfalso. apply Nd. apply in_map_iff. exists (d, t). auto.
    + destruct (IH N' I) as (v & A & T & Iv). eauto.
Qed.
Lemma unique_member (fs : list (string * rty)) f t u : NoDup (map fst fs) -> In (f, t) fs -> In (f, u) fs -> t = u.
Proof.
  induction fs as [|[g w] fs IH]; simpl; intros N I J; [destruct I|].
  inversion N as [|? ? Ng N']; subst.
  destruct I as [I|I], J as [J|J]; try congruence; auto.
  - exfalso. apply Ng. injection I as -> ->. apply in_map_iff. exists (f, u). auto.
  - exfalso. apply Ng. injection J as -> ->. apply in_map_iff. exists (f, t). auto.
Qed.

Section Open.
Variable fuel : nat.
Variable call : string -> value -> wctx -> W (list event * inner).
Hypothesis Hcall : forall id v c, defined p id -> has_type p (TRef id) v -> vdepth v <= fuel -> total (call id v c).

Lemma wx_total x t v c : wx_type p x t -> has_type p t v -> vdepth v <= fuel -> total (write_wx call x v c).
Proof.
  intros H T D; destruct H as [q|s t|id Di]; cbn [write_wx].
  - destruct (prim_shown _ _ T) as [s ->]. eexists; reflexivity.
  - eexists; reflexivity.
  - now apply Hcall.
Qed.

Lemma leaf_one_total w t v c : wx_type p (wf_x w) t -> has_type p t v -> vdepth v <= fuel ->
  total (write_leaf_one call w v c).
Proof.
  intros H T D. unfold write_leaf_one. destruct (wf_new w), (wf_wrap w);
    try (destruct (write_start_element _) as [e0 c1]);
    (eapply total_bind; [eapply wx_total; eauto|]); intros [e i]; eexists; reflexivity.
Qed.
Lemma each_total w t vs c : wx_type p (wf_x w) t -> Forall (has_type p t) vs -> Forall (fun v => vdepth v <= fuel) vs ->
  total (write_each call w vs c).
Proof.
  intros H T. revert c. induction T as [|v vs Tv T IH]; intros c D; cbn [write_each]; [eexists; reflexivity|].
  inversion D as [|? ? Dv D']; subst.
  eapply total_bind; [eapply leaf_one_total; eauto|]. intros [e1 c1].
  eapply total_bind; [now apply IH|]. intros [e2 c2]. eexists; reflexivity.
Qed.

Definition struct_value (fs : list (string * rty)) (v : value) : Prop :=
  exists vs, v = VStruct vs
    /\ Forall2 (fun d v => fst d = fst v /\ has_type p (snd d) (snd v)) fs vs
    /\ Forall (fun f => vdepth (snd f) <= fuel) vs.

Lemma struct_field fs f t v : NoDup (map fst fs) -> struct_value fs v -> In (f, t) fs ->
  exists w, vfield v f = Ok w /\ has_type p t w /\ vdepth w <= fuel.
Proof.
  intros N (vs & -> & H & D) I. destruct (field_value _ _ _ _ N H I) as (w & A & T & Iw).
  exists w. unfold vfield. rewrite A. split; [reflexivity|]. split; [exact T|].
  rewrite Forall_forall in D. apply (D _ Iw).
Qed.

Lemma vec_members t v : has_type p (TVec t) v -> vdepth v <= fuel ->
  exists vs, v = VVec vs /\ Forall (has_type p t) vs /\ Forall (fun v => vdepth v <= fuel) vs.
Proof.
  intros T D. inversion T as [| |t' vs F| | |]; subst. exists vs. split; [reflexivity|]. split; [exact F|].
  simpl in D. apply list_max_le in D. rewrite Forall_map in D. exact D.
Qed.

Lemma leaf_total fs w v c : NoDup (map fst fs) -> struct_value fs v -> wf_ok p fs w -> total (write_leaf call w v c).
Proof.
  intros N S (t & I & H & _). unfold write_leaf.
  destruct (struct_field _ _ _ _ N S I) as (u & -> & T & D). cbn [bind].
  assert (In_vec : forall u, has_type p (wrap_vec (wf_vec w) t) u -> vdepth u <= fuel ->
    total (if wf_vec w then match u with VVec vs => write_each call w vs c | _ => Panic "not a Vec" end
           else write_leaf_one call w u c)).
  { intros u' T' D'. destruct (wf_vec w); simpl in T'.
    - destruct (vec_members _ _ T' D') as (vs & -> & F & Fd). eapply each_total; eauto.
    - eapply leaf_one_total; eauto. }
  destruct (wf_opt w); simpl in T; [|now apply In_vec].
  inversion T as [| | |t'|t' u' T'|]; subst; [eexists; reflexivity|]. now apply In_vec.
Qed.
Lemma leaves_total fs ws v c : NoDup (map fst fs) -> struct_value fs v -> Forall (wf_ok p fs) ws ->
  total (write_leaves call ws v c).
Proof.
  intros N S F. revert c. induction F as [|w ws H _ IH]; intros c; cbn [write_leaves]; [eexists; reflexivity|].
  eapply total_bind; [eapply leaf_total; eauto|]. intros [e1 c1].
  eapply total_bind; [apply IH|]. intros [e2 c2]. eexists; reflexivity.
Qed.

Lemma aget_in (fs : list (string * rty)) f t : NoDup (map fst fs) -> In (f, t) fs -> aget String.eqb f fs = Some t.
Proof.
  induction fs as [|[g w] fs IH]; simpl; intros N I; [destruct I|]. inversion N as [|? ? Ng N']; subst.
  destruct I as [I|I].
  - injection I as -> ->. now rewrite String.eqb_refl.
  - destruct (String.eqb_spec f g) as [->|]; [|auto]. exfalso. apply Ng. apply in_map_iff. exists (g, t). auto.
Qed.

Lemma attr_total it fs a v c : ti_decl it = DStruct fs -> NoDup (map fst fs) -> struct_value fs v -> wa_ok p fs a ->
  total (write_attr p it a v c).
Proof.
  intros Di N S (t & I & Sh). unfold write_attr.
  destruct (struct_field _ _ _ _ N S I) as (u & -> & T & D). cbn [bind].
  assert (Ft : wa_fixed a = None -> field_type it (wa_field a) = Some t).
  { intros Fx. unfold field_type. rewrite Di, (aget_in _ _ _ N I). simpl. f_equal.
    destruct (wa_opt a); [reflexivity|]. simpl. destruct (Sh Fx); reflexivity. }
  assert (Cv : forall w, has_type p t w ->
    total (match wa_fixed a with Some s => Ok s | None => attr_to_string p w (field_type it (wa_field a)) end : W string)).
  { intros w Tw. destruct (wa_fixed a) as [s|]; [eexists; reflexivity|]. rewrite Ft by reflexivity.
    destruct (Sh eq_refl) as [q|id En].
    - unfold attr_to_string. destruct (prim_shown _ _ Tw) as [s Es]. rewrite Es.
      destruct w; try discriminate; eexists; reflexivity.
    - destruct (enum_lookup _ OK _ En) as (ti & vs & Lk & Dt).
      inversion Tw as [| | | | |id' ti' w' Lk' D']; subst. rewrite Lk in Lk'. injection Lk' as <-.
      rewrite Dt in D'. inversion D' as [|vs' x Ix| |]; subst. unfold attr_to_string. rewrite Lk, Dt.
      destruct (enum_shown _ _ Ix) as [s ->]. eexists; reflexivity. }
  destruct (wa_opt a); simpl in T.
  - inversion T as [| | |t'|t' u' T'|]; subst; [eexists; reflexivity|].
    eapply total_bind; [now apply Cv|]. intros s. eexists; reflexivity.
  - eapply total_bind; [now apply Cv|]. intros s. eexists; reflexivity.
Qed.
Lemma attrs_total it fs ats v c : ti_decl it = DStruct fs -> NoDup (map fst fs) -> struct_value fs v ->
  Forall (wa_ok p fs) ats -> total (write_attrs p it ats v c).
Proof.
  intros Di N S F. revert c. induction F as [|a ats H _ IH]; intros c; cbn [write_attrs]; [eexists; reflexivity|].
  eapply total_bind; [eapply attr_total; eauto|]. intros c1. apply IH.
Qed.

Lemma wrapped_total wrap c body : (forall c, total (body c)) -> total (wrapped wrap c body).
Proof.
  intros H. unfold wrapped. destruct wrap; [|apply H]. destruct (write_start_element c) as [e0 c1].
  eapply total_bind; [apply H|]. intros [e i]. eexists; reflexivity.
Qed.

Lemma arm_one_total a t v : wx_type p (wm_x a) t -> has_type p t v -> vdepth v <= fuel -> total (write_arm_one call a v).
Proof.
  intros H T D. unfold write_arm_one. destruct (wm_wrap a); try (destruct (write_start_element _) as [e0 c1]);
    (eapply total_bind; [eapply wx_total; eauto|]); intros [e i]; eexists; reflexivity.
Qed.
Lemma arm_each_total a t vs : wx_type p (wm_x a) t -> Forall (has_type p t) vs -> Forall (fun v => vdepth v <= fuel) vs ->
  total (write_arm_each call a vs).
Proof.
  intros H T. induction T as [|v vs Tv T IH]; intros D; cbn [write_arm_each]; [eexists; reflexivity|].
  inversion D as [|? ? Dv D']; subst.
  eapply total_bind; [eapply arm_one_total; eauto|]. intros e1.
  eapply total_bind; [now apply IH|]. intros e2. eexists; reflexivity.
Qed.

Lemma item_total t v c : decl_ok p (ti_decl t) -> write_ok p (ti_decl t) (ti_write t) ->
  has_decl p (ti_decl t) v -> vdepth v <= S fuel -> total (write_item p call t v c).
Proof.
  intros Do Wo H D. unfold write_item. remember (ti_decl t) as d eqn:Ed.
  destruct Wo as [u b wrap x Hx _|vs|fs ats wrap b Ha Hb|vs wrap arms Ex Ha].
  - inversion H as [u' b' w T| | |]; subst. simpl in D. apply wrapped_total. intros c'.
    eapply wx_total; eauto. lia.
  - inversion H as [|vs' x Ix| |]; subst. destruct (enum_shown _ _ Ix) as [s ->].
    apply wrapped_total. intros c'. eexists; reflexivity.
  - inversion Do as [| |fs' [N _]|]; subst. inversion H as [| |fs' vs F|]; subst.
    assert (S : struct_value fs (VStruct vs)).
    { exists vs. split; [reflexivity|]. split; [exact F|]. simpl in D.
      apply le_S_n in D. apply list_max_le in D. now rewrite Forall_map in D. }
    eapply total_bind; [eapply attrs_total; eauto|]. intros c1. apply wrapped_total. intros c2.
    destruct b as [|f x|ws]; cbn [write_body].
    + eexists; reflexivity.
    + destruct Hb as (u & I & Hx & _). destruct (struct_field _ _ _ _ N S I) as (w & -> & T & Dw). cbn [bind].
      eapply wx_total; eauto.
    + eapply total_bind; [eapply leaves_total; eauto|]. intros [e c3]. eexists; reflexivity.
  - inversion Do as [| | |vs' _ [N _]]; subst. inversion H as [| | |vs' i u w I T]; subst. simpl in D.
    apply wrapped_total. intros c1.
    assert (W : total (write_choice call arms (VChoice i w))).
    { cbn [write_choice].
      assert (Ii : In i (map wm_variant arms)) by (apply Ex; apply in_map_iff; exists (i, u); auto).
      destruct (find (fun a => wm_variant a =?s i) arms) as [a|] eqn:Fa.
      - apply find_some in Fa. destruct Fa as [Iarm E]. apply String.eqb_eq in E. subst i.
        rewrite Forall_forall in Ha. destruct (Ha _ Iarm) as (u' & I' & Hx & _).
        assert (u = wrap_vec (wm_vec a) u') by (eapply unique_member; eauto). subst u.
        destruct (wm_vec a); simpl in T.
        + destruct (vec_members _ _ T) as (ws & -> & F & Fd); [lia|]. eapply arm_each_total; eauto.
        + eapply arm_one_total; eauto. lia.
      - exfalso. apply in_map_iff in Ii. destruct Ii as (a & <- & Iarm).
        apply (find_none _ _ Fa) in Iarm. now rewrite String.eqb_refl in Iarm. }
    eapply total_bind; [exact W|]. intros e. eexists; reflexivity.
Qed.
End Open.

Lemma decl_in t : In t p -> decl_ok p (ti_decl t).
Proof. intros H. destruct OK as [[_ _ F _] _]. rewrite Forall_forall in F. auto. Qed.

Lemma write_total fuel id v c : defined p id -> has_type p (TRef id) v -> vdepth v <= fuel -> total (write_type p fuel id v c).
Proof.
  revert id v c. induction fuel as [|fuel IH]; intros id v c Di T D.
  - inversion T as [| | | | |id' t v' Lk Hd]; subst. inversion Hd; subst; simpl in D; lia.
  - cbn [write_type]. destruct (defined_lookup _ OK _ Di) as (t & Lk & It & Et). rewrite Lk.
    inversion T as [| | | | |id' t' v' Lk' Hd]; subst. rewrite Lk in Lk'. injection Lk' as <-.
    destruct (functions_in _ OK t It) as (_ & Wo & _).
    apply (item_total fuel); auto. now apply decl_in.
Qed.

Lemma to_xml_total id v : defined p id -> has_type p (TRef id) v ->
  forall fuel, vdepth v <= fuel -> total (to_xml p fuel id v).
Proof.
  intros Di T fuel D. unfold to_xml. destruct (defined_lookup _ OK _ Di) as (t & Lk & It & Et). rewrite Lk.
  eapply total_bind; [now apply write_total|]. intros [e i]. eexists; reflexivity.
Qed.
End Sound.

(** ** More fuel does not change what is written *)
Definition keeps {E A} (r r' : res E A) : Prop := forall a, r = Ok a -> r' = Ok a.
Lemma keeps_refl {E A} (r : res E A) : keeps r r.
Proof. intros a H. exact H. Qed.
Lemma keeps_bind {E A B} (r r' : res E A) (f f' : A -> res E B) :
  keeps r r' -> (forall a, keeps (f a) (f' a)) -> keeps (bind r f) (bind r' f').
Proof.
  intros H K b. destruct r as [a| | |]; simpl; try discriminate. intros Hb.
  rewrite (H a eq_refl). simpl. now apply K.
Qed.

Section More.
Context {L : Libs}.
Variable p : program.
Variables call call' : string -> value -> wctx -> W (list event * inner).
Hypothesis Hcall : forall id v c, keeps (call id v c) (call' id v c).

Lemma wx_keeps x v c : keeps (write_wx call x v c) (write_wx call' x v c).
Proof. destruct x; cbn [write_wx]; auto using keeps_refl. Qed.
Lemma leaf_one_keeps w v c : keeps (write_leaf_one call w v c) (write_leaf_one call' w v c).
Proof.
  unfold write_leaf_one. destruct (wf_new w), (wf_wrap w); try (destruct (write_start_element _) as [e0 c1]);
    (apply keeps_bind; [apply wx_keeps|]); intros [e i]; apply keeps_refl.
Qed.
Lemma each_keeps w vs c : keeps (write_each call w vs c) (write_each call' w vs c).
Proof.
  revert c. induction vs as [|v vs IH]; intros c; cbn [write_each]; [apply keeps_refl|].
  apply keeps_bind; [apply leaf_one_keeps|]. intros [e1 c1]. apply keeps_bind; [apply IH|]. intros [e2 c2]. apply keeps_refl.
Qed.
Lemma leaf_keeps w v c : keeps (write_leaf call w v c) (write_leaf call' w v c).
Proof.
  unfold write_leaf. apply keeps_bind; [apply keeps_refl|]. intros val.
  assert (K : forall v, keeps (if wf_vec w then match v with VVec vs => write_each call w vs c | _ => Panic "not a Vec" end
                              else write_leaf_one call w v c)
                             (if wf_vec w then match v with VVec vs => write_each call' w vs c | _ => Panic "not a Vec" end
                              else write_leaf_one call' w v c)).
  { intros u. destruct (wf_vec w); [|apply leaf_one_keeps]. destruct u; auto using keeps_refl, each_keeps. }
  destruct (wf_opt w); [|apply K]. destruct val; auto using keeps_refl.
Qed.
Lemma leaves_keeps ws v c : keeps (write_leaves call ws v c) (write_leaves call' ws v c).
Proof.
  revert c. induction ws as [|w ws IH]; intros c; cbn [write_leaves]; [apply keeps_refl|].
  apply keeps_bind; [apply leaf_keeps|]. intros [e1 c1]. apply keeps_bind; [apply IH|]. intros [e2 c2]. apply keeps_refl.
Qed.
Lemma arm_one_keeps a v : keeps (write_arm_one call a v) (write_arm_one call' a v).
Proof.
  unfold write_arm_one. destruct (wm_wrap a); try (destruct (write_start_element _) as [e0 c1]);
    (apply keeps_bind; [apply wx_keeps|]); intros [e i]; apply keeps_refl.
Qed.
Lemma arm_each_keeps a vs : keeps (write_arm_each call a vs) (write_arm_each call' a vs).
Proof.
  induction vs as [|v vs IH]; cbn [write_arm_each]; [apply keeps_refl|].
  apply keeps_bind; [apply arm_one_keeps|]. intros e1. apply keeps_bind; [apply IH|]. intros e2. apply keeps_refl.
Qed.
Lemma wrapped_keeps wrap c b b' : (forall c, keeps (b c) (b' c)) -> keeps (wrapped wrap c b) (wrapped wrap c b').
Proof.
  intros H. unfold wrapped. destruct wrap; [|apply H]. destruct (write_start_element c) as [e0 c1].
  apply keeps_bind; [apply H|]. intros [e i]. apply keeps_refl.
Qed.
Lemma item_keeps t v c : keeps (write_item p call t v c) (write_item p call' t v c).
Proof.
  unfold write_item. destruct (ti_write t) as [wrap x| |ats wrap b|wrap arms].
  - destruct v; try apply keeps_refl. apply wrapped_keeps. intros; apply wx_keeps.
  - apply keeps_refl.
  - apply keeps_bind; [apply keeps_refl|]. intros c1. apply wrapped_keeps. intros c2.
    destruct b as [|f x|ws]; cbn [write_body]; [apply keeps_refl| |].
    + apply keeps_bind; [apply keeps_refl|]. intros; apply wx_keeps.
    + apply keeps_bind; [apply leaves_keeps|]. intros; apply keeps_refl.
  - apply wrapped_keeps. intros c1. apply keeps_bind; [|intros; apply keeps_refl].
    unfold write_choice. destruct v; try apply keeps_refl. destruct (find _ arms) as [a|]; [|apply keeps_refl].
    destruct (wm_vec a); [|apply arm_one_keeps]. destruct v; auto using keeps_refl, arm_each_keeps.
Qed.
End More.

Lemma write_more {L : Libs} p fuel fuel' id v c : fuel <= fuel' -> keeps (write_type p fuel id v c) (write_type p fuel' id v c).
Proof.
  revert fuel' id v c. induction fuel as [|fuel IH]; intros fuel' id v c Le; [intros a H; discriminate|].
  destruct fuel' as [|fuel']; [lia|]. cbn [write_type]. destruct (lookup_item p id); [|apply keeps_refl].
  apply item_keeps. intros; apply IH; lia.
Qed.

Lemma to_xml_yields {L : Libs} p id v : rust_ok p -> defined p id -> has_type p (TRef id) v ->
  exists evs, forall fuel, vdepth v <= fuel -> to_xml p fuel id v = Ok evs.
Proof.
  intros OK Di T. destruct (to_xml_total p OK id v Di T (vdepth v) (le_n _)) as [evs E].
  exists evs. intros fuel Le. revert E. unfold to_xml. destruct (lookup_item p id) as [t|]; [|discriminate].
  apply keeps_bind; [now apply write_more|]. intros; apply keeps_refl.
Qed.
