(** * RustProof: modules rustc accepts do not go wrong *)
From Verif Require Import Base Libs Xml Ast Decode Writer Gen Run LitSpec DecSpec RepSpec WfSpec GenProof2 TypeProof RustSpec.

Definition safe {E A} (P : A -> Prop) (r : res E A) : Prop :=
  match r with Ok a => P a | Panic _ => False | _ => True end.

Lemma safe_bind {E A B} (P : A -> Prop) (Q : B -> Prop) (r : res E A) (f : A -> res E B) :
  safe P r -> (forall a, P a -> safe Q (f a)) -> safe Q (bind r f).
Proof. intros H K. destruct r; simpl in *; auto. Qed.

Lemma enum_no_panic vs s w : enum_from_str vs s = Panic w -> False.
Proof.
  induction vs as [|[a b] vs IH]; simpl; [discriminate|]. destruct (s =?s b); [discriminate|auto].
Qed.

Lemma text_safe e : safe (fun _ => True) (d_text e).
Proof. unfold d_text. destruct (xe_kids e) as [|[] ks]; exact I. Qed.

Section Sound.
Context {L : Libs}.
Variable p : program.
Hypothesis OK : rust_ok p.

Lemma distinct_ids : NoDup (map ti_id p).
Proof. exact (ds_distinct _ (proj1 OK)). Qed.

Lemma lookup_in t : In t p -> lookup_item p (ti_id t) = Some t.
Proof.
  unfold lookup_item. pose proof distinct_ids as N. revert N. generalize p at 1 2 3 as q.
  induction q as [|u q IH]; simpl; intros N H; [destruct H|].
  inversion N as [|? ? Nu N']; subst.
  destruct H as [->|H]; [now rewrite String.eqb_refl|].
  destruct (String.eqb_spec (ti_id u) (ti_id t)) as [E|E]; [|auto].
  exfalso. apply Nu. rewrite E. now apply in_map.
Qed.
Lemma defined_lookup id : defined p id -> exists t, lookup_item p id = Some t /\ In t p /\ ti_id t = id.
Proof.
  unfold defined. intros H. apply in_map_iff in H. destruct H as (t & <- & I).
  exists t. split; [now apply lookup_in|auto].
Qed.
Lemma enum_lookup id : is_enum_type p id -> exists t vs, lookup_item p id = Some t /\ ti_decl t = DEnum vs.
Proof.
  intros (t & vs & I & <- & D). exists t, vs. split; [now apply lookup_in|exact D].
Qed.

Section Decode.
Context {C : Type} (ops : cursor_ops C).
Definition typed (t : rty) (r : value * C) : Prop := has_type p t (fst r).

Lemma lit_typed l s : safe (has_type p (TPrim (lit_prim l))) (lit_from_str l s).
Proof.
  unfold lit_from_str. destruct (prim_from_str (lit_prim l) s) as [v|] eqn:E; simpl; [|exact I].
  constructor. apply (lit_same_type l s). unfold lit_from_str. now rewrite E.
Qed.

Section Open.
Variable call : string -> xelem -> C -> R (value * C).
Variable look : string -> C -> R (bool * C).
Hypothesis Hcall : forall id e c, defined p id -> safe (typed (TRef id)) (call id e c).
Hypothesis Hlook : forall id c, defined p id -> safe (fun _ => True) (look id c).

Lemma rx_sound x t e c : rx_type p x t -> safe (typed t) (run_rx call x e c).
Proof.
  intros H; destruct H as [l|s|id D]; cbn [run_rx].
  - eapply safe_bind; [apply text_safe|]. intros s _.
    eapply safe_bind; [apply lit_typed|]. intros v Hv. exact Hv.
  - eapply safe_bind; [apply text_safe|]. intros s' _. destruct (s' =?s s); [constructor|exact I].
  - now apply Hcall.
Qed.
Lemma sub_sound x t e : rx_type p x t -> safe (has_type p t) (run_sub ops call x e).
Proof.
  intros H. unfold run_sub. eapply safe_bind; [eapply rx_sound; eassumption|]. intros [v c] Hv. exact Hv.
Qed.

Lemma while_look_sound fuel id x t e c : defined p id -> rx_type p x t ->
  safe (fun r => Forall (has_type p t) (fst r)) (while_look call look fuel id x e c).
Proof.
  intros D H. revert c. induction fuel as [|fuel IH]; intros c; cbn [while_look]; [exact I|].
  eapply safe_bind; [eapply Hlook; eassumption|]. intros [b c'] _. destruct b; [|constructor].
  eapply safe_bind; [eapply rx_sound; eassumption|]. intros [v c1] Hv.
  eapply safe_bind; [apply IH|]. intros [vs c2] Hvs. simpl. constructor; auto.
Qed.
Lemma while_next_sound fuel n ns x t c : rx_type p x t ->
  safe (fun r => Forall (has_type p t) (fst r)) (while_next ops call fuel n ns x c).
Proof.
  intros H. revert c. induction fuel as [|fuel IH]; intros c; cbn [while_next]; [exact I|].
  destruct (op_next ops n ns c) as [[k|] c']; [|constructor].
  eapply safe_bind; [eapply sub_sound; eassumption|]. intros v Hv.
  eapply safe_bind; [apply IH|]. intros [vs c2] Hvs. simpl. constructor; auto.
Qed.

Lemma fr_sound fuel f t e c : fr_type p f t -> safe (typed t) (run_fr ops call look fuel f e c).
Proof.
  intros H; destruct H as [x t H|id x opt t D H|id x t D H|n ns x opt t H|n ns x t H|n ns x t H|n ns x t H];
    cbn [run_fr].
  - now apply rx_sound.
  - eapply safe_bind; [eapply while_look_sound; eassumption|]. intros [vs c'] Hvs. now apply vec_typed.
  - eapply safe_bind; [eapply Hlook; eassumption|]. intros [b c'] _. destruct b; [|constructor].
    eapply safe_bind; [eapply rx_sound; eassumption|]. intros [v c1] Hv. now constructor.
  - eapply safe_bind; [eapply while_next_sound; eassumption|]. intros [vs c'] Hvs. now apply vec_typed.
  - destruct (op_next ops n ns c) as [[k|] c']; [|constructor].
    eapply safe_bind; [eapply sub_sound; eassumption|]. intros v Hv. now constructor.
  - destruct (op_child ops n ns c) as [[k|] c']; [|exact I].
    eapply safe_bind; [eapply sub_sound; eassumption|]. intros v Hv. exact Hv.
  - destruct (op_next ops n ns c) as [[k|] c']; [|exact I].
    eapply safe_bind; [eapply sub_sound; eassumption|]. intros v Hv. exact Hv.
Qed.

Definition field_typed (d : string * rty) (v : string * value) : Prop := fst d = fst v /\ has_type p (snd d) (snd v).

Lemma fields_sound fuel ds fs e c :
  Forall2 (fun d f => fst d = fst f /\ fr_type p (snd f) (snd d)) ds fs ->
  safe (fun r => Forall2 field_typed ds (fst r)) (run_fields ops call look fuel fs e c).
Proof.
  intros H. revert c. induction H as [|[d t] [f x] ds fs [E H] _ IH]; intros c; cbn [run_fields]; [constructor|].
  simpl in E, H. subst f.
  eapply safe_bind; [eapply fr_sound; eassumption|]. intros [v c1] Hv.
  eapply safe_bind; [apply IH|]. intros [vs c2] Hvs. simpl. constructor; [split; [reflexivity|exact Hv]|exact Hvs].
Qed.

Lemma ax_sound a t s : ax_type p a t -> safe (has_type p t) (run_ax p a s).
Proof.
  intros H. destruct H as [l| | |id En]; cbn [run_ax].
  - apply lit_typed.
  - constructor.
  - simpl. constructor. constructor.
  - destruct (enum_lookup _ En) as (t & vs & Lk & D). rewrite Lk, D.
    destruct (enum_from_str vs s) as [v| | |] eqn:E; simpl; auto.
    + apply enum_from_in in E. destruct E as (x & -> & I). econstructor; [exact Lk|]. rewrite D. now constructor.
    + eapply enum_no_panic; eauto.
Qed.

Lemma ra_sound a t e : ra_type p a t ->
  safe (fun r => fst r = ra_field a /\ has_type p t (snd r)) (run_ra p a e).
Proof.
  unfold ra_type, run_ra. destruct (ra_opt a).
  - intros (u & -> & H). destruct (d_attribute e (ra_xml a)) as [s|]; [|split; [reflexivity|constructor]].
    eapply safe_bind; [eapply ax_sound; eassumption|]. intros v Hv. split; [reflexivity|now constructor].
  - intros H. unfold d_try_attribute. destruct (d_attribute e (ra_xml a)) as [s|]; [|exact I]. simpl.
    eapply safe_bind; [eapply ax_sound; eassumption|]. intros v Hv. split; [reflexivity|exact Hv].
Qed.
Lemma ras_sound ds ats e : Forall2 (fun d a => fst d = ra_field a /\ ra_type p a (snd d)) ds ats ->
  safe (fun r => Forall2 field_typed ds r) (mapM (fun a => run_ra p a e) ats).
Proof.
  induction 1 as [|[d t] a ds ats [E H] _ IH]; cbn [mapM]; [constructor|]. simpl in E, H.
  eapply safe_bind; [apply ra_sound; exact H|]. intros [f v] [Ef Hv]. simpl in Ef, Hv.
  eapply safe_bind; [exact IH|]. intros vs Hvs. simpl. constructor; [|exact Hvs]. split; simpl; congruence.
Qed.

Lemma arms_sound fuel self vs arms e c : Forall (arm_type p vs) arms ->
  safe (fun r => has_decl p (DChoice vs) (fst r)) (run_arms ops call look fuel self arms e c).
Proof.
  intros H. revert c. induction H as [|a arms Ha _ IH]; intros c; cbn [run_arms]; [exact I|].
  destruct Ha as [v id x t D Iv H|v n ns x t Iv H|v n ns x t Iv H].
  - eapply safe_bind; [eapply Hlook; eassumption|]. intros [b c'] _. destruct b; [|apply IH].
    eapply safe_bind; [eapply rx_sound; eassumption|]. intros [w c1] Hw. simpl. econstructor; eauto.
  - destruct (op_peek ops n ns c) as [b c']. destruct b; [|apply IH].
    eapply safe_bind; [eapply while_next_sound; eassumption|]. intros [ws c1] Hw. simpl. econstructor; [exact Iv|].
    now constructor.
  - destruct (op_next ops n ns c) as [[k|] c']; [|apply IH].
    eapply safe_bind; [eapply sub_sound; eassumption|]. intros w Hw. simpl. econstructor; eauto.
Qed.

Lemma body_sound fuel t e c : read_ok p (ti_decl t) (ti_read t) ->
  safe (fun r => has_decl p (ti_decl t) (fst r)) (run_body ops p call look fuel t e c).
Proof.
  unfold run_body. intros H.
  destruct H as [u b x H|vs|ds1 ds2 fs ats H1 H2|vs arms H].
  - eapply safe_bind; [eapply rx_sound; eassumption|]. intros [v c1] Hv. now constructor.
  - eapply safe_bind; [apply text_safe|]. intros s _.
    destruct (enum_from_str vs s) as [v| | |] eqn:E; simpl; auto.
    + apply enum_from_in in E. destruct E as (x & -> & I). now constructor.
    + eapply enum_no_panic; eauto.
  - eapply safe_bind; [eapply fields_sound; eassumption|]. intros [vs c1] Hvs.
    eapply safe_bind; [eapply ras_sound; eassumption|]. intros avs Havs. simpl. constructor.
    apply Forall2_app; [exact Hvs|exact Havs].
  - now apply arms_sound.
Qed.

Lemma lk_sound l c : (forall id, In (LkCall id) l -> defined p id) -> safe (fun _ => True) (run_lk ops look l c).
Proof.
  revert c. induction l as [|[id|n ns] l IH]; intros c H; cbn [run_lk]; [exact I| |].
  - eapply safe_bind; [apply Hlook; apply H; now left|]. intros [b c'] _.
    destruct b; [exact I|]. apply IH. intros; apply H; now right.
  - destruct (op_peek ops n ns c) as [b c']. destruct b; [exact I|]. apply IH. intros; apply H; now right.
Qed.
End Open.

Lemma functions_in t : In t p -> functions_ok p t.
Proof. intros H. destruct OK as [_ F]. rewrite Forall_forall in F. auto. Qed.

Lemma look_sound fuel id c : defined p id -> safe (fun _ => True) (run_look ops p fuel id c).
Proof.
  revert id c. induction fuel as [|fuel IH]; intros id c D; cbn [run_look]; [exact I|].
  destruct (defined_lookup _ D) as (t & Lk & It & <-). rewrite Lk.
  destruct (functions_in t It) as (_ & _ & Lo). destruct Lo as [|l Hl]; [exact I|].
  now apply lk_sound.
Qed.
Lemma type_sound fuel id e c : defined p id -> safe (typed (TRef id)) (run_type ops p fuel id e c).
Proof.
  revert id e c. induction fuel as [|fuel IH]; intros id e c D; cbn [run_type]; [exact I|].
  destruct (defined_lookup _ D) as (t & Lk & It & Et). rewrite Lk.
  destruct (functions_in t It) as (Ro & _ & _).
  assert (B : safe (fun r => has_decl p (ti_decl t) (fst r)) (run_body ops p (run_type ops p fuel) (run_look ops p fuel) fuel t e c)).
  { apply body_sound; auto. intros; now apply look_sound. }
  destruct (run_body ops p (run_type ops p fuel) (run_look ops p fuel) fuel t e c) as [r| | |]; auto.
  simpl in *. econstructor; eauto.
Qed.
Lemma from_xml_sound fuel id e : defined p id -> safe (has_type p (TRef id)) (from_xml_with ops p fuel id e).
Proof.
  intros D. unfold from_xml_with. destruct (defined_lookup _ D) as (t & Lk & It & Et). rewrite Lk.
  unfold doc_try_child. destruct (has_name _ _ e); simpl; [|exact I].
  eapply safe_bind; [eapply type_sound; eassumption|]. intros [v c] Hv. exact Hv.
Qed.
End Decode.
End Sound.
