(** * RoundProof: writing and reading back *)
From Verif Require Import Base Libs Xml Ast Decode Writer Gen Run CursorSpec CursorProof GenSpec DecSpec DecSim DecProof DecProof1 DecProof2
  ReadSpec RepSpec RepProof WfSpec WfProof WfCheck EncSpec LlSpec LlProof CanonSpec CanonProof CanonProof2 StableSpec StableProof TypedCanon TermProof TotalProof RoundSpec.

Section Round.
Context {L : Libs}.
Variables (gfuel : nat) (c : schema_ctx) (gs : list name) (p : program).
Hypothesis Hg : generated gfuel c gs p.

Lemma round_trip vn F k n r id v : unambiguous_b c gs vn F = true -> writable_b c gs k = true -> entry_b c gs k n = true ->
  In n gs -> sc_get c n = Some r -> type_ident n = Ok id -> canon_root c gs vn n r v ->
  exists evs d, yields (fun fuel => to_xml p fuel id v) (Ok evs) /\ document evs = Some d
    /\ forall d', indented d d' -> yields (fun fuel => from_xml p fuel id d') (Ok v).
Proof.
  intros U W En I G Ei C. destruct (canon_doc gfuel c gs p vn k n r id v Hg W En I G Ei C) as (evs & d & We & De & R).
  exists evs, d. split; [exact We|]. split; [exact De|]. intros d' Hi. specialize (R d' Hi).
  apply (ll_doc c gs (same_ident gfuel c gs p Hg) vn F U) in R. destruct Hg as [Hp Hnd].
  exact (read_doc_complete c gfuel gs p Hp Hnd _ _ _ _ Ei R).
Qed.

Lemma decoded_canon n r id e fuel v : scalar_laws L -> fixed_ok c gs -> choices_ok c gs ->
  In n gs -> sc_get c n = Some r -> type_ident n = Ok id -> tidy e -> from_xml p fuel id e = Ok v -> canon_root c gs true n r v.
Proof.
  intros La Fx Ch I G Ei T H. destruct (described _ _ _ _ _ _ _ _ _ Hg I Ei H) as [R _].
  refine (doc_canon La c gs shuffle (leftovers shuffle) any_number (fun a b l => @shuffle_incl _ a b l) _ Fx Ch n v e r R G T).
  intros l all [rest S]. apply (shuffle_incl _ _ _ S).
Qed.

(** Everything written is an element of the schema. *)
Definition below (l : list xelem) : Prop := forall x, In x l -> schema_element c gs (xe_tag x) (xe_ns x) /\ all_schema c gs x.
Variable vn : bool.
Definition leaf_in (f : leaf) : Prop := exists n r, In n gs /\ sc_get c n = Some r /\ In f (leaves_of r).
Lemma leaf_elem f ns x : leaf_in f -> lf_virtual f = false -> quote_xml_namespace c (lf_name f) = Some ns ->
  matches (nm (lf_name f)) ns x -> schema_element c gs (xe_tag x) (xe_ns x).
Proof.
  intros (n & r & I & G & If) Vf Q [M1 M2]. exists n, r, f. rewrite M1. repeat split; auto. rewrite Q. congruence.
Qed.
Lemma below_app a b : below a -> below b -> below (a ++ b).
Proof. intros A B x X. apply in_app_or in X. destruct X; auto. Qed.
Lemma below_nil : below [].
Proof. intros x []. Qed.
Lemma below_one x : schema_element c gs (xe_tag x) (xe_ns x) -> all_schema c gs x -> below [x].
Proof. intros A B y [<-|[]]. auto. Qed.

Lemma rep_below :
  (forall ct v e l, rep_content c gs appended exactly (counted vn) ct v e l -> below l) /\
  (forall ct v x, rep_sub c gs appended exactly (counted vn) ct v x -> all_schema c gs x) /\
  (forall n r v e l, rep_root c gs appended exactly (counted vn) n r v e l -> (forall f, In f (leaves_of r) -> leaf_in f) -> below l) /\
  (forall ec vs e l, rep_fields c gs appended exactly (counted vn) ec vs e l ->
     (forall ls f, ec = Some (EcLeaves ls) -> In f ls -> leaf_in f) -> below l) /\
  (forall ls vs e l, rep_leaves c gs appended exactly (counted vn) ls vs e l -> (forall f, In f ls -> leaf_in f) -> below l) /\
  (forall f v e l, rep_leaf c gs appended exactly (counted vn) f v e l -> leaf_in f -> below l) /\
  (forall ct vs e l, rep_groups c gs appended exactly (counted vn) ct vs e l -> below l) /\
  (forall n ns ct vs l, rep_run c gs appended exactly (counted vn) n ns ct vs l ->
     (forall x, matches n ns x -> schema_element c gs (xe_tag x) (xe_ns x)) -> below l) /\
  (forall f v e l, rep_variant c gs appended exactly (counted vn) f v e l -> leaf_in f -> below l).
Proof.
  apply rep_ind; try (intros; apply below_nil; fail).
  - intros ct m n r v e l _ (I & G & _) _ IH. apply IH. intros f If. exists n, r. auto.
  - intros ct v x l _ IH E. constructor. red in E. rewrite E. exact IH.
  - auto.
  - intros n d vs avs e l _ IH _ H. apply IH. intros ls f E If. apply H. simpl. now rewrite E.
  - intros n d f i w e l If _ _ IH H. apply IH, H, If.
  - auto.
  - intros ls vs e l _ IH H. apply IH. intros f If. eapply H; eauto.
  - intros f fs i v vs e l1 l2 l _ IH1 _ _ IH2 -> H. apply below_app; [apply IH1, H; now left|apply IH2; intros g Ig; apply H; now right].
  - auto.
  - auto.
  - auto.
  - intros f ns vs e l Vf _ Q _ IH _ Hf. apply IH. intros x. now apply leaf_elem.
  - intros f ns v x e Vf _ _ Q M _ IH Hf. apply below_one; [eapply leaf_elem; eauto|exact IH].
  - intros f ns v x e Vf _ _ Q M _ IH Hf. apply below_one; [eapply leaf_elem; eauto|exact IH].
  - intros ct v vs e l1 l2 l _ IH1 _ IH2 ->. now apply below_app.
  - intros n ns ct v vs x l M _ IH1 _ IH2 H y [<-|Iy]; [split; auto|apply IH2; auto].
  - auto.
  - intros f ns w ws e l Vf _ Q _ IH Hf. apply IH. intros x. now apply leaf_elem.
  - intros f ns w x e Vf _ Q M _ IH Hf. apply below_one; [eapply leaf_elem; eauto|exact IH].
Qed.

Lemma doc_all_schema n v e : rep_doc c gs appended exactly (counted vn) n v e ->
  xe_tag e = nm n /\ quote_xml_namespace c n = Some (xe_ns e) /\ all_schema c gs e.
Proof.
  intros [n' ns r v' e' l I Q [M1 M2] G R K]. split; [congruence|]. split; [congruence|]. constructor. red in K. rewrite K.
  destruct rep_below as (_ & _ & X & _). eapply X; eauto. intros f If. exists n', r. auto.
Qed.

(** The attributes of the base type. *)
Lemma base_attrs n v e d b d0 m nb db : rep_doc c gs appended exactly (counted vn) n v e ->
  sc_get c n = Some (RootElement d) -> ed_content d = Some (EcLeaf b d0) -> ld_content d0 = LcNamed m ->
  type_of c gs m nb (RootElement db) ->  final c (LcNamed m) (LcNamed m) ->
  exists f bvs bavs avs, v = VStruct ((f, VStruct (bvs ++ bavs)) :: avs) /\ field_ident b = Ok f
    /\ rep_attrs c gs (ed_attributes db) bavs e /\ rep_attrs c gs (ed_attributes d) avs e.
Proof.
  intros [n' ns r v' e' l I Q M G R K] G' E C T Fm. rewrite G in G'. injection G' as ->.
  inversion R as [| |n1 d1 vs avs e1 l1 Rf Ra|]; subst. rewrite E in Rf.
  inversion Rf as [|b1 d1 f v1 e1 l1 Ef Rc|]; subst. rewrite C in Rc.
  inversion Rc as [ct lit s v2 e2 Hf|ct s e2 Hf|ct m2 n2 r2 v2 e2 l2 Hf T2 R2]; subst.
  - pose proof (final_det _ _ _ _ Hf Fm). discriminate.
  - pose proof (final_det _ _ _ _ Hf Fm). discriminate.
  - pose proof (final_det _ _ _ _ Hf Fm) as X. injection X as ->.
    destruct (type_det c gs (same_ident gfuel c gs p Hg) _ _ _ _ _ T T2) as [-> <-].
    inversion R2; subst. do 4 eexists. split; [reflexivity|]. auto.
Qed.
End Round.

(** ** Lookahead *)
Lemma starts_recognised {L : Libs} gfuel c gs p k m id f e s v s2 : generated gfuel c gs p -> all_ordered c gs ->
  sees_starts c gs k m = true -> look_ident m = Ok id -> type_ident m = Ok id ->
  run_type real_ops p f id e s = Ok (v, s2) -> remaining s2 <> remaining s ->
  exists N, forall f', N <= f' -> exists s1, run_look real_ops p f' id s = Ok (true, s1) /\ remaining s1 = remaining s.
Proof.
  intros G O S El Et H Ne. unfold sees_starts in S. destruct (glooks c gs k m) as [lk|] eqn:Lk; [|discriminate].
  destruct (gstart c gs true k m) as [[fi nu]|] eqn:St; [|discriminate].
  assert (H' : run_type list_ops p f id e (remaining s) = Ok (v, remaining s2)).
  { rewrite !remaining_left, real_type, H. reflexivity. }
  destruct (sound_type c gfuel gs p (proj1 G) f id e _ _ H' Logic.I) as (n & r & In' & Gn & En & Rr).
  assert (Gm : is_group c gs m) by (eapply start_group; eauto).
  destruct (group_type _ _ _ Gm) as (r' & G' & T & Go).
  assert (R : exists l, appended l (remaining s2) (remaining s) /\
    rep_root c gs appended (leftovers appended) any_number n r v e l).
  { pose proof (read_rep c gs appended) as RR. unfold appended in RR at 1 2 3 4 5 6 7 8.
    specialize (RR (fun l => eq_refl) (fun x l => eq_refl)).
    assert (A1 : forall k1 l1 l k2 l2 : list xelem, l = k1 ++ l1 -> l1 = k2 ++ l2 -> exists k, k = k1 ++ k2 /\ l = k ++ l2).
    { intros k1 l1 l k2 l2 -> ->. exists (k1 ++ k2). rewrite app_assoc. auto. }
    specialize (RR A1).
    assert (A2 : forall x (k0 l l' : list xelem), l = k0 ++ l' -> x :: l = (x :: k0) ++ l') by (intros x k0 l l' ->; reflexivity).
    specialize (RR A2).
    destruct RR as (_ & _ & RR & _).
    { intros n0 r0 f0 I0 G0 If U. rewrite (O _ _ _ I0 G0 If) in U. discriminate. }
    destruct (RR _ _ _ _ _ Rr) with (v := v) (l' := remaining s2) as (l & A & B); eauto.
    apply Forall_forall. intros f0 If U. rewrite (O _ _ _ In' Gn If) in U. discriminate. }
  destruct R as (l & Al & R). red in Al.
  destruct T as (Im & Gm' & id' & A & B). assert (n = m). { apply (same_ident gfuel c gs p G n m id); auto. }
  subst n. assert (r' = r) by congruence. subst r'.
  assert (Sl : starts l fi nu).
  { destruct (firsts_all c gs (same_ident gfuel c gs p G) true (leftovers appended) any_number) as (FC & _).
    - intros f0 vs _ X. discriminate.
    - eapply (FC (LcNamed m) v e l); [|reflexivity|exact St]. eapply pc_named; eauto; [now apply group_final_self with (gs := gs)|].
      split; [exact Im|]. split; [exact Gm'|]. exists id. auto. }
  destruct l as [|x l]; [simpl in Al; congruence|]. simpl in Sl.
  assert (Lg : look_group c gs m (remaining s) true).
  { replace true with (head_in lk (remaining s)); [eapply looks_ok; eauto|]. rewrite Al. simpl. apply mem_qn.
    unfold subset in S. rewrite forallb_forall in S. apply mem_qn. apply S. exact Sl. }
  destruct (complete_look c gfuel gs p (proj1 G) (proj2 G) _ _ _ _ Lg El) as [N Hl]. exists N. intros f' Hf. specialize (Hl f' Hf).
  rewrite remaining_left, real_look in Hl.
  destruct (run_look real_ops p f' id s) as [[b s1]| | |]; try discriminate. injection Hl as -> Hs. exists s1. split; [reflexivity|].
  rewrite !remaining_left. exact Hs.
Qed.
