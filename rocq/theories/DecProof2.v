(** * DecProof2: whole documents *)
From Coq Require Import Permutation.
From Verif Require Import Base Libs Xml Ast Parse Decode Gen Run CursorSpec CursorProof GenSpec GenProof1
  DecSpec DecSim DecProof ReadSpec DecProof1 RepSpec RepProof.

Section Doc.
Context {L : Libs}.
Variables (gfuel : nat) (c : schema_ctx) (gs : list name) (p : program).
Hypothesis Gen : generated gfuel c gs p.

Lemma from_xml_stable id e f f' o : from_xml p f id e = o -> fin o -> f <= f' -> from_xml p f' id e = o.
Proof.
  intros H Fo Le. pose proof (le_from_xml real_ops p f f' id e Le) as M. unfold from_xml in *. rewrite H in M.
  destruct o; simpl in Fo; try contradiction; inversion M; congruence.
Qed.

Lemma decoder_spec n id e o : In n gs -> type_ident n = Ok id -> fin o ->
  ((exists fuel, from_xml p fuel id e = o) <-> read_doc c gs n e o).
Proof.
  intros I Ei Fo. destruct Gen as [Hp Hnd]. split.
  - intros (fuel & H). eapply read_doc_sound; eassumption.
  - intros H. destruct (read_doc_complete c gfuel gs p Hp Hnd _ _ _ _ Ei H) as (N & E). exists N. apply E. auto.
Qed.

Lemma decoder_det n e o o' : In n gs -> read_doc c gs n e o -> read_doc c gs n e o' -> o = o'.
Proof.
  intros I H H'. destruct Gen as [Hp Hnd].
  assert (X : exists id, type_ident n = Ok id).
  { assert (X : exists t, generate_element gfuel c n = Ok t).
    { apply mapM_ok in Hp. clear -Hp I. induction Hp as [|n0 t l p' Ht F IH]; [destruct I|].
      destruct I as [->|I]; [eauto|auto]. }
    destruct X as (t & G). apply generate_element_inv in G. destruct G as (el & id & d & w & xn & nss & ns & r & lk0 & _ & E & _). exists id. exact E. }
  destruct X as (id & Ei).
  destruct (read_doc_complete c gfuel gs p Hp Hnd _ _ _ _ Ei H) as (N & E).
  destruct (read_doc_complete c gfuel gs p Hp Hnd _ _ _ _ Ei H') as (N' & E').
  rewrite <- (E (N + N')), <- (E' (N + N')) by lia. reflexivity.
Qed.

Lemma read_leaves_missing pre f post e l vs l' ns : 
  read_leaves c gs pre e l (Ok (vs, l')) -> plain f -> single f -> required f -> ordered f ->
  quote_xml_namespace c (lf_name f) = Some ns -> next_is_not (nm (lf_name f)) ns l' ->
  read_leaves c gs (pre ++ f :: post) e l (Err (FeMissingElement (nm (lf_name f)) ns)).
Proof.
  intros H P S Rq O Q N. revert l vs H. induction pre as [|g pre IH]; intros l vs H; simpl.
  - inversion H; subst. apply rv_err. apply rl_missing; auto. now apply first_is_not.
  - inversion H; subst.
    match goal with X : rmap _ _ = Ok _ |- _ => apply rmap_ok in X; destruct X as ((vs' & l2) & -> & X); injection X as -> -> end.
    change (Err (FeMissingElement (nm (lf_name f)) ns)) with
      (rmap (with_rest (cons (i, v))) (Err (A := list (string * value) * list xelem) (FeMissingElement (nm (lf_name f)) ns))).
    eapply rv_cons; eauto.
Qed.

Lemma required_document n id d pre f post ns rns e vs l :
  In n gs -> type_ident n = Ok id ->
  sc_get c n = Some (RootElement d) -> ed_content d = Some (EcLeaves (pre ++ f :: post)) ->
  plain f -> single f -> required f -> ordered f -> xname c f (nm (lf_name f)) ns ->
  quote_xml_namespace c n = Some rns -> named (nm n) rns e ->
  read_leaves c gs pre e (xe_children e) (Ok (vs, l)) ->
  next_is_not (nm (lf_name f)) ns l ->
  eventually (fun fuel => from_xml p fuel id e = Err (FeMissingElement (nm (lf_name f)) ns)).
Proof.
  intros I Ei G Cd P S Rq O [_ Q] Qr Nr H N. destruct Gen as [Hp Hnd].
  apply (read_doc_complete c gfuel gs p Hp Hnd n id e); [exact Ei|].
  change (Err (FeMissingElement (nm (lf_name f)) ns)) with
    (rmap fst (Err (A := value * list xelem) (FeMissingElement (nm (lf_name f)) ns))).
  eapply rd_root; eauto; [now apply has_name_matches|]. apply rr_element_err. rewrite Cd. constructor.
  eapply read_leaves_missing; eassumption.
Qed.

Lemma shuffle_In {A} (a b l : list A) : shuffle a b l -> forall x, In x l <-> In x a \/ In x b.
Proof. induction 1 as [|y a b l S IH|y a b l S IH]; intros x; simpl; [tauto|rewrite IH; tauto|rewrite IH; tauto]. Qed.

Lemma rep_leaves_required ls vs e l f ns : rep_leaves c gs shuffle (leftovers shuffle) any_number ls vs e l -> In f ls ->
  plain f -> required f -> single f -> quote_xml_namespace c (lf_name f) = Some ns ->
  exists x, In x l /\ matches (nm (lf_name f)) ns x.
Proof.
  intros H. induction H as [e|g fs i v vs e l1 l2 l R Ei Rs IH S]; intros If P Rq Si Q; [destruct If|].
  destruct If as [->|If].
  - unfold plain, required, single in *. inversion R; subst; try congruence.
    assert (ns0 = ns) as -> by congruence.
    exists x. split; [|assumption]. apply (shuffle_In _ _ _ S). left. now left.
  - destruct (IH If P Rq Si Q) as (x & Ix & M). exists x. split; [|exact M]. apply (shuffle_In _ _ _ S). now right.
Qed.

Lemma never_defaulted n id d ls f ns e fuel v :
  In n gs -> type_ident n = Ok id -> sc_get c n = Some (RootElement d) -> ed_content d = Some (EcLeaves ls) ->
  In f ls -> plain f -> single f -> required f -> xname c f (nm (lf_name f)) ns ->
  from_xml p fuel id e = Ok v -> exists x, In x (xe_children e) /\ named (nm (lf_name f)) ns x.
Proof.
  intros I Ei G Cd If P S Rq [_ Q] H. destruct Gen as [Hp Hnd].
  pose proof (read_doc_sound c gfuel gs p Hp Hnd _ _ _ _ _ I Ei H Logic.I) as R. apply read_doc_shuffle in R.
  inversion R as [? rns r ? ? l ? Qr Nr G' Rr (rest & Sh)]; subst. rewrite G in G'. injection G' as <-.
  inversion Rr as [| |? ? vs avs ? ? Rf Ra|]; subst. rewrite Cd in Rf. inversion Rf; subst.
  match goal with X : rep_leaves _ _ _ _ _ _ _ _ _ |- _ =>
    destruct (rep_leaves_required _ _ _ _ _ _ X If P Rq S Q) as (x & Ix & M) end.
  exists x. split; [|exact M]. apply (shuffle_In _ _ _ Sh). now left.
Qed.

(** ** Choices *)
Lemma xnames_inj vs f g : NoDup (xnames c vs) -> In f vs -> In g vs ->
  nm (lf_name f) = nm (lf_name g) -> quote_xml_namespace c (lf_name f) = quote_xml_namespace c (lf_name g) -> f = g.
Proof.
  intros ND If Ig A B. unfold xnames in ND. revert ND If Ig. induction vs as [|h vs IH]; simpl; [tauto|].
  intros ND. inversion ND as [|? ? N1 N2]; subst.
  assert (K : (nm (lf_name f), quote_xml_namespace c (lf_name f)) = (nm (lf_name g), quote_xml_namespace c (lf_name g))) by congruence.
  intros [->|If] [->|Ig]; auto.
  - exfalso. apply N1. rewrite K. apply in_map_iff. eauto.
  - exfalso. apply N1. rewrite <- K. apply in_map_iff. eauto.
Qed.

Lemma choice_reach n vs f e x l ns o : Forall plain vs -> NoDup (xnames c vs) -> In f vs ->
  (forall g, In g vs -> quote_xml_namespace c (lf_name g) <> None) ->
  quote_xml_namespace c (lf_name f) = Some ns -> has_name (nm (lf_name f)) ns x = true ->
  (forall fs, read_choice c gs n (f :: fs) e (x :: l) o) -> read_choice c gs n vs e (x :: l) o.
Proof.
  intros P ND If Qs Q N H.
  assert (A : forall us, incl us vs -> In f us -> read_choice c gs n us e (x :: l) o).
  { induction us as [|g us IH]; intros Inc Iu; [destruct Iu|].
    assert (Ig : In g vs) by (apply Inc; now left).
    destruct (quote_xml_namespace c (lf_name g)) as [ns'|] eqn:Qg; [|exfalso; now apply (Qs g)].
    destruct (has_name (nm (lf_name g)) ns' x) eqn:Ng.
    - assert (f = g) as <-; [|apply H]. apply (xnames_inj vs); auto.
      + apply has_name_matches in N, Ng. destruct N, Ng. congruence.
      + apply has_name_matches in N, Ng. destruct N, Ng. congruence.
    - eapply rh_elem_no; eauto.
      + rewrite Forall_forall in P. now apply P.
      + apply IH; [intros y Iy; apply Inc; now right|]. destruct Iu as [->|Iu]; [|exact Iu].
        rewrite Qg in Q. injection Q as ->. congruence. }
  apply A; [apply incl_refl|exact If].
Qed.

Lemma choice_miss n id vs e l : type_ident n = Ok id -> Forall plain vs ->
  (forall g, In g vs -> quote_xml_namespace c (lf_name g) <> None) ->
  (forall f ns, In f vs -> quote_xml_namespace c (lf_name f) = Some ns -> next_is_not (nm (lf_name f)) ns l) ->
  read_choice c gs n vs e l (Err (FeMissingVariant id)).
Proof.
  intros Ei P Qs N. induction vs as [|g vs IH]; [now constructor|]. inversion P; subst.
  destruct (quote_xml_namespace c (lf_name g)) as [ns'|] eqn:Qg; [|exfalso; apply (Qs g); [now left|exact Qg]].
  eapply rh_elem_no; eauto.
  - apply first_is_not. apply N; [now left|exact Qg].
  - apply IH; auto.
    + intros h Ih. apply Qs. now right.
    + intros h ns Ih. apply N. now right.
Qed.

Lemma choice_quotes n d : In n gs -> sc_get c n = Some (RootChoice d) ->
  forall g, In g (cd_variants d) -> quote_xml_namespace c (lf_name g) <> None.
Proof.
  intros I G. destruct Gen as [Hp Hnd].
  assert (X : exists t, generate_element gfuel c n = Ok t).
  { apply mapM_ok in Hp. clear -Hp I. induction Hp as [|n0 t l p' Ht F IH]; [destruct I|].
    destruct I as [->|I]; [eauto|auto]. }
  destruct X as (t & Gt). destruct (item_of c gfuel gs n t I Gt) as (r & It).
  pose proof (it_get _ _ _ _ _ _ It) as G'. rewrite G in G'. injection G' as <-.
  pose proof (it_read _ _ _ _ _ _ It) as Hr. simpl in Hr. apply bind_ok in Hr. destruct Hr as (arms & Ea & _).
  apply mapM_ok in Ea. intros g Ig. clear -Ea Ig. induction Ea as [|v a vs arms E F IH]; [destruct Ig|].
  destruct Ig as [->|Ig]; [|auto]. unfold variant_from_xml in E. apply bind_ok in E. destruct E as (i & _ & E).
  apply bind_ok in E. destruct E as (x & _ & E). apply bind_ok in E. destruct E as (ns & E & _). apply xml_ns_ok in E. congruence.
Qed.

Lemma choice_reads n id d e s :
  In n gs -> type_ident n = Ok id -> sc_get c n = Some (RootChoice d) ->
  Forall plain (cd_variants d) -> NoDup (xnames c (cd_variants d)) ->
  (forall f i ns x l o, In f (cd_variants d) -> single f -> variant_ident (lf_name f) = Ok i ->
     xname c f (nm (lf_name f)) ns -> next_is (nm (lf_name f)) ns (remaining s) x l ->
     read_sub c gs (ld_content (lf_def f)) x o ->
     eventually (fun fuel => seen (run_type real_ops p fuel id e s) = rmap (fun w => (VChoice i w, l)) o))
  /\ (forall f i ns x l o, In f (cd_variants d) -> repeated f -> variant_ident (lf_name f) = Ok i ->
     xname c f (nm (lf_name f)) ns -> next_is (nm (lf_name f)) ns (remaining s) x l ->
     read_run c gs (nm (lf_name f)) ns (ld_content (lf_def f)) (remaining s) o ->
     eventually (fun fuel => seen (run_type real_ops p fuel id e s)
                             = rmap (with_rest (fun ws => VChoice i (VVec ws))) o))
  /\ ((forall f ns, In f (cd_variants d) -> xname c f (nm (lf_name f)) ns ->
         next_is_not (nm (lf_name f)) ns (remaining s)) ->
     eventually (fun fuel => seen (run_type real_ops p fuel id e s) = Err (FeMissingVariant id))).
Proof.
  intros I Ei G P ND. destruct Gen as [Hp Hnd]. pose proof (choice_quotes _ _ I G) as Qs.
  assert (Pf : forall f, In f (cd_variants d) -> lf_virtual f = false) by (intros f; rewrite Forall_forall in P; apply P).
  assert (D : forall o, read_choice c gs n (cd_variants d) e (remaining s) o ->
            eventually (fun fuel => seen (run_type real_ops p fuel id e s) = o)).
  { intros o H. destruct (complete_reads c gfuel gs p Hp Hnd) as (_ & _ & CR & _).
    destruct (CR n (RootChoice d) e (remaining s) o (rr_choice c gs n d e _ o H) I G id Ei) as (N & E).
    exists N. intros f Hf. rewrite <- (E f Hf), remaining_left, real_type, seen_left. reflexivity. }
  split; [|split].
  - intros f i ns x l o If S Ev [_ Q] [E M] R. apply has_name_matches in M.
    apply D. rewrite E. eapply (choice_reach n (cd_variants d) f); eauto.
    intros fs. eapply rh_elem; eauto.
  - intros f i ns x l o If S Ev [_ Q] [E M] R. apply has_name_matches in M.
    apply D. rewrite E. eapply (choice_reach n (cd_variants d) f); eauto.
    intros fs. eapply rh_run; eauto. rewrite <- E. exact R.
  - intros N. apply D. apply choice_miss; auto. intros f ns If Q. apply N; [exact If|]. split; [reflexivity|exact Q].
Qed.
End Doc.

Lemma described {L : Libs} gfuel c gs p n id e fuel v : generated gfuel c gs p -> In n gs -> type_ident n = Ok id ->
  from_xml p fuel id e = Ok v ->
  rep_doc c gs shuffle (leftovers shuffle) any_number n v e /\ (all_ordered c gs -> rep_doc c gs appended (leftovers appended) any_number n v e).
Proof.
  intros Gn I Ei H. assert (R : read_doc c gs n e (Ok v)).
  { eapply decoder_spec; eauto. exact Logic.I. }
  split; [now apply read_doc_shuffle|]. intros O. now apply read_doc_appended.
Qed.
