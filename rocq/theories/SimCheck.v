(** * SimCheck: a computable check of [all_name] *)
From Verif Require Import Base Libs Xml Ast Decode Gen Run CursorSpec DecSpec ReadSpec RepSpec SimSpec WfSpec WfProof WfCheck.

Section Check.
Context {L : Libs}.
Variable c : schema_ctx.
Variable gs : list name.

Definition all_leaf_b (f : leaf) : bool :=
  negb (lf_virtual f) && negb (lf_is_vec f) && negb (lf_is_optional f) && lf_unordered f.
Definition all_root_b (r : root) : bool :=
  match r with
  | RootElement d => match ed_content d with Some (EcLeaves ls) => forallb all_leaf_b ls | _ => false end
  | _ => false
  end.
Definition all_content_b (ct : leaf_content) : bool :=
  match final_b c 10 ct, ct with
  | Some (LcNamed m), _ =>
      forallb (fun n => match type_ident m, type_ident n, sc_get c n with
                        | Ok i, Ok j, Some r => negb (i =?s j) || all_root_b r
                        | _, _, _ => true
                        end) gs
  | _, _ => false
  end.
Definition named_b (t : string) (ns : option string) (n : name) : bool :=
  (nm n =?s t) && match quote_xml_namespace c n with Some q => opt_eqb String.eqb q ns | None => false end.
Definition all_name_b (t : string) (ns : option string) : bool :=
  forallb (fun m => match sc_get c m with
    | Some r =>
        forallb (fun f => lf_virtual f || negb (named_b t ns (lf_name f)) || all_content_b (ld_content (lf_def f))) (leaves_of r)
        && (negb (named_b t ns m) || all_root_b r
            || match r with RootLeaf d => all_content_b (ld_content d) | _ => false end)
    | None => true
    end) gs.

Lemma named_ok t ns n : nm n = t -> quote_xml_namespace c n = Some ns -> named_b t ns n = true.
Proof.
  intros <- Q. unfold named_b. rewrite Q, String.eqb_refl. simpl.
  apply (opt_eqb_eq String.eqb String.eqb_eq). reflexivity.
Qed.

Lemma all_root_ok r : all_root_b r = true -> all_root r.
Proof.
  unfold all_root_b, all_root. destruct r as [d|ns|d|d]; try discriminate.
  destruct (ed_content d) as [[|ls]|] eqn:E; try discriminate. intros H. exists d, ls. repeat split; auto.
  rewrite forallb_forall in H. apply Forall_forall. intros f If. specialize (H f If). unfold all_leaf_b in H.
  rewrite !andb_true_iff, !negb_true_iff in H. unfold all_leaf, plain, single, required, anywhere. intuition.
Qed.

Lemma all_content_ok ct : all_content_b ct = true -> all_content c gs ct.
Proof.
  unfold all_content_b. destruct (final_b c 10 ct) as [[l|m|s]|] eqn:F; try discriminate. intros H.
  apply final_b_ok in F. split; [eauto|]. intros m' n r F' (I & G & id & E1 & E2).
  pose proof (final_b_det _ _ _ _ F F') as E. injection E as <-.
  rewrite forallb_forall in H. specialize (H n I). rewrite E1, E2, G, String.eqb_refl in H. now apply all_root_ok.
Qed.

Lemma all_name_ok t ns : all_name_b t ns = true -> all_name c gs t ns.
Proof.
  unfold all_name_b. rewrite forallb_forall. intros H. split.
  - intros m r f I G If V N Q. specialize (H m I). rewrite G in H. apply andb_true_iff in H. destruct H as [H _].
    rewrite forallb_forall in H. specialize (H f If). rewrite V, (named_ok _ _ _ N Q) in H. now apply all_content_ok.
  - intros n r I G N Q. specialize (H n I). rewrite G in H. apply andb_true_iff in H. destruct H as [_ H].
    rewrite (named_ok _ _ _ N Q) in H. simpl in H. apply orb_true_iff in H. destruct H as [H|H].
    + left. now apply all_root_ok.
    + right. destruct r; try discriminate. eauto using all_content_ok.
Qed.
End Check.
