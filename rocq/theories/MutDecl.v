(** * MutDecl: the generated text as a whole declares what it changes (C82) *)
From Verif Require Import Base Libs Xml Ast Gen Run Emit Quote Impl Rust Body RustSpec EmitSpec EmitProof GramSpec GramProof GramRead GramWrite GramItem MutSpec MutProof MutWrite.

Lemma type_R t : type_names t -> forall Q r E b, after_mut b = false -> call_ok E b [] = true ->
  (forall b', clear b' -> runs Q r (mkState E b' None [] false)) -> runs Q (rty_tokens t ++ r) (mkState E b None [] false).
Proof.
  induction t as [q| |id|t IH|t IH]; cbn [type_names rty_tokens]; intros N Q r E b A C H.
  - destruct q; cbn [prim_tokens app]; run.
  - cbn [app]. apply W_paren; [exact C|run|]. apply H. clears.
  - cbn [app]. run.
  - cbn [app]. rewrite <- app_assoc. do 2 (eapply W_leaf; [solves|exact I|unfold after, expect; cbn [st_vars st_before st_let st_next st_fn]]).
    apply IH; [exact N|reflexivity|reflexivity|]. intros b' [B' A']. cbn [app]. run.
  - cbn [app]. rewrite <- app_assoc. do 2 (eapply W_leaf; [solves|exact I|unfold after, expect; cbn [st_vars st_before st_let st_next st_fn]]).
    apply IH; [exact N|reflexivity|reflexivity|]. intros b' [B' A']. cbn [app]. run.
Qed.
Lemma type_passes t E : type_names t -> passes (rty_tokens t) E.
Proof. intros N. rewrite <- (app_nil_r (rty_tokens t)). apply type_R; auto. intros b C. apply W_nil. discriminate. Qed.
Lemma docs_Q d : Seq (doc_tokens d).
Proof.
  destruct d as [s|]; [|apply Q_nil]. unfold doc_tokens. destruct (is_empty s); [apply Q_nil|]. intros Q r E b [B A] H. cbn [app]. run.
Qed.
Lemma field_decl_Q d f : keyword (fst f) = false -> type_names (snd f) -> Seq (field_tokens d f).
Proof.
  intros K N. unfold field_tokens. apply Q_app; [apply docs_Q|]. intros Q r E b [B A] H. rewrite <- !app_assoc. cbn [app].
  do 3 (eapply W_leaf; [solves|exact I|unfold after, expect; cbn [st_vars st_before st_let st_next st_fn]]).
  apply type_R; [exact N|reflexivity|reflexivity|]. intros b' [B' A']. run.
Qed.
Definition decl_names (d : decl) : Prop :=
  match d with
  | DTuple t _ => type_names t
  | DEnum vs => Forall (fun v => keyword (fst v) = false) vs
  | DStruct fs | DChoice fs => Forall (fun f => keyword (fst f) = false /\ type_names (snd f)) fs
  end.
Lemma declaration_L r d E : decl_names d -> match declaration_tokens r d with
  | Gr "{" l :: [] => passes l E
  | Gr "(" l :: Pu ";" :: [] => passes l E
  | _ => False end.
Proof.
  intros N. destruct d as [t k|vs|fs|vs]; cbn [decl_names declaration_tokens] in *.
  - unfold passes, enter. eapply W_leaf; [solves|exact I|unfold after, expect; cbn [st_vars st_before st_let st_next st_fn]].
    rewrite <- (app_nil_r (rty_tokens t)). apply type_R; auto. intros b C. apply W_nil. discriminate.
  - apply L_passes, Q_is_last, Q_flat. eapply Forall_impl; [|exact N]. intros v K Q s E' b [B A] H. cbn beta in K. cbn [app]. run.
  - apply L_passes, Q_is_last. rewrite <- flat_map_concat_map. apply Q_flat, Forall_forall. intros [o f] J.
    apply in_combine_r in J. rewrite Forall_forall in N. destruct (N f J). now apply field_decl_Q.
  - apply L_passes, Q_is_last, Q_flat. eapply Forall_impl; [|exact N]. intros v [K T] Q s E' b [B A] H. unfold variant_tokens. cbn [app].
    pose proof (fun E => type_passes (snd v) E T). pose proof B as B'. unfold bare in B'. apply negb_true_iff, orb_false_iff in B' as [B1 B2]. run.
Qed.
Lemma item_Q r t : keyword (ti_id t) = false -> decl_names (ti_decl t) -> Seq (item_tokens r t).
Proof.
  intros K N. unfold item_tokens. apply Q_app; [apply docs_Q|]. intros Q l E b [B A] H.
  pose proof (declaration_L r (ti_decl t) E N) as D. rewrite <- !app_assoc. cbn [app].
  destruct (ti_decl t) as [ty k|vs|fs|vs]; cbn [declaration_tokens] in *; (destruct r; cbn [app]; run).
Qed.
Lemma element_Q r t : item_names t -> decl_names (ti_decl t) -> Seq (element_tokens r t).
Proof.
  intros (R & S & L & W & V) D. pose proof R as ((K & _) & _). unfold element_tokens, impl_tokens.
  apply Q_app; [now apply item_Q|]. apply Q_app; [now apply conversion_Q|]. apply Q_app; [now apply to_xml_Q|].
  apply Q_app; [now apply from_xml_Q|now apply lookahead_Q].
Qed.
Lemma module_passes l : Forall (fun d => item_names (snd d) /\ decl_names (ti_decl (snd d))) l -> mut_ok (module_tokens l) = true.
Proof.
  intros H. assert (P : passes (module_tokens l) []).
  { apply L_passes, Q_is_last. unfold module_tokens. apply Q_flat. eapply Forall_impl; [|exact H]. intros [r t] [N D]. now apply element_Q. }
  unfold mut_ok. unfold passes, runs, through in P. destruct (walks (module_tokens l) (enter [])); [reflexivity|contradiction].
Qed.
Section Names.
Variable p : program.
Hypothesis OK : rust_ok p.
Lemma names_of_type t : type_ok p t -> type_names t.
Proof.
  induction 1 as [q| |id D|t _ IH|t _ IH]; cbn [type_names]; auto.
  apply in_map_iff in D as (t & <- & J). destruct OK as [[_ Hn _ _] _]. rewrite Forall_forall in Hn. destruct (Hn t J) as (P & _). now apply keyword_plain.
Qed.
Lemma names_of_decls : Forall (fun t => decl_names (ti_decl t)) p.
Proof.
  assert (M : forall fs, members_ok p fs -> Forall (fun f => keyword (fst f) = false /\ type_names (snd f)) fs).
  { intros fs (_ & P & T). rewrite Forall_forall in *. intros f J. split; [apply keyword_plain, P, in_map, J|apply names_of_type, T, in_map, J]. }
  destruct OK as [[_ _ Hd _] _]. eapply Forall_impl; [|exact Hd]. intros t D. destruct D as [ty k T _|vs _ _ P|fs Hm|vs _ Hm]; cbn [decl_names]; auto.
  - now apply names_of_type.
  - rewrite Forall_forall in *. intros v J. apply keyword_plain, P, in_map, J.
Qed.
End Names.
