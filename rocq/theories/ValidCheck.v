(** * ValidCheck: a (sound) test for valid documents, for the examples

    A backtracking matcher: the lists of children that can be left after a content. *)
From Verif Require Import Base Libs Xml Ast Decode Gen Run CursorSpec CursorProof LitSpec DecSpec DecSim DecProof RepSpec WfSpec WfCheck LlSpec LlProof ValidSpec.

Section Check.
Context {L : Libs}.
Variable c : schema_ctx.
Variable gs : list name.

Definition lexical_b (ct : leaf_content) (s : string) : bool :=
  match final_b c (chain_fuel c) ct with
  | Some (LcLiteral lit) => match lit_from_str lit s with Ok _ => true | _ => false end
  | Some (LcFixed t) => t =?s s
  | Some (LcNamed m) => match type_b c gs m with Some (_, RootEnum names) => mem String.eqb s (map nm names) | _ => false end
  | None => false
  end.
Definition text_b (e : xelem) : option string :=
  match xe_kids e with
  | [] => Some ""
  | KText s :: ks => if forallb (fun k => match k with KOther _ => true | _ => false end) ks then Some s else None
  | _ => None
  end.
Definition attr_valid_b (a : attribute) (e : xelem) : bool :=
  match d_attribute e (nm (a_name a)) with
  | None => a_optional a
  | Some s => lexical_b (a_content a) s
  end.
Definition allowed_b (f : leaf) (k : nat) : bool :=
  (lf_min f <=? N.of_nat k)%N && match lf_max f with MaxNumber m => (N.of_nat k <=? m)%N | MaxUnbounded => true end.

Section Open.
  Variable vc : leaf_content -> xelem -> list xelem -> list (list xelem).
  Definition vonce (f : leaf) (e : xelem) (l : list xelem) : list (list xelem) :=
    if lf_virtual f then vc (ld_content (lf_def f)) e l
    else match l, quote_xml_namespace c (lf_name f) with
         | x :: l, Some ns =>
             if has_name (nm (lf_name f)) ns x &&
                existsb (fun r => match r with [] => true | _ => false end) (vc (ld_content (lf_def f)) x (xe_children x))
             then [l] else []
         | _, _ => []
         end.
  (** Exactly [k] times. *)
  Fixpoint vtimes (f : leaf) (k : nat) (e : xelem) (l : list xelem) : list (list xelem) :=
    match k with O => [l] | S k => flat_map (vtimes f k e) (vonce f e l) end.
  Definition vparticle (f : leaf) (e : xelem) (l : list xelem) : list (list xelem) :=
    flat_map (fun k => if allowed_b f k then vtimes f k e l else []) (seq 0 (S (length l + N.to_nat (lf_min f)))).
  Fixpoint vsequence (ls : list leaf) (e : xelem) (l : list xelem) : list (list xelem) :=
    match ls with [] => [l] | f :: ls => flat_map (vsequence ls e) (vparticle f e l) end.
  Definition vtype (r : root) (e : xelem) (l : list xelem) : list (list xelem) :=
    match r with
    | RootLeaf d => vc (ld_content d) e l
    | RootEnum names => match text_b e with Some s => if mem String.eqb s (map nm names) then [l] else [] | None => [] end
    | RootElement d =>
        if forallb (fun a => attr_valid_b a e) (ed_attributes d) then
          match ed_content d with
          | None => [l]
          | Some (EcLeaf _ d) => vc (ld_content d) e l
          | Some (EcLeaves ls) => vsequence ls e l
          end
        else []
    | RootChoice d => flat_map (fun f => vparticle f e l) (cd_variants d)
    end.
End Open.
Fixpoint vcontent (k : nat) (ct : leaf_content) (e : xelem) (l : list xelem) : list (list xelem) :=
  match k with
  | O => []
  | S k =>
      (match text_b e with Some s => if lexical_b ct s then [l] else [] | None => [] end) ++
      match final_b c (chain_fuel c) ct with
      | Some (LcNamed m) => match type_b c gs m with Some (_, r) => vtype (vcontent k) r e l | None => [] end
      | _ => []
      end
  end.
Definition valid_doc_b (k : nat) (n : name) (e : xelem) : bool :=
  mem name_eqb n gs &&
  match quote_xml_namespace c n, sc_get c n with
  | Some ns, Some r => has_name (nm n) ns e &&
      existsb (fun r => match r with [] => true | _ => false end) (vtype (vcontent k) r e (xe_children e))
  | _, _ => false
  end.
Definition required_b : bool := each_root c gs (fun _ r =>
  match r with RootChoice d => forallb (fun f => negb (lf_is_optional f)) (cd_variants d) | _ => true end).

Lemma mem_in s l : mem String.eqb s l = true -> In s l.
Proof.
  induction l as [|x l IH]; simpl; [discriminate|]. destruct (String.eqb_spec s x) as [->|N]; [now left|]. intros H. right. auto.
Qed.
Lemma lexical_ok ct s : lexical_b ct s = true -> lexical c gs ct s.
Proof.
  unfold lexical_b. destruct (final_b c (chain_fuel c) ct) as [[lit|m|t]|] eqn:F; try discriminate; apply final_b_ok in F.
  - destruct (lit_from_str lit s) eqn:E; try discriminate. intros _. eapply lx_literal; eauto.
  - destruct (type_b c gs m) as [[n [d|names|d|d]]|] eqn:T; try discriminate. apply type_b_ok in T.
    intros H. apply mem_in in H. eapply lx_enum; eauto.
  - intros H. apply String.eqb_eq in H. subst t. now apply lx_fixed.
Qed.
Lemma text_ok e s : text_b e = Some s -> only_text e s.
Proof.
  unfold text_b. destruct (xe_kids e) as [|[x|t|t] ks] eqn:K; try discriminate; [intros [= <-]; now left|].
  destruct (forallb _ ks) eqn:F; [|discriminate]. intros [= <-]. right. exists ks. split; [exact K|].
  apply Forall_forall. intros k Ik. rewrite forallb_forall in F. specialize (F k Ik). destruct k; try discriminate. eauto.
Qed.
Lemma attr_ok a e : attr_valid_b a e = true -> valid_attr c gs true a e.
Proof.
  unfold attr_valid_b. destruct (d_attribute e (nm (a_name a))) as [s|] eqn:D; unfold valid_attr; rewrite D; intros H; [left; now apply lexical_ok|exact H].
Qed.
Lemma allowed_ok f k : allowed_b f k = true -> allowed f k.
Proof.
  unfold allowed_b, allowed. intros H. apply andb_prop in H. destruct H as [H1 H2]. apply N.leb_le in H1. split; [exact H1|].
  destruct (lf_max f); [now apply N.leb_le|exact I].
Qed.

(** [out P l rest]: [rest] is left of [l] after something satisfying [P]. *)
Definition out (P : list xelem -> Prop) (l : list xelem) (r : list (list xelem)) : Prop :=
  forall rest, In rest r -> exists l1, l = l1 ++ rest /\ P l1.

Section Sound.
  Variable vc : leaf_content -> xelem -> list xelem -> list (list xelem).
  Hypothesis Hv : forall ct e l, out (valid_content c gs appended exactly allowed only_text true ct e) l (vc ct e l).

  Lemma whole_ok (r : list (list xelem)) l P : out P l r -> existsb (fun r => match r with [] => true | _ => false end) r = true -> P l.
  Proof.
    intros O H. apply existsb_exists in H. destruct H as ([|x y] & I & E); [|discriminate].
    destruct (O _ I) as (l1 & -> & Hl). now rewrite app_nil_r.
  Qed.
  Lemma vonce_ok f e l : out (valid_once c gs appended exactly allowed only_text true f e) l (vonce vc f e l).
  Proof.
    unfold vonce. destruct (lf_virtual f) eqn:Vf.
    - intros rest I. destruct (Hv _ _ _ _ I) as (l1 & E & H). exists l1. split; [exact E|]. now apply vo_group.
    - destruct l as [|x l]; [intros ? []|]. destruct (quote_xml_namespace c (lf_name f)) as [ns|] eqn:Q; [|intros ? []].
      destruct (has_name _ _ _ && _) eqn:E; [|intros ? []]. apply andb_prop in E. destruct E as [E1 E2].
      intros rest [<-|[]]. exists [x]. split; [reflexivity|]. apply vo_element with (ns := ns) (l := xe_children x); auto; [now apply has_name_matches| |reflexivity].
      eapply whole_ok; [apply Hv|exact E2].
  Qed.
  Lemma vtimes_ok f e k : forall l, out (valid_times c gs appended exactly allowed only_text true f k e) l (vtimes vc f k e l).
  Proof.
    induction k as [|k IH]; intros l rest I; simpl in I.
    - destruct I as [<-|[]]. exists []. split; [reflexivity|constructor].
    - apply in_flat_map in I. destruct I as (m & I1 & I2). destruct (vonce_ok _ _ _ _ I1) as (l1 & -> & H1).
      destruct (IH _ _ I2) as (l2 & -> & H2). exists (l1 ++ l2). split; [now rewrite app_assoc|econstructor; eauto; reflexivity].
  Qed.
  Lemma vparticle_ok f e l : out (valid_particle c gs appended exactly allowed only_text true f e) l (vparticle vc f e l).
  Proof.
    intros rest I. unfold vparticle in I. apply in_flat_map in I. destruct I as (k & _ & I).
    destruct (allowed_b f k) eqn:A; [|destruct I]. destruct (vtimes_ok _ _ _ _ _ I) as (l1 & E & H). exists l1.
    split; [exact E|]. econstructor; eauto. now apply allowed_ok.
  Qed.
  Lemma vsequence_ok ls e : forall l, out (valid_sequence c gs appended exactly allowed only_text true ls e) l (vsequence vc ls e l).
  Proof.
    induction ls as [|f ls IH]; intros l rest I; simpl in I.
    - destruct I as [<-|[]]. exists []. split; [reflexivity|constructor].
    - apply in_flat_map in I. destruct I as (m & I1 & I2). destruct (vparticle_ok _ _ _ _ I1) as (l1 & -> & H1).
      destruct (IH _ _ I2) as (l2 & -> & H2). exists (l1 ++ l2). split; [now rewrite app_assoc|econstructor; eauto; reflexivity].
  Qed.
  Lemma vtype_ok r e l : out (valid_type c gs appended exactly allowed only_text true r e) l (vtype vc r e l).
  Proof.
    intros rest I. destruct r as [d|names|d|d]; simpl in I.
    - destruct (Hv _ _ _ _ I) as (l1 & E & H). exists l1. split; [exact E|now constructor].
    - destruct (text_b e) as [s|] eqn:T; [|destruct I]. destruct (mem _ _ _) eqn:M; [|destruct I]. destruct I as [<-|[]].
      exists []. split; [reflexivity|]. econstructor; [apply mem_in; exact M|now apply text_ok].
    - destruct (forallb _ _) eqn:A; [|destruct I]. rewrite forallb_forall in A.
      assert (X : exists l1, l = l1 ++ rest /\ valid_fields c gs appended exactly allowed only_text true (ed_content d) e l1).
      { destruct (ed_content d) as [[n0 d0|ls]|].
        - destruct (Hv _ _ _ _ I) as (l1 & E & H). exists l1. split; [exact E|now constructor].
        - destruct (vsequence_ok _ _ _ _ I) as (l1 & E & H). exists l1. split; [exact E|now constructor].
        - destruct I as [<-|[]]. exists []. split; [reflexivity|constructor]. }
      destruct X as (l1 & E & H). exists l1. split; [exact E|]. constructor; [exact H|]. intros a Ia. apply attr_ok. auto.
    - apply in_flat_map in I. destruct I as (f & If & I). destruct (vparticle_ok _ _ _ _ I) as (l1 & E & H).
      exists l1. split; [exact E|]. econstructor; eauto.
  Qed.
End Sound.

Lemma vcontent_ok k : forall ct e l, out (valid_content c gs appended exactly allowed only_text true ct e) l (vcontent k ct e l).
Proof.
  induction k as [|k IH]; intros ct e l rest I; cbn [vcontent] in I; [destruct I|]. apply in_app_or in I. destruct I as [I|I].
  - destruct (text_b e) as [s|] eqn:T; [|destruct I]. destruct (lexical_b ct s) eqn:Lx; [|destruct I]. destruct I as [<-|[]].
    exists []. split; [reflexivity|]. eapply va_text; [apply lexical_ok; exact Lx|now apply text_ok].
  - destruct (final_b c (chain_fuel c) ct) as [[lit|m|t]|] eqn:F; try (now destruct I); apply final_b_ok in F.
    destruct (type_b c gs m) as [[n r]|] eqn:T; [|destruct I]. apply type_b_ok in T.
    destruct (vtype_ok _ IH _ _ _ _ I) as (l1 & E & H). exists l1. split; [exact E|]. eapply va_type; eauto.
Qed.
Lemma valid_doc_b_ok k n e : valid_doc_b k n e = true -> valid_document c gs n e.
Proof.
  unfold valid_doc_b. intros H. apply andb_prop in H. destruct H as [H1 H].
  destruct (quote_xml_namespace c n) as [ns|] eqn:Q; [|discriminate]. destruct (sc_get c n) as [r|] eqn:G; [|discriminate].
  apply andb_prop in H. destruct H as [H2 H]. apply vd with (ns := ns) (r := r) (l := xe_children e); auto.
  - clear -H1. induction gs as [|x l IH]; simpl in *; [discriminate|].
    destruct (name_eqb n x) eqn:E; [left; symmetry; now apply name_eqb_eq|right; auto].
  - now apply has_name_matches.
  - eapply whole_ok; [eapply vtype_ok, vcontent_ok|exact H].
  - reflexivity.
Qed.
Lemma required_ok : required_b = true -> variants_required c gs.
Proof.
  intros H n d f I G If. apply (each_root_ok _ _ _ _ _ H I) in G. simpl in G. rewrite forallb_forall in G.
  specialize (G f If). now apply negb_true_iff in G.
Qed.
End Check.
