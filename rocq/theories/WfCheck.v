(** * WfCheck: deciding [compiles] and [grounded] *)
From Verif Require Import Base Libs Xml Ast Parse Decode Gen Run DecSpec RepSpec WfSpec.

Section Check.
Context {L : Libs}.
Variable c : schema_ctx.
Variable gs : list name.

Fixpoint final_b (fuel : nat) (ct : leaf_content) : option leaf_content :=
  match ct with
  | LcNamed m =>
      match sc_get c m with
      | Some (RootLeaf d) => match fuel with O => None | S fuel => final_b fuel (ld_content d) end
      | _ => Some ct
      end
  | _ => Some ct
  end.
Definition chain_fuel : nat := S (length (sc_elements c)).

Definition ident_is (id : string) (n : name) : bool :=
  match type_ident n with Ok id' => id =?s id' | _ => false end.
Definition type_b (m : name) : option (name * root) :=
  match type_ident m with
  | Ok id => match find (ident_is id) gs with
             | Some n => match sc_get c n with Some r => Some (n, r) | None => None end
             | None => None
             end
  | _ => None
  end.
Definition is_group_b (m : name) : bool :=
  mem name_eqb m gs &&
  match type_ident m, look_ident m with Ok a, Ok b => a =?s b | _, _ => false end &&
  match sc_get c m with Some (RootElement _) | Some (RootChoice _) => true | _ => false end.

Definition each_root (P : name -> root -> bool) : bool :=
  forallb (fun n => match sc_get c n with Some r => P n r | None => true end) gs.

Definition groups_b : bool := each_root (fun _ r =>
  forallb (fun f => if lf_virtual f then match ld_content (lf_def f) with LcNamed m => is_group_b m | _ => false end
                    else true) (leaves_of r)).
Definition content_b (ct : leaf_content) : bool :=
  match final_b chain_fuel ct with
  | Some (LcNamed m) => match type_b m with Some _ => true | None => false end
  | Some _ => true
  | None => false
  end.
Definition refs_b : bool := each_root (fun _ r => forallb content_b (contents r)).
Definition attr_b (a : attribute) : bool :=
  match a_content a with
  | LcNamed m => match final_b chain_fuel (LcNamed m) with
                 | Some (LcLiteral l) => match lit_prim l with PString => true | _ => false end
                 | Some (LcNamed m') => match type_b m' with Some (_, RootEnum _) => true | _ => false end
                 | _ => false
                 end
  | _ => true
  end.
Definition attrs_b : bool := each_root (fun _ r => forallb attr_b (attributes_of r)).
Definition choices_b : bool := each_root (fun _ r =>
  match r with RootChoice d => forallb (fun f => negb (lf_virtual f && lf_is_vec f)) (cd_variants d) | _ => true end).
Definition compiles_b : bool := groups_b && refs_b && attrs_b && choices_b.

(** Ranks by iteration; the check only looks at the result. *)
Definition here_types (r : root) : list name :=
  flat_map (fun ct => match final_b chain_fuel ct with
                      | Some (LcNamed m) => match type_b m with Some (n, _) => [n] | None => [] end
                      | _ => []
                      end) (here_contents r).
Definition rank_of (tab : list (name * nat)) (n : name) : nat :=
  match aget name_eqb n tab with Some k => k | None => 0 end.
Fixpoint rank_table (k : nat) : list (name * nat) :=
  match k with
  | O => []
  | S k => let tab := rank_table k in
           map (fun n => (n, match sc_get c n with
                             | Some r => S (list_max (map (rank_of tab) (here_types r)))
                             | None => 0
                             end)) gs
  end.
Definition grounded_b : bool :=
  let tab := rank_table (S (length gs)) in
  each_root (fun n r => forallb (fun n' => Nat.ltb (rank_of tab n') (rank_of tab n)) (here_types r)).

Lemma final_b_ok fuel : forall ct ct', final_b fuel ct = Some ct' -> final c ct ct'.
Proof.
  induction fuel as [|fuel IH]; intros [l|m|s] ct' H; simpl in H; try (injection H as <-; constructor).
  - destruct (sc_get c m) as [[d|ns|d|d]|] eqn:G; try discriminate; injection H as <-; constructor; congruence.
  - destruct (sc_get c m) as [[d|ns|d|d]|] eqn:G; try (injection H as <-; constructor; congruence).
    eapply fi_alias; eauto.
Qed.
Lemma final_b_det ct a b : final c ct a -> final c ct b -> a = b.
Proof.
  intros H. revert b. induction H as [lit|s|m N|m d ct G F IH]; intros b K; inversion K; subst; auto.
  - exfalso. eapply N; eauto.
  - exfalso. eapply H0; eauto.
  - rewrite H0 in G. injection G as <-. auto.
Qed.
Lemma type_b_ok m n r : type_b m = Some (n, r) -> type_of c gs m n r.
Proof.
  unfold type_b. destruct (type_ident m) as [id| | |] eqn:E; try discriminate.
  destruct (find (ident_is id) gs) as [n'|] eqn:F; try discriminate.
  destruct (sc_get c n') as [r'|] eqn:G; try discriminate. intros H. injection H as <- <-.
  apply find_some in F. destruct F as [I F]. unfold ident_is in F.
  destruct (type_ident n') as [id'| | |] eqn:E'; try discriminate. apply String.eqb_eq in F. subst id'.
  repeat split; eauto.
Qed.
Lemma each_root_ok P n r : each_root P = true -> In n gs -> sc_get c n = Some r -> P n r = true.
Proof.
  unfold each_root. rewrite forallb_forall. intros H I G. specialize (H n I). simpl in H. now rewrite G in H.
Qed.
Lemma is_group_b_ok m : is_group_b m = true -> is_group c gs m.
Proof.
  unfold is_group_b. rewrite !andb_true_iff. intros [[A B] C]. split; [|split].
  - clear -A. induction gs as [|y l IH]; simpl in A; [discriminate|]. apply orb_true_iff in A. destruct A as [A|A].
    + apply name_eqb_eq in A. left. congruence.
    + right. auto.
  - destruct (type_ident m) as [a| | |]; try discriminate. destruct (look_ident m) as [b| | |]; try discriminate.
    apply String.eqb_eq in B. subst. eauto.
  - destruct (sc_get c m) as [[d|ns|d|d]|]; try discriminate; eauto.
Qed.

Lemma compiles_b_ok : compiles_b = true -> compiles c gs.
Proof.
  unfold compiles_b. rewrite !andb_true_iff. intros [[[A B] C] D]. constructor.
  - intros n r f I G If V. pose proof (each_root_ok _ _ _ A I G) as H. simpl in H. rewrite forallb_forall in H.
    specialize (H f If). rewrite V in H. destruct (ld_content (lf_def f)) as [l|m|s]; try discriminate.
    exists m. split; [reflexivity|]. now apply is_group_b_ok.
  - intros n r ct m I G Ic F. pose proof (each_root_ok _ _ _ B I G) as H. simpl in H. rewrite forallb_forall in H.
    specialize (H ct Ic). unfold content_b in H. destruct (final_b chain_fuel ct) as [ct'|] eqn:E; [|discriminate].
    apply final_b_ok in E. rewrite (final_b_det _ _ _ E F) in H.
    destruct (type_b m) as [[n' r']|] eqn:T; [|discriminate]. apply type_b_ok in T. eauto.
  - intros n r a I G Ia. pose proof (each_root_ok _ _ _ C I G) as H. simpl in H. rewrite forallb_forall in H.
    specialize (H a Ia). unfold attr_b in H. unfold attribute_ok. destruct (a_content a) as [l|m|s]; auto.
    destruct (final_b chain_fuel (LcNamed m)) as [ct'|] eqn:E; [|discriminate]. apply final_b_ok in E.
    destruct ct' as [l|m'|s]; [| |discriminate].
    + left. exists l. split; [exact E|]. destruct (lit_prim l); try discriminate. reflexivity.
    + right. destruct (type_b m') as [[n' [d|names|d|d]]|] eqn:T; try discriminate. apply type_b_ok in T.
      exists m', n', names. auto.
  - intros n d f I G If V. pose proof (each_root_ok _ _ _ D I G) as H. simpl in H. rewrite forallb_forall in H.
    specialize (H f If). rewrite V in H. simpl in H. now apply negb_true_iff in H.
Qed.

Lemma grounded_b_ok : (forall n m id, In n gs -> In m gs -> type_ident n = Ok id -> type_ident m = Ok id -> n = m) ->
  refs_b = true -> grounded_b = true -> grounded c gs.
Proof.
  intros Inj B H. exists (rank_of (rank_table (S (length gs)))). intros n r ct m n' r' I G Ih F T.
  unfold grounded_b in H. pose proof (each_root_ok _ _ _ H I G) as K. cbv beta in K. rewrite forallb_forall in K.
  apply Nat.ltb_lt. apply K. unfold here_types. apply in_flat_map. exists ct. split; [exact Ih|].
  assert (Ic : In ct (contents r)).
  { clear -Ih. destruct r as [d|ns|d|d]; simpl in *; auto.
    - destruct (ed_content d) as [[n0 d0|ls]|]; auto. apply in_map_iff in Ih. destruct Ih as (f & <- & X).
      apply filter_In in X. apply in_map_iff. exists f. tauto.
    - apply in_map_iff in Ih. destruct Ih as (f & <- & X).
      apply filter_In in X. apply in_map_iff. exists f. tauto. }
  pose proof (each_root_ok _ _ _ B I G) as Q. cbv beta in Q. rewrite forallb_forall in Q. specialize (Q ct Ic).
  unfold content_b in Q. destruct (final_b chain_fuel ct) as [ct'|] eqn:E; [|discriminate].
  apply final_b_ok in E. rewrite (final_b_det _ _ _ E F) in *.
  destruct (type_b m) as [[n2 r2]|] eqn:Tb; [|discriminate]. apply type_b_ok in Tb.
  left. destruct T as (I1 & _ & id1 & A1 & A2). destruct Tb as (I2 & _ & id2 & B1 & B2).
  apply (Inj n2 n' id1); auto. congruence.
Qed.
End Check.
