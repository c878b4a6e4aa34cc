(** * ParseMain: the lemmas about whole documents and files *)
From Verif Require Import Base Libs Xml Ast XsdNode Parse Gen ParseSpec MiscSpec MiscProof ParseProof ParseFiles ParseGen.

Lemma snake_go_ascii : forall full n prev first, Forall (fun c => nat_of_ascii c < 128) full ->
  Forall (fun c => nat_of_ascii c < 128) (snake_go full n prev first).
Proof.
  assert (U : nat_of_ascii "_"%char < 128) by (vm_compute; repeat constructor).
  assert (Lw : forall c, nat_of_ascii c < 128 -> nat_of_ascii (ascii_lower c) < 128).
  { intros c. destruct c as [[] [] [] [] [] [] [] []]; vm_compute; lia. }
  induction full as [|c rest IH]; intros n prev first H; destruct n; try apply Forall_nil. simpl.
  inversion H; subst. destruct (negb _).
  - destruct first; [now apply IH|]. apply Forall_cons; [exact U|now apply IH].
  - destruct (andb _ _); repeat (apply Forall_cons; auto).
Qed.
Lemma list_string l : list_ascii_of_string (string_of_list_ascii l) = l.
Proof. induction l; simpl; congruence. Qed.
Lemma ascii_libs_snake : snake_keeps_ascii ascii_libs.
Proof.
  intros s H. unfold ascii_only in *. simpl. unfold snake_ascii. rewrite list_string. now apply snake_go_ascii.
Qed.

Section Main.
Context {L : Libs}.

Lemma parse_settles f d path : no_loads d -> settles (fun fuel => schema_parse fuel f (Some d) path).
Proof. intros H. apply doc_settles. intros c a Hc Hl _. now apply H in Hl. Qed.

Lemma file_parse_settles f path : includes_end f path -> settles (fun fuel => parse_file fuel f path).
Proof. intros H. apply file_settles; [exact H|discriminate]. Qed.

Lemma schema_parse_none fuel load f d path : no_loads d ->
  forall e, parse_with fuel load f (Some d) path None = Err e -> exists x, e = SeXsd x path.
Proof.
  intros H e. unfold parse_with. pose proof (no_load_schema_err fuel load f d (fs_parent f path) None H) as K.
  destruct (parse_schema_with _ _ _ _ _ _) as [s|[e'|e']|w|]; simpl; try discriminate.
  - now destruct (K e').
  - intros E. injection E as <-. eauto.
Qed.

Lemma parse_no_panic fuel f d path w : no_loads d -> ascii_attrs d -> snake_keeps_ascii L ->
  schema_parse fuel f (Some d) path <> Panic w.
Proof.
  intros N A Sn E.
  (* the other files do not matter: use an empty file system *)
  set (g := mkFs (fun _ => None) (fs_push f) (fs_parent f)).
  assert (E' : schema_parse fuel g (Some d) path = Panic w).
  { rewrite <- E. unfold schema_parse, parse_with. f_equal. unfold parse_schema_with.
    destruct (negb _); [reflexivity|]. simpl.
    assert (K : forall cs load load' c, Forall (fun x => ~ is_load (n_elem x)) cs ->
      schema_children fuel load g (fs_parent f path) cs c = schema_children fuel load' f (fs_parent f path) cs c).
    { induction cs as [|x cs IH]; intros load load' c F; [reflexivity|]. inversion F; subst. simpl.
      unfold schema_child. destruct (orb _ _) eqn:O; [now apply orb_load in O|].
      destruct (n_try_attribute x "name") as [[a x']|?|?|]; simpl; try reflexivity.
      destruct (root_parse _ _ _ _) as [[r c1]|?|?|]; simpl; try reflexivity. now apply IH. }
    rewrite (K _ _ (fun p s => parse_file_with_context fuel f p (Some s))); [reflexivity|].
    now apply (no_loads_nodes d). }
  pose proof (doc_ok g True (fun _ p d' R => ltac:(discriminate R)) (fun _ => Sn) fuel d path (fun _ => A)) as K.
  rewrite E' in K. tauto.
Qed.

Lemma parse_returns f d path : no_loads d -> ascii_attrs d -> snake_keeps_ascii L ->
  exists bound r, ((exists s, r = Ok s) \/ (exists e, r = Err e))
    /\ forall fuel, bound <= fuel -> schema_parse fuel f (Some d) path = r.
Proof.
  intros N A Sn. destruct (parse_settles f d path N) as (b & r & Hr & K). exists b, r. split; [|exact K].
  destruct r as [s|e|w|]; [left; eauto|right; eauto| |congruence].
  now destruct (parse_no_panic b f d path w N A Sn (K b (Nat.le_refl b))).
Qed.

Lemma parse_error_located fuel f d path e : no_loads d ->
  schema_parse fuel f (Some d) path = Err e -> exists x, e = SeXsd x path /\ error_in d x.
Proof.
  intros N E. destruct (schema_parse_none _ _ _ _ _ N _ E) as [x ->]. exists x. split; [reflexivity|].
  pose proof (schema_ok f False (fun H => False_ind _ H) (fun H => False_ind _ H) d (fun H => False_ind _ H) fuel _
    (fs_parent f path) None (file_ok f False (fun H => False_ind _ H) (fun H => False_ind _ H) fuel)) as K.
  assert (HS : forall s, @None shared_ctx = Some s -> ns_wf (sh_namespaces s)) by discriminate.
  specialize (K HS). unfold schema_parse, parse_with in E.
  destruct (parse_schema_with _ _ _ _ _ _) as [s|[e'|e']|w|] eqn:Q; simpl in *; try discriminate.
  - exfalso. eapply no_load_schema_err; eauto.
  - injection E as ->. exact K.
Qed.
Lemma file_error_located fuel f path e : parse_file fuel f path = Err e -> error_in_files f e.
Proof.
  intros E. destruct fuel as [|fuel]; [discriminate|]. unfold parse_file in E. simpl in E.
  destruct (fs_read f path) as [doc|] eqn:R; [|injection E as <-; exact R].
  destruct doc as [d|]; [|simpl in E; injection E as <-; left; auto].
  pose proof (doc_ok f False (fun H => False_ind _ H) (fun H => False_ind _ H) fuel d path (fun H => False_ind _ H)) as K.
  unfold schema_parse in K. rewrite E in K. destruct e as [x p|p|n].
  - destruct K as [[-> K]|K]; [right; eauto|exact K].
  - exact K.
  - exact K.
Qed.

Lemma parsed_inv fuel f d path s : schema_parse fuel f (Some d) path = Ok s -> Inv (ctx_of s).
Proof.
  intros E.
  pose proof (doc_ok f False (fun H => False_ind _ H) (fun H => False_ind _ H) fuel d path (fun H => False_ind _ H)) as K.
  now rewrite E in K.
Qed.
Lemma parsed_file_inv fuel f path s : parse_file fuel f path = Ok s -> Inv (ctx_of s).
Proof.
  destruct fuel as [|fuel]; [discriminate|]. unfold parse_file. simpl.
  destruct (fs_read f path) as [[d|]|]; [apply parsed_inv|discriminate|discriminate].
Qed.
Lemma generate_panics gfuel s w : Inv (ctx_of s) -> generate_all gfuel s = Panic w -> identifier_panic w.
Proof. intros I E. pose proof (gok_all gfuel s I) as K. now rewrite E in K. Qed.
Lemma closure_panics gfuel s n already w : Inv (ctx_of s) ->
  generate_element_and_dependencies gfuel s n already = Panic w -> identifier_panic w.
Proof. intros I E. pose proof (gok_closure gfuel s n already I) as K. now rewrite E in K. Qed.
End Main.
