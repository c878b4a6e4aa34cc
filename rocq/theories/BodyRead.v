(** * BodyRead: the generated readers, run as Rust, do what Run.v says *)
From Verif Require Import Base Libs Xml Ast Decode Writer Gen Run RustSpec Rust Body RustRules BodySpec.
From Coq Require Import Lia.

(** ** The heap *)
Lemma set_nth_same {A} l (a : A) : forall k, k < length l -> nth_error (set_nth k a l) k = Some a.
Proof. induction l as [|x l IH]; intros [|k] H; simpl in *; try lia; [reflexivity|]. apply IH. lia. Qed.
Lemma set_nth_other {A} l (a : A) : forall k j, j <> k -> nth_error (set_nth k a l) j = nth_error l j.
Proof. induction l as [|x l IH]; intros [|k] [|j] H; simpl; auto; congruence. Qed.
Lemma set_nth_length {A} l (a : A) : forall k, length (set_nth k a l) = length l.
Proof. induction l as [|x l IH]; intros [|k]; simpl; auto. Qed.
Lemma nth_lt {A} (l : list A) k a : nth_error l k = Some a -> k < length l.
Proof. intros H. apply nth_error_Some. congruence. Qed.

(** The node [l] is [n] now; the other nodes are as before. *)
Definition moved (l : nat) (n : xelem * children) (s s' : state) : Prop :=
  nth_error (s_nodes s') l = Some n
  /\ (forall k m, k <> l -> nth_error (s_nodes s) k = Some m -> nth_error (s_nodes s') k = Some m)
  /\ s_inners s' = s_inners s /\ s_out s' = s_out s /\ s_text s' = s_text s.

Lemma moved_refl l n s : nth_error (s_nodes s) l = Some n -> moved l n s s.
Proof. repeat split; auto. Qed.
Lemma moved_trans l n1 n2 s s1 s2 : moved l n1 s s1 -> moved l n2 s1 s2 -> moved l n2 s s2.
Proof.
  intros (A1 & B1 & C1 & D1 & E1) (A2 & B2 & C2 & D2 & E2). repeat split; auto; try congruence.
Qed.
Lemma moved_set l n n' s : nth_error (s_nodes s) l = Some n' -> moved l n s (set_node l n s).
Proof.
  intros H. repeat split; simpl.
  - apply set_nth_same. eapply nth_lt; eauto.
  - intros k m Hk Hm. now rewrite set_nth_other.
Qed.
(** A child is taken and worked on. *)
Lemma moved_child l n n' k s m s2 : nth_error (s_nodes s) l = Some n' ->
  let s1 := snd (new_node k (set_node l n s)) in
  nth_error (s_nodes s1) (length (s_nodes s)) = Some (k, children_new k)
  /\ (moved (length (s_nodes s)) m s1 s2 -> moved l n s s2).
Proof.
  intros H s1. pose proof (nth_lt _ _ _ H) as Lt.
  assert (Old : forall j, j < length (s_nodes s) -> nth_error (s_nodes s1) j = nth_error (set_nth l n (s_nodes s)) j).
  { intros j Hj. simpl. apply nth_error_app1. now rewrite set_nth_length. }
  split.
  - simpl. rewrite nth_error_app2; rewrite set_nth_length; [|lia]. now rewrite Nat.sub_diag.
  - intros (A & B & C & D & F). repeat split; auto.
    + apply B; [lia|]. rewrite Old by lia. now apply set_nth_same.
    + intros j q Hj Hq. pose proof (nth_lt _ _ _ Hq). apply B; [lia|]. rewrite Old by lia. now rewrite set_nth_other.
Qed.
Lemma moved_new l n n' k s : nth_error (s_nodes s) l = Some n' -> moved l n s (snd (new_node k (set_node l n s))).
Proof.
  intros H. destruct (moved_child l n n' k s (k, children_new k) (snd (new_node k (set_node l n s))) H) as [A B].
  apply B. now apply moved_refl.
Qed.

Section Read.
Context {L : Libs}.
Variable p : program.
Hypothesis OK : rust_ok p.
Hypothesis Nv : no_function_variant p.
Notation fns := (module_fn p).

(** ** What the compiler's checks give *)
Lemma found id t : lookup_item p id = Some t -> In t p /\ ti_id t = id.
Proof. intros H. apply find_some in H. destruct H as [I E]. split; auto. now apply String.eqb_eq. Qed.
Lemma names id t : lookup_item p id = Some t -> item_name_ok t.
Proof. intros H. apply found in H. destruct H as [I _]. destruct OK as [[_ N _ _] _]. rewrite Forall_forall in N. now apply N. Qed.
Lemma functions id t : lookup_item p id = Some t -> functions_ok p t.
Proof. intros H. apply found in H. destruct H as [I _]. destruct OK as [_ N]. rewrite Forall_forall in N. now apply N. Qed.
Lemma not_self id t : lookup_item p id = Some t -> (id =?s "Self") = false.
Proof.
  intros H. pose proof (names _ _ H) as (K & _). apply found in H. destruct H as [_ <-].
  apply String.eqb_neq. intros E. apply K. rewrite E. simpl. tauto.
Qed.
Lemma no_prelude_type x : In x prelude_types -> lookup_item p x = None.
Proof.
  intros I. destruct (lookup_item p x) as [t|] eqn:H; auto. pose proof (names _ _ H) as (_ & K & _).
  apply found in H. destruct H as [_ <-]. contradiction.
Qed.
Lemma no_prelude_value x : In x prelude_values -> is_tuple_struct p x = false.
Proof.
  intros I. unfold is_tuple_struct. destruct (lookup_item p x) as [t|] eqn:H; auto. pose proof (names _ _ H) as (_ & _ & K).
  apply found in H. destruct H as [_ <-]. destruct (ti_decl t) as [ty b| | |] eqn:E; auto. exfalso. apply K; [now exists ty, b|exact I].
Qed.
Lemma no_variant id f : In f function_names -> variant_of p id f = false.
Proof.
  intros I. unfold variant_of. destruct (lookup_item p id) as [t|] eqn:H; auto. apply found in H. destruct H as [It _].
  pose proof (fun w Iw => Nv t w It Iw) as K. unfold variants_of in K.
  destruct (ti_decl t) as [| | |]; auto; destruct (mem String.eqb f _) eqn:M; auto;
    apply (mem_In String.eqb String.eqb_eq) in M; elim (K _ M I).
Qed.

Lemma fn_item id f args s r s' : fn_to p fns id f args s r s' -> exists t, lookup_item p id = Some t.
Proof.
  intros [F H]. specialize (H F (le_n _) []). unfold call_fn, module_fn in H. destruct (lookup_item p id); [eauto|discriminate].
Qed.

Section Self.
Variable self : string.
Notation evals := (evals p fns self).
Notation args_to := (args_to p fns self).

Lemma ev_item_fn id f args E s rs E1 s1 r s2 : In f function_names -> args_to args E s rs E1 s1 ->
  fn_to p fns id f rs s1 r s2 -> evals (ECall (PAssoc id f) None args) E s (Val r E1 s2).
Proof.
  intros I A H. destruct (fn_item _ _ _ _ _ _ H) as [t Ht]. pose proof (not_self _ _ Ht) as Ns.
  eapply ev_call_fn; [exact A|rewrite Ns..]; auto. now apply no_variant. congruence.
Qed.
Lemma ev_some e E s v E1 s1 : evals e E s (Val (D v) E1 s1) -> evals (some e) E s (Val (D (VSome v)) E1 s1).
Proof.
  intros H. eapply ev_call_name; [apply args_one; exact H|]. unfold name_call. rewrite no_prelude_value by (simpl; tauto). reflexivity.
Qed.
Lemma ev_some_ret e E s r s1 : evals e E s (Ret r s1) -> evals (some e) E s (Ret r s1).
Proof. intros H. apply ev_call_ret. now apply args_one_ret. Qed.
Lemma ev_noneof E s : evals none E s (Val NoneOf E s).
Proof. apply ev_none. apply no_prelude_value. simpl. tauto. Qed.
Lemma ev_ok e E s r E1 s1 : evals e E s (Val r E1 s1) -> evals (ECall (PName "Ok") None [e]) E s (Val (ROk r) E1 s1).
Proof.
  intros H. eapply ev_call_name; [apply args_one; exact H|]. unfold name_call. rewrite no_prelude_value by (simpl; tauto). reflexivity.
Qed.
Lemma ev_ok_ret e E s r s1 : evals e E s (Ret r s1) -> evals (ECall (PName "Ok") None [e]) E s (Ret r s1).
Proof. intros H. apply ev_call_ret. now apply args_one_ret. Qed.
Lemma ev_err e E s r E1 s1 : evals e E s (Val r E1 s1) -> evals (ECall (PName "Err") None [e]) E s (Val (RErr r) E1 s1).
Proof.
  intros H. eapply ev_call_name; [apply args_one; exact H|]. unfold name_call. rewrite no_prelude_value by (simpl; tauto). reflexivity.
Qed.
Lemma ev_vec_new E s : evals (ECall (PAssoc "Vec" "new") None []) E s (Val (D (VVec [])) E s).
Proof. eapply ev_call_prelude; [discriminate|apply args_nil|apply no_prelude_type; simpl; tauto|reflexivity]. Qed.
Lemma ev_box e E s E1 s1 : evals e E s (Val ParseErr E1 s1) -> evals (ECall (PAssoc "Box" "new") None [e]) E s (Val ParseErr E1 s1).
Proof. intros H. eapply ev_call_prelude; [discriminate|apply args_one; exact H|apply no_prelude_type; simpl; tauto|reflexivity]. Qed.
Lemma ev_ns ns E s : exists r, evals (ns_code ns) E s (Val r E s) /\ opt_str r = Some ns.
Proof.
  destruct ns as [u|]; simpl.
  - exists (D (VSome (VStr u))). split; auto. apply ev_some, ev_str.
  - exists NoneOf. split; auto. apply ev_noneof.
Qed.
Lemma ev_str_of e E s t E1 s1 : evals e E s (Val (D (VStr t)) E1 s1) -> evals (str_of e) E s (Val (D (VStr t)) E1 s1).
Proof. intros H. eapply ev_method; [exact H|apply args_nil|discriminate|reflexivity]. Qed.
Lemma ev_into e E s x E1 s1 : evals e E s (Val (Er x) E1 s1) -> evals (call e "into" []) E s (Val (Er x) E1 s1).
Proof. intros H. eapply ev_method; [exact H|apply args_nil|discriminate|reflexivity]. Qed.
(** A block around a value. *)
Lemma ev_value_block e E s r s1 : evals e E s (Val r E s1) -> evals (value_block e) E s (Val r E s1).
Proof. intros H. eapply (ev_block _ _ _ _ _ _ _ []); [apply st_nil|exact H|reflexivity]. Qed.
Lemma stms_some ev l : forall E s k r E' s', eval_stms ev l E s k = Val r E' s' -> exists E1 s1, k E1 s1 = Val r E' s'.
Proof.
  induction l as [|[x e|e] l IH]; intros E s k r E' s' H; cbn [eval_stms] in H; [eauto|..];
    (destruct (ev e E s); cbn [obind] in H; try discriminate; eauto).
Qed.
Lemma stms_same ev l k k' : (forall E s, k E s = k' E s) -> forall E s, eval_stms ev l E s k = eval_stms ev l E s k'.
Proof.
  intros K. induction l as [|[x e|e] l IH]; intros E s; cbn [eval_stms]; auto; (destruct (ev e E s); cbn [obind]; auto).
Qed.
Lemma stms_snoc ev l e k : forall E s, eval_stms ev (l ++ [SExpr e]) E s k = eval_stms ev l E s (fun E s => obind (ev e E s) (fun _ E s => k E s)).
Proof.
  induction l as [|[x e'|e'] l IH]; intros E s; cbn [eval_stms app]; auto; (destruct (ev e' E s); cbn [obind]; auto).
Qed.
Lemma block_unit n l e E s w E' s' : (e = EUnit \/ forall E s w E' s', eval p fns n self e E s = Val w E' s' -> w = D VUnit) ->
  eval p fns (S n) self (EBlock l e) E s = Val w E' s' -> w = D VUnit.
Proof.
  intros He H. cbn [eval] in H. unfold leave in H.
  destruct (eval_stms _ _ _ _ _) as [r E1 s1| | |] eqn:H1; cbn [obind] in H; try discriminate. injection H as <- _ _.
  apply stms_some in H1 as (E2 & s2 & H1). destruct He as [->|He]; [|eauto]. destruct n; cbn [eval] in H1; congruence.
Qed.
(** The value of such an expression. *)
Lemma unit_tail_value n : forall e E s w E' s', unit_tail e = true -> eval p fns n self e E s = Val w E' s' -> w = D VUnit.
Proof.
  induction n as [n IH] using lt_wf_ind. intros e E s w E' s' U H. destruct n as [|n]; [discriminate|].
  assert (Bl : forall m t E s w E' s', m <= n -> match t with EBlock _ EUnit => true | EBlock _ e => unit_tail e | _ => false end = true ->
    eval p fns m self t E s = Val w E' s' -> w = D VUnit).
  { clear - IH. intros m t E s w E' s' Hm Ut Ht. destruct t; try discriminate Ut. destruct m as [|m]; [discriminate|].
    eapply block_unit; [|exact Ht]. destruct t; auto; right; intros; eapply (IH m); eauto; lia. }
  assert (Un : forall m E s w E' s', eval p fns m self EUnit E s = Val w E' s' -> w = D VUnit).
  { intros [|m] *; cbn [eval]; congruence. }
  destruct e; try discriminate U; cbn [eval] in H.
  - destruct e3; try discriminate U. destruct (eval p fns n self e1 E s) as [r E1 s1| | |]; cbn [obind] in H; try discriminate.
    destruct r as [[]| | | | | | | | | | | | | | |]; try discriminate. destruct b; [eapply (Bl n); eauto|eapply Un; eauto].
  - destruct e3; try discriminate U. destruct (eval p fns n self e1 E s) as [r E1 s1| | |]; cbn [obind] in H; try discriminate.
    destruct (matches_pat p0 r); try discriminate; [|eapply Un; eauto].
    unfold leave in H. destruct (eval p fns n self e2 (E0 ++ E1) s1) as [r2 E2 s2| | |] eqn:H2; cbn [obind] in H; try discriminate.
    injection H as <- _ _. eapply (Bl n); eauto.
  - destruct (eval p fns n self e1 E s) as [r E1 s1| | |]; cbn [obind] in H; try discriminate.
    destruct r as [[]| | | | | | | | | | | | | | |]; try discriminate. destruct b; [|congruence].
    destruct (eval p fns n self e2 E1 s1) as [r2 E2 s2| | |]; cbn [obind] in H; try discriminate. eapply (IH n); [lia| |exact H]. reflexivity.
  - destruct (eval p fns n self e1 E s) as [r E1 s1| | |]; cbn [obind] in H; try discriminate.
    destruct (matches_pat p0 r); try discriminate; [|congruence].
    destruct (leave E1 (eval p fns n self e2 (E0 ++ E1) s1)) as [r2 E2 s2| | |]; cbn [obind] in H; try discriminate. eapply (IH n); [lia| |exact H]. reflexivity.
  - destruct (eval p fns n self e1 E s) as [r E1 s1| | |]; cbn [obind] in H; try discriminate.
    destruct r as [[]| | | | | | | | | | | | | | |]; try discriminate. revert E1 s1 H. induction vs as [|y vs IHv]; intros E1 s1 H; cbn [eval_each] in H; [congruence|].
    destruct (leave E1 (eval p fns n self e2 ((x, D y) :: E1) s1)) as [r2 E2 s2| | |]; cbn [obind] in H; try discriminate. eauto.
Qed.
Lemma ev_unit_block B l E s E2 s2 : stms_to p fns self l E s (B ++ E2) s2 -> length E2 = length E ->
  evals (unit_block l) E s (Val (D VUnit) E2 s2).
Proof.
  intros H Hl. assert (H0 : evals (EBlock l EUnit) E s (Val (D VUnit) E2 s2)) by (eapply (ev_block _ _ _ _ _ _ _ B); [exact H|apply ev_unit|exact Hl]).
  unfold unit_block. destruct (rev l) as [|[|e] r] eqn:Er; auto. destruct (unit_tail e) eqn:U; auto. clear H0.
  assert (El : l = rev r ++ [SExpr e]) by (rewrite <- (rev_involutive l), Er; reflexivity). subst l. destruct H as [F H].
  exists (S F). intros [|n] Hn; [lia|]. cbn [eval]. rewrite <- (leave_val E (D VUnit) B E2 s2 Hl). f_equal.
  rewrite <- (H n ltac:(lia) (fun E s => Val (D VUnit) E s)), stms_snoc. apply stms_same. intros E' s'.
  destruct (eval p fns n self e E' s') as [w E3 s3| | |] eqn:Ew; cbn [obind]; auto. apply unit_tail_value in Ew; auto. now subst w.
Qed.
Lemma ev_value_block_ret e E s r s1 : evals e E s (Ret r s1) -> evals (value_block e) E s (Ret r s1).
Proof. intros H. eapply ev_block_last; [apply st_nil|exact H]. Qed.

(** ** Methods of nodes *)
Lemma ev_text E s l e c : aget String.eqb "node" E = Some (Nd l) -> nth_error (s_nodes s) l = Some (e, c) ->
  evals (call (v "node") "text" []) E s
    (Val (match d_text e with Ok t => ROk (D (VStr t)) | Err x => RErr (Er x) | _ => NoneOf end) E s).
Proof.
  intros Hn Hl. eapply ev_method; [apply ev_var; exact Hn|apply args_nil|discriminate|].
  unfold lib_method, node_method. rewrite Hl. unfold d_text. destruct (xe_kids e) as [|[]]; reflexivity.
Qed.
Lemma ev_text_try E s l e c : aget String.eqb "node" E = Some (Nd l) -> nth_error (s_nodes s) l = Some (e, c) ->
  match d_text e with
  | Ok t => evals (ETry (call (v "node") "text" [])) E s (Val (D (VStr t)) E s)
  | Err x => evals (ETry (call (v "node") "text" [])) E s (Ret (RErr (Er x)) s)
  | _ => True
  end.
Proof.
  intros Hn Hl. pose proof (ev_text _ _ _ _ _ Hn Hl) as H. destruct (d_text e); auto; [apply ev_try|eapply ev_try_err]; exact H.
Qed.
Lemma args_name n ns E s : exists r, args_to [EStr n; ns_code ns] E s [D (VStr n); r] E s /\ opt_str r = Some ns.
Proof.
  destruct (ev_ns ns E s) as (r & H & K). exists r. split; auto. eapply args_cons; [apply ev_str|]. now apply args_one.
Qed.
Lemma ev_next_child n ns E s l e c o c' : aget String.eqb "node" E = Some (Nd l) -> nth_error (s_nodes s) l = Some (e, c) ->
  next_child n ns c = (o, c') ->
  evals (call (v "node") "next_child" [EStr n; ns_code ns]) E s
    (match o with
     | Some k => Val (SomeNd (length (s_nodes s))) E (snd (new_node k (set_node l (e, c') s)))
     | None => Val NoneOf E (set_node l (e, c') s)
     end).
Proof.
  intros Hn Hl Hc. destruct (args_name n ns E s) as (r & A & O).
  eapply ev_method; [apply ev_var; exact Hn|exact A|discriminate|]. unfold lib_method, node_method. rewrite Hl, O.
  cbn -[set_node new_node]. rewrite Hc. destruct o; [|reflexivity]. simpl. now rewrite set_nth_length.
Qed.
Lemma ev_try_next n ns E s l e c o c' : aget String.eqb "node" E = Some (Nd l) -> nth_error (s_nodes s) l = Some (e, c) ->
  next_child n ns c = (o, c') ->
  evals (ETry (call (v "node") "try_next_child" [EStr n; ns_code ns])) E s
    (match o with
     | Some k => Val (Nd (length (s_nodes s))) E (snd (new_node k (set_node l (e, c') s)))
     | None => Ret (RErr (Er (FeMissingElement n ns))) (set_node l (e, c') s)
     end).
Proof.
  intros Hn Hl Hc. destruct (args_name n ns E s) as (r & A & O).
  assert (H : evals (call (v "node") "try_next_child" [EStr n; ns_code ns]) E s
    (match o with
     | Some k => Val (ROk (Nd (length (s_nodes s)))) E (snd (new_node k (set_node l (e, c') s)))
     | None => Val (RErr (Er (FeMissingElement n ns))) E (set_node l (e, c') s)
     end)).
  { eapply ev_method; [apply ev_var; exact Hn|exact A|discriminate|]. unfold lib_method, node_method. rewrite Hl, O.
    cbn -[set_node new_node try_next_child]. unfold try_next_child. rewrite Hc. destruct o; [|reflexivity]. simpl. now rewrite set_nth_length. }
  destruct o; [apply ev_try|eapply ev_try_err]; exact H.
Qed.
Lemma ev_try_child n ns E s l e c o c' : aget String.eqb "node" E = Some (Nd l) -> nth_error (s_nodes s) l = Some (e, c) ->
  child n ns c = (o, c') ->
  evals (ETry (call (v "node") "try_child" [EStr n; ns_code ns])) E s
    (match o with
     | Some k => Val (Nd (length (s_nodes s))) E (snd (new_node k (set_node l (e, c') s)))
     | None => Ret (RErr (Er (FeMissingElement n ns))) (set_node l (e, c') s)
     end).
Proof.
  intros Hn Hl Hc. destruct (args_name n ns E s) as (r & A & O).
  assert (H : evals (call (v "node") "try_child" [EStr n; ns_code ns]) E s
    (match o with
     | Some k => Val (ROk (Nd (length (s_nodes s)))) E (snd (new_node k (set_node l (e, c') s)))
     | None => Val (RErr (Er (FeMissingElement n ns))) E (set_node l (e, c') s)
     end)).
  { eapply ev_method; [apply ev_var; exact Hn|exact A|discriminate|]. unfold lib_method, node_method. rewrite Hl, O.
    cbn -[set_node new_node try_child]. unfold try_child. rewrite Hc. destruct o; [|reflexivity]. simpl. now rewrite set_nth_length. }
  destruct o; [apply ev_try|eapply ev_try_err]; exact H.
Qed.
Lemma ev_peek n ns E s l e c b c' : aget String.eqb "node" E = Some (Nd l) -> nth_error (s_nodes s) l = Some (e, c) ->
  peek_child n ns c = (b, c') ->
  evals (call (v "node") "peek_child" [EStr n; ns_code ns]) E s (Val (D (VBool b)) E (set_node l (e, c') s)).
Proof.
  intros Hn Hl Hc. destruct (args_name n ns E s) as (r & A & O).
  eapply ev_method; [apply ev_var; exact Hn|exact A|discriminate|]. unfold lib_method, node_method. rewrite Hl, O.
  cbn -[set_node new_node peek_child]. now rewrite Hc.
Qed.

(** ** Literals *)
Lemma ev_lit l t E s : aget String.eqb "val" E = Some (D (VStr t)) ->
  match lit_from_str l t with
  | Ok w => evals (lit_code l) E s (Val (D w) E s)
  | Err x => evals (lit_code l) E s (Ret (RErr (Er x)) s)
  | _ => True
  end.
Proof.
  intros Hv.
  assert (H : evals (ECall (PLib "std::str::FromStr::from_str") (Some (TPrim (lit_prim l))) [v "val"]) E s
    (Val (match prim_from_str (lit_prim l) t with Some w => ROk (D w) | None => RErr ParseErr end) E s)).
  { eapply ev_call_lib; [apply args_one, ev_var; exact Hv|discriminate|]. cbn. now destruct (prim_from_str (lit_prim l) t). }
  unfold lit_from_str. destruct (prim_from_str (lit_prim l) t) as [w|]; unfold lit_code.
  - apply ev_try. apply ev_map_err_ok. exact H.
  - eapply ev_try_err. eapply ev_map_err; [exact H|]. apply ev_value_block. eapply ev_error.
    + eapply fields_cons; [apply ev_str_of, ev_str|]. eapply fields_cons; [apply ev_str_of, ev_var; simpl; exact Hv|].
      eapply fields_cons; [|apply fields_nil]. apply ev_box, ev_var. reflexivity.
    + reflexivity.
Qed.

(** ** Contents *)
(** A reader: the value and the node as it is left, or the error that is returned. *)
Definition reads (x : ex) (e : xelem) (c : children) (r : R (value * children)) : Prop :=
  forall E s l, aget String.eqb "node" E = Some (Nd l) -> nth_error (s_nodes s) l = Some (e, c) ->
  match r with
  | Ok (w, c') => exists r s', evals x E s (Val r E s') /\ data r = Some w /\ moved l (e, c') s s'
  | Err x0 => exists s', evals x E s (Ret (RErr (Er x0)) s')
  | _ => True
  end.

Variable callf : string -> xelem -> children -> R (value * children).
Hypothesis Hcall : forall id e c s l, nth_error (s_nodes s) l = Some (e, c) ->
  match callf id e c with
  | Ok (w, c') => exists s', fn_to p fns id "from_xml_node" [Nd l] s (ROk (D w)) s' /\ moved l (e, c') s s'
  | Err x => exists s', fn_to p fns id "from_xml_node" [Nd l] s (RErr (Er x)) s'
  | _ => True
  end.
Variable look : string -> children -> R (bool * children).
Hypothesis Hlook : forall id e c s l, nth_error (s_nodes s) l = Some (e, c) ->
  match look id c with
  | Ok (b, c') => exists s', fn_to p fns id "lookahead" [Nd l] s (D (VBool b)) s' /\ moved l (e, c') s s'
  | Err _ => False
  | _ => True
  end.

Lemma fn_from_xml_node : In "from_xml_node" function_names. Proof. simpl. tauto. Qed.
Lemma fn_lookahead : In "lookahead" function_names. Proof. simpl. tauto. Qed.

(** Contents give data, not just an option. *)
Lemma rx_data x e c : forall E s l, aget String.eqb "node" E = Some (Nd l) -> nth_error (s_nodes s) l = Some (e, c) ->
  match run_rx callf x e c with
  | Ok (w, c') => exists s', evals (rx_code x) E s (Val (D w) E s') /\ moved l (e, c') s s'
  | Err x0 => exists s', evals (rx_code x) E s (Ret (RErr (Er x0)) s')
  | _ => True
  end.
Proof.
  intros E s l Hn Hl. destruct x as [lt|t|id]; cbn [run_rx rx_code].
  - pose proof (ev_text_try _ _ _ _ _ Hn Hl) as T. destruct (d_text e) as [t|x| |]; cbn [bind]; auto.
    + pose proof (ev_lit lt t (("val", D (VStr t)) :: E) s eq_refl) as H. destruct (lit_from_str lt t); cbn [bind]; auto.
      * exists s. split; [|now apply moved_refl]. eapply (ev_block _ _ _ _ _ _ _ [_]); [eapply st_let; [exact T|apply st_nil]|exact H|reflexivity].
      * exists s. eapply ev_block_last; [eapply st_let; [exact T|apply st_nil]|exact H].
    + exists s. apply ev_block_ret, st_let_ret, T.
  - pose proof (ev_text_try _ _ _ _ _ Hn Hl) as T. destruct (d_text e) as [u|x| |]; cbn [bind]; auto.
    + assert (Ne : evals (ENe (v "val") (EStr t)) (("val", D (VStr u)) :: E) s (Val (D (VBool (negb (u =?s t)))) (("val", D (VStr u)) :: E) s)).
      { eapply ev_ne; [apply ev_var; reflexivity|apply ev_str]. }
      destruct (u =?s t) eqn:Eu; cbn [negb] in Ne.
      * exists s. split; [|now apply moved_refl]. eapply (ev_block _ _ _ _ _ _ _ [_]); [eapply st_let; [exact T|apply st_nil]| |reflexivity].
        eapply ev_if; [exact Ne|]. apply ev_unit.
      * exists s. eapply ev_block_last; [eapply st_let; [exact T|apply st_nil]|].
        eapply ev_if; [exact Ne|]. apply ev_block_ret, st_expr_ret. eapply ev_return, ev_err.
        apply ev_into. eapply ev_error.
        { eapply fields_cons; [apply ev_str|]. eapply fields_cons; [|apply fields_nil]. apply ev_str_of, ev_var. reflexivity. }
        reflexivity.
    + exists s. apply ev_block_ret, st_let_ret, T.
  - pose proof (Hcall id e c s l Hl) as H.
    assert (A : args_to [ERef (v "node")] E s [Nd l] E s) by (apply args_one, ev_ref, ev_var; exact Hn).
    destruct (callf id e c) as [[w c']|x| |]; auto.
    + destruct H as (s' & H & M). exists s'. split; auto. eapply ev_try, ev_item_fn; eauto using fn_from_xml_node.
    + destruct H as (s' & H). exists s'. eapply ev_try_err, ev_item_fn; eauto using fn_from_xml_node.
Qed.
Lemma rx_reads x e c : reads (rx_code x) e c (run_rx callf x e c).
Proof.
  intros E s l Hn Hl. pose proof (rx_data x e c E s l Hn Hl) as H. destruct (run_rx callf x e c) as [[w c']|x0| |]; auto.
  destruct H as (s' & H & M). eauto.
Qed.

(** The content of a child just taken, bound to [node]. *)
Lemma sub_data x k E s n' l' m : nth_error (s_nodes s) l' = Some m ->
  match run_sub real_ops callf x k with
  | Ok w => exists s', evals (rx_code x) (("node", Nd (length (s_nodes s))) :: E) (snd (new_node k (set_node l' n' s)))
                         (Val (D w) (("node", Nd (length (s_nodes s))) :: E) s') /\ moved l' n' s s'
  | Err x0 => exists s', evals (rx_code x) (("node", Nd (length (s_nodes s))) :: E) (snd (new_node k (set_node l' n' s))) (Ret (RErr (Er x0)) s')
  | _ => True
  end.
Proof.
  intros Hl. set (s1 := snd (new_node k (set_node l' n' s))).
  assert (K := fun s2 m => moved_child l' n' _ k s m s2 Hl). fold s1 in K.
  pose proof (rx_data x k (children_new k) (("node", Nd (length (s_nodes s))) :: E) s1 (length (s_nodes s)) eq_refl
    (proj1 (K s1 (k, children_new k)))) as H.
  unfold run_sub. cbn [op_new real_ops]. destruct (run_rx callf x k (children_new k)) as [[w c']|x0| |]; cbn [bind]; auto.
  destruct H as (s' & H & M). exists s'. split; auto. now apply (K s' (k, c')).
Qed.

Lemma ev_look id E s l e c b c' : aget String.eqb "node" E = Some (Nd l) -> nth_error (s_nodes s) l = Some (e, c) ->
  look id c = Ok (b, c') ->
  exists s', evals (ECall (PAssoc id "lookahead") None [v "node"]) E s (Val (D (VBool b)) E s') /\ moved l (e, c') s s'.
Proof.
  intros Hn Hl Hk. pose proof (Hlook id e c s l Hl) as H. rewrite Hk in H. destruct H as (s' & H & M).
  exists s'. split; auto. eapply ev_item_fn; [apply fn_lookahead|apply args_one, ev_var; exact Hn|exact H].
Qed.

(** ** Loops *)
Lemma while_look_reads fuel id x e : forall c E s l acc, aget String.eqb "node" E = Some (Nd l) -> nth_error (s_nodes s) l = Some (e, c) ->
  let w := EWhile (ECall (PAssoc id "lookahead") None [v "node"]) (unit_block [SExpr (EPush "vec" (rx_code x))]) in
  match while_look callf look fuel id x e c with
  | Ok (vs, c') => exists s', evals w (("vec", D (VVec acc)) :: E) s (Val (D VUnit) (("vec", D (VVec (acc ++ vs))) :: E) s') /\ moved l (e, c') s s'
  | Err x0 => exists s', evals w (("vec", D (VVec acc)) :: E) s (Ret (RErr (Er x0)) s')
  | _ => True
  end.
Proof.
  induction fuel as [|fuel IH]; intros c E s l acc Hn Hl w; [exact I|]. cbn [while_look].
  assert (Hn' : aget String.eqb "node" (("vec", D (VVec acc)) :: E) = Some (Nd l)) by exact Hn.
  pose proof (Hlook id e c s l Hl) as Hk. destruct (look id c) as [[b c1]|x0| |] eqn:Lk; cbn [bind]; auto; [|contradiction].
  destruct (ev_look id _ s l e c b c1 Hn' Hl Lk) as (s1 & H1 & M1). destruct b.
  - pose proof (rx_data x e c1 (("vec", D (VVec acc)) :: E) s1 l Hn' (proj1 M1)) as Hx.
    destruct (run_rx callf x e c1) as [[y c2]|x0| |]; cbn [bind]; auto.
    + destruct Hx as (s2 & H2 & M2). pose proof (IH c2 E s2 l (acc ++ [y]) Hn (proj1 M2)) as Hw. cbv zeta in Hw.
      assert (B : evals (unit_block [SExpr (EPush "vec" (rx_code x))]) (("vec", D (VVec acc)) :: E) s1
                    (Val (D VUnit) (("vec", D (VVec (acc ++ [y]))) :: E) s2)).
      { apply (ev_unit_block []); [|reflexivity]. eapply st_expr; [eapply ev_push with (1 := H2); reflexivity|apply st_nil]. }
      destruct (while_look callf look fuel id x e c2) as [[vs c3]|x0| |]; cbn [bind]; auto.
      * destruct Hw as (s3 & H3 & M3). exists s3. split; [|eauto using moved_trans].
        rewrite <- app_assoc in H3. eapply ev_while_step; [exact H1|exact B|exact H3].
      * destruct Hw as (s3 & H3). exists s3. eapply ev_while_step; [exact H1|exact B|exact H3].
    + destruct Hx as (s2 & H2). exists s2. eapply ev_while_ret; [exact H1|].
      apply ev_block_ret, st_expr_ret, ev_push_ret, H2.
  - exists s1. split; auto. rewrite app_nil_r. apply ev_while_end, H1.
Qed.

Lemma while_next_reads fuel n ns x : forall e c E s l acc, aget String.eqb "node" E = Some (Nd l) -> nth_error (s_nodes s) l = Some (e, c) ->
  let w := EWhileLet (PSome "node") (call (v "node") "next_child" [EStr n; ns_code ns]) (unit_block [SExpr (EPush "vec" (rx_code x))]) in
  match while_next real_ops callf fuel n ns x c with
  | Ok (vs, c') => exists s', evals w (("vec", D (VVec acc)) :: E) s (Val (D VUnit) (("vec", D (VVec (acc ++ vs))) :: E) s') /\ moved l (e, c') s s'
  | Err x0 => exists s', evals w (("vec", D (VVec acc)) :: E) s (Ret (RErr (Er x0)) s')
  | _ => True
  end.
Proof.
  induction fuel as [|fuel IH]; intros e c E s l acc Hn Hl w; [exact I|]. cbn [while_next op_next real_ops].
  assert (Hn' : aget String.eqb "node" (("vec", D (VVec acc)) :: E) = Some (Nd l)) by exact Hn.
  destruct (next_child n ns c) as [[k|] c1] eqn:Nc; pose proof (ev_next_child n ns _ s l e c _ c1 Hn' Hl Nc) as H1; cbv iota beta in H1.
  - pose proof (sub_data x k (("vec", D (VVec acc)) :: E) s (e, c1) l _ Hl) as Hx.
    destruct (run_sub real_ops callf x k) as [y|x0| |]; cbn [bind]; auto.
    + destruct Hx as (s2 & H2 & M2). pose proof (IH e c1 E s2 l (acc ++ [y]) Hn (proj1 M2)) as Hw. cbv zeta in Hw.
      assert (B : evals (unit_block [SExpr (EPush "vec" (rx_code x))]) (("node", Nd (length (s_nodes s))) :: ("vec", D (VVec acc)) :: E)
                    (snd (new_node k (set_node l (e, c1) s)))
                    (Val (D VUnit) ([("node", Nd (length (s_nodes s)))] ++ ("vec", D (VVec (acc ++ [y]))) :: E) s2)).
      { apply (ev_unit_block []); [|reflexivity]. eapply st_expr; [eapply ev_push with (1 := H2); reflexivity|apply st_nil]. }
      destruct (while_next real_ops callf fuel n ns x c1) as [[vs c3]|x0| |]; cbn [bind]; auto.
      * destruct Hw as (s3 & H3 & M3). exists s3. split; [|eauto using moved_trans].
        rewrite <- app_assoc in H3. eapply ev_whilelet_step; [exact H1|reflexivity|exact B|reflexivity|exact H3].
      * destruct Hw as (s3 & H3). exists s3. eapply ev_whilelet_step; [exact H1|reflexivity|exact B|reflexivity|exact H3].
    + destruct Hx as (s2 & H2). exists s2. eapply ev_whilelet_ret; [exact H1|reflexivity|].
      apply ev_block_ret, st_expr_ret, ev_push_ret, H2.
  - exists (set_node l (e, c1) s). split; [|eapply moved_set; eauto]. rewrite app_nil_r. eapply ev_whilelet_end; [exact H1|reflexivity].
Qed.

(** ** Fields *)
(** A list into an option. *)
Lemma vec_reads opt x E s (r : res from_xml_err (list value * children)) l e :
  match r with
  | Ok (vs, c') => exists s', evals x E s (Val (D (VVec vs)) E s') /\ moved l (e, c') s s'
  | Err x0 => exists s', evals x E s (Ret (RErr (Er x0)) s')
  | _ => True
  end ->
  match ('(vs, c) <- r ;; Ok (vec_value opt vs, c)) with
  | Ok (w, c') => exists q s', evals (vec_code opt x) E s (Val q E s') /\ data q = Some w /\ moved l (e, c') s s'
  | Err x0 => exists s', evals (vec_code opt x) E s (Ret (RErr (Er x0)) s')
  | _ => True
  end.
Proof.
  destruct r as [[vs c']|x0| |]; cbn [bind]; auto; intros H.
  - destruct H as (s' & H & M). unfold vec_code, vec_value. destruct opt.
    + assert (Em : evals (call (v "val") "is_empty" []) (("val", D (VVec vs)) :: E) s'
        (Val (D (VBool (match vs with [] => true | _ => false end))) (("val", D (VVec vs)) :: E) s')).
      { eapply ev_method; [apply ev_var; reflexivity|apply args_nil|discriminate|reflexivity]. }
      destruct vs as [|y vs].
      * exists NoneOf, s'. split; [|split; [reflexivity|exact M]]. eapply (ev_block _ _ _ _ _ _ _ [_]); [eapply st_let; [exact H|apply st_nil]| |reflexivity].
        eapply ev_if; [exact Em|]. cbn [app]. apply ev_value_block, ev_noneof.
      * exists (D (VSome (VVec (y :: vs)))), s'. split; [|split; [reflexivity|exact M]]. eapply (ev_block _ _ _ _ _ _ _ [_]); [eapply st_let; [exact H|apply st_nil]| |reflexivity].
        eapply ev_if; [exact Em|]. apply ev_value_block, ev_some, ev_var. reflexivity.
    + exists (D (VVec vs)), s'. split; [|split; [reflexivity|exact M]]. now apply ev_value_block.
  - destruct H as (s' & H). exists s'. unfold vec_code. destruct opt; [apply ev_block_ret, st_let_ret, H|now apply ev_value_block_ret].
Qed.

Lemma fr_reads fuel f e c : reads (fr_code f) e c (run_fr real_ops callf look fuel f e c).
Proof.
  intros E s l Hn Hl. destruct f as [x|id x opt|id x|n ns x opt|n ns x|n ns x|n ns x]; cbn [run_fr fr_code].
  - pose proof (rx_reads x e c E s l Hn Hl) as H. destruct (run_rx callf x e c) as [[w c']|x0| |]; auto.
    + destruct H as (r & s' & H & M). exists r, s'. split; auto. now apply ev_value_block.
    + destruct H as (s' & H). exists s'. now apply ev_value_block_ret.
  - apply vec_reads. pose proof (while_look_reads fuel id x e c E s l [] Hn Hl) as H. cbv zeta in H. unfold while_look_code.
    destruct (while_look callf look fuel id x e c) as [[vs c']|x0| |]; auto.
    + destruct H as (s' & H & M). exists s'. split; auto.
      eapply (ev_block _ _ _ _ _ _ _ [_]); [eapply st_let; [apply ev_vec_new|eapply st_expr; [exact H|apply st_nil]]|apply ev_var; reflexivity|reflexivity].
    + destruct H as (s' & H). exists s'. apply ev_block_ret. eapply st_let_next; [apply ev_vec_new|]. now apply st_expr_ret.
  - pose proof (Hlook id e c s l Hl) as Hk. destruct (look id c) as [[b c1]|x0| |] eqn:Lk; cbn [bind]; auto; [|contradiction].
    destruct (ev_look id E s l e c b c1 Hn Hl Lk) as (s1 & H1 & M1). destruct b.
    + pose proof (rx_data x e c1 E s1 l Hn (proj1 M1)) as Hx. destruct (run_rx callf x e c1) as [[y c2]|x0| |]; cbn [bind]; auto.
      * destruct Hx as (s2 & H2 & M2). exists (D (VSome y)), s2. split; [|split; [reflexivity|eauto using moved_trans]].
        apply ev_value_block. eapply ev_if; [exact H1|]. now apply ev_value_block, ev_some.
      * destruct Hx as (s2 & H2). exists s2. apply ev_value_block_ret. eapply ev_if; [exact H1|]. now apply ev_value_block_ret, ev_some_ret.
    + exists NoneOf, s1. split; [|split; auto]. apply ev_value_block. eapply ev_if; [exact H1|]. apply ev_value_block, ev_noneof.
  - apply vec_reads. pose proof (while_next_reads fuel n ns x e c E s l [] Hn Hl) as H. cbv zeta in H. unfold while_next_code, next_stms.
    destruct (while_next real_ops callf fuel n ns x c) as [[vs c']|x0| |]; auto.
    + destruct H as (s' & H & M). exists s'. split; auto.
      eapply (ev_block _ _ _ _ _ _ _ [_]); [eapply st_let; [apply ev_vec_new|eapply st_expr; [exact H|apply st_nil]]|apply ev_var; reflexivity|reflexivity].
    + destruct H as (s' & H). exists s'. apply ev_block_ret. eapply st_let_next; [apply ev_vec_new|]. now apply st_expr_ret.
  - cbn [op_next real_ops]. destruct (next_child n ns c) as [[k|] c1] eqn:Nc; pose proof (ev_next_child n ns E s l e c _ c1 Hn Hl Nc) as H1; cbv iota beta in H1.
    + pose proof (sub_data x k E s (e, c1) l _ Hl) as Hx. destruct (run_sub real_ops callf x k) as [y|x0| |]; cbn [bind]; auto.
      * destruct Hx as (s2 & H2 & M2). exists (D (VSome y)), s2. split; [|split; auto].
        apply ev_value_block. eapply (ev_iflet_yes _ _ _ _ _ _ _ _ _ _ _ _ _ _ [_]); [exact H1|reflexivity| |reflexivity]. now apply ev_value_block, ev_some.
      * destruct Hx as (s2 & H2). exists s2. apply ev_value_block_ret. eapply ev_iflet_ret; [exact H1|reflexivity|]. now apply ev_value_block_ret, ev_some_ret.
    + exists NoneOf, (set_node l (e, c1) s). split; [|split; [reflexivity|eapply moved_set; eauto]].
      apply ev_value_block. eapply ev_iflet_no; [exact H1|reflexivity|]. apply ev_value_block, ev_noneof.
  - cbn [op_child real_ops]. destruct (child n ns c) as [[k|] c1] eqn:Nc; pose proof (ev_try_child n ns E s l e c _ c1 Hn Hl Nc) as H1; cbv iota beta in H1.
    + pose proof (sub_data x k E s (e, c1) l _ Hl) as Hx. destruct (run_sub real_ops callf x k) as [y|x0| |]; cbn [bind]; auto.
      * destruct Hx as (s2 & H2 & M2). exists (D y), s2. split; [|split; auto].
        eapply (ev_block _ _ _ _ _ _ _ [_]); [eapply st_let; [exact H1|apply st_nil]|exact H2|reflexivity].
      * destruct Hx as (s2 & H2). exists s2. eapply ev_block_last; [eapply st_let; [exact H1|apply st_nil]|exact H2].
    + exists (set_node l (e, c1) s). apply ev_block_ret, st_let_ret, H1.
  - cbn [op_next real_ops]. destruct (next_child n ns c) as [[k|] c1] eqn:Nc; pose proof (ev_try_next n ns E s l e c _ c1 Hn Hl Nc) as H1; cbv iota beta in H1.
    + pose proof (sub_data x k E s (e, c1) l _ Hl) as Hx. destruct (run_sub real_ops callf x k) as [y|x0| |]; cbn [bind]; auto.
      * destruct Hx as (s2 & H2 & M2). exists (D y), s2. split; [|split; auto].
        eapply (ev_block _ _ _ _ _ _ _ [_]); [eapply st_let; [exact H1|apply st_nil]|exact H2|reflexivity].
      * destruct Hx as (s2 & H2). exists s2. eapply ev_block_last; [eapply st_let; [exact H1|apply st_nil]|exact H2].
    + exists (set_node l (e, c1) s). apply ev_block_ret, st_let_ret, H1.
Qed.

(** ** Enumerations *)
Lemma enum_from_str_split vs t w : enum_from_str vs t = Ok w ->
  exists l1 x l2, vs = l1 ++ (x, t) :: l2 /\ w = VEnum x /\ Forall (fun d => (t =?s snd d) = false) l1.
Proof.
  induction vs as [|[x lit] vs IH]; cbn [enum_from_str]; [discriminate|]. destruct (t =?s lit) eqn:E; intros H.
  - injection H as <-. apply String.eqb_eq in E as ->. exists [], x, vs. auto.
  - destruct (IH H) as (l1 & y & l2 & -> & -> & F). exists ((x, lit) :: l1), y, l2. auto.
Qed.
Lemma enum_from_str_none vs t e : enum_from_str vs t = Err e -> e = FeInvalidVariant t /\ Forall (fun d => (t =?s snd d) = false) vs.
Proof.
  induction vs as [|[x lit] vs IH]; cbn [enum_from_str]; intros H; [injection H as <-; auto|].
  destruct (t =?s lit) eqn:E; [discriminate|]. destruct (IH H). split; auto.
Qed.
Lemma from_str_fn id t vs x st : lookup_item p id = Some t -> ti_decl t = DEnum vs ->
  match enum_from_str vs x with
  | Ok w => fn_to p fns id "from_str" [D (VStr x)] st (ROk (D w)) st
  | Err e => fn_to p fns id "from_str" [D (VStr x)] st (RErr (Er e)) st
  | _ => True
  end.
Proof.
  intros Lk Dt. pose proof (found _ _ Lk) as [_ Ei].
  assert (G : fns id "from_str" = Some (mkFn ["s"] (enum_from_str_code id vs))).
  { unfold module_fn. rewrite Lk. unfold item_fn. rewrite Dt, Ei. reflexivity. }
  assert (No : forall l, Forall (fun d => (x =?s snd d) = false) l ->
    Forall (fun a : pat * ex => matches_pat (fst a) (D (VStr x)) = No) (map (fun d => (PLit (snd d), EPath (PAssoc id (fst d)))) l)).
  { intros l F. apply Forall_map. eapply Forall_impl; [|exact F]. intros d Hd. simpl in *. now rewrite Hd. }
  destruct (enum_from_str vs x) as [w|e| |] eqn:Ev; auto.
  - apply enum_from_str_split in Ev. destruct Ev as (l1 & y & l2 & Es & -> & F).
    eapply fn_body_to; [exact G|reflexivity|]. unfold enum_from_str_code. cbn [fn_body fn_params combine rev app]. eapply (RustRules.ev_call_name _ _ _ "Ok").
    + apply args_one. rewrite Es, map_app. cbn [map]. rewrite <- app_assoc. cbn [app snd fst].
      eapply (ev_match_yes _ _ _ _ _ _ _ _ _ _ _ _ _ [] _ []); [apply ev_var; reflexivity|now apply No| | |reflexivity].
      * simpl. now rewrite String.eqb_refl.
      * apply ev_unit_variant; [apply String.eqb_neq; now apply (not_self _ _ Lk)|].
        unfold variant_of. rewrite Lk, Dt, Es. apply (mem_In String.eqb String.eqb_eq). rewrite map_app. apply in_app_iff. right. now left.
    + unfold name_call. rewrite no_prelude_value by (simpl; tauto). reflexivity.
  - apply enum_from_str_none in Ev. destruct Ev as [-> F].
    eapply fn_body_ret; [exact G|reflexivity|]. unfold enum_from_str_code. cbn [fn_body fn_params combine rev app].
    apply ev_call_ret, args_one_ret.
    eapply (ev_match_ret _ _ _ _ _ _ _ _ _ _ _ _ _ []); [apply ev_var; reflexivity|now apply No|reflexivity|].
    eapply ev_return. eapply (RustRules.ev_call_name _ _ _ "Err").
    + apply args_one. eapply ev_error.
      { eapply fields_cons; [|apply fields_nil]. eapply ev_method; [apply ev_var; reflexivity|apply args_nil|discriminate|reflexivity]. }
      reflexivity.
    + unfold name_call. rewrite no_prelude_value by (simpl; tauto). reflexivity.
Qed.

(** ** Attributes *)
Lemma ax_reads a t E s : aget String.eqb "val" E = Some (D (VStr t)) ->
  match run_ax p a t with
  | Ok w => evals (ax_code a) E s (Val (D w) E s)
  | Err x => evals (ax_code a) E s (Ret (RErr (Er x)) s)
  | _ => True
  end.
Proof.
  intros Hv. destruct a as [lt|ty|]; cbn [run_ax ax_code].
  - now apply ev_lit.
  - destruct ty as [[]| |id| |]; auto.
    + apply ev_try. eapply ev_call_lib; [apply args_one, ev_var; exact Hv|discriminate|reflexivity].
    + destruct (lookup_item p id) as [it|] eqn:Lk; auto. destruct (ti_decl it) as [|vs| |] eqn:Dt; auto.
      pose proof (from_str_fn id it vs t s Lk Dt) as H. destruct (enum_from_str vs t); auto.
      * apply ev_try. eapply ev_call_from_str; [apply args_one, ev_var; exact Hv|exact H].
      * eapply ev_try_err. eapply ev_call_from_str; [apply args_one, ev_var; exact Hv|exact H].
  - apply ev_unit.
Qed.
Lemma ra_reads a e c E s l : aget String.eqb "node" E = Some (Nd l) -> nth_error (s_nodes s) l = Some (e, c) ->
  match run_ra p a e with
  | Ok (f, w) => f = ra_field a /\ exists r, evals (ra_code a) E s (Val r E s) /\ data r = Some w
  | Err x => evals (ra_code a) E s (Ret (RErr (Er x)) s)
  | _ => True
  end.
Proof.
  intros Hn Hl. unfold run_ra, ra_code. destruct (ra_opt a).
  - assert (H : evals (call (v "node") "attribute" [EStr (ra_xml a)]) E s
      (Val (match d_attribute e (ra_xml a) with Some w => D (VSome (VStr w)) | None => NoneOf end) E s)).
    { eapply ev_method; [apply ev_var; exact Hn|apply args_one, ev_str|discriminate|]. unfold lib_method, node_method. now rewrite Hl. }
    destruct (d_attribute e (ra_xml a)) as [t|].
    + pose proof (ax_reads (ra_conv a) t (("val", D (VStr t)) :: E) s eq_refl) as K. destruct (run_ax p (ra_conv a) t); cbn [bind]; auto.
      * split; auto. exists (D (VSome a0)). split; auto. apply ev_value_block.
        eapply (ev_iflet_yes _ _ _ _ _ _ _ _ _ _ _ _ _ _ [_]); [exact H|reflexivity| |reflexivity]. now apply ev_value_block, ev_some.
      * apply ev_value_block_ret. eapply ev_iflet_ret; [exact H|reflexivity|]. now apply ev_value_block_ret, ev_some_ret.
    + split; auto. exists NoneOf. split; auto. apply ev_value_block. eapply ev_iflet_no; [exact H|reflexivity|]. apply ev_value_block, ev_noneof.
  - assert (H : evals (call (v "node") "try_attribute" [EStr (ra_xml a)]) E s
      (Val (match d_attribute e (ra_xml a) with Some w => ROk (D (VStr w)) | None => RErr (Er (FeMissingAttribute (ra_xml a))) end) E s)).
    { eapply ev_method; [apply ev_var; exact Hn|apply args_one, ev_str|discriminate|]. unfold lib_method, node_method. rewrite Hl.
      change ("try_attribute" =?s "attribute") with false. change ("try_attribute" =?s "try_attribute") with true. cbv iota.
      unfold d_try_attribute. destruct (d_attribute e (ra_xml a)); reflexivity. }
    unfold d_try_attribute. destruct (d_attribute e (ra_xml a)) as [t|]; cbn [bind].
    + pose proof (ax_reads (ra_conv a) t (("val", D (VStr t)) :: E) s eq_refl) as K. destruct (run_ax p (ra_conv a) t); cbn [bind]; auto.
      * split; auto. exists (D a0). split; auto.
        eapply (ev_block _ _ _ _ _ _ _ [_]); [eapply st_let; [apply ev_try; exact H|apply st_nil]|exact K|reflexivity].
      * eapply ev_block_last; [eapply st_let; [apply ev_try; exact H|apply st_nil]|exact K].
    + apply ev_block_ret, st_let_ret. eapply ev_try_err, H.
Qed.

(** ** Structs *)
Lemma fields_data_app a b x y : fields_data a = Some x -> fields_data b = Some y -> fields_data (a ++ b) = Some (x ++ y).
Proof.
  intros Ha Hb. revert x Ha. induction a as [|[f r] a IH]; intros x Ha; cbn [fields_data fold_right app fst snd] in *.
  - now injection Ha as <-.
  - destruct (data r); [|discriminate]. destruct (fold_right _ _ a) as [l0|] eqn:El; [|discriminate]. injection Ha as <-.
    unfold fields_data in IH. now rewrite (IH l0 El).
Qed.
Lemma fields_read fuel fs e : forall c E s l, aget String.eqb "node" E = Some (Nd l) -> nth_error (s_nodes s) l = Some (e, c) ->
  match run_fields real_ops callf look fuel fs e c with
  | Ok (vs, c') => exists rs s', fields_to p fns self (map (fun f => (fst f, fr_code (snd f))) fs) E s rs E s'
                     /\ fields_data rs = Some vs /\ moved l (e, c') s s'
  | Err x => exists s', fields_ret p fns self (map (fun f => (fst f, fr_code (snd f))) fs) E s (RErr (Er x)) s'
  | _ => True
  end.
Proof.
  induction fs as [|[f x] fs IH]; intros c E s l Hn Hl; cbn [run_fields map fst snd].
  - exists [], s. split; [apply fields_nil|]. split; auto. now apply moved_refl.
  - pose proof (fr_reads fuel x e c E s l Hn Hl) as H. destruct (run_fr real_ops callf look fuel x e c) as [[w c1]|x0| |]; cbn [bind]; auto.
    + destruct H as (r & s1 & H1 & Dr & M1). pose proof (IH c1 E s1 l Hn (proj1 M1)) as K.
      destruct (run_fields real_ops callf look fuel fs e c1) as [[vs c2]|x0| |]; cbn [bind]; auto.
      * destruct K as (rs & s2 & K & Drs & M2). exists ((f, r) :: rs), s2. split; [eapply fields_cons; eauto|].
        split; [|eauto using moved_trans]. unfold fields_data in *. cbn [fold_right fst snd]. now rewrite Dr, Drs.
      * destruct K as (s2 & K). exists s2. eapply fields_next_ret; eauto.
    + destruct H as (s1 & H). exists s1. now apply fields_first_ret.
Qed.
Lemma attrs_read ats e c E s l : aget String.eqb "node" E = Some (Nd l) -> nth_error (s_nodes s) l = Some (e, c) ->
  match mapM (fun a => run_ra p a e) ats with
  | Ok avs => exists rs, fields_to p fns self (map (fun a => (ra_field a, ra_code a)) ats) E s rs E s /\ fields_data rs = Some avs
  | Err x => fields_ret p fns self (map (fun a => (ra_field a, ra_code a)) ats) E s (RErr (Er x)) s
  | _ => True
  end.
Proof.
  intros Hn Hl. induction ats as [|a ats IH]; cbn [mapM map].
  - exists []. split; [apply fields_nil|reflexivity].
  - pose proof (ra_reads a e c E s l Hn Hl) as H. destruct (run_ra p a e) as [[f w]|x0| |]; cbn [bind]; auto.
    + destruct H as (-> & r & H & Dr). destruct (mapM (fun a => run_ra p a e) ats) as [avs|x0| |]; cbn [bind]; auto.
      * destruct IH as (rs & K & Drs). exists ((ra_field a, r) :: rs). split; [eapply fields_cons; eauto|].
        unfold fields_data in *. cbn [fold_right fst snd]. now rewrite Dr, Drs.
      * eapply fields_next_ret; eauto.
    + now apply fields_first_ret.
Qed.

(** ** Choices *)
Definition arm_variant (a : arm) : string := match a with ArmLook x _ _ | ArmVec x _ _ _ | ArmOne x _ _ _ => x end.
Lemma ev_self_variant x e E s w s1 : variant_of p self x = true -> evals e E s (Val (D w) E s1) ->
  evals (ECall (PAssoc "Self" x) None [e]) E s (Val (D (VChoice x w)) E s1).
Proof. intros V H. eapply ev_call_variant; [apply args_one; exact H|reflexivity|exact V]. Qed.
Lemma arms_read fuel name arms e : (forall a, In a arms -> variant_of p self (arm_variant a) = true) ->
  forall c E s l, aget String.eqb "node" E = Some (Nd l) -> nth_error (s_nodes s) l = Some (e, c) ->
  match run_arms real_ops callf look fuel name arms e c with
  | Ok (w, c') => exists s', evals (arms_code name arms) E s (Val (D w) E s') /\ moved l (e, c') s s'
  | Err x => exists s', evals (arms_code name arms) E s (Ret (RErr (Er x)) s')
  | _ => True
  end.
Proof.
  induction arms as [|a arms IH]; intros V c E s l Hn Hl; cbn [run_arms arms_code].
  - exists s. apply ev_value_block_ret. eapply ev_return, ev_err, ev_into, ev_error.
    + eapply fields_cons; [apply ev_str_of, ev_str|apply fields_nil].
    + reflexivity.
  - pose proof (V a (or_introl eq_refl)) as Va. assert (V' : forall b, In b arms -> variant_of p self (arm_variant b) = true) by (intros; apply V; now right).
    destruct a as [x id y|x n ns y|x n ns y]; cbn [arm_variant] in Va.
    + pose proof (Hlook id e c s l Hl) as Hk. destruct (look id c) as [[b c1]|x0| |] eqn:Lk; cbn [bind]; auto; [|contradiction].
      destruct (ev_look id E s l e c b c1 Hn Hl Lk) as (s1 & H1 & M1). destruct b.
      * pose proof (rx_data y e c1 E s1 l Hn (proj1 M1)) as Hx. destruct (run_rx callf y e c1) as [[w c2]|x0| |]; cbn [bind]; auto.
        -- destruct Hx as (s2 & H2 & M2). exists s2. split; [|eauto using moved_trans]. eapply ev_if; [exact H1|].
           apply ev_value_block. now apply ev_self_variant.
        -- destruct Hx as (s2 & H2). exists s2. eapply ev_if; [exact H1|]. apply ev_value_block_ret, ev_call_ret, args_one_ret, H2.
      * pose proof (IH V' c1 E s1 l Hn (proj1 M1)) as K. destruct (run_arms real_ops callf look fuel name arms e c1) as [[w c2]|x0| |]; auto.
        -- destruct K as (s2 & K & M2). exists s2. split; [|eauto using moved_trans]. eapply ev_if; [exact H1|exact K].
        -- destruct K as (s2 & K). exists s2. eapply ev_if; [exact H1|exact K].
    + cbn [op_peek real_ops]. destruct (peek_child n ns c) as [b c1] eqn:Pk. pose proof (ev_peek n ns E s l e c b c1 Hn Hl Pk) as H1.
      assert (M1 : moved l (e, c1) s (set_node l (e, c1) s)) by (eapply moved_set; eauto). destruct b.
      * pose proof (while_next_reads fuel n ns y e c1 E _ l [] Hn (proj1 M1)) as Hw. cbv zeta in Hw.
        destruct (while_next real_ops callf fuel n ns y c1) as [[ws c2]|x0| |]; cbn [bind]; auto.
        -- destruct Hw as (s2 & H2 & M2). exists s2. split; [|eauto using moved_trans]. eapply ev_if; [exact H1|].
           eapply (ev_block _ _ _ _ _ _ _ [_]); [eapply st_let; [apply ev_vec_new|eapply st_expr; [exact H2|apply st_nil]]| |reflexivity].
           apply ev_self_variant; auto. apply ev_var. reflexivity.
        -- destruct Hw as (s2 & H2). exists s2. eapply ev_if; [exact H1|]. apply ev_block_ret. eapply st_let_next; [apply ev_vec_new|].
           now apply st_expr_ret.
      * pose proof (IH V' c1 E _ l Hn (proj1 M1)) as K. destruct (run_arms real_ops callf look fuel name arms e c1) as [[w c2]|x0| |]; auto.
        -- destruct K as (s2 & K & M2). exists s2. split; [|eauto using moved_trans]. eapply ev_if; [exact H1|exact K].
        -- destruct K as (s2 & K). exists s2. eapply ev_if; [exact H1|exact K].
    + cbn [op_next real_ops]. destruct (next_child n ns c) as [[k|] c1] eqn:Nc; pose proof (ev_next_child n ns E s l e c _ c1 Hn Hl Nc) as H1; cbv iota beta in H1.
      * pose proof (sub_data y k E s (e, c1) l _ Hl) as Hx. destruct (run_sub real_ops callf y k) as [w|x0| |]; cbn [bind]; auto.
        -- destruct Hx as (s2 & H2 & M2). exists s2. split; auto.
           eapply (ev_iflet_yes _ _ _ _ _ _ _ _ _ _ _ _ _ _ [_]); [exact H1|reflexivity| |reflexivity]. apply ev_value_block. now apply ev_self_variant.
        -- destruct Hx as (s2 & H2). exists s2. eapply ev_iflet_ret; [exact H1|reflexivity|]. apply ev_value_block_ret, ev_call_ret, args_one_ret, H2.
      * assert (M1 : moved l (e, c1) s (set_node l (e, c1) s)) by (eapply moved_set; eauto).
        pose proof (IH V' c1 E _ l Hn (proj1 M1)) as K. destruct (run_arms real_ops callf look fuel name arms e c1) as [[w c2]|x0| |]; auto.
        -- destruct K as (s2 & K & M2). exists s2. split; [|eauto using moved_trans]. eapply ev_iflet_no; [exact H1|reflexivity|exact K].
        -- destruct K as (s2 & K). exists s2. eapply ev_iflet_no; [exact H1|reflexivity|exact K].
Qed.

(** ** [from_xml_node] *)
Lemma body_reads fuel t e c E s l : lookup_item p self = Some t -> aget String.eqb "node" E = Some (Nd l) -> nth_error (s_nodes s) l = Some (e, c) ->
  match run_body real_ops p callf look fuel t e c with
  | Ok (w, c') => exists s', evals (read_code t) E s (Val (ROk (D w)) E s') /\ moved l (e, c') s s'
  | Err x => exists s', evals (read_code t) E s (Ret (RErr (Er x)) s')
  | _ => True
  end.
Proof.
  intros Lk Hn Hl. pose proof (found _ _ Lk) as [_ Ei]. pose proof (functions _ _ Lk) as (Ro & _ & _). unfold run_body, read_code.
  inversion Ro as [ty b x Hx Ed Er|vs Ed Er|ds1 ds2 fs ats _ _ Ed Er|vs arms Ha Ed Er].
  - pose proof (rx_data x e c E s l Hn Hl) as H. destruct (run_rx callf x e c) as [[w c']|x0| |]; cbn [bind]; auto.
    + destruct H as (s' & H & M). exists s'. split; auto. apply ev_ok. eapply ev_call_name; [apply args_one; exact H|].
      unfold name_call, is_tuple_struct. rewrite Ei, Lk, <- Ed. reflexivity.
    + destruct H as (s' & H). exists s'. apply ev_ok_ret, ev_call_ret, args_one_ret, H.
  - pose proof (ev_text_try _ _ _ _ _ Hn Hl) as T. destruct (d_text e) as [u|x0| |]; cbn [bind]; auto.
    + rewrite Ei. pose proof (from_str_fn self t vs u s Lk (eq_sym Ed)) as H. destruct (enum_from_str vs u); cbn [bind]; auto.
      * exists s. split; [|now apply moved_refl]. apply ev_ok.
        eapply (ev_block _ _ _ _ _ _ _ [_]); [eapply st_let; [exact T|apply st_nil]| |reflexivity].
        apply ev_try. eapply ev_call_from_str; [apply args_one, ev_var; reflexivity|exact H].
      * exists s. apply ev_ok_ret. eapply ev_block_last; [eapply st_let; [exact T|apply st_nil]|].
        eapply ev_try_err. eapply ev_call_from_str; [apply args_one, ev_var; reflexivity|exact H].
    + exists s. apply ev_ok_ret, ev_block_ret, st_let_ret, T.
  - pose proof (fields_read fuel fs e c E s l Hn Hl) as H. destruct (run_fields real_ops callf look fuel fs e c) as [[vs c']|x0| |]; cbn [bind]; auto.
    + destruct H as (rs & s1 & H & Drs & M). pose proof (attrs_read ats e c' E s1 l Hn (proj1 M)) as K.
      destruct (mapM (fun a => run_ra p a e) ats) as [avs|x0| |]; cbn [bind]; auto.
      * destruct K as (rs2 & K & Drs2). exists s1. split; auto. apply ev_ok.
        eapply ev_struct; [eapply fields_app; [exact H|exact K]|reflexivity|now apply fields_data_app|]. rewrite Ei, Lk. eauto.
      * exists s1. apply ev_ok_ret, ev_struct_ret. eapply fields_app_ret2; eauto.
    + destruct H as (s1 & H). exists s1. apply ev_ok_ret, ev_struct_ret, fields_app_ret1, H.
  - assert (V : forall a, In a arms -> variant_of p self (arm_variant a) = true).
    { intros a Ia. rewrite Forall_forall in Ha. specialize (Ha a Ia). unfold variant_of. rewrite Lk, <- Ed.
      apply (mem_In String.eqb String.eqb_eq). destruct Ha as [x id y ty _ I _|x n ns y ty I _|x n ns y ty I _]; apply (in_map fst) in I; exact I. }
    pose proof (arms_read fuel (ti_id t) arms e V c E s l Hn Hl) as H.
    destruct (run_arms real_ops callf look fuel (ti_id t) arms e c) as [[w c']|x0| |]; auto.
    + destruct H as (s' & H & M). exists s'. split; auto. now apply ev_ok.
    + destruct H as (s' & H). exists s'. now apply ev_ok_ret.
Qed.
End Self.

(** ** [lookahead] *)
Lemma lk_reads self (look : string -> children -> R (bool * children)) e
  (Hlook : forall id c s l, nth_error (s_nodes s) l = Some (e, c) ->
    match look id c with
    | Ok (b, c') => exists s', fn_to p fns id "lookahead" [Nd l] s (D (VBool b)) s' /\ moved l (e, c') s s'
    | Err _ => False
    | _ => True
    end) E l ks : aget String.eqb "node" E = Some (Nd l) ->
  forall c s0 s acc, evals p fns self acc E s0 (Val (D (VBool false)) E s) -> nth_error (s_nodes s) l = Some (e, c) ->
  match run_lk real_ops look ks c with
  | Ok (b, c') => exists s', evals p fns self (fold_left (fun e k => EOr e (lk1_code k)) ks acc) E s0 (Val (D (VBool b)) E s') /\ moved l (e, c') s s'
  | Err _ => False
  | _ => True
  end.
Proof.
  intros Hn.
  assert (Tr : forall ks acc s0 s, evals p fns self acc E s0 (Val (D (VBool true)) E s) ->
    evals p fns self (fold_left (fun e k => EOr e (lk1_code k)) ks acc) E s0 (Val (D (VBool true)) E s)).
  { induction ks0 as [|k ks0 IH]; intros acc s0 s H; cbn [fold_left]; auto. apply IH. now apply ev_or_true. }
  induction ks as [|k ks IH]; intros c s0 s acc H Hl; cbn [run_lk fold_left].
  - exists s. split; auto. now apply moved_refl.
  - destruct k as [id|n ns].
    + pose proof (Hlook id c s l Hl) as K. destruct (look id c) as [[b c1]|x| |]; cbn [bind]; auto.
      destruct K as (s1 & K & M1).
      assert (K' : evals p fns self (EOr acc (lk1_code (LkCall id))) E s0 (Val (D (VBool b)) E s1)).
      { eapply ev_or_false; [exact H|]. eapply ev_item_fn; [simpl; tauto|apply args_one, ev_var; exact Hn|exact K]. }
      destruct b; [exists s1; split; auto|].
      pose proof (IH c1 s0 s1 _ K' (proj1 M1)) as J. destruct (run_lk real_ops look ks c1) as [[b c2]|x| |]; auto.
      destruct J as (s2 & J & M2). exists s2. split; auto. eauto using moved_trans.
    + cbn [op_peek real_ops]. destruct (peek_child n ns c) as [b c1] eqn:Pk.
      assert (M1 : moved l (e, c1) s (set_node l (e, c1) s)) by (eapply moved_set; eauto).
      assert (K' : evals p fns self (EOr acc (lk1_code (LkPeek n ns))) E s0 (Val (D (VBool b)) E (set_node l (e, c1) s))).
      { eapply ev_or_false; [exact H|]. eapply ev_peek; eauto. }
      destruct b; [eexists; split; eauto|].
      pose proof (IH c1 s0 _ _ K' (proj1 M1)) as J. destruct (run_lk real_ops look ks c1) as [[b c2]|x| |]; auto.
      destruct J as (s2 & J & M2). exists s2. split; auto. eauto using moved_trans.
Qed.
Lemma look_fn fuel : forall id e c s l, nth_error (s_nodes s) l = Some (e, c) ->
  match run_look real_ops p fuel id c with
  | Ok (b, c') => exists s', fn_to p fns id "lookahead" [Nd l] s (D (VBool b)) s' /\ moved l (e, c') s s'
  | Err _ => False
  | _ => True
  end.
Proof.
  induction fuel as [|fuel IH]; intros id e c s l Hl; cbn [run_look]; auto.
  destruct (lookup_item p id) as [t|] eqn:Lk; auto.
  assert (G : fns id "lookahead" = Some (mkFn ["node"] (look_code (ti_look t)))) by (unfold module_fn; now rewrite Lk).
  destruct (ti_look t) as [|ks].
  - exists s. split; [|now apply moved_refl]. eapply fn_body_to; [exact G|reflexivity|apply ev_bool].
  - pose proof (lk_reads id (run_look real_ops p fuel) e (fun id c s l => IH id e c s l) [("node", Nd l)] l ks eq_refl c s s (EBool false)
      (ev_bool _ _ _ _ _ _) Hl) as H.
    destruct (run_lk real_ops (run_look real_ops p fuel) ks c) as [[b c']|x| |]; auto.
    destruct H as (s' & H & M). exists s'. split; auto. eapply fn_body_to; [exact G|reflexivity|exact H].
Qed.

(** ** All together *)
Lemma type_fn fuel : forall id e c s l, nth_error (s_nodes s) l = Some (e, c) ->
  match run_type real_ops p fuel id e c with
  | Ok (w, c') => exists s', fn_to p fns id "from_xml_node" [Nd l] s (ROk (D w)) s' /\ moved l (e, c') s s'
  | Err x => exists s', fn_to p fns id "from_xml_node" [Nd l] s (RErr (Er x)) s'
  | _ => True
  end.
Proof.
  induction fuel as [|fuel IH]; intros id e c s l Hl; cbn [run_type]; auto.
  destruct (lookup_item p id) as [t|] eqn:Lk; auto.
  assert (G : fns id "from_xml_node" = Some (mkFn ["node"] (read_code t))) by (unfold module_fn; now rewrite Lk).
  pose proof (body_reads id _ IH _ (look_fn fuel) fuel t e c [("node", Nd l)] s l Lk eq_refl Hl) as H.
  destruct (run_body real_ops p (run_type real_ops p fuel) (run_look real_ops p fuel) fuel t e c) as [[w c']|x| |]; auto.
  - destruct H as (s' & H & M). exists s'. split; auto. eapply fn_body_to; [exact G|reflexivity|exact H].
  - destruct H as (s' & H). exists s'. eapply fn_body_ret; [exact G|reflexivity|exact H].
Qed.

Lemma from_xml_fn fuel id root s :
  match from_xml p fuel id root with
  | Ok w => exists s', fn_to p fns id "from_xml" [Doc root] s (ROk (D w)) s'
              /\ s_inners s' = s_inners s /\ s_out s' = s_out s /\ s_text s' = s_text s
  | Err x => exists s', fn_to p fns id "from_xml" [Doc root] s (RErr (Er x)) s'
  | _ => True
  end.
Proof.
  unfold from_xml, from_xml_with. destruct (lookup_item p id) as [t|] eqn:Lk; auto.
  assert (G : fns id "from_xml" = Some (mkFn ["input"] (from_xml_code t))) by (unfold module_fn; now rewrite Lk).
  set (E0 := [("input", Doc root)]).
  assert (Hd : evals p fns id (ETry (ECall (PLib "::xsd::decode::decode") None [call (v "input") "as_ref" []])) E0 s (Val (Doc root) E0 s)).
  { apply ev_try. eapply ev_call_lib.
    - apply args_one. eapply ev_method; [apply ev_var; reflexivity|apply args_nil|discriminate|reflexivity].
    - discriminate.
    - reflexivity. }
  destruct (args_name id (ti_read_name t) (ti_read_ns t) (("doc", Doc root) :: E0) s) as (r & A & O).
  assert (Ht : evals p fns id (call (v "doc") "try_child" [EStr (ti_read_name t); ns_code (ti_read_ns t)]) (("doc", Doc root) :: E0) s
    (match doc_try_child root (ti_read_name t) (ti_read_ns t) with
     | Ok k => Val (ROk (Nd (length (s_nodes s)))) (("doc", Doc root) :: E0) (snd (new_node k s))
     | Err x => Val (RErr (Er x)) (("doc", Doc root) :: E0) s
     | _ => Stuck
     end)).
  { eapply ev_method; [apply ev_var; reflexivity|exact A|discriminate|]. unfold lib_method. rewrite O. cbn -[doc_try_child new_node].
    now destruct (doc_try_child root (ti_read_name t) (ti_read_ns t)). }
  destruct (doc_try_child root (ti_read_name t) (ti_read_ns t)) as [k|x| |]; cbn [bind]; auto.
  - set (s1 := snd (new_node k s)) in *. set (E1 := ("node", Nd (length (s_nodes s))) :: ("doc", Doc root) :: E0) in *.
    assert (Hl : nth_error (s_nodes s1) (length (s_nodes s)) = Some (k, children_new k)).
    { simpl. rewrite nth_error_app2 by lia. now rewrite Nat.sub_diag. }
    assert (St : stms_to p fns id [SLet "doc" (ETry (ECall (PLib "::xsd::decode::decode") None [call (v "input") "as_ref" []]));
        SLet "node" (ETry (call (v "doc") "try_child" [EStr (ti_read_name t); ns_code (ti_read_ns t)]))] E0 s E1 s1).
    { eapply st_let; [exact Hd|]. eapply st_let; [apply ev_try; exact Ht|apply st_nil]. }
    pose proof (type_fn fuel id k (children_new k) s1 (length (s_nodes s)) Hl) as H. cbn [op_new real_ops].
    assert (Nx : lookup_item p id <> None) by congruence.
    destruct (run_type real_ops p fuel id k (children_new k)) as [[w c']|x| |]; cbn [bind]; auto.
    + destruct H as (s' & H & (_ & _ & I1 & I2 & I3)). exists s'. split; [|auto]. eapply fn_body_to; [exact G|reflexivity|]. eapply (ev_block _ _ _ _ _ _ _ [_; _]); [exact St| |reflexivity].
      eapply ev_call_fn; [apply args_one, ev_ref, ev_var; reflexivity|now apply no_variant; simpl; tauto|exact Nx|exact H].
    + destruct H as (s' & H). exists s'. eapply fn_body_to; [exact G|reflexivity|]. eapply (ev_block _ _ _ _ _ _ _ [_; _]); [exact St| |reflexivity].
      eapply ev_call_fn; [apply args_one, ev_ref, ev_var; reflexivity|now apply no_variant; simpl; tauto|exact Nx|exact H].
  - exists s. eapply fn_body_ret; [exact G|reflexivity|]. apply ev_block_ret. eapply st_let_next; [exact Hd|].
    apply st_let_ret. eapply ev_try_err, Ht.
Qed.
End Read.
