(** * OutProof: lemmas for C87 *)
From Verif Require Import Base Libs Xml Ast Decode Writer Gen Run RustSpec GenSpec GenProof1 EvoProof3 OutSpec.
From Coq Require Import Lia.

Lemma nodes_pos v : 1 <= nodes v.
Proof. destruct v; cbn [nodes]; lia. Qed.
(** The fields of these names. *)
Lemma fields_sum ns : forall fs (xs : list value), NoDup ns -> Forall2 (fun n x => aget String.eqb n fs = Some x) ns xs -> list_sum (map nodes xs) <= list_sum (map (fun f : string * value => nodes (snd f)) fs).
Proof.
  intros fs. revert ns. induction fs as [|[k v] fs IH]; intros ns xs Nd F.
  { destruct F as [|n x ns xs E F]; [cbn; lia|discriminate]. }
  destruct (in_dec String.string_dec k ns) as [I|I].
  - apply in_split in I. destruct I as (l & r & ->). apply Forall2_app_inv_l in F. destruct F as (xl & xr & Fl & Fr & ->). inversion Fr as [|? x ? xr' E Fr']; subst. cbn [aget] in E. rewrite String.eqb_refl in E. injection E as <-.
    apply NoDup_remove in Nd. destruct Nd as [Nd Nk].
    assert (K : Forall2 (fun n x => aget String.eqb n fs = Some x) (l ++ r) (xl ++ xr')).
    { apply Forall2_app.
      - clear -Fl Nk. induction Fl as [|n x l xl E F IH]; constructor; [|apply IH; intros H; apply Nk; now right]. cbn [aget] in E. destruct (String.eqb_spec n k); [subst; exfalso; apply Nk; now left|exact E].
      - assert (Nr : ~ In k r) by (intros H; apply Nk, in_or_app; now right). clear -Fr' Nr. induction Fr' as [|n x l xl E F IH]; constructor; [|apply IH; intros H; apply Nr; now right]. cbn [aget] in E. destruct (String.eqb_spec n k); [subst; exfalso; apply Nr; now left|exact E]. }
    specialize (IH _ _ Nd K). rewrite !map_app, !list_sum_app in *. cbn [map snd]. change (list_sum (nodes v :: map nodes xr')) with (nodes v + list_sum (map nodes xr')).
    change (list_sum (nodes v :: map (fun f : string * value => nodes (snd f)) fs)) with (nodes v + list_sum (map (fun f : string * value => nodes (snd f)) fs)). lia.
  - assert (K : Forall2 (fun n x => aget String.eqb n fs = Some x) ns xs).
    { clear -F I. induction F as [|n x l xl E F IH]; constructor; [|apply IH; intros H; apply I; now right]. cbn [aget] in E. destruct (String.eqb_spec n k); [subst; exfalso; apply I; now left|exact E]. }
    specialize (IH _ _ Nd K). cbn [map snd]. change (list_sum (nodes v :: map (fun f : string * value => nodes (snd f)) fs)) with (nodes v + list_sum (map (fun f : string * value => nodes (snd f)) fs)). lia.
Qed.

Section WithLibs.
Context {L : Libs}.
(** No field is written twice. *)
Definition once (t : titem) : Prop := match ti_write t with TwStruct _ _ (WbLeaves ws) => NoDup (map wf_field ws) | _ => True end.

Section Step.
Variable p : program.
Variable call : string -> value -> wctx -> W (list event * inner).
Hypothesis C : forall id v c e i, call id v c = Ok (e, i) -> length e + 2 <= 5 * nodes v.

Lemma wx_out x v c e i : write_wx call x v c = Ok (e, i) -> length e + 2 <= 5 * nodes v.
Proof.
  pose proof (nodes_pos v). destruct x as [|s|id]; cbn [write_wx]; intros K.
  - destruct (value_to_string v) as [s|]; [|discriminate]. injection K as <- <-. destruct (is_empty s); cbn [length]; lia.
  - injection K as <- <-. cbn [length]. lia.
  - exact (C _ _ _ _ _ K).
Qed.
Lemma start_out c e c' : write_start_element c = (e, c') -> length e <= 1.
Proof. unfold write_start_element. destruct (wc_virtual c); intros K; injection K as <- <-; cbn [length]; lia. Qed.
Lemma end_out c : length (write_end_element c) <= 1.
Proof. unfold write_end_element. destruct (wc_virtual c); cbn [length]; lia. Qed.
Ltac stp K := let x := fresh "x" in let E := fresh "E" in apply bind_ok in K; destruct K as (x & E & K).
Lemma one_out w v c e c' : write_leaf_one call w v c = Ok (e, c') -> length e <= 5 * nodes v.
Proof.
  unfold write_leaf_one. intros K. destruct (wf_new w) as [n|], (wf_wrap w); cbn zeta in K;
  try (destruct (write_start_element _) as [e0 c1] eqn:S; apply start_out in S); stp K; destruct x as [e1 i]; apply wx_out in E; injection K as <- <-; rewrite ?app_length;
  try (match goal with |- context [write_end_element ?c] => pose proof (end_out c) end); lia.
Qed.
Lemma each_out w vs : forall c e c', write_each call w vs c = Ok (e, c') -> length e <= 5 * list_sum (map nodes vs).
Proof.
  induction vs as [|v vs IH]; intros c e c' K; cbn [write_each] in K; [injection K as <- <-; cbn; lia|]. stp K. destruct x as [e1 c1]. stp K. destruct x as [e2 c2]. injection K as <- <-.
  apply one_out in E. apply IH in E0. rewrite app_length. cbn [map]. change (list_sum (nodes v :: map nodes vs)) with (nodes v + list_sum (map nodes vs)). lia.
Qed.
Lemma leaf_out w fs c e c' : write_leaf call w (VStruct fs) c = Ok (e, c') -> exists x, aget String.eqb (wf_field w) fs = Some x /\ length e <= 5 * nodes x.
Proof.
  unfold write_leaf, vfield. intros K. destruct (aget String.eqb (wf_field w) fs) as [x|]; [|discriminate]. cbn [bind] in K. cbn zeta in K. exists x. split; [reflexivity|].
  assert (I : forall v e c', (if wf_vec w then match v with VVec vs => write_each call w vs c | _ => Panic "not a Vec" end else write_leaf_one call w v c) = Ok (e, c') -> length e <= 5 * nodes v).
  { intros v e0 c0 Q. destruct (wf_vec w); [|now apply one_out in Q]. destruct v; try discriminate. apply each_out in Q. cbn [nodes]. lia. }
  destruct (wf_opt w); [|now apply I in K]. destruct x; try discriminate; [injection K as <- <-; cbn; lia|]. apply I in K. cbn [nodes]. lia.
Qed.
Lemma leaves_out fs ws : forall c e c', write_leaves call ws (VStruct fs) c = Ok (e, c') ->
  exists xs, Forall2 (fun n x => aget String.eqb n fs = Some x) (map wf_field ws) xs /\ length e <= 5 * list_sum (map nodes xs).
Proof.
  induction ws as [|w ws IH]; intros c e c' K; cbn [write_leaves] in K; [injection K as <- <-; exists []; split; [constructor|cbn; lia]|].
  stp K. destruct x as [e1 c1]. stp K. destruct x as [e2 c2]. injection K as <- <-. apply leaf_out in E. destruct E as (x & Ex & B). apply IH in E0. destruct E0 as (xs & Fx & Bs).
  exists (x :: xs). split; [now constructor|]. rewrite app_length. cbn [map]. change (list_sum (nodes x :: map nodes xs)) with (nodes x + list_sum (map nodes xs)). lia.
Qed.
Lemma leaves_struct ws v c e c' : ws <> [] -> write_leaves call ws v c = Ok (e, c') -> exists fs, v = VStruct fs.
Proof.
  intros N K. destruct ws as [|w ws]; [contradiction|]. cbn [write_leaves] in K. stp K. unfold write_leaf, vfield in E. destruct v; try discriminate. now exists fields.
Qed.
Lemma arm_out a v e : write_arm_one call a v = Ok e -> length e <= 5 * nodes v.
Proof.
  unfold write_arm_one. cbn zeta. intros K. destruct (wm_wrap a).
  - destruct (write_start_element _) as [e0 c1] eqn:S. apply start_out in S. stp K. destruct x as [e1 i]. apply wx_out in E. injection K as <-. rewrite !app_length.
    match goal with |- context [write_end_element ?c] => pose proof (end_out c) end. lia.
  - stp K. destruct x as [e1 i]. apply wx_out in E. injection K as <-. lia.
Qed.
Lemma arms_out a vs : forall e, write_arm_each call a vs = Ok e -> length e <= 5 * list_sum (map nodes vs).
Proof.
  induction vs as [|v vs IH]; intros e K; cbn [write_arm_each] in K; [injection K as <-; cbn; lia|]. stp K. stp K. injection K as <-. apply arm_out in E. apply IH in E0.
  rewrite app_length. cbn [map]. change (list_sum (nodes v :: map nodes vs)) with (nodes v + list_sum (map nodes vs)). lia.
Qed.
Lemma wrapped_out wrap c body e i n : (forall c e i, body c = Ok (e, i) -> length e <= n) -> wrapped wrap c body = Ok (e, i) -> length e <= n + 2.
Proof.
  intros B K. unfold wrapped in K. destruct wrap; [|apply B in K; lia]. destruct (write_start_element c) as [e0 c1] eqn:S. apply start_out in S. stp K. destruct x as [e1 i1]. apply B in E. injection K as <- <-.
  rewrite !app_length. match goal with |- context [write_end_element ?c] => pose proof (end_out c) end. lia.
Qed.
Lemma item_out t v c e i : once t -> write_item p call t v c = Ok (e, i) -> length e + 2 <= 5 * nodes v.
Proof.
  intros O K. unfold write_item in K. cbn zeta in K. unfold once in O. pose proof (nodes_pos v) as Pv. destruct (ti_write t) as [wrap x| |ats wrap b|wrap arms].
  - destruct v; try discriminate. apply (wrapped_out _ _ _ _ _ (5 * nodes v - 2)) in K; [cbn [nodes]; pose proof (nodes_pos v); lia|]. intros c1 e1 i1 Q. apply wx_out in Q. lia.
  - destruct v; try discriminate. destruct (ti_decl t); try discriminate. destruct (enum_as_str _ _) as [s|]; [|discriminate]. apply (wrapped_out _ _ _ _ _ 1) in K; [cbn [nodes]; lia|].
    intros c1 e1 i1 Q. injection Q as <- <-. destruct (is_empty s); cbn [length]; lia.
  - stp K. apply (wrapped_out _ _ _ _ _ (5 * (nodes v - 1))) in K; [lia|]. intros c1 e1 i1 Q. unfold write_body in Q. destruct b as [|f y|ws].
    + injection Q as <- <-. cbn [length]. lia.
    + stp Q. apply wx_out in Q. unfold vfield in E0. destruct v; try discriminate. destruct (aget String.eqb f fields) as [z|] eqn:Ez; [|discriminate]. injection E0 as <-.
      assert (F : list_sum (map nodes [z]) <= list_sum (map (fun f : string * value => nodes (snd f)) fields)) by (apply (fields_sum [f]); [repeat constructor; intros []|repeat constructor; exact Ez]).
      cbn [map list_sum fold_right nodes] in *. lia.
    + stp Q. destruct x0 as [e2 c2]. injection Q as <- <-. destruct ws as [|w ws]; [cbn [write_leaves] in E0; injection E0 as <- <-; cbn [length]; lia|].
      assert (Nw : w :: ws <> []) by discriminate. destruct (leaves_struct _ _ _ _ _ Nw E0) as (fs & ->). apply leaves_out in E0. destruct E0 as (xs & F & B). apply (fields_sum _ _ _ O) in F. cbn [nodes]. lia.
  - apply (wrapped_out _ _ _ _ _ (5 * (nodes v - 1))) in K; [lia|]. intros c1 e1 i1 Q. stp Q. injection Q as <- <-. unfold write_choice in E. destruct v; try discriminate.
    destruct (find _ arms) as [a|]; [|discriminate]. destruct (wm_vec a); [|apply arm_out in E; cbn [nodes]; lia]. destruct v; try discriminate. apply arms_out in E. cbn [nodes]. lia.
Qed.
End Step.

Lemma type_out p k : Forall once p -> forall id v c e i, write_type p k id v c = Ok (e, i) -> length e + 2 <= 5 * nodes v.
Proof.
  intros O. induction k as [|k IH]; intros id v c e i K; cbn [write_type] in K; [discriminate|]. destruct (lookup_item p id) as [t|] eqn:E; [|discriminate].
  eapply item_out; [exact IH| |exact K]. unfold lookup_item in E. apply find_some in E. rewrite Forall_forall in O. apply O, E.
Qed.
(** In a module that compiles no field is written twice. *)
Lemma generated_once p k c n t : generate_element k c n = Ok t -> decl_ok p (ti_decl t) -> once t.
Proof.
  intros G D. apply generate_element_inv in G. destruct G as (el & id & d & w & xn & nss & ns & r & lk & _ & _ & Ed & Ew & _ & _ & _ & _ & _ & ->). cbn [ti_decl] in D. unfold once. cbn [ti_write].
  destruct el as [ld|en|ed|ch]; cbn [root_to_declaration root_to_xml] in *; try (repeat (apply bind_ok in Ew; destruct Ew as (? & _ & Ew)); injection Ew as <-; exact I).
  unfold element_to_impl in Ed. unfold element_to_xml in Ew.
  apply bind_ok in Ed. destruct Ed as (fs & Fs & Ed). apply bind_ok in Ed. destruct Ed as (avs & Avs & Ed). injection Ed as <-.
  apply bind_ok in Ew. destruct Ew as (ats & Ats & Ew). apply bind_ok in Ew. destruct Ew as (b & B & Ew). injection Ew as <-.
  destruct b as [|f x|ws]; try exact I. destruct (ed_content ed) as [[n0 def|ls]|]; [repeat (apply bind_ok in B; destruct B as (? & _ & B)); discriminate| |discriminate].
  apply bind_ok in B. destruct B as (ws' & Ws & B). injection B as ->. inversion D as [| |fs0 (M & _)|]; subst. rewrite map_app in M. assert (Mf : NoDup (map fst fs)) by (clear -M; induction (map fst fs) as [|a l IH]; [constructor|]; cbn [app] in M; inversion M as [|? ? Na Ml]; subst; constructor; [intros H; apply Na, in_or_app; now left|auto]).
  assert (E : map fst fs = map wf_field ws); [|now rewrite <- E].
  eapply mapM_pairs; eauto. intros x q u X Y. unfold leaf_to_impl in X. unfold leaf_to_xml in Y. apply bind_ok in X. destruct X as (i & Ii & X). repeat (apply bind_ok in X; destruct X as (? & _ & X)). injection X as <-.
  apply bind_ok in Y. destruct Y as (i' & Ii' & Y). repeat (apply bind_ok in Y; destruct Y as (? & _ & Y)). injection Y as <-. cbn. congruence.
Qed.
End WithLibs.
