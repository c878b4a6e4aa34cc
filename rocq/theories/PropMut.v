(** * PropMut: what the generated functions change is declared so (C82) *)
From Verif Require Import Base Libs Xml Ast XsdNode Parse Decode Writer Gen Run Harness Emit Quote Impl Rust Body RustSpec RustCheck EmitSpec EmitProof
  GramSpec GramItem MutSpec MutProof MutDecl Samples PropDecode PropRust PropEmit PropGram.

(** C82. In the text of an accepted module no variable is changed, borrowed with [&mut] or
    handed on as a [&mut] that is not declared for it. *)
Theorem C82_mut : forall (L : Libs) gfuel c gs p,
  mapM (generate_element gfuel c) gs = Ok p -> rust_ok p ->
  Forall (fun t => ~ In (ti_id t) taken) p ->
  exists rs, Forall2 (fun n r => sc_get c n = Some r) gs rs /\ mut_ok (module_tokens (combine rs p)) = true.
Proof.
  intros L gfuel c gs p G OK A. pose proof (items_names p OK A) as N. pose proof (names_of_decls p OK) as D.
  assert (R : exists rs, Forall2 (fun n r => sc_get c n = Some r) gs rs).
  { clear N D OK A. revert p G. induction gs as [|n gs IH]; intros p G; [exists []; constructor|]. cbn [mapM] in G.
    destruct (generate_element gfuel c n) as [t| | |] eqn:E; cbn [bind] in G; try discriminate.
    destruct (mapM (generate_element gfuel c) gs) as [p'| | |]; cbn [bind] in G; try discriminate.
    destruct (IH p' eq_refl) as [rs F]. unfold generate_element in E. destruct (sc_get c n) as [r|] eqn:S; [|discriminate].
    exists (r :: rs). now constructor. }
  destruct R as [rs F]. exists rs. split; [exact F|]. apply module_passes. clear F G.
  apply Forall_forall. intros [r t] J. apply in_combine_r in J. rewrite Forall_forall in N, D. cbn [snd]. auto.
Qed.
Print Assumptions C82_mut.

(** Accepted modules. Of their [mut]s only those of variables that are given away whole can be
    left out: that of [let mut ctx] before [self.to_xml_writer(ctx, ..)]
    and before [val.to_xml_writer(ctx, ..)]. *)
Definition needed (l : list tok) : nat * nat :=
  (length (filter (fun x => negb (mut_ok x)) (without_one_mut l)), length (without_one_mut l)).
Example C82_example :
  mut_ok (text_of ex_order) = true /\ needed (text_of ex_order) = (22, 25)
  /\ mut_ok (text_of ex_docs) = true /\ needed (text_of ex_docs) = (51, 58).
Proof. repeat match goal with |- _ /\ _ => split end; by_compute. Qed.
(** What the walk refuses, and what it does not. It is strict: a change of a field is refused, the generated functions make none. *)
Example C82_walk :
  let f s := mut_ok (quote s []) in
  f "fn f() { let v = Vec::new(); v.push(1); }" = false
  /\ f "fn f() { let mut v = Vec::new(); v.push(1); }" = true
  /\ f "fn f() { let mut v = Vec::new(); let v = 1; v.push(1); }" = false
  /\ f "fn f() { let mut v = Vec::new(); { let v = 1; } v.push(1); }" = true
  /\ f "fn f(w: &mut W) { ctx.write_start_element(w); }" = false
  /\ f "fn f(mut ctx: C, w: &mut W) { ctx.write_start_element(w); }" = true
  /\ f "fn f(mut ctx: C, w: &W) { ctx.write_start_element(w); }" = false
  /\ f "fn f(mut ctx: C, mut w: W) { ctx.write_start_element(&mut w); }" = true
  /\ f "fn f(mut ctx: C, w: W) { ctx.write_start_element(&mut w); }" = false
  /\ f "fn f(mut ctx: C, w: &mut W) { if let Some(w) = x { ctx.write_start_element(w); } }" = false
  /\ f "fn f(ctx: &mut C) { g(Context::wrap(ctx)); }" = true
  /\ f "fn f(ctx: C) { g(Context::wrap(ctx)); }" = false
  /\ f "fn f(mut self: C) { self.v.push(1); }" = false.
Proof. cbv zeta. repeat match goal with |- _ /\ _ => split end; by_compute. Qed.
