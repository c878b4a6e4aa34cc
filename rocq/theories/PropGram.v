(** * PropGram: the text of the generated functions (C70) *)
From Verif Require Import Base Libs Xml Ast XsdNode Parse Decode Writer Gen Run Harness Emit Quote Impl Rust Body RustSpec RustCheck EmitSpec EmitProof
  GramSpec GramRules GramItem Samples PropDecode PropRust PropEmit.
From Coq Require Import Lia.

(** C70. The tokens of an accepted module read, by the grammar of Rust, as exactly the
    declarations of the model and the functions of Body.v, up to inferred types. *)
Theorem C70_module : forall (L : Libs) gfuel c gs p,
  mapM (generate_element gfuel c) gs = Ok p -> rust_ok p ->
  Forall (fun t => ~ In (ti_id t) (primitive_names ++ taken)) p ->
  exists rs items, Forall2 (fun n r => sc_get c n = Some r) gs rs
  /\ holds items (combine rs p)
  /\ exists enough, forall fuel, enough <= fuel -> file fuel (module_tokens (combine rs p)) = Some items.
Proof.
  intros L gfuel c gs p G OK A.
  assert (A1 : Forall (fun t => ~ In (ti_id t) primitive_names) p) by (eapply Forall_impl; [|exact A]; intros t N J; apply N, in_or_app; auto).
  assert (A2 : Forall (fun t => ~ In (ti_id t) taken) p) by (eapply Forall_impl; [|exact A]; intros t N J; apply N, in_or_app; auto).
  pose proof (module_reads _ _ _ _ G (proj1 OK) A1) as F. pose proof (items_names p OK A2) as N. clear G OK A A1 A2.
  induction F as [|n t gs p (r & S & (sh & Y & D) & _) _ IH].
  - exists [], []. repeat split; [constructor..|]. exact G_nil.
  - apply Forall_cons_iff in N as [N1 N]. destruct (IH N) as (rs & items & F & H & E).
    exists (r :: rs), (IType (mkTypeItem (type_docs r) ["Debug"; "Clone"; "PartialEq"] true (ti_id t) sh) :: map IImpl (impls_of t) ++ items).
    split; [now constructor|]. split; [constructor; [exists sh; auto|exact H]|].
    cbn [combine module_tokens flat_map fst snd]. apply element_G; auto.
Qed.
Print Assumptions C70_module.

(** What is read for a type are the functions of Body.v, all of them and no others. *)
Theorem C70_functions : forall t f,
  match item_fn t f with
  | Some g => exists i q, In i (impls_of t) /\ pi_type i = ti_id t /\ In q (pi_fns i)
                /\ pf_name q = f /\ map fst (pf_params q) = fn_params g /\ pf_body q = as_body (untyped (fn_body g))
  | None => forall i q, In i (impls_of t) -> In q (pi_fns i) -> pf_name q <> f
  end.
Proof.
  assert (P : forall t f g, item_fn t f = Some g -> exists pub gs tys ret, signature f = Some (pub, gs, tys, ret) /\ length tys = length (fn_params g)).
  { intros t f g. unfold item_fn, signature. intros E.
    repeat (match type of E with (if f =?s ?s then _ else _) = _ => destruct (String.eqb_spec f s) as [->|] end;
            [injection E as <-; repeat eexists|]).
    destruct (ti_decl t) as [ty [|]|vs|fs|fs]; try discriminate;
    repeat (match type of E with (if f =?s ?s then _ else _) = _ => destruct (String.eqb_spec f s) as [->|] end;
            [injection E as <-; repeat eexists|]); discriminate. }
  assert (Q : forall t f g, item_fn t f = Some g -> exists q, fn_of t f = [q] /\ pf_name q = f /\ map fst (pf_params q) = fn_params g
      /\ pf_body q = as_body (untyped (fn_body g))).
  { intros t f g E. destruct (P _ _ _ E) as (pub & gs & tys & ret & S & Le). unfold fn_of. rewrite E, S. eexists. split; [reflexivity|].
    cbn [pf_name pf_params pf_body]. repeat split. revert Le. generalize (fn_params g). clear. induction tys as [|y tys IH]; intros [|x l] H;
      try discriminate; [reflexivity|]. cbn [combine map fst]. f_equal. apply IH. now injection H. }
  assert (Only : forall t f i q, In i (impls_of t) -> In q (pi_fns i) -> pf_name q = f -> In q (fn_of t f)).
  { intros t f i q. assert (In1 : forall g, In q (fn_of t g) -> pf_name q = f -> In q (fn_of t f)).
    { intros g J E. assert (X : pf_name q = g); [|rewrite X in E; now subst g].
      clear E. unfold fn_of in J. destruct (item_fn t g); [|destruct J]. destruct (signature g) as [[[[? ?] ?] ?]|]; [|destruct J]. now destruct J as [<-|[]]. }
    unfold impls_of. intros Hi Hq E. apply in_app_or in Hi as [Hi|Hi].
    - destruct (ti_decl t) as [ty [|]|vs|fs|fs]; cbn [In] in Hi;
        repeat match goal with H : _ \/ _ |- _ => destruct H end; try contradiction; subst; cbn [pi_fns] in Hq;
        try (apply in_flat_map in Hq as (g & _ & Hq)); eauto.
    - cbn [In] in Hi. repeat match goal with H : _ \/ _ |- _ => destruct H end; try contradiction; subst; cbn [pi_fns] in Hq;
        apply in_flat_map in Hq as (g & _ & Hq); eauto. }
  intros t f. destruct (item_fn t f) as [g|] eqn:E.
  - destruct (Q _ _ _ E) as (q & F & Hn & Hp & Hb).
    assert (I : exists i, In i (impls_of t) /\ pi_type i = ti_id t /\ In q (pi_fns i)).
    { unfold impls_of, item_fn in *. 
      repeat (match type of E with (if f =?s ?s then _ else _) = _ => destruct (String.eqb_spec f s) as [->|] end).
      1-5: match goal with |- exists i, In i (?a ++ [?x; ?y; ?z]) /\ _ =>
             first [ exists x; split; [apply in_or_app; right; simpl; tauto|]; split; [reflexivity|]; cbn [pi_fns flat_map]; rewrite !in_app_iff, F; simpl; tauto
                   | exists y; split; [apply in_or_app; right; simpl; tauto|]; split; [reflexivity|]; cbn [pi_fns flat_map]; rewrite !in_app_iff, F; simpl; tauto
                   | exists z; split; [apply in_or_app; right; simpl; tauto|]; split; [reflexivity|]; cbn [pi_fns flat_map]; rewrite !in_app_iff, F; simpl; tauto ] end.
      destruct (ti_decl t) as [ty [|]|vs|fs|fs]; try discriminate;
      repeat (match type of E with (if f =?s ?s then _ else _) = _ => destruct (String.eqb_spec f s) as [->|] end); try discriminate;
      first [ solve [eexists; split; [apply in_or_app; left; left; reflexivity|]; split; [reflexivity|]; cbn [pi_fns flat_map]; rewrite ?in_app_iff, F; simpl; tauto]
            | solve [eexists; split; [apply in_or_app; left; right; left; reflexivity|]; split; [reflexivity|]; cbn [pi_fns flat_map]; rewrite ?in_app_iff, F; simpl; tauto]
            | solve [eexists; split; [apply in_or_app; left; right; right; left; reflexivity|]; split; [reflexivity|]; cbn [pi_fns flat_map]; rewrite ?in_app_iff, F; simpl; tauto] ]. }
    destruct I as (i & I1 & I2 & I3). exists i, q. repeat split; auto.
  - intros i q Hi Hq Hf. specialize (Only _ _ _ _ Hi Hq Hf). unfold fn_of in Only. now rewrite E in Only.
Qed.
Print Assumptions C70_functions.

(** An accepted module of two types, written out and read back. *)
Definition roots_of (d : xelem) : list root :=
  flat_map (fun n => match sc_get (ctx_of d) n with Some r => [r] | None => [] end) (names_of d).
Definition text_of (d : xelem) : list tok := module_tokens (combine (roots_of d) (module_of d)).
Definition impls_in (l : list pitem) : list pimpl := flat_map (fun x => match x with IImpl i => [i] | _ => [] end) l.
Example C70_example :
  rust_b (module_of ex_order) = true /\ sized_b (module_of ex_order) = true /\ length (module_of ex_order) = 2
  /\ option_map impls_in (file 300 (text_of ex_order)) = Some (flat_map impls_of (module_of ex_order))
  /\ option_map (map (fun x => match x with IType y => yi_name y | IImpl i => pi_type i end)) (file 300 (text_of ex_order))
     = Some ["OrderCa"; "OrderCa"; "OrderCa"; "OrderCa"; "Order"; "Order"; "Order"; "Order"].
Proof. cbv zeta. repeat match goal with |- _ /\ _ => split end; by_compute. Qed.
(** All kinds of types (the schema of C62). *)
Example C70_kinds :
  map (fun t => match ti_decl t with DTuple _ _ => "tuple" | DEnum _ => "enum" | DStruct _ => "struct" | DChoice _ => "choice" end) (module_of ex_docs)
    = ["tuple"; "tuple"; "struct"; "enum"; "choice"; "struct"; "struct"]
  /\ option_map impls_in (file 300 (text_of ex_docs)) = Some (flat_map impls_of (module_of ex_docs)).
Proof. cbv zeta. repeat match goal with |- _ /\ _ => split end; by_compute. Qed.
(** The grammar is that of Rust: no struct expression in a condition; a semicolon after
    [let]; a value at the end of a block; [||] associates to the left. *)
Example C70_grammar :
  let c := mkScope "T" ["val"; "a"; "b"; "c"] [] in
  with_block 50 c (quote "if val != Limit { } { val }" [])
    = Some (EIf (ENe (EVar "val") (EPath (PName "Limit"))) (EBlock [] EUnit) EUnit, [Gr "{" [Id "val"]])
  /\ stms 50 c (quote "let x = val x" []) = None
  /\ stms 50 c (quote "let x = val; x" []) = Some ([SLet "x" (EVar "val")], EVar "x")
  /\ stms 50 c (quote "let x = val; x;" []) = Some ([SLet "x" (EVar "val"); SExpr (EVar "x")], EUnit)
  /\ expr 50 c false (quote "a || b || c" []) = Some (EOr (EOr (EVar "a") (EVar "b")) (EVar "c"), [])
  /\ expr 50 c false (quote "&a.b?" []) = Some (ERef (ETry (EField (EVar "a") "b")), [])
  /\ stms 50 c (quote "if val { a } else b" []) = None.
Proof. cbv zeta. repeat match goal with |- _ /\ _ => split end; by_compute. Qed.
(** A tuple struct called like a variable of the functions reads as something else. *)
Example C70_taken :
  let t n := mkTitem n (DTuple (TPrim PString) false) "x" [] (TwTuple true WxText) "x" None (BrTuple (RxText LString)) LkTrue in
  file 300 (impl_tokens (t "Node")) = Some (map IImpl (impls_of (t "Node"))) /\ file 300 (impl_tokens (t "node")) = None.
Proof. split; by_compute. Qed.
