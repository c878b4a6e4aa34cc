(** * PropTyping: the types of the generated functions (C71) *)
From Verif Require Import Base Libs Xml Ast XsdNode Parse Decode Writer Gen Run Harness Emit Quote Impl Rust RustRules Body BodySpec RustSpec RustCheck RustLook RustGen GenProof1 DecSpec DecProof RepSpec WfSpec CanonProof2 EmitSpec EmitProof
  GramSpec GramRules GramItem TypingSpec TypingProof TypingItems TypingRead TypingInv TypingFnInv TypingWrite TypingMain TypingConv TypingRun Samples PropDecode PropRust PropEmit PropGram.
From Coq Require Import Lia.

Lemma combine_items {A B} (rs : list A) (p : list B) : length rs = length p -> forall t, In t p <-> In t (map snd (combine rs p)).
Proof.
  intros Le t. replace (map snd (combine rs p)) with p; [reflexivity|]. revert rs Le. induction p as [|x p IH]; intros [|r rs] Le; try discriminate; [reflexivity|].
  cbn [combine map snd]. f_equal. apply IH. now injection Le.
Qed.

(** C71. In an accepted module, every function has types as the rules of Rust ask for, and
    is understood in one way only: as the function of Body.v. *)
Theorem C71_functions : forall p rs items,
  rust_ok p -> length rs = length p -> holds items (combine rs p) ->
  forall i q, In (IImpl i) items -> In q (pi_fns i) ->
  exists t g, In t p /\ pi_type i = ti_id t /\ item_fn t (pf_name q) = Some g
    /\ forall b, fn_typed items i q b <-> b = as_body (fn_body g).
Proof.
  intros p rs items [Hd Hf] Le Hh i q Ii Iq. pose proof (combine_items rs p Le) as Hl. apply (impl_in _ _ _ Hh Hl) in Ii. destruct Ii as (t & It & Ii).
  rewrite Forall_forall in Hf. destruct (fn_good items _ p Hh Hl Hd t It i q (Hf _ It) Ii Iq) as (g & Eg & T).
  exists t, g. split; [exact It|]. split; [eapply impls_type; eauto|]. split; [exact Eg|]. intros b. split; [|intros ->; exact T].
  intros K. destruct (fn_unique items _ p Hh Hl Hd t It i q b (Hf _ It) Ii Iq K) as (g' & Eg' & ->). congruence.
Qed.
Print Assumptions C71_functions.

(** The functions have types exactly when they are accepted by RustSpec.v, and that is
    when the schema meets the conditions of C54. *)
Theorem C71_exact : forall (L : Libs) gfuel c gs p rs items,
  mapM (generate_element gfuel c) gs = Ok p -> decls_ok p -> plain_module p -> length rs = length p -> holds items (combine rs p) ->
  (typed items <-> rust_ok p) /\ (typed items <-> attrs_ok c gs /\ choices_ok c gs /\ looks_ok c gs).
Proof.
  intros L gfuel c gs p rs items Hp Hd Pl Le Hh.
  assert (X : typed items <-> rust_ok p).
  { split.
    - intros T. split; [exact Hd|]. eapply typed_functions; eauto. now apply combine_items.
    - intros OK i q Ii Iq. destruct (C71_functions p rs items OK Le Hh i q Ii Iq) as (t & g & _ & _ & _ & K). eexists. now apply K. }
  split; [exact X|]. rewrite X. now apply (C54_functions_partial _ _ _ _ _ Hp).
Qed.
Print Assumptions C71_exact.

(** ** What a module means
    [fns] are the functions of the module [items] as they are understood. *)
Definition understood (items : list pitem) (fns : string -> string -> option fn) : Prop := forall id f g,
  fns id f = Some g <-> exists i q, In (IImpl i) items /\ pi_type i = id /\ In q (pi_fns i) /\ pf_name q = f
    /\ map fst (pf_params q) = fn_params g /\ fn_typed items i q (fn_body g).
Lemma fn_of_in t i q : In i (impls_of t) -> In q (pi_fns i) -> exists f, In q (fn_of t f).
Proof.
  unfold impls_of. intros Hi Hq. apply in_app_or in Hi as [Hi|Hi].
  - destruct (ti_decl t) as [ty [|]|vs|fs|fs]; cbn [In] in Hi; repeat match goal with H : _ \/ _ |- _ => destruct H end; try contradiction; subst; cbn [pi_fns] in Hq;
      try (apply in_flat_map in Hq as (g & _ & Hq)); eauto.
  - cbn [In] in Hi. repeat match goal with H : _ \/ _ |- _ => destruct H end; try contradiction; subst; cbn [pi_fns] in Hq; apply in_flat_map in Hq as (g & _ & Hq); eauto.
Qed.
Lemma lookup_in p id t : lookup_item p id = Some t -> In t p /\ ti_id t = id.
Proof.
  unfold lookup_item. intros H. apply find_some in H. destruct H as (I & E). split; [exact I|]. now apply String.eqb_eq in E.
Qed.
Lemma understood_braced p rs items fns : rust_ok p -> length rs = length p -> holds items (combine rs p) ->
  (understood items fns <-> forall id f, fns id f = option_map (fun g => mkFn (fn_params g) (as_body (fn_body g))) (module_fn p id f)).
Proof.
  intros OK Le Hh. pose proof (combine_items rs p Le) as Hl. pose proof (proj1 OK) as Hd.
  assert (A : forall id f g, (exists i q, In (IImpl i) items /\ pi_type i = id /\ In q (pi_fns i) /\ pf_name q = f
      /\ map fst (pf_params q) = fn_params g /\ fn_typed items i q (fn_body g))
    <-> option_map (fun g => mkFn (fn_params g) (as_body (fn_body g))) (module_fn p id f) = Some g).
  { intros id f g. split.
    - intros (i & q & Ii & <- & Iq & <- & Pa & T). destruct (C71_functions p rs items OK Le Hh i q Ii Iq) as (t & g0 & It & Et & Eg & K).
      apply K in T. unfold module_fn. rewrite Et, (lookup_NoDup p (ds_distinct p Hd) t It), Eg. cbn [option_map]. f_equal. rewrite <- T.
      apply (impl_in _ _ _ Hh Hl) in Ii. destruct Ii as (t1 & I1 & Ii). pose proof (impls_type _ _ Ii) as E1. rewrite Et in E1. pose proof (same_item _ Hd _ _ It I1 E1) as <-.
      pose proof (C70_functions t (pf_name q)) as F. rewrite Eg in F. destruct F as (i2 & q2 & J2 & T2 & Q2 & N2 & P2 & B2).
      assert (fn_params g0 = fn_params g) as ->; [|now destruct g]. rewrite <- Pa, <- P2.
      destruct (fn_of_in t i q Ii Iq) as (f1 & F1). destruct (fn_of_in t i2 q2 J2 Q2) as (f2 & F2).
      pose proof (fn_of_name _ _ _ F1) as <-. pose proof (fn_of_name _ _ _ F2) as <-. rewrite N2 in F2. unfold fn_of in F1, F2.
      destruct (item_fn t (pf_name q)); [|destruct F1]. destruct (signature (pf_name q)) as [[[[? ?] ?] ?]|]; [|destruct F1].
      destruct F1 as [F1|[]], F2 as [F2|[]]. congruence.
    - unfold module_fn. destruct (lookup_item p id) as [t|] eqn:Lk; [|discriminate]. destruct (item_fn t f) as [g0|] eqn:Eg; [|discriminate]. cbn [option_map]. intros [= <-].
      apply lookup_in in Lk. destruct Lk as (It & <-). pose proof (C70_functions t f) as F. rewrite Eg in F. destruct F as (i & q & Ii & Ti & Iq & Nm & Pa & _).
      exists i, q. assert (Ji : In (IImpl i) items) by (apply (impl_in _ _ _ Hh Hl); eauto). do 4 (split; [assumption|]). cbn [fn_params fn_body]. split; [exact Pa|].
      destruct (C71_functions p rs items OK Le Hh i q Ji Iq) as (t1 & g1 & I1 & E1 & Eg1 & K). apply K. rewrite Ti in E1. pose proof (same_item _ Hd _ _ It I1 E1) as <-. congruence. }
  split.
  - intros U id f. destruct (option_map _ (module_fn p id f)) as [g|] eqn:E.
    + apply U. now apply A.
    + destruct (fns id f) as [g|] eqn:E'; [|reflexivity]. apply U in E'. apply A in E'. congruence.
  - intros U id f g. rewrite U. symmetry. apply A.
Qed.

(** The functions of the module as Rust understands them do what the functions of Body.v
    do, which is what C63-C65 are about. *)
Theorem C71_meaning : forall (L : Libs) p rs items,
  rust_ok p -> length rs = length p -> holds items (combine rs p) ->
  (exists fns, understood items fns)
  /\ forall fns, understood items fns -> forall id f args s r s',
     fn_to p fns id f args s r s' <-> fn_to p (module_fn p) id f args s r s'.
Proof.
  intros L p rs items OK Le Hh. split.
  - exists (fun id f => option_map (fun g => mkFn (fn_params g) (as_body (fn_body g))) (module_fn p id f)). apply (understood_braced p rs items); auto.
  - intros fns U id f args s r s'. symmetry. apply braces_fn. pose proof (proj1 (understood_braced p rs items fns OK Le Hh) U) as U'. intros t f0. rewrite U'.
    destruct (module_fn p t f0) as [g|]; [|reflexivity]. cbn [option_map]. eexists. split; [reflexivity|]. destruct (fn_body g); auto.
Qed.
Print Assumptions C71_meaning.

(** From the text to the results: the tokens of an accepted module are read as items whose
    functions are understood in one way; and with these functions, [from_xml] has the
    results that the schema asks for (C63). *)
Theorem C71_text : forall (L : Libs) gfuel c gs p,
  mapM (generate_element gfuel c) gs = Ok p -> rust_ok p ->
  Forall (fun t => ~ In (ti_id t) (primitive_names ++ taken)) p ->
  exists rs items fns, Forall2 (fun n r => sc_get c n = Some r) gs rs
  /\ (exists enough, forall fuel, enough <= fuel -> file fuel (module_tokens (combine rs p)) = Some items)
  /\ typed items /\ understood items fns
  /\ forall id f args r, (forall s, exists s', fn_to p fns id f args s r s') <-> returns p id f args r.
Proof.
  intros L gfuel c gs p G OK A. destruct (C70_module L gfuel c gs p G OK A) as (rs & items & F & Hh & E).
  assert (Le : length rs = length p). { apply mapM_ok in G. apply F2_length in G. apply F2_length in F. congruence. }
  destruct (C71_meaning L p rs items OK Le Hh) as ((fns & U) & M). exists rs, items, fns. split; [exact F|]. split; [exact E|].
  split; [|split; [exact U|]].
  - intros i q Ii Iq. destruct (C71_functions p rs items OK Le Hh i q Ii Iq) as (t & g & _ & _ & _ & K). eexists. now apply K.
  - intros id f args r. unfold returns. split; intros H s; destruct (H s) as (s' & K); exists s'; now apply (M fns U).
Qed.
Print Assumptions C71_text.

(** An accepted module of two types: its text has types. *)
Definition items_of (d : xelem) : list pitem := match file 300 (text_of d) with Some l => l | None => [] end.
Lemma order_typed : exists rs items fns, length rs = 2 /\ items <> [] /\ holds items (combine rs (module_of ex_order)) /\ typed items /\ understood items fns.
Proof.
  assert (G : mapM (generate_element 40 (ctx_of ex_order)) (Samples.names_of ex_order) = Ok (module_of ex_order)) by by_compute.
  assert (OK : rust_ok (module_of ex_order)) by (apply rust_accepts; by_compute).
  assert (A : Forall (fun t => ~ In (ti_id t) (primitive_names ++ taken)) (module_of ex_order)).
  { vm_compute. repeat constructor; intuition discriminate. }
  destruct (C70_module _ _ _ _ _ G OK A) as (rs & items & F & Hh & E). assert (Le : length rs = 2) by (apply F2_length in F; rewrite <- F; by_compute).
  assert (Le' : length rs = length (module_of ex_order)) by (rewrite Le; by_compute).
  destruct (C71_meaning _ _ rs items OK Le' Hh) as ((fns & U) & _). exists rs, items, fns. split; [exact Le|]. split; [|split; [exact Hh|split; [|exact U]]].
  - assert (X : length (combine rs (module_of ex_order)) = 2) by (rewrite combine_length, <- Le', Le; reflexivity).
    revert X. destruct Hh; discriminate.
  - intros i q Ii Iq. destruct (C71_functions _ rs items OK Le' Hh i q Ii Iq) as (t & g & _ & _ & _ & K). eexists. now apply K.
Qed.
Example C71_example : exists rs items fns, length rs = 2 /\ items <> [] /\ holds items (combine rs (module_of ex_order)) /\ typed items /\ understood items fns.
Proof. exact order_typed. Qed.

(** The rules are those of Rust. A value that was moved away cannot be used. *)
Example C71_moved : forall items self r b u G,
  ~ val items self r [("ctx", Some Context)] (EBlock [SLet "a" (EVar "ctx")] (EVar "ctx")) b u G.
Proof.
  intros items self r b u G H. apply block_inv in H. destruct H as (ss & e1 & G1 & G2 & _ & H & K & _). apply stms_let_inv in H. destruct H as (a & ss2 & T & G3 & _ & A & H).
  eapply moves in A; [|reflexivity|intros C; inversion C]. destruct A as (_ & -> & ->). inversion H; subst. apply var_inv in K. destruct K as (_ & K & _). discriminate.
Qed.
(** ... but a reference can. *)
Example C71_copied : forall items self r,
  val items self r [("n", Some (YRef Node))] (EBlock [SLet "a" (EVar "n")] (EVar "n")) (EBlock [SLet "a" (EVar "n")] (EVar "n")) (YRef Node) [("n", Some (YRef Node))].
Proof.
  intros. eapply (v_block items self r [("n", Some (YRef Node))] _ _ _ _ _ _ [("a", Some (YRef Node)); ("n", Some (YRef Node))]).
  - econstructor; [apply v_copy; [reflexivity|constructor]|constructor].
  - apply v_copy; [reflexivity|constructor].
Qed.
(** [?] needs a function that returns a result, and an error that converts. *)
Example C71_try : forall items self b u G,
  ~ val items self YBool [("node", Some (YRef Node))] (ETry (EMethod (EVar "node") None "text" [])) b u G
  /\ ~ val items self (YRes YUnit WriterError) [("node", Some (YRef Node))] (ETry (EMethod (EVar "node") None "text" [])) b u G.
Proof.
  intros items self b u G. split; intros H; apply try_inv in H; destruct H as (e1 & w & a & c & _ & E & H & C); [discriminate|].
  injection E as <- <-. apply method_inv in H. destruct H as (e2 & es & t & u0 & ts & G0 & P & D & A & _ & M). apply place_var_inv in P. destruct P as (_ & V & ->). injection V as <-.
  inversion A; subst. inversion D; subst; [|match goal with X : derefs Node _ |- _ => inversion X; subst end]; destruct M as [M|M].
  all: try (inversion M; subst; inversion C; fail).
  all: try (destruct M as (id & ? & ? & ? & ? & ? & E & _); discriminate E).

Qed.
(** A generated module whose functions have no types: an attribute of a named type that is
    not a string (C54). *)
Lemma decls_accepts p : nodupb (map ti_id p) = true -> forallb item_name_b p = true -> forallb (fun t => decl_b p (ti_decl t)) p = true -> sized_b p = true -> decls_ok p.
Proof.
  intros A B C E. constructor; [now apply nodupb_iff|now apply (forallb_Forall _ _ _ item_name_b_iff)| |now apply sized_b_ok].
  revert C. apply forallb_Forall. intros t. apply decl_b_iff.
Qed.
Definition ex_attr : xelem := xschema []
  [xs "simpleType" [at_ "name" "n"] [xs "restriction" [at_ "base" "xs:int"] []];
   xelement [at_ "name" "a"] [xcomplex [xs "attribute" [at_ "name" "k"; at_ "type" "n"] []]]].
Example C71_rejected : forall rs items, length rs = length (module_of ex_attr) -> holds items (combine rs (module_of ex_attr)) -> ~ typed items.
Proof.
  intros rs items Le Hh T.
  assert (G : mapM (generate_element 40 (ctx_of ex_attr)) (Samples.names_of ex_attr) = Ok (module_of ex_attr)) by by_compute.
  assert (No : ~ rust_ok (module_of ex_attr)) by (apply rust_rejects; by_compute).
  apply No. apply (C71_exact _ 40 (ctx_of ex_attr) (Samples.names_of ex_attr) (module_of ex_attr) rs items G); auto.
  - apply decls_accepts; by_compute.
  - vm_compute. constructor; [|constructor; [|constructor]]; (split; [tauto|]).
    + intros (fs & ats & a & id & t' & E & _). discriminate.
    + intros (fs & ats & a & id & t' & E & I & K & _). injection E as <- <-. destruct I as [<-|[]]. discriminate.
Qed.
