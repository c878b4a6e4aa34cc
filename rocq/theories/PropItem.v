(** * PropItem: the items of the generated text (C74) *)
From Verif Require Import Base Libs Xml Ast XsdNode Parse Decode Writer Gen Run Harness Macro MacroSpec Emit Quote Impl Rust Body RustSpec RustCheck RustGen GenProof1 SchemaProof EmitSpec GramSpec GramItem TypingSpec TypingItems TypingConv
  ItemSpec ItemProof Samples PropDecode PropRust PropMacro PropEmit PropGram PropTyping PropEnd.
From Coq Require Import Lia.

Lemma combine_snd {A B} (rs : list A) (p : list B) : length rs = length p -> map snd (combine rs p) = p.
Proof. revert rs. induction p as [|x p IH]; intros [|r rs] Le; try discriminate; [reflexivity|]. cbn [combine map snd]. f_equal. apply IH. now injection Le. Qed.
Lemma apart p : decls_ok p -> Forall (fun t => ~ In (ti_id t) primitive_names) p -> Forall (fun t => ~ In (ti_id t) builtin_names) p.
Proof.
  intros D A. pose proof (ds_names p D) as N. rewrite Forall_forall in *. intros t I K. apply in_app_or in K. destruct K as [K|K]; [exact (A t I K)|]. destruct (N t I) as (_ & X & _). exact (X K).
Qed.

(** C74. The items read from the text of a module keep Rust's rules for items if its
    declarations are those that RustSpec.v accepts. *)
Theorem C74_items : forall p rs items,
  decls_ok p -> Forall (fun t => ~ In (ti_id t) primitive_names) p -> length rs = length p -> holds items (combine rs p) ->
  types_wf items /\ impls_wf items.
Proof.
  intros p rs items D A Le Hh. pose proof (apart p D A) as B. rewrite <- (combine_snd rs p Le) in B, D. split; [exact (types_good items _ Hh B D)|].
  apply (impls_good items _ Hh B); [exact (ds_distinct _ D)|]. pose proof (ds_decls _ D) as K. rewrite Forall_forall in *. intros t I. eapply decl_types; eauto.
Qed.
Print Assumptions C74_items.

(** Conversely, the declarations are accepted only if the items keep the rules: with names
    apart from those of the language, no tuple named as a function of the prelude, and
    declarations with what their templates need ([decl_fits]). *)
Theorem C74_types_exact : forall p rs items,
  Forall (fun t => ~ In (ti_id t) builtin_names) p -> Forall (fun t => is_tuple (ti_decl t) -> ~ In (ti_id t) prelude_values) p ->
  Forall (fun t => decl_fits (ti_decl t)) p ->
  (forall t u id, In t p -> In u (member_types (ti_decl t)) -> mentions u id -> ~ In id plain_types) ->
  length rs = length p -> holds items (combine rs p) ->
  (types_wf items <-> decls_ok p) /\ (types_wf items -> impls_wf items).
Proof.
  intros p rs items A T Fi M Le Hh.
  assert (E : types_wf items <-> decls_ok p).
  { rewrite <- (combine_snd rs p Le) in A, T, Fi, M. rewrite <- (combine_snd rs p Le) at 1. split; [now apply types_needed|now apply types_good]. }
  split; [exact E|]. intros W. apply E in W. apply (C74_items p rs items W); auto. eapply Forall_impl; [|exact A]. intros t N J. apply N. apply in_or_app. now left.
Qed.
Print Assumptions C74_types_exact.

(** With the types of the functions (C71): the text of a generated module keeps all the
    rules, for items and for functions, exactly when RustSpec.v accepts the module. *)
Theorem C74_exact : forall (L : Libs) gfuel c gs p rs items,
  mapM (generate_element gfuel c) gs = Ok p -> plain_module p ->
  Forall (fun t => ~ In (ti_id t) builtin_names) p -> Forall (fun t => is_tuple (ti_decl t) -> ~ In (ti_id t) prelude_values) p ->
  Forall (fun t => decl_fits (ti_decl t)) p ->
  (forall t u id, In t p -> In u (member_types (ti_decl t)) -> mentions u id -> ~ In id plain_types) ->
  length rs = length p -> holds items (combine rs p) ->
  (types_wf items /\ impls_wf items /\ typed items <-> rust_ok p).
Proof.
  intros L gfuel c gs p rs items G Pl A T Fi M Le Hh. destruct (C74_types_exact p rs items A T Fi M Le Hh) as [E I]. split.
  - intros (W & _ & Ty). apply E in W. now apply (proj1 (C71_exact L gfuel c gs p rs items G W Pl Le Hh)).
  - intros OK. pose proof (proj2 E (proj1 OK)) as W. split; [exact W|]. split; [now apply I|]. now apply (proj1 (C71_exact L gfuel c gs p rs items G (proj1 OK) Pl Le Hh)).
Qed.
Print Assumptions C74_exact.

(** From the use of the macro: the text it emits is read as items that keep the rules. *)
Theorem C74_macro : forall (L : Libs) fuel gfuel k manifest args i o,
  expand fuel gfuel k manifest args (Some i) = Ok o -> accepted_output o -> names_apart (om_types o) ->
  exists text items, (exists path s fns, chain fuel gfuel k path s (om_types o) text items fns)
    /\ (exists enough, forall n, enough <= n -> file n text = Some items)
    /\ type_names items = map ti_id (om_types o) /\ types_wf items /\ impls_wf items /\ typed items.
Proof.
  intros L fuel gfuel k manifest args i o E A N. destruct (C72_chain L _ _ _ _ _ _ _ E A N) as (dir & arg & s & text & items & fns & _ & _ & Ch & T).
  exists text, items. split; [eauto|]. split; [apply (ch_items _ _ _ _ _ _ _ _ _ Ch)|].
  destruct Ch as [_ G OK (rs & F & Et) (n & Ei) _]. assert (M : mapM (generate_element gfuel (s_context s)) (map fst (sc_elements (s_context s))) = Ok (om_types o)) by (rewrite mapM_map; exact G).
  destruct (C70_module L _ _ _ _ M OK N) as (rs' & items' & F' & Hh & n' & Ei'). assert (rs' = rs) as -> by (eapply F2_same; eauto). subst text.
  specialize (Ei (n + n') ltac:(lia)). specialize (Ei' (n + n') ltac:(lia)). assert (items' = items) as -> by congruence.
  assert (Le : length rs = length (om_types o)) by (apply mapM_ok in M; apply F2_length in M; apply F2_length in F; congruence).
  split; [rewrite (names_eq items _ Hh); now rewrite combine_snd|]. destruct (C74_items (om_types o) rs items (proj1 OK)) as [W I]; auto.
  eapply Forall_impl; [|exact N]. intros t K J. apply K. apply in_or_app. now left.
Qed.
Print Assumptions C74_macro.

(** The text for the schema of C63. *)
Example C74_example : exists text items,
  (exists enough, forall n, enough <= n -> file n text = Some items)
  /\ type_names items = ["OrderCa"; "Order"] /\ length (impls items) = 6 /\ types_wf items /\ impls_wf items /\ typed items.
Proof.
  assert (Ex : expand 40 40 order_disk (Some "crate") order_args (Some order_mod) = Ok order_out) by by_compute.
  assert (OK : rust_ok (module_of ex_order)) by (apply rust_accepts; by_compute).
  assert (A : accepted_output order_out).
  { split; [repeat constructor|]. split; [exact OK|]. apply nodupb_NoDup. by_compute. }
  assert (Na : names_apart (module_of ex_order)) by (vm_compute; repeat constructor; intuition discriminate).
  destruct (C74_macro _ _ _ _ _ _ _ _ Ex A Na) as (text & items & (path & s & fns & Ch) & E & N & W & I & T). exists text, items. split; [exact E|]. split; [rewrite N; by_compute|].
  split; [|auto]. destruct Ch as [_ G _ (rs & F & Et) _ _]. assert (M : mapM (generate_element 40 (s_context s)) (map fst (sc_elements (s_context s))) = Ok (om_types order_out)) by (rewrite mapM_map; exact G).
  destruct (C70_module _ _ _ _ _ M OK Na) as (rs' & items' & F' & Hh & n' & Ei'). assert (rs' = rs) as -> by (eapply F2_same; eauto). subst text. destruct E as (n & Ei).
  specialize (Ei (n + n') ltac:(lia)). specialize (Ei' (n + n') ltac:(lia)). assert (items' = items) as -> by congruence.
  assert (Le : length rs = length (om_types order_out)) by (apply mapM_ok in M; apply F2_length in M; apply F2_length in F; congruence).
  rewrite (impls_eq items _ Hh), combine_snd by exact Le. by_compute.
Qed.

(** Modules whose text breaks a rule: two types of one name, two fields of one name, a
    type that contains itself, a type that is not there. *)
Definition breaks (d : xelem) (rule : list pitem -> Prop) : Prop :=
  mapM (generate_element 40 (ctx_of d)) (Samples.names_of d) = Ok (module_of d)
  /\ forall rs items, length rs = length (module_of d) -> holds items (combine rs (module_of d)) -> ~ rule items.
Fixpoint refs (t : rty) : list string := match t with TRef id => [id] | TVec t | TOpt t => refs t | _ => [] end.
Lemma refs_ok t id : mentions t id -> In id (refs t).
Proof. induction 1; cbn; auto. Qed.
Lemma breaks_types d : mapM (generate_element 40 (ctx_of d)) (Samples.names_of d) = Ok (module_of d) ->
  ~ decls_ok (module_of d) -> Forall (fun t => ~ In (ti_id t) builtin_names) (module_of d) ->
  Forall (fun t => is_tuple (ti_decl t) -> ~ In (ti_id t) prelude_values) (module_of d) -> Forall (fun t => decl_fits (ti_decl t)) (module_of d) ->
  forallb (fun t => forallb (fun u => forallb (fun id => negb (existsb (String.eqb id) plain_types)) (refs u)) (member_types (ti_decl t))) (module_of d) = true -> breaks d types_wf.
Proof.
  intros G N A T Fi M. split; [exact G|]. intros rs items Le Hh W. apply N. apply (C74_types_exact _ rs items A T Fi); auto. intros t u id I Iu R J. apply refs_ok in R.
  rewrite forallb_forall in M. specialize (M t I). cbn beta in M. rewrite forallb_forall in M. specialize (M u Iu). cbn beta in M. rewrite forallb_forall in M. specialize (M id R).
  apply negb_true_iff in M. assert (X : existsb (String.eqb id) plain_types = true) by (apply existsb_exists; exists id; split; [exact J|apply String.eqb_refl]). congruence.
Qed.
Ltac breaks_by t := apply breaks_types; [by_compute|t|vm_compute; repeat constructor; intuition discriminate|
  vm_compute; repeat constructor; intuition discriminate|vm_compute; repeat constructor; try discriminate; eauto|by_compute].
Lemma bad_decl p : forallb (fun t => decl_b p (ti_decl t)) p = false -> ~ decls_ok p.
Proof.
  intros F D. pose proof (ds_decls p D) as K. assert (X : forallb (fun t => decl_b p (ti_decl t)) p = true); [|congruence].
  revert K. apply forallb_Forall. intros t. apply decl_b_iff.
Qed.
Example C74_names : breaks (xschema [] [xtyped "foo-bar" "xs:int"; xtyped "fooBar" "xs:int"]) types_wf.
Proof.
  breaks_by ltac:(intros D; pose proof (ds_distinct _ D) as N; apply nodupb_iff in N; vm_compute in N; discriminate N).
Qed.
Example C74_fields : breaks (xschema [] [xelement [at_ "name" "a"]
  [xcomplex [xsequence [xtyped "id" "xs:int"]; xs "attribute" [at_ "name" "id"; at_ "type" "xs:string"] []]]]) types_wf.
Proof. breaks_by ltac:(apply bad_decl; by_compute). Qed.
Example C74_missing : breaks (xschema [] [xelement [at_ "name" "a"] [xcomplex [xsequence [xtyped "b" "nowhere"]]]]) types_wf.
Proof. breaks_by ltac:(apply bad_decl; by_compute). Qed.
Example C74_recursion : breaks (xschema [] [xs "complexType" [at_ "name" "tree"]
  [xsequence [xelement ([at_ "name" "left"; at_ "type" "tree"] ++ occ "0" "1") []; xtyped "leaf" "xs:int"]]]) types_wf.
Proof. breaks_by ltac:(intros D; pose proof (ds_sized _ D) as N; revert N; apply (cycle_unsized _ "Tree" []); by_compute). Qed.

(** The rules are those of Rust: texts that are read as items and that break one. *)
Definition read_items (s : string) : list pitem := match file 100 (quote s []) with Some l => l | None => [] end.
Definition a_type : string := "#[derive(Debug, Clone, PartialEq)] pub struct A(pub String);".
Definition a_from : string := "impl ::std::str::FromStr for A { type Err = xsd::decode::DecodeError; fn from_str(s: &str) -> Result<Self, Self::Err> { Ok(A(s.to_string())) } }".
Definition read_as_items (s : string) (l : list pitem) : Prop := file 100 (quote s []) = Some l /\ l <> [].
Ltac reads := split; [by_compute|discriminate].
(** A trait implemented twice; *)
Example C74_twice : exists items, read_as_items (a_type +++ a_from +++ a_from) items /\ ~ impls_wf items.
Proof. eexists. split; [reads|]. intros W. pose proof (if_coherent _ W) as N. apply NoDup_cons_iff in N. destruct N as [N _]. apply N. now left. Qed.
(** ... without its associated type; with a function of another type; *)
Lemma not_conforming items i l : In (IImpl i) items -> pi_trait i = Some l -> ~ conforms i l -> ~ impls_wf items.
Proof. intros I E N W. apply N, (if_traits _ W); [|exact E]. apply in_flat_map. exists (IImpl i). split; [exact I|now left]. Qed.
Example C74_assoc : exists items,
  read_as_items (a_type +++ "impl ::std::str::FromStr for A { fn from_str(s: &str) -> Result<Self, Self::Err> { Ok(A(s.to_string())) } }") items /\ ~ impls_wf items.
Proof.
  eexists. split; [reads|]. eapply not_conforming; [right; now left|reflexivity|]. intros (ts & fns & E & _ & T & _). vm_compute in E. injection E as <- <-. destruct (proj2 (T "Err") (or_introl eq_refl)).
Qed.
Example C74_signature : exists items,
  read_as_items (a_type +++ "impl ::std::str::FromStr for A { type Err = xsd::decode::DecodeError; fn from_str(s: String) -> Result<Self, Self::Err> { Ok(A(s)) } }") items /\ ~ impls_wf items.
Proof.
  eexists. split; [reads|]. eapply not_conforming; [right; now left|reflexivity|]. intros (ts & fns & E & _ & _ & _ & F & _). vm_compute in E. injection E as <- <-.
  destruct (proj1 (F _) (or_introl eq_refl)) as [X|[]]. discriminate X.
Qed.
(** ... for a type that is not of the module. *)
Example C74_orphan : exists items, read_as_items (a_type +++ "impl B { pub fn to_xml(&self) -> bool { true } }") items /\ ~ impls_wf items.
Proof. eexists. split; [reads|]. intros W. destruct (if_type _ W _ (or_introl eq_refl)) as [X|[]]. discriminate X. Qed.
(** A function with the name of another; *)
Example C74_method : exists items, read_as_items (a_type +++ "impl A { pub fn f(&self) -> bool { true } } impl A { pub fn f(&self) -> bool { false } }") items /\ ~ impls_wf items.
Proof. eexists. split; [reads|]. intros W. pose proof (if_inherent _ W) as N. apply NoDup_cons_iff in N. destruct N as [N _]. apply N. now left. Qed.
(** ... with a lifetime that is not declared. *)
Example C74_lifetime : exists items, read_as_items (a_type +++ "impl A { pub fn f(input: Input<'a>) -> bool { true } }") items /\ ~ impls_wf items.
Proof.
  eexists. split; [reads|]. intros W. pose proof (if_functions _ W _ _ (or_introl eq_refl) (or_introl eq_refl)) as F. exact (fw_lifes _ F _ "a" (or_introl (or_introl eq_refl)) (or_introl eq_refl)).
Qed.
(** A derive that a field does not allow. *)
Example C74_derive : exists items, read_as_items ("#[derive(Debug)] pub struct B(pub String); #[derive(Debug, Clone)] pub struct C { pub b: B, }") items /\ ~ impls_wf items.
Proof.
  eexists. split; [reads|]. intros W. destruct (if_derives _ W _ (or_intror (or_introl eq_refl))) as [_ D]. specialize (D "Clone" _ (or_intror (or_introl eq_refl)) (or_introl eq_refl)).
  revert D. match goal with |- has_trait ?l _ _ -> _ => assert (X : forall t, has_trait l "Clone" t -> t <> TyPath ["B"] []); [|intros D; exact (X _ D eq_refl)] end.
  intros t D. destruct D as [_|y Iy It|x _ _ K|x t _ _ _ _|_ _]; intros E; try discriminate E.
  - destruct Iy as [X|[X|[]]]; injection X as <-; cbn in *; [intuition discriminate|discriminate].
  - injection E as ->. apply K. now left.
Qed.
