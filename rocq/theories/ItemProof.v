(** * ItemProof: the items of generated modules (proofs for C74) *)
From Verif Require Import Base Libs Xml Ast Gen Emit Rust Body RustSpec EmitSpec GramSpec GramItem TypingSpec TypingItems ItemSpec.
From Coq Require Import Lia.

(** ** The items of a module *)
Section Module.
Variables (items : list pitem) (l : list (root * titem)).
Hypothesis Hh : holds items l.
Notation p := (map snd l).

Lemma names_eq : type_names items = map ti_id p.
Proof.
  induction Hh as [|y r t its l' (sh & -> & _) H IH]; [reflexivity|]. unfold type_names in *. cbn [flat_map map snd]. rewrite flat_map_app.
  replace (flat_map _ (map IImpl (impls_of t))) with (@nil string) by (symmetry; clear; induction (impls_of t) as [|i k IH]; [reflexivity|exact IH]).
  cbn [app yi_name]. now rewrite (IH H).
Qed.
Lemma impls_eq : impls items = flat_map impls_of p.
Proof.
  induction Hh as [|y r t its l' _ H IH]; [reflexivity|]. unfold impls in *. cbn [flat_map map snd]. rewrite flat_map_app, (IH H). cbn [app]. f_equal.
  clear. induction (impls_of t) as [|i k IH]; [reflexivity|]. cbn [map flat_map app]. now rewrite IH.
Qed.
Lemma known_defined id : known items id <-> defined p id.
Proof. unfold known, defined. now rewrite names_eq. Qed.
Lemma impls_in i : In i (impls items) <-> exists t, In t p /\ In i (impls_of t).
Proof. rewrite impls_eq. apply in_flat_map. Qed.
Lemma types_in y : In (IType y) items -> exists r t, In t p /\ describes y r t.
Proof. apply (type_in items l p Hh). reflexivity. Qed.
Lemma in_types t : In t p -> exists y r, In (IType y) items /\ describes y r t.
Proof. apply (in_type items l p Hh). reflexivity. Qed.

(** ** Declarations *)
Lemma shape_names_eq sh docs d : declares sh docs d -> shape_names sh = match d with DTuple _ _ => [] | DEnum vs => map fst vs | DStruct fs | DChoice fs => map fst fs end.
Proof.
  destruct 1 as [t u b D|vs vs' F|fs docs fs' F|vs vs' F]; cbn [shape_names]; [reflexivity| | |].
  - induction F as [|v v' vs vs' (A & _) F IH]; [reflexivity|]. cbn [map]. now rewrite A, IH.
  - clear H. induction F as [|v v' vs vs' (_ & A & _) F IH]; [reflexivity|]. cbn [map]. now rewrite A, IH.
  - induction F as [|v v' vs vs' (A & _) F IH]; [reflexivity|]. cbn [map]. now rewrite A, IH.
Qed.
Lemma shape_types_eq sh docs d : declares sh docs d -> Forall2 denotes (shape_types sh) (member_types d).
Proof.
  destruct 1 as [t u b D|vs vs' F|fs docs fs' F|vs vs' F]; cbn [shape_types member_types].
  - repeat constructor. exact D.
  - induction F as [|v v' vs vs' (_ & A & _) F IH]; [constructor|]. cbn [flat_map]. now rewrite A.
  - clear H. induction F as [|v v' vs vs' (_ & _ & A) F IH]; cbn [map]; constructor; auto.
  - induction F as [|v v' vs vs' (_ & (t & A & B) & _) F IH]; cbn [map flat_map]; [constructor|]. rewrite A. constructor; auto.
Qed.
(** The names that types of the module may not have. *)
Definition builtin_names : list string := primitive_names ++ prelude_types.
Hypothesis Ap : Forall (fun t => ~ In (ti_id t) builtin_names) p.
Lemma builtin_unknown x : In x builtin_names -> ~ known items x.
Proof.
  intros I K. apply known_defined in K. unfold defined in K. apply in_map_iff in K. destruct K as (t & <- & K). rewrite Forall_forall in Ap. exact (Ap t K I).
Qed.
Ltac builtin := apply builtin_unknown; cbn; tauto.
Lemma denotes_wf t u : denotes t u -> type_ok p u -> type_wf items t.
Proof.
  induction 1; intros T; try (apply tw_plain; [cbn; tauto|builtin]).
  - constructor.
  - apply tw_decimal. builtin.
  - apply tw_known. apply known_defined. now inversion T.
  - apply tw_generic; [cbn; tauto|builtin|]. apply IHdenotes. now inversion T.
  - apply tw_generic; [cbn; tauto|builtin|]. apply IHdenotes. now inversion T.
Qed.
Lemma denotes_in_place t u id : denotes t u -> (in_place items t id -> by_value u id) /\ (defined p id -> by_value u id -> in_place items t id).
Proof.
  intros D. split.
  - intros I. revert u D. induction I as [id K|t id K I IH]; intros u D.
    + inversion D; subst; try (exfalso; refine (builtin_unknown _ _ K); cbn; tauto). constructor.
    + inversion D; subst. constructor. auto.
  - intros K I. induction D; inversion I; subst.
    + apply ip_known. now apply known_defined.
    + apply ip_option; [builtin|auto].
Qed.
(** A type that a type expression of the IR refers to. *)
Inductive mentions : rty -> string -> Prop :=
| mt_ref id : mentions (TRef id) id
| mt_vec t id : mentions t id -> mentions (TVec t) id
| mt_opt t id : mentions t id -> mentions (TOpt t) id.
Lemma wf_denotes t u : denotes t u -> (forall id, mentions u id -> ~ In id plain_types) -> type_wf items t -> type_ok p u.
Proof.
  induction 1; intros M T; try (now constructor).
  - constructor. inversion T; subst; [now apply known_defined|]. exfalso. apply (M id); [constructor|assumption].
  - constructor. apply IHdenotes; [intros; apply M; now constructor|]. now inversion T.
  - constructor. apply IHdenotes; [intros; apply M; now constructor|]. now inversion T.
Qed.
Lemma F2_in {A B} (R : A -> B -> Prop) xs ys : Forall2 R xs ys -> forall x, In x xs -> exists y, In y ys /\ R x y.
Proof. induction 1 as [|x y xs ys H F IH]; intros z [].
  - subst. exists y. cbn. auto.
  - destruct (IH z H0) as (w & I & K). exists w. cbn. auto.
Qed.
Lemma F2_flip {A B} (R : A -> B -> Prop) xs ys : Forall2 R xs ys -> forall y, In y ys -> exists x, In x xs /\ R x y.
Proof. induction 1 as [|x y xs ys H F IH]; intros z [].
  - subst. exists x. cbn. auto.
  - destruct (IH z H0) as (w & I & K). exists w. cbn. auto.
Qed.

Lemma decl_types d : decl_ok p d -> Forall (type_ok p) (member_types d).
Proof. destruct 1 as [t b T _|vs _ _ _|fs (_ & _ & T)|fs _ (_ & _ & T)]; cbn [member_types]; auto. Qed.
Lemma decl_names d : decl_ok p d -> let ns := match d with DTuple _ _ => [] | DEnum vs => map fst vs | DStruct fs | DChoice fs => map fst fs end in NoDup ns /\ Forall plain_ident ns.
Proof. destruct 1 as [t b T _|vs _ A B|fs (A & B & _)|fs _ (A & B & _)]; cbn; auto. split; constructor. Qed.

Lemma types_good : decls_ok p -> types_wf items.
Proof.
  intros D. constructor.
  - rewrite names_eq. apply (ds_distinct p D).
  - rewrite names_eq. pose proof (ds_names p D) as N. apply Forall_forall. intros x I. apply in_map_iff in I. destruct I as (t & <- & I). rewrite Forall_forall in N. apply (N t I).
  - intros y I. apply types_in in I. destruct I as (r & t & I & sh & -> & Ds). cbn [yi_shape]. pose proof (ds_decls p D) as K. rewrite Forall_forall in K. specialize (K t I).
    rewrite (shape_names_eq _ _ _ Ds). destruct (decl_names _ K) as [A B]. split; [exact A|]. split; [exact B|]. pose proof (decl_types _ K) as T. pose proof (shape_types_eq _ _ _ Ds) as F.
    apply Forall_forall. intros x Ix. destruct (F2_in _ _ _ F x Ix) as (u & Iu & Du). rewrite Forall_forall in T. eapply denotes_wf; eauto.
  - destruct (ds_sized p D) as (rank & R). exists rank. intros y x id I Ix Ip. apply types_in in I. destruct I as (r & t & I & sh & -> & Ds). cbn [yi_shape yi_name] in *.
    destruct (F2_in _ _ _ (shape_types_eq _ _ _ Ds) x Ix) as (u & Iu & Du). apply (R t u id I Iu). now apply (proj1 (denotes_in_place x u id Du)).
Qed.

(** Conditions of decls_ok that are not about declarations: which of the prelude's names
    are hidden, and what the templates need. *)
Definition decl_fits (d : decl) : Prop :=
  match d with
  | DTuple t b => b = true -> exists q, t = TPrim q
  | DEnum vs => vs <> []
  | DChoice vs => vs <> []
  | DStruct _ => True
  end.
Lemma types_needed : Forall (fun t => is_tuple (ti_decl t) -> ~ In (ti_id t) prelude_values) p -> Forall (fun t => decl_fits (ti_decl t)) p ->
  (forall t u id, In t p -> In u (member_types (ti_decl t)) -> mentions u id -> ~ In id plain_types) ->
  types_wf items -> decls_ok p.
Proof.
  intros Tu Fi Me W. constructor.
  - rewrite <- names_eq. apply (tf_distinct _ W).
  - pose proof (tf_idents _ W) as N. rewrite names_eq in N. apply Forall_forall. intros t I. rewrite Forall_forall in *. split; [apply N; now apply in_map|]. split.
    + intros K. apply (Ap t I). apply in_or_app. now right.
    + now apply Tu.
  - apply Forall_forall. intros t I. destruct (in_types t I) as (y & r & Iy & sh & -> & Ds). destruct (tf_members _ W _ Iy) as (A & B & C). cbn [yi_shape] in *.
    rewrite (shape_names_eq _ _ _ Ds) in A, B. rewrite Forall_forall in Fi. specialize (Fi t I). pose proof (shape_types_eq _ _ _ Ds) as F.
    assert (T : Forall (type_ok p) (member_types (ti_decl t))).
    { apply Forall_forall. intros u Iu. destruct (F2_flip _ _ _ F u Iu) as (x & Ix & Dx). rewrite Forall_forall in C. apply (wf_denotes x u Dx); [|auto]. intros id M. now apply (Me t u id). }
    clear - A B Fi T. destruct (ti_decl t) as [u b|vs|fs|fs]; cbn [decl_fits member_types] in *.
    + constructor; [now inversion T|exact Fi].
    + now constructor.
    + constructor. split; [exact A|]. split; [exact B|exact T].
    + constructor; [exact Fi|]. split; [exact A|]. split; [exact B|exact T].
  - destruct (tf_sized _ W) as (rank & R). 
    exists (fun x => match in_dec string_dec x (map ti_id p) with left _ => S (rank x) | right _ => 0 end).
    intros t u id I Iu Bv. destruct (in_dec string_dec (ti_id t) (map ti_id p)) as [_|K]; [|destruct K; now apply in_map].
    destruct (in_dec string_dec id (map ti_id p)) as [K|K]; [|lia]. apply -> Nat.succ_lt_mono. destruct (in_types t I) as (y & r & Iy & sh & -> & Ds).
    destruct (F2_flip _ _ _ (shape_types_eq _ _ _ Ds) u Iu) as (x & Ix & Dx). apply (R _ x id Iy Ix). now apply (proj2 (denotes_in_place x u id Dx)).
Qed.

(** ** Derives *)
Lemma denotes_trait tr t u : In tr common_traits -> denotes t u -> type_ok p u -> has_trait items tr t.
Proof.
  intros C. induction 1; intros T; try (apply ht_plain; [exact C|cbn; tauto|builtin]).
  - now constructor.
  - apply ht_decimal; [exact C|builtin].
  - inversion T as [| |id' K| |]; subst. apply in_map_iff in K. destruct K as (t & <- & I). destruct (in_types t I) as (y & r & Iy & sh & -> & Ds). now apply (ht_derived items tr _ Iy).
  - apply ht_generic; [exact C|cbn; tauto|builtin|]. apply IHdenotes. now inversion T.
  - apply ht_generic; [exact C|cbn; tauto|builtin|]. apply IHdenotes. now inversion T.
Qed.

(** ** Implementations *)
Lemma fn_of_in t f q : In q (fn_of t f) -> exists g pub gs tys ret, item_fn t f = Some g /\ signature f = Some (pub, gs, tys, ret)
  /\ q = mkPfn pub f gs (combine (fn_params g) tys) ret (as_body (untyped (fn_body g))).
Proof.
  unfold fn_of. destruct (item_fn t f) as [g|]; [|intros []]. destruct (signature f) as [[[[pub gs] tys] ret]|]; [|intros []]. intros [<-|[]]. exists g, pub, gs, tys, ret. auto.
Qed.
Lemma params_of t f g : item_fn t f = Some g -> fn_params g =
  if ((f =?s "from_xml"))%bool then ["input"] else if ((f =?s "from_xml_node") || (f =?s "lookahead"))%bool then ["node"] else if ((f =?s "to_xml") || (f =?s "as_str"))%bool then ["self"]
  else if f =?s "to_xml_writer" then ["self"; "ctx"; "writer"] else if f =?s "from_str" then ["s"] else ["self"; "f"].
Proof.
  unfold item_fn. destruct (String.eqb_spec f "from_xml") as [->|]; [intros [= <-]; reflexivity|]. destruct (String.eqb_spec f "from_xml_node") as [->|]; [intros [= <-]; reflexivity|].
  destruct (String.eqb_spec f "lookahead") as [->|]; [intros [= <-]; reflexivity|]. destruct (String.eqb_spec f "to_xml") as [->|]; [intros [= <-]; reflexivity|].
  destruct (String.eqb_spec f "to_xml_writer") as [->|]; [intros [= <-]; reflexivity|]. destruct (ti_decl t) as [ty [|]|vs|fs|fs]; try discriminate.
  - destruct (String.eqb_spec f "from_str") as [->|]; [intros [= <-]; reflexivity|]. destruct (String.eqb_spec f "fmt") as [->|]; [intros [= <-]; reflexivity|discriminate].
  - destruct (String.eqb_spec f "from_str") as [->|]; [intros [= <-]; reflexivity|]. destruct (String.eqb_spec f "as_str") as [->|]; [intros [= <-]; reflexivity|].
    destruct (String.eqb_spec f "fmt") as [->|]; [intros [= <-]; reflexivity|discriminate].
Qed.
Definition all_names : list string := ["from_xml"; "from_xml_node"; "lookahead"; "to_xml"; "to_xml_writer"; "from_str"; "as_str"; "fmt"].
Lemma sig_names f x : signature f = Some x -> In f all_names.
Proof.
  unfold signature. repeat match goal with |- context [if ?f =?s ?s then _ else _] => destruct (String.eqb_spec f s) as [->|]; [intros _; cbn; tauto|] end. discriminate.
Qed.
Lemma fn_of_wf t f q : In q (fn_of t f) -> fn_wf q.
Proof.
  intros I. apply fn_of_in in I. destruct I as (g & pub & gs & tys & ret & G & Sg & ->). apply params_of in G. pose proof (sig_names _ _ Sg) as N. generalize dependent (fn_body g). intros b. rewrite G. clear G.
  cbn [all_names In] in N. repeat (destruct N as [<-|N]; [vm_compute in Sg; injection Sg as <- <- <- <-; constructor; cbn;
    [repeat constructor; cbn; intuition discriminate|repeat constructor; cbn; intuition discriminate|
     intros u x U; repeat (destruct U as [U|U]); try contradiction; try discriminate U; try (injection U as <-); subst; cbn; intuition|
     intuition discriminate]|]). destruct N.
Qed.

Lemma own_fn t f : In f ["to_xml"; "to_xml_writer"; "from_xml"; "from_xml_node"; "lookahead"] -> exists q, fn_of t f = [q] /\ pf_name q = f.
Proof.
  intros I. unfold fn_of. cbn [In] in I. repeat (destruct I as [<-|I]; [eexists; split; [reflexivity|reflexivity]|]). destruct I.
Qed.
Lemma flat_map_flat {A B C} (f : A -> list B) (g : B -> list C) xs : flat_map g (flat_map f xs) = flat_map (fun x => flat_map g (f x)) xs.
Proof. induction xs as [|x xs IH]; [reflexivity|]. cbn [flat_map]. now rewrite flat_map_app, IH. Qed.
Lemma nodup_keys {A B} (g : A -> list B) (k : A -> string) (pr : B -> string) xs :
  NoDup (map k xs) -> (forall x, NoDup (g x)) -> (forall x b, In b (g x) -> pr b = k x) -> NoDup (flat_map g xs).
Proof.
  intros N G P. induction xs as [|x xs IH]; [constructor|]. cbn [map flat_map] in *. apply NoDup_cons_iff in N. destruct N as [N1 N2]. specialize (IH N2).
  pose proof (G x) as Gx. pose proof (P x) as Px. clear G. induction (g x) as [|b l0 IHl]; [exact IH|]. cbn [app]. apply NoDup_cons_iff in Gx. destruct Gx as [G1 G2]. constructor.
  - intros I. apply in_app_or in I. destruct I as [I|I]; [now apply G1|]. apply in_flat_map in I. destruct I as (z & Iz & Ib). apply N1. rewrite <- (Px b (or_introl eq_refl)), (P z b Ib). now apply in_map.
  - apply IHl; [exact G2|]. intros b' I. apply Px. now right.
Qed.
Definition trait_key (i : pimpl) : list (list string * string) := match pi_trait i with Some l => [(l, pi_type i)] | None => [] end.
Lemma traits_once t : NoDup (flat_map trait_key (impls_of t)).
Proof.
  unfold impls_of. destruct (ti_decl t) as [ty [|]|vs|fs|fs]; cbn [app flat_map trait_key pi_trait pi_type]; repeat constructor; cbn; intuition discriminate.
Qed.
Lemma traits_coherent : NoDup (map ti_id p) -> NoDup (trait_keys items).
Proof.
  intros N. unfold trait_keys. rewrite impls_eq. change (fun i => match pi_trait i with Some l => [(l, pi_type i)] | None => [] end) with trait_key. rewrite flat_map_flat.
  apply (nodup_keys _ ti_id snd); [exact N|intros t; apply traits_once|]. intros t b I. apply in_flat_map in I. destruct I as (i & Ii & Ib). unfold trait_key in Ib.
  destruct (pi_trait i); [|destruct Ib]. destruct Ib as [<-|[]]. cbn [snd]. eapply impls_type; eauto.
Qed.
Definition inherent_key (i : pimpl) : list (string * string) := match pi_trait i with Some _ => [] | None => map (fun q => (pi_type i, pf_name q)) (pi_fns i) end.
Lemma inherent_names t : flat_map inherent_key (impls_of t)
  = map (pair (ti_id t)) (match ti_decl t with DEnum _ => ["as_str"] | _ => [] end ++ ["to_xml"; "to_xml_writer"; "from_xml"; "from_xml_node"; "lookahead"]).
Proof.
  assert (O : forall f, In f ["to_xml"; "to_xml_writer"; "from_xml"; "from_xml_node"; "lookahead"] -> map (fun q => (ti_id t, pf_name q)) (fn_of t f) = [(ti_id t, f)]).
  { intros f I. destruct (own_fn t f I) as (q & -> & <-). reflexivity. }
  assert (K : flat_map inherent_key [mkPimpl None (ti_id t) [] (flat_map (fn_of t) ["to_xml"; "to_xml_writer"]); mkPimpl None (ti_id t) [] (flat_map (fn_of t) ["from_xml"; "from_xml_node"]); mkPimpl None (ti_id t) [] (flat_map (fn_of t) ["lookahead"])]
    = map (pair (ti_id t)) ["to_xml"; "to_xml_writer"; "from_xml"; "from_xml_node"; "lookahead"]).
  { unfold inherent_key. cbn [flat_map pi_trait pi_type pi_fns]. rewrite !app_nil_r, !map_app, !O by (cbn; tauto). reflexivity. }
  unfold impls_of. rewrite flat_map_app, K, map_app. f_equal. unfold inherent_key. destruct (ti_decl t) as [ty [|]|vs|fs|fs] eqn:E; try reflexivity.
  cbn [flat_map pi_trait pi_type pi_fns app]. rewrite !app_nil_r. unfold fn_of, item_fn. rewrite E. reflexivity.
Qed.
Lemma inherent_once : NoDup (map ti_id p) -> NoDup (inherent_keys items).
Proof.
  intros N. unfold inherent_keys. rewrite impls_eq. change (fun i => match pi_trait i with Some _ => [] | None => map (fun q => (pi_type i, pf_name q)) (pi_fns i) end) with inherent_key. rewrite flat_map_flat.
  apply (nodup_keys _ ti_id fst); [exact N| |].
  - intros t. rewrite inherent_names. destruct (ti_decl t); cbn [app map]; repeat constructor; cbn; intuition discriminate.
  - intros t b I. rewrite inherent_names in I. apply in_map_iff in I. destruct I as (f & <- & _). reflexivity.
Qed.
Lemma impl_fns t i q : In i (impls_of t) -> In q (pi_fns i) -> exists f, In q (fn_of t f).
Proof.
  unfold impls_of. intros Hi Hq. apply in_app_or in Hi as [Hi|Hi].
  - destruct (ti_decl t) as [ty [|]|vs|fs|fs]; cbn [In] in Hi; repeat match goal with H : _ \/ _ |- _ => destruct H end; try contradiction; subst; cbn [pi_fns] in Hq;
      try (apply in_flat_map in Hq as (g & _ & Hq)); eauto.
  - cbn [In] in Hi. repeat match goal with H : _ \/ _ |- _ => destruct H end; try contradiction; subst; cbn [pi_fns] in Hq; apply in_flat_map in Hq as (g & _ & Hq); eauto.
Qed.
Lemma one_sig (q : pfn) s : (forall x, In x (map sig_of [q]) <-> In x [s]) <-> sig_of q = s.
Proof.
  cbn [map In]. split; [|intros <- x; reflexivity]. intros H. destruct (proj1 (H (sig_of q)) (or_introl eq_refl)) as [E|[]]. now symmetry.
Qed.
Lemma trait_fn t f : (f = "from_str" \/ f = "fmt") -> (exists ty, ti_decl t = DTuple ty true) \/ (exists vs, ti_decl t = DEnum vs) ->
  exists q, fn_of t f = [q] /\ pf_pub q = false /\ pf_generics q = [] /\ pf_name q = f
    /\ (f = "from_str" -> sig_of q = ("from_str", [PtRef false (here ["str"])], result this (here ["Self"; "Err"])))
    /\ (f = "fmt" -> sig_of q = ("fmt", [PtRef false this; PtRef true (here [""; "std"; "fmt"; "Formatter"])], Some (here [""; "std"; "fmt"; "Result"]))).
Proof.
  intros F D. unfold fn_of, item_fn. destruct F as [-> | ->], D as [(ty & ->)|(vs & ->)]; cbn [String.eqb Ascii.eqb Bool.eqb signature];
    (eexists; split; [reflexivity|]; split; [reflexivity|]; split; [reflexivity|]; split; [reflexivity|]; split; (intros X; discriminate X || reflexivity)).
Qed.
Lemma trait_impls t i l0 : In i (impls_of t) -> pi_trait i = Some l0 -> conforms i l0.
Proof.
  intros I E. assert (D : ((exists ty, ti_decl t = DTuple ty true) \/ (exists vs, ti_decl t = DEnum vs))
    /\ (i = mkPimpl (Some [""; "std"; "str"; "FromStr"]) (ti_id t) [("Err", decode_error)] (fn_of t "from_str")
        \/ i = mkPimpl (Some [""; "std"; "fmt"; "Display"]) (ti_id t) [] (fn_of t "fmt"))).
  { unfold impls_of in I. destruct (ti_decl t) as [ty [|]|vs|fs|fs]; cbn [In app] in I; repeat (destruct I as [<-|I]; [try discriminate E; split; eauto|]); destruct I. }
  destruct D as (D & [-> | ->]); cbn [pi_trait] in E; injection E as <-.
  - destruct (trait_fn t "from_str" (or_introl eq_refl) D) as (q & -> & A & B & C & S & _). exists ["Err"], [("from_str", [PtRef false (here ["str"])], result this (here ["Self"; "Err"]))].
    cbn [pi_types pi_fns]. split; [reflexivity|]. split; [repeat constructor; intros []|]. split; [reflexivity|]. split; [repeat constructor; intros []|]. split; [apply one_sig; now apply S|]. intros q' [<-|[]]. auto.
  - destruct (trait_fn t "fmt" (or_intror eq_refl) D) as (q & -> & A & B & C & _ & S). exists [], [("fmt", [PtRef false this; PtRef true (here [""; "std"; "fmt"; "Formatter"])], Some (here [""; "std"; "fmt"; "Result"]))].
    cbn [pi_types pi_fns]. split; [reflexivity|]. split; [constructor|]. split; [reflexivity|]. split; [repeat constructor; intros []|]. split; [apply one_sig; now apply S|]. intros q' [<-|[]]. auto.
Qed.
Lemma trait_last t i l0 : In i (impls_of t) -> pi_trait i = Some l0 -> last l0 "" = "FromStr" \/ last l0 "" = "Display".
Proof.
  intros I E. unfold impls_of in I. destruct (ti_decl t) as [ty [|]|vs|fs|fs]; cbn [In app] in I;
    repeat (destruct I as [<-|I]; [try discriminate E; cbn [pi_trait] in E; injection E as <-; auto|]); destruct I.
Qed.
Lemma impls_good : NoDup (map ti_id p) -> Forall (fun t => Forall (type_ok p) (member_types (ti_decl t))) p -> impls_wf items.
Proof.
  intros N T. constructor.
  - intros y I. apply types_in in I. destruct I as (r & t & I & sh & -> & Ds). cbn [yi_derives yi_shape]. split; [repeat constructor; cbn; intuition discriminate|].
    intros tr x It Ix. destruct (F2_in _ _ _ (shape_types_eq _ _ _ Ds) x Ix) as (u & Iu & Du). rewrite Forall_forall in T. specialize (T t I). rewrite Forall_forall in T. eapply denotes_trait; eauto.
  - intros i I. apply impls_in in I. destruct I as (t & I & J). rewrite (impls_type t i J). apply known_defined. now apply in_map.
  - intros i l0 I E. apply impls_in in I. destruct I as (t & I & J). eapply trait_impls; eauto.
  - now apply traits_coherent.
  - intros i l0 y tr I E Iy _ Id X. apply impls_in in I. destruct I as (t & I & J). apply types_in in Iy. destruct Iy as (r & t' & _ & sh & -> & _). cbn [yi_derives] in Id.
    destruct (trait_last t i l0 J E) as [K|K]; rewrite K in X; subst tr; cbn in Id; intuition discriminate.
  - now apply inherent_once.
  - intros i I E. apply impls_in in I. destruct I as (t & I & J). unfold impls_of in J. destruct (ti_decl t) as [ty [|]|vs|fs|fs]; cbn [In app] in J;
      repeat (destruct J as [<-|J]; [try discriminate E; reflexivity|]); destruct J.
  - intros i q I Iq. apply impls_in in I. destruct I as (t & I & J). destruct (impl_fns t i q J Iq) as (f & K). eapply fn_of_wf; eauto.
Qed.
End Module.
