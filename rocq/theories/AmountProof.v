(** * AmountProof: lemmas for C85 *)
From Verif Require Import Base Libs Xml Ast XsdNode Parse ParseSpec EndlessSpec EndlessProof CostSpec AmountSpec.
From Coq Require Import Lia.

(** ** Sizes of nodes *)
Definition inner (n : node) : nat := list_sum (map size (xe_children (n_elem n))).
Definition load_of (cs : list node) : nat := list_sum (map (fun n => size (n_elem n)) cs).
Lemma size_children x : size x = S (list_sum (map size (xe_children x))).
Proof.
  destruct x as [t n a s r ks]. unfold xe_children. cbn [size xe_kids]. f_equal.
  unfold list_sum in *. induction ks as [|[y|tx|y] ks IH]; cbn [map elems_of fold_right]; rewrite ?IH; reflexivity.
Qed.
Lemma size_inner n : size (n_elem n) = S (inner n).
Proof. apply size_children. Qed.
Lemma load_cons n cs : load_of (n :: cs) = S (inner n) + load_of cs.
Proof. unfold load_of. cbn [map list_sum fold_right]. now rewrite size_inner. Qed.
Lemma load_children n ns : load_of (n_children n ns) <= inner n.
Proof.
  unfold load_of, n_children, inner. rewrite map_map. cbn [n_elem node_of]. induction (xe_children (n_elem n)) as [|x l IH]; [apply le_n|].
  cbn [filter]. destruct (opt_eqb _ _ _); unfold list_sum in *; cbn [map fold_right n_elem node_of] in *; lia.
Qed.
Lemma load_filter g cs : load_of (filter g cs) <= load_of cs.
Proof. induction cs as [|x l IH]; [apply le_n|]. cbn [filter]. destruct (g x); rewrite ?load_cons; lia. Qed.
Lemma load_select s cs : load_of (select_all s cs) <= load_of cs.
Proof. apply load_filter. Qed.
Definition load_opt (o : option node) : nat := match o with Some n => S (inner n) | None => 0 end.
Lemma load_remove s ns cs : forall o cs', c_remove s ns cs = (o, cs') -> load_opt o + load_of cs' = load_of cs.
Proof.
  induction cs as [|x l IH]; intros o cs' H; cbn [c_remove] in H; [injection H as <- <-; reflexivity|].
  destruct (has_name s ns (n_elem x)); [injection H as <- <-; now rewrite load_cons|].
  destruct (c_remove s ns l) as [r l'] eqn:E. injection H as <- <-. specialize (IH _ _ eq_refl). rewrite !load_cons. lia.
Qed.
Lemma load_try p s ns cs n cs' : c_try_remove p s ns cs = Ok (n, cs') -> S (inner n) + load_of cs' = load_of cs.
Proof.
  unfold c_try_remove. destruct (c_remove s ns cs) as [[x|] l] eqn:E; [|discriminate]. intros [= <- <-]. exact (load_remove _ _ _ _ _ E).
Qed.
Lemma inner_try n s a n' : n_try_attribute n s = Ok (a, n') -> inner n' = inner n.
Proof. unfold n_try_attribute, n_attribute. destruct (attr_lookup _ _); [|discriminate]. now intros [= _ <-]. Qed.

(** ** What is in a context *)
Definition types_in (c : ctx) : nat := length (cx_roots c).
Definition parts_in (c : ctx) : nat := all_parts (cx_roots c).
Definition uses_in (c : ctx) : nat := all_uses (sh_dependencies (cx_shared c)).
Lemma all_parts_cons x l : all_parts (x :: l) = parts (snd x) + all_parts l.
Proof. reflexivity. Qed.
Lemma all_uses_cons x l : all_uses (x :: l) = length (snd x) + all_uses l.
Proof. reflexivity. Qed.
Lemma aset_length n (r : root) l : length (aset name_eqb n r l) <= S (length l).
Proof. induction l as [|[k v] l IH]; cbn [aset length]; [lia|]. destruct (name_eqb n k); cbn [length]; lia. Qed.
Lemma aset_parts n r l : all_parts (aset name_eqb n r l) <= parts r + all_parts l.
Proof. induction l as [|[k v] l IH]; cbn [aset]; [apply le_n|]. destruct (name_eqb n k); rewrite !all_parts_cons; cbn [snd]; lia. Qed.
Lemma fold_length l : forall m, length (fold_left (fun m nr => aset name_eqb (fst nr) (snd nr : root) m) l m) <= length l + length m.
Proof. induction l as [|x l IH]; intros m; cbn [fold_left length]; [lia|]. pose proof (IH (aset name_eqb (fst x) (snd x) m)). pose proof (aset_length (fst x) (snd x) m). lia. Qed.
Lemma fold_parts l : forall m, all_parts (fold_left (fun m nr => aset name_eqb (fst nr) (snd nr : root) m) l m) <= all_parts l + all_parts m.
Proof. induction l as [|x l IH]; intros m; cbn [fold_left]; [apply le_n|]. rewrite all_parts_cons. pose proof (IH (aset name_eqb (fst x) (snd x) m)). pose proof (aset_parts (fst x) (snd x) m). lia. Qed.
Lemma dependency_uses n p l : all_uses (add_dependency n p l) <= S (all_uses l).
Proof.
  unfold add_dependency. induction l as [|[k v] l IH]; [cbn; lia|]. cbn [aget aset] in *. destruct (name_eqb p k); rewrite !all_uses_cons; cbn [snd].
  - destruct (mem name_eqb n v); [lia|]. rewrite app_length. cbn [length]. lia.
  - lia.
Qed.

(** ** Parsing makes at most so many types, parts and uses *)
Section WithLibs.
Context {L : Libs}.
Definition grows {A} (t f d : nat) (w : A -> nat) (m : P A) : Prop :=
  forall c a c', m c = Ok (a, c') ->
    types_in c' <= t + types_in c /\ parts_in c' + w a <= f + parts_in c /\ uses_in c' <= d + uses_in c.
Lemma grows_weak {A} t f d (w : A -> nat) t' f' d' w' m : grows t f d w m -> t <= t' -> f <= f' -> d <= d' -> (forall a, w' a <= w a) -> grows t' f' d' w' m.
Proof. intros H ? ? ? W c a c' E. specialize (W a). destruct (H c a c' E) as (? & ? & ?). lia. Qed.
Lemma grows_ret {A} t f d (w : A -> nat) a : w a <= f -> grows t f d w (pret a).
Proof. intros H c a' c' [= <- <-]. lia. Qed.
Lemma grows_err {A} t f d (w : A -> nat) e : grows t f d w (perr e).
Proof. intros c a c' H. discriminate. Qed.
Lemma grows_bind {A B} t1 f1 d1 (w1 : A -> nat) t f d (w : B -> nat) m k :
  grows t1 f1 d1 w1 m -> t1 <= t -> f1 <= f -> d1 <= d -> (forall a, grows (t - t1) (f - f1 + w1 a) (d - d1) w (k a)) -> grows t f d w (pbind m k).
Proof.
  intros H ? ? ? K c b c2 E. unfold pbind in E. destruct (m c) as [[a c1]|e|s|] eqn:Em; try discriminate.
  destruct (H c a c1 Em) as (? & ? & ?). destruct (K a c1 b c2 E) as (? & ? & ?). lia.
Qed.
Lemma grows_lift {A B} t f d (w : B -> nat) (m : res xsd_err A) k :
  (forall a, m = Ok a -> grows t f d w (k a)) -> grows t f d w (pbind (plift m) k).
Proof. intros K c b c2 E. unfold pbind, plift in E. destruct m as [a|e|s|]; try discriminate. exact (K a eq_refl c b c2 E). Qed.
Lemma grows_get {B} t f d (w : B -> nat) k : (forall c, grows t f d w (k c)) -> grows t f d w (pbind pget k).
Proof. intros K c b c2 E. exact (K c c b c2 E). Qed.
Lemma grows_root {B} t f d (w : B -> nat) n r k : 1 <= t -> parts r <= f -> grows (t - 1) (f - parts r) d w k -> grows t f d w (pbind (add_root n r) (fun _ => k)).
Proof.
  intros ? ? K c b c2 E. apply K in E. unfold types_in, parts_in, uses_in in *. cbn [set_roots cx_roots cx_shared] in E.
  pose proof (aset_length n r (cx_roots c)). pose proof (aset_parts n r (cx_roots c)). lia.
Qed.
Lemma grows_use {B} t f d (w : B -> nat) n p k : 1 <= d -> grows t f (d - 1) w k -> grows t f d w (pbind (discover_type n p) (fun _ => k)).
Proof.
  intros ? K c b c2 E. apply K in E. unfold types_in, parts_in, uses_in in *. cbn [set_shared cx_roots cx_shared sh_dependencies] in E.
  pose proof (dependency_uses n p (sh_dependencies (cx_shared c))). lia.
Qed.
Definition zero {A} (a : A) : nat := 0.
Lemma grows_name a : grows 0 0 0 zero (get_type_name a).
Proof.
  intros c x c' H. unfold get_type_name in H. assert (K : cx_roots c' = cx_roots c /\ sh_dependencies (cx_shared c') = sh_dependencies (cx_shared c)).
  { destruct (split_colon (at_value a)) as [[p l]|].
    - destruct (aget _ _ _) as [u|]; [|discriminate]. destruct (_ =?s _); [destruct (literal_from_str l); [|discriminate]; injection H as <- <-; auto|].
      destruct (get_or_insert _ _) as [ns nss]. injection H as <- <-. auto.
    - destruct (opt_eqb _ _ _); [destruct (literal_from_str (at_value a)); [|discriminate]|]; injection H as <- <-; auto. }
  unfold types_in, parts_in, uses_in, zero. destruct K as [-> ->]. lia.
Qed.
Lemma grows_virtual ns b : grows 0 0 0 zero (derive_virtual_name ns b).
Proof.
  intros c x c' H. unfold derive_virtual_name in H. cbn zeta in H. assert (c' = c) as ->; [|unfold zero; lia].
  destruct (if b then _ else _) as [s|]; [congruence|]. destruct (concat_upper (map nm ns)); cbn in H; congruence.
Qed.
Lemma bind_reads {A B} t f d (w : B -> nat) (m : P A) k : grows 0 0 0 zero m -> (forall a, grows t f d w (k a)) -> grows t f d w (pbind m k).
Proof. intros H K. eapply grows_bind; [exact H|lia|lia|lia|]. intros a. eapply grows_weak; [apply K| | | |]; unfold zero; try lia. Qed.
Definition one {A} (o : option A) : nat := match o with Some _ => 1 | None => 0 end.
Lemma grows_collect {B} (g : node -> P (option B)) cs : (forall n, grows (S (inner n)) (S (inner n)) (S (inner n)) one (g n)) ->
  grows (load_of cs) (load_of cs) (load_of cs) (@length B) (pcollect g cs).
Proof.
  intros H. induction cs as [|x cs IH]; cbn [pcollect]; [apply grows_ret; apply le_n|]. rewrite load_cons.
  eapply grows_bind; [apply H|lia|lia|lia|]. intros o. eapply grows_bind; [exact IH|lia|lia|lia|]. intros bs. apply grows_ret. destruct o; cbn [one length]; lia.
Qed.

Ltac steps := repeat lazymatch goal with
  | |- grows _ _ _ _ (pbind (plift _) _) => apply grows_lift; intros ? ?
  | |- grows _ _ _ _ (pbind pget _) => apply grows_get; intros ?
  | |- grows _ _ _ _ (pbind (get_type_name _) _) => apply bind_reads; [apply grows_name|intros ?]
  | |- grows _ _ _ _ (pbind (derive_virtual_name _ _) _) => apply bind_reads; [apply grows_virtual|intros ?]
  | |- grows _ _ _ _ (perr _) => apply grows_err
  end.
Ltac facts := repeat match goal with
  | H : c_remove _ _ _ = (?o, _) |- _ => apply load_remove in H; unfold load_opt in H
  | H : c_try_remove _ _ _ _ = Ok _ |- _ => apply load_try in H
  | H : n_try_attribute _ _ = Ok _ |- _ => apply inner_try in H
  end.
Lemma inner_mark n v : inner (mkNode (n_elem n) v) = inner n.
Proof. reflexivity. Qed.
Lemma children_mark n v ns : n_children (mkNode (n_elem n) v) ns = n_children n ns.
Proof. reflexivity. Qed.
Ltac sizes := facts; cbn [snd] in *; rewrite ?inner_mark in *;
  repeat match goal with
  | H : context [load_of (n_children ?n ?ns)] |- _ => lazymatch goal with _ : load_of (n_children n ns) <= _ |- _ => fail | _ => pose proof (load_children n ns) end
  | |- context [load_of (n_children ?n ?ns)] => lazymatch goal with _ : load_of (n_children n ns) <= _ |- _ => fail | _ => pose proof (load_children n ns) end
  | |- context [load_of (select_all ?s ?cs)] => lazymatch goal with _ : load_of (select_all s cs) <= _ |- _ => fail | _ => pose proof (load_select s cs) end
  end; rewrite ?inner_mark in *; unfold zero in *; cbn [length one] in *; try lia.

Lemma facets_count fs : length (facet_names fs) <= length fs /\ length (facet_restrs fs) <= length fs.
Proof.
  unfold facet_names, facet_restrs. induction fs as [|[n|r] fs IH]; [cbn; lia| |]; cbn [flat_map app length] in *; lia.
Qed.
Lemma mapM_len {E A B} (g : A -> res E B) l : forall bs, mapM g l = Ok bs -> length bs = length l.
Proof.
  induction l as [|x l IH]; intros bs H; cbn [mapM] in H; [injection H as <-; reflexivity|].
  destruct (g x); try discriminate. cbn [bind] in H. destruct (mapM g l) as [ys| | |] eqn:Em; try discriminate. injection H as <-. cbn [length]. now rewrite (IH _ eq_refl).
Qed.
Lemma load_length cs : length cs <= load_of cs.
Proof. induction cs as [|x cs IH]; [apply le_n|]. rewrite load_cons. cbn [length]. lia. Qed.

Lemma simple_grows n : grows 0 (inner n) 0 parts (simple_type_parse n).
Proof.
  unfold simple_type_parse. steps. destruct (c_remove _ _ _) as [an cs] eqn:E1. steps. destruct a1 as [restr cs2]. steps. destruct a1 as [at0 restr2]. steps.
  destruct a1; steps. apply grows_ret. pose proof (facets_count a2) as (F1 & F2). apply mapM_len in H4. pose proof (load_length (n_children restr2 NS_XSD)).
  assert (length a2 <= inner n) by (facts; sizes). destruct (facet_names a2) eqn:Ef; cbn [parts ld_restrictions]; lia.
Qed.
Lemma content_grows n p c : grows 0 0 1 zero (content_of_type n p c).
Proof.
  unfold content_of_type. destruct c.
  - destruct (n_attribute n "fixed"). apply grows_ret. apply le_n.
  - apply grows_use; [lia|]. apply grows_ret. apply le_n.
  - apply grows_ret. apply le_n.
Qed.

Ltac norm := cbn beta iota zeta delta [n_attribute n_elem n_visited].
Ltac go := norm; steps; norm.
Ltac rem := lazymatch goal with |- context [c_remove ?s ?ns ?cs] => let E := fresh "R" in destruct (c_remove s ns cs) as [? ?] eqn:E end.

Lemma attribute_grows p n : grows (S (inner n)) (S (inner n)) (S (inner n)) one (attribute_parse p n).
Proof.
  unfold attribute_parse. go. destruct a as [na n1]. go. rem. go. rem.
  assert (K : forall t f d x, 1 <= f -> grows t f d one (let '(content, n) := x in
    plift (prevent_unvisited_children n l0) ;==
    let '(def, n) := n_attribute n "default" in
    let '(use, n) := n_attribute n "use" in
    let finish (opt : bool) : P (option attribute) :=
      if andb (is_some def) (negb opt) then
        perr (XeUnexpectedAttribute "default" (n_name n) (n_range n))
      else
        plift (prevent_unvisited_attributes n) ;==
        pret (Some (mkAttribute (mkName (at_value na) NsNone) content (option_map at_value def) opt a)) in
    match use with
    | None => finish true
    | Some u =>
        if at_value u =?s "required" then finish false
        else if at_value u =?s "optional" then finish true
        else if at_value u =?s "prohibited" then pret None
        else perr (XeUnsupportedAttributeValue "use" (at_value u) (n_name n) (n_range n))
    end)).
  { intros t f d [ct n2] Hf. go.
    repeat match goal with
    | |- grows _ _ _ _ (match ?x with _ => _ end) => destruct x
    | |- grows _ _ _ _ (pret _) => apply grows_ret; cbn [one]; lia
    | |- _ => go
    end. }
  eapply (grows_bind (S (inner n)) (inner n) (S (inner n)) zero).
  4: { apply le_n. } 2: { apply le_n. } 2: { lia. }
  2: { intros x. apply K. lia. }
  destruct o0 as [st|].
  - eapply grows_bind; [apply simple_grows|lia|sizes|lia|]. intros r.
    assert (V : grows (S (inner n) - 0) (inner n - inner st + parts r) (S (inner n) - 0) zero
       (c <== pget ;; vn <== derive_virtual_name [p; mkName (at_value na) NsNone; get_node_name c "Data" false] false ;;
        add_root vn r ;== discover_type vn p ;== pret (LcNamed vn, n1))).
    { go. apply grows_root; [lia|lia|]. apply grows_use; [lia|]. apply grows_ret. unfold zero. lia. }
    destruct r as [[[| |] rs ds]| | |]; try exact V. apply grows_ret. unfold zero. lia.
  - go. destruct a0 as [ta n3]. go. eapply grows_weak; [apply content_grows|lia|lia|lia|intros; apply le_n].
Qed.
Lemma attributes_grow p cs k : load_of cs <= k ->
  grows k k k (@length attribute) (pcollect (attribute_parse p) (select_all "attribute" cs)).
Proof.
  intros H. pose proof (load_select "attribute" cs). eapply grows_weak; [apply grows_collect; intros n; apply attribute_grows|lia|lia|lia|intros; apply le_n].
Qed.
Lemma attributes_grow3 p cs t f d : load_of cs <= t -> load_of cs <= f -> load_of cs <= d ->
  grows t f d (@length attribute) (pcollect (attribute_parse p) (select_all "attribute" cs)).
Proof. intros. eapply grows_weak; [apply (attributes_grow p cs (load_of cs)); lia|lia|lia|lia|intros; apply le_n]. Qed.
Definition own (d : element_def) : nat := parts (RootElement d).
Lemma simple_content_grows n p : grows (inner n) (inner n) (inner n) own (simple_content_parse n p).
Proof.
  unfold simple_content_parse. go. destruct a0 as [ext rest]. go. destruct a1 as [base ext2]. go.
  assert (I : S (inner ext2) <= inner n) by sizes.
  eapply (grows_bind 0 0 1 zero).
  { destruct a1; [apply grows_ret; apply le_n|apply grows_use; [lia|apply grows_ret; apply le_n]|apply grows_ret; apply le_n]. }
  1-3: lia. intros x. pose proof (load_children ext2 NS_XSD).
  eapply grows_bind; [apply (attributes_grow p _ (inner ext2)); lia|lia|lia|lia|]. intros ats. go. apply grows_ret. unfold own, zero. cbn [parts ed_attributes ed_content ld_restrictions length]. lia.
Qed.

(** ** The recursive descent *)
Lemma docs_parts r o : parts (root_with_docs r o) = parts r.
Proof. destruct r as [[c rs ds]|ns|[a c v ds]|[vs v ds]], o; reflexivity. Qed.
Lemma docs_own d o : parts (RootElement (ed_with_docs d o)) = own d.
Proof. destruct d, o; reflexivity. Qed.
Lemma virtual_parts ls : parts (virtual_root ls) = length ls.
Proof. reflexivity. Qed.
Ltac vp := rewrite ?virtual_parts; cbn [parts cd_variants]; try lia.
(** An element with a type attribute uses that type. *)
Definition typed_inner (n : node) : nat := match attr_lookup "type" (xe_attrs (n_elem n)) with Some _ => S (inner n) | None => inner n end.
Ltac ret := apply grows_ret; unfold zero; cbn [length one]; try lia.
Ltac weak H := eapply grows_weak; [apply H|sizes|sizes|sizes|intros; apply le_n].
Ltac use_ := apply grows_use; [try lia|].

(** Every result has a property. *)
Definition yields {A} (Q : A -> Prop) (m : P A) : Prop := forall c a c', m c = Ok (a, c') -> Q a.
Lemma yields_bind {A B} (Q : B -> Prop) (m : P A) k : (forall a, yields Q (k a)) -> yields Q (pbind m k).
Proof. intros K c b c2 E. unfold pbind in E. destruct (m c) as [[a c1]| | |]; try discriminate. exact (K a c1 b c2 E). Qed.
Lemma yields_ret {A} (Q : A -> Prop) a : Q a -> yields Q (pret a).
Proof. intros H c x c' [= <- <-]. exact H. Qed.
Lemma grows_bind_q {A B} (Q : A -> Prop) t1 f1 d1 (w1 : A -> nat) t f d (w : B -> nat) m k : yields Q m ->
  grows t1 f1 d1 w1 m -> t1 <= t -> f1 <= f -> d1 <= d -> (forall a, Q a -> grows (t - t1) (f - f1 + w1 a) (d - d1) w (k a)) -> grows t f d w (pbind m k).
Proof.
  intros Y H ? ? ? K c b c2 E. unfold pbind in E. destruct (m c) as [[a c1]|e|s|] eqn:Em; try discriminate.
  destruct (H c a c1 Em) as (? & ? & ?). destruct (K a (Y _ _ _ Em) c1 b c2 E) as (? & ? & ?). lia.
Qed.
Definition content_parts (o : option element_content) : nat :=
  match o with None => 0 | Some (EcLeaf _ d) => 1 + length (ld_restrictions d) | Some (EcLeaves ls) => length ls end.

Section Step.
Variable k : nat.
Hypothesis CT : forall n p, grows (inner n) (inner n) (inner n) parts (complex_type_parse k n p).
Hypothesis CC : forall n p, grows (inner n) (inner n) (inner n) own (complex_content_parse k n p).
Hypothesis SQ : forall n p, grows (inner n) (inner n) (inner n) (@length leaf) (sequence_parse k n p).
Hypothesis CH : forall n p, grows (inner n) (inner n) (inner n) (@length leaf) (choice_parse k n p).
Hypothesis PC : forall n p, grows (S (inner n)) (S (inner n)) (S (inner n)) (fun _ => 1) (parse_child k n p).
Hypothesis PR : forall n p, grows (inner n) (inner n) (typed_inner n) parts (parse_root k n p).
Hypothesis RP : forall n p, grows (inner n) (inner n) (typed_inner n) parts (root_parse k n p).

Lemma typed_le n : inner n <= typed_inner n <= S (inner n).
Proof. unfold typed_inner. destruct (attr_lookup _ _); lia. Qed.
Lemma root_step n p : grows (inner n) (inner n) (typed_inner n) parts (root_parse (S k) n p).
Proof.
  pose proof (typed_le n). cbn [root_parse]. destruct (_ =?s _); [apply PR|]. destruct (_ =?s _); [weak CT|]. destruct (_ =?s _); [|apply grows_err].
  weak simple_grows.
Qed.
Lemma parse_root_step n p : grows (inner n) (inner n) (typed_inner n) parts (parse_root (S k) n p).
Proof.
  cbn [parse_root]. go. rem. go. unfold typed_inner. destruct (attr_lookup "type" (xe_attrs (n_elem n))) as [ta|].
  - go. eapply grows_bind; [apply content_grows|lia|lia|lia|]. intros [ct n2]. go. ret. cbn. lia.
  - go. rem. eapply (grows_bind (inner n) (inner n) (inner n) (fun x => parts (fst x))).
    + destruct o0 as [ct|].
      * eapply grows_bind; [apply CT|sizes|sizes|sizes|]. intros r. ret. cbn [fst]. lia.
      * rem. destruct o0 as [st|]; [|apply grows_err]. eapply grows_bind; [apply simple_grows|lia|sizes|lia|]. intros r. ret. cbn [fst]. lia.
    + lia.
    + lia.
    + lia.
    + intros [r cs]. go. apply grows_ret. rewrite docs_parts. cbn [fst]. lia.
Qed.
Lemma parse_child_step n p : grows (S (inner n)) (S (inner n)) (S (inner n)) (fun _ => 1) (parse_child (S k) n p).
Proof.
  cbn [parse_child]. go. destruct (attr_lookup "ref" _) as [ra|].
  - go. destruct a2 as [l|t|f]; try apply grows_err. use_. ret.
  - go. destruct a1 as [na n1]. go. assert (X : n_elem n1 = n_elem n).
    { unfold n_try_attribute, n_attribute in H1. cbn [n_elem] in H1. destruct (attr_lookup "name" _) in H1; [|discriminate]. now injection H1 as _ <-. }
    destruct (attr_lookup "type" (xe_attrs (n_elem n1))) as [ta|] eqn:Et.
    + go. eapply grows_bind; [apply content_grows|lia|lia|lia|]. intros [ct n2]. go. ret.
    + go.
      assert (V : forall c, grows (S (inner n)) (S (inner n)) (S (inner n)) (fun _ => 1)
        (vn <== derive_virtual_name [p; get_node_name c (at_value na) false; get_node_name c "Data" false] false ;;
         r <== root_parse k (mkNode (n_elem n1) ("type" :: "form" :: "default" :: n_visited n1)) vn ;;
         add_root vn r ;== discover_type vn p ;== pret (plain_leaf (get_node_name c (at_value na) false) (LcNamed vn) a1 a a0))).
      { intros c0. go. assert (T : typed_inner (mkNode (n_elem n1) ("type" :: "form" :: "default" :: n_visited n1)) = inner n).
        { unfold typed_inner. cbn [n_elem]. rewrite Et. unfold inner. cbn [n_elem]. now rewrite X. }
        assert (I : inner (mkNode (n_elem n1) ("type" :: "form" :: "default" :: n_visited n1)) = inner n) by (unfold inner; cbn [n_elem]; now rewrite X).
        eapply grows_bind; [apply RP|rewrite I; lia|rewrite I; lia|rewrite T; lia|]. intros r. rewrite I, T. apply grows_root; [lia|lia|]. use_. ret. }
      destruct (n_child _ "simpleType" _); [apply V|]. destruct (n_child _ "complexType" _); [apply V|]. ret.
Qed.
Lemma choice_step n p : grows (inner n) (inner n) (inner n) (@length leaf) (choice_parse (S k) n p).
Proof.
  cbn [choice_parse]. go. pose proof (load_children n NS_XSD). eapply grows_weak; [apply grows_collect|lia|lia|lia|intros; apply le_n].
  intros x. destruct (_ =?s _).
  - eapply grows_bind; [apply PC|lia|lia|lia|]. intros l. ret.
  - destruct (_ =?s _).
    + go. eapply grows_bind; [apply SQ|sizes|sizes|sizes|]. intros ls. go. rewrite inner_mark. apply grows_root; [lia|vp|]. vp. use_. ret.
    + destruct (_ =?s _); [ret|apply grows_err].
Qed.
Lemma sequence_step n p : grows (inner n) (inner n) (inner n) (@length leaf) (sequence_parse (S k) n p).
Proof.
  cbn [sequence_parse]. go. pose proof (load_children n NS_XSD). eapply grows_weak; [apply grows_collect|lia|lia|lia|intros; apply le_n].
  intros x. destruct (_ =?s _).
  - eapply grows_bind; [apply PC|lia|lia|lia|]. intros l. ret.
  - destruct (_ =?s _); [|destruct (_ =?s _)].
    + go. eapply grows_bind; [apply CH|sizes|sizes|sizes|]. intros ls. go. rewrite inner_mark. apply grows_root; [lia|vp|]. vp. use_. ret.
    + go. eapply grows_bind; [apply SQ|sizes|sizes|sizes|]. intros ls. go. rewrite inner_mark. apply grows_root; [lia|vp|]. vp. use_. ret.
    + destruct (_ =?s _); [ret|apply grows_err].
Qed.
Lemma complex_content_step n p : grows (inner n) (inner n) (inner n) own (complex_content_parse (S k) n p).
Proof.
  cbn [complex_content_parse]. go. destruct a0 as [ext rest]. go. destruct a1 as [base ext2]. go. assert (I : S (inner ext2) <= inner n) by sizes.
  destruct a1 as [l|t|f]; try apply grows_err. use_. norm. rem. pose proof (load_children ext2 NS_XSD) as Hl.
  apply load_remove in R.
  eapply (grows_bind (load_opt o) (load_opt o) (load_opt o) (@length leaf)).
  { destruct o as [sq|]; [|ret]. cbn [load_opt]. go. eapply grows_bind; [apply SQ|rewrite inner_mark; lia|rewrite inner_mark; lia|rewrite inner_mark; lia|]. intros ls. go. rewrite inner_mark.
    apply grows_root; [lia|vp|]. vp. use_. ret. }
  1-3: lia. intros vl. eapply grows_bind; [apply (attributes_grow p l (load_of l)); lia|lia|lia|lia|]. intros ats. go. apply grows_ret.
  unfold own. cbn [parts ed_attributes ed_content]. destruct vl; cbn [length ld_restrictions]; lia.
Qed.
Lemma complex_type_step n p : grows (inner n) (inner n) (inner n) parts (complex_type_parse (S k) n p).
Proof.
  cbn [complex_type_parse]. go. destruct (match attr_lookup "mixed" (xe_attrs (n_elem n)) with Some a => _ | None => false end); [apply grows_err|]. go. rem. go. rem.
  rewrite children_mark in R. pose proof (load_children n NS_XSD) as Hl. apply load_remove in R, R0.
  destruct o0 as [sc|]; cbn [load_opt] in R0.
  { go. eapply grows_bind; [apply simple_content_grows|lia|lia|lia|]. intros d. apply grows_ret. rewrite docs_own. lia. }
  rem. apply load_remove in R1. destruct o0 as [cc|]; cbn [load_opt] in R1.
  { go. eapply grows_bind; [apply CC|lia|lia|lia|]. intros d. apply grows_ret. rewrite docs_own. lia. }
  rem. apply load_remove in R2.
  assert (Q : exists sq cs, (match o0 with Some _ => (o0, l2) | None => c_remove "all" (Some NS_XSD) l2 end) = (sq, cs) /\ load_opt sq + load_of cs <= load_of l1).
  { destruct o0 as [x|]; [exists (Some x), l2; split; [reflexivity|lia]|]. destruct (c_remove "all" (Some NS_XSD) l2) as [sq cs] eqn:E. apply load_remove in E. cbn [load_opt] in R2.
    exists sq, cs. split; [reflexivity|lia]. }
  destruct Q as (sq & cs & -> & Hq). clear o0 R2.
  assert (M : forall t f d (x : option element_content * list node) ch, snd x = ch -> content_parts (fst x) + load_of ch <= f -> load_of ch <= t -> load_of ch <= d ->
     grows t f d parts (let '(content, children) := x in
       attributes <== pcollect (attribute_parse p) (select_all "attribute" children) ;;
       plift (prevent_unvisited_children (mkNode (n_elem n) ("mixed" :: n_visited n)) (remove_all "attribute" children)) ;==
       pret (RootElement (mkElementDef attributes content false a0)))).
  { intros t f d [ct ch'] ch <- F T D. cbn [fst snd] in *. eapply grows_bind; [apply (attributes_grow p ch' (load_of ch')); lia|lia|lia|lia|]. intros ats. go. apply grows_ret.
    change (length ats + content_parts ct <= f - load_of ch' + length ats). lia. }
  destruct sq as [x|].
  - cbn [load_opt] in Hq. eapply (grows_bind_q (fun y => snd y = cs) (S (inner x)) (S (inner x)) (S (inner x)) (fun y => content_parts (fst y))).
    + norm. do 3 (apply yields_bind; intros ?). destruct (orb _ _); [do 2 (apply yields_bind; intros ?); do 2 (apply yields_bind; intros ?)|]; apply yields_ret; reflexivity.
    + go. eapply grows_bind; [apply SQ|rewrite inner_mark; lia|rewrite inner_mark; lia|rewrite inner_mark; lia|]. intros ls. rewrite inner_mark.
      set (ls' := if n_name x =?s "all" then map set_unordered ls else ls). assert (Hs : length ls' = length ls) by (subst ls'; destruct (_ =?s _); [apply map_length|reflexivity]).
      destruct (orb _ _).
      * go. apply grows_root; [lia|vp|]. vp. use_. apply grows_ret. cbn [fst content_parts length]. lia.
      * apply grows_ret. cbn [fst content_parts]. lia.
    + lia.
    + lia.
    + lia.
    + intros y Hy. apply (M _ _ _ y cs Hy); lia.
  - cbn [load_opt] in Hq. rem. apply load_remove in R2. destruct o0 as [ch|]; cbn [load_opt] in R2.
    + eapply (grows_bind_q (fun y => snd y = l3) (S (inner ch)) (S (inner ch)) (S (inner ch)) (fun y => content_parts (fst y))).
      * repeat (apply yields_bind; intros ?). apply yields_ret. reflexivity.
      * eapply grows_bind; [apply CH|lia|lia|lia|]. intros vs. go. apply grows_root; [lia|vp|]. vp. use_. apply grows_ret. cbn [fst content_parts ld_restrictions length]. lia.
      * lia.
      * lia.
      * lia.
      * intros y Hy. apply (M _ _ _ y l3 Hy); lia.
    + eapply (grows_bind_q (fun y => snd y = l3) 0 0 0 (fun y => content_parts (fst y))).
      * apply yields_ret. reflexivity.
      * apply grows_ret. apply le_n.
      * lia.
      * lia.
      * lia.
      * intros y Hy. apply (M _ _ _ y l3 Hy); lia.
Qed.
End Step.

Lemma out_grows {A} t f d (w : A -> nat) : grows t f d w (fun _ => OutOfFuel).
Proof. intros c a c' H. discriminate. Qed.
Lemma tree_grows k :
  (forall n p, grows (inner n) (inner n) (inner n) parts (complex_type_parse k n p))
  /\ (forall n p, grows (inner n) (inner n) (inner n) own (complex_content_parse k n p))
  /\ (forall n p, grows (inner n) (inner n) (inner n) (@length leaf) (sequence_parse k n p))
  /\ (forall n p, grows (inner n) (inner n) (inner n) (@length leaf) (choice_parse k n p))
  /\ (forall n p, grows (S (inner n)) (S (inner n)) (S (inner n)) (fun _ => 1) (parse_child k n p))
  /\ (forall n p, grows (inner n) (inner n) (typed_inner n) parts (parse_root k n p))
  /\ (forall n p, grows (inner n) (inner n) (typed_inner n) parts (root_parse k n p)).
Proof.
  induction k as [|k (CT & CC & SQ & CH & PC & PR & RP)].
  - repeat apply conj; intros; apply out_grows.
  - split; [intros; apply complex_type_step; auto|]. split; [intros; apply complex_content_step; auto|]. split; [intros; apply sequence_step; auto|].
    split; [intros; apply choice_step; auto|]. split; [intros; apply parse_child_step; auto|]. split; [intros; apply parse_root_step; auto|]. intros; apply root_step; auto.
Qed.
Lemma root_grows k n p : grows (inner n) (inner n) (S (inner n)) parts (root_parse k n p).
Proof. pose proof (typed_le n). eapply grows_weak; [apply tree_grows|lia|lia|lia|intros; apply le_n]. Qed.

(** ** Files *)
Definition made (t f d : nat) (c c' : ctx) : Prop :=
  types_in c' <= t + types_in c /\ parts_in c' <= f + parts_in c /\ uses_in c' <= d + uses_in c.
Definition loads_within (load : string -> shared_ctx -> res schema_err schema) (f : fs) : Prop :=
  forall p sh s, load p sh = Ok s -> exists ds, opened f p ds /\ length ds + length (sc_elements (s_context s)) <= elements ds
    /\ length ds + all_parts (sc_elements (s_context s)) <= elements ds
    /\ length ds + all_uses (s_dependencies s) <= elements ds + all_uses (sh_dependencies sh).
Lemma elements_app a b : elements (a ++ b) = elements a + elements b.
Proof. unfold elements. now rewrite map_app, list_sum_app. Qed.
Lemma elements_cons d ds : elements (d :: ds) = size d + elements ds.
Proof. reflexivity. Qed.
Lemma elements_least ds : length ds <= elements ds.
Proof. induction ds as [|d ds IH]; [apply le_n|]. rewrite elements_cons, size_children. cbn [length]. lia. Qed.
Lemma is_load_name x : orb (n_name x =?s "include") (n_name x =?s "import") = true <-> is_load (n_elem x).
Proof. unfold is_load, n_name. rewrite Bool.orb_true_iff, !String.eqb_eq. reflexivity. Qed.
Lemma children_amount k load f dir : loads_within load f -> forall cs c c', schema_children k load f dir cs c = Ok c' ->
  exists ds, opened_in f dir (map n_elem cs) ds /\ made (load_of cs + (elements ds - length ds)) (load_of cs + (elements ds - length ds)) (load_of cs + (elements ds - length ds)) c c'.
Proof.
  intros W. induction cs as [|x cs IH]; intros c c' H; cbn [schema_children] in H.
  { injection H as <-. exists []. split; [constructor|]. unfold made. lia. }
  destruct (schema_child k load f dir x c) as [c1| | |] eqn:E1; try discriminate. cbn [bind] in H. destruct (IH _ _ H) as (ds2 & O2 & M2). rewrite load_cons. cbn [map].
  unfold schema_child in E1. destruct (orb _ _) eqn:El.
  - apply is_load_name in El. destruct (n_try_attribute x "schemaLocation") as [[a x']| | |] eqn:Ea; try discriminate. cbn [map_err bind] in E1.
    assert (La : last_attr (n_elem x) "schemaLocation" a).
    { unfold n_try_attribute, n_attribute in Ea. destruct (attr_lookup "schemaLocation" (xe_attrs (n_elem x))) eqn:Eb; [|discriminate]. injection Ea as <- _. now apply lookup_last. }
    destruct (load (fs_push f dir (at_value a)) (cx_shared c)) as [s| | |] eqn:Es; try discriminate. cbn [map_err bind] in E1. injection E1 as <-.
    destruct (W _ _ _ Es) as (ds1 & O1 & T1 & F1 & D1). exists (ds1 ++ ds2). split; [now apply oi_load with a|]. rewrite elements_app, app_length. pose proof (elements_least ds1). pose proof (elements_least ds2).
    unfold made, types_in, parts_in, uses_in in *. cbn [set_shared set_roots cx_roots cx_shared into_shared sh_dependencies] in M2.
    pose proof (fold_length (sc_elements (s_context s)) (cx_roots c)). pose proof (fold_parts (sc_elements (s_context s)) (cx_roots c)). lia.
  - assert (N : ~ is_load (n_elem x)) by (intros K; apply is_load_name in K; congruence).
    destruct (n_try_attribute x "name") as [[a x']| | |] eqn:Ea; try discriminate. cbn [map_err bind] in E1.
    destruct (root_parse k x' _ c) as [[r c0]| | |] eqn:Er; try discriminate. cbn [map_err bind] in E1. injection E1 as <-.
    exists ds2. split; [now apply oi_other|]. apply root_grows in Er. apply inner_try in Ea. rewrite Ea in Er.
    unfold made, types_in, parts_in, uses_in in *. cbn [set_roots cx_roots cx_shared] in M2.
    pose proof (aset_length (mkName (at_value a) (cx_target c)) r (cx_roots c0)). pose proof (aset_parts (mkName (at_value a) (cx_target c)) r (cx_roots c0)). lia.
Qed.
Lemma children_elems d : map n_elem (n_children (node_of d) NS_XSD) = xsd_children d.
Proof. unfold n_children, xsd_children. rewrite map_map. cbn [node_of n_elem]. now rewrite map_id. Qed.
Lemma ctx_new_empty d tn sh : types_in (ctx_new d tn sh) = 0 /\ parts_in (ctx_new d tn sh) = 0 /\ uses_in (ctx_new d tn sh) = all_uses (sh_dependencies sh).
Proof. unfold types_in, parts_in, uses_in, ctx_new. destruct tn as [t|]; [destruct (get_or_insert _ _)|]; repeat split. Qed.
Lemma with_amount k load f d path sh s : loads_within load f -> fs_read f path = Some (Some d) -> parse_with k load f (Some d) path sh = Ok s ->
  exists ds, opened f path ds /\ length ds + length (sc_elements (s_context s)) <= elements ds
    /\ length ds + all_parts (sc_elements (s_context s)) <= elements ds
    /\ length ds + all_uses (s_dependencies s) <= elements ds + all_uses (sh_dependencies (match sh with Some s => s | None => shared_default end)).
Proof.
  intros W R H. unfold parse_with in H. destruct (parse_schema_with k load f d (fs_parent f path) sh) as [s0| | |] eqn:E; try discriminate. cbn [map_err] in H. injection H as ->.
  unfold parse_schema_with in E. destruct (negb _); [discriminate|]. cbn zeta in E. unfold n_attribute in E.
  destruct (schema_children k load f _ _ _) as [c| | |] eqn:Ec; try discriminate. cbn [bind] in E. injection E as <-.
  apply (children_amount _ _ _ _ W) in Ec. destruct Ec as (ds & O & M). change (n_children (mkNode (n_elem (node_of d)) _) NS_XSD) with (n_children (node_of d) NS_XSD) in *.
  rewrite children_elems in O. exists (d :: ds). split; [now constructor|]. rewrite elements_cons, size_children. cbn [length into_schema s_context s_dependencies sc_elements].
  unfold made in M. match type of M with context [types_in (ctx_new d ?tn ?x)] => destruct (ctx_new_empty d tn x) as (E1 & E2 & E3); rewrite E1, E2, E3 in M end.
  pose proof (load_children (node_of d) NS_XSD) as Hl. unfold inner in Hl. cbn [n_elem node_of] in Hl. pose proof (elements_least ds). unfold types_in, parts_in, uses_in in M. destruct sh; lia.
Qed.
Lemma file_amount k f : forall path sh s, parse_file_with_context k f path sh = Ok s ->
  exists ds, opened f path ds /\ length ds + length (sc_elements (s_context s)) <= elements ds
    /\ length ds + all_parts (sc_elements (s_context s)) <= elements ds
    /\ length ds + all_uses (s_dependencies s) <= elements ds + all_uses (sh_dependencies (match sh with Some s => s | None => shared_default end)).
Proof.
  induction k as [|k IH]; intros path sh s H; cbn [parse_file_with_context] in H; [discriminate|].
  destruct (fs_read f path) as [[d|]|] eqn:R; try discriminate. eapply with_amount; eauto. intros p sh' s' H'. exact (IH p (Some sh') s' H').
Qed.

End WithLibs.

Scheme opened_i := Minimality for opened Sort Prop with opened_in_i := Minimality for opened_in Sort Prop.
Lemma opened_unique f p ds : opened f p ds -> forall ds', opened f p ds' -> ds' = ds.
Proof.
  apply (opened_i f (fun p ds => forall ds', opened f p ds' -> ds' = ds) (fun dir cs ds => forall ds', opened_in f dir cs ds' -> ds' = ds)); clear.
  - intros p d ds R _ IH ds' H. inversion H as [? d2 ds2 R2 O2]; subst. assert (d2 = d) as -> by congruence. f_equal. auto.
  - intros dir ds' H. now inversion H.
  - intros dir c cs a ds ds2 Lc La _ IH1 _ IH2 ds' H. inversion H as [|? ? ? a2 d1 d2 ? La2 O1 O2|]; subst; [|contradiction].
    assert (a2 = a) as -> by (apply lookup_last in La, La2; congruence). f_equal; auto.
  - intros dir c cs ds N _ IH ds' H. inversion H; subst; [contradiction|auto].
Qed.
