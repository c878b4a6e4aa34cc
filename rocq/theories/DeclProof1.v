(** * DeclProof1: attributes, children, type names and numbers *)
From Verif Require Import Base Libs Xml Ast XsdNode Parse TextSpec NumProof MiscSpec MiscProof ParseSpec DeclSpec ParseProof.

(** ** Attributes *)
Lemma attr_lookup_iff e n a : attr_lookup n (xe_attrs e) = Some a <-> the_attr e n a.
Proof.
  unfold the_attr. induction (xe_attrs e) as [|x l IH]; simpl.
  - split; [discriminate|]. intros (l & r & E & _). destruct l; discriminate.
  - destruct (attr_lookup n l) as [b|] eqn:B.
    + rewrite IH. split.
      * intros (l1 & r & -> & H). exists (x :: l1), r. auto.
      * intros (l1 & r & E & H1 & H2). destruct l1 as [|y l1]; injection E as -> ->.
        -- exfalso. apply attr_lookup_In in B. destruct B as [I E]. rewrite Forall_forall in H2. now apply (H2 b).
        -- exists l1, r. auto.
    + destruct (String.eqb_spec (at_name x) n) as [E|N]; split.
      * intros H; injection H as <-. exists [], l. split; [reflexivity|]. split; [exact E|].
        apply Forall_forall. now apply attr_lookup_None.
      * intros (l1 & r & E' & H1 & H2). destruct l1 as [|y l1]; injection E' as -> ->; [reflexivity|].
        exfalso. apply (attr_lookup_None _ _ B a); [|exact H1]. apply in_or_app. right. now left.
      * discriminate.
      * intros (l1 & r & E' & H1 & H2). exfalso. destruct l1 as [|y l1]; injection E' as -> ->; [contradiction|].
        apply (attr_lookup_None _ _ B a); [|exact H1]. apply in_or_app. right. now left.
Qed.
Lemma attr_lookup_no e n : attr_lookup n (xe_attrs e) = None <-> no_attr e n.
Proof.
  split; [exact (attr_lookup_None n (xe_attrs e))|]. intros H. destruct (attr_lookup n (xe_attrs e)) as [a|] eqn:E; [|reflexivity].
  apply attr_lookup_In in E. destruct E as [I E]. now apply H in I.
Qed.

Lemma mem_In (x : string) l : mem String.eqb x l = true <-> In x l.
Proof.
  induction l as [|y l IH]; simpl; [split; [discriminate|tauto]|].
  rewrite orb_true_iff, IH, String.eqb_eq. split; intros [H|H]; auto.
Qed.
Lemma opt_eqb_None (o : option string) : opt_eqb String.eqb o None = true <-> o = None.
Proof. destruct o; simpl; split; congruence. Qed.
Lemma opt_eqb_Some (o : option string) s : opt_eqb String.eqb o (Some s) = true <-> o = Some s.
Proof. destruct o as [t|]; simpl; [rewrite String.eqb_eq|]; split; congruence. Qed.

Lemma unvisited_none all visited attrs : unvisited all visited attrs = None <->
  (forall a b, In a attrs -> attr_lookup (at_name a) all = Some b -> at_ns b = None -> In (at_name b) visited).
Proof.
  induction attrs as [|a attrs IH]; simpl; [split; [intros _ a b []|reflexivity]|].
  destruct (attr_lookup (at_name a) all) as [b|] eqn:E.
  - destruct (andb _ _) eqn:C.
    + split; [discriminate|]. intros H. apply andb_true_iff in C. destruct C as [C1 C2].
      apply opt_eqb_None in C1. apply negb_true_iff in C2.
      assert (M : mem String.eqb (at_name b) visited = true) by (apply mem_In, (H a b); auto). congruence.
    + rewrite IH. split; [|firstorder]. intros H x y [<-|I] El Nn; [|now apply (H x y)].
      rewrite E in El. injection El as <-. apply andb_false_iff in C. destruct C as [C|C].
      * rewrite (proj2 (opt_eqb_None _) Nn) in C. discriminate.
      * apply negb_false_iff in C. now apply mem_In.
  - rewrite IH. split; [|firstorder]. intros H x y [<-|I] El Nn; [congruence|now apply (H x y)].
Qed.
Lemma prevent_attrs n u : prevent_unvisited_attributes n = Ok u <-> only_attrs (n_elem n) (n_visited n).
Proof.
  unfold prevent_unvisited_attributes, only_attrs. destruct u.
  destruct (unvisited _ _ _) as [a|] eqn:E; split; try discriminate; try reflexivity.
  - intros H. exfalso. assert (E' : unvisited (xe_attrs (n_elem n)) (n_visited n) (xe_attrs (n_elem n)) = None); [|congruence].
    apply unvisited_none. intros x b _ El Nn. pose proof (attr_lookup_In _ _ _ El) as [_ En]. rewrite En.
    apply (H _ b); [now apply attr_lookup_iff|exact Nn].
  - intros _ k a H Nn. apply attr_lookup_iff in H. pose proof (attr_lookup_In _ _ _ H) as [I En].
    rewrite <- En. apply (proj1 (unvisited_none _ _ _) E a a I); [now rewrite En|exact Nn].
Qed.
Lemma only_attrs_incl e k k' : incl k k' -> only_attrs e k -> only_attrs e k'.
Proof. intros I H n a Ha Hn. apply I, (H n a Ha Hn). Qed.

Lemma try_attr n k a n' : n_try_attribute n k = Ok (a, n') -> the_attr (n_elem n) k a /\ n' = mkNode (n_elem n) (k :: n_visited n).
Proof.
  unfold n_try_attribute, n_attribute. destruct (attr_lookup _ _) eqn:E; [|discriminate].
  intros H; injection H as <- <-. split; [now apply attr_lookup_iff|reflexivity].
Qed.

(** ** Children *)
Definition xsd (x : xelem) : Prop := xe_ns x = Some NS_XSD.
Lemma children_xsd e : Forall xsd (xsd_children e).
Proof. apply Forall_forall. intros x H. apply filter_In in H. destruct H as [_ H]. now apply opt_eqb_Some in H. Qed.
Lemma children_nodes n : n_children n NS_XSD = map node_of (xsd_children (n_elem n)).
Proof. reflexivity. Qed.
Lemma has_name_xsd t x : xsd x -> has_name t (Some NS_XSD) x = (xe_tag x =?s t).
Proof. unfold has_name, xsd. intros ->. rewrite (proj2 (opt_eqb_Some _ _) eq_refl). now rewrite andb_true_r. Qed.

Lemma take_cons_other t x l o rest : xe_tag x <> t -> take t l o rest -> take t (x :: l) o (x :: rest).
Proof.
  intros N H. destruct H as [l H|l y r H E].
  - apply tk_none. now constructor.
  - apply (tk_some t (x :: l)); [now constructor|exact E].
Qed.
Lemma remove_take t l : Forall xsd l -> exists o rest,
  c_remove t (Some NS_XSD) (map node_of l) = (option_map node_of o, map node_of rest)
  /\ take t l o rest /\ Forall xsd rest.
Proof.
  induction 1 as [|x l Hx Hl (o & rest & E & T & F)]; simpl.
  - exists None, []. split; [reflexivity|]. split; [apply tk_none|]; constructor.
  - rewrite has_name_xsd by exact Hx. destruct (String.eqb_spec (xe_tag x) t) as [Et|N].
    + exists (Some x), l. split; [reflexivity|]. split; [apply (tk_some t [] x l); auto|exact Hl].
    + rewrite E. exists o, (x :: rest). split; [reflexivity|]. split; [now apply take_cons_other|now constructor].
Qed.
Lemma take_det t l o rest o' rest' : take t l o rest -> take t l o' rest' -> o = o' /\ rest = rest'.
Proof.
  intros H1 H2. destruct H1 as [l F|l x r F E].
  - inversion H2 as [|l1 x r F' E']; subst; [auto|]. exfalso. apply Forall_app in F. destruct F as [_ F].
    inversion F; subst. contradiction.
  - revert o' rest' H2. induction F as [|y l Ny F IH]; intros o' rest' H2.
    + inversion H2 as [l1 F'|l1 y r' F' E' El]; subst.
      * inversion F'; subst. contradiction.
      * destruct l1 as [|z l1]; injection El as -> El; [now subst|]. inversion F'; subst. contradiction.
    + inversion H2 as [l1 F'|l1 z r' F' E' El]; subst.
      * exfalso. change ((y :: l) ++ x :: r) with (y :: (l ++ x :: r)) in F'. inversion F' as [|? ? _ F'']; subst.
        apply Forall_app in F''. destruct F'' as [_ F'']. inversion F''; subst. contradiction.
      * destruct l1 as [|z' l1]; injection El as -> El; [contradiction|].
        inversion F' as [|? ? _ F'']; subst.
        destruct (IH (Some z) (l1 ++ r')) as [A B]; [rewrite <- El; now apply tk_some|].
        injection A as <-. split; [reflexivity|]. simpl. now rewrite B.
Qed.
(** The other children keep their namespace. *)
Lemma take_xsd t l o rest : take t l o rest -> Forall xsd l -> Forall xsd rest.
Proof.
  intros [l' F|l' x r F E] H; [exact H|]. apply Forall_app in H. destruct H as [H1 H2]. inversion H2; subst.
  apply Forall_app. auto.
Qed.

Lemma take_ex t l : exists o rest, take t l o rest.
Proof.
  induction l as [|x l (o & rest & IH)]; [exists None, []; apply tk_none; constructor|].
  destruct (String.eqb_spec (xe_tag x) t) as [E|N].
  - exists (Some x), l. now apply (tk_some t [] x l).
  - exists o, (x :: rest). now apply take_cons_other.
Qed.
Lemma child_take n t : exists o rest, n_child n t (Some NS_XSD) = option_map node_of o /\ take t (xsd_children (n_elem n)) o rest.
Proof.
  unfold n_child, xsd_children. destruct n as [e v]. simpl.
  induction (xe_children e) as [|x l (o & rest & E & T)]; simpl.
  - exists None, []. split; [reflexivity|]. apply tk_none. constructor.
  - destruct (opt_eqb String.eqb (xe_ns x) (Some NS_XSD)) eqn:N.
    + unfold has_name at 1. rewrite N, andb_true_r. destruct (String.eqb_spec (xe_tag x) t) as [Et|Nt].
      * exists (Some x). eexists. split; [reflexivity|]. now apply (tk_some t [] x).
      * exists o, (x :: rest). split; [exact E|]. now apply take_cons_other.
    + unfold has_name at 1. rewrite N, andb_false_r. exists o, rest. auto.
Qed.

Lemma prevent_children n rest u : prevent_unvisited_children n (map node_of rest) = Ok u <-> rest = [].
Proof. destruct u, rest; simpl; split; try discriminate; auto. Qed.

Lemma try_remove n t cs x rest : Forall xsd cs ->
  c_try_remove n t (Some NS_XSD) (map node_of cs) = Ok (x, rest) ->
  exists y ys, x = node_of y /\ rest = map node_of ys /\ take t cs (Some y) ys /\ Forall xsd ys.
Proof.
  intros H. unfold c_try_remove. destruct (remove_take t cs H) as (o & ys & E & T & F). rewrite E.
  destruct o as [y|]; [|discriminate]. intros K; injection K as <- <-. exists y, ys. auto.
Qed.

Lemma select_all_map t l : Forall xsd l ->
  select_all t (map node_of l) = map node_of (filter (fun x => xe_tag x =?s t) l).
Proof.
  induction 1 as [|x l Hx Hl IH]; simpl; [reflexivity|]. rewrite has_name_xsd by exact Hx.
  destruct (_ =?s _); simpl; now rewrite IH.
Qed.
Lemma remove_all_map t l : Forall xsd l ->
  remove_all t (map node_of l) = map node_of (filter (fun x => negb (xe_tag x =?s t)) l).
Proof.
  induction 1 as [|x l Hx Hl IH]; simpl; [reflexivity|]. rewrite has_name_xsd by exact Hx.
  destruct (_ =?s _); simpl; now rewrite IH.
Qed.
Lemma filter_none {A} (f : A -> bool) l : filter (fun x => negb (f x)) l = [] -> filter f l = l /\ Forall (fun x => f x = true) l.
Proof.
  induction l as [|x l IH]; simpl; [auto|]. destruct (f x) eqn:E; simpl; [|discriminate].
  intros H. destruct (IH H) as [A1 A2]. split; [now rewrite A1|now constructor].
Qed.

(** ** Documentation *)
Lemma annotation_docs o docs : parse_annotation (option_map node_of o) = Ok docs -> docs_of o docs.
Proof.
  destruct o as [a|]; simpl; [|intros H; now injection H as <-].
  unfold annotation_parse. rewrite children_nodes.
  destruct (remove_take "documentation" _ (children_xsd a)) as (doc & rest & E & T & F). simpl n_elem. rewrite E.
  rewrite remove_all_map by exact F.
  destruct (match option_map node_of doc with None => _ | Some d => _ end) as [ds|?|?|] eqn:D; try discriminate. simpl.
  destruct (prevent_unvisited_children _ _) as [u|?|?|] eqn:PC; try discriminate.
  apply prevent_children, filter_none in PC. simpl.
  destruct (prevent_unvisited_attributes _) as [u'|?|?|] eqn:PA; try discriminate. simpl.
  intros H; injection H as <-. apply prevent_attrs in PA. split; [exact PA|].
  exists doc, rest. split; [exact T|]. split.
  - eapply Forall_impl; [|apply PC]. intros x Hx. now apply String.eqb_eq in Hx.
  - destruct doc as [x|]; simpl in D; [|now injection D as <-].
    unfold n_try_text in D. simpl in D. destruct (xe_kids x) as [|[y|t|y] ks]; try discriminate D.
    injection D as <-. eauto.
Qed.

(** ** Numbers *)
Lemma min_spec e n : parse_min_occurs (attr_lookup "minOccurs" (xe_attrs e)) = Ok n -> min_of e n.
Proof.
  unfold parse_min_occurs. destruct (attr_lookup _ _) as [a|] eqn:A.
  - destruct (u32_from_str _) as [k|] eqn:E; [|discriminate]. intros H; injection H as <-.
    apply parse_unsigned_iff in E. left. exists a. split; [now apply attr_lookup_iff|exact E].
  - intros H; injection H as <-. right. split; [now apply attr_lookup_no|reflexivity].
Qed.
Lemma max_spec e m : parse_max_occurs (attr_lookup "maxOccurs" (xe_attrs e)) = Ok m -> max_of e m.
Proof.
  unfold parse_max_occurs. destruct (attr_lookup _ _) as [a|] eqn:A.
  - apply attr_lookup_iff in A. destruct (String.eqb_spec (at_value a) "unbounded") as [U|U].
    + intros H; injection H as <-. left. eauto.
    + destruct (u32_from_str _) as [k|] eqn:E; [|discriminate]. intros H; injection H as <-.
      apply parse_unsigned_iff in E. right. left. exists a, k. tauto.
  - intros H; injection H as <-. right. right. split; [now apply attr_lookup_no|reflexivity].
Qed.
Lemma once_spec min max : orb (max_is_vec max) (negb (N.eqb min min_default)) = false <-> exactly_once min max.
Proof.
  rewrite orb_false_iff, negb_false_iff, N.eqb_eq. unfold exactly_once, min_default.
  destruct max as [n|]; simpl.
  - rewrite N.ltb_ge. split; [intros [H1 H2]; split; [exact H2|eauto]|].
    intros [H1 (k & E & H2)]. injection E as ->. auto.
  - split; [intros [H _]; discriminate|]. intros [_ (k & E & _)]. discriminate.
Qed.

(** ** Type names *)
Definition in_schema (d : xelem) (c : ctx) : Prop :=
  (forall p uri, aget String.eqb p (cx_doc_nss c) = Some uri <-> binds d (Some p) uri)
  /\ (cx_default_ns c = Some NS_XSD <-> binds d None NS_XSD).

Lemma split_colon_none s : split_colon s = None <-> plain s.
Proof.
  unfold plain. induction s as [|c s IH]; simpl; [tauto|].
  destruct (Ascii.eqb_spec c ":") as [->|N]; [split; [discriminate|tauto]|].
  destruct (split_colon s) as [[a b]|].
  - split; [discriminate|]. intros H. exfalso. assert (Some (a, b) = None) by (apply IH; tauto). discriminate.
  - split; [|reflexivity]. intros _ [E|I]; [congruence|]. now apply IH.
Qed.
Lemma split_colon_some s p l : split_colon s = Some (p, l) <-> qname s p l.
Proof.
  unfold qname, plain. revert p. induction s as [|c s IH]; intros p; simpl.
  - split; [discriminate|]. intros [E _]. destruct p; discriminate.
  - destruct (Ascii.eqb_spec c ":") as [->|N].
    + split; [intros H; injection H as <- <-; split; [reflexivity|tauto]|].
      intros [E H]. destruct p as [|x p]; injection E; [now intros ->|]. intros _ <-. exfalso. apply H. now left.
    + destruct (split_colon s) as [[a b]|] eqn:S.
      * split.
        -- intros H; injection H as <- <-. destruct (proj1 (IH a) eq_refl) as [-> H]. split; [reflexivity|].
           simpl. intros [E|I]; [congruence|tauto].
        -- intros [E H]. destruct p as [|x p]; injection E; [congruence|]. intros E1 <-.
           assert (K : Some (a, b) = Some (p, l)) by (apply IH; split; [exact E1|simpl in H; tauto]).
           injection K as <- <-. reflexivity.
      * split; [discriminate|]. intros [E H]. destruct p as [|x p]; injection E; [congruence|]. intros E1 <-.
        assert (K : None = Some (p, l)) by (apply IH; split; [exact E1|simpl in H; tauto]). discriminate.
Qed.

Lemma literal_some s l : literal_from_str s = Some l <-> In (s, l) builtins.
Proof.
  unfold literal_from_str. split.
  - intros H. repeat match type of H with
      | (if ?b then _ else _) = _ => let E := fresh "E" in destruct b eqn:E;
          [first [apply String.eqb_eq in E | apply orb_true_iff in E; rewrite !String.eqb_eq in E; destruct E as [E|E]]; subst s;
           injection H as <-; simpl; tauto|]
      end. discriminate.
  - simpl. intros H. repeat (destruct H as [H|H]; [injection H as <- <-; reflexivity|]). destruct H.
Qed.
Lemma literal_none s : literal_from_str s = None <-> ~ In s (map fst builtins).
Proof.
  split.
  - intros H I. apply in_map_iff in I. destruct I as ([s' l] & <- & I). apply literal_some in I. simpl in H. congruence.
  - intros H. destruct (literal_from_str s) as [l|] eqn:E; [|reflexivity]. exfalso. apply H.
    apply literal_some in E. apply (in_map fst) in E. exact E.
Qed.

Lemma insert_uri s uri ns s' : ns_wf s -> get_or_insert s uri = (ns, s') ->
  ns_wf s' /\ nss_le s s' /\ ns_uri s' ns uri.
Proof.
  intros W G. pose proof (get_or_insert_wf _ _ _ _ W G) as (W' & (k & -> & K) & N1 & N2).
  split; [exact W'|]. split; [split; assumption|]. destruct W' as (_ & W' & _). apply W' in K. destruct K as [_ K].
  exists k, (mkNsDef uri ("ns" +++ show_nat k)). auto.
Qed.
Lemma ns_uri_le s s' ns uri : nss_le s s' -> ns_uri s ns uri -> ns_uri s' ns uri.
Proof. intros [_ H] (id & def & -> & G & U). exists id, def. auto. Qed.

(** C34: every attribute value has a meaning, and it is what the code computes. *)
Definition bind_dec (d : xelem) p uri : {binds d p uri} + {~ binds d p uri}.
Proof. apply In_dec. repeat decide equality. Defined.
Lemma means_total d v : exists m, means d v m.
Proof.
  destruct (split_colon v) as [[p l]|] eqn:S.
  - apply split_colon_some in S.
    destruct (find (fun b => opt_eqb String.eqb (fst b) (Some p)) (xe_nss d)) as [[q uri]|] eqn:F.
    + apply find_some in F. destruct F as [I E]. apply opt_eqb_Some in E. simpl in E. subst q.
      destruct (string_dec uri NS_XSD) as [->|N]; [|eexists; now apply (mn_name d v p l uri)].
      destruct (literal_from_str l) as [lit|] eqn:Lt.
      * apply literal_some in Lt. eexists. now apply (mn_builtin d v p l lit).
      * apply literal_none in Lt. eexists. now apply (mn_unsupported d v p l).
    + eexists. apply (mn_unbound d v p l S). intros uri I. apply (find_none _ _ F) in I. simpl in I.
      rewrite String.eqb_refl in I. discriminate.
  - apply split_colon_none in S. destruct (bind_dec d None NS_XSD) as [B|B].
    + destruct (literal_from_str v) as [lit|] eqn:Lt.
      * apply literal_some in Lt. eexists. now apply (mn_plain_builtin d v lit).
      * apply literal_none in Lt. eexists. now apply mn_plain_unsupported.
    + eexists. now apply mn_plain_bare.
Qed.
Lemma type_name_means d c a m : in_schema d c -> ns_wf (nss_of c) -> means d (at_value a) m ->
  match m with
  | MBuiltin lit => get_type_name a c = Ok (LcLiteral lit, c)
  | MUnsupported l => get_type_name a c = Err (XeUnsupportedType l (at_range a))
  | MName uri l => exists ns nss, get_type_name a c
                     = Ok (LcNamed (mkName l ns), set_shared (mkShared nss (deps_of c)) c)
                     /\ ns_uri nss ns uri /\ ns_wf nss /\ nss_le (nss_of c) nss
  | MBare l => get_type_name a c = Ok (LcNamed (mkName l NsNone), c)
  | MUnbound p => get_type_name a c = Err (XeMissingNamespace p (at_range a))
  end.
Proof.
  intros [T D] W M. unfold get_type_name. destruct M as [p l lit Q B I|p l Q B N|p l uri Q B N|p l Q N|lit Q B I|Q B N|Q N].
  - apply split_colon_some in Q. apply T in B. apply literal_some in I. now rewrite Q, B, String.eqb_refl, I.
  - apply split_colon_some in Q. apply T in B. apply literal_none in N. now rewrite Q, B, String.eqb_refl, N.
  - apply split_colon_some in Q. apply T in B. rewrite Q, B. apply String.eqb_neq in N. rewrite N.
    destruct (get_or_insert (sh_namespaces (cx_shared c)) uri) as [ns nss] eqn:G.
    destruct (insert_uri _ _ _ _ W G) as (W' & Le & U). exists ns, nss. split; [reflexivity|]. auto.
  - apply split_colon_some in Q. rewrite Q. destruct (aget _ _ _) as [uri|] eqn:E; [|reflexivity].
    apply T in E. now apply N in E.
  - apply split_colon_none in Q. apply D in B. apply literal_some in I. rewrite Q, B, I. now rewrite (proj2 (opt_eqb_Some _ _) eq_refl).
  - apply split_colon_none in Q. apply D in B. apply literal_none in N. rewrite Q, B, N. now rewrite (proj2 (opt_eqb_Some _ _) eq_refl).
  - apply split_colon_none in Q. rewrite Q. destruct (opt_eqb _ _ _) eqn:E; [|reflexivity].
    apply opt_eqb_Some in E. now apply D in E.
Qed.
