(** * HashGen: generation in any order of the hash maps *)
From Coq Require Import Permutation.
From Verif Require Import Base Libs Xml Ast XsdNode Parse Decode Writer Gen Run GenSpec MiscProof GenProof1 HashSpec HashProof
  ParseProof ParseFiles ParseMain MergeSpec MergeProof.

Section Ctx.
Context {L : Libs}.
Variable c c' : schema_ctx.
Hypothesis Hg : forall n, sc_get c n = sc_get c' n.
Hypothesis Ht : sc_target c = sc_target c'.
Hypothesis Hq : sc_qualified c = sc_qualified c'.
Hypothesis Hn : sc_namespaces c = sc_namespaces c'.

Lemma mapM_ext {E A B} (f g : A -> res E B) l : (forall a, f a = g a) -> mapM f l = mapM g l.
Proof. intros H. induction l as [|a l IH]; simpl; [reflexivity|]. now rewrite H, IH. Qed.

Lemma c_to_impl fuel : forall ct, content_to_impl fuel c ct = content_to_impl fuel c' ct.
Proof. induction fuel as [|fuel IH]; intros [l|n|s]; simpl; rewrite ?Hg; try reflexivity. destruct (sc_get c' n) as [[]|]; auto. Qed.
Lemma c_to_xml fuel : forall ct, content_to_xml fuel c ct = content_to_xml fuel c' ct.
Proof. induction fuel as [|fuel IH]; intros [l|n|s]; simpl; rewrite ?Hg; try reflexivity. destruct (sc_get c' n) as [[]|]; auto. Qed.
Lemma c_from_xml fuel : forall ct, content_from_xml fuel c ct = content_from_xml fuel c' ct.
Proof. induction fuel as [|fuel IH]; intros [l|n|s]; simpl; rewrite ?Hg; try reflexivity. destruct (sc_get c' n) as [[]|]; auto. Qed.
Lemma c_resolve fuel n : resolve fuel c n = resolve fuel c' n.
Proof.
  unfold resolve. rewrite Hg. generalize (sc_get c' n). induction fuel as [|fuel IH]; intros [[[[l|m|s] dc df]|ns|d|d]|]; simpl; try reflexivity.
  now rewrite Hg, IH.
Qed.
Lemma c_xml_name n : xml_name_of c n = xml_name_of c' n.
Proof. unfold xml_name_of, get_xml_element_name. now rewrite Ht, Hq, Hn. Qed.
Lemma c_xml_ns n : xml_ns_of c n = xml_ns_of c' n.
Proof. unfold xml_ns_of, quote_xml_namespace. now rewrite Hn. Qed.
Lemma c_nss : element_nss c = element_nss c'.
Proof. unfold element_nss. now rewrite Ht, Hq, Hn. Qed.

Lemma c_leaf_to_impl fuel l : leaf_to_impl fuel c l = leaf_to_impl fuel c' l.
Proof. unfold leaf_to_impl, def_to_impl. now rewrite c_to_impl. Qed.
Lemma c_leaf_wrap fuel l : leaf_wrap fuel c l = leaf_wrap fuel c' l.
Proof. unfold leaf_wrap. destruct (lf_virtual l); [reflexivity|]. destruct (ld_content (lf_def l)); auto. now rewrite c_resolve. Qed.
Lemma c_leaf_to_xml fuel l : leaf_to_xml fuel c l = leaf_to_xml fuel c' l.
Proof. unfold leaf_to_xml, def_to_xml. now rewrite c_to_xml, c_xml_name, c_leaf_wrap. Qed.
Lemma c_leaf_from_xml fuel l : leaf_from_xml fuel c l = leaf_from_xml fuel c' l.
Proof. unfold leaf_from_xml, def_from_xml. now rewrite c_from_xml, c_xml_ns. Qed.
Lemma c_attr_to_impl fuel a : attr_to_impl fuel c a = attr_to_impl fuel c' a.
Proof. unfold attr_to_impl. now rewrite c_to_impl. Qed.
Lemma c_attr_to_xml a : attr_to_xml c a = attr_to_xml c' a.
Proof. unfold attr_to_xml. now rewrite c_xml_name. Qed.
Lemma c_attr_from_xml fuel a : attr_from_xml fuel c a = attr_from_xml fuel c' a.
Proof. unfold attr_from_xml. now rewrite c_to_impl. Qed.
Lemma c_element_to_impl fuel d : element_to_impl fuel c d = element_to_impl fuel c' d.
Proof.
  unfold element_to_impl, def_to_impl. rewrite (mapM_ext _ _ _ (c_attr_to_impl fuel)).
  destruct (ed_content d) as [[n e|ls]|]; rewrite ?c_to_impl, ?(mapM_ext _ _ _ (c_leaf_to_impl fuel)); reflexivity.
Qed.
Lemma c_element_to_xml fuel d : element_to_xml fuel c d = element_to_xml fuel c' d.
Proof.
  unfold element_to_xml, def_to_xml. rewrite (mapM_ext _ _ _ c_attr_to_xml).
  destruct (ed_content d) as [[n e|ls]|]; rewrite ?c_to_xml, ?(mapM_ext _ _ _ (c_leaf_to_xml fuel)); reflexivity.
Qed.
Lemma c_element_from_xml fuel d : element_from_xml fuel c d = element_from_xml fuel c' d.
Proof.
  unfold element_from_xml, def_from_xml. rewrite (mapM_ext _ _ _ (c_attr_from_xml fuel)).
  destruct (ed_content d) as [[n e|ls]|]; rewrite ?c_from_xml, ?(mapM_ext _ _ _ (c_leaf_from_xml fuel)); reflexivity.
Qed.
Lemma c_leaf_look l : leaf_look c l = leaf_look c' l.
Proof. unfold leaf_look. now rewrite c_xml_ns. Qed.
Lemma c_leaves_look ls : leaves_look c ls = leaves_look c' ls.
Proof. induction ls as [|l ls IH]; simpl; [reflexivity|]. now rewrite c_leaf_look, IH. Qed.

Lemma c_generate fuel n : generate_element fuel c n = generate_element fuel c' n.
Proof.
  unfold generate_element. rewrite Hg. destruct (sc_get c' n) as [r|]; [|reflexivity].
  assert (E1 : root_to_declaration fuel c r = root_to_declaration fuel c' r).
  { destruct r as [d|ns|d|d]; simpl; try reflexivity.
    - unfold def_to_impl. now rewrite c_to_impl.
    - apply c_element_to_impl.
    - erewrite mapM_ext; [reflexivity|]. intros l. unfold def_to_impl. now rewrite c_to_impl. }
  assert (E2 : root_to_xml fuel c r = root_to_xml fuel c' r).
  { destruct r as [d|ns|d|d]; simpl; try reflexivity.
    - unfold def_to_xml. now rewrite c_to_xml.
    - apply c_element_to_xml.
    - erewrite mapM_ext; [reflexivity|]. intros l. unfold def_to_xml. now rewrite c_to_xml. }
  assert (E3 : root_from_xml fuel c r = root_from_xml fuel c' r).
  { destruct r as [d|ns|d|d]; simpl; try reflexivity.
    - unfold def_from_xml. now rewrite c_from_xml.
    - apply c_element_from_xml.
    - erewrite mapM_ext; [reflexivity|]. intros l. unfold variant_from_xml, def_from_xml. now rewrite c_from_xml, c_xml_ns. }
  assert (E4 : root_lookahead c r = root_lookahead c' r).
  { destruct r as [d|ns|d|d]; simpl; try reflexivity.
    - destruct (ed_content d) as [[n' e|ls]|]; try reflexivity. now rewrite c_leaves_look.
    - erewrite mapM_ext; [reflexivity|]. apply c_leaf_look. }
  now rewrite E1, E2, E3, E4, c_xml_name, c_nss, c_xml_ns.
Qed.
End Ctx.

(** ** Modules of the same schema *)
Lemma same_decl_sym d d' : same_decl d d' -> same_decl d' d.
Proof. intros [x|vs vs' P]; constructor. now apply Permutation_sym. Qed.
Lemma same_decl_trans d d' d'' : same_decl d d' -> same_decl d' d'' -> same_decl d d''.
Proof. intros H K. destruct H as [d|vs vs' P]; [exact K|]. inversion K; subst; constructor; [exact P|]. eapply Permutation_trans; eassumption. Qed.
Lemma same_item_refl t : same_item t t.
Proof. repeat split; [apply sd_same|apply Permutation_refl]. Qed.
Lemma same_item_sym t t' : same_item t t' -> same_item t' t.
Proof.
  intros (A & B & C & D & E & F & G & H & I). repeat split; try (symmetry; assumption). now apply same_decl_sym.
Qed.
Lemma same_item_trans t t' t'' : same_item t t' -> same_item t' t'' -> same_item t t''.
Proof.
  intros (A & B & C & D & E & F & G & H & I) (A' & B' & C' & D' & E' & F' & G' & H' & I').
  repeat split; try congruence; [eapply same_decl_trans; eassumption|eapply Permutation_trans; eassumption].
Qed.
Lemma same_items_refl p : Forall2 same_item p p.
Proof. induction p; constructor; auto using same_item_refl. Qed.
Lemma same_items_sym p q : Forall2 same_item p q -> Forall2 same_item q p.
Proof. induction 1; constructor; auto using same_item_sym. Qed.
Lemma same_items_trans p q r : Forall2 same_item p q -> Forall2 same_item q r -> Forall2 same_item p r.
Proof.
  intros H. revert r. induction H as [|x y p q H _ IH]; intros r K; inversion K; subst; constructor; eauto using same_item_trans.
Qed.
Lemma same_module_perm p q : Permutation p q -> same_module p q.
Proof. intros P. exists q. split; [exact P|apply same_items_refl]. Qed.
Lemma same_module_sym p p' : same_module p p' -> same_module p' p.
Proof.
  intros (q & P & F). apply same_items_sym in F. destruct (Permutation_Forall2 (Permutation_sym P) (same_items_sym _ _ F)) as (r & P' & F').
  exists r. split; [exact P'|now apply same_items_sym].
Qed.
Lemma same_module_trans p q r : same_module p q -> same_module q r -> same_module p r.
Proof.
  intros (a & P & F) (b & P' & F'). destruct (Permutation_Forall2 P' (same_items_sym _ _ F)) as (d & Pd & Fd).
  exists d. split; [eapply Permutation_trans; eassumption|]. eapply same_items_trans; [apply same_items_sym, Fd|exact F'].
Qed.

Lemma mapM_perm {E A B} (f : A -> res E B) l l' : Permutation l l' -> forall r, mapM f l = Ok r ->
  exists r', mapM f l' = Ok r' /\ Permutation r r'.
Proof.
  induction 1 as [|x l l' P IH|x y l|l m n P IH P' IH']; intros r H.
  - exists r. split; [exact H|reflexivity].
  - simpl in H. apply bind_ok in H. destruct H as (b & E1 & H). apply bind_ok in H. destruct H as (bs & E2 & H).
    injection H as <-. destruct (IH _ E2) as (r' & E3 & P3). exists (b :: r'). simpl. rewrite E1. simpl. rewrite E3. simpl.
    split; [reflexivity|now constructor].
  - simpl in H. apply bind_ok in H. destruct H as (b & E1 & H). apply bind_ok in H. destruct H as (bs & E2 & H).
    injection H as <-. apply bind_ok in E2. destruct E2 as (b' & E2 & H). apply bind_ok in H. destruct H as (bs' & E3 & H).
    injection H as <-. exists (b' :: b :: bs'). simpl. rewrite E1, E2. simpl. rewrite E3. simpl. split; [reflexivity|constructor].
  - destruct (IH _ H) as (r1 & E1 & P1). destruct (IH' _ E1) as (r2 & E2 & P2). exists r2. split; [exact E2|].
    eapply Permutation_trans; eassumption.
Qed.

Section Main.
Context {L : Libs}.

Lemma generate_same gfuel s s' p : same_schema s s' -> generate_all gfuel s = Ok p ->
  exists p', generate_all gfuel s' = Ok p' /\ Permutation p p'.
Proof.
  intros (_ & P & Ht & Hq & Hn & Hg) E. unfold generate_all in *.
  destruct (mapM_perm _ _ _ P _ E) as (p' & E' & P'). exists p'. split; [|exact P'].
  transitivity (mapM (fun e => generate_element gfuel (s_context s) (fst e)) (sc_elements (s_context s'))); [|exact E'].
  apply mapM_ext. intros e. symmetry. now apply c_generate.
Qed.

Lemma emitted_same fuel gfuel f path p p' : emits fuel gfuel f path p -> emits fuel gfuel f path p' -> same_module p p'.
Proof.
  intros (ord & s & q & Sh & E & G & M) (ord' & s' & q' & Sh' & E' & G' & M').
  pose proof (file_order_same ord f fuel path Sh) as K. pose proof (file_order_same ord' f fuel path Sh') as K'.
  rewrite E in K. rewrite E' in K'. destruct (parse_file fuel f path) as [s0| | |]; simpl in K, K'; try contradiction.
  assert (S : same_schema s s').
  { destruct K as (D & P & T & Q & N & G1), K' as (D' & P' & T' & Q' & N' & G2). repeat split; try congruence.
    eapply Permutation_trans; [apply Permutation_sym, P|exact P']. }
  destruct (generate_same _ _ _ _ S G) as (q2 & G2 & P2). rewrite G' in G2. injection G2 as <-.
  eapply same_module_trans; [apply same_module_sym, M|]. eapply same_module_trans; [apply same_module_perm, P2|exact M'].
Qed.

Lemma nss_distinct c l : ns_wf (sc_namespaces c) -> element_nss c = Ok l -> NoDup (map fst l).
Proof.
  intros ((_ & ND) & W1 & W2) H. unfold element_nss in H. apply bind_ok in H. destruct H as (def & Ed & H). injection H as <-.
  assert (Px : forall k d, In (k, d) (by_id (sc_namespaces c)) -> nd_prefix d = "ns" +++ show_nat k).
  { intros k d I. apply (In_aget _ Nat.eqb_eq) in I; [|exact ND]. pose proof (W2 _ _ I) as A. apply W1 in A.
    destruct A as [_ A]. unfold get_by_id in *. rewrite I in A. now injection A as ->. }
  remember (by_id (sc_namespaces c)) as b. clear Heqb.
  assert (Sub : forall x, In x (map fst (flat_map (fun e => if andb (sc_qualified c) (namespace_eqb (NsId (fst e)) (sc_target c)) then []
        else [(nd_prefix (snd e), nd_uri (snd e))]) b)) -> exists k, In k (map fst b) /\ x = "ns" +++ show_nat k).
  { intros x I. apply in_map_iff in I. destruct I as ([x' u] & <- & I). apply in_flat_map in I. destruct I as ([k d] & I & J).
    destruct (andb _ _); [destruct J|]. destruct J as [J|[]]. injection J as <- _. exists k. simpl. rewrite (Px _ _ I).
    split; [now apply (in_map fst) in I|reflexivity]. }
  rewrite map_app. apply NoDup_app.
  - destruct (sc_qualified c); [|injection Ed as <-; constructor]. destruct (sc_target c) as [|k]; [injection Ed as <-; constructor|].
    destruct (get_by_id _ k); [|discriminate]. injection Ed as <-. repeat constructor. intros [].
  - clear Sub. induction b as [|[k d] b IH]; [constructor|]. cbn [flat_map fst snd]. rewrite map_app. simpl in ND.
    inversion ND as [|? ? N1 N2]; subst. apply NoDup_app.
    + destruct (andb _ _); repeat constructor. intros [].
    + apply IH; [exact N2|]. intros. apply Px. now right.
    + intros x I J. destruct (andb _ _) in I; [destruct I|]. destruct I as [<-|[]]. cbn [fst] in J. rewrite (Px k d) in J by now left.
      apply in_map_iff in J. destruct J as ([x' u] & Ex & J). apply in_flat_map in J. destruct J as ([k' d'] & J & K).
      destruct (andb _ _); [destruct K|]. destruct K as [K|[]]. injection K as <- _. simpl in Ex.
      rewrite (Px k' d') in Ex by now right. apply app_s_inj_r, show_nat_inj in Ex. subst k'. apply N1. now apply (in_map fst) in J.
  - intros x I J. apply Sub in J. destruct J as (k & _ & ->).
    destruct (sc_qualified c); [|injection Ed as <-; destruct I]. destruct (sc_target c) as [|k']; [injection Ed as <-; destruct I|].
    destruct (get_by_id _ k'); [|discriminate]. injection Ed as <-. destruct I as [I|[]]. discriminate.
Qed.

Lemma root_enum fuel c r vs : root_to_declaration fuel c r = Ok (DEnum vs) -> exists names, r = RootEnum names /\ enum_variants names = Ok vs.
Proof.
  destruct r as [d|ns|d|d]; simpl; intros H.
  - apply bind_ok in H. destruct H as (t & _ & H). discriminate.
  - apply bind_ok in H. destruct H as (t & E & H). injection H as <-. eauto.
  - unfold element_to_impl in H. apply bind_ok in H. destruct H as (t & _ & H). apply bind_ok in H. destruct H as (t' & _ & H). discriminate.
  - apply bind_ok in H. destruct H as (t & _ & H). discriminate.
Qed.

Lemma emitted_distinct fuel gfuel f path p : emits fuel gfuel f path p -> forall t, In t p -> distinct_names t.
Proof.
  intros (ord & s & q & Sh & E & G & (q' & P & F)) t I.
  assert (J : exists t', In t' q /\ same_item t' t).
  { clear -F I P. assert (exists t', In t' q' /\ same_item t' t) as (t' & I' & S).
    { clear P. induction F as [|x y q' p S F IH]; [destruct I|]. destruct I as [->|I]; [exists x; split; [now left|exact S]|].
      destruct (IH I) as (t' & I' & S'). exists t'. split; [now right|exact S']. }
    exists t'. split; [|exact S]. eapply Permutation_in; [apply Permutation_sym, P|exact I']. }
  destruct J as (t' & I' & S). unfold generate_all in G.
  assert (exists n, generate_element gfuel (s_context s) n = Ok t') as (n & En).
  { clear -G I'. revert q G I'. induction (sc_elements (s_context s)) as [|e l IH]; simpl; intros q G I'.
    - injection G as <-. destruct I'.
    - apply bind_ok in G. destruct G as (b & E1 & G). apply bind_ok in G. destruct G as (bs & E2 & G). injection G as <-.
      destruct I' as [<-|I']; eauto. }
  assert (W : ns_wf (sc_namespaces (s_context s))).
  { pose proof (file_order_same ord f fuel path Sh) as K. rewrite E in K. destruct (parse_file fuel f path) as [s0| | |] eqn:E0; simpl in K; try contradiction.
    destruct K as (_ & _ & _ & _ & <- & _). apply parsed_file_inv in E0. apply E0. }
  apply generate_element_inv in En. destruct En as (el & id & d & w & xn & nss & ns & r & lk & _ & _ & Ed & _ & _ & En & _ & _ & _ & ->).
  destruct S as (_ & D & _ & Pn & _). simpl in D, Pn. split.
  - eapply Permutation_NoDup; [apply Permutation_map, Pn|]. eapply nss_distinct; eassumption.
  - intros vs Hv. rewrite Hv in D.
    assert (exists vs0, d = DEnum vs0 /\ Permutation vs0 vs) as (vs0 & -> & Pv) by (inversion D; subst; eauto).
    apply root_enum in Ed. destruct Ed as (names & _ & Ev). apply enum_variants_spec in Ev.
    eapply Permutation_NoDup; [apply Permutation_map, Pv|apply Ev].
Qed.

Lemma emitted_literals fuel gfuel f path p s : parse_file fuel f path = Ok s -> emits fuel gfuel f path p ->
  (forall n names, sc_get (s_context s) n = Some (RootEnum names) -> NoDup (map nm names)) ->
  forall t, In t p -> distinct_literals t.
Proof.
  intros E0 (ord & s' & q & Sh & E & G & (q' & P & F)) Hl t I vs Hv.
  pose proof (file_order_same ord f fuel path Sh) as K. rewrite E0, E in K. destruct K as (_ & _ & _ & _ & _ & Hg).
  assert (J : exists t', In t' q /\ same_item t' t).
  { clear -F I P. assert (exists t', In t' q' /\ same_item t' t) as (t' & I' & S).
    { clear P. induction F as [|x y q' p S F IH]; [destruct I|]. destruct I as [->|I]; [exists x; split; [now left|exact S]|].
      destruct (IH I) as (t' & I' & S'). exists t'. split; [now right|exact S']. }
    exists t'. split; [|exact S]. eapply Permutation_in; [apply Permutation_sym, P|exact I']. }
  destruct J as (t' & I' & S). unfold generate_all in G.
  assert (exists n, generate_element gfuel (s_context s') n = Ok t') as (n & En).
  { clear -G I'. revert q G I'. induction (sc_elements (s_context s')) as [|e l IH]; simpl; intros q G I'.
    - injection G as <-. destruct I'.
    - apply bind_ok in G. destruct G as (b & E1 & G). apply bind_ok in G. destruct G as (bs & E2 & G). injection G as <-.
      destruct I' as [<-|I']; eauto. }
  apply generate_element_inv in En. destruct En as (el & id & d & w & xn & nss & ns & r & lk & Eg & _ & Ed & _ & _ & _ & _ & _ & _ & ->).
  destruct S as (_ & D & _). simpl in D. rewrite Hv in D.
  assert (exists vs0, d = DEnum vs0 /\ Permutation vs0 vs) as (vs0 & -> & Pv) by (inversion D; subst; eauto).
  apply root_enum in Ed. destruct Ed as (names & -> & Ev). apply enum_variants_spec in Ev. destruct Ev as (_ & Es & _).
  eapply Permutation_NoDup; [apply Permutation_map, Pv|]. rewrite Es. eapply Hl. rewrite Hg. exact Eg.
Qed.

Lemma hash_decoding fuel gfuel f path p p' : emits fuel gfuel f path p -> emits fuel gfuel f path p' ->
  NoDup (map ti_id p) -> (forall t, In t p -> distinct_literals t) ->
  forall dfuel id e, from_xml p dfuel id e = from_xml p' dfuel id e.
Proof. intros H H' N D. now apply decode_same; [eapply emitted_same; eassumption|..]. Qed.

Lemma hash_encoding fuel gfuel f path p p' : emits fuel gfuel f path p -> emits fuel gfuel f path p' ->
  NoDup (map ti_id p) -> forall dfuel id v, same_output (to_xml p dfuel id v) (to_xml p' dfuel id v).
Proof.
  intros H H' N. apply encode_same; [eapply emitted_same; eassumption|exact N|eapply emitted_distinct; eassumption].
Qed.
End Main.
