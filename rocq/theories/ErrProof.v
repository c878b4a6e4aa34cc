(** * ErrProof: a walk through the parser for what its errors say *)
From Verif Require Import Base Libs Xml Ast XsdNode Parse TextSpec NumProof ParseSpec MiscSpec DeclSpec ParseProof DeclProof1 DeclMain ErrSpec.

Section Err.
Context {L : Libs}.
Variable d : xelem.

Definition told {A} (Q : A -> Prop) (m : P A) : Prop := forall c, in_schema d c ->
  match m c with Ok (a, c') => in_schema d c' /\ Q a | Err e => tells d e | _ => True end.
Definition rtold {A} (Q : A -> Prop) (m : res xsd_err A) : Prop :=
  match m with Ok a => Q a | Err e => tells d e | _ => True end.
Definition any {A} (a : A) : Prop := True.

Lemma told_mono {A} (Q R : A -> Prop) m : told Q m -> (forall a, Q a -> R a) -> told R m.
Proof. intros H I c E. specialize (H c E). destruct (m c) as [[a c']|e|w|]; auto. destruct H; auto. Qed.
Lemma told_bind {A B} (Q : A -> Prop) (R : B -> Prop) m k :
  told Q m -> (forall a, Q a -> told R (k a)) -> told R (pbind m k).
Proof.
  intros H K c E. unfold pbind. specialize (H c E). destruct (m c) as [[a c']|e|w|]; auto.
  destruct H as [E' q]. apply (K a q c' E').
Qed.
Lemma told_ret {A} (Q : A -> Prop) a : Q a -> told Q (pret a).
Proof. intros q c E. simpl. auto. Qed.
Lemma told_err {A} (Q : A -> Prop) e : tells d e -> told Q (perr e).
Proof. intros T c E. exact T. Qed.
Lemma told_lift {A} (Q : A -> Prop) m : rtold Q m -> told Q (plift m).
Proof. intros H c E. unfold plift, rtold in *. destruct m; auto. Qed.
Lemma told_fuel {A} (Q : A -> Prop) : told Q (fun _ => OutOfFuel).
Proof. intros c E. exact I. Qed.
Lemma told_get : told any pget.
Proof. intros c E. simpl. split; [exact E|exact I]. Qed.
Lemma told_pmod f : (forall c, cx_doc_nss (f c) = cx_doc_nss c /\ cx_default_ns (f c) = cx_default_ns c) -> told any (pmod f).
Proof. intros H c [E1 E2]. simpl. unfold in_schema. destruct (H c) as [-> ->]. split; [split; assumption|exact I]. Qed.
Lemma told_discover n p : told any (discover_type n p).
Proof. apply told_pmod. intros c. split; reflexivity. Qed.
Lemma told_add n r : told any (add_root n r).
Proof. apply told_pmod. intros c. split; reflexivity. Qed.
Lemma told_virtual ns b : told any (derive_virtual_name ns b).
Proof.
  intros c E. unfold derive_virtual_name. cbv zeta.
  match goal with |- context [match ?x with Some s => _ | None => _ end] => destruct x end; [split; [exact E|exact I]|].
  destruct (concat_upper _) eqn:C; simpl; try exact I; [split; [exact E|exact I]|].
  exfalso. clear - C. revert e C. induction (map nm ns) as [|[|x s] l IH]; simpl; intros e C; [discriminate|eauto|].
  destruct (starts_with_cont s); [discriminate|]. destruct (concat_upper l); simpl in C; try discriminate.
  injection C as ->. eapply IH; reflexivity.
Qed.
Lemma told_collect {A B} (f : A -> P (option B)) l : Forall (fun a => told any (f a)) l -> told any (pcollect f l).
Proof.
  induction 1 as [|a l H _ IH]; cbn [pcollect]; [now apply told_ret|].
  eapply told_bind; [exact H|]. intros o _. eapply told_bind; [exact IH|]. intros bs _. now apply told_ret.
Qed.

Lemma rtold_bind {A B} (Q : A -> Prop) (R : B -> Prop) (m : res xsd_err A) k :
  rtold Q m -> (forall a, Q a -> rtold R (k a)) -> rtold R (bind m k).
Proof. unfold rtold. intros H K. destruct m as [a|e|w|]; simpl in *; auto. apply K, H. Qed.

(** ** Nodes *)
Definition inn (n : node) : Prop := within d (n_elem n).
(** The children of [e] left over after elements named [ts] were taken out. *)
Definition kids (e : xelem) (ts : list string) (cs : list node) : Prop :=
  Forall (fun x => In (n_elem x) (xsd_children e)) cs
  /\ forall y, In y (xsd_children e) -> ~ In (xe_tag y) ts -> In y (map n_elem cs).
Lemma kids_children n : kids (n_elem n) [] (n_children n NS_XSD).
Proof.
  unfold n_children. split.
  - apply Forall_forall. intros x H. apply in_map_iff in H. destruct H as (e & <- & H). exact H.
  - intros y H _. apply in_map_iff. exists (node_of y). split; [reflexivity|]. now apply in_map.
Qed.
Lemma kids_in e ts cs x : within d e -> kids e ts cs -> In x cs -> inn x.
Proof.
  intros W [F _] I. rewrite Forall_forall in F. apply F in I. apply filter_In in I. eapply wi_child; [exact W|apply I].
Qed.
Lemma kids_remove e ts cs t o cs' : kids e ts cs -> c_remove t (Some NS_XSD) cs = (o, cs') ->
  kids e (t :: ts) cs'
  /\ match o with
     | Some x => In (n_elem x) (xsd_children e) /\ xe_tag (n_elem x) = t
     | None => ~ In t ts -> forall y, In y (xsd_children e) -> xe_tag y <> t
     end.
Proof.
  intros [F K] R. apply c_remove_split in R. destruct o as [x|].
  - destruct R as (N & l & r & -> & -> & _). apply has_name_spec in N. destruct N as [Nt _].
    apply Forall_app in F. destruct F as [F1 F2]. inversion F2 as [|? ? Fx F3]; subst.
    split; [split; [apply Forall_app; auto|]|auto].
    intros y I M. assert (J : In y (map n_elem (l ++ x :: r))) by (apply K; [exact I|intros X; apply M; now right]).
    rewrite map_app, in_app_iff in *. simpl in J. destruct J as [J|[<-|J]]; auto. exfalso. apply M. now left.
  - destruct R as [-> N]. split; [split; [exact F|]|].
    + intros y I M. apply K; [exact I|intros X; apply M; now right].
    + intros M y I <-. specialize (K y I M). apply in_map_iff in K. destruct K as (z & <- & Z).
      rewrite Forall_forall in N, F. specialize (N z Z). specialize (F z Z).
      pose proof (children_xsd e) as X. rewrite Forall_forall in X. specialize (X _ F).
      rewrite has_name_xsd in N by exact X. now rewrite String.eqb_refl in N.
Qed.

Lemma rtold_try_remove n ts cs t : inn n -> In (xe_tag (n_elem n), t) required_children -> kids (n_elem n) ts cs -> ~ In t ts ->
  rtold (fun xc => inn (fst xc) /\ In (n_elem (fst xc)) (xsd_children (n_elem n)) /\ xe_tag (n_elem (fst xc)) = t
                   /\ kids (n_elem n) (t :: ts) (snd xc))
    (c_try_remove n t (Some NS_XSD) cs).
Proof.
  intros W Rq K M. unfold c_try_remove. destruct (c_remove t _ cs) as [[x|] cs'] eqn:R.
  - destruct (kids_remove _ _ _ _ _ _ K R) as [K' [Ix E]]. simpl. split; [|auto].
    apply filter_In in Ix. eapply wi_child; [exact W|apply Ix].
  - destruct (kids_remove _ _ _ _ _ _ K R) as [K' N]. simpl. apply te_no_child; auto.
Qed.
Lemma rtold_children n ts cs : inn n -> kids (n_elem n) ts cs -> rtold any (prevent_unvisited_children n cs).
Proof.
  intros W [F _]. destruct cs as [|x cs]; simpl; [exact I|]. inversion F; subst.
  apply (te_child d (n_elem n) (n_elem x)); assumption.
Qed.
Lemma unvisited_the all v l b : (forall x, In x l -> In x all) -> unvisited all v l = Some b ->
  attr_lookup (at_name b) all = Some b /\ at_ns b = None.
Proof.
  intros _. induction l as [|x l IH]; simpl; [discriminate|].
  destruct (attr_lookup (at_name x) all) as [y|] eqn:E; [|auto].
  destruct (andb _ _) eqn:A; [|auto]. intros H; injection H as ->. apply andb_true_iff in A. destruct A as [A _].
  pose proof (attr_lookup_In _ _ _ E) as [_ N]. rewrite N. split; [exact E|].
  destruct (at_ns b); [discriminate|reflexivity].
Qed.
Lemma rtold_attrs n : inn n -> rtold any (prevent_unvisited_attributes n).
Proof.
  intros W. unfold prevent_unvisited_attributes. destruct (unvisited _ _ _) as [a|] eqn:U; simpl; [|exact I].
  apply unvisited_the in U; [|auto]. destruct U as [U N]. apply (te_attr d (n_elem n) (at_name a) a W); [|exact N].
  now apply attr_lookup_iff.
Qed.
Lemma rtold_try_attr n k : inn n -> needs d (n_elem n) k ->
  rtold (fun an => the_attr (n_elem n) k (fst an) /\ n_elem (snd an) = n_elem n) (n_try_attribute n k).
Proof.
  intros W Wk. unfold n_try_attribute, n_attribute. destruct (attr_lookup k _) as [a|] eqn:E; simpl.
  - split; [now apply attr_lookup_iff|reflexivity].
  - apply te_no_attr; [exact W|exact Wk|]. intros a. now apply attr_lookup_None.
Qed.
Lemma rtold_text n : inn n -> xe_tag (n_elem n) = "documentation" -> rtold any (n_try_text n).
Proof.
  intros W T. unfold n_try_text. destruct (xe_kids (n_elem n)) as [|[x|s|x] ks] eqn:K; try exact I;
    (apply te_no_text; [exact W|exact T|intros; congruence]).
Qed.

(** ** Annotations, bounds, facets *)
Lemma kids_remove_all e ts cs t : kids e ts cs -> kids e (t :: ts) (remove_all t cs).
Proof.
  intros [F K]. split.
  - apply Forall_forall. intros x H. apply filter_In in H. destruct H as [H _]. rewrite Forall_forall in F. auto.
  - intros y I M. assert (J : In y (map n_elem cs)) by (apply K; [exact I|intros X; apply M; now right]).
    apply in_map_iff in J. destruct J as (z & <- & Z). apply in_map. apply filter_In. split; [exact Z|].
    apply negb_true_iff. destruct (has_name t _ _) eqn:N; [|reflexivity]. apply has_name_spec in N. destruct N as [N _].
    exfalso. apply M. now left.
Qed.
Lemma rtold_annotation n : inn n -> rtold any (annotation_parse n).
Proof.
  intros W. unfold annotation_parse. destruct (c_remove "documentation" _ _) as [o cs] eqn:R.
  destruct (kids_remove _ _ _ _ _ _ (kids_children n) R) as [K H].
  eapply (rtold_bind any).
  - destruct o as [x|]; [|exact I]. destruct H as [H Et]. apply filter_In in H.
    eapply (rtold_bind any); [apply rtold_text; [eapply wi_child; [exact W|apply H]|exact Et]|]. intros; exact I.
  - intros docs _. eapply (rtold_bind any); [eapply rtold_children; [exact W|apply kids_remove_all, K]|]. intros _ _.
    eapply (rtold_bind any); [now apply rtold_attrs|]. intros; exact I.
Qed.
Lemma rtold_oannotation e t o : within d e -> match o with Some x => In (n_elem x) (xsd_children e) /\ xe_tag (n_elem x) = t | None => True end ->
  rtold any (parse_annotation o).
Proof.
  intros W H. destruct o as [x|]; [|exact I]. apply rtold_annotation. destruct H as [H _].
  apply filter_In in H. eapply wi_child; [exact W|apply H].
Qed.
Lemma rtold_child_annotation n t ns : inn n -> rtold any (parse_annotation (n_child n t ns)).
Proof.
  intros W. unfold n_child. destruct (find _ _) as [x|] eqn:F; simpl; [|exact I]. apply rtold_annotation.
  apply find_some in F. eapply wi_child; [exact W|apply F].
Qed.
Lemma no_number_spec max s : parse_unsigned max s = None -> no_number s max.
Proof.
  intros H n U. destruct (N.lt_ge_cases max n) as [X|X]; [exact X|].
  assert (parse_unsigned max s = Some n) by (apply parse_unsigned_iff; auto). congruence.
Qed.
Lemma rtold_min n o : inn n -> o = attr_lookup "minOccurs" (xe_attrs (n_elem n)) -> rtold any (parse_min_occurs o).
Proof.
  intros W E. destruct o as [a|]; [|exact I]. symmetry in E. apply attr_lookup_iff in E. simpl.
  destruct (u32_from_str _) eqn:U; simpl; [exact I|]. eapply te_min; eauto. now apply no_number_spec.
Qed.
Lemma rtold_max n o : inn n -> o = attr_lookup "maxOccurs" (xe_attrs (n_elem n)) -> rtold any (parse_max_occurs o).
Proof.
  intros W E. destruct o as [a|]; [|exact I]. symmetry in E. apply attr_lookup_iff in E. simpl.
  destruct (String.eqb_spec (at_value a) "unbounded") as [X|X]; [exact I|].
  destruct (u32_from_str _) eqn:U; simpl; [exact I|]. eapply te_max; eauto. now apply no_number_spec.
Qed.
Lemma rtold_facet e n : within d e -> xe_tag e = "restriction" -> In (n_elem n) (xsd_children e) -> rtold any (parse_facet n).
Proof.
  intros W T Hx. assert (Wn : inn n) by (apply filter_In in Hx; eapply wi_child; [exact W|apply Hx]).
  assert (U : forall k, In (xe_tag (n_elem n)) integer_facets -> rtold (@any facet)
     ('(a, _) <- n_try_attribute n "value" ;; match usize_from_str (at_value a) with Some m => Ok (FRestr (k m)) | None => Err (XeParseInt (at_range a)) end)).
  { intros k It. eapply rtold_bind; [apply rtold_try_attr; [exact Wn|apply nd_value; revert It; simpl; tauto]|]. intros [a n'] [Ha _]. cbn [fst] in Ha.
    destruct (usize_from_str _) eqn:E; simpl; [exact I|]. eapply te_integer; eauto. now apply no_number_spec. }
  assert (D : forall k, In (xe_tag (n_elem n)) decimal_facets -> rtold (@any facet)
     ('(a, _) <- n_try_attribute n "value" ;; match dec_from_str (at_value a) with Some m => Ok (FRestr (k m)) | None => Err (XeParseDecimal (at_range a)) end)).
  { intros k It. eapply rtold_bind; [apply rtold_try_attr; [exact Wn|apply nd_value; revert It; simpl; tauto]|]. intros [a n'] [Ha _]. cbn [fst] in Ha.
    destruct (dec_from_str _) eqn:E; simpl; [exact I|]. eapply te_decimal; eauto. }
  assert (V : forall f, In (xe_tag (n_elem n)) ["enumeration"; "pattern"] -> rtold (@any facet) ('(a, _) <- n_try_attribute n "value" ;; Ok (f a))).
  { intros f It. eapply rtold_bind; [apply rtold_try_attr; [exact Wn|apply nd_value; revert It; simpl; tauto]|]. intros [a n'] _. exact I. }
  unfold parse_facet. cbv zeta. unfold n_name, n_range.
  repeat match goal with |- context [?x =?s ?y] => destruct (String.eqb_spec x y) as [Q|] end;
    first [apply V; rewrite Q; simpl; tauto | apply U; rewrite Q; simpl; tauto | apply D; rewrite Q; simpl; tauto | idtac].
  apply (te_facet d e (n_elem n)); auto. simpl. intuition congruence.
Qed.
Lemma rtold_mapM {A B} (f : A -> res xsd_err B) l : Forall (fun a => rtold any (f a)) l -> rtold any (mapM f l).
Proof.
  induction 1 as [|a l H _ IH]; cbn [mapM]; [exact I|].
  eapply rtold_bind; [exact H|]. intros b _. eapply rtold_bind; [exact IH|]. intros; exact I.
Qed.

(** ** Type names *)
Definition stands (v : string) (lc : leaf_content) : Prop :=
  match lc with
  | LcLiteral lit => means d v (MBuiltin lit)
  | LcNamed _ => (exists uri l, means d v (MName uri l)) \/ exists l, means d v (MBare l)
  | LcFixed _ => False
  end.
Lemma told_type e n a : within d e -> In n ["type"; "base"; "ref"] -> the_attr e n a ->
  told (stands (at_value a)) (get_type_name a).
Proof.
  intros W M Ha c [T D]. unfold get_type_name. destruct (split_colon (at_value a)) as [[p l]|] eqn:Q.
  - apply split_colon_some in Q. destruct (aget _ _ _) as [uri|] eqn:B.
    + apply T in B. destruct (String.eqb_spec uri NS_XSD) as [->|N].
      * destruct (literal_from_str l) as [lit|] eqn:X.
        -- split; [split; assumption|]. apply literal_some in X. eapply mn_builtin; eauto.
        -- apply literal_none in X. eapply te_type; eauto. eapply mn_unsupported; eauto.
      * destruct (get_or_insert _ _) as [ns nss]. split; [split; assumption|]. left. exists uri, l. eapply mn_name; eauto.
    + eapply te_prefix; eauto. eapply mn_unbound; eauto. intros uri X. apply T in X. congruence.
  - apply split_colon_none in Q. destruct (opt_eqb _ _ _) eqn:B.
    + apply opt_eqb_Some in B. apply D in B. destruct (literal_from_str _) as [lit|] eqn:X.
      * split; [split; assumption|]. apply literal_some in X. now apply mn_plain_builtin.
      * apply literal_none in X. eapply te_type; eauto. now apply mn_plain_unsupported.
    + split; [split; assumption|]. right. exists (at_value a). apply mn_plain_bare; [exact Q|].
      intros X. apply D in X. rewrite X in B. cbn in B. discriminate.
Qed.

Lemma told_content n p lc : told (fun x => n_elem (snd x) = n_elem n) (content_of_type n p lc).
Proof.
  unfold content_of_type, n_attribute. destruct lc as [lit|t|f]; [apply told_ret; reflexivity| |apply told_ret; reflexivity].
  eapply told_bind; [apply told_discover|]. intros _ _. now apply told_ret.
Qed.

(** ** Simple types and attributes *)
Ltac lifted := eapply (told_bind any); [apply told_lift|intros ? _].
Ltac step H := eapply (told_bind any); [apply H|intros ? _].
Ltac dfst H := let a := fresh "a" in let b := fresh "n'" in intros [a b] H; cbn [fst snd] in H.

Lemma told_simple_type n : inn n -> xe_tag (n_elem n) = "simpleType" -> told any (simple_type_parse n).
Proof.
  intros W T. unfold simple_type_parse. lifted; [now apply rtold_attrs|].
  destruct (c_remove "annotation" _ _) as [an cs] eqn:R.
  destruct (kids_remove _ _ _ _ _ _ (kids_children n) R) as [K H].
  lifted. { apply (rtold_oannotation (n_elem n) "annotation"); [exact W|]. destruct an; auto. }
  eapply told_bind; [apply told_lift, (rtold_try_remove n ["annotation"] cs "restriction" W); [rewrite T; simpl; tauto|exact K|simpl; intuition discriminate]|].
  intros [rs cs'] (Wr & Ir & Tr & K'). cbn [fst snd] in *.
  eapply told_bind; [apply told_lift, (rtold_try_attr rs "base" Wr), nd_base; rewrite Tr; simpl; tauto|].
  intros [ba rs'] [Ha Er]. cbn [fst snd] in *.
  eapply told_bind; [eapply (told_type _ "base"); [exact Wr|simpl; tauto|exact Ha]|].
  intros lc S. destruct lc as [lit|t|f]; simpl in S.
  - lifted; [eapply rtold_children; eauto|]. lifted; [|now apply told_ret].
    apply rtold_mapM. apply Forall_forall. intros x Hx. unfold n_children in Hx. rewrite Er in Hx.
    eapply (rtold_facet (n_elem rs)); [exact Wr|exact Tr|]. apply in_map_iff in Hx. destruct Hx as (y & <- & Hy). exact Hy.
  - apply told_err. rewrite <- Tr. now apply te_restriction.
  - destruct S.
Qed.

Lemma told_attribute p n : inn n -> xe_tag (n_elem n) = "attribute" -> told any (attribute_parse p n).
Proof.
  intros W T. unfold attribute_parse.
  eapply told_bind; [apply told_lift, (rtold_try_attr n "name" W), nd_attribute, T|]. intros [na n1] [_ E1]. cbn [fst snd] in *.
  cbv zeta. destruct (c_remove "annotation" _ _) as [an cs] eqn:R.
  destruct (kids_remove _ _ _ _ _ _ (kids_children n1) R) as [K H]. rewrite E1 in *.
  lifted. { apply (rtold_oannotation (n_elem n) "annotation"); [exact W|]. destruct an; auto. }
  destruct (c_remove "simpleType" _ _) as [st cs'] eqn:R2.
  destruct (kids_remove _ _ _ _ _ _ K R2) as [K' H'].
  eapply (told_bind (fun x => n_elem (snd x) = n_elem n)).
  { destruct st as [st|].
    - destruct H' as [Is Ts]. eapply (told_bind any).
      + apply told_simple_type; [|exact Ts]. apply filter_In in Is. eapply wi_child; [exact W|apply Is].
      + intros r _.
        assert (G : told (fun x : leaf_content * node => n_elem (snd x) = n_elem n)
          (c <== pget ;; vn <== derive_virtual_name [p; mkName (at_value na) NsNone; get_node_name c "Data" false] false ;;
           add_root vn r ;== discover_type vn p ;== pret (LcNamed vn, n1))).
        { step told_get. step told_virtual. step told_add. step told_discover. now apply told_ret. }
        destruct r as [[[lit| |] rs ds]| | |]; try exact G. now apply told_ret.
    - eapply told_bind; [apply told_lift, (rtold_try_attr n1 "type")|].
      { unfold inn. now rewrite E1. }
      { rewrite E1. apply nd_type; [exact T|]. apply H'. simpl. intuition discriminate. }
      intros [ta n2] [Ha E2]. cbn [fst snd] in *. rewrite E1 in *.
      eapply told_bind; [eapply (told_type _ "type"); [exact W|simpl; tauto|exact Ha]|]. intros lc _.
      eapply told_mono; [apply told_content|]. cbn beta. intros x Ex. now rewrite Ex. }
  intros [lc n2] E2. cbn [fst snd] in E2.
  lifted. { eapply (rtold_children n2 (["simpleType"; "annotation"])); [unfold inn; now rewrite E2|rewrite E2; exact K']. }
  unfold n_attribute. cbv beta iota zeta. cbn [n_elem n_name n_range n_visited]. unfold n_name, n_range. cbn [n_elem]. rewrite E2.
  assert (Fin : forall opt, (opt = false -> exists u, the_attr (n_elem n) "use" u /\ at_value u = "required") ->
    told (@any (option attribute)) (if andb (is_some (attr_lookup "default" (xe_attrs (n_elem n)))) (negb opt)
      then perr (XeUnexpectedAttribute "default" (xe_tag (n_elem n)) (xe_range (n_elem n)))
      else plift (prevent_unvisited_attributes (mkNode (n_elem n) ("use" :: "default" :: n_visited n2))) ;==
           pret (Some (mkAttribute (mkName (at_value na) NsNone) lc (option_map at_value (attr_lookup "default" (xe_attrs (n_elem n)))) opt a)))).
  { intros opt Ho. destruct (attr_lookup "default" _) as [da|] eqn:Da; cbn [is_some andb]; [destruct opt; cbn [negb]|].
    - lifted; [now apply rtold_attrs|now apply told_ret].
    - apply told_err. destruct (Ho eq_refl) as (u & Hu & Ev). apply attr_lookup_iff in Da. eapply te_default; eauto.
    - lifted; [now apply rtold_attrs|now apply told_ret]. }
  destruct (attr_lookup "use" _) as [u|] eqn:U; [|apply Fin; discriminate].
  apply attr_lookup_iff in U.
  destruct (String.eqb_spec (at_value u) "required") as [V1|V1]; [apply Fin; eauto|].
  destruct (String.eqb_spec (at_value u) "optional") as [V2|V2]; [apply Fin; discriminate|].
  destruct (String.eqb_spec (at_value u) "prohibited") as [V3|V3]; [now apply told_ret|].
  apply told_err. apply te_use; auto. simpl. intuition congruence.
Qed.
Lemma told_attributes p e ts cs : within d e -> kids e ts cs -> told any (pcollect (attribute_parse p) (select_all "attribute" cs)).
Proof.
  intros W K. apply told_collect, Forall_forall. intros x Hx. apply filter_In in Hx. destruct Hx as [Hx N].
  apply has_name_spec in N. apply told_attribute; [eapply kids_in; eauto|apply N].
Qed.

Lemma told_simple_content n p : inn n -> xe_tag (n_elem n) = "simpleContent" -> told any (simple_content_parse n p).
Proof.
  intros W T. unfold simple_content_parse. lifted; [now apply rtold_attrs|].
  eapply told_bind; [apply told_lift, (rtold_try_remove n [] _ "extension" W); [rewrite T; simpl; tauto|apply kids_children|simpl; tauto]|].
  intros [ex cs'] (We & Ie & Te & K'). cbn [fst snd] in *.
  lifted; [eapply rtold_children; eauto|].
  eapply told_bind; [apply told_lift, (rtold_try_attr ex "base" We), nd_base; rewrite Te; simpl; tauto|].
  intros [ba ex'] [Ha Er]. cbn [fst snd] in *.
  eapply told_bind; [eapply (told_type _ "base"); [exact We|simpl; tauto|exact Ha]|].
  intros lc S. eapply (told_bind any).
  { destruct lc; [now apply told_ret| |now apply told_ret]. step told_discover. now apply told_ret. }
  intros ln _. cbv zeta. pose proof (kids_children ex') as K2. rewrite Er in K2.
  eapply (told_bind any); [eapply told_attributes; [|exact K2]; exact We|]. intros atts _.
  lifted; [|now apply told_ret]. eapply rtold_children; [unfold inn; rewrite Er; exact We|]. rewrite Er. apply kids_remove_all, K2.
Qed.

(** ** The recursive descent *)
Definition walk_told (fuel : nat) : Prop :=
  (forall n p, inn n -> In (n_elem n) (xsd_children d) \/ xe_tag (n_elem n) = "element" -> told any (root_parse fuel n p))
  /\ (forall n p, inn n -> xe_tag (n_elem n) = "element" -> told any (parse_root fuel n p))
  /\ (forall n p, inn n -> xe_tag (n_elem n) = "element" -> told any (parse_child fuel n p))
  /\ (forall n p, inn n -> xe_tag (n_elem n) = "complexType" -> told any (complex_type_parse fuel n p))
  /\ (forall n p, inn n -> xe_tag (n_elem n) = "complexContent" -> told any (complex_content_parse fuel n p))
  /\ (forall n p, inn n -> In (xe_tag (n_elem n)) ["sequence"; "all"] -> told any (sequence_parse fuel n p))
  /\ (forall n p, inn n -> xe_tag (n_elem n) = "choice" -> told any (choice_parse fuel n p)).

Lemma within_kid e x : within d e -> In x (xsd_children e) -> within d x.
Proof. intros W H. apply filter_In in H. eapply wi_child; [exact W|apply H]. Qed.

Lemma told_root fuel : walk_told fuel -> forall n p, inn n ->
  In (n_elem n) (xsd_children d) \/ xe_tag (n_elem n) = "element" -> told any (root_parse (S fuel) n p).
Proof.
  intros (_ & HR & _ & HC & _) n p W H. cbn [root_parse]. unfold n_name, n_range.
  destruct (String.eqb_spec (xe_tag (n_elem n)) "element") as [E|N1]; [now apply HR|].
  destruct (String.eqb_spec (xe_tag (n_elem n)) "complexType") as [E|N2]; [now apply HC|].
  destruct (String.eqb_spec (xe_tag (n_elem n)) "simpleType") as [E|N3]; [now apply told_simple_type|].
  destruct H as [H|H]; [|congruence]. apply told_err, te_declaration; [exact H|]. simpl. intuition congruence.
Qed.
Lemma told_parse_root fuel : walk_told fuel -> forall n p, inn n -> xe_tag (n_elem n) = "element" -> told any (parse_root (S fuel) n p).
Proof.
  intros (_ & _ & _ & HC & _) n p W T. cbn [parse_root].
  destruct (c_remove "annotation" _ _) as [an cs] eqn:R.
  destruct (kids_remove _ _ _ _ _ _ (kids_children n) R) as [K H].
  lifted. { apply (rtold_oannotation (n_elem n) "annotation"); [exact W|]. destruct an; auto. }
  unfold n_attribute. cbv beta iota zeta. destruct (attr_lookup "type" _) as [ta|] eqn:Ta.
  - apply attr_lookup_iff in Ta.
    eapply told_bind; [eapply (told_type _ "type"); [exact W|simpl; tauto|exact Ta]|]. intros lc _.
    eapply told_bind; [apply told_content|]. intros [lc' n2] E2. cbn [fst snd n_elem] in E2.
    lifted; [apply rtold_attrs; unfold inn; now rewrite E2|].
    lifted; [eapply rtold_children; [unfold inn; now rewrite E2|rewrite E2; exact K]|]. now apply told_ret.
  - lifted; [now apply rtold_attrs|].
    destruct (c_remove "complexType" _ _) as [ct cs1] eqn:R1.
    destruct (kids_remove _ _ _ _ _ _ K R1) as [K1 H1].
    eapply (told_bind (fun x : root * list node => exists ts, kids (n_elem n) ts (snd x))).
    + destruct ct as [ct|].
      * destruct H1 as [I1 E1]. eapply (told_bind any); [apply HC; [now apply (within_kid (n_elem n))|exact E1]|]. intros r _. apply told_ret. eauto.
      * destruct (c_remove "simpleType" _ _) as [st cs2] eqn:R2.
        destruct (kids_remove _ _ _ _ _ _ K1 R2) as [K2 H2]. destruct st as [st|].
        -- destruct H2 as [I2 E2]. eapply (told_bind any); [apply told_simple_type; [now apply (within_kid (n_elem n))|exact E2]|]. intros r _. apply told_ret. eauto.
        -- apply told_err. unfold n_name, n_range. cbn [n_elem]. apply te_no_type; auto.
           { intros x. now apply attr_lookup_None. }
           intros x Ix [E|[E|[]]]; symmetry in E; revert E; [apply H2|apply H1]; auto; simpl; intuition discriminate.
    + intros [r cs2] [ts K2]. cbn [fst snd] in K2. lifted; [eapply (rtold_children (mkNode (n_elem n) _)); [exact W|exact K2]|]. now apply told_ret.
Qed.
Lemma told_parse_child fuel : walk_told fuel -> forall n p, inn n -> xe_tag (n_elem n) = "element" -> told any (parse_child (S fuel) n p).
Proof.
  intros (HR & _) n p W T. cbn [parse_child]. unfold n_attribute. cbv beta iota zeta. cbn [n_elem].
  lifted; [now apply (rtold_min n)|]. lifted; [now apply (rtold_max n)|].
  destruct (attr_lookup "ref" _) as [ra|] eqn:Ra.
  - apply attr_lookup_iff in Ra. lifted; [now apply rtold_attrs|].
    eapply told_bind; [eapply (told_type _ "ref"); [exact W|simpl; tauto|exact Ra]|].
    intros [lit|t|f] S; simpl in S; [|step told_discover; now apply told_ret|destruct S].
    apply told_err. rewrite <- T. eapply te_ref; eauto.
  - eapply told_bind; [apply told_lift, rtold_try_attr; [exact W|]|].
    { apply nd_element; [exact T|]. intros x. now apply attr_lookup_None. }
    intros [na n1] [_ E1]. cbn [fst snd n_elem] in E1.
    step told_get. lifted. { apply rtold_child_annotation. unfold inn. cbn [n_elem]. now rewrite E1. }
    destruct (attr_lookup "type" _) as [ta|] eqn:Ta.
    + apply attr_lookup_iff in Ta. rewrite E1 in Ta.
      eapply told_bind; [eapply (told_type _ "type"); [exact W|simpl; tauto|exact Ta]|]. intros lc _.
      eapply told_bind; [apply told_content|]. intros [lc' n2] E2. cbn [fst snd n_elem] in E2.
      lifted; [apply rtold_attrs; unfold inn; now rewrite E2, E1|]. now apply told_ret.
    + lifted; [apply rtold_attrs; unfold inn; cbn [n_elem]; now rewrite E1|].
      assert (G : forall c, told (@any leaf) (vn <== derive_virtual_name [p; get_node_name c (at_value na) false; get_node_name c "Data" false] false ;;
           r <== root_parse fuel (mkNode (n_elem n1) ("type" :: "form" :: "default" :: n_visited n1)) vn ;; add_root vn r ;== discover_type vn p ;==
           pret (plain_leaf (get_node_name c (at_value na) false) (LcNamed vn) a2 a a0))).
      { intros c. step told_virtual. eapply (told_bind any).
        { apply HR; [unfold inn; cbn [n_elem]; now rewrite E1|]. right. cbn [n_elem]. now rewrite E1. }
        intros r _. step told_add. step told_discover. now apply told_ret. }
      destruct (n_child _ "simpleType" _); [apply G|]. destruct (n_child _ "complexType" _); [apply G|]. now apply told_ret.
Qed.
Lemma told_complex_type fuel : walk_told fuel -> forall n p, inn n -> xe_tag (n_elem n) = "complexType" -> told any (complex_type_parse (S fuel) n p).
Proof.
  intros (_ & _ & _ & _ & HCC & HS & HCh) n p W T. cbn [complex_type_parse]. unfold n_attribute at 1. cbv beta iota zeta.
  destruct (match attr_lookup "mixed" (xe_attrs (n_elem n)) with Some a => _ | None => _ end) eqn:M.
  { destruct (attr_lookup "mixed" _) as [ma|] eqn:Ma; [|discriminate]. apply String.eqb_eq in M. apply attr_lookup_iff in Ma.
    apply told_err. rewrite <- M. unfold n_name, n_range. cbn [n_elem]. now apply te_mixed. }
  set (n1 := mkNode (n_elem n) _). assert (W1 : inn n1) by exact W.
  lifted; [now apply rtold_attrs|].
  destruct (c_remove "annotation" _ _) as [an cs] eqn:R.
  destruct (kids_remove _ _ _ _ _ _ (kids_children n1) R) as [K H].
  lifted. { apply (rtold_oannotation (n_elem n) "annotation"); [exact W|]. destruct an; auto. }
  destruct (c_remove "simpleContent" _ _) as [sc cs1] eqn:R1. destruct (kids_remove _ _ _ _ _ _ K R1) as [K1 H1].
  destruct sc as [sc|].
  { destruct H1 as [I1 E1]. lifted; [eapply rtold_children; eauto|].
    eapply (told_bind any); [apply told_simple_content; [now apply (within_kid (n_elem n))|exact E1]|]. intros; now apply told_ret. }
  destruct (c_remove "complexContent" _ _) as [cc cs2] eqn:R2. destruct (kids_remove _ _ _ _ _ _ K1 R2) as [K2 H2].
  destruct cc as [cc|].
  { destruct H2 as [I2 E2]. lifted; [eapply rtold_children; eauto|].
    eapply (told_bind any); [apply HCC; [now apply (within_kid (n_elem n))|exact E2]|]. intros; now apply told_ret. }
  destruct (c_remove "sequence" _ _) as [sq cs3] eqn:R3. destruct (kids_remove _ _ _ _ _ _ K2 R3) as [K3 H3].
  destruct (match sq with Some _ => (sq, cs3) | None => c_remove "all" (Some NS_XSD) cs3 end) as [sq' cs4] eqn:R4.
  assert (H4 : (exists ts, kids (n_elem n) ts cs4)
    /\ match sq' with Some x => In (n_elem x) (xsd_children (n_elem n)) /\ In (xe_tag (n_elem x)) ["sequence"; "all"] | None => True end).
  { destruct sq as [sq|].
    - injection R4 as <- <-. split; [eauto|]. destruct H3 as [I3 E3]. split; [exact I3|]. rewrite E3. simpl. tauto.
    - destruct (kids_remove _ _ _ _ _ _ K3 R4) as [K4 H4]. split; [eauto|]. destruct sq' as [x|]; [|exact I].
      destruct H4 as [I4 E4]. split; [exact I4|]. rewrite E4. simpl. tauto. }
  destruct H4 as [[ts4 K4] H4].
  eapply (told_bind (fun x : option element_content * list node => exists ts, kids (n_elem n) ts (snd x))).
  - destruct sq' as [x|].
    + destruct H4 as [I4 E4]. assert (Wx : within d (n_elem x)) by (now apply (within_kid (n_elem n))).
      unfold n_attribute. cbv beta iota zeta. cbn [n_elem].
      lifted; [now apply (rtold_min x)|]. lifted; [now apply (rtold_max x)|].
      eapply (told_bind any); [apply HS; [exact Wx|exact E4]|]. intros ls _.
      destruct (orb _ _); [|apply told_ret; eauto].
      step told_virtual. step told_virtual. step told_add. step told_discover. apply told_ret. eauto.
    + destruct (c_remove "choice" _ _) as [ch cs5] eqn:R5. destruct (kids_remove _ _ _ _ _ _ K4 R5) as [K5 H5].
      destruct ch as [x|]; [|apply told_ret; eauto]. destruct H5 as [I5 E5].
      eapply (told_bind any); [apply HCh; [now apply (within_kid (n_elem n))|exact E5]|]. intros vs _.
      step told_get. step told_virtual. step told_add. step told_discover. apply told_ret. eauto.
  - intros [content cs5] [ts K5]. cbn [fst snd] in K5.
    eapply (told_bind any); [eapply told_attributes; [|exact K5]; exact W|]. intros atts _.
    lifted; [|now apply told_ret]. eapply (rtold_children n1); [exact W|]. apply kids_remove_all, K5.
Qed.
Lemma told_complex_content fuel : walk_told fuel -> forall n p, inn n -> xe_tag (n_elem n) = "complexContent" -> told any (complex_content_parse (S fuel) n p).
Proof.
  intros (_ & _ & _ & _ & _ & HS & _) n p W T. cbn [complex_content_parse]. lifted; [now apply rtold_attrs|].
  eapply told_bind; [apply told_lift, (rtold_try_remove n [] _ "extension" W); [rewrite T; simpl; tauto|apply kids_children|simpl; tauto]|].
  intros [ex cs'] (We & Ie & Te & K'). cbn [fst snd] in *.
  lifted; [eapply rtold_children; eauto|].
  eapply told_bind; [apply told_lift, (rtold_try_attr ex "base" We), nd_base; rewrite Te; simpl; tauto|].
  intros [ba ex'] [Ha Er]. cbn [fst snd] in *.
  eapply told_bind; [eapply (told_type _ "base"); [exact We|simpl; tauto|exact Ha]|].
  intros [lit|t|f] S; simpl in S; [apply told_err; rewrite <- Te; eapply te_extension; eauto| |destruct S].
  step told_discover. cbv zeta. pose proof (kids_children ex') as K2. rewrite Er in K2.
  destruct (c_remove "sequence" _ _) as [sq cs3] eqn:R3. destruct (kids_remove _ _ _ _ _ _ K2 R3) as [K3 H3].
  eapply (told_bind any).
  { destruct sq as [x|]; [|now apply told_ret]. destruct H3 as [I3 E3].
    assert (Wx : within d (n_elem x)) by (now apply (within_kid (n_elem ex))).
    unfold n_attribute. cbv beta iota zeta. cbn [n_elem]. lifted; [now apply (rtold_min x)|].
    eapply (told_bind any); [apply HS; [exact Wx|cbn [n_elem]; rewrite E3; simpl; tauto]|]. intros ls _.
    step told_get. step told_virtual. step told_add. step told_discover. now apply told_ret. }
  intros vl _. eapply (told_bind any); [eapply told_attributes; [|exact K3]; exact We|]. intros atts _.
  lifted. { eapply (rtold_children ex'); [unfold inn; now rewrite Er|]. rewrite Er. apply kids_remove_all, K3. }
  step told_get. now apply told_ret.
Qed.
Lemma told_sequence fuel : walk_told fuel -> forall n p, inn n -> In (xe_tag (n_elem n)) ["sequence"; "all"] -> told any (sequence_parse (S fuel) n p).
Proof.
  intros (_ & _ & HPC & _ & _ & HS & HCh) n p W T. cbn [sequence_parse]. lifted; [now apply rtold_attrs|].
  apply told_collect, Forall_forall. intros x Hx. pose proof (kids_children n) as [F _]. rewrite Forall_forall in F. apply F in Hx.
  assert (Wx : inn x) by (now apply (within_kid (n_elem n))). unfold n_name, n_range.
  destruct (String.eqb_spec (xe_tag (n_elem x)) "element") as [E|N1].
  { eapply (told_bind any); [now apply HPC|]. intros; now apply told_ret. }
  unfold n_attribute. cbv beta iota zeta. cbn [n_elem].
  destruct (String.eqb_spec (xe_tag (n_elem x)) "choice") as [E|N2].
  { lifted; [now apply (rtold_min x)|]. lifted; [now apply (rtold_max x)|].
    eapply (told_bind any); [now apply HCh|]. intros vs _. step told_virtual. step told_virtual. step told_add. step told_discover. now apply told_ret. }
  destruct (String.eqb_spec (xe_tag (n_elem x)) "sequence") as [E|N3].
  { lifted; [now apply rtold_child_annotation|]. lifted; [now apply (rtold_min x)|].
    eapply (told_bind any); [apply HS; [exact Wx|cbn [n_elem]; rewrite E; simpl; tauto]|]. intros vs _.
    step told_virtual. step told_virtual. step told_add. step told_discover. now apply told_ret. }
  destruct (String.eqb_spec (xe_tag (n_elem x)) "annotation") as [E|N4]; [now apply told_ret|].
  apply told_err. apply (te_particle d (n_elem n) (n_elem x)); auto.
  - destruct T as [T|[T|[]]]; rewrite <- T; simpl; tauto.
  - simpl. intuition congruence.
  - congruence.
Qed.
Lemma told_choice fuel : walk_told fuel -> forall n p, inn n -> xe_tag (n_elem n) = "choice" -> told any (choice_parse (S fuel) n p).
Proof.
  intros (_ & _ & HPC & _ & _ & HS & _) n p W T. cbn [choice_parse]. lifted; [now apply rtold_attrs|].
  apply told_collect, Forall_forall. intros x Hx. pose proof (kids_children n) as [F _]. rewrite Forall_forall in F. apply F in Hx.
  assert (Wx : inn x) by (now apply (within_kid (n_elem n))). unfold n_name, n_range.
  destruct (String.eqb_spec (xe_tag (n_elem x)) "element") as [E|N1].
  { eapply (told_bind any); [now apply HPC|]. intros; now apply told_ret. }
  unfold n_attribute. cbv beta iota zeta. cbn [n_elem].
  destruct (String.eqb_spec (xe_tag (n_elem x)) "sequence") as [E|N3].
  { lifted; [now apply rtold_child_annotation|]. lifted; [now apply (rtold_min x)|]. lifted; [now apply (rtold_max x)|].
    eapply (told_bind any); [apply HS; [exact Wx|cbn [n_elem]; rewrite E; simpl; tauto]|]. intros vs _.
    step told_virtual. step told_get. step told_virtual. step told_add. step told_discover. now apply told_ret. }
  destruct (String.eqb_spec (xe_tag (n_elem x)) "annotation") as [E|N4]; [now apply told_ret|].
  apply told_err. apply (te_particle d (n_elem n) (n_elem x)); auto.
  - rewrite T. simpl. tauto.
  - simpl. intuition congruence.
Qed.
Lemma walk_tells fuel : walk_told fuel.
Proof.
  induction fuel as [|fuel IH].
  - repeat split; intros; apply told_fuel.
  - split; [apply told_root, IH|]. split; [apply told_parse_root, IH|]. split; [apply told_parse_child, IH|].
    split; [apply told_complex_type, IH|]. split; [apply told_complex_content, IH|].
    split; [apply told_sequence, IH|apply told_choice, IH].
Qed.

(** ** Documents *)
Definition told_parse (Q : schema_err -> Prop) (e : parse_err) : Prop :=
  match e with PeSchema e => Q e | PeXsd e => tells d e end.
Lemma child_tells fuel load f base (Q : schema_err -> Prop) x c : (is_load (n_elem x) -> forall p s e, load p s = Err e -> Q e) ->
  In (n_elem x) (xsd_children d) -> in_schema d c ->
  match schema_child fuel load f base x c with Ok c' => in_schema d c' | Err e => told_parse Q e | _ => True end.
Proof.
  intros HL Hx E. assert (W : inn x) by (eapply within_kid; [apply wi_root|exact Hx]). unfold schema_child.
  destruct (orb _ _) eqn:Lo.
  - assert (Il : is_load (n_elem x)) by (apply orb_true_iff in Lo; rewrite !String.eqb_eq in Lo; exact Lo).
    pose proof (rtold_try_attr x "schemaLocation" W (nd_load d _ Hx Il)) as T. destruct (n_try_attribute x "schemaLocation") as [[a n']|e|w|]; cbn [map_err bind]; auto.
    destruct (load _ _) as [s|e|w|] eqn:Le; cbn [map_err bind]; auto. eapply (HL Il), Le.
  - assert (Nl : ~ is_load (n_elem x)).
    { apply orb_false_iff in Lo. rewrite !String.eqb_neq in Lo. unfold is_load. unfold n_name in Lo. tauto. }
    pose proof (rtold_try_attr x "name" W (nd_declaration d _ Hx Nl)) as T. destruct (n_try_attribute x "name") as [[a n']|e|w|]; cbn [map_err bind]; auto.
    cbn in T. destruct T as [_ En].
    pose proof (proj1 (walk_tells fuel) n' (mkName (at_value a) (cx_target c))) as H. unfold inn in H. rewrite En in H.
    specialize (H W (or_introl Hx) c E). cbv zeta.
    destruct (root_parse fuel n' _ c) as [[r c']|e|w|]; cbn [map_err bind]; auto. apply H.
Qed.
Lemma children_tell fuel load f base (Q : schema_err -> Prop) cs : (~ no_loads d -> forall p s e, load p s = Err e -> Q e) ->
  Forall (fun x => In (n_elem x) (xsd_children d)) cs -> forall c, in_schema d c ->
  match schema_children fuel load f base cs c with Ok c' => in_schema d c' | Err e => told_parse Q e | _ => True end.
Proof.
  intros HL. induction 1 as [|x cs Hx _ IH]; intros c E; cbn [schema_children]; [exact E|].
  assert (H := child_tells fuel load f base Q x c (fun I => HL (fun N => N _ Hx I)) Hx E). destruct (schema_child _ _ _ _ _ _); cbn [bind]; auto. apply IH, H.
Qed.
Lemma new_in_schema t sh : prefixes_once d -> in_schema d (ctx_new d t sh).
Proof.
  intros P. unfold ctx_new. destruct (match t with Some t => _ | None => _ end) as [tn nss].
  split; [intros p uri; simpl; now apply doc_nss_spec|]. simpl. now apply default_spec.
Qed.
Lemma schema_tells fuel load f base sh (Q : schema_err -> Prop) e : prefixes_once d -> (~ no_loads d -> forall p s e, load p s = Err e -> Q e) ->
  parse_schema_with fuel load f d base sh = Err e -> told_parse Q e.
Proof.
  intros P HL. unfold parse_schema_with. destruct (has_name "schema" _ d) eqn:N; cbn [negb].
  - unfold n_attribute. cbv beta iota zeta.
    set (c := ctx_new _ _ _). intros H.
    assert (K := children_tell fuel load f base Q (n_children (mkNode (n_elem (node_of d)) ["targetNamespace"]) NS_XSD) HL
       (proj1 (kids_children (mkNode d ["targetNamespace"]))) c (new_in_schema _ _ P)).
    change (n_visited (node_of d)) with (@nil string) in H.
    destruct (schema_children _ _ _ _ _ _) as [c'|x|w|]; cbn [bind] in H; try discriminate. injection H as <-. exact K.
  - intros H; injection H as <-. apply te_root. unfold has_name in N. apply andb_false_iff in N.
    destruct N as [N|N]; [left; now apply String.eqb_neq|right]. intros X. rewrite X in N. cbn in N. discriminate.
Qed.
End Err.

Lemma file_tells {L : Libs} fuel f : files_bind_once f -> forall path sh e,
  parse_file_with_context fuel f path sh = Err e -> tells_files f e.
Proof.
  intros B. induction fuel as [|fuel IH]; intros path sh e; cbn [parse_file_with_context]; [discriminate|].
  destruct (fs_read f path) as [[d|]|] eqn:R.
  - unfold parse_with. destruct (parse_schema_with _ _ _ _ _ _) as [s|x|w|] eqn:Pe; cbn [map_err]; try discriminate.
    intros H; injection H as <-. apply (schema_tells d _ _ _ _ _ (tells_files f)) in Pe; [|eapply B, R|intros _ p s y; apply IH].
    destruct x as [x|x]; [exact Pe|]. cbn. right. exists d. auto.
  - cbn. intros H; injection H as <-. cbn. auto.
  - intros H; injection H as <-. exact R.
Qed.

Lemma doc_tells {L : Libs} fuel f d path e : files_bind_once f -> prefixes_once d ->
  schema_parse fuel f (Some d) path = Err e ->
  (exists x, e = SeXsd x path /\ tells d x) \/ (~ no_loads d /\ tells_files f e).
Proof.
  intros B P. unfold schema_parse, parse_with.
  destruct (parse_schema_with _ _ _ _ _ _) as [s|x|w|] eqn:Pe; cbn [map_err]; try discriminate.
  intros H; injection H as <-.
  apply (schema_tells d _ _ _ _ _ (fun e => ~ no_loads d /\ tells_files f e)) in Pe; [|exact P|].
  - destruct x as [x|x]; [right; exact Pe|left]. exists x. auto.
  - intros N p s y H. split; [exact N|]. eapply file_tells; eauto.
Qed.
