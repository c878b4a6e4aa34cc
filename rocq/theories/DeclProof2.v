(** * DeclProof2: whatever the parser returns is what DeclSpec.v says *)
From Verif Require Import Base Libs Xml Ast XsdNode Parse TextSpec NumProof MiscSpec MiscProof ParseSpec DeclSpec
  ParseProof ParseRoots DeclProof1.

Section Sound.
Context {L : Libs}.
Variable d : xelem.
Variable ns : namespace.

Definition env (c : ctx) : Prop := in_schema d c /\ vns c = ns /\ ns_wf (nss_of c).
Definition sound {A} (m : P A) (Q : namespaces -> list (name * root) -> A -> Prop) : Prop :=
  forall c a c', env c -> m c = Ok (a, c') ->
    env c' /\ nss_le (nss_of c) (nss_of c')
    /\ exists adds, cx_roots c' = add_all adds (cx_roots c) /\ Forall (fun e => nm_ns (fst e) = ns) adds
       /\ forall nss st, nss_le (nss_of c') nss -> incl adds st -> Q nss st a.

Lemma nss_le_refl s : nss_le s s.
Proof. split; auto. Qed.
Lemma nss_le_trans a b c : nss_le a b -> nss_le b c -> nss_le a c.
Proof. intros [H1 H2] [K1 K2]. split; auto. Qed.

Lemma sound_bind {A B} (m : P A) (k : A -> P B) Q (R : namespaces -> list (name * root) -> B -> Prop) :
  sound m Q -> (forall a, sound (k a) (fun nss st b => Q nss st a -> R nss st b)) -> sound (pbind m k) R.
Proof.
  intros H K c b c' E. unfold pbind. destruct (m c) as [[a c1]|e|w|] eqn:M; try discriminate. intros M'.
  destruct (H _ _ _ E M) as (E1 & N1 & a1 & R1 & V1 & Q1). destruct (K a _ _ _ E1 M') as (E2 & N2 & a2 & R2 & V2 & Q2).
  split; [exact E2|]. split; [eapply nss_le_trans; eauto|]. exists (a1 ++ a2).
  split; [rewrite add_all_app, <- R1; exact R2|]. split; [apply Forall_app; auto|]. intros nss st Hn Hi. apply Q2; [exact Hn| |].
  - intros x Hx. apply Hi, in_or_app. auto.
  - apply Q1; [eapply nss_le_trans; eauto|]. intros x Hx. apply Hi, in_or_app. auto.
Qed.
Lemma sound_bind_pure {A B} (F : A -> Prop) (m : P A) (k : A -> P B) Q (R : namespaces -> list (name * root) -> B -> Prop) :
  sound m Q -> (forall nss st a, Q nss st a -> F a) ->
  (forall a, F a -> sound (k a) (fun nss st b => Q nss st a -> R nss st b)) -> sound (pbind m k) R.
Proof.
  intros H HF K c b c' E. unfold pbind. destruct (m c) as [[a c1]|e|w|] eqn:M; try discriminate. intros M'.
  destruct (H _ _ _ E M) as (E1 & N1 & a1 & R1 & V1 & Q1).
  assert (Fa : F a) by (apply (HF (nss_of c1) a1), Q1; [apply nss_le_refl|apply incl_refl]).
  destruct (K a Fa _ _ _ E1 M') as (E2 & N2 & a2 & R2 & V2 & Q2).
  split; [exact E2|]. split; [eapply nss_le_trans; eauto|]. exists (a1 ++ a2).
  split; [rewrite add_all_app, <- R1; exact R2|]. split; [apply Forall_app; auto|]. intros nss st Hn Hi. apply Q2; [exact Hn| |].
  - intros x Hx. apply Hi, in_or_app. auto.
  - apply Q1; [eapply nss_le_trans; eauto|]. intros x Hx. apply Hi, in_or_app. auto.
Qed.
Lemma sound_mono {A} (m : P A) (Q R : namespaces -> list (name * root) -> A -> Prop) :
  sound m Q -> (forall nss st a, Q nss st a -> R nss st a) -> sound m R.
Proof.
  intros H K c a c' E M. destruct (H _ _ _ E M) as (E1 & N1 & ad & R1 & V1 & Q1).
  split; [exact E1|]. split; [exact N1|]. exists ad. split; [exact R1|]. split; [exact V1|]. auto.
Qed.
Lemma sound_ret {A} (a : A) (Q : namespaces -> list (name * root) -> A -> Prop) :
  (forall nss st, Q nss st a) -> sound (pret a) Q.
Proof.
  intros H c b c' E M. injection M as <- <-. split; [exact E|]. split; [apply nss_le_refl|].
  exists []. split; [reflexivity|]. split; [constructor|auto].
Qed.
Lemma sound_err {A} e (Q : namespaces -> list (name * root) -> A -> Prop) : sound (perr e) Q.
Proof. intros c a c' _ M. discriminate. Qed.
Lemma sound_fuel {A} (Q : namespaces -> list (name * root) -> A -> Prop) : sound (fun _ => OutOfFuel) Q.
Proof. intros c a c' _ M. discriminate. Qed.
Lemma sound_lift {A B} (m : res xsd_err A) (k : A -> P B) R :
  (forall a, m = Ok a -> sound (k a) R) -> sound (pbind (plift m) k) R.
Proof.
  intros H c b c' E. unfold pbind, plift. destruct m as [a|e|w|] eqn:M; try discriminate. intros K.
  exact (H a eq_refl _ _ _ E K).
Qed.
Lemma sound_get {B} (k : ctx -> P B) R :
  (forall c, env c -> sound (k c) R) -> sound (pbind pget k) R.
Proof. intros H c b c' E K. exact (H c E _ _ _ E K). Qed.

Lemma sound_type a : sound (get_type_name a) (fun nss _ lc => type_of d nss (at_value a) lc).
Proof.
  intros c lc c' (IS & V & W) M. destruct (means_total d (at_value a)) as [m Hm].
  pose proof (type_name_means d c a m IS W Hm) as K.
  assert (Same : c' = c -> env c' /\ nss_le (nss_of c) (nss_of c')).
  { intros ->. split; [exact (conj IS (conj V W))|apply nss_le_refl]. }
  destruct m as [lit|l|uri l|l|p]; try (rewrite K in M; discriminate).
  - rewrite K in M. injection M as <- <-. destruct (Same eq_refl) as [S1 S2]. split; [exact S1|]. split; [exact S2|].
    exists []. split; [reflexivity|]. split; [constructor|]. intros nss st _ _. left. eauto.
  - destruct K as (n & nss' & E & U & W' & Le). rewrite E in M. injection M as <- <-.
    split; [split; [exact IS|split; [exact V|exact W']]|]. split; [exact Le|]. exists []. split; [reflexivity|]. split; [constructor|].
    intros nss st Hn _. right. left. exists uri, l, n. split; [exact Hm|]. split; [reflexivity|]. eapply ns_uri_le; eauto.
  - rewrite K in M. injection M as <- <-. destruct (Same eq_refl) as [S1 S2]. split; [exact S1|]. split; [exact S2|].
    exists []. split; [reflexivity|]. split; [constructor|]. intros nss st _ _. right. right. eauto.
Qed.
Lemma sound_discover n p (Q : namespaces -> list (name * root) -> unit -> Prop) : (forall nss st, Q nss st tt) -> sound (discover_type n p) Q.
Proof.
  intros H c a c' E M. injection M as <- <-. split; [exact E|]. split; [apply nss_le_refl|].
  exists []. split; [reflexivity|]. split; [constructor|auto].
Qed.
Lemma sound_add n r : nm_ns n = ns -> sound (add_root n r) (fun _ st _ => In (n, r) st).
Proof.
  intros Hn c a c' E M. injection M as <- <-. split; [exact E|]. split; [apply nss_le_refl|].
  exists [(n, r)]. split; [reflexivity|]. split; [now constructor|]. intros nss st _ I. apply I. now left.
Qed.
Lemma node_name c s : env c -> get_node_name c s false = mkName s ns.
Proof. intros (_ & V & _). unfold get_node_name. rewrite orb_false_r. unfold vns in V. now rewrite V. Qed.
Lemma concat_joined l t : concat_upper l = Ok t -> t = joined l.
Proof.
  revert t. induction l as [|s l IH]; intros t; simpl; [intros H; now injection H as <-|].
  destruct s as [|c s]; [simpl; apply IH|]. destruct (starts_with_cont s); [discriminate|].
  destruct (concat_upper l) as [u|?|?|]; try discriminate. simpl. intros H; injection H as <-. now rewrite (IH u).
Qed.
Lemma sound_made_up {B} l (k : name -> P B) (R : namespaces -> list (name * root) -> B -> Prop) :
  (forall n, n = mkName (joined (map nm l)) ns -> sound (k n) R) -> sound (pbind (derive_virtual_name l false) k) R.
Proof.
  intros H c b c' E M. unfold pbind, derive_virtual_name in M. simpl in M.
  destruct (concat_upper (map nm l)) as [t|?|?|] eqn:T; try discriminate. simpl in M.
  refine (H _ _ _ _ _ E M). rewrite node_name by exact E. now rewrite (concat_joined _ _ T).
Qed.
Lemma sound_short {B} l b (k : name -> P B) (R : namespaces -> list (name * root) -> B -> Prop) :
  (forall n, n = mkName (nm n) ns -> sound (k n) R) -> sound (pbind (derive_virtual_name l b) k) R.
Proof.
  intros H c x c' E M. unfold pbind, derive_virtual_name in M. cbv zeta in M.
  match type of M with context [match ?x with Some s => _ | None => _ end] => destruct x as [s|] end.
  - refine (H _ _ _ _ _ E M). rewrite node_name by exact E. reflexivity.
  - destruct (concat_upper _) as [t|?|?|]; try discriminate. refine (H _ _ _ _ _ E M).
    rewrite node_name by exact E. reflexivity.
Qed.
Lemma sound_collect {A B} (f : A -> P (option B)) (Q : A -> namespaces -> list (name * root) -> option B -> Prop) l :
  (forall x, In x l -> sound (f x) (Q x)) ->
  sound (pcollect f l) (fun nss st bs => exists os, Forall2 (fun x o => Q x nss st o) l os /\ bs = somes os).
Proof.
  induction l as [|x l IH]; intros H; simpl.
  - apply sound_ret. intros. exists []. split; [constructor|reflexivity].
  - eapply sound_bind; [apply H; now left|]. intros o. eapply sound_bind; [apply IH; intros; apply H; now right|].
    intros bs. apply sound_ret. intros nss st (os & F & ->) Ho. exists (o :: os). split; [now constructor|].
    destruct o; reflexivity.
Qed.

Ltac incl := let x := fresh in let H := fresh in intros x H; simpl in *; tauto.
Ltac attrs := eapply only_attrs_incl; [|eassumption]; incl.

(** ** Simple types *)
Lemma facet_sound x f : parse_facet (node_of x) = Ok f ->
  match f with FEnum n => facet_of x (inl n) | FRestr r => facet_of x (inr r) end.
Proof.
  unfold parse_facet. cbv zeta. change (n_name (node_of x)) with (xe_tag x).
  assert (U : forall k, (let usize k := '(a, _) <- n_try_attribute (node_of x) "value" ;;
                 match usize_from_str (at_value a) with
                 | Some n => Ok (FRestr (k n)) | None => Err (XeParseInt (at_range a)) end in usize k) = Ok f ->
            In (xe_tag x, k) [("length", RsLength); ("minLength", RsMinLength); ("maxLength", RsMaxLength);
              ("fractionDigits", RsFractionDigits); ("totalDigits", RsTotalDigits)] ->
            match f with FEnum n => facet_of x (inl n) | FRestr r => facet_of x (inr r) end).
  { intros k H I. cbv zeta in H. destruct (n_try_attribute _ _) as [[a n']|?|?|] eqn:T; try discriminate. simpl in H.
    apply try_attr in T. destruct T as [T _]. destruct (usize_from_str _) as [m|] eqn:M; [|discriminate].
    injection H as <-. apply parse_unsigned_iff in M. now apply (fc_count x a m k). }
  assert (B : forall k, (let decimal k := '(a, _) <- n_try_attribute (node_of x) "value" ;;
                 match dec_from_str (at_value a) with
                 | Some n => Ok (FRestr (k n)) | None => Err (XeParseDecimal (at_range a)) end in decimal k) = Ok f ->
            In (xe_tag x, k) [("minInclusive", RsMinInclusive); ("maxInclusive", RsMaxInclusive)] ->
            match f with FEnum n => facet_of x (inl n) | FRestr r => facet_of x (inr r) end).
  { intros k H I. cbv zeta in H. destruct (n_try_attribute _ _) as [[a n']|?|?|] eqn:T; try discriminate. simpl in H.
    apply try_attr in T. destruct T as [T _]. destruct (dec_from_str _) as [m|] eqn:M; [|discriminate].
    injection H as <-. now apply (fc_bound x a m k). }
  cbv zeta in U, B.
  destruct (String.eqb_spec (xe_tag x) "enumeration") as [E|_].
  { destruct (n_try_attribute _ _) as [[a n']|?|?|] eqn:T; try discriminate. intros H; injection H as <-.
    apply try_attr in T. now apply fc_enum. }
  destruct (String.eqb_spec (xe_tag x) "length") as [E|_]; [intros H; apply (U _ H); rewrite E; simpl; tauto|].
  destruct (String.eqb_spec (xe_tag x) "minLength") as [E|_]; [intros H; apply (U _ H); rewrite E; simpl; tauto|].
  destruct (String.eqb_spec (xe_tag x) "maxLength") as [E|_]; [intros H; apply (U _ H); rewrite E; simpl; tauto|].
  destruct (String.eqb_spec (xe_tag x) "pattern") as [E|_].
  { destruct (n_try_attribute _ _) as [[a n']|?|?|] eqn:T; try discriminate. intros H; injection H as <-.
    apply try_attr in T. now apply fc_pattern. }
  destruct (String.eqb_spec (xe_tag x) "minInclusive") as [E|_]; [intros H; apply (B _ H); rewrite E; simpl; tauto|].
  destruct (String.eqb_spec (xe_tag x) "maxInclusive") as [E|_]; [intros H; apply (B _ H); rewrite E; simpl; tauto|].
  destruct (String.eqb_spec (xe_tag x) "fractionDigits") as [E|_]; [intros H; apply (U _ H); rewrite E; simpl; tauto|].
  destruct (String.eqb_spec (xe_tag x) "totalDigits") as [E|_]; [intros H; apply (U _ H); rewrite E; simpl; tauto|].
  discriminate.
Qed.
Definition to_sum (f : facet) : name + restriction := match f with FEnum n => inl n | FRestr r => inr r end.
Lemma facets_sound xs fs : mapM parse_facet (map node_of xs) = Ok fs -> Forall2 facet_of xs (map to_sum fs).
Proof.
  revert fs. induction xs as [|x xs IH]; intros fs H; simpl in H; [injection H as <-; constructor|].
  destruct (parse_facet (node_of x)) as [f|?|?|] eqn:F; try discriminate. simpl in H.
  destruct (mapM parse_facet (map node_of xs)) as [gs|?|?|]; try discriminate. injection H as <-.
  simpl. constructor; [|now apply IH]. apply facet_sound in F. destruct f; exact F.
Qed.
Lemma facet_names_sum fs : facet_names fs = lefts (map to_sum fs).
Proof. induction fs as [|[n|r] fs IH]; simpl; [reflexivity| |exact IH]. f_equal. exact IH. Qed.
Lemma facet_restrs_sum fs : facet_restrs fs = rights (map to_sum fs).
Proof. induction fs as [|[n|r] fs IH]; simpl; [reflexivity|exact IH|]. f_equal. exact IH. Qed.

Lemma simple_sound n : sound (simple_type_parse n) (fun _ _ r => simple_type d (n_visited n) (n_elem n) r).
Proof.
  unfold simple_type_parse. apply sound_lift. intros u PA. apply prevent_attrs in PA. cbv zeta.
  rewrite children_nodes. destruct (remove_take "annotation" _ (children_xsd (n_elem n))) as (an & rest & E & T & F).
  rewrite E. apply sound_lift. intros docs D. apply annotation_docs in D.
  apply sound_lift. intros [rs rest'] TR. apply try_remove in TR; [|exact F].
  destruct TR as (y & ys & -> & -> & T' & F'). apply sound_lift. intros [a rs'] TA. apply try_attr in TA. destruct TA as [TA ->].
  eapply sound_bind; [apply sound_type|]. intros [lit|m|s]; try apply sound_err.
  apply sound_lift. intros u' PC. apply prevent_children in PC. subst ys.
  apply sound_lift. intros fs FS. rewrite children_nodes in FS. simpl n_elem in FS. apply facets_sound in FS.
  apply sound_ret. intros nss st Ty. rewrite facet_names_sum, facet_restrs_sum.
  destruct Ty as [(l & M & El)|[(? & ? & ? & _ & El & _)|(? & _ & El)]]; try discriminate. injection El as <-.
  pose proof (st_type d (n_visited n) (n_elem n) an rest docs y a lit (map to_sum fs) PA T D T' TA M FS) as K.
  exact K.
Qed.

(** ** Attributes *)
Lemma sound_content n p a : 
  the_attr (n_elem n) "type" a ->
  sound (pbind (get_type_name a) (fun content => content_of_type (mkNode (n_elem n) ("type" :: n_visited n)) p content))
    (fun nss _ lcn => exists known, typed d nss (n_elem n) (fst lcn) known
       /\ n_elem (snd lcn) = n_elem n
       /\ (forall k, In k (n_visited (snd lcn)) -> In k (known ++ n_visited n))).
Proof.
  intros Ha. eapply sound_bind; [apply sound_type|]. intros [lit|t|s]; simpl.
  - destruct (attr_lookup "fixed" (xe_attrs (n_elem n))) as [x|] eqn:Fx; apply sound_ret; intros nss st Ty;
      exists ["type"; "fixed"]; (split; [|split; [reflexivity|simpl; intros k; tauto]]);
      exists a, (LcLiteral lit); (split; [exact Ha|]); (split; [exact Ty|]); (split; [reflexivity|]).
    + left. exists x. split; [now apply attr_lookup_iff|reflexivity].
    + right. split; [now apply attr_lookup_no|reflexivity].
  - eapply sound_bind; [apply (sound_discover t p (fun _ _ _ => True)); auto|]. intros u. apply sound_ret.
    intros nss st _ Ty. exists ["type"]. split; [|split; [reflexivity|simpl; intros k; tauto]].
    exists a, (LcNamed t). auto.
  - apply sound_ret. intros nss st Ty. exists ["type"]. split; [|split; [reflexivity|simpl; intros k; tauto]].
    exists a, (LcFixed s). auto.
Qed.

Lemma attribute_sound p x : sound (attribute_parse p (node_of x))
  (fun nss st o => attribute_decl d nss ns st p x o).
Proof.
  unfold attribute_parse. apply sound_lift. intros [na n1] TN. apply try_attr in TN. destruct TN as [TN ->].
  cbv zeta. rewrite children_nodes. simpl n_elem. simpl n_visited in *. simpl n_elem in TN.
  destruct (remove_take "annotation" _ (children_xsd x)) as (an & r1 & E & T & F). rewrite E.
  apply sound_lift. intros docs D. apply annotation_docs in D.
  destruct (remove_take "simpleType" _ F) as (st & r2 & E' & T' & F'). rewrite E'.
  eapply (sound_bind_pure (fun lcn => n_elem (snd lcn) = x) _ _ (fun nss sto lcn => exists known,
            attribute_content d nss ns sto p x (at_value na) st (fst lcn) known
            /\ n_elem (snd lcn) = x
            /\ (forall k, In k (n_visited (snd lcn)) -> In k (known ++ ["name"])))).
  - destruct st as [st|]; simpl option_map; cbv iota.
    + eapply sound_bind; [apply (simple_sound (node_of st))|]. intros r.
      destruct r as [[[lit|t|s] rs ds]|names|e|c].
      * apply sound_ret. intros nss sto H. exists []. split; [|auto]. eapply ac_simple. exact H.
      * apply sound_get. intros c Ec. apply sound_made_up. intros vn ->.
        eapply sound_bind; [apply sound_add; reflexivity|]. intros u. eapply sound_bind; [apply (sound_discover _ p (fun _ _ _ => True)); auto|].
        intros u'. apply sound_ret. intros nss sto _ _ H. exfalso. inversion H as [? ? ? ? ? ? fs ? ? ? ? ? ? ? Eq]. destruct (lefts fs); discriminate.
      * apply sound_get. intros c Ec. apply sound_made_up. intros vn ->.
        eapply sound_bind; [apply sound_add; reflexivity|]. intros u. eapply sound_bind; [apply (sound_discover _ p (fun _ _ _ => True)); auto|].
        intros u'. apply sound_ret. intros nss sto _ _ H. exfalso. inversion H as [? ? ? ? ? ? fs ? ? ? ? ? ? ? Eq]. destruct (lefts fs); discriminate.
      * apply sound_get. intros c Ec. apply sound_made_up. intros vn ->.
        eapply sound_bind; [apply sound_add; reflexivity|]. intros u. eapply sound_bind; [apply (sound_discover _ p (fun _ _ _ => True)); auto|].
        intros u'. apply sound_ret. intros nss sto _ I H. simpl in I |- *.
        exists []. split; [|auto]. apply ac_enum with (ns := names); [exact H|exact I].
      * apply sound_get. intros c Ec. apply sound_made_up. intros vn ->.
        eapply sound_bind; [apply sound_add; reflexivity|]. intros u. eapply sound_bind; [apply (sound_discover _ p (fun _ _ _ => True)); auto|].
        intros u'. apply sound_ret. intros nss sto _ _ H. exfalso. inversion H as [? ? ? ? ? ? fs ? ? ? ? ? ? ? Eq]. destruct (lefts fs); discriminate.
      * apply sound_get. intros c' Ec. apply sound_made_up. intros vn ->.
        eapply sound_bind; [apply sound_add; reflexivity|]. intros u. eapply sound_bind; [apply (sound_discover _ p (fun _ _ _ => True)); auto|].
        intros u'. apply sound_ret. intros nss sto _ _ H. exfalso. inversion H as [? ? ? ? ? ? fs ? ? ? ? ? ? ? Eq]. destruct (lefts fs); discriminate.
    + apply sound_lift. intros [ta n2] TT. apply try_attr in TT. destruct TT as [TT ->].
      eapply sound_mono; [apply (sound_content (mkNode x ["name"]) p ta TT)|].
      intros nss sto [lc n3] (known & Ty & En & Hk). exists known. split; [now apply ac_type|]. auto.
  - intros nss sto lcn (known & _ & En & _). exact En.
  - intros [lc [e2 v2]]. simpl. intros ->. apply sound_lift. intros u PC. apply prevent_children in PC. subst r2.
    match goal with |- sound ?m ?R => set (Goal' := R) end.
    assert (Fin : forall opt, use_of x opt ->
      sound (if andb (is_some (attr_lookup "default" (xe_attrs x))) (negb opt)
             then perr (XeUnexpectedAttribute "default" (xe_tag x) (xe_range x))
             else pbind (plift (prevent_unvisited_attributes (mkNode x ("use" :: "default" :: v2))))
               (fun _ => pret (Some (mkAttribute (mkName (at_value na) NsNone) lc
                  (option_map at_value (attr_lookup "default" (xe_attrs x))) opt docs)))) Goal').
    { intros opt Ho. destruct (andb _ _) eqn:An; [apply sound_err|]. apply sound_lift. intros u' PA. apply prevent_attrs in PA.
      apply sound_ret. intros nss sto (known & C & En & Hk). simpl in C, En, Hk, PA.
      eapply ad_decl; [exact TN|exact T|exact D|exact T'|exact C|exact Ho| |].
      - destruct (attr_lookup "default" _) as [a|] eqn:Df; simpl.
        + left. exists a. split; [now apply attr_lookup_iff|]. split; [reflexivity|]. simpl in An. now destruct opt.
        + right. split; [now apply attr_lookup_no|reflexivity].
      - eapply only_attrs_incl; [|exact PA]. intros k [<-|[<-|Ik]]; simpl; auto 6. apply Hk in Ik.
        apply in_app_or in Ik. destruct Ik as [Ik|[<-|[]]]; auto 6. }
    destruct (attr_lookup "use" (xe_attrs x)) as [u2|] eqn:U.
    + apply attr_lookup_iff in U. simpl.
      destruct (String.eqb_spec (at_value u2) "required") as [Eu|_]; [apply (Fin false); left; eauto|].
      destruct (String.eqb_spec (at_value u2) "optional") as [Eu|_]; [apply (Fin true); right; left; eauto|].
      destruct (String.eqb_spec (at_value u2) "prohibited") as [Eu|_]; [|apply sound_err].
      apply sound_ret. intros nss sto (known & C & _). eapply ad_prohibited; eauto.
    + apply attr_lookup_no in U. apply (Fin true). right. right. auto.
Qed.

Lemma attributes_sound {B} p n cs (k : list attribute -> P B) (R : namespaces -> list (name * root) -> B -> Prop) :
  Forall xsd cs ->
  (forall ats, sound (k ats) (fun nss st b => attributes_of d nss ns st p cs ats -> R nss st b)) ->
  sound (pbind (pcollect (attribute_parse p) (select_all "attribute" (map node_of cs)))
    (fun ats => pbind (plift (prevent_unvisited_children n (remove_all "attribute" (map node_of cs)))) (fun _ => k ats))) R.
Proof.
  intros Hx K. rewrite select_all_map, remove_all_map by exact Hx.
  eapply sound_bind.
  - apply (sound_collect _ (fun x nss st o => attribute_decl d nss ns st p (n_elem x) o)). intros x I.
    apply in_map_iff in I. destruct I as (y & <- & _). apply attribute_sound.
  - intros ats. apply sound_lift. intros u PC. apply prevent_children in PC. apply filter_none in PC. destruct PC as [Fe Ft].
    eapply sound_mono; [apply K|]. intros nss st b H (os & F2 & ->). apply H. split.
    + eapply Forall_impl; [|exact Ft]. intros x. apply String.eqb_eq.
    + exists os. split; [|reflexivity]. rewrite Fe in F2. clear -F2.
      remember (map node_of cs) as l eqn:El. revert cs El. induction F2 as [|x o l os Hd Ht IH]; intros [|c cs] El; try discriminate; [constructor|].
      injection El as -> ->. constructor; [exact Hd|]. now apply IH.
Qed.

Lemma simple_content_sound p x : sound (simple_content_parse (node_of x) p) (fun nss st ed =>
  exists ext base lc ats, only_attrs x [] /\ take "extension" (xsd_children x) (Some ext) []
  /\ the_attr ext "base" base /\ type_of d nss (at_value base) lc /\ attributes_of d nss ns st p (xsd_children ext) ats
  /\ ed = mkElementDef ats (Some (EcLeaf (match lc with LcNamed t => t | _ => p end) (mkLeafDef lc [] None))) false None).
Proof.
  unfold simple_content_parse. apply sound_lift. intros u PA. apply prevent_attrs in PA. simpl in PA.
  rewrite children_nodes. simpl n_elem. apply sound_lift. intros [ext rest] TR. apply try_remove in TR; [|apply children_xsd].
  destruct TR as (y & ys & -> & -> & T & F). apply sound_lift. intros u' PC. apply prevent_children in PC. subst ys.
  apply sound_lift. intros [base ext'] TA. apply try_attr in TA. destruct TA as [TA ->]. simpl n_elem in *.
  eapply sound_bind; [apply sound_type|]. intros lc.
  eapply (sound_bind _ _ (fun _ _ n => n = match lc with LcNamed t => t | _ => p end)).
  { destruct lc as [l|t|s]; [apply sound_ret; reflexivity| |apply sound_ret; reflexivity].
    eapply sound_bind; [apply (sound_discover t p (fun _ _ _ => True)); auto|]. intros u2. apply sound_ret. auto. }
  intros n. cbv zeta. rewrite children_nodes. simpl n_elem. apply attributes_sound; [apply children_xsd|].
  intros ats. apply sound_ret. intros nss st At -> Ty. exists y, base, lc, ats. auto 10.
Qed.

Lemma docs_eq r docs : root_with_docs r docs = with_docs r docs.
Proof. destruct docs, r; reflexivity. Qed.

Lemma simple_type_seen e s s' r : incl s s' -> simple_type d s e r -> simple_type d s' e r.
Proof. intros I H. destruct H. econstructor; try eassumption. eapply only_attrs_incl; eassumption. Qed.
Lemma complex_type_seen nss st e s s' p r : incl s s' -> complex_type d nss ns st s e p r -> complex_type d nss ns st s' e p r.
Proof.
  intros I H. assert (I' : incl ("mixed" :: s) ("mixed" :: s')) by (apply incl_cons; [now left|now apply incl_tl]).
  inversion H; subst; [eapply ct_simple_content|eapply ct_complex_content|eapply ct_particles];
    try eassumption; try reflexivity; eapply only_attrs_incl; eassumption.
Qed.
Lemma element_decl_seen nss st e s s' p r : incl s s' -> element_decl d nss ns st s e p r -> element_decl d nss ns st s' e p r.
Proof.
  intros I H. inversion H; subst; [eapply ed_typed|eapply ed_complex|eapply ed_simple]; try eassumption;
    (eapply only_attrs_incl; [|eassumption]).
  - apply incl_app; [apply incl_appl, incl_refl|now apply incl_appr].
  - apply incl_cons; [now left|now apply incl_tl].
  - apply incl_cons; [now left|now apply incl_tl].
Qed.
Lemma declared_seen nss st e s s' p r : incl s s' -> declared d nss ns st s e p r -> declared d nss ns st s' e p r.
Proof.
  intros I H. inversion H; subst; [apply dc_element|apply dc_complex|apply dc_simple]; try assumption.
  - eapply element_decl_seen; eassumption.
  - eapply complex_type_seen; eassumption.
  - eapply simple_type_seen; eassumption.
Qed.
Lemma sequence_of_seen nss st e s s' p r : incl s s' -> sequence_of d nss ns st s e p r -> sequence_of d nss ns st s' e p r.
Proof. intros I H. inversion H; subst. constructor; [eapply only_attrs_incl; eassumption|assumption]. Qed.
Lemma choice_of_seen nss st e s s' p r : incl s s' -> choice_of d nss ns st s e p r -> choice_of d nss ns st s' e p r.
Proof. intros I H. inversion H; subst. constructor; [eapply only_attrs_incl; eassumption|assumption]. Qed.

End Sound.
