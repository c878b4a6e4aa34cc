(** * EvoProof: documents of the old schema are decoded alike under the new one *)
From Verif Require Import Base Libs Xml Ast Decode Gen Run CursorSpec DecSpec RepSpec GenProof1 EvoSpec.

(** ** Enumerations with more values *)
Section Enum.
Context {L : Libs}.

Lemma escape_go_app a : forall b t k o, escape_enum_go (a ++ b) t k = Some o ->
  exists t1 k1, escape_enum_go a t k = Some t1 /\ escape_enum_go b t1 k1 = Some o.
Proof.
  induction a as [|n a IH]; intros b t k o H.
  - exists t, k. auto.
  - cbn [escape_enum_go app] in *. destruct (enum_fresh _ _ _ _) as [[v k']|]; [|discriminate]. now apply IH.
Qed.

Lemma escape_go_prefix b : forall t k o, escape_enum_go b t k = Some o -> exists x, o = t ++ x.
Proof.
  induction b as [|n b IH]; intros t k o H; cbn [escape_enum_go] in H.
  - injection H as <-. exists []. now rewrite app_nil_r.
  - destruct (enum_fresh _ _ _ _) as [[v k']|] eqn:E; [|discriminate]. apply IH in H. destruct H as (x & ->).
    apply enum_fresh_ok in E. rewrite aset_fresh by apply E. rewrite <- app_assoc. eauto.
Qed.

Lemma mapM_app {E A B} (f : A -> res E B) a : forall b o, mapM f (a ++ b) = Ok o ->
  exists x y, mapM f a = Ok x /\ mapM f b = Ok y /\ o = x ++ y.
Proof.
  induction a as [|h a IH]; intros b o H; cbn [mapM app] in *.
  - exists [], o. auto.
  - destruct (f h) as [v| | |]; cbn [bind] in *; try discriminate. destruct (mapM f (a ++ b)) as [w| | |] eqn:M; cbn [bind] in *; try discriminate.
    injection H as <-. destruct (IH b w M) as (x & y & -> & -> & ->). exists (v :: x), y. auto.
Qed.

Lemma enum_variants_app names more vs' : enum_variants (names ++ more) = Ok vs' ->
  exists vs x, enum_variants names = Ok vs /\ vs' = vs ++ x.
Proof.
  unfold enum_variants, escape_enum_names. destruct (escape_enum_go (names ++ more) [] 0) as [o|] eqn:E; [|discriminate]. intros H.
  apply escape_go_app in E. destruct E as (t1 & k1 & E1 & E2). apply escape_go_prefix in E2. destruct E2 as (x & ->). rewrite E1.
  apply mapM_app in H. destruct H as (a & b & Ha & Hb & ->). eauto.
Qed.

Lemma enum_from_str_app vs x s v : enum_from_str vs s = Ok v -> enum_from_str (vs ++ x) s = Ok v.
Proof. induction vs as [|[w t] vs IH]; [discriminate|]. cbn [enum_from_str app]. destruct (s =?s t); auto. Qed.
Lemma enum_from_str_value vs s v : enum_from_str vs s = Ok v -> exists x, v = VEnum x.
Proof. induction vs as [|[w t] vs IH]; [discriminate|]. cbn [enum_from_str]. destruct (s =?s t); [intros H; injection H as <-; eauto|auto]. Qed.
Lemma lit_value l s v : lit_from_str l s = Ok v -> grown v v.
Proof.
  unfold lit_from_str. destruct (prim_from_str (lit_prim l) s) as [w|] eqn:E; [|discriminate]. intros H. injection H as <-.
  destruct (lit_prim l); cbn [prim_from_str] in E;
    try (match type of E with option_map _ ?x = _ => destruct x end; cbn [option_map] in E; try discriminate); injection E as <-; constructor.
Qed.
End Enum.

Lemma wm_nil_inv {A} (same : A -> A -> Prop) new l' : with_more same new [] l' -> Forall new l'.
Proof. remember (@nil A) as l eqn:E. induction 1; [constructor|discriminate|constructor; auto]. Qed.
Lemma wm_cons_inv {A} (same : A -> A -> Prop) new x l l' : with_more same new (x :: l) l' ->
  exists news y rest, l' = news ++ y :: rest /\ Forall new news /\ same x y /\ with_more same new l rest.
Proof.
  remember (x :: l) as k eqn:E. induction 1 as [|a b r r' S W IH|b r r' N W IH]; [discriminate| |].
  - injection E as -> ->. exists [], b, r'. auto.
  - destruct (IH E) as (news & y & rest & -> & F & S & W'). exists (b :: news), y, rest. auto.
Qed.

Section Evo.
Context {L : Libs}.
Variables (Ns : list (string * option string)) (As : list string) (wide : bool).
Variables c c' : schema_ctx.
Hypothesis Ev : evolves Ns As wide c c'.
(** Of the generated code for the new schema: type names are distinct, members have names. *)
Hypothesis Inj : forall a b id, In a (names_in c') -> In b (names_in c') -> type_ident a = Ok id -> type_ident b = Ok id -> a = b.
Hypothesis Fid : forall n d ls f, sc_get c' n = Some (RootElement d) -> ed_content d = Some (EcLeaves ls) -> In f ls ->
  exists i, field_ident (lf_name f) = Ok i.
Hypothesis Aid : forall n d a, sc_get c' n = Some (RootElement d) -> In a (ed_attributes d) -> exists i, field_ident (a_name a) = Ok i.
Hypothesis Eid : forall n names, sc_get c' n = Some (RootEnum names) -> exists vs, enum_variants names = Ok vs.
Notation gs := (names_in c).
Notation gs' := (names_in c').

Lemma quote_same n : quote_xml_namespace c' n = quote_xml_namespace c n.
Proof. unfold quote_xml_namespace. now rewrite (ev_namespaces _ _ _ _ _ Ev). Qed.
Lemma get_in x n r : sc_get x n = Some r -> In n (names_in x).
Proof. intros H. unfold sc_get in H. apply (aget_In _ name_eqb_eq) in H. apply (in_map fst) in H. exact H. Qed.
Lemma in_get x n : In n (names_in x) -> exists r, sc_get x n = Some r.
Proof.
  intros H. unfold sc_get. destruct (aget name_eqb n (sc_elements x)) as [r|] eqn:E; [eauto|].
  apply (aget_None _ name_eqb_eq) in E. contradiction.
Qed.
Lemma gs_kept n : In n gs -> In n gs'.
Proof. intros H. apply in_get in H. destruct H as (r & H). apply (ev_roots _ _ _ _ _ Ev) in H. destruct H as (r' & H & _). eapply get_in; eauto. Qed.

Lemma type_kept m n r : type_of c gs m n r -> exists r', type_of c' gs' m n r' /\ grown_root Ns As wide c' r r'.
Proof.
  intros (I & G & id & A & B). destruct (ev_roots _ _ _ _ _ Ev _ _ G) as (r' & G' & Gr). exists r'. split; [|exact Gr].
  split; [now apply gs_kept|]. eauto.
Qed.
Lemma group_kept m n r : group_of c gs m n r -> exists r', group_of c' gs' m n r' /\ grown_root Ns As wide c' r r'.
Proof.
  intros (I & G & id & A & B). destruct (ev_roots _ _ _ _ _ Ev _ _ G) as (r' & G' & Gr). exists r'. split; [|exact Gr].
  split; [now apply gs_kept|]. eauto.
Qed.

Lemma final_kept ct ct' : final c ct ct' -> (forall m, ct' = LcNamed m -> exists n r, type_of c gs m n r) -> final c' ct ct'.
Proof.
  induction 1 as [lit|s|m N|m d ct G Fi IH]; intros T; try constructor.
  - intros d' G'. destruct (T m eq_refl) as (n & r & I & G & id & Ei & Ei').
    assert (m = n) as -> by (eapply Inj; [eapply get_in; exact G'|now apply gs_kept|exact Ei|exact Ei']).
    destruct (ev_roots _ _ _ _ _ Ev _ _ G) as (r' & G2 & Gr). rewrite G' in G2. injection G2 as <-. inversion Gr; subst. eapply N; eauto.
  - destruct (ev_roots _ _ _ _ _ Ev _ _ G) as (r' & G2 & Gr). inversion Gr as [d0 d' E| | | |]; subst. eapply fi_alias; [exact G2|]. rewrite E. auto.
Qed.
Lemma final_lit ct lit : final c ct (LcLiteral lit) -> final c' ct (LcLiteral lit).
Proof. intros H. apply (final_kept _ _ H). intros m E. discriminate. Qed.
Lemma final_fixed ct s : final c ct (LcFixed s) -> final c' ct (LcFixed s).
Proof. intros H. apply (final_kept _ _ H). intros m E. discriminate. Qed.
Lemma final_named ct m n r : final c ct (LcNamed m) -> type_of c gs m n r -> final c' ct (LcNamed m).
Proof. intros H T. apply (final_kept _ _ H). intros m' E. injection E as <-. eauto. Qed.

(** ** Looking ahead *)
Definition fresh_list (l : list xelem) : Prop := Forall (fun x => ~ In (xe_tag x, xe_ns x) Ns /\ unaware Ns As x) l.

Lemma has_name_is n ns x : has_name n ns x = true -> xe_tag x = n /\ xe_ns x = ns.
Proof.
  unfold has_name. rewrite andb_true_iff, String.eqb_eq. intros [-> H]. split; [reflexivity|].
  destruct (xe_ns x), ns; cbn in H; try discriminate; [apply String.eqb_eq in H; now subst|reflexivity].
Qed.
Lemma new_not_first f ns l : new_element Ns c' f -> quote_xml_namespace c' (lf_name f) = Some ns -> fresh_list l ->
  first_is (nm (lf_name f)) ns l = false.
Proof.
  intros (_ & ns' & Q & I) Q' F. rewrite Q in Q'. injection Q' as ->. destruct F as [|x l [N _] F]; [reflexivity|]. cbn [first_is].
  destruct (has_name _ _ _) eqn:H; [|reflexivity]. apply has_name_is in H. destruct H as [H1 H2]. destruct N. now rewrite H1, H2.
Qed.

Lemma look_kept :
  (forall m l b, look_group c gs m l b -> fresh_list l -> look_group c' gs' m l b)
  /\ (forall f l b, look_leaf c gs f l b -> fresh_list l -> forall f', same_leaf f f' -> look_leaf c' gs' f' l b)
  /\ (forall fs l b, look_seq c gs fs l b -> fresh_list l -> forall fs', with_more same_leaf (new_optional Ns c') fs fs' -> look_seq c' gs' fs' l b)
  /\ (forall fs l b, look_any c gs fs l b -> fresh_list l -> forall fs', with_more same_leaf (new_element Ns c') fs fs' -> look_any c' gs' fs' l b).
Proof.
  assert (NL : forall f l, new_element Ns c' f -> fresh_list l -> look_leaf c' gs' f l false).
  { intros f l N F. pose proof N as (V & ns & Q & I). rewrite <- (new_not_first f ns l N Q F). now apply ll_plain. }
  assert (NO : forall ls l, Forall (new_optional Ns c') ls -> fresh_list l -> look_seq c' gs' ls l false).
  { intros ls l H F. induction H as [|f ls [N O] H IH]; [constructor|]. apply ls_optional; auto. }
  (* additions before the member itself *)
  assert (SQ : forall fs fs' l b, fresh_list l -> with_more same_leaf (new_optional Ns c') fs fs' ->
    forall P : list leaf -> Prop, (forall fs'', P fs'' -> look_seq c' gs' fs'' l b) ->
    (forall f rest, fs = f :: rest -> forall f' rest', same_leaf f f' -> with_more same_leaf (new_optional Ns c') rest rest' -> P (f' :: rest')) ->
    (fs = [] -> P [] ) -> look_seq c' gs' fs' l b).
  { intros fs fs' l b F W P HP Hc Hn. induction W as [|x y r r' S W IH|y r r' [N O] W IH].
    - apply HP, Hn, eq_refl.
    - apply HP. eapply Hc; eauto.
    - apply ls_optional; auto. }
  assert (SA : forall fs fs' l b, fresh_list l -> with_more same_leaf (new_element Ns c') fs fs' ->
    (forall f rest, fs = f :: rest -> forall f' rest', same_leaf f f' -> with_more same_leaf (new_element Ns c') rest rest' -> look_any c' gs' (f' :: rest') l b) ->
    (fs = [] -> b = false) -> look_any c' gs' fs' l b).
  { intros fs fs' l b F W Hc Hn. induction W as [|x y r r' S W IH|y r r' N W IH].
    - rewrite Hn by reflexivity. constructor.
    - eapply Hc; eauto.
    - apply la_no; auto. }
  apply look_ind.
  - intros m n d l G _. apply group_kept in G. destruct G as (r' & G & Gr). inversion Gr; subst. eapply lg_leaf; eauto.
  - intros m n ns l G _. apply group_kept in G. destruct G as (r' & G & Gr). inversion Gr; subst; eapply lg_enum; eauto.
  - intros m n d l G N F. apply group_kept in G. destruct G as (r' & G & Gr). inversion Gr as [| | |d0 d' Gc _ _|]; subst.
    inversion Gc as [E E'|ls H E E'|n0 d0 d1 E0 E E'|ls ls' W E E'].
    + eapply lg_other; [exact G|]. intros ls. rewrite <- E'. discriminate.
    + eapply lg_leaves; [exact G|symmetry; exact E'|]. auto.
    + eapply lg_other; [exact G|]. intros ls. rewrite <- E'. discriminate.
    + exfalso. eapply N. symmetry. exact E.
  - intros m n d ls l b G E Lk IH F. apply group_kept in G. destruct G as (r' & G & Gr). inversion Gr as [| | |d0 d' Gc _ _|]; subst.
    rewrite E in Gc. inversion Gc as [|? ?|?|ls0 ls' W E0 E']; subst. eapply lg_leaves; [exact G|symmetry; exact E'|]. auto.
  - intros m n d l b G Lk IH F. apply group_kept in G. destruct G as (r' & G & Gr). inversion Gr as [| | | |d0 d' W _]; subst.
    eapply lg_choice; [exact G|]. auto.
  - intros f m l b V Cm Lk IH F f' (S1 & S2 & S3 & S4 & S5 & S6). eapply ll_virtual; [congruence|rewrite S2; exact Cm|auto].
  - intros f ns l V Q F f' (S1 & S2 & S3 & S4 & S5 & S6). rewrite <- S1. apply ll_plain; [congruence|]. now rewrite S1, quote_same.
  - intros l F fs' W. eapply (SQ [] fs' l false F W (fun x => x = [])); [intros ? ->; constructor|discriminate|auto].
  - intros f fs l Lk IH F fs' W. eapply (SQ _ _ _ _ F W (fun x => look_seq c' gs' x l true)); [auto| |discriminate].
    intros g rest E. injection E as <- <-. intros f' rest' S _. apply ls_yes. auto.
  - intros f fs l Lk IH O F fs' W. eapply (SQ _ _ _ _ F W (fun x => look_seq c' gs' x l false)); [auto| |discriminate].
    intros g rest E. injection E as <- <-. intros f' rest' S _. apply ls_required; [auto|]. destruct S as (_ & _ & _ & _ & -> & _). exact O.
  - intros f fs l b Lk IH O Lks IHs F fs' W. eapply (SQ _ _ _ _ F W (fun x => look_seq c' gs' x l b)); [auto| |discriminate].
    intros g rest E. injection E as <- <-. intros f' rest' S W'. apply ls_optional; [auto| |auto]. destruct S as (_ & _ & _ & _ & -> & _). exact O.
  - intros l F fs' W. apply (SA _ _ _ _ F W); [discriminate|auto].
  - intros f fs l Lk IH F fs' W. apply (SA _ _ _ _ F W); [|discriminate]. intros g rest E. injection E as <- <-. intros f' rest' S _. apply la_yes. auto.
  - intros f fs l b Lk IH Lks IHs F fs' W. apply (SA _ _ _ _ F W); [|discriminate]. intros g rest E. injection E as <- <-. intros f' rest' S W'. apply la_no; auto.
Qed.

(** ** Reading *)
Definition fits {E A} (o : res E A) : Prop := wide = false \/ exists a, o = Ok a.
Lemma fits_map {E A B} (f : A -> B) (o : res E A) : fits (rmap f o) -> fits o.
Proof. intros [W|(b & H)]; [now left|]. right. destruct o; try discriminate. eauto. Qed.

Definition alike {A B} (G : A -> B -> Prop) (o : R (A * list xelem)) (o' : R (B * list xelem)) : Prop :=
  match o, o' with
  | Ok (v, l), Ok (v', l') => G v v' /\ l' = l /\ fresh_list l
  | Err x, Err x' => x' = x
  | _, _ => False
  end.
Definition alike_v {A B} (G : A -> B -> Prop) (o : R A) (o' : R B) : Prop :=
  match o, o' with Ok v, Ok v' => G v v' | Err x, Err x' => x' = x | _, _ => False end.
Lemma alike_map {A B C D} (G : A -> B -> Prop) (H : C -> D -> Prop) f g o o' :
  (forall a b, G a b -> H (f a) (g b)) -> alike G o o' -> alike H (rmap (with_rest f) o) (rmap (with_rest g) o').
Proof. intros GH. destruct o as [[]| | |], o' as [[]| | |]; cbn; try tauto. intuition. Qed.
Lemma alike_fst {A B} (G : A -> B -> Prop) o o' : alike G o o' -> alike_v G (rmap fst o) (rmap fst o').
Proof. destruct o as [[]| | |], o' as [[]| | |]; cbn; try tauto. Qed.
Lemma alike_with {A B C D} (G : A -> B -> Prop) (H : C -> D -> Prop) f g l (o : R A) o' :
  (forall a b, G a b -> H (f a) (g b)) -> fresh_list l -> alike_v G o o' ->
  alike H (rmap (fun v => (f v, l)) o) (rmap (fun v => (g v, l)) o').
Proof. intros GH F. destruct o, o'; cbn; try tauto. intuition. Qed.

Lemma unaware_kids e : unaware Ns As e -> fresh_list (xe_children e).
Proof. intros H. inversion H; subst. assumption. Qed.
Lemma unaware_attr e a : unaware Ns As e -> In a As -> d_attribute e a = None.
Proof. intros H. inversion H; subst. auto. Qed.

Lemma enum_kept names names' vs s : grown_root Ns As wide c' (RootEnum names) (RootEnum names') -> enum_variants names = Ok vs ->
  (exists n, sc_get c' n = Some (RootEnum names')) -> fits (enum_from_str vs s) ->
  exists vs', enum_variants names' = Ok vs' /\ enum_from_str vs' s = enum_from_str vs s.
Proof.
  intros G E (n & Gn) F. inversion G as [|x|x more W| |]; subst; [eauto|].
  destruct (Eid _ _ Gn) as (vs' & E'). destruct (enum_variants_app _ _ _ E') as (vs0 & y & E0 & ->). rewrite E in E0. injection E0 as <-.
  exists (vs ++ y). split; [exact E'|]. destruct F as [F|(v & F)]; [congruence|]. rewrite F. now apply enum_from_str_app.
Qed.

Lemma alias_kept m : alias_string c m -> alias_string c' m.
Proof. intros (lit & F & P). exists lit. split; [now apply final_lit|exact P]. Qed.

Lemma converts_kept ct s o : converts c gs ct s o -> fits o -> exists o', converts c' gs' ct s o' /\ alike_v grown o o'.
Proof.
  intros H F. destruct H as [lit s|f s|m s A|m m' n names vs s Fi T E].
  - exists (lit_from_str lit s). split; [constructor|]. destruct (lit_from_str lit s) eqn:E; cbn; auto; [eapply lit_value; eauto| |];
      unfold lit_from_str in E; destruct (prim_from_str _ _); discriminate.
  - exists (Ok VUnit). split; constructor.
  - exists (Ok (VStr s)). split; [apply cv_string; now apply alias_kept|constructor].
  - destruct (type_kept _ _ _ T) as (r' & T' & G). assert (X : exists names', r' = RootEnum names') by (inversion G; subst; eauto). destruct X as (names' & ->).
    destruct (enum_kept _ _ _ s G E) as (vs' & E' & Es); [exists n; apply T'|exact F|].
    exists (enum_from_str vs' s). split; [eapply cv_enum; eauto; eapply final_named; eauto|]. rewrite Es.
    destruct (enum_from_str vs s) as [v| | |] eqn:Ex; cbn; auto; [apply enum_from_str_value in Ex; destruct Ex as (x & ->); constructor| |];
      exfalso; clear - Ex; induction vs as [|[w t] vs IH]; cbn [enum_from_str] in Ex; try discriminate; destruct (s =?s t); auto; discriminate.
Qed.

Lemma attr_kept a a' e o : read_attr c gs a e o -> fits o -> same_attr a a' -> exists o', read_attr c' gs' a' e o' /\ alike_v grown o o'.
Proof.
  intros H F (S1 & S2 & S3). destruct H as [a e N O|a e N O|a e s o Sm O C|a e s o Sm O C].
  - exists (Ok VNone). split; [apply ra_absent_opt; congruence|constructor].
  - exists (Err (FeMissingAttribute (nm (a_name a')))). split; [apply ra_absent_req; congruence|]. cbn. now rewrite S1.
  - apply fits_map in F. destruct (converts_kept _ _ _ C F) as (o' & C' & A). exists (rmap VSome o'). split.
    + eapply ra_present_opt; [rewrite S1; exact Sm|congruence|now rewrite S2].
    + destruct o, o'; cbn in *; try tauto. now constructor.
  - destruct (converts_kept _ _ _ C F) as (o' & C' & A). exists o'. split; [|exact A].
    eapply ra_present_req; [rewrite S1; exact Sm|congruence|now rewrite S2].
Qed.

Lemma attrs_kept ats e o : read_attrs c gs ats e o -> fits o -> unaware Ns As e -> forall ats', with_more same_attr (new_attr As) ats ats' ->
  Forall (fun a => exists i, field_ident (a_name a) = Ok i) ats' -> exists o', read_attrs c' gs' ats' e o' /\ alike_v grown_fields o o'.
Proof.
  intros H F U.
  assert (NEW : forall a l' o o', new_attr As a -> (exists i, field_ident (a_name a) = Ok i) -> read_attrs c' gs' l' e o' -> alike_v grown_fields o o' ->
    exists o2, read_attrs c' gs' (a :: l') e o2 /\ alike_v grown_fields o o2).
  { intros a l' o1 o' [O I] (i & Ei) H' A. exists (rmap (cons (i, VNone)) o'). split.
    - eapply rs_cons; eauto. apply ra_absent_opt; [eapply unaware_attr; eauto|exact O].
    - destruct o1, o'; cbn in *; try tauto. now constructor. }
  assert (NEWS : forall news l' o o', Forall (new_attr As) news -> Forall (fun a => exists i, field_ident (a_name a) = Ok i) news ->
    read_attrs c' gs' l' e o' -> alike_v grown_fields o o' -> exists o2, read_attrs c' gs' (news ++ l') e o2 /\ alike_v grown_fields o o2).
  { intros news l' o1 o' N. induction N as [|y news N Nf IHn]; intros Fi H' A; [exists o'; auto|]. inversion Fi as [|? ? Fi1 Fi2]; subst.
    destruct IHn as (o2 & H2 & A2); auto. eapply NEW; eauto. }
  revert F U NEW NEWS. induction H as [e|a ats e x Ha|a ats e f v o Ha Ef Hs IH]; intros F U NEW NEWS ats' W Id.
  - apply wm_nil_inv in W. destruct (NEWS ats' [] (Ok []) (Ok []) W Id) as (o2 & H2 & A2); [constructor|constructor|]. rewrite app_nil_r in H2. eauto.
  - apply wm_cons_inv in W. destruct W as (news & y & rest & -> & N & S & W). apply Forall_app in Id. destruct Id as [I1 I2].
    destruct (attr_kept _ y _ _ Ha) as (o' & H' & A); auto. { destruct F as [F|(? & F)]; [now left|discriminate]. }
    destruct o' as [|x'| |]; cbn in A; try tauto. subst x'. eapply (NEWS news _ (Err x) (Err x)); auto; [now apply rs_err|reflexivity].
  - apply wm_cons_inv in W. destruct W as (news & y & rest & -> & N & S & W). apply Forall_app in Id. destruct Id as [I1 I2]. inversion I2 as [|? ? I3 I4]; subst.
    destruct (attr_kept _ y _ _ Ha) as (o' & H' & A); auto. { right. eauto. }
    destruct o' as [v'| | |]; cbn in A; try tauto. destruct (IH (fits_map _ _ F) U NEW NEWS rest W) as (o2 & H2 & A2); auto.
    eapply (NEWS news (y :: rest) _ (rmap (cons (f, v')) o2)); auto.
    + eapply rs_cons; eauto. destruct S as (-> & _). exact Ef.
    + destruct o, o2; cbn in *; try tauto. now constructor.
Qed.

Lemma fits_ok {E A} (a : A) : fits (@Ok E A a).
Proof. right. eauto. Qed.
Lemma fits_err {E A B} (x : E) : fits (@Err E A x) -> fits (@Err E B x).
Proof. intros [W|(? & H)]; [now left|discriminate]. Qed.
Lemma vec_grown b vs vs' : grown_list vs vs' -> grown (vec_value b vs) (vec_value b vs').
Proof. intros H. unfold vec_value. destruct b; [|now constructor]. destruct H; repeat constructor; auto. Qed.
Lemma fresh_head x l : fresh_list (x :: l) -> unaware Ns As x /\ fresh_list l.
Proof. intros H. inversion H; subst. tauto. Qed.
Lemma fresh_split l1 x l2 : fresh_list (l1 ++ x :: l2) -> unaware Ns As x /\ fresh_list (l1 ++ l2).
Proof. unfold fresh_list. rewrite !Forall_app. intros [A B]. inversion B; subst. tauto. Qed.

Lemma new_reads f e l : new_optional Ns c' f -> fresh_list l -> read_leaf c' gs' f e l (Ok (VNone, l)).
Proof.
  intros [N O] F. pose proof N as (V & ns & Q & I). pose proof (new_not_first _ _ _ N Q F) as Nf. destruct (lf_is_vec f) eqn:Ve.
  - assert (H : read_run c' gs' (nm (lf_name f)) ns (ld_content (lf_def f)) l (Ok ([], l))) by now constructor.
    pose proof (rl_run c' gs' f ns e l _ V Ve Q H) as K. rewrite O in K. exact K.
  - eapply rl_optional_no; eauto.
Qed.

Ltac kp := match goal with
  | S1 : lf_name _ = _, S2 : ld_content _ = _ |- _ => first [solve [rewrite ?S1, ?S2, ?quote_same; eauto] | congruence] end.
Lemma read_kept :
  (forall ct e l o, read_content c gs ct e l o -> fits o -> unaware Ns As e -> fresh_list l ->
    exists o', read_content c' gs' ct e l o' /\ alike grown o o')
  /\ (forall ct x o, read_sub c gs ct x o -> fits o -> unaware Ns As x -> exists o', read_sub c' gs' ct x o' /\ alike_v grown o o')
  /\ (forall n r e l o, read_root c gs n r e l o -> fits o -> unaware Ns As e -> fresh_list l ->
    forall r', sc_get c' n = Some r' -> grown_root Ns As wide c' r r' -> exists o', read_root c' gs' n r' e l o' /\ alike grown o o')
  /\ (forall ec e l o, read_fields c gs ec e l o -> fits o -> unaware Ns As e -> fresh_list l ->
    forall n d, sc_get c' n = Some (RootElement d) -> grown_content Ns c' ec (ed_content d) ->
    exists o', read_fields c' gs' (ed_content d) e l o' /\ alike grown_fields o o')
  /\ (forall ls e l o, read_leaves c gs ls e l o -> fits o -> unaware Ns As e -> fresh_list l ->
    forall ls', with_more same_leaf (new_optional Ns c') ls ls' -> Forall (fun f => exists i, field_ident (lf_name f) = Ok i) ls' ->
    exists o', read_leaves c' gs' ls' e l o' /\ alike grown_fields o o')
  /\ (forall f e l o, read_leaf c gs f e l o -> fits o -> unaware Ns As e -> fresh_list l ->
    forall f', same_leaf f f' -> exists o', read_leaf c' gs' f' e l o' /\ alike grown o o')
  /\ (forall m e l o, read_groups c gs m e l o -> fits o -> unaware Ns As e -> fresh_list l ->
    exists o', read_groups c' gs' m e l o' /\ alike grown_list o o')
  /\ (forall n ns ct l o, read_run c gs n ns ct l o -> fits o -> fresh_list l ->
    exists o', read_run c' gs' n ns ct l o' /\ alike grown_list o o')
  /\ (forall n fs e l o, read_choice c gs n fs e l o -> fits o -> unaware Ns As e -> fresh_list l ->
    forall fs', with_more same_leaf (new_element Ns c') fs fs' -> exists o', read_choice c' gs' n fs' e l o' /\ alike grown o o').
Proof.
  destruct look_kept as (LG & _).
  assert (NEWS : forall news l' e l o o', Forall (new_optional Ns c') news -> Forall (fun f => exists i, field_ident (lf_name f) = Ok i) news -> fresh_list l ->
    read_leaves c' gs' l' e l o' -> alike grown_fields o o' -> exists o2, read_leaves c' gs' (news ++ l') e l o2 /\ alike grown_fields o o2).
  { intros news l' e l o1 o' N. induction N as [|y news N Nf IHn]; intros Fi Fr H' A; [exists o'; auto|]. inversion Fi as [|? ? (i & Ei) Fi2]; subst.
    destruct IHn as (o2 & H2 & A2); auto. exists (rmap (with_rest (cons (i, VNone))) o2). split.
    - cbn [app]. eapply rv_cons; eauto. now apply new_reads.
    - destruct o1 as [[]| | |], o2 as [[]| | |]; cbn in *; try tauto. intuition. now constructor. }
  assert (NEWC : forall n news fs' e l o', Forall (new_element Ns c') news -> fresh_list l ->
    read_choice c' gs' n fs' e l o' -> read_choice c' gs' n (news ++ fs') e l o').
  { intros n news fs' e l o' N Fr H. induction N as [|y news N Nf IHn]; [exact H|]. pose proof N as (V & ns & Q & I). cbn [app].
    eapply rh_elem_no; eauto. eapply new_not_first; eauto. }
  apply read_ind.
  - intros ct lit e l Fi F U Fr. exists (s <- d_text e ;; v <- lit_from_str lit s ;; Ok (v, l)). split; [apply rc_lit; now apply final_lit|].
    assert (D : fin (d_text e)) by (unfold d_text; repeat match goal with |- context [match ?x with _ => _ end] => destruct x end; exact I).
    destruct (d_text e) as [s|x| |]; cbn; try tauto. destruct (lit_from_str lit s) as [v| | |] eqn:E; cbn; auto; [split; [eapply lit_value; eauto|auto]| |];
      unfold lit_from_str in E; destruct (prim_from_str _ _); discriminate.
  - intros ct s e l Fi F U Fr. exists (t <- d_text e ;; if t =?s s then Ok (VUnit, l) else Err (FeFixedMismatch s t)). split; [apply rc_fixed; now apply final_fixed|].
    assert (D : fin (d_text e)) by (unfold d_text; repeat match goal with |- context [match ?x with _ => _ end] => destruct x end; exact I).
    destruct (d_text e) as [t|x| |]; cbn; try tauto. destruct (t =?s s); cbn; [|reflexivity]. split; [constructor|auto].
  - intros ct m n r e l o Fi T Rd IH F U Fr. destruct (type_kept _ _ _ T) as (r' & T' & G).
    destruct (IH F U Fr r' (proj1 (proj2 T')) G) as (o' & H' & A). exists o'. split; [|exact A]. eapply rc_named; eauto. eapply final_named; eauto.
  - intros ct x o Rd IH F U. destruct (IH (fits_map _ _ F) U (unaware_kids _ U)) as (o' & H' & A). exists (rmap fst o'). split; [now constructor|]. now apply alike_fst.
  - intros n d e l o Rd IH F U Fr r' G Gr. inversion Gr as [d0 d' E| | | |]; subst. destruct (IH (fits_map _ _ F) U Fr) as (o' & H' & A).
    exists (rmap (with_rest VTuple) o'). split; [apply rr_leaf; now rewrite E|]. eapply alike_map; [|exact A]. now constructor.
  - intros n names vs e l E F U Fr r' G Gr. assert (X : exists names', r' = RootEnum names') by (inversion Gr; subst; eauto). destruct X as (names' & ->).
    assert (D : fin (d_text e)) by (unfold d_text; repeat match goal with |- context [match ?x with _ => _ end] => destruct x end; exact I).
    destruct (d_text e) as [s|x| |] eqn:Et; cbn in D; try tauto.
    + destruct (enum_kept _ _ _ s Gr E) as (vs' & E' & Es); [eauto| |].
      { destruct F as [F|(y & F)]; [now left|]. cbn in F. destruct (enum_from_str vs s) eqn:Ex; try discriminate. right. eauto. }
      exists (s <- d_text e ;; v <- enum_from_str vs' s ;; Ok (v, l)). split; [now apply rr_enum|]. rewrite Et. cbn [bind]. rewrite Es.
      destruct (enum_from_str vs s) as [v| | |] eqn:Ex; cbn; auto; [apply enum_from_str_value in Ex; destruct Ex as (y & ->); split; [constructor|auto]| |];
        exfalso; clear - Ex; induction vs as [|[w t] vs IH]; cbn [enum_from_str] in Ex; try discriminate; destruct (s =?s t); auto; discriminate.
    + assert (X : exists vs', enum_variants names' = Ok vs') by eauto. destruct X as (vs' & E').
      exists (s <- d_text e ;; v <- enum_from_str vs' s ;; Ok (v, l)). split; [now apply rr_enum|]. rewrite Et. reflexivity.
  - intros n d e l x Rd IH F U Fr r' G Gr. inversion Gr as [| | |d0 d' Gc Ga Gv|]; subst. destruct (IH (fits_err _ F) U Fr n d' G Gc) as (o' & H' & A).
    destruct o' as [[]|x'| |]; cbn in A; try tauto. subst x'. exists (Err x). split; [now apply rr_element_err|reflexivity].
  - intros n d e l l' vs oa Rd IH Ra F U Fr r' G Gr. inversion Gr as [| | |d0 d' Gc Ga Gv|]; subst. destruct (IH (fits_ok _) U Fr n d' G Gc) as (o' & H' & A).
    destruct o' as [[vs' l2]|x'| |]; cbn in A; try tauto. destruct A as (A & -> & Fr').
    destruct (attrs_kept _ _ _ Ra) with (ats' := ed_attributes d') as (oa' & Ra' & Aa); auto.
    { destruct F as [F|(y & F)]; [now left|]. destruct oa; try discriminate. right. eauto. }
    { apply Forall_forall. intros a Ia. eapply Aid; eauto. }
    exists (avs <- oa' ;; Ok (VStruct (vs' ++ avs), l')). split; [eapply rr_element; eauto|].
    destruct oa as [avs| | |], oa' as [avs'| | |]; cbn in *; try tauto. split; [|auto]. constructor. clear - A Aa.
    induction A; cbn [app]; [exact Aa|constructor; auto|constructor; auto].
  - intros n d e l o Rd IH F U Fr r' G Gr. inversion Gr as [| | | |d0 d' W Gv]; subst. destruct (IH F U Fr _ W) as (o' & H' & A). exists o'. split; [now constructor|exact A].
  - intros e l F U Fr n d G Gc. inversion Gc as [E E'|ls N E E'| |].
    + exists (Ok ([], l)). split; [constructor|]. cbn. split; [constructor|auto].
    + destruct (NEWS ls [] e l (Ok ([], l)) (Ok ([], l)) N) as (o2 & H2 & A2).
      { apply Forall_forall. intros f If. eapply Fid; eauto. } { exact Fr. } { constructor. } { cbn. split; [constructor|auto]. }
      rewrite app_nil_r in H2. exists o2. split; [now constructor|exact A2].
  - intros n d f e l o Ei Rd IH F U Fr n' d2 G Gc. inversion Gc as [| |n0 d0 d' E E0 E'|]; subst. destruct (IH (fits_map _ _ F) U Fr) as (o' & H' & A).
    exists (rmap (with_rest (fun v => [(f, v)])) o'). split; [apply rf_leaf; [exact Ei|now rewrite E]|]. eapply alike_map; [|exact A]. intros a b Gab. repeat constructor. exact Gab.
  - intros ls e l o Rd IH F U Fr n d G Gc. inversion Gc as [| | |ls0 ls' W E0 E']; subst. destruct (IH F U Fr ls' W) as (o' & H' & A).
    { apply Forall_forall. intros f If. eapply Fid; eauto. }
    exists o'. split; [now constructor|exact A].
  - intros e l F U Fr ls' W Id. apply wm_nil_inv in W. destruct (NEWS ls' [] e l (Ok ([], l)) (Ok ([], l)) W Id Fr) as (o2 & H2 & A2);
      [constructor|cbn; split; [constructor|auto]|]. rewrite app_nil_r in H2. eauto.
  - intros f fs e l x Rd IH F U Fr ls' W Id. apply wm_cons_inv in W. destruct W as (news & y & rest & -> & N & S & W). apply Forall_app in Id. destruct Id as [I1 I2].
    destruct (IH (fits_err _ F) U Fr y S) as (o' & H' & A). destruct o' as [[]|x'| |]; cbn in A; try tauto. subst x'.
    eapply (NEWS news _ _ _ (Err x) (Err x)); auto; [now apply rv_err|reflexivity].
  - intros f fs e l l' i v o Rd IH Ei Rs IHs F U Fr ls' W Id. apply wm_cons_inv in W. destruct W as (news & y & rest & -> & N & S & W). apply Forall_app in Id. destruct Id as [I1 I2].
    inversion I2 as [|? ? I3 I4]; subst. destruct (IH (fits_ok _) U Fr y S) as (o' & H' & A). destruct o' as [[v' l2]|x'| |]; cbn in A; try tauto. destruct A as (A & -> & Fr').
    destruct (IHs (fits_map _ _ F) U Fr' rest W I4) as (o2 & H2 & A2).
    eapply (NEWS news (y :: rest) _ _ _ (rmap (with_rest (cons (i, v'))) o2)); auto.
    + eapply rv_cons; eauto. destruct S as (-> & _). exact Ei.
    + eapply alike_map; [|exact A2]. intros a b Gab. now constructor.
  - intros f e l o V Ve O Rd IH F U Fr f' (S1 & S2 & S3 & S4 & S5 & S6). destruct (IH F U Fr) as (o' & H' & A). exists o'. split; [|exact A]. apply rl_group; kp.
  - intros f m e l V Ve O Cm Lk F U Fr f' (S1 & S2 & S3 & S4 & S5 & S6). exists (Ok (VNone, l)). split; [|cbn; split; [constructor|auto]]. eapply rl_group_no; kp.
  - intros f m e l o V Ve O Cm Lk Rd IH F U Fr f' (S1 & S2 & S3 & S4 & S5 & S6). destruct (IH (fits_map _ _ F) U Fr) as (o' & H' & A). exists (rmap (with_rest VSome) o').
    split; [eapply rl_group_yes; kp|]. eapply alike_map; [|exact A]. now constructor.
  - intros f m e l o V Ve Cm Rd IH F U Fr f' (S1 & S2 & S3 & S4 & S5 & S6). destruct (IH (fits_map _ _ F) U Fr) as (o' & H' & A). rewrite <- S5.
    exists (rmap (with_rest (vec_value (lf_is_optional f'))) o'). split; [eapply rl_groups; kp|]. eapply alike_map; [|exact A]. intros. now apply vec_grown.
  - intros f ns e l o V Ve Q Rd IH F U Fr f' (S1 & S2 & S3 & S4 & S5 & S6). destruct (IH (fits_map _ _ F) Fr) as (o' & H' & A). rewrite <- S5.
    exists (rmap (with_rest (vec_value (lf_is_optional f'))) o'). split; [eapply rl_run; kp|].
    eapply alike_map; [|exact A]. intros. now apply vec_grown.
  - intros f ns e l V Ve O Q Nf F U Fr f' (S1 & S2 & S3 & S4 & S5 & S6). exists (Ok (VNone, l)). split; [|cbn; split; [constructor|auto]].
    eapply rl_optional_no; kp.
  - intros f ns e x l o V Ve O Q Hn Rd IH F U Fr f' (S1 & S2 & S3 & S4 & S5 & S6). apply fresh_head in Fr. destruct Fr as [Ux Fr].
    destruct (IH (fits_map _ _ F) Ux) as (o' & H' & A). exists (rmap (fun v => (VSome v, l)) o').
    split; [eapply rl_optional_yes; kp|]. eapply alike_with; [|exact Fr|exact A]. now constructor.
  - intros f ns e l V Ve O Un Q Nf F U Fr f' (S1 & S2 & S3 & S4 & S5 & S6). exists (Err (FeMissingElement (nm (lf_name f)) ns)). split; [|reflexivity].
    rewrite <- S1. apply rl_missing; kp.
  - intros f ns e x l o V Ve O Un Q Hn Rd IH F U Fr f' (S1 & S2 & S3 & S4 & S5 & S6). apply fresh_head in Fr. destruct Fr as [Ux Fr].
    destruct (IH (fits_map _ _ F) Ux) as (o' & H' & A). exists (rmap (fun v => (v, l)) o').
    split; [eapply rl_next; kp|]. eapply (alike_with _ _ (fun v => v) (fun v => v)); [|exact Fr|exact A]. auto.
  - intros f ns e l V Ve O Un Q Nf F U Fr f' (S1 & S2 & S3 & S4 & S5 & S6). exists (Err (FeMissingElement (nm (lf_name f)) ns)). split; [|reflexivity].
    rewrite <- S1. apply rl_nowhere; kp.
  - intros f ns e l1 x l2 o V Ve O Un Q N1 Hn Rd IH F U Fr f' (S1 & S2 & S3 & S4 & S5 & S6). apply fresh_split in Fr. destruct Fr as [Ux Fr].
    destruct (IH (fits_map _ _ F) Ux) as (o' & H' & A). exists (rmap (fun v => (v, l1 ++ l2)) o').
    split; [eapply rl_anywhere; kp|].
    eapply (alike_with _ _ (fun v => v) (fun v => v)); [|exact Fr|exact A]. auto.
  - intros m e l Lk F U Fr. exists (Ok ([], l)). split; [apply rg_stop; auto|cbn; split; [constructor|auto]].
  - intros m e l x Lk Rd IH F U Fr. destruct (IH (fits_err _ F) U Fr) as (o' & H' & A). destruct o' as [[]|x'| |]; cbn in A; try tauto. subst x'.
    exists (Err x). split; [apply rg_err; auto|reflexivity].
  - intros m e l l' v o Lk Rd IH Rs IHs F U Fr. destruct (IH (fits_ok _) U Fr) as (o' & H' & A). destruct o' as [[v' l2]|x'| |]; cbn in A; try tauto. destruct A as (A & -> & Fr').
    destruct (IHs (fits_map _ _ F) U Fr') as (o2 & H2 & A2). exists (rmap (with_rest (cons v')) o2). split; [eapply rg_more; eauto|]. eapply alike_map; [|exact A2]. intros. now constructor.
  - intros n ns ct l Nf F Fr. exists (Ok ([], l)). split; [now apply ru_stop|cbn; split; [constructor|auto]].
  - intros n ns ct x l y Hn Rd IH F Fr. apply fresh_head in Fr. destruct Fr as [Ux Fr]. destruct (IH (fits_err _ F) Ux) as (o' & H' & A).
    destruct o' as [|x'| |]; cbn in A; try tauto. subst x'. exists (Err y). split; [now apply ru_err|reflexivity].
  - intros n ns ct x l v o Hn Rd IH Rs IHs F Fr. apply fresh_head in Fr. destruct Fr as [Ux Fr]. destruct (IH (fits_ok _) Ux) as (o' & H' & A).
    destruct o' as [v'|x'| |]; cbn in A; try tauto. destruct (IHs (fits_map _ _ F) Fr) as (o2 & H2 & A2).
    exists (rmap (with_rest (cons v')) o2). split; [eapply ru_more; eauto|]. eapply alike_map; [|exact A2]. intros. now constructor.
  - intros n id e l Ei F U Fr fs' W. apply wm_nil_inv in W. exists (Err (FeMissingVariant id)). split; [|reflexivity]. rewrite <- (app_nil_r fs'). apply NEWC; auto. now constructor.
  - intros n f fs m e l o V Cm Lk Rd IH F U Fr fs' W. apply wm_cons_inv in W. destruct W as (news & y & rest & -> & N & (S1 & S2 & S3 & S4 & S5 & S6) & W).
    destruct (IH F U Fr rest W) as (o' & H' & A). exists o'. split; [|exact A]. apply NEWC; auto. eapply rh_group_no; kp.
  - intros n f fs m i e l o V Cm Lk Ei Rd IH F U Fr fs' W. apply wm_cons_inv in W. destruct W as (news & y & rest & -> & N & (S1 & S2 & S3 & S4 & S5 & S6) & W).
    destruct (IH (fits_map _ _ F) U Fr) as (o' & H' & A). exists (rmap (with_rest (VChoice i)) o'). split; [|eapply alike_map; [|exact A]; intros; now constructor].
    apply NEWC; auto. eapply rh_group; kp.
  - intros n f fs ns e l o V Q Nf Rd IH F U Fr fs' W. apply wm_cons_inv in W. destruct W as (news & y & rest & -> & N & (S1 & S2 & S3 & S4 & S5 & S6) & W).
    destruct (IH F U Fr rest W) as (o' & H' & A). exists o'. split; [|exact A]. apply NEWC; auto. eapply rh_elem_no; kp.
  - intros n f fs ns i e l o V Q Ve Nf Ei Rd IH F U Fr fs' W. apply wm_cons_inv in W. destruct W as (news & y & rest & -> & N & (S1 & S2 & S3 & S4 & S5 & S6) & W).
    destruct (IH (fits_map _ _ F) Fr) as (o' & H' & A). exists (rmap (with_rest (fun ws => VChoice i (VVec ws))) o'). split; [|eapply alike_map; [|exact A]; intros; now repeat constructor].
    apply NEWC; auto. eapply rh_run; kp.
  - intros n f fs ns i e x l o V Q Ve Hn Ei Rd IH F U Fr fs' W. apply wm_cons_inv in W. destruct W as (news & y & rest & -> & N & (S1 & S2 & S3 & S4 & S5 & S6) & W).
    pose proof Fr as Fr0. apply fresh_head in Fr. destruct Fr as [Ux Fr]. destruct (IH (fits_map _ _ F) Ux) as (o' & H' & A). exists (rmap (fun w => (VChoice i w, l)) o').
    split; [|eapply alike_with; [|exact Fr|exact A]; intros; now constructor].
    apply NEWC; auto. eapply rh_elem; kp.
Qed.

Lemma doc_kept n e o : read_doc c gs n e o -> fits o -> unaware Ns As e -> exists o', read_doc c' gs' n e o' /\ alike_v grown o o'.
Proof.
  intros H F U. destruct H as [n ns e I Q N|n ns r e o I Q N G Rd].
  - exists (Err (FeMissingElement (nm n) ns)). split; [|reflexivity]. apply rd_other; [now apply gs_kept|now rewrite quote_same|exact N].
  - destruct (ev_roots _ _ _ _ _ Ev _ _ G) as (r' & G' & Gr). destruct read_kept as (_ & _ & K & _).
    destruct (K _ _ _ _ _ Rd (fits_map _ _ F) U (unaware_kids _ U) r' G' Gr) as (o' & H' & A). exists (rmap fst o'). split; [|now apply alike_fst].
    eapply rd_root; eauto; [now apply gs_kept|now rewrite quote_same].
Qed.
End Evo.
