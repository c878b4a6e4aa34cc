(** * C76: the types a user of a generated module sees *)
From Verif Require Import Base Libs Xml Ast XsdNode Parse Decode Gen Run Harness Samples GenSpec GenProof1 ReadSpec RustSpec RustCheck PropDecode ApiSpec.

Section Proof.
Context {L : Libs}.
Hypothesis NoSpace : ident_valid " break" = false.
Variable c : schema_ctx.

Lemma escape_called s i : escape_ident s = Ok i -> plain_ident i -> called s i.
Proof.
  unfold escape_ident. destruct (mem String.eqb s escaped_names) eqn:M.
  - unfold format_raw_ident. destruct (mem String.eqb s not_raw); [discriminate|]. destruct (ident_valid s) eqn:V; [|discriminate]. intros [= <-] _. right.
    split; [|reflexivity]. intros P. apply P. assert (M' : s <> " break") by congruence. clear - M M'. apply mem_s_In in M. rename M into I. destruct I as [<-|I]; [now destruct M'|]. revert I. clear. intros I. repeat (destruct I as [<-|I]; [apply mem_s_In; reflexivity|]). destruct I.
  - unfold format_ident. destruct (ident_valid s); [|discriminate]. intros [= <-] P. now left.
Qed.
Lemma content_spec (p : program) (Names : forall id, defined p id -> plain_ident id) fuel : forall ct t, content_to_impl fuel c ct = Ok t -> type_ok p t -> content_type c ct t.
Proof.
  induction fuel as [|fuel IH]; intros ct t H T; destruct ct as [l|n|s]; cbn [content_to_impl] in H;
    try (injection H as <-; constructor; destruct l; simpl; tauto).
  - destruct (sc_get c n) as [[d|ns|d|d]|] eqn:E; try discriminate; (apply bind_ok in H; destruct H as (i & H & K); injection K as <-; inversion T; subst;
      apply ct_named; [intros d0 X; congruence|apply escape_called; auto]).
  - destruct (sc_get c n) as [[d|ns|d|d]|] eqn:E; try (apply bind_ok in H; destruct H as (i & H & K); injection K as <-; inversion T; subst;
      apply ct_named; [intros d0 X; congruence|apply escape_called; auto]).
    eapply ct_alias; [exact E|]. now apply IH.
Qed.

(** ** Enumerations *)
Lemma chars_spec l : name_chars l (filter_map enum_char l).
Proof.
  unfold filter_map. induction l as [|ch l IH]; cbn [flat_map]; [constructor|].
  destruct (String.eqb_spec ch "-") as [->|N1]; [apply (nc_dash "-"); auto|]. destruct (String.eqb_spec ch "_") as [->|N2]; [apply (nc_dash "_"); auto|].
  unfold enum_char at 1. rewrite (proj2 (String.eqb_neq _ _) N1), (proj2 (String.eqb_neq _ _) N2). cbn [orb].
  destruct (char_is_alphanumeric ch) eqn:E3; [now apply nc_keep|now apply nc_drop].
Qed.
Lemma base_readable s : readable s (enum_base_name s).
Proof.
  exists (filter_map enum_char (utf8_chars s)). split; [apply chars_spec|]. cbv zeta. unfold enum_base_name. cbv zeta.
  set (b := to_pascal_case _). destruct (utf8_chars b) as [|ch t] eqn:E.
  - left. split; [|reflexivity]. left. rewrite <- (utf8_chars_concat b), E. reflexivity.
  - destruct (char_is_alphabetic ch) eqn:A; cbn [negb].
    + left. split; [|reflexivity]. right. now exists ch, t.
    + right. split; [intros Z; rewrite Z in E; discriminate|]. split; [|reflexivity]. intros (ch' & t' & E' & A'). rewrite E in E'. injection E' as <- <-. congruence.
Qed.
Lemma fresh_spec taken fuel : forall count v v' count', enum_fresh fuel taken count v = Some (v', count') ->
  (v' = v /\ count' = count /\ v <> "" /\ ~ In v (map fst taken))
  \/ ((v = "" \/ In v (map fst taken)) /\ count < count' /\ v' = numbered count' /\ ~ In (numbered count') (map fst taken) /\ forall i, count < i < count' -> In (numbered i) (map fst taken)).
Proof.
  induction fuel as [|fuel IH]; intros count v v' count' H; cbn [enum_fresh] in H.
  - destruct (is_empty v) eqn:E1; [discriminate|]. destruct (aget String.eqb v taken) eqn:E2; [discriminate|]. injection H as <- <-. left.
    split; [reflexivity|]. split; [reflexivity|]. split; [now intros -> |now apply (aget_None _ String.eqb_eq)].
  - assert (Z : (v <> "" /\ ~ In v (map fst taken) /\ (is_empty v || is_some (aget String.eqb v taken))%bool = false)
      \/ ((v = "" \/ In v (map fst taken)) /\ (is_empty v || is_some (aget String.eqb v taken))%bool = true)).
    { destruct v as [|a v]; [right; split; [now left|reflexivity]|]. cbn [is_empty orb]. destruct (aget String.eqb (String a v) taken) as [x|] eqn:E2.
      - right. split; [|reflexivity]. right. apply (aget_In _ String.eqb_eq), (in_map fst) in E2. exact E2.
      - left. split; [discriminate|]. split; [now apply (aget_None _ String.eqb_eq)|reflexivity]. }
    destruct Z as [(Z1 & Z2 & Z)|(Z1 & Z)]; rewrite Z in H; [injection H as <- <-; now left|]. right. split; [exact Z1|].
    destruct (IH _ _ _ _ H) as [(-> & -> & _ & N)|(U & Lt & -> & N & B)].
    + split; [lia|]. split; [reflexivity|]. split; [exact N|]. intros i Hi. lia.
    + split; [lia|]. split; [reflexivity|]. split; [exact N|]. intros i Hi. destruct (Nat.eq_dec i (S count)) as [->|Ne]; [|apply B; lia].
      destruct U as [U|U]; [discriminate U|exact U].
Qed.
Lemma go_spec names : forall taken count l, escape_enum_go names taken count = Some l ->
  exists l', l = taken ++ l' /\ variants (map fst taken) count names (map (fun e => (fst e, nm (snd e))) l').
Proof.
  induction names as [|n names IH]; intros taken count l H; cbn [escape_enum_go] in H.
  - injection H as <-. exists []. split; [now rewrite app_nil_r|constructor].
  - destruct (enum_fresh _ taken count _) as [[v k]|] eqn:E; [|discriminate].
    assert (A : aget String.eqb v taken = None).
    { apply (aget_None _ String.eqb_eq). destruct (fresh_spec _ _ _ _ _ _ E) as [(-> & _ & _ & N)|(_ & _ & -> & N & _)]; exact N. }
    rewrite aset_fresh in H by exact A. destruct (IH _ _ _ H) as (l' & -> & V). rewrite map_app in V. cbn [map fst] in V.
    exists ((v, n) :: l'). split; [now rewrite <- app_assoc|]. cbn [map fst snd].
    destruct (fresh_spec _ _ _ _ _ _ E) as [(-> & -> & N1 & N2)|(U & Lt & -> & N & B)].
    + apply vs_own; auto using base_readable.
    + eapply vs_numbered; eauto using base_readable.
Qed.
Lemma enum_spec names vs : enum_variants names = Ok vs -> variants [] 0 names vs.
Proof.
  unfold enum_variants, escape_enum_names. destruct (escape_enum_go names [] 0) as [l|] eqn:E; [|discriminate]. intros H.
  destruct (go_spec _ _ _ _ E) as (l' & -> & V). cbn [app] in *. clear E. assert (vs = map (fun e => (fst e, nm (snd e))) l') as ->; [|exact V]. clear V.
  apply mapM_ok in H. induction H as [|e v l' vs H _ IH]; [reflexivity|]. apply bind_ok in H. destruct H as (i & H & K). injection K as <-.
  unfold format_ident in H. destruct (ident_valid (fst e)); [|discriminate]. injection H as <-. cbn [map]. now rewrite IH.
Qed.

(** ** Members *)
Lemma occurs_spec min max t : occurring min max t (wrap_opt (N.eqb min 0) (wrap_vec (max_is_vec max) t)).
Proof.
  assert (V : (max_is_vec max = true /\ ~ once max) \/ (max_is_vec max = false /\ once max)).
  { destruct max as [k|]; cbn [max_is_vec]; [|left; split; [reflexivity|intros [H|H]; discriminate]]. destruct (N.ltb_spec 1 k).
    - left. split; [reflexivity|]. intros [[= ->]|[= ->]]; lia.
    - right. split; [reflexivity|]. assert (E : (k = 0 \/ k = 1)%N) by lia. destruct E as [-> | ->]; [now left|now right]. }
  destruct (N.eqb_spec min 0) as [Z|Z]; destruct V as [[-> V]|[-> V]]; cbn [wrap_opt wrap_vec]; now constructor.
Qed.
Section Module.
Variable p : program.
Hypothesis OK : decls_ok p.
Lemma plain_id id : defined p id -> plain_ident id.
Proof.
  intros D. apply in_map_iff in D. destruct D as (t & <- & I). pose proof (ds_names p OK) as N. rewrite Forall_forall in N. apply (N t I).
Qed.
Lemma inner_ok b b' t : type_ok p (wrap_opt b (wrap_vec b' t)) -> type_ok p t.
Proof. destruct b, b'; cbn; intros H; auto; repeat (inversion H; subst; clear H; rename H1 into H || rename H0 into H); auto. Qed.
Lemma member_spec fuel l f : leaf_to_impl fuel c l = Ok f -> plain_ident (fst f) -> type_ok p (snd f) -> member c l f.
Proof.
  intros H P T. unfold leaf_to_impl in H. apply bind_ok in H. destruct H as (i & H1 & H). apply bind_ok in H. destruct H as (t & H2 & H). injection H as <-. cbn [fst snd] in *.
  split; [now apply escape_called|]. exists t. split; [eapply content_spec; [exact plain_id|exact H2|eapply inner_ok; exact T]|apply occurs_spec].
Qed.
Lemma attribute_spec fuel a f : attr_to_impl fuel c a = Ok f -> plain_ident (fst f) -> type_ok p (snd f) -> attribute_field c a f.
Proof.
  intros H P T. unfold attr_to_impl in H. apply bind_ok in H. destruct H as (i & H1 & H). apply bind_ok in H. destruct H as (t & H2 & H). injection H as <-. cbn [fst snd] in *.
  split; [now apply escape_called|]. exists t. split; [|destruct (a_optional a); reflexivity]. eapply content_spec; [exact plain_id|exact H2|].
  apply (inner_ok (a_optional a) false). exact T.
Qed.
Lemma each_spec {A B} (g : A -> G (string * B)) (P : A -> string * B -> Prop) (T : B -> Prop) l fs :
  (forall a f, g a = Ok f -> plain_ident (fst f) -> T (snd f) -> P a f) -> mapM g l = Ok fs -> Forall plain_ident (map fst fs) -> Forall T (map snd fs) -> Forall2 P l fs.
Proof.
  intros H M. apply mapM_ok in M. induction M as [|a f l fs E M IH]; intros N Ty; [constructor|]. inversion N; inversion Ty; subst. constructor; auto.
Qed.
Lemma decl_spec fuel r d : root_to_declaration fuel c r = Ok d -> decl_ok p d -> declared c r d.
Proof.
  intros H D. destruct r as [ld|names|ed|cd]; cbn [root_to_declaration] in H.
  - apply bind_ok in H. destruct H as (t & H & K). injection K as <-. inversion D; subst. constructor; [eapply content_spec; [exact plain_id|exact H|assumption]|].
    destruct (ld_content ld) as [l|m|s]; (split; [intros X; first [discriminate X|now exists l]|intros [l' X]; first [discriminate X|reflexivity]]).
  - apply bind_ok in H. destruct H as (vs & H & K). injection K as <-. constructor. now apply enum_spec.
  - unfold element_to_impl in H. apply bind_ok in H. destruct H as (fs & H1 & H). apply bind_ok in H. destruct H as (ats & H2 & H). injection H as <-.
    inversion D as [| |fs' (_ & N & T)|]; subst. rewrite !map_app in *. apply Forall_app in N, T. destruct N as [N1 N2], T as [T1 T2]. constructor.
    + destruct (ed_content ed) as [[n b|ls]|]; [| |now injection H1 as <-].
      * apply bind_ok in H1. destruct H1 as (i & H1 & H). apply bind_ok in H. destruct H as (t & H3 & H). injection H as <-. inversion N1; inversion T1; subst.
        exists i, t. split; [reflexivity|]. split; [now apply escape_called|]. eapply content_spec; [exact plain_id|exact H3|assumption].
      * eapply each_spec; [|exact H1|exact N1|exact T1]. apply member_spec.
    + eapply each_spec; [|exact H2|exact N2|exact T2]. apply attribute_spec.
  - apply bind_ok in H. destruct H as (vs & H & K). injection K as <-. inversion D as [| | |vs' _ (_ & N & T)]; subst. constructor.
    eapply each_spec; [|exact H|exact N|exact T]. intros l v G P T'. apply bind_ok in G. destruct G as (i & G1 & G). apply bind_ok in G. destruct G as (t & G2 & G). injection G as <-. cbn [fst snd] in *.
    unfold variant_ident, format_ident in G1. destruct (ident_valid (to_pascal_case (nm (lf_name l)))); [|discriminate]. injection G1 as <-. split; [left; now split|].
    exists t. split; [eapply content_spec; [exact plain_id|exact G2|apply (inner_ok false (lf_is_vec l)); exact T']|]. apply (occurs_spec 1).
Qed.
End Module.
End Proof.

(** C76: each type of the schema gives a type with the name, fields, variants and types as
    ApiSpec.v says. (Identifiers contain no space.) *)
Theorem C76_types : forall (L : Libs) gfuel c gs p, ident_valid " break" = false -> generated gfuel c gs p -> decls_ok p ->
  Forall2 (fun n t => type_called n (ti_id t) /\ exists r, sc_get c n = Some r /\ declared c r (ti_decl t)) gs p.
Proof.
  intros L gfuel c gs p NS [G _] OK. apply mapM_ok in G.
  assert (X : Forall (fun t => plain_ident (ti_id t) /\ decl_ok p (ti_decl t)) p).
  { apply Forall_forall. intros t I. pose proof (ds_names p OK) as N. pose proof (ds_decls p OK) as D. rewrite Forall_forall in N, D. split; [apply (N t I)|now apply D]. }
  revert X. assert (Y : forall q, Forall2 (fun n t => generate_element gfuel c n = Ok t) gs q -> Forall (fun t => plain_ident (ti_id t) /\ decl_ok p (ti_decl t)) q ->
    Forall2 (fun n t => type_called n (ti_id t) /\ exists r, sc_get c n = Some r /\ declared c r (ti_decl t)) gs q); [|intros X; now apply Y].
  intros q F. clear G. induction F as [|n t gs q H F IH]; intros X; [constructor|]. inversion X as [|? ? [P D] X']; subst. constructor; [|auto].
  apply generate_element_inv in H. destruct H as (el & id & d & w & xn & nss & ns & r & lk & E1 & E2 & E3 & _ & _ & _ & _ & _ & _ & ->). cbn [ti_id ti_decl] in *.
  split; [now apply escape_called|]. exists el. split; [exact E1|]. exact (decl_spec NS c p OK gfuel el d E3 D).
Qed.
Print Assumptions C76_types.

(** The description leaves nothing open. *)
Lemma called_once s i j : called s i -> called s j -> i = j.
Proof. intros [[P ->]|[P ->]] [[Q ->]|[Q ->]]; tauto. Qed.
Lemma content_once {L : Libs} c ct t : content_type c ct t -> forall u, content_type c ct u -> t = u.
Proof.
  induction 1 as [l q I|s|n d t G H IH|n i N C]; intros u K; inversion K; subst; auto.
  - f_equal. revert I. destruct l; simpl in *; intuition congruence.
  - apply IH. congruence.
  - exfalso. eapply H1; eauto.
  - exfalso. eapply N; eauto.
  - f_equal. eapply called_once; eauto.
Qed.
Lemma occurring_once min max t u u' : occurring min max t u -> occurring min max t u' -> u = u'.
Proof. intros [A B|A B|A B|A B] [A' B'|A' B'|A' B'|A' B']; tauto. Qed.
Lemma variants_once {L : Libs} used k names vs : variants used k names vs -> forall vs', variants used k names vs' -> vs = vs'.
Proof.
  induction 1 as [used k|used k n v ns vs R N1 N2 V IH|used k n v j ns vs R U Lt N B V IH]; intros vs' K; inversion K as [|used' k' n' v' ns' ws R' N1' N2' V'|used' k' n' v' j' ns' ws R' U' Lt' N' B' V']; subst; auto.
  - apply readable_det in R, R'. assert (v' = v) as -> by congruence. f_equal. now apply IH.
  - exfalso. apply readable_det in R, R'. assert (v' = v) as -> by congruence. tauto.
  - exfalso. apply readable_det in R, R'. assert (v' = v) as -> by congruence. tauto.
  - assert (j' = j) as ->.
    { destruct (Nat.lt_total j j') as [H|[H|H]]; [|now symmetry|]; exfalso; [apply N, B'; lia|apply N', B; lia]. }
    f_equal. now apply IH.
Qed.
Lemma F2_once {A B} (P : A -> B -> Prop) : (forall a b b', P a b -> P a b' -> b = b') -> forall l bs, Forall2 P l bs -> forall bs', Forall2 P l bs' -> bs = bs'.
Proof. intros H l bs F. induction F as [|a b l bs Q F IH]; intros bs' F'; inversion F'; subst; [reflexivity|]. f_equal; eauto. Qed.
Theorem C76_unique : forall (L : Libs) c r d d', declared c r d -> declared c r d' -> d = d'.
Proof.
  intros L c r d d' H K. destruct H as [d0 t b C B|names vs V|d0 fs ats F A|d0 vs F]; inversion K as [d1 t' b' C' B'|names' vs' V'|d1 fs' ats' F' A'|d1 vs' F']; subst.
  - assert (t' = t) as -> by (eapply content_once; eauto). f_equal. destruct b, b'; try reflexivity; exfalso; destruct B as [B1 B2], B' as [B1' B2']; [specialize (B2' (B1 eq_refl))|specialize (B2 (B1' eq_refl))]; discriminate.
  - f_equal. eapply variants_once; eauto.
  - assert (ats' = ats) as ->.
    { eapply F2_once; [|exact A'|exact A]. intros a [i u] [i' u'] (N & t & T & E) (N' & t' & T' & E'). cbn [fst snd] in *. subst u u'. f_equal; [eapply called_once; eauto|].
      now rewrite (content_once _ _ _ T _ T'). }
    do 2 f_equal. destruct (ed_content d0) as [[n b|ls]|].
    + destruct F as (i & t & -> & N & T), F' as (i' & t' & -> & N' & T'). rewrite (content_once _ _ _ T _ T'). rewrite (called_once _ _ _ N N'). reflexivity.
    + eapply F2_once; [|exact F|exact F']. intros l [i u] [i' u'] (N & t & T & O) (N' & t' & T' & O'). cbn [fst snd] in *. f_equal; [eapply called_once; eauto|].
      assert (t' = t) as -> by (eapply content_once; eauto). eapply occurring_once; eauto.
    + congruence.
  - f_equal. eapply F2_once; [|exact F|exact F']. intros l [i u] [i' u'] (N & t & T & O) (N' & t' & T' & O'). cbn [fst snd] in *. f_equal; [eapply called_once; eauto|].
    assert (t' = t) as -> by (eapply content_once; eauto). eapply occurring_once; eauto.
Qed.
Print Assumptions C76_unique.

(** A schema with a keyword as a name, a list, an optional member, an enumeration with
    names that clash or are empty, and a choice. *)
Definition ex_api : xelem :=
  xschema [at_ "targetNamespace" "urn:t"; at_ "elementFormDefault" "qualified"]
    [xs "simpleType" [at_ "name" "level"] [xs "restriction" [at_ "base" "xs:string"]
       (map (fun v => xs "enumeration" [at_ "value" v] []) ["on-line"; "onLine"; "+"; "2nd"])];
     xelement [at_ "name" "self-test"]
      [xcomplex [xsequence
        [xtyped "type" "xs:int";
         xelement ([at_ "name" "whoAmI"; at_ "type" "level"] ++ occ "0" "unbounded") [];
         xs "choice" [] [xtyped "cash" "xs:boolean"; xtyped "card" "xs:decimal"]];
        xs "attribute" [at_ "name" "lang"; at_ "type" "xs:string"] []]]].
Example C76_example : map (fun t => (ti_id t, ti_decl t)) (module_of ex_api)
  = [("Level", DEnum [("OnLine", "on-line"); ("Variant1", "onLine"); ("Variant2", "+"); ("V2Nd", "2nd")]);
     ("SelfTestCa", DChoice [("Cash", TPrim PBool); ("Card", TPrim PDecimal)]);
     ("SelfTest", DStruct [("r#type", TPrim PI32); ("who_am_i", TOpt (TVec (TRef "Level"))); ("ca", TRef "SelfTestCa"); ("lang", TOpt (TPrim PString))])]
  /\ Forall2 (fun n t => type_called n (ti_id t) /\ exists r, sc_get (ctx_of ex_api) n = Some r /\ declared (ctx_of ex_api) r (ti_decl t)) (names_of ex_api) (module_of ex_api).
Proof.
  split; [by_compute|]. apply (C76_types _ 40).
  - reflexivity.
  - split; [by_compute|]. apply nodupb_NoDup. by_compute.
  - assert (H : rust_ok (module_of ex_api)) by (apply rust_accepts; by_compute). apply H.
Qed.
