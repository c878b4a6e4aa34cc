(** * CanonProof2: the encoder on canonical values *)
From Verif Require Import Base Libs Xml Ast Parse Decode Writer Gen Run CursorSpec CursorProof GenSpec GenProof1 GenProof2
  DecSpec DecSim DecProof ReadSpec DecProof1 RepSpec RepProof WriterSpec WriterProof EncSpec EncProof WfSpec WfProof
  WfCheck TotalProof TypeProof CanonSpec CanonProof.

Lemma mapM_app {E A B} (f : A -> res E B) a b : mapM f (a ++ b) = (x <- mapM f a ;; y <- mapM f b ;; Ok (x ++ y)).
Proof.
  induction a as [|x a IH]; simpl; [destruct (mapM f b); reflexivity|].
  destruct (f x); simpl; auto. rewrite IH. destruct (mapM f a); simpl; auto. destruct (mapM f b); simpl; auto.
Qed.
Lemma mapM_fst {E A B C} (f : A -> res E (B * C)) (g : A -> res E B) l r :
  (forall a b, f a = Ok b -> g a = Ok (fst b)) -> mapM f l = Ok r -> mapM g l = Ok (map fst r).
Proof.
  intros H. revert r. induction l as [|a l IH]; intros r E0; simpl in *; [injection E0 as <-; reflexivity|].
  apply bind_ok in E0. destruct E0 as (b & E1 & E0). apply bind_ok in E0. destruct E0 as (r' & E2 & E0). injection E0 as <-.
  rewrite (H _ _ E1). simpl. rewrite (IH _ E2). reflexivity.
Qed.

Section Resolve.
Context {L : Libs}.
Variable c : schema_ctx.
Lemma resolve_literal ct l : final c ct (LcLiteral l) -> forall m fuel r, ct = LcNamed m -> resolve fuel c m = Some r ->
  exists x y, r = Some (RootLeaf (mkLeafDef (LcLiteral l) x y)).
Proof.
  intros H. remember (LcLiteral l) as e. induction H as [lit|s|m N|m d ct G F IH]; intros m0 fuel r E R; try discriminate.
  injection E as <-. unfold resolve in R. rewrite G in R. destruct d as [ct0 x y]. simpl in *. destruct ct0 as [l0|m1|s0].
  - subst ct. inversion F; subst. simpl in R. destruct fuel; injection R as <-; eauto.
  - destruct fuel as [|fuel]; [discriminate|]. simpl in R. eapply IH; eauto.
  - subst ct. inversion F.
Qed.
Lemma literal_resolved fuel : forall m l x y, resolve fuel c m = Some (Some (RootLeaf (mkLeafDef (LcLiteral l) x y))) ->
  final c (LcNamed m) (LcLiteral l).
Proof.
  unfold resolve. induction fuel as [|fuel IH]; intros m l x y H.
  - destruct (sc_get c m) as [[[[] ? ?]|ns|d|d]|] eqn:G; simpl in H; try discriminate. injection H as -> -> ->.
    eapply fi_alias; [exact G|constructor].
  - destruct (sc_get c m) as [[[[] ? ?]|ns|d|d]|] eqn:G; simpl in H; try discriminate.
    + injection H as -> -> ->. eapply fi_alias; [exact G|constructor].
    + eapply fi_alias; [exact G|]. simpl. eapply IH; eauto.
Qed.
End Resolve.

Section Main.
Context {L : Libs}.
Variables (gfuel : nat) (c : schema_ctx) (gs : list name) (p : program).
Hypothesis Hg : generated gfuel c gs p.
Variable vn : bool.
Variable nss : list (string * string).
Variable K : nat.
Hypothesis Hnss : written_nss c = Some nss.
Hypothesis Hdecl : decls_ok nss = true.
Hypothesis Henc : each_root c gs (fun _ r => enc_root c gs nss K r) = true.

Notation prod := (prod nss).
Notation wt := (write_type p).
Notation rep_content := (rep_content c gs appended exactly (counted vn)).
Notation rep_sub := (rep_sub c gs appended exactly (counted vn)).
Notation rep_root := (rep_root c gs appended exactly (counted vn)).
Notation rep_fields := (rep_fields c gs appended exactly (counted vn)).
Notation rep_leaves := (rep_leaves c gs appended exactly (counted vn)).
Notation rep_leaf := (rep_leaf c gs appended exactly (counted vn)).
Notation rep_groups := (rep_groups c gs appended exactly (counted vn)).
Notation rep_run := (rep_run c gs appended exactly (counted vn)).
Notation rep_variant := (rep_variant c gs appended exactly (counted vn)).

Lemma via_type m n : via c gs m = Some n -> exists m' r, final c (LcNamed m) (LcNamed m') /\ type_of c gs m' n r.
Proof.
  unfold via. destruct (final_b c (chain_fuel c) (LcNamed m)) as [[x|m'|x]|] eqn:F; try discriminate.
  destruct (type_b c gs m') as [[n' r]|] eqn:T; [|discriminate]. intros H. injection H as <-.
  exists m', r. split; [eapply final_b_ok; eassumption|now apply type_b_ok].
Qed.
Lemma name_b_ok xn n : name_b c nss (Some xn) n = true -> exists ns, quote_xml_namespace c n = Some ns /\ expand_elem nss xn = Some (nm n, ns).
Proof.
  unfold name_b. destruct (quote_xml_namespace c n) as [ns|]; [|discriminate].
  destruct (expand_elem nss xn) as [[t ns']|]; [|discriminate]. rewrite andb_true_iff, String.eqb_eq, opt_s_eq.
  intros [-> ->]. eauto.
Qed.
Lemma same_type m n r n' r' : type_of c gs m n r -> type_of c gs m n' r' -> n = n' /\ r = r'.
Proof.
  intros (I & G & id & A & B) (I' & G' & id' & A' & B').
  assert (n = n') by (eapply (same_ident gfuel c gs p Hg); eauto; congruence). subst. split; congruence.
Qed.

(** ** Attributes *)
Definition with_attrs (A : list (string * string)) (ctx : wctx) : wctx :=
  mkWctx (wc_virtual ctx) (mkInner (in_name (wc_inner ctx)) (in_attrs (wc_inner ctx) ++ A) (in_ns (wc_inner ctx))).
Lemma shown_converts ct v s : shown_attr c gs ct v s -> converts c gs ct s (Ok v).
Proof.
  destruct 1 as [lit v s E H|s|m s A|m m' n names vs x s F T E As Fr].
  - rewrite <- H. constructor.
  - constructor.
  - now constructor.
  - rewrite <- Fr. eapply cv_enum; eauto.
Qed.
Lemma shown_string t a f ty v s : attr_to_impl gfuel c a = Ok (f, ty) -> field_type t f = Some (strip_opt ty) ->
  shown_attr c gs (a_content a) v s ->
  match (match a_content a with LcFixed s => Some s | _ => None end) with
  | Some s => Ok s
  | None => attr_to_string p v (field_type t f)
  end = Ok s.
Proof.
  intros Ea Ft Sh. rewrite Ft. clear Ft. remember (a_content a) as ct eqn:Ec.
  unfold attr_to_impl in Ea. apply bind_ok in Ea. destruct Ea as (f0 & Ef & Ea). apply bind_ok in Ea. destruct Ea as (ty0 & Et & Ea).
  injection Ea as <- <-. rewrite <- Ec in Et. apply content_ty in Et. destruct Et as (ct' & F' & Ty).
  assert (Sx : strip_opt (wrap_opt (a_optional a) ty0) = ty0) by (inversion Ty; destruct (a_optional a); reflexivity).
  rewrite Sx. clear Sx.
  destruct Sh as [lit v s E H|s|m s A|m m' n names vs x s F T E As Fr]; auto.
  - rewrite (final_det _ _ _ _ F' (fi_lit _ lit)) in Ty. inversion Ty; subst. unfold attr_to_string. now rewrite E.
  - destruct A as (lit & F & _). rewrite (final_det _ _ _ _ F' F) in Ty. inversion Ty; subst. reflexivity.
  - rewrite (final_det _ _ _ _ F' F) in Ty. inversion Ty as [| |m0 id Ei]; subst. destruct T as (I & G & id' & E1 & E2).
    destruct (gen_item _ _ _ _ Hg n _ I G) as (ti & It & Lk).
    assert (id = ti_id ti) as -> by (pose proof (it_id _ _ _ _ _ _ It); congruence).
    unfold attr_to_string. rewrite Lk. pose proof (it_decl _ _ _ _ _ _ It) as D. simpl in D.
    rewrite E in D. simpl in D. injection D as <-. now rewrite As.
Qed.

Definition names_of (ats : list attribute) : list string := map (fun a => nm (a_name a)) ats.
Lemma attrs_write t self ats avs was : canon_attrs c gs ats avs -> mapM (attr_to_xml c) ats = Ok was ->
  forallb (plain_attr_b c) ats = true -> NoDup (names_of ats) ->
  (forall i v, In (i, v) avs -> vfield self i = Ok v) ->
  (forall a f ty, In a ats -> attr_to_impl gfuel c a = Ok (f, ty) -> field_type t f = Some (strip_opt ty)) ->
  (forall a, In a ats -> exists fty, attr_to_impl gfuel c a = Ok fty) ->
  exists A, (forall ctx, write_attrs p t was self ctx = Ok (with_attrs A ctx)) /\
    incl (map fst A) (names_of ats) /\ NoDup (map fst A) /\ Forall (fun nv => attr_ok (snd nv)) A /\
    (forall e, (forall q, In q (names_of ats) -> d_attribute e q = aget String.eqb q A) -> rep_attrs c gs ats avs e).
Proof.
  intros Cn. revert was. induction Cn as [|a [i v] ats avs [Ei Ca] Cn IH]; intros was Em Pl Nd Vf Ft Ex.
  - injection Em as <-. exists []. repeat split; try constructor; auto.
    + intros ctx. destruct ctx as [vt [n0 a0 ns0]]. unfold with_attrs. simpl. now rewrite app_nil_r.
    + intros x [].
  - simpl in Em. apply bind_ok in Em. destruct Em as (w & Ew & Em). apply bind_ok in Em. destruct Em as (was' & Em' & Em).
    injection Em as <-. simpl in Pl. apply andb_true_iff in Pl. destruct Pl as [Pa Pl]. simpl in Nd. inversion Nd as [|? ? Na Nd']; subst.
    destruct (IH was' Em' Pl Nd') as (A & W & Inc & NA & Ok' & Rp).
    { intros j u Iu. apply Vf. now right. } { intros b f ty Ib. apply Ft. now right. } { intros b Ib. apply Ex. now right. }
    simpl in Ei, Ca. specialize (Vf i v (or_introl eq_refl)).
    destruct (Ex a (or_introl eq_refl)) as ([f ty] & Ea). pose proof (Ft _ _ _ (or_introl eq_refl) Ea) as Fa.
    unfold attr_to_xml in Ew. apply bind_ok in Ew. destruct Ew as (f' & Ef & Ew). apply bind_ok in Ew. destruct Ew as (xn & Exn & Ew).
    injection Ew as <-. rewrite Ei in Ef. injection Ef as <-.
    assert (f = i) as -> by (unfold attr_to_impl in Ea; rewrite Ei in Ea; simpl in Ea; apply bind_ok in Ea; destruct Ea as (? & _ & Ea); congruence).
    unfold plain_attr_b in Pa. unfold xml_name_of in Exn. destruct (get_xml_element_name c (a_name a)) as [xn'|]; [|discriminate].
    injection Exn as ->. rewrite !andb_true_iff in Pa. destruct Pa as [[[Pn Pc] Pi] Px]. apply String.eqb_eq in Pn. subst xn.
    assert (Hn : ~ In (nm (a_name a)) (map fst A)) by (intros X; apply Na, Inc, X).
    assert (Cons : forall s, shown_attr c gs (a_content a) v s \/ (exists v', v = VSome v' /\ shown_attr c gs (a_content a) v' s) ->
      attr_ok s -> (forall ctx, write_attr p t (mkWa i (a_optional a) (nm (a_name a)) (match a_content a with LcFixed s => Some s | _ => None end)) self ctx
                   = Ok (set_attr (nm (a_name a)) s ctx)) ->
      (forall e, d_attribute e (nm (a_name a)) = Some s -> rep_attr c gs a v e) ->
      exists A, (forall ctx, write_attrs p t (mkWa i (a_optional a) (nm (a_name a)) (match a_content a with LcFixed s => Some s | _ => None end) :: was') self ctx = Ok (with_attrs A ctx)) /\
        incl (map fst A) (names_of (a :: ats)) /\ NoDup (map fst A) /\ Forall (fun nv => attr_ok (snd nv)) A /\
        (forall e, (forall q, In q (names_of (a :: ats)) -> d_attribute e q = aget String.eqb q A) -> rep_attrs c gs (a :: ats) ((i, v) :: avs) e)).
    { intros s _ As Wa Ra. exists ((nm (a_name a), s) :: A). split; [|split; [|split; [|split]]].
      - intros ctx. simpl. rewrite Wa. simpl. rewrite W. unfold with_attrs. simpl. now rewrite <- app_assoc.
      - intros x [<-|Ix]; [now left|right; auto].
      - simpl. constructor; auto.
      - constructor; auto.
      - intros e He. constructor.
        + simpl. split; [exact Ei|]. apply Ra. rewrite (He _ (or_introl eq_refl)). simpl. now rewrite String.eqb_refl.
        + apply Rp. intros q Iq. rewrite (He q (or_intror Iq)). simpl. destruct (q =?s nm (a_name a)) eqn:E; auto.
          apply String.eqb_eq in E. subst q. contradiction. }
    inversion Ca as [a0 Op|a0 v' s Op Sh As|a0 v' s Op Sh As]; subst.
    + exists A. split; [|split; [|split; [|split]]]; auto.
      * intros ctx. simpl. unfold write_attr. simpl. rewrite Vf. simpl. rewrite Op. simpl. apply W.
      * intros x Ix. right. auto.
      * intros e He. constructor.
        -- simpl. split; [exact Ei|]. apply pa_absent; auto. rewrite (He _ (or_introl eq_refl)). now apply aget_none_s.
        -- apply Rp. intros q Iq. apply He. now right.
    + apply (Cons s); auto.
      * right. eauto.
      * intros ctx. unfold write_attr. simpl. rewrite Vf. simpl. rewrite Op. rewrite (shown_string t a i ty v' s Ea Fa Sh). reflexivity.
      * intros e He. eapply pa_opt; eauto. now apply shown_converts.
    + apply (Cons s); auto.
      * intros ctx. unfold write_attr. simpl. rewrite Vf. simpl. rewrite Op. rewrite (shown_string t a i ty v s Ea Fa Sh). reflexivity.
      * intros e He. eapply pa_req; eauto. now apply shown_converts.
Qed.

(** ** What is shown by induction on the value *)
Definition agrees (D : list string) (A : list (string * string)) (e : xelem) : Prop :=
  forall q, In q D -> d_attribute e q = aget String.eqb q A.
Definition fresh (ctx : wctx) : Prop :=
  wc_virtual ctx = false /\ (in_ns (wc_inner ctx) = [] \/ in_ns (wc_inner ctx) = nss).

Definition E_tagged n r v : Prop := forall k D id, chain c gs k n = Some D -> NoDup D -> type_ident n = Ok id ->
  exists A evs ks ks' N,
    (forall fuel, N <= fuel -> forall ctx, fresh ctx -> exists i,
       wt fuel id v ctx = Ok (EvStart (in_name (wc_inner ctx)) (in_attrs (wc_inner ctx) ++ A) nss :: evs ++ [EvEnd], i)) /\
    incl (map fst A) D /\ Forall plain_name (map fst A) /\ NoDup (map fst A) /\ Forall (fun nv => attr_ok (snd nv)) A /\
    prod evs ks /\ texts_back (merge_text ks) = Some ks' /\
    (forall e, agrees D A e -> indented_kids ks' (xe_kids e) -> rep_root n r v e (xe_children e)).
Definition E_group n r v : Prop := forall id, type_ident n = Ok id -> group_shape r = true ->
  exists evs l N,
    (forall fuel, N <= fuel -> forall ctx, wc_virtual ctx = true \/ virtual_root r = true -> exists i,
       wt fuel id v ctx = Ok (evs, i)) /\
    prod evs (map KElem l) /\ (forall e l', indented_all l l' -> rep_root n r v e l').
Definition E_root n r v : Prop := In n gs -> sc_get c n = Some r -> E_tagged n r v /\ E_group n r v.

Definition E_content ct v : Prop :=
  (exists lit s, final c ct (LcLiteral lit) /\ value_to_string v = Some s /\ lit_from_str lit s = Ok v /\ text_ok s) \/
  (exists s, final c ct (LcFixed s) /\ v = VUnit /\ text_ok s) \/
  (exists m n r, final c ct (LcNamed m) /\ type_of c gs m n r /\ E_tagged n r v /\ E_group n r v).
Definition E_leaf f v : Prop := forall w, leaf_to_xml gfuel c f = Ok w -> enc_leaf c gs nss K f = true ->
  exists evs l N,
    (forall fuel, N <= fuel -> forall self ctx, vfield self (wf_field w) = Ok v -> exists ctx',
       write_leaf (wt fuel) w self ctx = Ok (evs, ctx')) /\
    prod evs (map KElem l) /\ (forall e l', indented_all l l' -> rep_leaf f v e l').
Definition E_leaves ls vs : Prop := mapM field_ident (map lf_name ls) = Ok (map fst vs) /\ forall ws, mapM (leaf_to_xml gfuel c) ls = Ok ws -> forallb (enc_leaf c gs nss K) ls = true ->
  exists evs l N,
    (forall fuel, N <= fuel -> forall self ctx, (forall i v, In (i, v) vs -> vfield self i = Ok v) -> exists ctx',
       write_leaves (wt fuel) ws self ctx = Ok (evs, ctx')) /\
    prod evs (map KElem l) /\ (forall e l', indented_all l l' -> rep_leaves ls vs e l').
Definition E_fields (ec : option element_content) (vs : list (string * value)) : Prop :=
  match ec with
  | None => vs = []
  | Some (EcLeaf n d) => exists f v, vs = [(f, v)] /\ field_ident n = Ok f /\ E_content (ld_content d) v
  | Some (EcLeaves ls) => E_leaves ls vs
  end.
Definition E_each ct vs : Prop := Forall (E_content ct) vs.
Definition E_variant f w : Prop :=
  (lf_is_vec f = false /\ E_content (ld_content (lf_def f)) w) \/
  (exists v vs, w = VVec (v :: vs) /\ lf_is_vec f = true /\ E_each (ld_content (lf_def f)) (v :: vs)).

(** ** Text *)
Lemma wx_text ct x v : content_to_xml gfuel c ct = Ok x ->
  (exists lit s, final c ct (LcLiteral lit) /\ value_to_string v = Some s /\ lit_from_str lit s = Ok v /\ text_ok s) \/
  (exists s, final c ct (LcFixed s) /\ v = VUnit /\ text_ok s) ->
  exists evs ks s, (forall fuel ctx, write_wx (wt fuel) x v ctx = Ok (evs, wc_inner ctx)) /\ prod evs ks /\
    texts_back (merge_text ks) = Some (tks s) /\
    (forall e, xe_kids e = tks s -> rep_content ct v e (xe_children e) /\ xe_children e = []).
Proof.
  intros Ex H. apply content_wx in Ex. destruct Ex as (ct' & F & X). destruct H as [(lit & s & Fl & Sv & Lv & T)|(s & Fl & -> & T)];
    rewrite (final_det _ _ _ _ F Fl) in X; inversion X; subst.
  - exists (if is_empty s then [] else [EvChars s]), (tks s), s. split; [|split; [|split]].
    + intros fuel ctx. simpl. now rewrite Sv.
    + apply prod_text.
    + now apply close_text.
    + intros e He. rewrite (children_tks _ _ He). split; [|reflexivity]. eapply pc_lit; eauto. now apply d_text_tks.
  - exists [EvChars s], [KText s], s. split; [|split; [|split]].
    + intros fuel ctx. reflexivity.
    + apply prod_chars.
    + now apply close_fixed.
    + intros e He. rewrite (children_tks _ _ He). split; [|reflexivity]. eapply pc_fixed; eauto. now apply d_text_tks.
Qed.
Lemma wx_call ct x m : content_to_xml gfuel c ct = Ok x -> final c ct (LcNamed m) -> exists id, x = WxCall id /\ type_ident m = Ok id.
Proof.
  intros Ex F. apply content_wx in Ex. destruct Ex as (ct' & F' & X). rewrite (final_det _ _ _ _ F' F) in X.
  inversion X; subst. eauto.
Qed.

(** ** An element of its own *)
Definition one_elem (xn : string) (n : name) ct v (evs : list event) (x : xelem) : Prop :=
  prod evs [KElem x] /\ exists ns, quote_xml_namespace c n = Some ns /\
    (forall x', indented x x' -> matches (nm n) ns x' /\ rep_sub ct v x').

Lemma text_elem xn n ct v evs ks s : name_b c nss (Some xn) n = true -> prod evs ks ->
  texts_back (merge_text ks) = Some (tks s) ->
  (forall e, xe_kids e = tks s -> rep_content ct v e (xe_children e) /\ xe_children e = []) ->
  exists x, one_elem xn n ct v (EvStart xn [] [] :: evs ++ [EvEnd]) x.
Proof.
  intros Nb P C R. apply name_b_ok in Nb. destruct Nb as (ns & Q & E). exists (elem_of (nm n) ns [] (tks s)). split.
  - eapply prod_elem; eauto.
  - exists ns. split; auto. intros x' Hx. inversion Hx as [t ns' ats ats' ss ss' r r' kk kk' Ea Hk]; subst.
    apply indented_refl_text in Hk; [|apply elems_tks]. subst kk'. split; [split; reflexivity|].
    destruct (R (XE (nm n) ns ats' ss' r' (tks s)) eq_refl) as [R1 R2]. eapply pb_sub; [exact R1|]. reflexivity.
Qed.
Lemma call_elem xn n ct m v n' r' k : name_b c nss (Some xn) n = true -> final c ct (LcNamed m) -> type_of c gs m n' r' ->
  E_tagged n' r' v -> tagged_b c gs k n' = true -> forall id, type_ident m = Ok id ->
  exists evs x N, (forall fuel, N <= fuel -> exists i, wt fuel id v (ctx_create xn) = Ok (evs, i)) /\ one_elem xn n ct v evs x.
Proof.
  intros Nb F T Et Tg id Ei. unfold tagged_b in Tg. destruct (chain c gs k n') as [D|] eqn:Ch; [|discriminate].
  apply nodup_s in Tg. pose proof T as (I & G & id' & E1 & E2). rewrite Ei in E1. injection E1 as <-.
  destruct (Et _ _ _ Ch Tg E2) as (A & evs & ks & ks' & N & W & Inc & Pl & Nd & Oks & P & C & R).
  apply name_b_ok in Nb. destruct Nb as (ns & Q & E).
  destruct (expand_plain A Pl Oks Nd) as (ats & Xa & Ra).
  exists (EvStart xn A nss :: evs ++ [EvEnd]), (elem_of (nm n) ns ats ks'), N. split.
  - intros fuel Hf. destruct (W fuel Hf (ctx_create xn)) as (i & Wi); [split; [reflexivity|now left]|]. exists i. exact Wi.
  - split.
    + eapply prod_elem; eauto.
    + exists ns. split; auto. intros x' Hx. inversion Hx as [t ns' at1 at2 ss ss' r r2 kk kk' Ea Hk]; subst.
      split; [split; reflexivity|]. eapply pb_sub; [|reflexivity]. eapply pc_named; eauto. apply R; [|exact Hk].
      intros q _. unfold d_attribute. simpl. rewrite <- (key_attribute _ _ q Ea). apply Ra.
Qed.
Lemma matches_one x n ns x' : indented x x' -> matches n ns x -> matches n ns x'.
Proof. intros H [A B]. inversion H; subst. split; reflexivity. Qed.

Lemma leaf_parts f w : leaf_to_xml gfuel c f = Ok w ->
  field_ident (lf_name f) = Ok (wf_field w) /\ wf_opt w = lf_is_optional f /\ wf_vec w = lf_is_vec f /\
  content_to_xml gfuel c (ld_content (lf_def f)) = Ok (wf_x w) /\ leaf_wrap gfuel c f = Ok (wf_wrap w) /\
  exists xn, xml_name_of c (lf_name f) = Ok xn /\ wf_new w = (if lf_virtual f then None else Some xn).
Proof.
  unfold leaf_to_xml. intros H. apply bind_ok in H. destruct H as (i & Ei & H). apply bind_ok in H. destruct H as (xn & Ex & H).
  apply bind_ok in H. destruct H as (x & Ec & H). apply bind_ok in H. destruct H as (b & Eb & H). injection H as <-. simpl.
  repeat split; auto. exists xn. auto.
Qed.

(** One occurrence of a member. *)
Definition E_one f v : Prop := forall w, leaf_to_xml gfuel c f = Ok w -> enc_leaf c gs nss K f = true ->
  exists evs l N,
    (forall fuel, N <= fuel -> forall ctx, exists ctx', write_leaf_one (wt fuel) w v ctx = Ok (evs, ctx')) /\
    prod evs (map KElem l) /\
    (lf_virtual f = true -> forall e l', indented_all l l' -> rep_content (ld_content (lf_def f)) v e l') /\
    (lf_virtual f = false -> exists x ns, l = [x] /\ quote_xml_namespace c (lf_name f) = Some ns /\
       forall x', indented x x' -> matches (nm (lf_name f)) ns x' /\ rep_sub (ld_content (lf_def f)) v x').
Lemma one_ok f v : E_content (ld_content (lf_def f)) v -> E_one f v.
Proof.
  intros Ec w Hw He. destruct (leaf_parts _ _ Hw) as (Ei & Eo & Ev & Ex & Eb & xn & En & Ew). unfold enc_leaf in He.
  destruct (lf_virtual f) eqn:Vf.
  - destruct (ld_content (lf_def f)) as [l|m|l] eqn:Cf; try discriminate. apply andb_true_iff in He. destruct He as [Gb Gs].
    apply is_group_b_ok in Gb. destruct (group_type _ _ _ Gb) as (r & G & T & _). rewrite G in Gs.
    pose proof (group_final_self _ _ _ Gb) as Fg.
    destruct Ec as [(lit & s & Fl & _)|[(s & Fl & _)|(m' & n & r' & Fl & T' & _ & Eg)]];
      pose proof (final_det _ _ _ _ Fl Fg) as X; try discriminate. injection X as ->.
    destruct (same_type _ _ _ _ _ T T') as [<- <-]. destruct (wx_call _ _ _ Ex Fg) as (id & Exx & Eid).
    destruct (Eg id Eid Gs) as (evs & l & N & W & P & R). exists evs, l, N. split; [|split; [|split]]; auto; [| |discriminate].
    + intros fuel Hf ctx. destruct (W fuel Hf (ctx_wrap ctx)) as (i & Wi); [now left|].
      unfold write_leaf_one. rewrite Ew, Exx. unfold leaf_wrap in Eb. rewrite Vf in Eb. injection Eb as <-. simpl. rewrite Wi. simpl. eauto.
    + intros _ e l' Hl. eapply pc_named; eauto.
  - apply andb_true_iff in He. destruct He as [Nb He].
    assert (Nb' : name_b c nss (Some xn) (lf_name f) = true).
    { unfold xml_name_of in En. destruct (get_xml_element_name c (lf_name f)); [|discriminate]. injection En as <-. exact Nb. }
    assert (Text : wf_wrap w = true ->
      ((exists lit s, final c (ld_content (lf_def f)) (LcLiteral lit) /\ value_to_string v = Some s /\ lit_from_str lit s = Ok v /\ text_ok s) \/
       (exists s, final c (ld_content (lf_def f)) (LcFixed s) /\ v = VUnit /\ text_ok s)) ->
      exists evs l N,
    (forall fuel, N <= fuel -> forall ctx, exists ctx', write_leaf_one (wt fuel) w v ctx = Ok (evs, ctx')) /\
    prod evs (map KElem l) /\
    (false = true -> forall e l', indented_all l l' -> rep_content (ld_content (lf_def f)) v e l') /\
    (false = false -> exists x ns, l = [x] /\ quote_xml_namespace c (lf_name f) = Some ns /\
       forall x', indented x x' -> matches (nm (lf_name f)) ns x' /\ rep_sub (ld_content (lf_def f)) v x')).
    { intros Wr Ht. destruct (wx_text _ _ _ Ex Ht) as (evs & ks & s & Wx & P & C & R).
      destruct (text_elem _ _ _ _ _ _ _ Nb' P C R) as (x & Px & ns & Q & Rx).
      exists (EvStart xn [] [] :: evs ++ [EvEnd]), [x], 0. split; [|split; [exact Px|split; [discriminate|]]].
      - intros fuel _ ctx. unfold write_leaf_one. rewrite Ew, Wr. simpl. rewrite Wx. simpl. eauto.
      - intros _. exists x, ns. auto. }
    destruct Ec as [Ec|[Ec|(m' & n & r' & Fl & T' & Et & _)]].
    + apply Text; auto. destruct Ec as (lit & s & Fl & _). unfold leaf_wrap in Eb. rewrite Vf in Eb.
      destruct (ld_content (lf_def f)) as [l|m|l]; try (injection Eb as <-; reflexivity).
      destruct (resolve gfuel c m) as [r|] eqn:Rs; [|discriminate].
      destruct (resolve_literal _ _ _ Fl _ _ _ eq_refl Rs) as (y & z & ->). now injection Eb.
    + apply Text; auto. destruct Ec as (s & Fl & _). unfold leaf_wrap in Eb. rewrite Vf in Eb.
      destruct (ld_content (lf_def f)) as [l|m|l] eqn:Cf; try (injection Eb as <-; reflexivity). exfalso.
      unfold via_tagged_b, via in He. destruct (final_b c (chain_fuel c) (LcNamed m)) as [ct'|] eqn:Fb; [|discriminate].
      apply final_b_ok in Fb. rewrite (final_det _ _ _ _ Fb Fl) in He. discriminate.
    + destruct (ld_content (lf_def f)) as [l|m|l] eqn:Cf; try (inversion Fl; fail).
      unfold via_tagged_b, via in He. destruct (final_b c (chain_fuel c) (LcNamed m)) as [ct'|] eqn:Fb; [|discriminate].
      apply final_b_ok in Fb. rewrite (final_det _ _ _ _ Fb Fl) in He.
      destruct (type_b c gs m') as [[n2 r2]|] eqn:Tb; [|discriminate]. apply type_b_ok in Tb. simpl in He.
      destruct (same_type _ _ _ _ _ T' Tb) as [<- <-].
      destruct (wx_call _ _ _ Ex Fl) as (id & Exx & Eid).
      destruct (call_elem _ _ _ _ _ _ _ _ Nb' Fl T' Et He _ Eid) as (evs & x & N & W & P & ns & Q & R).
      exists evs, [x], N. split; [|split; [exact P|split; [discriminate|]]].
      * intros fuel Hf ctx. destruct (W fuel Hf) as (i & Wi). unfold write_leaf_one. rewrite Ew, Exx.
        assert (wf_wrap w = false) as ->.
        { unfold leaf_wrap in Eb. rewrite Vf, Cf in Eb. destruct (resolve gfuel c m) as [[[[[]]| | |]|]|] eqn:Rs; try (injection Eb as <-; reflexivity); [|discriminate].
          apply literal_resolved in Rs. pose proof (final_det _ _ _ _ Rs Fl). discriminate. }
        simpl. rewrite Wi. simpl. eauto.
      * intros _. exists x, ns. auto.
Qed.

(** ** Members *)
Lemma all_one x l : indented_all [x] l -> exists x', l = [x'] /\ indented x x'.
Proof. intros H. inversion H as [|? x' ? xs' Hx Hxs]; subst. inversion Hxs; subst. eauto. Qed.

Lemma each_ok f w vs : Forall (E_content (ld_content (lf_def f))) vs -> leaf_to_xml gfuel c f = Ok w ->
  enc_leaf c gs nss K f = true ->
  exists evs l N,
    (forall fuel, N <= fuel -> forall ctx, exists ctx', write_each (wt fuel) w vs ctx = Ok (evs, ctx')) /\
    prod evs (map KElem l) /\
    (lf_virtual f = true -> forall e l', indented_all l l' -> rep_groups (ld_content (lf_def f)) vs e l') /\
    (lf_virtual f = false -> vs <> [] -> exists ns, quote_xml_namespace c (lf_name f) = Some ns /\
       forall l', indented_all l l' -> rep_run (nm (lf_name f)) ns (ld_content (lf_def f)) vs l') /\
    (vs = [] -> l = []).
Proof.
  intros F Hw He. induction F as [|v vs Ev F (evs & l & N & W & P & Rg & Rr & Nil)].
  - exists [], [], 0. split; [intros; simpl; eauto|]. split; [apply prod_nil|]. split; [|split; [congruence|auto]].
    intros _ e l' H. inversion H; subst. constructor.
  - destruct (one_ok f v Ev w Hw He) as (evs1 & l1 & N1 & W1 & P1 & Rv & Rp).
    exists (evs1 ++ evs), (l1 ++ l), (N1 + N). split; [|split; [|split; [|split]]].
    + intros fuel Hf ctx. destruct (W1 fuel ltac:(lia) ctx) as (c1 & E1). destruct (W fuel ltac:(lia) c1) as (c2 & E2).
      exists c2. simpl. rewrite E1. simpl. rewrite E2. reflexivity.
    + rewrite map_app. now apply prod_app.
    + intros Vf e l' H. apply indented_all_app in H. destruct H as (a' & b' & -> & Ha & Hb). econstructor; [apply (Rv Vf); eauto|apply (Rg Vf); eauto|reflexivity].
    + intros Vf _. destruct (Rp Vf) as (x & ns & -> & Q & Rx). exists ns. split; auto. intros l' H.
      inversion H as [|? x' ? xs' Hx Hxs]; subst. destruct (Rx _ Hx) as [M S]. constructor; auto.
      destruct vs as [|v' vs'].
      * rewrite (Nil eq_refl) in Hxs. inversion Hxs; subst. constructor.
      * destruct (Rr Vf ltac:(discriminate)) as (ns' & Q' & R'). rewrite Q in Q'. injection Q' as <-. auto.
    + discriminate.
Qed.

Lemma leaf_quote f : enc_leaf c gs nss K f = true -> lf_virtual f = false -> exists ns, quote_xml_namespace c (lf_name f) = Some ns.
Proof.
  unfold enc_leaf. intros H V. rewrite V in H. apply andb_true_iff in H. destruct H as [H _].
  destruct (get_xml_element_name c (lf_name f)); [|discriminate]. apply name_b_ok in H. destruct H as (ns & Q & _). eauto.
Qed.

Lemma leaf_one f v : lf_is_vec f = false -> lf_is_optional f = false -> E_content (ld_content (lf_def f)) v -> E_leaf f v.
Proof.
  intros Vc Op Ec w Hw He. destruct (one_ok f v Ec w Hw He) as (evs & l & N & W & P & Rv & Rp).
  destruct (leaf_parts _ _ Hw) as (Ei & Eo & Ev & _). exists evs, l, N. split; [|split; [exact P|]].
  - intros fuel Hf self ctx Vs. unfold write_leaf. rewrite Vs, Eo, Ev, Op, Vc. simpl. apply W, Hf.
  - intros e l' H. destruct (lf_virtual f) eqn:Vf.
    + apply pl_group; auto.
    + destruct (Rp eq_refl) as (x & ns & -> & Q & Rx). apply all_one in H. destruct H as (x' & -> & Hx).
      destruct (Rx _ Hx). eapply pl_one; eauto.
Qed.
Lemma leaf_none f : lf_is_vec f = false -> lf_is_optional f = true -> E_leaf f VNone.
Proof.
  intros Vc Op w Hw He. destruct (leaf_parts _ _ Hw) as (Ei & Eo & Ev & _). exists [], [], 0. split; [|split; [apply prod_nil|]].
  - intros fuel Hf self ctx Vs. unfold write_leaf. rewrite Vs, Eo, Op. simpl. eauto.
  - intros e l' H. inversion H; subst. destruct (lf_virtual f) eqn:Vf; [apply pl_group_no|apply pl_none]; auto.
Qed.
Lemma leaf_some f v : lf_is_vec f = false -> lf_is_optional f = true -> E_content (ld_content (lf_def f)) v -> E_leaf f (VSome v).
Proof.
  intros Vc Op Ec w Hw He. destruct (one_ok f v Ec w Hw He) as (evs & l & N & W & P & Rv & Rp).
  destruct (leaf_parts _ _ Hw) as (Ei & Eo & Ev & _). exists evs, l, N. split; [|split; [exact P|]].
  - intros fuel Hf self ctx Vs. unfold write_leaf. rewrite Vs, Eo, Ev, Op, Vc. simpl. apply W, Hf.
  - intros e l' H. destruct (lf_virtual f) eqn:Vf.
    + apply pl_group_yes; auto.
    + destruct (Rp eq_refl) as (x & ns & -> & Q & Rx). apply all_one in H. destruct H as (x' & -> & Hx).
      destruct (Rx _ Hx). eapply pl_some; eauto.
Qed.
Lemma leaf_vec f vs : lf_is_vec f = true -> counted vn f vs -> Forall (E_content (ld_content (lf_def f))) vs ->
  E_leaf f (vec_value (lf_is_optional f) vs).
Proof.
  intros Vc Ct F w Hw He. destruct (each_ok f w vs F Hw He) as (evs & l & N & W & P & Rg & Rr & Nil).
  destruct (leaf_parts _ _ Hw) as (Ei & Eo & Ev & _).
  assert (R : forall e l', indented_all l l' -> rep_leaf f (vec_value (lf_is_optional f) vs) e l').
  { intros e l' H. destruct (lf_virtual f) eqn:Vf; [apply pl_groups; auto|].
    destruct vs as [|v vs].
    - rewrite (Nil eq_refl) in H. inversion H; subst. destruct (leaf_quote _ He Vf) as (ns & Q). eapply pl_run; eauto. constructor.
    - destruct (Rr eq_refl ltac:(discriminate)) as (ns & Q & Rx). eapply pl_run; eauto. }
  destruct (lf_is_optional f) eqn:Op.
  - destruct vs as [|v vs].
    + exists [], [], 0. split; [|split; [apply prod_nil|]].
      * intros fuel Hf self ctx Vs. unfold write_leaf. rewrite Vs, Eo. simpl. eauto.
      * rewrite (Nil eq_refl) in R. exact R.
    + exists evs, l, N. split; [|split; [exact P|exact R]].
      intros fuel Hf self ctx Vs. unfold write_leaf. rewrite Vs, Eo, Ev, Vc. simpl. apply W, Hf.
  - exists evs, l, N. split; [|split; [exact P|exact R]].
    intros fuel Hf self ctx Vs. unfold write_leaf. rewrite Vs, Eo, Ev, Vc. simpl. apply W, Hf.
Qed.
Lemma leaves_cons f fs i v vs : field_ident (lf_name f) = Ok i -> E_leaf f v -> E_leaves fs vs -> E_leaves (f :: fs) ((i, v) :: vs).
Proof.
  intros Ei El [Nm Es]. split; [simpl; rewrite Ei; simpl; rewrite Nm; reflexivity|]. intros ws Em He. simpl in Em.
  apply bind_ok in Em. destruct Em as (w & Ew & Em). apply bind_ok in Em. destruct Em as (ws' & Ew' & Em). injection Em as <-.
  simpl in He. apply andb_true_iff in He. destruct He as [He He'].
  destruct (El w Ew He) as (evs1 & l1 & N1 & W1 & P1 & R1). destruct (Es ws' Ew' He') as (evs2 & l2 & N2 & W2 & P2 & R2).
  destruct (leaf_parts _ _ Ew) as (Ei' & _). rewrite Ei in Ei'. injection Ei' as Ei'.
  exists (evs1 ++ evs2), (l1 ++ l2), (N1 + N2). split; [|split].
  - intros fuel Hf self ctx Vs. destruct (W1 fuel ltac:(lia) self ctx) as (c1 & E1).
    { rewrite <- Ei'. apply Vs. now left. }
    destruct (W2 fuel ltac:(lia) self c1) as (c2 & E2). { intros j u Iu. apply Vs. now right. }
    exists c2. simpl. rewrite E1. simpl. rewrite E2. reflexivity.
  - rewrite map_app. now apply prod_app.
  - intros e l' H. apply indented_all_app in H. destruct H as (a' & b' & -> & Ha & Hb). econstructor; eauto. reflexivity.
Qed.
Lemma leaves_nil : E_leaves [] [].
Proof.
  split; [reflexivity|]. intros ws Em _. injection Em as <-. exists [], [], 0. split; [intros; simpl; eauto|split; [apply prod_nil|]].
  intros e l' H. inversion H; subst. constructor.
Qed.

(** ** Tags *)
Lemma wrapped_tag ctx body evs : wc_virtual ctx = false -> (forall ctx, exists i, body ctx = Ok (evs, i)) ->
  exists i, wrapped true ctx body = Ok (EvStart (in_name (wc_inner ctx)) (in_attrs (wc_inner ctx)) (in_ns (wc_inner ctx)) :: evs ++ [EvEnd], i).
Proof.
  intros V B. unfold wrapped, write_start_element. rewrite V.
  destruct (B (mkWctx false (mkInner (in_name (wc_inner ctx)) [] []))) as (i & ->). simpl. eauto.
Qed.
Lemma wrapped_silent b ctx body evs : wc_virtual ctx = true \/ b = false -> (forall ctx, exists i, body ctx = Ok (evs, i)) ->
  exists i, wrapped b ctx body = Ok (evs, i).
Proof.
  intros V B. unfold wrapped, write_start_element. destruct b; auto. destruct V as [V|V]; [|discriminate]. rewrite V.
  destruct (B ctx) as (i & ->). simpl. unfold write_end_element. simpl. rewrite V. rewrite app_nil_r. eauto.
Qed.

Lemma nss_of ti n r : item c gfuel gs n r ti -> forall ctx, fresh ctx ->
  wc_virtual (set_nss (ti_nss ti) ctx) = false /\
  wc_inner (set_nss (ti_nss ti) ctx) = mkInner (in_name (wc_inner ctx)) (in_attrs (wc_inner ctx)) nss.
Proof.
  intros It ctx [V Nn]. split; [now rewrite set_nss_virtual|]. rewrite set_nss_inner. f_equal.
  pose proof Hnss as H. unfold written_nss in H. rewrite (it_nss _ _ _ _ _ _ It) in H. injection H as H.
  change (put_all (ti_nss ti) [] = nss) in H. destruct Nn as [-> | ->]; [exact H|]. rewrite <- H. apply put_idem.
Qed.
Lemma step_type n r ti id fuel v ctx : item c gfuel gs n r ti -> lookup_item p (ti_id ti) = Some ti -> type_ident n = Ok id ->
  wt (S fuel) id v ctx = write_item p (wt fuel) ti v ctx.
Proof.
  intros It Lk Ei. pose proof (it_id _ _ _ _ _ _ It) as E. rewrite Ei in E. injection E as ->. simpl. now rewrite Lk.
Qed.

(** ** Choices *)
Lemma variant_ok f a i w : variant_ident (lf_name f) = Ok i ->
  (v <- variant_ident (lf_name f) ;; x <- def_to_xml gfuel c (lf_def f) ;;
   Ok (mkWarm v (nm (lf_name f)) (lf_is_vec f) (match ld_content (lf_def f) with LcLiteral _ => true | _ => false end) x)) = Ok a ->
  enc_variant c gs nss K f = true -> E_variant f w ->
  exists evs l N,
    (forall fuel, N <= fuel ->
       (if wm_vec a then match w with VVec vs => write_arm_each (wt fuel) a vs | _ => Panic "not a Vec" end
        else write_arm_one (wt fuel) a w) = Ok evs) /\
    prod evs (map KElem l) /\ (forall e l', indented_all l l' -> rep_variant f w e l').
Proof.
  intros Ei Ea He Ev. rewrite Ei in Ea. simpl in Ea. apply bind_ok in Ea. destruct Ea as (x & Ex & Ea). injection Ea as <-. simpl.
  unfold def_to_xml in Ex. unfold enc_variant in He. destruct (lf_virtual f) eqn:Vf.
  - destruct (ld_content (lf_def f)) as [l|m|l] eqn:Cf; try discriminate. rewrite !andb_true_iff in He. destruct He as [[Gb Nv] Gs].
    apply negb_true_iff in Nv. rewrite Nv. destruct Ev as [[_ Ec]|(v & vs & _ & X & _)]; [|congruence].
    apply is_group_b_ok in Gb. destruct (group_type _ _ _ Gb) as (r & G & T & _). rewrite G in Gs. apply andb_true_iff in Gs. destruct Gs as [Gs Gv].
    pose proof (group_final_self _ _ _ Gb) as Fg.
    destruct Ec as [(lit & s & Fl & _)|[(s & Fl & _)|(m' & n & r' & Fl & T' & _ & Eg)]];
      rewrite Cf in Fl; pose proof (final_det _ _ _ _ Fl Fg) as X; try discriminate. injection X as ->.
    destruct (same_type _ _ _ _ _ T T') as [<- <-]. destruct (wx_call _ _ _ Ex Fg) as (id & -> & Eid).
    destruct (Eg id Eid Gs) as (evs & l & N & W & P & R). exists evs, l, N. split; [|split; [exact P|]].
    + intros fuel Hf. unfold write_arm_one. simpl. destruct (W fuel Hf (ctx_create (nm (lf_name f)))) as (i' & ->); [now right|]. reflexivity.
    + intros e l' H. apply px_group; auto. rewrite Cf. eapply pc_named; eauto.
  - apply andb_true_iff in He. destruct He as [Nb He].
    set (a := mkWarm i (nm (lf_name f)) (lf_is_vec f) (match ld_content (lf_def f) with LcLiteral _ => true | _ => false end) x).
    assert (One : forall v, E_content (ld_content (lf_def f)) v -> exists evs y N, (forall fuel, N <= fuel -> write_arm_one (wt fuel) a v = Ok evs) /\
        one_elem (nm (lf_name f)) (lf_name f) (ld_content (lf_def f)) v evs y).
    { intros v Ec. subst a. unfold write_arm_one. simpl. destruct (ld_content (lf_def f)) as [lit|m|s] eqn:Cf; [| |discriminate].
      - destruct Ec as [Ec|[(s & Fl & _)|(m' & n & r' & Fl & _)]]; try (inversion Fl; fail).
        destruct (wx_text _ _ _ Ex (or_introl Ec)) as (evs & ks & s & Wx & P & C & R).
        destruct (text_elem _ _ _ _ _ _ _ Nb P C R) as (y & Py).
        exists (EvStart (nm (lf_name f)) [] [] :: evs ++ [EvEnd]), y, 0. split; [|exact Py].
        intros fuel _. rewrite Wx. reflexivity.
      - unfold via_tagged_b in He. destruct (via c gs m) as [n|] eqn:Vm; [|discriminate].
        apply via_type in Vm. destruct Vm as (m' & r & Fm & Tm).
        destruct Ec as [(lit & s & Fl & _)|[(s & Fl & _)|(m2 & n2 & r2 & Fl & T2 & Et & _)]];
          pose proof (final_det _ _ _ _ Fl Fm) as X; try discriminate. injection X as ->.
        destruct (same_type _ _ _ _ _ Tm T2) as [<- <-]. destruct (wx_call _ _ _ Ex Fm) as (id & -> & Eid).
        destruct (call_elem _ _ _ _ _ _ _ _ Nb Fm Tm Et He _ Eid) as (evs & y & N & W & P).
        exists evs, y, N. split; [|exact P]. intros fuel Hf. destruct (W fuel Hf) as (i' & Wi). simpl. now rewrite Wi. }
    destruct Ev as [[Nv Ec]|(v & vs & -> & Nv & Ec)]; rewrite Nv.
    + destruct (One _ Ec) as (evs & y & N & W & P & ns & Q & R). exists evs, [y], N. split; [exact W|]. split; [exact P|].
      intros e l' H. apply all_one in H. destruct H as (y' & -> & Hy). destruct (R _ Hy). eapply px_one; eauto.
    + assert (Run : exists evs l N, (forall fuel, N <= fuel -> write_arm_each (wt fuel) a (v :: vs) = Ok evs) /\ prod evs (map KElem l) /\
         exists ns, quote_xml_namespace c (lf_name f) = Some ns /\
           forall l', indented_all l l' -> rep_run (nm (lf_name f)) ns (ld_content (lf_def f)) (v :: vs) l').
      { clear Nv. revert v Ec. induction vs as [|v' vs IH]; intros v Ec; inversion Ec as [|? ? Ev Evs]; subst;
          destruct (One _ Ev) as (evs & y & N & W & P & ns & Q & R).
        - exists evs, [y], N. split; [|split; [exact P|]].
          + intros fuel Hf. cbn [write_arm_each]. rewrite (W _ Hf). simpl. now rewrite app_nil_r.
          + exists ns. split; auto. intros l' H. apply all_one in H. destruct H as (y' & -> & Hy). destruct (R _ Hy).
            constructor; auto. constructor.
        - destruct (IH v' Evs) as (evs2 & l2 & N2 & W2 & P2 & ns2 & Q2 & R2). rewrite Q in Q2. injection Q2 as <-.
          exists (evs ++ evs2), (y :: l2), (N + N2). split; [|split].
          + intros fuel Hf. change (write_arm_each (wt fuel) a (v :: v' :: vs)) with
              (e1 <- write_arm_one (wt fuel) a v ;; e2 <- write_arm_each (wt fuel) a (v' :: vs) ;; Ok (e1 ++ e2)).
            rewrite W by lia. rewrite W2 by lia. reflexivity.
          + apply (prod_app nss evs evs2 [KElem y] (map KElem l2)); auto.
          + exists ns. split; auto. intros l' H. inversion H as [|? y' ? ys' Hy Hys]; subst. destruct (R _ Hy). constructor; auto. }
      destruct Run as (evs & l & N & W & P & ns & Q & R). exists evs, l, N. split; [exact W|]. split; [exact P|].
      intros e l' H. eapply px_run; eauto.
Qed.

(** ** Types *)
Lemma root_leaf n d v : E_content (ld_content d) v -> E_root n (RootLeaf d) (VTuple v).
Proof.
  intros Ec I G. split; [|intros id _ X; discriminate]. intros k D id Ch Nd Ei.
  destruct (gen_item _ _ _ _ Hg n _ I G) as (ti & It & Lk). pose proof (it_write _ _ _ _ _ _ It) as Wr. simpl in Wr.
  apply bind_ok in Wr. destruct Wr as (x & Ex & Wr). injection Wr as Wr. unfold def_to_xml in Ex.
  destruct k as [|k]; [discriminate|]. simpl in Ch. rewrite G in Ch.
  assert (Text : (match ld_content d with LcNamed _ => false | _ => true end) = true -> D = [] ->
    (exists lit s, final c (ld_content d) (LcLiteral lit) /\ value_to_string v = Some s /\ lit_from_str lit s = Ok v /\ text_ok s) \/
    (exists s, final c (ld_content d) (LcFixed s) /\ v = VUnit /\ text_ok s) ->
    exists A evs ks ks' N,
    (forall fuel, N <= fuel -> forall ctx, fresh ctx -> exists i,
       wt fuel id (VTuple v) ctx = Ok (EvStart (in_name (wc_inner ctx)) (in_attrs (wc_inner ctx) ++ A) nss :: evs ++ [EvEnd], i)) /\
    incl (map fst A) D /\ Forall plain_name (map fst A) /\ NoDup (map fst A) /\ Forall (fun nv => attr_ok (snd nv)) A /\
    prod evs ks /\ texts_back (merge_text ks) = Some ks' /\
    (forall e, agrees D A e -> indented_kids ks' (xe_kids e) -> rep_root n (RootLeaf d) (VTuple v) e (xe_children e))).
  { intros Wt -> Ht. destruct (wx_text _ _ _ Ex Ht) as (evs & ks & s & Wx & P & C & R).
    exists [], evs, ks, (tks s), 1. split; [|repeat split; try constructor; auto].
    - intros fuel Hf ctx Fr. destruct fuel as [|fuel]; [lia|]. rewrite (step_type _ _ _ _ fuel (VTuple v) ctx It Lk Ei).
      unfold write_item. rewrite <- Wr, Wt. destruct (nss_of _ _ _ It ctx Fr) as [V Wi].
      destruct (wrapped_tag (set_nss (ti_nss ti) ctx) (fun c0 => write_wx (wt fuel) x v c0) evs V) as (i & Ew).
      { intros c0. rewrite Wx. eauto. }
      exists i. rewrite Ew, Wi. simpl. now rewrite app_nil_r.
    - intros q [].
    - apply indented_refl_text in H0; [|apply elems_tks]. apply R. exact H0. }
  destruct (ld_content d) as [lit|m|s] eqn:Cd.
  - injection Ch as <-. apply Text; auto. destruct Ec as [Ec|[Ec|(m & n' & r' & F & _)]]; auto. inversion F.
  - clear Text. destruct (via c gs m) as [n'|] eqn:Vm; [|discriminate]. apply via_type in Vm. destruct Vm as (m' & r' & Fm & Tm).
    destruct Ec as [(lit & s & Fl & _)|[(s & Fl & _)|(m2 & n2 & r2 & Fl & T2 & Et & _)]];
      pose proof (final_det _ _ _ _ Fl Fm) as X; try discriminate. injection X as ->.
    destruct (same_type _ _ _ _ _ Tm T2) as [<- <-]. destruct (wx_call _ _ _ Ex Fm) as (id' & -> & Eid').
    pose proof Tm as (I' & G' & id2 & E1 & E2). rewrite Eid' in E1. injection E1 as <-.
    destruct (Et _ _ _ Ch Nd E2) as (A & evs & ks & ks' & N & W & Inc & Pl & NA & Oks & P & C & R).
    exists A, evs, ks, ks', (S N). split; [|repeat split; auto].
    + intros fuel Hf ctx Fr. destruct fuel as [|fuel]; [lia|]. rewrite (step_type _ _ _ _ fuel (VTuple v) ctx It Lk Ei).
      unfold write_item. rewrite <- Wr. destruct (nss_of _ _ _ It ctx Fr) as [V Wi]. simpl.
      destruct (W fuel ltac:(lia) (set_nss (ti_nss ti) ctx)) as (i & Ew).
      { split; [exact V|right; rewrite Wi; reflexivity]. }
      exists i. rewrite Ew, Wi. reflexivity.
    + intros e Ag Ik. apply pr_leaf. rewrite Cd. eapply pc_named; eauto.
  - injection Ch as <-. apply Text; auto. destruct Ec as [Ec|[Ec|(m & n' & r' & F & _)]]; auto. inversion F.
Qed.

Lemma root_enum n names vs x s : enum_variants names = Ok vs -> enum_as_str vs x = Some s ->
  enum_from_str vs s = Ok (VEnum x) -> text_ok s -> E_root n (RootEnum names) (VEnum x).
Proof.
  intros Ev As Fr T I G. split; [|intros id _ X; discriminate]. intros k D id Ch Nd Ei.
  destruct (gen_item _ _ _ _ Hg n _ I G) as (ti & It & Lk). pose proof (it_write _ _ _ _ _ _ It) as Wr. simpl in Wr. injection Wr as Wr.
  pose proof (it_decl _ _ _ _ _ _ It) as Dc. simpl in Dc. rewrite Ev in Dc. simpl in Dc. injection Dc as Dc.
  destruct k as [|k]; [discriminate|]. simpl in Ch. rewrite G in Ch. injection Ch as <-.
  exists [], (if is_empty s then [] else [EvChars s]), (tks s), (tks s), 1. split; [|repeat split; try constructor].
  - intros fuel Hf ctx Fr'. destruct fuel as [|fuel]; [lia|]. rewrite (step_type _ _ _ _ fuel (VEnum x) ctx It Lk Ei).
    unfold write_item. rewrite <- Wr, <- Dc, As. destruct (nss_of _ _ _ It ctx Fr') as [V Wi].
    destruct (wrapped_tag (set_nss (ti_nss ti) ctx) (fun c0 => Ok (if is_empty s then [] else [EvChars s], wc_inner c0)) _ V ltac:(intros c0; eauto)) as (i & Ew).
    exists i. rewrite Ew, Wi. simpl. now rewrite app_nil_r.
  - intros q [].
  - apply prod_text.
  - now apply close_text.
  - intros e _ Ik. apply indented_refl_text in Ik; [|apply elems_tks]. rewrite (children_tks _ _ Ik).
    eapply pr_enum; eauto. now apply d_text_tks.
Qed.

Lemma root_choice n d f i w : In f (cd_variants d) -> variant_ident (lf_name f) = Ok i -> E_variant f w ->
  E_root n (RootChoice d) (VChoice i w).
Proof.
  intros If Ei Ev I G. destruct (gen_item _ _ _ _ Hg n _ I G) as (ti & It & Lk). pose proof (it_write _ _ _ _ _ _ It) as Wr. simpl in Wr.
  apply bind_ok in Wr. destruct Wr as (arms & Em & Wr). injection Wr as Wr.
  pose proof (each_root_ok _ _ _ _ _ Henc I G) as He. simpl in He. apply andb_true_iff in He. destruct He as [He Hn].
  destruct (mapM (fun f => variant_ident (lf_name f)) (cd_variants d)) as [ids| | |] eqn:Eids; try discriminate. apply nodup_s in Hn.
  assert (Hf : enc_variant c gs nss K f = true) by (rewrite forallb_forall in He; auto).
  destruct (mapM_In _ _ _ _ Em If) as (a & Ea & Ia).
  assert (Fa : find (fun a => wm_variant a =?s i) arms = Some a).
  { assert (Vs : ids = map wm_variant arms).
    { clear -Em Eids. revert ids Eids arms Em. induction (cd_variants d) as [|g gl IH]; intros ids Eids arms Em; simpl in *.
      - injection Eids as <-. injection Em as <-. reflexivity.
      - apply bind_ok in Eids. destruct Eids as (j & Ej & Eids). apply bind_ok in Eids. destruct Eids as (js & Ejs & Eids). injection Eids as <-.
        apply bind_ok in Em. destruct Em as (b & Eb & Em). apply bind_ok in Em. destruct Em as (bs & Ebs & Em). injection Em as <-.
        rewrite Ej in Eb. simpl in Eb. apply bind_ok in Eb. destruct Eb as (x & _ & Eb). injection Eb as <-. simpl. f_equal. eauto. }
    subst ids. assert (Va : wm_variant a = i).
    { rewrite Ei in Ea. simpl in Ea. apply bind_ok in Ea. destruct Ea as (x & _ & Ea). injection Ea as <-. reflexivity. }
    clear -Hn Ia Va. induction arms as [|b arms IH]; [destruct Ia|]. simpl in *. inversion Hn as [|? ? N1 N2]; subst.
    destruct Ia as [->|Ia]; [now rewrite String.eqb_refl|]. destruct (wm_variant b =?s wm_variant a) eqn:E; auto.
    apply String.eqb_eq in E. exfalso. apply N1. rewrite E. now apply in_map. }
  destruct (variant_ok f a i w Ei Ea Hf Ev) as (evs & l & N & W & P & R).
  assert (Body : forall fuel, N <= fuel -> forall c0, exists i', (fun c0 : wctx => e <- write_choice (wt fuel) arms (VChoice i w) ;; Ok (e, wc_inner c0)) c0 = Ok (evs, i')).
  { intros fuel Hf' c0. assert (X : write_choice (wt fuel) arms (VChoice i w) = Ok evs) by (cbn [write_choice]; rewrite Fa; exact (W fuel Hf')). cbv beta. rewrite X. simpl. eauto. }
  assert (Rp : forall e l', indented_all l l' -> rep_root n (RootChoice d) (VChoice i w) e l') by (intros; eapply pr_choice; eauto).
  split.
  - intros k D id Ch Nd Eid. destruct k as [|k]; [discriminate|]. simpl in Ch. rewrite G in Ch.
    destruct (cd_virtual d) eqn:Vd; [discriminate|]. injection Ch as <-.
    exists [], evs, (map KElem l), (map KElem l), (S N). split; [|repeat split; try constructor; auto using close_elems].
    + intros fuel Hf' ctx Fr. destruct fuel as [|fuel]; [lia|]. rewrite (step_type _ _ _ _ fuel (VChoice i w) ctx It Lk Eid).
      unfold write_item. rewrite <- Wr. destruct (nss_of _ _ _ It ctx Fr) as [V Wi]. cbn [negb].
      destruct (wrapped_tag (set_nss (ti_nss ti) ctx) _ evs V (Body fuel ltac:(lia))) as (j & Ew).
      exists j. rewrite Ew, Wi. simpl. now rewrite app_nil_r.
    + intros q [].
    + intros e _ Ik. apply Rp. unfold xe_children. now apply indented_elems.
  - intros id Eid _. exists evs, l, (S N). split; [|split; auto].
    intros fuel Hf' ctx Vc. destruct fuel as [|fuel]; [lia|]. rewrite (step_type _ _ _ _ fuel (VChoice i w) ctx It Lk Eid).
    unfold write_item. rewrite <- Wr. apply wrapped_silent; [|apply Body; lia].
    rewrite set_nss_virtual. destruct Vc as [Vc|Vc]; [now left|right]. simpl in Vc. now rewrite Vc.
Qed.

Lemma with_nil ctx : with_attrs [] ctx = ctx.
Proof. destruct ctx as [v [n a ns]]. unfold with_attrs. simpl. now rewrite app_nil_r. Qed.

Lemma element_field ti n d a f ty : item c gfuel gs n (RootElement d) ti -> (match field_names d with Some l => nodupb String.eqb l | None => false end) = true ->
  In a (ed_attributes d) -> attr_to_impl gfuel c a = Ok (f, ty) -> field_type ti f = Some (strip_opt ty).
Proof.
  intros It Fn Ia Ea. pose proof (it_decl _ _ _ _ _ _ It) as Dc. simpl in Dc. unfold element_to_impl in Dc.
  apply bind_ok in Dc. destruct Dc as (fs & Ef & Dc). apply bind_ok in Dc. destruct Dc as (fa & Efa & Dc). injection Dc as Dc.
  unfold field_type. rewrite <- Dc. destruct (field_names d) as [l|] eqn:Fd; [|discriminate]. apply nodup_s in Fn.
  assert (Nm : l = map fst (fs ++ fa)).
  { unfold field_names in Fd. rewrite mapM_app in Fd.
    assert (X1 : mapM field_ident (match ed_content d with None => [] | Some (EcLeaf n _) => [n] | Some (EcLeaves ls) => map lf_name ls end) = Ok (map fst fs)).
    { destruct (ed_content d) as [[n0 d0|ls]|].
      - apply bind_ok in Ef. destruct Ef as (g & Eg & Ef). apply bind_ok in Ef. destruct Ef as (t & _ & Ef). injection Ef as <-.
        simpl. rewrite Eg. reflexivity.
      - clear -Ef. revert fs Ef. induction ls as [|x ls IH]; intros fs Ef; simpl in *; [injection Ef as <-; reflexivity|].
        apply bind_ok in Ef. destruct Ef as ([g t] & Eg & Ef). apply bind_ok in Ef. destruct Ef as (fs' & Ef' & Ef). injection Ef as <-.
        unfold leaf_to_impl in Eg. apply bind_ok in Eg. destruct Eg as (g' & Eg' & Eg). apply bind_ok in Eg. destruct Eg as (t' & _ & Eg). injection Eg as <- _.
        rewrite Eg'. simpl. rewrite (IH _ Ef'). reflexivity.
      - injection Ef as <-. reflexivity. }
    assert (X2 : mapM field_ident (map a_name (ed_attributes d)) = Ok (map fst fa)).
    { clear -Efa. revert fa Efa. induction (ed_attributes d) as [|x ls IH]; intros fs Ef; simpl in *; [injection Ef as <-; reflexivity|].
      apply bind_ok in Ef. destruct Ef as ([g t] & Eg & Ef). apply bind_ok in Ef. destruct Ef as (fs' & Ef' & Ef). injection Ef as <-.
      unfold attr_to_impl in Eg. apply bind_ok in Eg. destruct Eg as (g' & Eg' & Eg). apply bind_ok in Eg. destruct Eg as (t' & _ & Eg). injection Eg as <- _.
      rewrite Eg'. simpl. rewrite (IH _ Ef'). reflexivity. }
    rewrite X1, X2 in Fd. simpl in Fd. injection Fd as <-. now rewrite map_app. }
  subst l. destruct (mapM_In _ _ _ _ Efa Ia) as (y & Ey & Iy). rewrite Ea in Ey. injection Ey as <-.
  rewrite (aget_in_s f ty); auto. apply in_or_app. now right.
Qed.

Lemma root_element n d vs avs : E_fields (ed_content d) vs -> canon_attrs c gs (ed_attributes d) avs ->
  E_root n (RootElement d) (VStruct (vs ++ avs)).
Proof.
  intros Ef Ca I G. destruct (gen_item _ _ _ _ Hg n _ I G) as (ti & It & Lk). pose proof (it_write _ _ _ _ _ _ It) as Wr. simpl in Wr.
  unfold element_to_xml in Wr. apply bind_ok in Wr. destruct Wr as (was & Em & Wr). apply bind_ok in Wr. destruct Wr as (b & Eb & Wr). injection Wr as Wr.
  pose proof (each_root_ok _ _ _ _ _ Henc I G) as He. simpl in He. rewrite !andb_true_iff in He. destruct He as [[Pl Fn] Hc].
  pose proof (it_decl _ _ _ _ _ _ It) as Dc. simpl in Dc. unfold element_to_impl in Dc.
  apply bind_ok in Dc. destruct Dc as (fs & _ & Dc). apply bind_ok in Dc. destruct Dc as (fa & Efa & _).
  assert (Names : NoDup (map fst (vs ++ avs))).
  { destruct (field_names d) as [l|] eqn:Fd; [|discriminate]. apply nodup_s in Fn.
    unfold field_names in Fd. rewrite mapM_app in Fd.
    assert (X1 : mapM field_ident (match ed_content d with None => [] | Some (EcLeaf n _) => [n] | Some (EcLeaves ls) => map lf_name ls end) = Ok (map fst vs)).
    { destruct (ed_content d) as [[n0 d0|ls]|]; simpl in Ef.
      - destruct Ef as (f & v & -> & E & _). simpl. rewrite E. reflexivity.
      - apply Ef.
      - subst. reflexivity. }
    assert (X2 : mapM field_ident (map a_name (ed_attributes d)) = Ok (map fst avs)).
    { clear -Ca. induction Ca as [|a fv l r [E _] Ca IH]; [reflexivity|]. simpl. rewrite E. simpl. rewrite IH. reflexivity. }
    rewrite X1, X2 in Fd. simpl in Fd. injection Fd as <-. now rewrite map_app. }
  assert (Vf : forall i v, In (i, v) (vs ++ avs) -> vfield (VStruct (vs ++ avs)) i = Ok v).
  { intros i v Ii. simpl. now rewrite (aget_in_s i v). }
  assert (Atts : NoDup (names_of (ed_attributes d)) -> exists A, (forall ctx, write_attrs p ti was (VStruct (vs ++ avs)) ctx = Ok (with_attrs A ctx)) /\
    incl (map fst A) (names_of (ed_attributes d)) /\ NoDup (map fst A) /\ Forall (fun nv => attr_ok (snd nv)) A /\
    (forall e, (forall q, In q (names_of (ed_attributes d)) -> d_attribute e q = aget String.eqb q A) -> rep_attrs c gs (ed_attributes d) avs e)).
  { intros Nd. eapply attrs_write; eauto.
    - intros i v Ii. apply Vf. apply in_or_app. now right.
    - intros a f ty Ia Ea. eapply element_field; eauto.
    - intros a Ia. destruct (mapM_In _ _ _ _ Efa Ia) as (y & Ey & _). eauto. }
  assert (Plain : forall A : list (string * string), incl (map fst A) (names_of (ed_attributes d)) -> Forall plain_name (map fst A)).
  { intros A Inc. apply Forall_forall. intros q Iq. apply Inc in Iq. unfold names_of in Iq. apply in_map_iff in Iq. destruct Iq as (a & <- & Ia).
    rewrite forallb_forall in Pl. specialize (Pl a Ia). unfold plain_attr_b in Pl. destruct (get_xml_element_name c (a_name a)) as [xn|]; [|discriminate].
    rewrite !andb_true_iff in Pl. destruct Pl as [[[P1 P2] P3] P4]. apply String.eqb_eq in P1. subst xn. split; [|split].
    - destruct (split_colon (nm (a_name a))); [discriminate|reflexivity].
    - exact P3.
    - intros X. rewrite X in P4. discriminate. }
  assert (Bodies : named_content (ed_content d) = None -> exists evs ks ks' N,
     (forall fuel, N <= fuel -> forall c0, exists i, write_body (wt fuel) b (VStruct (vs ++ avs)) c0 = Ok (evs, i)) /\
     prod evs ks /\ texts_back (merge_text ks) = Some ks' /\
     (forall e, indented_kids ks' (xe_kids e) -> rep_fields (ed_content d) vs e (xe_children e)) /\
     (match ed_content d with Some (EcLeaf _ _) => false | _ => true end = true -> exists l, ks = map KElem l /\
       forall e l', indented_all l l' -> rep_fields (ed_content d) vs e l')).
  { intros Nn. destruct (ed_content d) as [[n0 d0|ls]|] eqn:Cd; simpl in Ef.
    - destruct Ef as (f & v & -> & Efi & Ec). apply bind_ok in Eb. destruct Eb as (f' & Ef' & Eb). rewrite Efi in Ef'. injection Ef' as <-.
      apply bind_ok in Eb. destruct Eb as (x & Ex & Eb). injection Eb as <-. unfold def_to_xml in Ex.
      assert (Ht : (exists lit s, final c (ld_content d0) (LcLiteral lit) /\ value_to_string v = Some s /\ lit_from_str lit s = Ok v /\ text_ok s) \/
         (exists s, final c (ld_content d0) (LcFixed s) /\ v = VUnit /\ text_ok s)).
      { simpl in Nn. destruct Ec as [Ec|[Ec|(m & n' & r' & F & _)]]; auto. destruct (ld_content d0); try discriminate; inversion F. }
      destruct (wx_text _ _ _ Ex Ht) as (evs & ks & s & Wx & P & C & R).
      exists evs, ks, (tks s), 0. split; [|split; [exact P|split; [exact C|split; [|discriminate]]]].
      + intros fuel _ c0. unfold write_body. rewrite (Vf f v) by (now left). cbn [bind]. rewrite Wx. eauto.
      + intros e Ik. apply indented_refl_text in Ik; [|apply elems_tks]. constructor; auto. now apply R.
    - destruct Ef as [_ Ef]. apply bind_ok in Eb. destruct Eb as (ws & Ews & Eb). injection Eb as <-.
      destruct (Ef ws Ews Hc) as (evs & l & N & W & P & R). exists evs, (map KElem l), (map KElem l), N.
      split; [|split; [exact P|split; [apply close_elems|split]]].
      + intros fuel Hf c0. unfold write_body. destruct (W fuel Hf (VStruct (vs ++ avs)) c0) as (c1 & ->); simpl; eauto.
        intros i v Ii. apply Vf. apply in_or_app. now left.
      + intros e Ik. constructor. apply R. unfold xe_children. now apply indented_elems.
      + intros _. exists l. split; auto. intros e l' H. constructor. auto.
    - subst vs. injection Eb as <-. exists [], [], [], 0. split; [intros; simpl; eauto|split; [apply prod_nil|split; [reflexivity|split]]].
      + intros e Ik. apply indented_refl_text in Ik; [|reflexivity]. unfold xe_children. rewrite Ik. constructor.
      + intros _. exists []. split; auto. intros e l' H. inversion H; subst. constructor. }
  split.
  - intros k D id Ch Nd Ei. destruct k as [|k]; [discriminate|]. simpl in Ch. rewrite G in Ch.
    destruct (named_content (ed_content d)) as [m|] eqn:Nm.
    + clear Bodies. destruct (via c gs m) as [n'|] eqn:Vm; [|discriminate]. apply via_type in Vm. destruct Vm as (m' & r' & Fm & Tm).
      destruct (chain c gs k n') as [D'|] eqn:Ch'; [|discriminate]. simpl in Ch. injection Ch as <-.
      change (map (fun a => nm (a_name a)) (ed_attributes d)) with (names_of (ed_attributes d)) in *.
      assert (Nd1 : NoDup (names_of (ed_attributes d))) by (clear -Nd; induction (names_of (ed_attributes d)) as [|q l IH]; [constructor|];
        inversion Nd; subst; constructor; auto; intros X; apply H1; apply in_or_app; now left).
      assert (Nd2 : NoDup D') by (clear -Nd; induction (names_of (ed_attributes d)) as [|q l IH]; auto; inversion Nd; auto).
      assert (Dis : forall q, In q (names_of (ed_attributes d)) -> ~ In q D').
      { clear -Nd. induction (names_of (ed_attributes d)) as [|q l IH]; intros q0 Iq J; [destruct Iq|]. inversion Nd; subst.
        destruct Iq as [->|Iq]; [apply H1, in_or_app; now right|eapply IH; eauto]. }
      destruct (Atts Nd1) as (A1 & W1 & Inc1 & NA1 & Ok1 & R1).
      unfold named_content in Nm. destruct (ed_content d) as [[n0 [ct0 rs ds]|]|] eqn:Cd; try discriminate. simpl in Nm.
      destruct ct0 as [|m0|]; try discriminate. injection Nm as ->. simpl in Ef. destruct Ef as (f & v & -> & Efi & Ec).
      apply bind_ok in Eb. destruct Eb as (f' & Ef' & Eb). rewrite Efi in Ef'. injection Ef' as <-.
      apply bind_ok in Eb. destruct Eb as (x & Ex & Eb). injection Eb as <-. unfold def_to_xml in Ex. simpl in Ex.
      destruct Ec as [(lit & s & Fl & _)|[(s & Fl & _)|(m2 & n2 & r2 & Fl & T2 & Et & _)]];
        pose proof (final_det _ _ _ _ Fl Fm) as X; try discriminate. injection X as ->.
      destruct (same_type _ _ _ _ _ Tm T2) as [<- <-]. destruct (wx_call _ _ _ Ex Fm) as (id' & -> & Eid').
      pose proof Tm as (I' & G' & id2 & E1 & E2). rewrite Eid' in E1. injection E1 as <-.
      destruct (Et _ _ _ Ch' Nd2 E2) as (A2 & evs & ks & ks' & N & W & Inc2 & Pl2 & NA2 & Ok2 & P & C & R).
      exists (A1 ++ A2), evs, ks, ks', (S N). split; [|split; [|split; [|split; [|split; [|split; [exact P|split; [exact C|]]]]]]].
      * intros fuel Hf ctx Fr. destruct fuel as [|fuel]; [lia|]. rewrite (step_type _ _ _ _ fuel (VStruct ([(f, v)] ++ avs)) ctx It Lk Ei).
        unfold write_item. rewrite <- Wr. destruct (nss_of _ _ _ It ctx Fr) as [V Wi]. rewrite W1.
        rewrite andb_false_r. cbn [bind wrapped write_body]. rewrite (Vf f v) by (now left). cbn [bind write_wx].
        destruct (W fuel ltac:(lia) (with_attrs A1 (set_nss (ti_nss ti) ctx))) as (i & Ew).
        { split; [exact V|right; unfold with_attrs; simpl; rewrite Wi; reflexivity]. }
        exists i. rewrite Ew. unfold with_attrs. simpl. rewrite Wi. simpl. now rewrite app_assoc.
      * rewrite map_app. intros q Iq. apply in_app_or in Iq. apply in_or_app. destruct Iq; [left|right]; auto.
      * rewrite map_app. apply Forall_app. auto.
      * rewrite map_app. clear -NA1 NA2 Dis Inc1 Inc2. assert (forall q, In q (map fst A1) -> ~ In q (map fst A2)) by (intros q H1 H2; eapply Dis; eauto).
        clear -NA1 NA2 H. induction (map fst A1) as [|q l IH]; auto. inversion NA1; subst. simpl. constructor.
        -- intros X. apply in_app_or in X. destruct X; [contradiction|]. eapply H; [now left|eassumption].
        -- apply IH; auto. intros q0 I0. apply H. now right.
      * apply Forall_app. auto.
      * intros e Ag Ik. apply pr_element.
        -- rewrite Cd. constructor; auto. simpl. eapply pc_named; eauto. apply R; auto. intros q Iq.
           rewrite (Ag q) by (apply in_or_app; now right). rewrite aget_app_s.
           rewrite (aget_none_s q A1); auto. intros X. apply (Dis q); auto.
        -- apply R1. intros q Iq. rewrite (Ag q) by (apply in_or_app; now left). rewrite aget_app_s.
           rewrite (aget_none_s q A2); [destruct (aget String.eqb q A1); reflexivity|]. intros X. eapply Dis; eauto.
    + destruct (ed_virtual d) eqn:Vd; [discriminate|]. injection Ch as <-.
      destruct (Atts Nd) as (A & W1 & Inc & NA & Oks & R1).
      destruct (Bodies eq_refl) as (evs & ks & ks' & N & W & P & C & R & _).
      exists A, evs, ks, ks', (S N). split; [|repeat split; auto].
      * intros fuel Hf ctx Fr. destruct fuel as [|fuel]; [lia|]. rewrite (step_type _ _ _ _ fuel (VStruct (vs ++ avs)) ctx It Lk Ei).
        unfold write_item. rewrite <- Wr. destruct (nss_of _ _ _ It ctx Fr) as [V Wi]. rewrite W1. cbn [bind].
        assert (Wrap : (negb false && negb match ed_content d with Some (EcLeaf _ (mkLeafDef (LcNamed _) _ _)) => true | _ => false end) = true).
        { unfold named_content in Nm. destruct (ed_content d) as [[n0 [[] ? ?]|]|]; try reflexivity. discriminate. }
        rewrite Wrap. destruct (wrapped_tag (with_attrs A (set_nss (ti_nss ti) ctx)) _ evs V (W fuel ltac:(lia))) as (i & Ew).
        exists i. rewrite Ew. unfold with_attrs. simpl. rewrite Wi. reflexivity.
      * intros e Ag Ik. apply pr_element; auto.
  - intros id Ei Gs. simpl in Gs. apply andb_true_iff in Gs. destruct Gs as [Ga Gc].
    destruct (ed_attributes d) as [|a0 ats] eqn:Ats; [|discriminate].
    assert (Nn : named_content (ed_content d) = None) by (unfold named_content; destruct (ed_content d) as [[]|]; [discriminate| |]; reflexivity).
    destruct (Bodies Nn) as (evs & ks & ks' & N & W & P & C & _ & R). destruct (R Gc) as (l & -> & Rl).
    injection Em as <-. inversion Ca; subst.
    exists evs, l, (S N). split; [|split; [exact P|]].
    + intros fuel Hf ctx Vc. destruct fuel as [|fuel]; [lia|]. rewrite (step_type _ _ _ _ fuel _ ctx It Lk Ei).
      unfold write_item. rewrite <- Wr. cbn [write_attrs bind]. apply wrapped_silent; [|apply W; lia].
      rewrite set_nss_virtual. destruct Vc as [Vc|Vc]; [now left|right]. simpl in Vc. now rewrite Vc.
    + intros e l' H. apply pr_element; auto. rewrite Ats. constructor.
Qed.

(** ** All canonical values *)
Theorem canon_written :
  (forall ct v, canon_content c gs vn ct v -> E_content ct v) /\ (forall n r v, canon_root c gs vn n r v -> E_root n r v) /\
  (forall ec vs, canon_fields c gs vn ec vs -> E_fields ec vs) /\ (forall ls vs, canon_leaves c gs vn ls vs -> E_leaves ls vs) /\
  (forall f v, canon_leaf c gs vn f v -> E_leaf f v) /\ (forall ct vs, canon_each c gs vn ct vs -> E_each ct vs) /\
  (forall f w, canon_variant c gs vn f w -> E_variant f w).
Proof.
  apply canon_ind.
  - intros ct lit s v F Sv Lv T. left. eauto 8.
  - intros ct s F T. right. left. eauto.
  - intros ct m n r v F T _ Er. right. right. pose proof T as (I & G & _). destruct (Er I G). exists m, n, r. auto.
  - intros n d v _ Ec. now apply root_leaf.
  - intros n names vs x s Ev As Fr T. eapply root_enum; eauto.
  - intros n d vs avs _ Ef Ca. now apply root_element.
  - intros n d f i w If Ei _ Ev. eapply root_choice; eauto.
  - reflexivity.
  - intros n d f v Ei _ Ec. simpl. eauto.
  - intros ls vs _ El. exact El.
  - apply leaves_nil.
  - intros f fs i v vs Ei _ El _ Es. now apply leaves_cons.
  - intros f v Vc Op _ Ec. now apply leaf_one.
  - intros f Vc Op. now apply leaf_none.
  - intros f v Vc Op _ Ec. now apply leaf_some.
  - intros f vs Vc Ct _ Es. now apply leaf_vec.
  - constructor.
  - intros ct v vs _ Ec _ Es. now constructor.
  - intros f w Vc _ Ec. left. auto.
  - intros f w ws Vc _ Es. right. eauto.
Qed.
End Main.

(** ** Documents *)
Theorem canon_doc {L : Libs} gfuel c gs p vn k n r id v : generated gfuel c gs p -> writable_b c gs k = true ->
  entry_b c gs k n = true -> In n gs -> sc_get c n = Some r -> type_ident n = Ok id -> canon_root c gs vn n r v ->
  exists evs d, (exists N, forall fuel, N <= fuel -> to_xml p fuel id v = Ok evs) /\ document evs = Some d /\
    forall d', indented d d' -> rep_doc c gs appended exactly (counted vn) n v d'.
Proof.
  intros Hg Wb Eb I G Ei Cn. unfold writable_b, entry_b in *. destruct (written_nss c) as [nss|] eqn:Hn; [|discriminate].
  apply andb_true_iff in Wb. destruct Wb as [Hd He]. apply andb_true_iff in Eb. destruct Eb as [Nb Tg].
  destruct (canon_written gfuel c gs p Hg vn nss k Hn Hd He) as (_ & R & _). destruct (R _ _ _ Cn I G) as [Et _].
  unfold tagged_b in Tg. destruct (chain c gs k n) as [D|] eqn:Ch; [|discriminate]. apply nodup_s in Tg.
  destruct (Et _ _ _ Ch Tg Ei) as (A & evs & ks & ks' & N & W & Inc & Pl & NA & Oks & P & C & Rp).
  destruct (gen_item _ _ _ _ Hg n _ I G) as (ti & It & Lk).
  pose proof (it_id _ _ _ _ _ _ It) as E. rewrite Ei in E. injection E as ->. pose proof (it_xml _ _ _ _ _ _ It) as Ex.
  unfold xml_name_of in Ex. destruct (get_xml_element_name c n) as [xn|]; [|discriminate]. injection Ex as Ex. subst xn.
  apply (name_b_ok c nss) in Nb. destruct Nb as (ns & Q & Ee). destruct (expand_plain A Pl Oks NA) as (ats & Xa & Ra).
  exists (EvStart (ti_xml_name ti) A nss :: evs ++ [EvEnd]), (elem_of (nm n) ns ats ks'). split; [|split].
  - exists N. intros fuel Hf. unfold to_xml. rewrite Lk.
    destruct (W fuel Hf (ctx_create (ti_xml_name ti))) as (i & Wi); [split; [reflexivity|now left]|]. rewrite Wi. reflexivity.
  - eapply doc_elem; eauto.
  - intros d' Hx. inversion Hx as [t ns' at1 at2 ss ss' r1 r2 kk kk' Ea Hk]; subst.
    econstructor; eauto; [split; reflexivity| |reflexivity]. apply Rp; [|exact Hk].
    intros q _. unfold d_attribute. simpl. rewrite <- (key_attribute _ _ q Ea). apply Ra.
Qed.
