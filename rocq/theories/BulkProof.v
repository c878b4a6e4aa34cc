(** * BulkProof: lemmas for C86 *)
From Verif Require Import Base Libs Xml Ast XsdNode Parse Gen Run Emit Quote Impl AmountSpec AmountProof BulkSpec.
From Coq Require Import Lia.

Lemma bulk_app a b : bulk (a ++ b) = bulk a + bulk b.
Proof. unfold bulk. now rewrite map_app, list_sum_app. Qed.
Lemma bulk_cons t l : bulk (t :: l) = toks t + bulk l.
Proof. reflexivity. Qed.
Lemma bulk_gr o l : toks (Gr o l) = 2 + bulk l.
Proof. reflexivity. Qed.
Lemma bulk_concat {A} (g : A -> list tok) l : bulk (flat_map g l) = list_sum (map (fun a => bulk (g a)) l).
Proof. induction l as [|a l IH]; [reflexivity|]. cbn [flat_map map]. rewrite bulk_app, IH. reflexivity. Qed.

(** ** Templates: the tokens of an interpolation from those of the arguments *)
Inductive size_arg := SOne (n : nat) | SEach (l : list nat).
Definition sizes_of (a : args) : list (string * size_arg) :=
  map (fun x => (fst x, match snd x with One ts => SOne (bulk ts) | Each l => SEach (map bulk l) end)) a.
Fixpoint each_size (a : list (string * size_arg)) (l : list tpl) : string * list nat :=
  match l with
  | [] => ("", [])
  | TVar x :: l => match aget String.eqb x a with Some (SEach es) => (x, es) | _ => each_size a l end
  | _ :: l => each_size a l
  end.
Fixpoint tpl_size (a : list (string * size_arg)) (t : tpl) : nat :=
  let go := fix go (a : list (string * size_arg)) (l : list tpl) : nat := match l with [] => 0 | t :: l => tpl_size a t + go a l end in
  match t with
  | TTok t => toks t
  | TVar x => match aget String.eqb x a with Some (SOne n) => n | _ => 2 end
  | TGr o l => 2 + go a l
  | TRep l => let '(x, es) := each_size a l in list_sum (map (fun e => go ((x, SOne e) :: a) l) es)
  end.
Fixpoint tpls_size (a : list (string * size_arg)) (l : list tpl) : nat := match l with [] => 0 | t :: l => tpl_size a t + tpls_size a l end.
Lemma sizes_get x a : aget String.eqb x (sizes_of a) = match aget String.eqb x a with Some (One ts) => Some (SOne (bulk ts)) | Some (Each l) => Some (SEach (map bulk l)) | None => None end.
Proof. induction a as [|[y v] a IH]; [reflexivity|]. cbn [sizes_of map aget fst snd]. destruct (x =?s y); [destruct v; reflexivity|exact IH]. Qed.
Lemma each_sizes a l : each_size (sizes_of a) l = (fst (each_of a l), map bulk (snd (each_of a l))).
Proof.
  induction l as [|[t|x|l'|o l'] l IH]; try exact IH; [reflexivity|]. cbn [each_size each_of]. rewrite sizes_get. destruct (aget String.eqb x a) as [[ts|es]|]; [exact IH|reflexivity|exact IH].
Qed.
Fixpoint tpl_height (t : tpl) : nat := match t with TTok _ | TVar _ => 0 | TRep l | TGr _ l => S (list_max (map tpl_height l)) end.
Lemma inst_size k : forall t, tpl_height t <= k -> forall a, bulk (inst a t) = tpl_size (sizes_of a) t.
Proof.
  induction k as [|k IH]; intros t H a.
  - destruct t as [t|x|l|o l]; cbn [tpl_height] in H; try lia; cbn [inst tpl_size].
    + unfold bulk. cbn. lia.
    + rewrite sizes_get. destruct (aget String.eqb x a) as [[ts|es]|]; reflexivity.
  - assert (Go : forall l, list_max (map tpl_height l) <= k -> forall a, bulk (insts a l) = tpls_size (sizes_of a) l).
    { induction l as [|t' l IHl]; intros Hl a'; [reflexivity|]. cbn [insts tpls_size]. rewrite bulk_app. change (list_max (map tpl_height (t' :: l))) with (max (tpl_height t') (list_max (map tpl_height l))) in Hl.
      rewrite IH, IHl; [reflexivity|lia|lia]. }
    destruct t as [t|x|l|o l]; cbn [tpl_height] in H.
    + unfold bulk. cbn. lia.
    + cbn [inst tpl_size]. rewrite sizes_get. destruct (aget String.eqb x a) as [[ts|es]|]; reflexivity.
    + change (inst a (TRep l)) with (let '(x, es) := each_of a l in flat_map (fun e => insts ((x, One e) :: a) l) es).
      change (tpl_size (sizes_of a) (TRep l)) with (let '(x, es) := each_size (sizes_of a) l in list_sum (map (fun e => tpls_size ((x, SOne e) :: sizes_of a) l) es)).
      rewrite each_sizes. destruct (each_of a l) as [x es]. cbn [fst snd]. rewrite bulk_concat, map_map. f_equal. apply map_ext. intros e. rewrite Go by lia. reflexivity.
    + change (inst a (TGr o l)) with [Gr o (insts a l)]. change (tpl_size (sizes_of a) (TGr o l)) with (2 + tpls_size (sizes_of a) l).
      rewrite bulk_cons, bulk_gr, Go by lia. cbn. lia.
Qed.
Lemma quote_size s a : bulk (quote s a) = tpls_size (sizes_of a) (template s).
Proof.
  unfold quote. generalize (template s). induction l as [|t l IH]; [reflexivity|]. cbn [insts tpls_size]. rewrite bulk_app, IH. f_equal. now apply (inst_size (tpl_height t)).
Qed.
Lemma bulk_nil : bulk [] = 0.
Proof. reflexivity. Qed.
Ltac measure1 := rewrite ?quote_size;
  repeat match goal with |- context [template ?s] => let t := eval vm_compute in (template s) in change (template s) with t end;
  cbn [tpls_size tpl_size sizes_of map fst snd lit idn aget each_size toks];
  repeat match goal with |- context [?a =?s ?b] => let v := eval vm_compute in (a =?s b) in change (a =?s b) with v end;
  cbn [tpls_size tpl_size sizes_of map fst snd lit idn aget each_size toks]; rewrite ?bulk_cons, ?bulk_nil; cbn [toks].

Ltac measure := do 3 measure1.
Lemma ns_bulk ns : bulk (ns_tokens ns) <= 4.
Proof. destruct ns; vm_compute; lia. Qed.
Lemma lit_bulk l : bulk (lit_tokens l) <= 60.
Proof. unfold lit_tokens. measure. lia. Qed.
Lemma rx_bulk x : bulk (rx_tokens x) <= 80.
Proof. destruct x as [l|s|id]; cbn [rx_tokens]; measure; try pose proof (lit_bulk l); lia. Qed.
Lemma vec_bulk o ts : bulk (vec_tokens o ts) <= bulk ts + 30.
Proof. destruct o; cbn [vec_tokens]; measure; lia. Qed.
Lemma fr_bulk f : bulk (fr_tokens f) <= 160.
Proof.
  destruct f as [x|id x o|id x|n ns x o|n ns x|n ns x|n ns x]; cbn [fr_tokens];
    try match goal with |- context [vec_tokens ?o ?ts] => eapply Nat.le_trans; [apply vec_bulk|] end; measure; pose proof (rx_bulk x); try pose proof (ns_bulk ns); lia.
Qed.
Lemma field_from_bulk f : bulk (field_from_tokens f) <= 170.
Proof. unfold field_from_tokens. measure. pose proof (fr_bulk (snd f)). lia. Qed.
Lemma ax_bulk a : bulk (ax_tokens a) <= 60.
Proof. destruct a as [l|t|]; cbn [ax_tokens]; [apply lit_bulk| |]; measure; lia. Qed.
Lemma ra_bulk a : bulk (ra_tokens a) <= 110.
Proof. unfold ra_tokens. destruct (ra_opt a); measure; pose proof (ax_bulk (ra_conv a)); lia. Qed.
Lemma arm_bulk a : bulk (arm_tokens a) <= 150.
Proof. destruct a as [w id x|w n ns x|w n ns x]; cbn [arm_tokens]; measure; pose proof (rx_bulk x); try pose proof (ns_bulk ns); lia. Qed.
Lemma lk1_bulk k : bulk (lk1_tokens k) <= 16.
Proof. destruct k as [id|n ns]; cbn [lk1_tokens]; measure; try pose proof (ns_bulk ns); lia. Qed.
Lemma wx_bulk x : bulk (wx_tokens x) <= 60.
Proof. destruct x; cbn [wx_tokens]; measure; lia. Qed.
Lemma tagged_bulk w l : bulk (tagged_tokens w l) <= bulk l + 20.
Proof. unfold tagged_tokens, start_tokens, end_tokens. destruct w; [|lia]. rewrite !bulk_app. measure. lia. Qed.
Lemma wf_bulk w : bulk (wf_tokens w) <= 150.
Proof.
  unfold wf_tokens. pose proof (wx_bulk (wf_x w)). pose proof (tagged_bulk (wf_wrap w) (wx_tokens (wf_x w))).
  destruct (wf_new w), (wf_vec w), (wf_opt w); measure; rewrite ?bulk_app; measure; lia.
Qed.
Lemma wa_bulk a : bulk (wa_tokens a) <= 60.
Proof. unfold wa_tokens. destruct (wa_fixed a), (wa_opt a); measure; lia. Qed.
Lemma warm_bulk a : bulk (warm_tokens a) <= 130.
Proof. unfold warm_tokens. pose proof (wx_bulk (wm_x a)). destruct (wm_wrap a), (wm_vec a); measure; lia. Qed.
Lemma ns_decl_bulk d : bulk (ns_decl_tokens d) <= 8.
Proof. unfold ns_decl_tokens. destruct (is_empty _); measure; lia. Qed.
Lemma sum_le {A} (g : A -> nat) k l : (forall a, g a <= k) -> list_sum (map g l) <= k * length l.
Proof. intros H. induction l as [|a l IH]; [cbn; lia|]. change (list_sum (map g (a :: l))) with (g a + list_sum (map g l)). specialize (H a). cbn [length]. lia. Qed.
Definition read_parts (b : br) : nat := match b with BrTuple _ | BrEnum => 0 | BrStruct fs ats => length fs + length ats | BrChoice arms => length arms end.
Definition look_parts (k : lk) : nat := match k with LkTrue => 0 | LkOr l => length l end.
Definition write_parts (w : tw) : nat := match w with TwTuple _ _ | TwEnum => 0 | TwStruct ats _ b => length ats + match b with WbNone => 0 | WbLeaf _ _ => 1 | WbLeaves l => length l end | TwChoice _ arms => length arms end.
Definition decl_parts (d : decl) : nat := match d with DTuple _ _ => 0 | DEnum vs => length vs | DStruct fs => length fs | DChoice vs => length vs end.
Lemma read_bulk t : bulk (read_tokens t) <= 170 * read_parts (ti_read t) + 100.
Proof.
  unfold read_tokens. destruct (ti_read t) as [x| |fs ats|arms]; cbn [read_parts]; measure.
  - pose proof (rx_bulk x). lia.
  - lia.
  - rewrite bulk_app, !bulk_concat. pose proof (sum_le _ _ fs field_from_bulk). pose proof (sum_le _ _ ats ra_bulk). lia.
  - rewrite !map_map. match goal with |- context [list_sum (map ?g ?l)] => assert (list_sum (map g l) <= 160 * length l) by (apply sum_le; intros a; pose proof (arm_bulk a); lia) end. lia.
Qed.
Lemma look_bulk k : bulk (look_tokens k) <= 20 * look_parts k + 1.
Proof.
  destruct k as [|l]; cbn [look_tokens look_parts]; measure; [lia|]. rewrite !map_map.
  match goal with |- context [list_sum (map ?g ?l)] => assert (list_sum (map g l) <= 20 * length l) by (apply sum_le; intros a; pose proof (lk1_bulk a); lia) end. lia.
Qed.
Lemma write_bulk t : bulk (write_tokens t) <= 150 * write_parts (ti_write t) + 120.
Proof.
  unfold write_tokens. destruct (ti_write t) as [w x| |ats w b|w arms]; cbn [write_parts].
  - eapply Nat.le_trans; [apply tagged_bulk|]. measure. pose proof (wx_bulk x). lia.
  - measure. lia.
  - rewrite bulk_app, bulk_concat. pose proof (sum_le _ _ ats wa_bulk). pose proof (tagged_bulk w (wb_tokens b)).
    assert (bulk (wb_tokens b) <= 150 * match b with WbNone => 0 | WbLeaf _ _ => 1 | WbLeaves l => length l end).
    { destruct b as [|f x|l]; cbn [wb_tokens]; [cbn; lia|measure; pose proof (wx_bulk x); lia|]. rewrite bulk_concat. apply (sum_le _ _ l wf_bulk). }
    lia.
  - eapply Nat.le_trans; [apply tagged_bulk|]. measure. rewrite !map_map.
    match goal with |- context [list_sum (map ?g ?l)] => assert (list_sum (map g l) <= 150 * length l) by (apply sum_le; intros a; pose proof (warm_bulk a); lia) end. lia.
Qed.
Lemma to_xml_bulk t : bulk (to_xml_tokens t) <= 150 * write_parts (ti_write t) + 12 * length (ti_nss t) + 400.
Proof.
  unfold to_xml_tokens. measure. rewrite !map_map. pose proof (write_bulk t).
  match goal with |- context [list_sum (map ?g ?l)] => assert (list_sum (map g l) <= 12 * length l) by (apply sum_le; intros a; pose proof (ns_decl_bulk a); lia) end. lia.
Qed.
Lemma from_xml_bulk t : bulk (from_xml_tokens t) <= 170 * read_parts (ti_read t) + 300.
Proof. unfold from_xml_tokens. measure. pose proof (read_bulk t). pose proof (ns_bulk (ti_read_ns t)). lia. Qed.
Lemma lookahead_bulk t : bulk (lookahead_tokens t) <= 20 * look_parts (ti_look t) + 40.
Proof. unfold lookahead_tokens. measure. pose proof (look_bulk (ti_look t)). lia. Qed.
Lemma conversion_bulk t : bulk (conversion_tokens t) <= 20 * decl_parts (ti_decl t) + 300.
Proof.
  unfold conversion_tokens. destruct (ti_decl t) as [ty [|]|vs|fs|vs]; cbn [decl_parts]; try (cbn; lia); measure; [lia|]. rewrite !map_map.
  repeat match goal with |- context [list_sum (map ?g ?l)] =>
    let x := fresh "x" in set (x := list_sum (map g l)); assert (x <= 10 * length l) by (apply sum_le; intros a; cbn beta; measure; lia); clearbody x end. lia.
Qed.

(** ** Generated types *)
Section WithLibs.
Context {L : Libs}.
Ltac unbind H := repeat (let E := fresh "E" in
  match type of H with bind ?m _ = Ok _ => destruct m eqn:E; cbn [bind] in H; [|discriminate H|discriminate H|discriminate H] end).
Lemma content_bulk k c ct : forall t, content_to_impl k c ct = Ok t -> bulk (rty_tokens t) <= 3.
Proof.
  revert ct. induction k as [|k IH]; intros ct t H; destruct ct as [l|n|s]; cbn [content_to_impl] in H;
    try (injection H as <-; destruct (lit_prim l); cbn; lia); try (injection H as <-; cbn; lia);
    destruct (sc_get c n) as [[d|ns|e|ch]|]; try discriminate; try (unbind H; injection H as <-; cbn; lia). exact (IH _ _ H).
Qed.
Lemma wrap_bulk o v t : bulk (rty_tokens t) <= 3 -> bulk (rty_tokens (wrap_opt o (wrap_vec v t))) <= 9.
Proof. intros H. destruct o, v; cbn [wrap_opt wrap_vec rty_tokens]; rewrite ?bulk_app, ?bulk_cons, ?bulk_nil; rewrite ?bulk_app, ?bulk_cons, ?bulk_nil; cbn [toks]; lia. Qed.
Definition typed_field (x : string * rty) : Prop := bulk (rty_tokens (snd x)) <= 9.
Lemma mapM_each {E A B} (g : A -> res E B) (Q : B -> Prop) l : (forall a b, g a = Ok b -> Q b) -> forall bs, mapM g l = Ok bs -> Forall Q bs.
Proof.
  intros H. induction l as [|a l IH]; intros bs K; cbn [mapM] in K; [injection K as <-; constructor|]. unbind K. injection K as <-. constructor; eauto.
Qed.
Lemma leaf_typed k c l x : leaf_to_impl k c l = Ok x -> typed_field x.
Proof. unfold leaf_to_impl. intros H. unbind H. injection H as <-. unfold typed_field. cbn [snd]. apply wrap_bulk. eapply content_bulk. exact E0. Qed.
Lemma attr_typed k c l x : attr_to_impl k c l = Ok x -> typed_field x.
Proof. unfold attr_to_impl. intros H. unbind H. injection H as <-. unfold typed_field. cbn [snd]. change a0 with (wrap_vec false a0). apply wrap_bulk. eapply content_bulk. exact E0. Qed.
Lemma doc_bulk o : bulk (doc_tokens o) <= 6.
Proof. destruct o as [s|]; cbn [doc_tokens]; [destruct (is_empty s)|]; cbn; lia. Qed.
Lemma field_bulk o f : typed_field f -> bulk (field_tokens o f) <= 20.
Proof. unfold typed_field, field_tokens. intros H. rewrite !bulk_app. pose proof (doc_bulk o). cbn [bulk map list_sum fold_right toks]. unfold bulk in *. cbn [map list_sum fold_right toks] in *. lia. Qed.
Lemma fields_bulk ds : forall fs, Forall typed_field fs -> bulk (concat (map (fun x => field_tokens (fst x) (snd x)) (combine ds fs))) <= 20 * length fs.
Proof.
  induction ds as [|o ds IH]; intros fs F; [cbn; lia|]. destruct F as [|f fs Hf F]; [cbn; lia|]. cbn [combine map concat fst snd length]. rewrite bulk_app. pose proof (field_bulk o f Hf). specialize (IH fs F). lia.
Qed.
Definition typed_decl (d : decl) : Prop := match d with DTuple t _ => bulk (rty_tokens t) <= 3 | DEnum _ => True | DStruct fs => Forall typed_field fs | DChoice vs => Forall typed_field vs end.
Lemma declaration_bulk r d : typed_decl d -> bulk (declaration_tokens r d) <= 20 * decl_parts d + 10.
Proof.
  destruct d as [t b|vs|fs|vs]; cbn [typed_decl declaration_tokens decl_parts]; intros H; rewrite !bulk_cons, ?bulk_nil, bulk_gr; cbn [toks].
  - rewrite bulk_cons. cbn [toks]. lia.
  - rewrite bulk_concat. pose proof (sum_le (fun v : string * string => bulk [Id (fst v); Pu ","]) 2 vs (fun _ => le_n _)). lia.
  - pose proof (fields_bulk (match r with RootElement e => field_docs e | _ => [] end) fs H). lia.
  - rewrite bulk_concat. assert (list_sum (map (fun a => bulk (variant_tokens a)) vs) <= 20 * length vs); [|lia].
    induction H as [|v vs Hv H IH]; [cbn; lia|]. change (list_sum (map (fun a => bulk (variant_tokens a)) (v :: vs))) with (bulk (variant_tokens v) + list_sum (map (fun a => bulk (variant_tokens a)) vs)).
    unfold variant_tokens at 1. rewrite !bulk_cons, bulk_nil, bulk_gr. unfold typed_field in Hv. cbn [toks length]. lia.
Qed.
Lemma enum_names_length names : forall taken count l, escape_enum_go names taken count = Some l -> length l <= length names + length taken.
Proof.
  induction names as [|n names IH]; intros taken count l H; cbn [escape_enum_go] in H; [injection H as <-; cbn; lia|].
  destruct (enum_fresh _ _ _ _) as [[v k]|]; [|discriminate]. apply IH in H.
  assert (length (aset String.eqb v n taken) <= S (length taken)). { clear. induction taken as [|[a b] l IH]; cbn [aset length]; [lia|]. destruct (v =?s a); cbn [length]; lia. }
  cbn [length]. lia.
Qed.
Lemma declaration_parts k c r d : root_to_declaration k c r = Ok d -> typed_decl d /\ decl_parts d <= parts r.
Proof.
  destruct r as [ld|ns|e|ch]; cbn [root_to_declaration]; intros H.
  - unbind H. injection H as <-. cbn [typed_decl decl_parts]. split; [eapply content_bulk; exact E|lia].
  - unbind H. injection H as <-. cbn [typed_decl decl_parts parts]. split; [exact I|]. unfold enum_variants in E. destruct (escape_enum_names ns) as [l|] eqn:En; [|discriminate].
    apply mapM_len in E. apply enum_names_length in En. cbn [length] in En. lia.
  - unfold element_to_impl in H. unbind H. injection H as <-. cbn [typed_decl decl_parts parts]. rewrite app_length.
    assert (F0 : Forall typed_field a0) by (eapply mapM_each; [|exact E0]; apply attr_typed). apply mapM_len in E0.
    destruct (ed_content e) as [[n def|ls]|].
    + unbind E. injection E as <-. split; [apply Forall_app; split; [|exact F0]|cbn [length]; lia]. constructor; [|constructor]. unfold typed_field. cbn [snd]. apply content_bulk in E2. lia.
    + split; [apply Forall_app; split; [|exact F0]; eapply mapM_each; [|exact E]; apply leaf_typed|]. apply mapM_len in E. lia.
    + injection E as <-. cbn [app length]. split; [exact F0|lia].
  - unbind H. injection H as <-. cbn [typed_decl decl_parts parts]. split; [|apply mapM_len in E; lia]. eapply mapM_each; [|exact E]. intros l b K. cbn beta in K. unbind K. injection K as <-.
    unfold typed_field. cbn [snd]. change (wrap_vec (lf_is_vec l) a1) with (wrap_opt false (wrap_vec (lf_is_vec l) a1)). apply wrap_bulk. eapply content_bulk. exact E1.
Qed.
Lemma xml_parts k c r w : root_to_xml k c r = Ok w -> write_parts w <= parts r.
Proof.
  destruct r as [ld|ns|e|ch]; cbn [root_to_xml]; intros H; try (unbind H; injection H as <-; cbn [write_parts parts]; lia); try (injection H as <-; cbn [write_parts]; lia).
  - unfold element_to_xml in H. unbind H. injection H as <-. apply mapM_len in E. cbn [write_parts parts]. destruct (ed_content e) as [[n def|ls]|].
    + unbind E0. injection E0 as <-. lia.
    + unbind E0. injection E0 as <-. apply mapM_len in E1. lia.
    + injection E0 as <-. lia.
  - unbind H. injection H as <-. apply mapM_len in E. cbn [write_parts parts]. lia.
Qed.
Lemma from_parts k c r b : root_from_xml k c r = Ok b -> read_parts b <= parts r.
Proof.
  destruct r as [ld|ns|e|ch]; cbn [root_from_xml]; intros H; try (unbind H; injection H as <-; cbn [read_parts parts]; lia); try (injection H as <-; cbn [read_parts]; lia).
  - unfold element_from_xml in H. unbind H. injection H as <-. apply mapM_len in E0. cbn [read_parts parts]. destruct (ed_content e) as [[n def|ls]|].
    + unbind E. injection E as <-. cbn [length]. lia.
    + apply mapM_len in E. lia.
    + injection E as <-. cbn [length]. lia.
  - unbind H. injection H as <-. apply mapM_len in E. cbn [read_parts parts]. lia.
Qed.
Lemma lookahead_parts c r k : root_lookahead c r = Ok k -> look_parts k <= parts r.
Proof.
  destruct r as [ld|ns|e|ch]; cbn [root_lookahead]; intros H; try (injection H as <-; cbn [look_parts]; lia).
  - cbn [parts]. destruct (ed_content e) as [[n def|ls]|]; try (injection H as <-; cbn [look_parts length]; lia). unbind H. injection H as <-. cbn [look_parts].
    assert (length a <= length ls); [|lia]. revert a E. induction ls as [|l ls IH]; intros a E; cbn [leaves_look] in E; [injection E as <-; cbn; lia|].
    unbind E. destruct (lf_is_optional l); [unbind E; injection E as <-; cbn [length]; specialize (IH _ eq_refl); lia|injection E as <-; cbn [length]; lia].
  - unbind H. injection H as <-. apply mapM_len in E. cbn [look_parts parts]. lia.
Qed.
Lemma nss_parts c l : element_nss c = Ok l -> length l <= S (namespaces_of c).
Proof.
  unfold element_nss, namespaces_of. intros H. unbind H. injection H as <-. rewrite app_length.
  assert (length a <= 1). { destruct (sc_qualified c); [|injection E as <-; cbn; lia]. destruct (sc_target c); try (injection E as <-; cbn; lia). destruct (get_by_id _ _); [injection E as <-; cbn; lia|discriminate]. }
  match goal with |- _ + length (flat_map ?g ?m) <= _ => assert (length (flat_map g m) <= length m) end; [|lia].
  clear. induction (by_id (sc_namespaces c)) as [|x m IH]; [cbn; lia|]. cbn [flat_map length]. rewrite app_length. destruct (andb _ _); cbn [length]; lia.
Qed.
Lemma item_bulk k c n r t : sc_get c n = Some r -> generate_element k c n = Ok t ->
  bulk (element_tokens r t) <= 1300 + 380 * parts r + 12 * namespaces_of c.
Proof.
  intros Eg H. unfold generate_element in H. rewrite Eg in H. unbind H. injection H as <-. apply declaration_parts in E0. destruct E0 as [T0 P0]. apply xml_parts in E1. apply nss_parts in E3.
  apply from_parts in E5. apply lookahead_parts in E6.
  unfold element_tokens, impl_tokens, item_tokens. rewrite !bulk_app.
  match goal with |- context [conversion_tokens ?t] => pose proof (conversion_bulk t) as B1; pose proof (to_xml_bulk t) as B2; pose proof (from_xml_bulk t) as B3; pose proof (lookahead_bulk t) as B4 end.
  cbn [ti_decl ti_nss ti_write ti_read ti_look ti_id] in *. pose proof (declaration_bulk r a0 T0) as B5. pose proof (doc_bulk (root_docs r)) as B6.
  unfold bulk in B5, B6 |- *. cbn [map list_sum fold_right toks] in *. unfold bulk in *. lia.
Qed.
(** From below: the declarations of the namespaces. *)
Lemma sum_ge {A} (g : A -> nat) k l : (forall a, k <= g a) -> k * length l <= list_sum (map g l).
Proof. intros H. induction l as [|a l IH]; [cbn; lia|]. cbn [map length]. change (list_sum (g a :: map g l)) with (g a + list_sum (map g l)). specialize (H a). lia. Qed.
Lemma ns_decl_least d : 5 <= bulk (ns_decl_tokens d).
Proof. unfold ns_decl_tokens. destruct (is_empty (fst d)); measure; lia. Qed.
Lemma to_xml_least t : 100 + 5 * length (ti_nss t) <= bulk (to_xml_tokens t).
Proof.
  unfold to_xml_tokens. measure. rewrite !map_map.
  match goal with |- context [list_sum (map ?g ?l)] => assert (5 * length l <= list_sum (map g l)) by (apply sum_ge; intros a; pose proof (ns_decl_least a); lia) end. lia.
Qed.
Lemma nss_least c l : NoDup (map fst (by_id (sc_namespaces c))) -> element_nss c = Ok l -> namespaces_of c <= length l.
Proof.
  unfold element_nss, namespaces_of. intros N H. unbind H. injection H as <-. rewrite app_length. set (b := by_id (sc_namespaces c)) in *.
  assert (K : forall i, length b <= S (length (flat_map (fun e : nat * ns_def => if andb (sc_qualified c) (namespace_eqb (NsId (fst e)) (NsId i)) then [] else [(nd_prefix (snd e), nd_uri (snd e))]) b))).
  { intros i. clearbody b. clear E. induction b as [|[j d] b IH]; [cbn; lia|]. cbn [map fst] in N. inversion N as [|? ? Nj Nb]; subst. cbn [flat_map length fst snd]. rewrite app_length.
    destruct (andb (sc_qualified c) (namespace_eqb (NsId j) (NsId i))) eqn:Ej; cbn [length]; [|specialize (IH Nb); lia].
    apply andb_true_iff in Ej. destruct Ej as [_ Ej]. cbn [namespace_eqb] in Ej. apply Nat.eqb_eq in Ej. subst j. clear IH N.
    enough (length b = length (flat_map (fun e : nat * ns_def => if andb (sc_qualified c) (namespace_eqb (NsId (fst e)) (NsId i)) then [] else [(nd_prefix (snd e), nd_uri (snd e))]) b)) by lia.
    induction b as [|[j d'] b IH]; [reflexivity|]. cbn [map fst flat_map length snd] in *. inversion Nb; subst. rewrite app_length.
    assert (i <> j) by (intros ->; apply Nj; now left). assert (namespace_eqb (NsId j) (NsId i) = false) as -> by (cbn [namespace_eqb]; apply Nat.eqb_neq; congruence). rewrite andb_false_r. cbn [length]. rewrite <- IH; [lia| |assumption]. intros Hi. apply Nj. now right. }
  assert (Z : sc_qualified c = false \/ sc_target c = NsNone -> length b <= length (flat_map (fun e : nat * ns_def => if andb (sc_qualified c) (namespace_eqb (NsId (fst e)) (sc_target c)) then [] else [(nd_prefix (snd e), nd_uri (snd e))]) b)).
  { intros Hz. clear -Hz. assert (Hf : forall j, andb (sc_qualified c) (namespace_eqb (NsId j) (sc_target c)) = false) by (intros j; destruct Hz as [-> | ->]; [reflexivity|apply andb_false_r]).
    clear Hz. induction b as [|[j d] b IH]; [cbn; lia|]. cbn [flat_map length fst snd]. rewrite app_length, Hf. cbn [length]. lia. }
  destruct (sc_qualified c) eqn:Eq.
  2: { specialize (Z (or_introl eq_refl)). eapply Nat.le_trans; [exact Z|]. apply Nat.le_add_l. }
  destruct (sc_target c) as [|i] eqn:Et.
  { specialize (Z (or_intror eq_refl)). eapply Nat.le_trans; [exact Z|]. apply Nat.le_add_l. }
  specialize (K i). destruct (get_by_id _ _); [|discriminate]. injection E as <-. eapply Nat.le_trans; [exact K|]. apply le_n.
Qed.
Lemma item_least k c n r t : NoDup (map fst (by_id (sc_namespaces c))) -> generate_element k c n = Ok t -> 100 + 5 * namespaces_of c <= bulk (element_tokens r t).
Proof.
  intros N H. unfold generate_element in H. destruct (sc_get c n); [|discriminate]. unbind H. injection H as <-. apply (nss_least _ _ N) in E3.
  unfold element_tokens, impl_tokens, item_tokens. rewrite !bulk_app.
  match goal with |- context [to_xml_tokens ?t] => pose proof (to_xml_least t) as B end. cbn [ti_nss] in B. lia.
Qed.
End WithLibs.
