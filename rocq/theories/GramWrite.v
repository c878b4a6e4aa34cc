(** * GramWrite: the tokens of the writing functions read as their trees (C70) *)
From Verif Require Import Base Libs Xml Ast Gen Run Emit Quote Impl Rust Body RustSpec EmitSpec GramSpec GramRules GramProof GramRead.
From Coq Require Import Lia.

Definition untyped_stm (s : stm) : stm := match s with SLet x e => SLet x (untyped e) | SExpr e => SExpr (untyped e) end.
Lemma unit_tail_untyped e : unit_tail (untyped e) = unit_tail e.
Proof.
  revert e. fix IH 1. intros e. destruct e; try reflexivity; cbn [untyped unit_tail].
  - destruct e3; cbn [untyped]; try reflexivity. destruct e2; cbn [untyped]; try reflexivity.
    specialize (IH e2). destruct e2; cbn [untyped] in *; try reflexivity; exact IH.
  - destruct e3; cbn [untyped]; try reflexivity. destruct e2; cbn [untyped]; try reflexivity.
    specialize (IH e2). destruct e2; cbn [untyped] in *; try reflexivity; exact IH.
Qed.
Lemma untyped_block l e : untyped (EBlock l e) = EBlock (map untyped_stm l) (untyped e).
Proof. reflexivity. Qed.
Lemma untyped_unit_block l : untyped (unit_block l) = unit_block (map untyped_stm l).
Proof.
  unfold unit_block. rewrite <- map_rev. destruct (rev l) as [|[x e|e] r] eqn:E; cbn [map untyped_stm]; try reflexivity.
  rewrite unit_tail_untyped. destruct (unit_tail e); rewrite untyped_block; [|reflexivity]. now rewrite map_rev.
Qed.

(** Where the tokens of [to_xml_writer] stand. *)
Record writing (c : scope) : Prop := mkWriting {
  wr_self : in_scope "self" c = true;
  wr_ctx : in_scope "ctx" c = true;
  wr_writer : in_scope "writer" c = true;
  wr_ok : in_scope "Ok" c = false;
  wr_uses : sc_uses c = [("XmlEvent", "::xsd::xml::writer::events::XmlEvent")]
}.
Lemma writing_bind x c : member x given = true -> writing c -> writing (bind_var x c).
Proof.
  intros H [A B C D E]. unfold member in H. apply existsb_exists in H as (y & I & Q). apply String.eqb_eq in Q as ->.
  repeat (destruct I as [<-|I]; [constructor; rewrite ?in_bind; cbn [String.eqb Ascii.eqb Bool.eqb orb]; auto|]). destruct I.
Qed.
Lemma writing_pat q c : Forall (fun x => member x given = true) (pat_vars q) -> writing c -> writing (bind_pat q c).
Proof. intros H W. unfold bind_pat. induction H; [exact W|]. cbn [fold_right]. now apply writing_bind. Qed.
Ltac writes W := destruct W as [Wself Wctx Wwriter Wok Wuses].

(** ** Statements and what follows *)
Definition Then (c : scope) (ts : list tok) (l : list stm) : Prop := forall rest k e,
  rest <> [] -> eat (is_id "else") rest = None -> (forall c', writing c' -> Tp c' rest k e) -> Tp c (ts ++ rest) (map untyped_stm l ++ k) e.
(** As the last statements of a block. *)
Definition Ends (c : scope) (ts : list tok) (l : list stm) : Prop := exists l' e,
  Tp c ts l' e /\ forall pre, unit_block (pre ++ map untyped_stm l) = EBlock (pre ++ l') e.
Lemma Ends_K c ts l r : Ends c ts l -> Kp c (Gr "{" ts :: r) (untyped (unit_block l)) r.
Proof. intros (l' & e & T & H). rewrite untyped_unit_block. pose proof (H []) as E. cbn [app] in E. rewrite E. now apply K_block. Qed.
Lemma Ends_B c ts l r : Ends c ts l -> Bp c (Gr "{" ts :: r) (untyped (unit_block l)) r.
Proof. intros (l' & e & T & H). rewrite untyped_unit_block. pose proof (H []) as E. cbn [app] in E. rewrite E. now apply B_block. Qed.
Lemma unit_block_snoc l e : unit_block (l ++ [SExpr e]) = if unit_tail e then EBlock l e else EBlock (l ++ [SExpr e]) EUnit.
Proof. unfold unit_block. rewrite rev_app_distr. cbn [rev app]. now rewrite rev_involutive. Qed.
(** A last statement with a semicolon; without. *)
Lemma Ends_closed c ts l e : Tp c ts (map untyped_stm (l ++ [SExpr e])) EUnit -> unit_tail e = false -> Ends c ts (l ++ [SExpr e]).
Proof.
  intros T U. exists (map untyped_stm (l ++ [SExpr e])), EUnit. split; auto. intros pre.
  rewrite map_app, app_assoc. cbn [map untyped_stm]. rewrite unit_block_snoc, unit_tail_untyped, U. reflexivity.
Qed.
Lemma Ends_open c ts l e : Tp c ts (map untyped_stm l) (untyped e) -> unit_tail e = true -> Ends c ts (l ++ [SExpr e]).
Proof.
  intros T U. exists (map untyped_stm l), (untyped e). split; auto. intros pre.
  rewrite map_app, app_assoc. cbn [map untyped_stm]. rewrite unit_block_snoc, unit_tail_untyped, U. reflexivity.
Qed.
Lemma Ends_cons c c' ts rest s l : (forall k e, Tp c' rest k e -> Tp c ts (untyped_stm s :: k) e) -> Ends c' rest l -> Ends c ts (s :: l).
Proof.
  intros H (k & e & T & U). exists (untyped_stm s :: k), e. split; auto. intros pre. cbn [map].
  change (untyped_stm s :: map untyped_stm l) with ([untyped_stm s] ++ map untyped_stm l). rewrite app_assoc, U, <- app_assoc. reflexivity.
Qed.
Lemma unit_tail_block l : match unit_block l with EBlock _ EUnit => true | EBlock _ e => unit_tail e | _ => false end = true.
Proof.
  unfold unit_block. destruct (rev l) as [|[x e|e] r]; try reflexivity. destruct (unit_tail e) eqn:E; [|reflexivity].
  destruct e; try discriminate; auto.
Qed.
Lemma Then_app c ts l ts' l' : Then c ts l -> (forall c', writing c' -> Then c' ts' l') -> eat (is_id "else") ts' = None -> Then c (ts ++ ts') (l ++ l').
Proof.
  intros A B N rest k e NR NE H. rewrite <- app_assoc, map_app, <- app_assoc. apply A.
  - destruct ts'; [exact NR|discriminate].
  - destruct ts'; [exact NE|]. cbn [app eat] in *. destruct (is_id "else" t); [discriminate|reflexivity].
  - intros c' W. now apply B.
Qed.
Lemma Then_nil c : writing c -> Then c [] [].
Proof. intros W rest k e N NE H. cbn [map app]. now apply H. Qed.

(** ** Content *)
Lemma T_eq' c ts l e l' : Tp c ts l e -> l = l' -> Tp c ts l' e.
Proof. now intros ? <-. Qed.
Ltac follow := match goal with H : forall c', writing c' -> Tp c' ?rest _ _ |- Tp _ ?rest _ _ => apply H; repeat first [apply writing_bind; [reflexivity|] | assumption] end.
#[global] Hint Extern 2 (Tp _ _ _ _) => follow : pieces.
Lemma start_then c : writing c -> Then c start_tokens [start_tag].
Proof.
  intros W rest k e N NE H. pose proof W as W'. writes W'. unfold start_tokens. tokens. eapply T_eq'; [parse|reflexivity].
Qed.
Lemma end_then c : writing c -> Then c end_tokens [end_tag].
Proof.
  intros W rest k e N NE H. pose proof W as W'. writes W'. unfold end_tokens. tokens. eapply T_eq'; [parse|reflexivity].
Qed.
Lemma wx_then c x : writing c -> in_scope "val" c = true -> Then c (wx_tokens x) (wx_code x).
Proof.
  intros W V rest k e N NE H. pose proof W as W'. writes W'. destruct x; unfold wx_tokens; tokens; (eapply T_eq'; [parse|reflexivity]).
Qed.
#[global] Hint Extern 1 (writing _) => solve [repeat first [apply writing_bind; [reflexivity|] | assumption]] : pieces.
Lemma wx_ends c x : writing c -> in_scope "val" c = true -> Ends c (wx_tokens x) (wx_code x).
Proof.
  intros W V. pose proof W as W'. writes W'. destruct x as [|s|id]; unfold wx_tokens; tokens.
  - apply (Ends_open _ _ [SLet "val" (str_of (v "val"))]); [|reflexivity]. eapply T_eq; [parse|reflexivity|reflexivity].
  - apply (Ends_closed _ _ []); [|reflexivity]. eapply T_eq; [parse|reflexivity|reflexivity].
  - apply (Ends_closed _ _ []); [|reflexivity]. eapply T_eq; [parse|reflexivity|reflexivity].
Qed.
Lemma Then_T c ts l rest k e : Then c ts l -> rest <> [] -> eat (is_id "else") rest = None -> (forall c', writing c' -> Tp c' rest k e) ->
  Tp c (ts ++ rest) (map untyped_stm l ++ k) e.
Proof. intros H. apply H. Qed.
Lemma tagged_then c wrap ts l : writing c -> (forall c', writing c' -> Then c' ts l) -> eat (is_id "else") ts = None ->
  Then c (tagged_tokens wrap ts) (tagged wrap l).
Proof.
  intros W H N. destruct wrap; cbn [tagged_tokens tagged]; [|now apply H].
  apply (Then_app c start_tokens [start_tag]); [now apply start_then| |].
  - intros c1 W1. apply Then_app; [now apply H|intros; now apply end_then|reflexivity].
  - destruct ts as [|t ts]; [reflexivity|]. cbn [app eat] in *. destruct (is_id "else" t); [discriminate|reflexivity].
Qed.
Lemma tagged_ends c wrap x : writing c -> in_scope "val" c = true ->
  Ends c (tagged_tokens wrap (wx_tokens x)) (tagged wrap (wx_code x)).
Proof.
  intros W V. destruct wrap; cbn [tagged_tokens tagged]; [|now apply wx_ends].
  apply (Ends_closed _ _ (start_tag :: wx_code x)); [|reflexivity].
  cbn [app map]. rewrite map_app.
  assert (E : Tp c (wx_tokens x ++ [Id "ctx"; Pu "."; Id "write_end_element"; Gr "(" [Id "writer"]; Pu "?"; Pu ";"])
    (map untyped_stm (wx_code x) ++ [untyped_stm end_tag]) EUnit).
  { apply wx_then; auto; [discriminate|]. intros c' C. writes C. eapply T_eq; [parse|reflexivity|reflexivity]. }
  pose proof W as W'. writes W'. unfold start_tokens, end_tokens. tokens.
  eapply T_eq; [parse|reflexivity|reflexivity].
Qed.
Definition new_tokens (n : option string) : list tok :=
  match n with
  | Some n => quote "let mut ctx = ::xsd::Context::new(#name_xml);" [("name_xml", lit n)]
  | None => quote "let mut ctx = ::xsd::Context::wrap(&mut ctx);" []
  end.
Definition new_code (n : option string) : stm :=
  match n with
  | Some n => SLet "ctx" (ECall (PLib "::xsd::Context::new") None [EStr n])
  | None => SLet "ctx" (ECall (PLib "::xsd::Context::wrap") None [ERef (v "ctx")])
  end.
Lemma new_ends c n ts l : writing c -> Ends (bind_var "ctx" c) ts l -> Ends c (new_tokens n ++ ts) (new_code n :: l).
Proof.
  intros W H. pose proof W as W'. writes W'. eapply Ends_cons; [|exact H]. intros k e T.
  destruct n; unfold new_tokens; tokens; (eapply T_eq'; [parse|reflexivity]).
Qed.
Definition for_tokens (vec : bool) (ts : list tok) : list tok := if vec then quote "for val in val { #tn }" [("tn", One ts)] else ts.
Definition for_code (vec : bool) (l : list stm) : list stm := if vec then [SExpr (EFor "val" (v "val") (unit_block l))] else l.
Lemma for_ends c vec ts l : writing c -> in_scope "val" c = true ->
  (forall c', writing c' -> in_scope "val" c' = true -> Ends c' ts l) -> Ends c (for_tokens vec ts) (for_code vec l).
Proof.
  intros W V H. destruct vec; [|now apply H]. unfold for_tokens, for_code. tokens.
  assert (K : forall r, Kp (bind_var "val" c) (Gr "{" ts :: r) (untyped (unit_block l)) r).
  { intros r. apply Ends_K, H; [now apply writing_bind|reflexivity]. }
  apply (Ends_open _ _ []); [|reflexivity]. apply T_block_end; [reflexivity|].
  eapply B_eq; [eapply B_for; [reflexivity|reflexivity|parse|apply K]|reflexivity].
Qed.
Definition if_tokens (opt : bool) (ts : list tok) : list tok := if opt then quote "if let Some(val) = val { #tn }" [("tn", One ts)] else ts.
Definition if_code (opt : bool) (l : list stm) : list stm := if opt then [SExpr (EIfLet (PSome "val") (v "val") (unit_block l) EUnit)] else l.
Lemma if_ends c opt ts l : writing c -> in_scope "val" c = true ->
  (forall c', writing c' -> in_scope "val" c' = true -> Ends c' ts l) -> Ends c (if_tokens opt ts) (if_code opt l).
Proof.
  intros W V H. destruct opt; [|now apply H]. unfold if_tokens, if_code. tokens.
  assert (K : forall r, Kp (bind_pat (PSome "val") c) (Gr "{" ts :: r) (untyped (unit_block l)) r).
  { intros r. apply Ends_K, H; [now apply writing_bind|reflexivity]. }
  apply (Ends_open _ _ []); [|cbn [unit_tail]; pose proof (unit_tail_block l) as U; exact U]. apply T_block_end; [reflexivity|].
  eapply B_eq; [eapply B_if_let; [reflexivity|reflexivity|parse|apply K|apply L_none; reflexivity]|reflexivity].
Qed.
Lemma wf_ends c w : writing c -> in_scope "val" c = true ->
  Ends c (if_tokens (wf_opt w) (for_tokens (wf_vec w) (new_tokens (wf_new w) ++ tagged_tokens (wf_wrap w) (wx_tokens (wf_x w)))))
    (if_code (wf_opt w) (for_code (wf_vec w) (new_code (wf_new w) :: tagged (wf_wrap w) (wx_code (wf_x w))))).
Proof.
  intros W V. apply if_ends; auto. intros c1 W1 V1. apply for_ends; auto. intros c2 W2 V2. apply new_ends; auto.
  apply tagged_ends; [now apply writing_bind|]. side.
Qed.
Lemma wf_then c w : writing c -> keyword (wf_field w) = false -> Then c (wf_tokens w) (wf_code w).
Proof.
  intros W F rest k e N NE H. pose proof W as W'. writes W'. unfold wf_tokens, wf_code.
  pose proof (Ends_B _ _ _ rest (wf_ends (bind_var "val" c) w ltac:(now apply writing_bind) eq_refl)) as B.
  unfold if_tokens, for_tokens, new_tokens in B. unfold if_code, for_code, new_code in B.
  set (ts := if wf_opt w then _ else _) in B |- *. set (l := if wf_opt w then _ else _) in B |- *.
  clearbody ts l. tokens. eapply T_eq'; [eapply T_let; [side|side|side|parse|side|]|].
  - eapply T_blk; [reflexivity|exact B|]. right. split; [assumption|]. eexists. split; [reflexivity|]. follow.
  - reflexivity.
Qed.
(** ** Attributes *)
Lemma wa_then c t a : writing c -> keyword (wa_field a) = false -> Then c (wa_tokens a) (wa_code t a).
Proof.
  intros W F rest k e N NE H. pose proof W as W'. writes W'. unfold wa_tokens, wa_code.
  destruct a as [f [|] n [s|]]; cbn [wa_field wa_opt wa_xml wa_fixed] in *; tokens; (eapply T_eq'; [parse|reflexivity]).
Qed.
(** ** Lists of statements *)
Lemma thens {A} (f : A -> list tok) (g : A -> list stm) l : (forall a, eat (is_id "else") (f a) = None) ->
  Forall (fun a => forall c, writing c -> Then c (f a) (g a)) l -> forall c, writing c -> Then c (flat_map f l) (flat_map g l).
Proof.
  intros E H. induction H as [|a l Ha H IH]; intros c W; [now apply Then_nil|]. cbn [flat_map]. apply Then_app; auto.
  clear - E. induction l as [|a l IH]; [reflexivity|]. cbn [flat_map]. specialize (E a). destruct (f a) as [|t ts]; [exact IH|].
  cbn [app eat] in *. destruct (is_id "else" t); [discriminate|reflexivity].
Qed.
Definition wbody_names (b : wbody) : Prop :=
  match b with
  | WbNone => True
  | WbLeaf f _ => keyword f = false
  | WbLeaves l => Forall (fun w => keyword (wf_field w) = false) l
  end.
Lemma wb_then c b : writing c -> wbody_names b -> Then c (wb_tokens b) (wb_code b).
Proof.
  intros W N. destruct b as [|f x|l]; cbn [wb_tokens wb_code wbody_names] in *.
  - now apply Then_nil.
  - intros rest k e NR NE H. pose proof W as W'. writes W'.
    assert (E : Tp (bind_var "val" c) (wx_tokens x ++ Pu ";" :: rest) (map untyped_stm (wx_code x) ++ k) e).
    { apply wx_then; [now apply writing_bind|reflexivity|discriminate|reflexivity|]. intros c' C. eapply T_empty; [reflexivity|]. now apply H. }
    tokens. rewrite <- ?app_assoc. cbn [app]. eapply T_eq'; [parse|reflexivity].
  - apply thens; auto. eapply Forall_impl; [|exact N]. intros w F c' C. now apply wf_then.
Qed.
(** ** Variants *)
Lemma warm_M c a ts l : writing c -> keyword (wm_variant a) = false -> Mp c ts l ->
  Mp c (warm_tokens a ++ Pu "," :: ts) ((fun a => (fst a, untyped (snd a))) (warm_code a) :: l).
Proof.
  intros W F H.
  assert (E : Ends (bind_var "val" c) (for_tokens (wm_vec a) (new_tokens (Some (wm_xml a)) ++ tagged_tokens (wm_wrap a) (wx_tokens (wm_x a))))
     (for_code (wm_vec a) (new_code (Some (wm_xml a)) :: tagged (wm_wrap a) (wx_code (wm_x a))))).
  { apply for_ends; [now apply writing_bind|reflexivity|]. intros c2 W2 V2. apply new_ends; auto.
    apply tagged_ends; [now apply writing_bind|]. side. }
  apply (fun E => Ends_B _ _ _ (Pu "," :: ts) E) in E.
  unfold warm_tokens, warm_code.
  assert (Q : (if wm_wrap a
    then quote "let mut ctx = ::xsd::Context::new(#name_xml);
             ctx.write_start_element(writer)?;
             #inner
             ctx.write_end_element(writer)?;" [("name_xml", lit (wm_xml a)); ("inner", One (wx_tokens (wm_x a)))]
    else quote "let mut ctx = ::xsd::Context::new(#name_xml);
             #inner" [("name_xml", lit (wm_xml a)); ("inner", One (wx_tokens (wm_x a)))])
    = new_tokens (Some (wm_xml a)) ++ tagged_tokens (wm_wrap a) (wx_tokens (wm_x a))).
  { destruct (wm_wrap a); unfold tagged_tokens, start_tokens, end_tokens, new_tokens; tokens; reflexivity. }
  cbv zeta. rewrite Q. unfold for_tokens in E. unfold for_code in E.
  set (is := if wm_vec a then _ else _) in E |- *. set (l' := if wm_vec a then _ else _) in E.
  clearbody is. tokens.
  eapply M_block; [discriminate|side|reflexivity|reflexivity|exact E|reflexivity|exact H].
Qed.
Lemma warms_M c arms : writing c -> Forall (fun a => keyword (wm_variant a) = false) arms ->
  Mp c (flat_map (fun a => warm_tokens a ++ [Pu ","]) arms) (map (fun a => (fst a, untyped (snd a))) (map warm_code arms)).
Proof.
  intros W H. induction H as [|a arms F H IH]; [apply M_nil|]. cbn [flat_map map]. rewrite <- app_assoc. now apply warm_M.
Qed.
(** ** to_xml_writer *)
Definition write_names (w : tw) : Prop :=
  match w with
  | TwTuple _ _ | TwEnum => True
  | TwStruct ats _ b => Forall (fun a => keyword (wa_field a) = false) ats /\ wbody_names b
  | TwChoice _ arms => Forall (fun a => keyword (wm_variant a) = false) arms
  end.
Lemma flat_else {A} (f : A -> list tok) l : (forall a, eat (is_id "else") (f a) = None) -> eat (is_id "else") (flat_map f l) = None.
Proof.
  intros E. induction l as [|a l IH]; [reflexivity|]. cbn [flat_map]. specialize (E a). destruct (f a) as [|t ts]; [exact IH|].
  cbn [app eat] in *. destruct (is_id "else" t); [discriminate|reflexivity].
Qed.
Lemma wb_else b : eat (is_id "else") (wb_tokens b) = None.
Proof. destruct b as [| |l]; try reflexivity. apply flat_else. reflexivity. Qed.
Lemma write_then c t : writing c -> write_names (ti_write t) -> Then c (write_tokens t) (write_code t).
Proof.
  intros W N. unfold write_tokens, write_code. destruct (ti_write t) as [wrap x| |ats wrap b|wrap arms]; cbn [write_names] in N.
  - apply tagged_then; auto. intros c' C rest k e NR NE H.
    assert (E : Tp (bind_var "val" c') (wx_tokens x ++ rest) (map untyped_stm (wx_code x) ++ k) e)
      by (apply wx_then; [now apply writing_bind|reflexivity|assumption|assumption|assumption]).
    writes C. tokens. eapply T_eq'; [parse|reflexivity].
  - intros rest k e NR NE H. pose proof W as W'. writes W'. tokens. eapply T_eq'; [parse|reflexivity].
  - destruct N as [NA NB]. apply Then_app.
    + apply thens; auto.
      * intros [f [|] n [s|]]; reflexivity.
      * eapply Forall_impl; [|exact NA]. intros a F c' C. now apply wa_then.
    + intros c' C. apply tagged_then; auto; [intros; now apply wb_then|apply wb_else].
    + destruct wrap; [reflexivity|apply wb_else].
  - apply tagged_then; auto. intros c' C rest k e NR NE H.
    pose proof (warms_M c' arms C N) as M. pose proof C as C'. writes C'. tokens.
    replace (flat_map _ _) with (flat_map (fun a => warm_tokens a ++ [Pu ","]) arms) by (rewrite !flat_map_concat_map, map_map; reflexivity).
    eapply T_eq'; [parse|reflexivity].
Qed.
Lemma ns_T d : forall c, writing c -> Then c (Id "ctx" :: ns_decl_tokens d ++ [Pu ";"]) [ns_stm d].
Proof.
  intros c W rest k e N NE H. pose proof W as W'. writes W'. destruct d as [q u]. unfold ns_decl_tokens, ns_stm. cbn [fst snd].
  destruct (is_empty q); tokens; (eapply T_eq'; [parse|reflexivity]).
Qed.
Definition writer_body (t : titem) : list tok :=
  quote "use ::xsd::xml::writer::events::XmlEvent;

         #(ctx #element_ns;)*
         #to_xml

         Ok(())" [("element_ns", Each (map ns_decl_tokens (ti_nss t))); ("to_xml", One (write_tokens t))].
Lemma writer_T t : write_names (ti_write t) -> Tp (sc (ti_id t) ["writer"; "ctx"; "self"]) (writer_body t)
  (map untyped_stm (map ns_stm (ti_nss t) ++ write_code t)) (untyped (ECall (PName "Ok") None [EUnit])).
Proof.
  intros N. unfold writer_body. tokens. eapply T_use; [reflexivity|reflexivity|].
  set (c := import _ _ _).
  assert (W : writing c) by (constructor; reflexivity).
  replace (flat_map _ _) with (flat_map (fun d => Id "ctx" :: ns_decl_tokens d ++ [Pu ";"]) (ti_nss t))
    by (rewrite !flat_map_concat_map, map_map; reflexivity).
  replace (map ns_stm (ti_nss t)) with (flat_map (fun d => [ns_stm d]) (ti_nss t)).
  2: { clear. induction (ti_nss t) as [|d l IH]; [reflexivity|]. cbn [flat_map map app]. now rewrite IH. }
  rewrite app_assoc. rewrite <- (app_nil_r (map untyped_stm _)).
  apply (Then_app c (flat_map (fun d => Id "ctx" :: ns_decl_tokens d ++ [Pu ";"]) (ti_nss t)) (flat_map (fun d => [ns_stm d]) (ti_nss t)) (write_tokens t) (write_code t)).
  - apply thens; auto. apply Forall_forall. intros d _. apply ns_T.
  - intros c' C. now apply write_then.
  - unfold write_tokens. destruct (ti_write t) as [[|] x| |ats [|] b|[|] arms]; try reflexivity.
    + destruct ats as [|[f [|] n [s|]] ats]; reflexivity.
    + destruct ats as [|[f [|] n [s|]] ats]; try reflexivity. apply wb_else.
  - discriminate.
  - reflexivity.
  - intros c' C. writes C. eapply T_eq; [parse|reflexivity|reflexivity].
Qed.
(** ** to_xml *)
Definition to_xml_body (t : titem) : list tok :=
  quote "use ::xsd::xml::writer::events::XmlEvent;

         let mut body = Vec::new();
         let mut writer = ::xsd::xml::writer::EmitterConfig::new()
           .perform_indent(true)
           .create_writer(&mut body);

         writer.write(XmlEvent::StartDocument {
           version: ::xsd::xml::common::XmlVersion::Version10,
           encoding: Some(""UTF-8""),
           standalone: None,
         })?;
         let mut ctx = ::xsd::Context::new(#name_xml);
         self.to_xml_writer(ctx, &mut writer)?;

         Ok(body)" [("name_xml", lit (ti_xml_name t))].
Lemma to_xml_T t : Tp (sc (ti_id t) ["self"]) (to_xml_body t)
  (match to_xml_code t with EBlock l _ => map untyped_stm l | _ => [] end)
  (match to_xml_code t with EBlock _ e => untyped e | e => e end).
Proof. unfold to_xml_body, to_xml_code. tokens. eapply T_eq; [parse|reflexivity|reflexivity]. Qed.
