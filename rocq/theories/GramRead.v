(** * GramRead: the tokens of the reading functions read as their trees (C70) *)
From Verif Require Import Base Libs Xml Ast Gen Run Emit Quote Impl Rust Body RustSpec EmitSpec GramSpec GramRules GramProof.
From Coq Require Import Lia.

Lemma block_X c ns ts e r : block_first ts = true -> Bp c ts e r -> match r with [] => true | t :: _ => is_pu "," t end = true -> Xp c ns ts e r.
Proof.
  intros F B E.
  assert (E0 : eat (is_id "return") ts = None /\ eat (is_pu "!") ts = None /\ eat (is_pu "&") ts = None).
  { destruct ts as [|[x| | | |o l] ts]; try discriminate; [|repeat split]. cbn [block_first existsb] in F. rewrite ?orb_false_r in F. rewrite !orb_true_iff in F.
    destruct F as [F|[F|[F|F]]]; apply String.eqb_eq in F as ->; repeat split. }
  assert (E' : eat (is_pu "||") r = None /\ eat (is_pu "!=") r = None /\ eat (is_pu "?") r = None /\ eat (is_pu ".") r = None).
  { destruct r as [|[] r]; try discriminate; [repeat split|]. apply String.eqb_eq in E as ->. repeat split. }
  destruct E0 as (E1 & E2 & E3), E' as (E4 & E5 & E6 & E7). eapply X_ors; [exact E1| |apply O_stop; exact E4]. eapply C_one; [|exact E5].
  eapply U_primary; [exact E2|exact E3| |apply P_stop; assumption]. now apply R_block.
Qed.
(** ** Fields and attributes *)
Lemma field_F c f ts l : reading c -> in_scope "Vec" c = false -> keyword (fst f) = false -> fr_names (snd f) -> Fp c ts l ->
  Fp c (field_from_tokens f ++ ts) ((fst f, untyped (fr_code (snd f))) :: l).
Proof.
  intros R W K N H. destruct f as [n f]. unfold field_from_tokens. tokens. cbn [fst snd] in *.
  eapply F_cons; [cbn [ident]; rewrite K; reflexivity|reflexivity|apply block_X; [reflexivity|now apply fr_B|reflexivity]|reflexivity|exact H].
Qed.
Lemma ax_closure a : closure_at (ax_tokens a) = None.
Proof. destruct a; reflexivity. Qed.
Lemma ax_A c a : reading c -> in_scope "val" c = true -> Ap c (ax_tokens a) [untyped (ax_code a)].
Proof.
  intros R V. destruct a as [l|t|]; [now apply lit_A| |]; reads R; unfold ax_tokens; tokens; (eapply A_eq; [parse|reflexivity]).
Qed.
Lemma ax_T c a : reading c -> in_scope "val" c = true -> Tp c (ax_tokens a) [] (untyped (ax_code a)).
Proof.
  intros R V. destruct a as [l|t|]; [now apply lit_T| |]; reads R; unfold ax_tokens; tokens; (eapply T_eq; [parse|reflexivity|reflexivity]).
Qed.
#[global] Hint Resolve ax_A ax_T ax_closure : pieces.
Lemma ra_F c a ts l : reading c -> keyword (ra_field a) = false -> Fp c ts l ->
  Fp c (ra_tokens a ++ ts) ((ra_field a, untyped (ra_code a)) :: l).
Proof.
  intros R K H. pose proof R as R'. reads R'. destruct a as [n x [|] a]; unfold ra_tokens, ra_code; cbn [ra_opt ra_field ra_xml ra_conv] in *; tokens;
    (eapply F_cons; [cbn [ident]; rewrite K; reflexivity|reflexivity|eapply X_eq; [parse|reflexivity]|reflexivity|exact H]).
Qed.
Lemma fields_F c fs ats : reading c -> in_scope "Vec" c = false ->
  Forall (fun f => keyword (fst f) = false /\ fr_names (snd f)) fs -> Forall (fun a => keyword (ra_field a) = false) ats ->
  Fp c (flat_map field_from_tokens fs ++ flat_map ra_tokens ats)
    (map (fun f => (fst f, untyped (snd f))) (map (fun f => (fst f, fr_code (snd f))) fs ++ map (fun a => (ra_field a, ra_code a)) ats)).
Proof.
  intros R W HF HA. induction HF as [|f fs [K N] HF IH].
  - cbn [flat_map map app]. induction HA as [|a ats K HA IH]; [apply F_nil|]. now apply ra_F.
  - cbn [flat_map map app fst snd]. rewrite <- app_assoc. now apply field_F.
Qed.

(** ** Choices *)
Definition arm_names (a : arm) : Prop :=
  match a with
  | ArmLook w id x => keyword w = false /\ name_ok id /\ rx_names x
  | ArmVec w _ _ x | ArmOne w _ _ x => keyword w = false /\ rx_names x
  end.
Definition missing_tokens (self : string) : list tok :=
  quote "{
           return Err(::xsd::decode::FromXmlError::MissingVariant {
             name: #variant_name.to_string(),
           }.into())
         }" [("variant_name", lit self)].
Definition chain_tokens (self : string) (arms : list arm) : list tok :=
  flat_map (fun a => arm_tokens a ++ [Id "else"]) arms ++ missing_tokens self.
Lemma arm_B c self a arms : reading c -> in_scope "Vec" c = false -> arm_names a ->
  Lp c (Id "else" :: chain_tokens self arms) (untyped (arms_code self arms)) [] ->
  Bp c (chain_tokens self (a :: arms)) (untyped (arms_code self (a :: arms))) [].
Proof.
  intros R W N IH. pose proof R as R'. reads R'. unfold chain_tokens. cbn [flat_map]. rewrite <- !app_assoc.
  change ([Id "else"] ++ flat_map (fun a0 : arm => arm_tokens a0 ++ [Id "else"]) arms ++ missing_tokens self)
    with (Id "else" :: chain_tokens self arms).
  destruct a as [w id x|w n ns x|w n ns x]; try (destruct ns as [ns|]); unfold arm_tokens, ns_tokens; cbn [arm_names] in N;
    [destruct N as (K & (N1 & N2 & N3) & N)| | | |]; try destruct N as (K & N); tokens; (eapply B_eq; [parse|reflexivity]).
Qed.
Lemma missing_K c self r : reading c -> Tp c (match missing_tokens self with [Gr _ l] => l | _ => [] end) []
  (untyped (EReturn (ECall (PName "Err") None [call (err_struct "MissingVariant" [("name", str_of (EStr self))]) "into" []])))
  /\ missing_tokens self ++ r = Gr "{" (match missing_tokens self with [Gr _ l] => l | _ => [] end) :: r.
Proof.
  intros R. reads R. unfold missing_tokens. split; [tokens; eapply T_eq; [parse|reflexivity|reflexivity]|reflexivity].
Qed.
Lemma arms_L c self arms : reading c -> in_scope "Vec" c = false -> Forall arm_names arms ->
  Lp c (Id "else" :: chain_tokens self arms) (untyped (arms_code self arms)) [].
Proof.
  intros R W H. induction H as [|a arms N H IH].
  - destruct (missing_K c self [] R) as [T E]. rewrite app_nil_r in E. unfold chain_tokens. cbn [flat_map app]. rewrite E.
    eapply L_else; [reflexivity|]. now apply K_block.
  - pose proof (arm_B c self a arms R W N IH) as B. destruct a; (eapply L_if; [reflexivity|exact B]).
Qed.
Lemma arms_B c self arms : reading c -> in_scope "Vec" c = false -> Forall arm_names arms ->
  Bp c (chain_tokens self arms) (untyped (arms_code self arms)) [].
Proof.
  intros R W H. destruct arms as [|a arms].
  - destruct (missing_K c self [] R) as [T E]. rewrite app_nil_r in E. unfold chain_tokens. cbn [flat_map app]. rewrite E.
    now apply B_block.
  - inversion H; subst. apply arm_B; auto. now apply arms_L.
Qed.
Lemma block_A c ts e : block_first ts = true -> Bp c ts e [] -> Ap c ts [e].
Proof. intros F B. apply A_last; [intros ->; discriminate|]. now apply block_X. Qed.

(** ** from_xml_node *)
Definition read_names (t : titem) : Prop :=
  name_ok (ti_id t) /\ (ti_id t =?s "node") = false /\
  match ti_read t with
  | BrTuple x => rx_names x
  | BrEnum => True
  | BrStruct fs ats => Forall (fun f => keyword (fst f) = false /\ fr_names (snd f)) fs /\ Forall (fun a => keyword (ra_field a) = false) ats
  | BrChoice arms => Forall arm_names arms
  end.
Lemma reading_sc self : reading (sc self ["node"]).
Proof. constructor; reflexivity. Qed.
Lemma read_A t : read_names t ->
  Ap (sc (ti_id t) ["node"]) (read_tokens t) [untyped (match read_code t with ECall _ _ [e] => e | e => e end)].
Proof.
  intros ((N1 & N2 & N3) & N4 & N). pose proof (reading_sc (ti_id t)) as R. unfold read_tokens, read_code.
  destruct (ti_read t) as [x| |fs ats|arms]; tokens.
  - eapply A_eq; [parse|reflexivity].
  - pose proof R as R'. reads R'. eapply A_eq; [parse|reflexivity].
  - destruct N as [HF HA]. pose proof (fields_F _ fs ats R eq_refl HF HA). eapply A_eq; [parse|reflexivity].
  - apply block_A.
    + destruct arms as [|[]]; reflexivity.
    + pose proof (arms_B _ (ti_id t) arms R eq_refl N) as B. unfold chain_tokens, missing_tokens in B. revert B. tokens.
      rewrite !flat_map_concat_map, map_map. exact (fun x => x).
Qed.
Lemma read_T t : read_names t ->
  Tp (sc (ti_id t) ["node"]) (quote "Ok(#from_xml)" [("from_xml", One (read_tokens t))]) [] (untyped (read_code t)).
Proof.
  intros N. pose proof (read_A t N) as A. tokens.
  eapply T_eq; [eapply T_exp; [reflexivity|reflexivity| |left; repeat split; reflexivity]|reflexivity|].
  - eapply X_ors; [reflexivity| |apply O_stop; reflexivity]. eapply C_one; [|reflexivity].
    eapply U_primary; [reflexivity|reflexivity| |apply P_stop; reflexivity].
    eapply R_name; [reflexivity|reflexivity|reflexivity|reflexivity|]. apply V_call. exact A.
  - unfold read_code. reflexivity.
Qed.

(** ** lookahead *)
Definition look_names (k : lk) : Prop :=
  match k with LkTrue => True | LkOr l => Forall (fun k => match k with LkCall id => name_ok id | _ => True end) l end.
Definition or_tokens (l : list lk1) : list tok := flat_map (fun k => Pu "||" :: lk1_tokens k) l.
Lemma C_eq c ns ts e r e' : Cp c ns ts e r -> e = e' -> Cp c ns ts e' r.
Proof. now intros ? <-. Qed.
Lemma lk1_C c k l : reading c -> match k with LkCall id => name_ok id | _ => True end ->
  Cp c false (lk1_tokens k ++ or_tokens l) (untyped (lk1_code k)) (or_tokens l).
Proof.
  intros R N. pose proof R as R'. reads R'.
  assert (E : l = [] \/ exists r, or_tokens l = Pu "||" :: r) by (destruct l; [now left|right; eexists; reflexivity]).
  destruct k as [id|n [ns|]]; [destruct N as (N1 & N2 & N3)| |]; unfold lk1_tokens, ns_tokens; tokens;
    (destruct E as [->|[r ->]]; [change (or_tokens []) with (@nil tok)|]; (eapply C_eq; [parse|reflexivity])).
Qed.
Lemma ors_O c l : reading c -> Forall (fun k => match k with LkCall id => name_ok id | _ => True end) l -> forall a,
  Op c false (untyped a) (or_tokens l) (untyped (fold_left (fun e k => EOr e (lk1_code k)) l a)) [].
Proof.
  intros R H. induction H as [|k l N H IH]; intros a; [apply O_stop; reflexivity|].
  cbn [or_tokens flat_map fold_left]. change (flat_map _ l) with (or_tokens l).
  eapply O_more; [reflexivity|apply lk1_C; eauto|]. apply (IH (EOr a (lk1_code k))).
Qed.
Lemma or_eq l : flat_map (fun e : list tok => Pu "||" :: e ++ []) (map lk1_tokens l) = or_tokens l.
Proof. induction l as [|k l IH]; [reflexivity|]. cbn [map flat_map or_tokens]. rewrite IH, app_nil_r. reflexivity. Qed.
Lemma look_T self k : look_names k -> Tp (sc self ["node"]) (look_tokens k) [] (untyped (look_code k)).
Proof.
  intros N. pose proof (reading_sc self) as R. destruct k as [|l]; unfold look_tokens; tokens.
  - eapply T_eq; [parse|reflexivity|reflexivity].
  - rewrite or_eq.
    apply T_end; [reflexivity|reflexivity|].
    eapply X_ors; [reflexivity| |exact (ors_O _ l R N (EBool false))].
    destruct l; [change (or_tokens []) with (@nil tok)|cbn [or_tokens flat_map app]]; (eapply C_eq; [parse|reflexivity]).
Qed.

(** ** from_xml *)
Lemma from_xml_T t : Tp (sc (ti_id t) ["input"])
  (quote "let doc = ::xsd::decode::decode(input.as_ref())?;
          let node = doc.try_child(#name_xml, #namespace_xml)?;
          Self::from_xml_node(&node)" [("name_xml", lit (ti_read_name t)); ("namespace_xml", One (ns_tokens (ti_read_ns t)))])
  (match from_xml_code t with EBlock l _ => map (fun s => match s with SLet x e => SLet x (untyped e) | SExpr e => SExpr (untyped e) end) l | _ => [] end)
  (match from_xml_code t with EBlock _ e => untyped e | e => e end).
Proof. unfold from_xml_code. destruct (ti_read_ns t); unfold ns_tokens; tokens; (eapply T_eq; [parse|reflexivity|reflexivity]). Qed.
