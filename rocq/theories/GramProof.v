(** * GramProof: the tokens of the generated functions read as their trees (C70) *)
From Verif Require Import Base Libs Xml Ast Gen Run Emit Quote Impl Rust Body RustSpec EmitSpec GramSpec GramRules.
From Coq Require Import Lia.

Lemma kw_eq x y : keyword x = false -> keyword y = true -> (x =?s y) = false.
Proof. intros H K. destruct (String.eqb_spec x y); [congruence|reflexivity]. Qed.
Lemma in_bind x y c : in_scope x (bind_var y c) = ((x =?s y) || in_scope x c)%bool.
Proof. reflexivity. Qed.

Definition sc (self : string) (vars : list string) : scope := mkScope self vars [].
(** ** Automation *)
Create HintDb pieces.
Ltac keywords :=
  repeat match goal with
  | H : keyword ?x = false |- context [keyword ?x] => rewrite H
  | H : keyword ?x = false |- context [?x =?s ?y] => rewrite (kw_eq x y H eq_refl)
  | H : in_scope ?x ?c = _ |- context [in_scope ?x ?c] => rewrite H
  | H : sc_uses ?c = _ |- context [sc_uses ?c] => rewrite H
  | H : ?a = false |- context [?a] => rewrite H
  | |- context [?x =?s ?x] => rewrite (String.eqb_refl x)
  end.
Ltac slow :=
  unfold path_at, pattern_at, segment, ident, path_first, block_first, plain_first, own_type, resolve, bind_pat, is_id, is_pu;
  cbn [eat is_id is_pu length segs_at negb orb andb path_at segment existsb resolve sc_uses sc_vars bind_var bind_pat fold_right pat_vars
       String.eqb Ascii.eqb Bool.eqb ident];
  keywords; unfold path_at, segment;
  repeat (cbn [eat is_id is_pu length segs_at negb orb andb path_at segment existsb resolve aget sc_uses sc_vars sc_self bind_var String.eqb Ascii.eqb Bool.eqb ident];
          keywords); reflexivity.
Ltac side :=
  lazymatch goal with
  | |- eat (is_pu _) _ = _ => reflexivity
  | |- eat (is_id _) (Id _ :: _) = _ => first [reflexivity | cbn [eat is_id]; keywords; reflexivity]
  | |- eat (is_id _) _ = _ => first [reflexivity | assumption]
  | |- closure_at _ = _ => first [reflexivity | solve [eauto 2 with pieces nocore]]
  | |- _ <> [] => discriminate
  | |- in_scope _ _ = _ => first [assumption | rewrite ?in_bind; cbn [String.eqb Ascii.eqb Bool.eqb orb]; first [reflexivity | assumption | keywords; reflexivity | unfold in_scope, sc; cbn [sc_vars existsb bind_var]; keywords; reflexivity]]
  | |- keyword _ = false => first [reflexivity | assumption]
  | _ => first [reflexivity | solve [slow]]
  end.
Lemma T_blk c ts e r l v : block_first ts = true -> Bp c ts e r ->
  (r = [] /\ l = [] /\ v = e) \/ (r <> [] /\ exists l', l = SExpr e :: l' /\ Tp c r l' v) -> Tp c ts l v.
Proof. intros F H [(-> & -> & ->)|(N & l' & -> & K)]; [now apply T_block_end|eapply T_block; eauto]. Qed.
Lemma T_exp c ts e r l v : plain_first ts = true -> block_first ts = false -> Xp c false ts e r ->
  (r = [] /\ l = [] /\ v = e) \/ (exists r' l', eat (is_pu ";") r = Some r' /\ l = SExpr e :: l' /\ Tp c r' l' v) -> Tp c ts l v.
Proof. intros P F H [(-> & -> & ->)|(r' & l' & E & -> & K)]; [now apply T_end|eapply T_expr; eauto]. Qed.
Lemma A_exp c ts e r l : ts <> [] -> Xp c false ts e r ->
  (r = [] /\ l = [e]) \/ (exists r' l', eat (is_pu ",") r = Some r' /\ l = e :: l' /\ Ap c r' l') -> Ap c ts l.
Proof. intros N H [(-> & ->)|(r' & l' & E & -> & K)]; [now apply A_last|eapply A_cons; eauto]. Qed.

Lemma X_eq c ns ts e r e' : Xp c ns ts e r -> e = e' -> Xp c ns ts e' r.
Proof. now intros ? <-. Qed.
Lemma T_eq c ts l e l' e' : Tp c ts l e -> l = l' -> e = e' -> Tp c ts l' e'.
Proof. now intros ? <- <-. Qed.
Lemma A_eq c ts l l' : Ap c ts l -> l = l' -> Ap c ts l'.
Proof. now intros ? <-. Qed.
Lemma B_eq c ts e r e' : Bp c ts e r -> e = e' -> Bp c ts e' r.
Proof. now intros ? <-. Qed.
(** Pieces: lemmas and hypotheses about tokens that are not written out. *)
Ltac piece := solve [eauto 8 with pieces nocore].
Ltac parse :=
  lazymatch goal with
  | |- Xp _ _ _ _ _ => first [piece | first [eapply X_return; [side|] | eapply X_ors; [side| |]]; parse]
  | |- Op _ _ _ _ _ _ => first [eapply O_stop; side | eapply O_more; [side| |]; parse]
  | |- Cp _ _ _ _ _ => first [eapply C_one; [parse|side] | eapply C_ne; [parse|side|parse]]
  | |- Up _ _ _ _ _ => first [eapply U_not; [side|] | eapply U_ref; [side|side|side|] | eapply U_ref_mut; [side|side|side|] | eapply U_primary; [side|side| |]]; parse
  | |- Pp _ _ _ _ _ =>
      first [ eapply P_stop; [side|side]
            | first [ eapply P_try; [side|]
                    | eapply P_index; [side|side|]
                    | eapply P_closure; [side|side|side|side| |]
                    | eapply P_method; [side|side|side|side| |]
                    | eapply P_field; [side|side|side|side|] ]; parse ]
  | |- Rp _ _ _ _ _ =>
      first [ apply R_str | apply R_unit | apply R_true | apply R_false
            | eapply R_block; [side|]; parse
            | eapply R_var; [side|side|side]
            | eapply R_name; [side|side|side|side|]; parse
            | eapply R_path; [side|side|side|]; parse ]
  | |- Vp _ _ _ _ _ _ => first [eapply V_call; parse | eapply V_struct; parse | eapply V_alone; side]
  | |- Bp _ _ _ _ =>
      first [ eapply B_block | eapply B_if_let; [side|side| | |] | eapply B_if; [side| | |]
            | eapply B_while_let; [side|side| |] | eapply B_while; [side| |] | eapply B_for; [side|side| |] | eapply B_match ]; parse
  | |- Kp _ _ _ _ => eapply K_block; parse
  | |- Lp _ _ _ _ => first [piece | eapply L_none; side | first [eapply L_if; [side|] | eapply L_else; [side|]]; parse]
  | |- Tp _ _ _ _ =>
      first [ piece
            | apply T_nil
            | eapply T_empty; [side|]; parse
            | eapply T_let_mut; [side|side|parse|side|parse]
            | eapply T_let; [side|side|side|parse|side|parse]
            | eapply T_use; [side|side|parse]
            | eapply T_blk; [side|parse|]; first [left; repeat split; reflexivity | right; split; [first [discriminate | assumption]|]; eexists; split; [reflexivity|]; parse]
            | eapply T_exp; [side|side|parse|]; first [left; repeat split; reflexivity | right; eexists; eexists; split; [side|]; split; [reflexivity|]; parse] ]
  | |- Ap _ _ _ =>
      first [ piece
            | apply A_nil
            | eapply A_exp; [side|parse|]; first [left; repeat split; reflexivity | right; eexists; eexists; split; [side|]; split; [reflexivity|]; parse] ]
  | |- Fp _ _ _ => first [piece | apply F_nil | eapply F_cons; [side|side|parse|side|parse]]
  | |- Mp _ _ _ => first [piece | apply M_nil | eapply M_block; [side|side|side|side|parse|side|parse] | eapply M_last; [side|side|side|side|parse]
                         | eapply M_expr; [side|side|side|side|parse|side|parse]]
  end.
(** The tokens of a template. *)
Ltac tokens :=
  unfold quote;
  repeat match goal with |- context [template ?s] => let t := eval vm_compute in (template s) in change (template s) with t end;
  cbn [insts inst aget each_of app flat_map idn lit fst snd String.eqb Ascii.eqb Bool.eqb]; rewrite ?app_nil_r.


(** ** Reading *)
Definition given : list string := ["node"; "val"; "vec"; "err"; "doc"; "input"; "s"; "self"; "f"; "ctx"; "writer"; "body"].
(** Where the tokens of the reading functions stand. *)
Record reading (c : scope) : Prop := mkReading {
  rd_node : in_scope "node" c = true;
  rd_err : in_scope "Err" c = false;
  rd_some : in_scope "Some" c = false;
  rd_none : in_scope "None" c = false;
  rd_uses : sc_uses c = []
}.
Lemma reading_bind x c : member x given = true -> reading c -> reading (bind_var x c).
Proof.
  intros H [A B C D E]. unfold member in H. apply existsb_exists in H as (y & I & Q). apply String.eqb_eq in Q as ->.
  repeat (destruct I as [<-|I]; [constructor; rewrite ?in_bind; cbn [String.eqb Ascii.eqb Bool.eqb orb]; auto|]). destruct I.
Qed.
Lemma reading_some x c : member x given = true -> reading c -> reading (bind_pat (PSome x) c).
Proof. apply reading_bind. Qed.
#[global] Hint Resolve reading_bind reading_some : pieces.
#[global] Hint Extern 1 (member _ _ = true) => reflexivity : pieces.
#[global] Hint Extern 1 (in_scope _ _ = _) => side : pieces.
Ltac reads R := destruct R as [Rnode Rerr Rsome Rnone Ruses].

Lemma lit_X c l : reading c -> in_scope "val" c = true -> Xp c false (lit_tokens l) (untyped (lit_code l)) [].
Proof.
  intros R V. reads R. unfold lit_tokens. tokens. eapply X_eq; [parse|reflexivity].
Qed.
Lemma lit_first l : plain_first (lit_tokens l) = true /\ block_first (lit_tokens l) = false.
Proof. split; reflexivity. Qed.
Lemma lit_A c l : reading c -> in_scope "val" c = true -> Ap c (lit_tokens l) [untyped (lit_code l)].
Proof. intros R V. apply A_last; [discriminate|now apply lit_X]. Qed.
Lemma lit_T c l : reading c -> in_scope "val" c = true -> Tp c (lit_tokens l) [] (untyped (lit_code l)).
Proof. intros R V. apply T_end; try apply lit_first. now apply lit_X. Qed.
#[global] Hint Resolve lit_A lit_T : pieces.
(* Opaque lit_tokens. *)

(** A name that is no keyword and begins no path into a crate. *)
Definition name_ok (x : string) : Prop := keyword x = false /\ (x =?s "") = false /\ (x =?s "std") = false.
Definition rx_names (x : rx) : Prop := match x with RxCall id => name_ok id | _ => True end.
Lemma rx_X c x : reading c -> rx_names x -> Xp c false (rx_tokens x) (untyped (rx_code x)) [].
Proof.
  intros R N. destruct x as [l|s|id].
  - unfold rx_tokens. tokens. pose proof R as R'. reads R'. eapply X_eq; [|reflexivity]. parse.
  - unfold rx_tokens. tokens. pose proof R as R'. reads R'. eapply X_eq; [|reflexivity]. parse.
  - unfold rx_tokens. tokens. pose proof R as R'. reads R'. destruct N as (N1 & N2 & N3). eapply X_eq; [|reflexivity]. parse.
Qed.
Lemma rx_A c x : reading c -> rx_names x -> Ap c (rx_tokens x) [untyped (rx_code x)].
Proof. intros R N. apply A_last; [destruct x; discriminate|now apply rx_X]. Qed.
Lemma rx_T c x : reading c -> rx_names x -> Tp c (rx_tokens x) [] (untyped (rx_code x)).
Proof.
  intros R N. destruct x as [l|s|id]; unfold rx_tokens; tokens.
  1, 2: pose proof R as R'; reads R'; eapply T_eq; [parse|reflexivity|reflexivity].
  apply T_end; [| |now apply (rx_X c (RxCall id))].
  all: destruct N as (N & _ & _); cbn [plain_first block_first existsb is_id is_pu]; keywords; reflexivity.
Qed.
Lemma rx_closure x : closure_at (rx_tokens x) = None.
Proof. destruct x; reflexivity. Qed.
#[global] Hint Resolve rx_A rx_T rx_closure : pieces.

Definition fr_names (f : fr) : Prop :=
  match f with
  | FrWhileLook id x _ | FrIfLook id x => name_ok id /\ rx_names x
  | FrHere x | FrWhileNext _ _ x _ | FrIfNext _ _ x | FrTryChild _ _ x | FrTryNext _ _ x => rx_names x
  end.
Lemma fr_B c f r : reading c -> in_scope "Vec" c = false -> fr_names f -> Bp c (Gr "{" (fr_tokens f) :: r) (untyped (fr_code f)) r.
Proof.
  intros R W N. pose proof R as R'. reads R'. destruct f as [x|id x [|]|id x|n ns x [|]|n ns x|n ns x|n ns x];
    try (destruct ns as [ns|]); unfold fr_tokens, vec_tokens, ns_tokens; cbn [fr_names] in N;
    try (destruct N as [(N1 & N2 & N3) N]); tokens; (eapply B_eq; [parse|reflexivity]).
Qed.
