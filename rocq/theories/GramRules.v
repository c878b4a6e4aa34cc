(** * GramRules: the parser of GramSpec.v as a grammar

    One rule for each case; how much fuel is needed does not matter. *)
From Verif Require Import Base Libs Xml Ast Gen Emit Rust RustSpec EmitSpec GramSpec.
From Coq Require Import Lia.

Definition enough {A} (f : nat -> option A) (a : A) : Prop := exists k, forall n, k <= n -> f n = Some a.
Lemma enough_det {A} (f : nat -> option A) a b : enough f a -> enough f b -> a = b.
Proof. intros [k H] [l K]. specialize (H (k + l) ltac:(lia)). specialize (K (k + l) ltac:(lia)). congruence. Qed.

Definition Xp c ns ts e r := enough (fun n => expr n c ns ts) (e, r).
Definition Op c ns a ts e r := enough (fun n => ors n c ns a ts) (e, r).
Definition Cp c ns ts e r := enough (fun n => compare n c ns ts) (e, r).
Definition Up c ns ts e r := enough (fun n => unary n c ns ts) (e, r).
Definition Pp c a ts e r := enough (fun n => postfix n c a ts) (e, r).
Definition Rp c ns ts e r := enough (fun n => primary n c ns ts) (e, r).
Definition Vp c ns q ts e r := enough (fun n => value_path n c ns q ts) (e, r).
Definition Bp c ts e r := enough (fun n => with_block n c ts) (e, r).
Definition Kp c ts e r := enough (fun n => braced n c ts) (e, r).
Definition Lp c ts e r := enough (fun n => els n c ts) (e, r).
Definition Tp c ts l e := enough (fun n => stms n c ts) (l, e).
Definition Ap c ts l := enough (fun n => exprs n c ts) l.
Definition Fp c ts l := enough (fun n => fields n c ts) l.
Definition Mp c ts l := enough (fun n => match_arms n c ts) l.

Ltac opened := unfold Xp, Op, Cp, Up, Pp, Rp, Vp, Bp, Kp, Lp, Tp, Ap, Fp, Mp in *.
Ltac fuels := opened;
  repeat match goal with H : enough _ _ |- _ => let k := fresh "k" in destruct H as [k H] end.
(** With the sum of all the fuel. *)
Ltac total :=
  match goal with
  | A : forall n, ?a <= n -> _, B : forall n, ?b <= n -> _, C : forall n, ?c <= n -> _ |- enough _ _ => exists (S (a + b + c))
  | A : forall n, ?a <= n -> _, B : forall n, ?b <= n -> _ |- enough _ _ => exists (S (a + b))
  | A : forall n, ?a <= n -> _ |- enough _ _ => exists (S a)
  | |- enough _ _ => exists 1
  end.
Ltac feed :=
  repeat (match goal with
  | H : ?x = _ |- context [?x] => rewrite H
  | H : forall n, _ <= n -> _ = Some _ |- _ => progress (rewrite H by lia)
  end; cbn [done andb negb String.eqb Ascii.eqb Bool.eqb]; cbv beta iota).
Ltac rule := intros; fuels; total; intros [|n] Hn; [lia|];
  cbn [expr ors compare unary postfix primary value_path with_block braced els block stms exprs fields match_arms done];
  cbn [eat is_id is_pu String.eqb Ascii.eqb Bool.eqb] in *; cbv beta iota; feed; try reflexivity.

(** ** Expressions *)
Lemma X_return c ns ts r e r' : eat (is_id "return") ts = Some r -> Xp c ns r e r' -> Xp c ns ts (EReturn e) r'.
Proof. rule. Qed.
Lemma X_ors c ns ts a r e r' : eat (is_id "return") ts = None -> Cp c ns ts a r -> Op c ns a r e r' -> Xp c ns ts e r'.
Proof. rule. Qed.
Lemma O_more c ns a ts r b r1 e r2 : eat (is_pu "||") ts = Some r -> Cp c ns r b r1 -> Op c ns (EOr a b) r1 e r2 -> Op c ns a ts e r2.
Proof. rule. Qed.
Lemma O_stop c ns a ts : eat (is_pu "||") ts = None -> Op c ns a ts a ts.
Proof. rule. Qed.
Lemma C_ne c ns ts a r r1 b r2 : Up c ns ts a r -> eat (is_pu "!=") r = Some r1 -> Up c ns r1 b r2 -> Cp c ns ts (ENe a b) r2.
Proof. rule. Qed.
Lemma C_one c ns ts a r : Up c ns ts a r -> eat (is_pu "!=") r = None -> Cp c ns ts a r.
Proof. rule. Qed.
Lemma U_not c ns ts r e r' : eat (is_pu "!") ts = Some r -> Up c ns r e r' -> Up c ns ts (ENot e) r'.
Proof. rule. Qed.
Lemma U_ref c ns ts r e r' : eat (is_pu "!") ts = None -> eat (is_pu "&") ts = Some r -> eat (is_id "mut") r = None ->
  Up c ns r e r' -> Up c ns ts (ERef e) r'.
Proof. rule. Qed.
Lemma U_ref_mut c ns ts r r1 e r' : eat (is_pu "!") ts = None -> eat (is_pu "&") ts = Some r -> eat (is_id "mut") r = Some r1 ->
  Up c ns r1 e r' -> Up c ns ts (ERef e) r'.
Proof. rule. Qed.
Lemma U_primary c ns ts a r e r' : eat (is_pu "!") ts = None -> eat (is_pu "&") ts = None ->
  Rp c ns ts a r -> Pp c a r e r' -> Up c ns ts e r'.
Proof. rule. Qed.
Lemma P_try c a ts r e r' : eat (is_pu "?") ts = Some r -> Pp c (ETry a) r e r' -> Pp c a ts e r'.
Proof. rule. Qed.
Lemma P_index c a ts f r e r' : eat (is_pu "?") ts = None -> eat (is_pu ".") ts = Some (Nu f :: r) -> Pp c (EField a f) r e r' -> Pp c a ts e r'.
Proof. rule. Qed.
Lemma P_closure c a ts m l r x b e e' r' : eat (is_pu "?") ts = None -> eat (is_pu ".") ts = Some (Id m :: Gr "(" l :: r) -> keyword m = false ->
  closure_at l = Some (x, b) -> Xp (bind_var x c) false b e [] -> Pp c (EMapped a m x e) r e' r' -> Pp c a ts e' r'.
Proof. rule. Qed.
Lemma P_method c a ts m l r args e' r' : eat (is_pu "?") ts = None -> eat (is_pu ".") ts = Some (Id m :: Gr "(" l :: r) -> keyword m = false ->
  closure_at l = None -> Ap c l args -> Pp c (method a m args) r e' r' -> Pp c a ts e' r'.
Proof. rule. Qed.
Lemma P_field c a ts f r e' r' : eat (is_pu "?") ts = None -> eat (is_pu ".") ts = Some (Id f :: r) -> keyword f = false ->
  match r with Gr _ _ :: _ => false | _ => true end = true -> Pp c (EField a f) r e' r' -> Pp c a ts e' r'.
Proof.
  intros. fuels. total. intros [|n] Hn; [lia|]. cbn [postfix]. feed.
  destruct r as [|[] r]; cbn [postfix]; feed; try reflexivity; discriminate.
Qed.
Lemma P_stop c a ts : eat (is_pu "?") ts = None -> eat (is_pu ".") ts = None -> Pp c a ts a ts.
Proof. rule. Qed.
Lemma R_block c ns ts e r : block_first ts = true -> Bp c ts e r -> Rp c ns ts e r.
Proof. rule. Qed.
Lemma R_str c ns s r : Rp c ns (St s :: r) (EStr s) r.
Proof. rule. Qed.
Lemma R_unit c ns r : Rp c ns (Gr "(" [] :: r) EUnit r.
Proof. rule. Qed.
Lemma R_true c ns r : Rp c ns (Id "true" :: r) (EBool true) r.
Proof. rule. Qed.
Lemma R_false c ns r : Rp c ns (Id "false" :: r) (EBool false) r.
Proof. rule. Qed.
(** A path as an expression. *)
Definition path_first (ts : list tok) : bool :=
  match ts with
  | Id _ :: _ => (negb (block_first ts) && negb (match eat (is_id "true") ts with Some _ => true | None => false end)
                  && negb (match eat (is_id "false") ts with Some _ => true | None => false end))%bool
  | Pu p :: _ => p =?s "::"
  | _ => false
  end.
Lemma path_first_primary n c ns ts : path_first ts = true -> primary (S n) c ns ts =
  match path_at ts with
  | Some ([x], r) => if in_scope x c then Some (EVar x, r)
                     else match resolve c [x] with Some q => value_path n c ns q r | None => None end
  | Some (l, r) => match resolve c l with Some q => value_path n c ns q r | None => None end
  | None => None
  end.
Proof.
  intros H. cbn [primary]. destruct ts as [|[x|p|s|s|o l] ts]; try discriminate; cbn [path_first] in H.
  - apply andb_true_iff in H as [H H3]. apply andb_true_iff in H as [H1 H2]. apply negb_true_iff in H1. rewrite H1.
    destruct (eat (is_id "true") _); [discriminate|]. destruct (eat (is_id "false") _); [discriminate|].
    destruct (path_at (Id x :: ts)) as [[[|y []] r]|]; reflexivity.
  - cbn [block_first]. cbn [eat is_id]. destruct (path_at (Pu p :: ts)) as [[[|y []] r]|]; reflexivity.
Qed.
Lemma R_var c ns ts x r : path_first ts = true -> path_at ts = Some ([x], r) -> in_scope x c = true -> Rp c ns ts (EVar x) r.
Proof. intros F P V. exists 1. intros [|n] Hn; [lia|]. rewrite path_first_primary by auto. now rewrite P, V. Qed.
Lemma R_name c ns ts x r q e r' : path_first ts = true -> path_at ts = Some ([x], r) -> in_scope x c = false -> resolve c [x] = Some q ->
  Vp c ns q r e r' -> Rp c ns ts e r'.
Proof. intros F P V Q [k H]. exists (S k). intros [|n] Hn; [lia|]. rewrite path_first_primary by auto. rewrite P, V, Q. apply H. lia. Qed.
Lemma R_path c ns ts x y l r q e r' : path_first ts = true -> path_at ts = Some (x :: y :: l, r) -> resolve c (x :: y :: l) = Some q ->
  Vp c ns q r e r' -> Rp c ns ts e r'.
Proof. intros F P Q [k H]. exists (S k). intros [|n] Hn; [lia|]. rewrite path_first_primary by auto. rewrite P, Q. apply H. lia. Qed.
Lemma V_call c ns q l r args : Ap c l args -> Vp c ns q (Gr "(" l :: r) (ECall q None args) r.
Proof. rule. Qed.
Lemma V_struct c q l r fs : Fp c l fs -> Vp c false q (Gr "{" l :: r) (EStruct q fs) r.
Proof. rule. Qed.
Lemma V_alone c ns q ts : match ts with Gr o _ :: _ => ((o =?s "{") && ns)%bool | _ => true end = true -> Vp c ns q ts (EPath q) ts.
Proof.
  intros H. exists 1. intros [|n] Hn; [lia|]. cbn [value_path]. destruct ts as [|[] ts]; try reflexivity.
  apply andb_true_iff in H as [H ->]. apply String.eqb_eq in H as ->. reflexivity.
Qed.

(** ** Expressions with block *)
Lemma B_block c l r ss e : Tp c l ss e -> Bp c (Gr "{" l :: r) (EBlock ss e) r.
Proof.
  intros [k H]. exists (S (S k)). intros [|[|n]] Hn; try lia. cbn [with_block block]. now rewrite H by lia.
Qed.
Lemma K_block c l r ss e : Tp c l ss e -> Kp c (Gr "{" l :: r) (EBlock ss e) r.
Proof.
  intros [k H]. exists (S (S k)). intros [|[|n]] Hn; try lia. cbn [braced block]. now rewrite H by lia.
Qed.
Lemma B_if c r x r1 b r2 e r3 : eat (is_id "let") r = None -> Xp c true r x r1 -> Kp c r1 b r2 -> Lp c r2 e r3 ->
  Bp c (Id "if" :: r) (EIf x b e) r3.
Proof. rule. Qed.
Lemma B_if_let c r q r0 r1 x r2 b r3 e r4 : pattern_at c r = Some (q, r0) -> eat (is_pu "=") r0 = Some r1 ->
  Xp c true r1 x r2 -> Kp (bind_pat q c) r2 b r3 -> Lp c r3 e r4 -> Bp c (Id "if" :: Id "let" :: r) (EIfLet q x b e) r4.
Proof. rule. Qed.
Lemma B_while c r x r1 b r2 : eat (is_id "let") r = None -> Xp c true r x r1 -> Kp c r1 b r2 -> Bp c (Id "while" :: r) (EWhile x b) r2.
Proof. rule. Qed.
Lemma B_while_let c r q r0 r1 x r2 b r3 : pattern_at c r = Some (q, r0) -> eat (is_pu "=") r0 = Some r1 ->
  Xp c true r1 x r2 -> Kp (bind_pat q c) r2 b r3 -> Bp c (Id "while" :: Id "let" :: r) (EWhileLet q x b) r3.
Proof. rule. Qed.
Lemma B_for c r x r0 r1 e r2 b r3 : ident r = Some (x, r0) -> eat (is_id "in") r0 = Some r1 ->
  Xp c true r1 e r2 -> Kp (bind_var x c) r2 b r3 -> Bp c (Id "for" :: r) (EFor x e b) r3.
Proof. rule. Qed.
Lemma B_match c r e l r1 arms : Xp c true r e (Gr "{" l :: r1) -> Mp c l arms -> Bp c (Id "match" :: r) (EMatch e arms) r1.
Proof. rule. Qed.
Lemma L_if c r e r1 : eat (is_id "if") r = Some r1 -> forall r2, Bp c r e r2 -> Lp c (Id "else" :: r) e r2.
Proof. rule. Qed.
Lemma L_else c r e r1 : eat (is_id "if") r = None -> Kp c r e r1 -> Lp c (Id "else" :: r) e r1.
Proof. rule. Qed.
Lemma L_none c ts : eat (is_id "else") ts = None -> Lp c ts EUnit ts.
Proof. rule. Qed.

(** ** Statements *)
Lemma T_nil c : Tp c [] [] EUnit.
Proof. rule. Qed.
Lemma T_empty c ts r l e : eat (is_pu ";") ts = Some r -> Tp c r l e -> Tp c ts l e.
Proof. destruct ts as [|t ts]; [discriminate|]. rule. Qed.
Lemma T_let c r x r1 r2 e r3 r4 l v : eat (is_id "mut") r = None -> ident r = Some (x, r1) -> eat (is_pu "=") r1 = Some r2 -> Xp c false r2 e r3 ->
  eat (is_pu ";") r3 = Some r4 -> Tp (bind_var x c) r4 l v -> Tp c (Id "let" :: r) (SLet x e :: l) v.
Proof. rule. Qed.
Lemma T_let_mut c r x r1 r2 e r3 r4 l v : ident r = Some (x, r1) -> eat (is_pu "=") r1 = Some r2 -> Xp c false r2 e r3 ->
  eat (is_pu ";") r3 = Some r4 -> Tp (bind_var x c) r4 l v -> Tp c (Id "let" :: Id "mut" :: r) (SLet x e :: l) v.
Proof. rule. Qed.
Lemma T_use c r p r1 r2 l v : path_at r = Some (p, r1) -> eat (is_pu ";") r1 = Some r2 -> Tp (import (last p "") (show p) c) r2 l v ->
  Tp c (Id "use" :: r) l v.
Proof. rule. Qed.
(** No other statement begins so. *)
Definition plain_first (ts : list tok) : bool :=
  match ts with
  | [] => false
  | t :: _ => negb (is_pu ";" t || is_id "let" t || is_id "use" t)
  end.
Lemma plain_cases ts : plain_first ts = true -> ts <> [] /\ eat (is_pu ";") ts = None /\ eat (is_id "let") ts = None /\ eat (is_id "use") ts = None.
Proof.
  destruct ts as [|t ts]; [discriminate|]. cbn [plain_first eat]. intros H. apply negb_true_iff, orb_false_iff in H as [H1 H3].
  apply orb_false_iff in H1 as [H1 H2]. rewrite H1, H2, H3. repeat split; auto. discriminate.
Qed.
Lemma block_first_plain ts : block_first ts = true -> plain_first ts = true.
Proof.
  destruct ts as [|[x| | | |o l] ts]; try discriminate; [|reflexivity]. cbn [block_first existsb plain_first is_pu is_id]. intros H.
  rewrite ?orb_false_r in H. rewrite !orb_true_iff in H. destruct H as [H|[H|[H|H]]]; apply String.eqb_eq in H as ->; reflexivity.
Qed.
Ltac plain := match goal with H : plain_first ?ts = true |- _ =>
  destruct (plain_cases _ H) as (? & ? & ? & ?); destruct ts as [|? ?]; [contradiction|] end.
Lemma T_block_end c ts e : block_first ts = true -> Bp c ts e [] -> Tp c ts [] e.
Proof. intros F H. pose proof (block_first_plain _ F). plain. rule. Qed.
Lemma T_skip c ts : forall l v, Tp c (match eat (is_pu ";") ts with Some r => r | None => ts end) l v -> Tp c ts l v.
Proof. intros l v H. destruct (eat (is_pu ";") ts) eqn:E; auto. eapply T_empty; eauto. Qed.
Lemma T_skipped c ts l v : Tp c ts l v -> Tp c (match eat (is_pu ";") ts with Some r => r | None => ts end) l v.
Proof.
  intros [k H]. destruct (eat (is_pu ";") ts) eqn:E; [|now exists k]. exists k. intros n Hn. specialize (H (S n) ltac:(lia)).
  destruct ts as [|t ts]; [discriminate|]. cbn [stms] in H. now rewrite E in H.
Qed.
Lemma T_block c ts e r l v : block_first ts = true -> Bp c ts e r -> r <> [] -> Tp c r l v -> Tp c ts (SExpr e :: l) v.
Proof.
  intros F H N K. apply T_skipped in K. pose proof (block_first_plain _ F). plain. fuels. total. intros [|n] Hn; [lia|].
  cbn [stms]. feed. destruct r; [contradiction|]. feed. reflexivity.
Qed.
Lemma T_end c ts e : plain_first ts = true -> block_first ts = false -> Xp c false ts e [] -> Tp c ts [] e.
Proof. intros P F H. plain. rule. Qed.
Lemma T_expr c ts e r r1 l v : plain_first ts = true -> block_first ts = false -> Xp c false ts e r -> eat (is_pu ";") r = Some r1 -> Tp c r1 l v ->
  Tp c ts (SExpr e :: l) v.
Proof.
  intros P F H E K. plain. fuels. total. intros [|n] Hn; [lia|]. cbn [stms]. feed. destruct r; [discriminate|]. feed. reflexivity.
Qed.

(** ** Lists *)
Lemma A_nil c : Ap c [] [].
Proof. rule. Qed.
Lemma A_last c ts e : ts <> [] -> Xp c false ts e [] -> Ap c ts [e].
Proof. intros N. destruct ts; [contradiction|]. rule. Qed.
Lemma A_cons c ts e r r1 l : ts <> [] -> Xp c false ts e r -> eat (is_pu ",") r = Some r1 -> Ap c r1 l -> Ap c ts (e :: l).
Proof.
  intros N X E K. destruct ts; [contradiction|]. fuels. total. intros [|n] Hn; [lia|]. cbn [exprs]. feed. destruct r; [discriminate|]. feed. reflexivity.
Qed.
Lemma F_nil c : Fp c [] [].
Proof. rule. Qed.
Lemma F_cons c ts f r0 r1 e r r2 l : ident ts = Some (f, r0) -> eat (is_pu ":") r0 = Some r1 -> Xp c false r1 e r ->
  eat (is_pu ",") r = Some r2 -> Fp c r2 l -> Fp c ts ((f, e) :: l).
Proof.
  intros I E1 X E K. destruct ts; [discriminate|]. fuels. total. intros [|n] Hn; [lia|]. cbn [fields]. feed. destruct r; [discriminate|]. feed. reflexivity.
Qed.
Lemma M_nil c : Mp c [] [].
Proof. rule. Qed.
Lemma M_last c ts q r0 r1 e : ts <> [] -> pattern_at c ts = Some (q, r0) -> eat (is_pu "=>") r0 = Some r1 -> block_first r1 = false ->
  Xp (bind_pat q c) false r1 e [] -> Mp c ts [(q, e)].
Proof. intros N P E F X. destruct ts; [contradiction|]. rule. Qed.
Lemma M_expr c ts q r0 r1 e r r2 l : ts <> [] -> pattern_at c ts = Some (q, r0) -> eat (is_pu "=>") r0 = Some r1 -> block_first r1 = false ->
  Xp (bind_pat q c) false r1 e r -> eat (is_pu ",") r = Some r2 -> Mp c r2 l -> Mp c ts ((q, e) :: l).
Proof.
  intros N P E F X E2 K. destruct ts; [contradiction|]. fuels. total. intros [|n] Hn; [lia|]. cbn [match_arms]. feed.
  destruct r; [discriminate|]. feed. reflexivity.
Qed.
Lemma M_block c ts q r0 r1 e r r2 l : ts <> [] -> pattern_at c ts = Some (q, r0) -> eat (is_pu "=>") r0 = Some r1 -> block_first r1 = true ->
  Bp (bind_pat q c) r1 e r -> eat (is_pu ",") r = Some r2 -> Mp c r2 l -> Mp c ts ((q, e) :: l).
Proof.
  intros N P E F X E2 K. destruct ts; [contradiction|]. fuels. total. intros [|n] Hn; [lia|]. cbn [match_arms]. feed.
  destruct r; [discriminate|]. feed. reflexivity.
Qed.
Lemma T_enough c ts l e : Tp c ts l e -> enough (fun n => stms n c ts) (l, e).
Proof. exact (fun H => H). Qed.
#[global] Opaque Xp Op Cp Up Pp Rp Vp Bp Kp Lp Tp Ap Fp Mp.
