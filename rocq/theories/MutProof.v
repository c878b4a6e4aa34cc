(** * MutProof: the generated text declares what it changes (C82) *)
From Verif Require Import Base Libs Xml Ast Gen Run Emit Quote Impl Rust Body RustSpec EmitSpec GramSpec GramProof GramRead GramWrite GramItem MutSpec.

(** ** Rules of the walk *)
Lemma walk_Gr o l s : walk (Gr o l) s =
  if o =?s "(" then
    if st_fn s then Some (mkState (st_vars s) (Gr o l :: st_before s) (st_let s) (parameters l) false)
    else if call_ok (st_vars s) (st_before s) l then
      match walks l (enter (st_vars s)) with Some _ => Some (after (Gr o l) s) | None => None end
    else None
  else if o =?s "{" then
    match walks l (enter (st_next s ++ st_vars s)) with Some _ => Some (after (Gr o l) (expect [] s)) | None => None end
  else
    match walks l (enter (st_vars s)) with Some _ => Some (after (Gr o l) s) | None => None end.
Proof. reflexivity. Qed.
Lemma walks_app l r s s1 : walks l s = Some s1 -> walks (l ++ r) s = walks r s1.
Proof.
  revert s. induction l as [|t l IH]; intros s; cbn [walks app]; [intros [=->]; reflexivity|].
  destruct (walk t s); [apply IH|discriminate].
Qed.

(** What the walk of a list comes to. *)
Definition runs (Q : option state -> Prop) (l : list tok) (s : state) : Prop := Q (walks l s).
Definition through (o : option state) : Prop := o <> None.
Definition passes (l : list tok) (E : vars) : Prop := runs through l (enter E).
(** Nothing before a token that belongs to it. *)
Definition clear (b : list tok) : Prop := bare b = true /\ after_mut b = false.

Lemma W_nil (Q : option state -> Prop) s : Q (Some s) -> runs Q [] s.
Proof. exact (fun x => x). Qed.
Lemma W_leaf Q t l s s1 : leaf t s = Some s1 -> match t with Gr _ _ => False | _ => True end -> runs Q l s1 -> runs Q (t :: l) s.
Proof. intros H N. destruct t; try contradiction; unfold runs; cbn [walks walk]; rewrite H; exact (fun x => x). Qed.
Lemma W_paren Q g l E b d n : call_ok E b g = true -> passes g E -> runs Q l (mkState E (Gr "(" g :: b) d n false) ->
  runs Q (Gr "(" g :: l) (mkState E b d n false).
Proof.
  unfold passes, runs, through. intros C P. cbn [walks]. rewrite walk_Gr. cbn [String.eqb Ascii.eqb Bool.eqb st_fn st_vars st_before]. rewrite C.
  destruct (walks g (enter E)); [exact (fun x => x)|contradiction].
Qed.
Lemma W_params Q g l E b d n : runs Q l (mkState E (Gr "(" g :: b) d (parameters g) false) ->
  runs Q (Gr "(" g :: l) (mkState E b d n true).
Proof. exact (fun x => x). Qed.
Lemma W_brace Q g l E b d n f : passes g (n ++ E) -> runs Q l (mkState E (Gr "{" g :: b) d [] f) ->
  runs Q (Gr "{" g :: l) (mkState E b d n f).
Proof.
  unfold passes, runs, through. intros P. cbn [walks]. rewrite walk_Gr. cbn [String.eqb Ascii.eqb Bool.eqb st_fn st_vars st_before st_next].
  destruct (walks g (enter (n ++ E))); [exact (fun x => x)|contradiction].
Qed.
Lemma W_bracket Q g l E b d n f : passes g E -> runs Q l (mkState E (Gr "[" g :: b) d n f) ->
  runs Q (Gr "[" g :: l) (mkState E b d n f).
Proof.
  unfold passes, runs, through. intros P. cbn [walks]. rewrite walk_Gr. cbn [String.eqb Ascii.eqb Bool.eqb st_fn st_vars st_before st_next].
  destruct (walks g (enter E)); [exact (fun x => x)|contradiction].
Qed.

(** ** Pieces *)
(** The last tokens of a group, in which only their own variables are changed. *)
Definition Last (l : list tok) : Prop := forall E b, clear b -> runs through l (mkState E b None [] false).
(** One of a sequence of fields, arms or declarations. *)
Definition Seq (l : list tok) : Prop := forall Q r E b, clear b ->
  (forall b', clear b' -> runs Q r (mkState E b' None [] false)) -> runs Q (l ++ r) (mkState E b None [] false).
(** Statements of [to_xml_writer]. *)
Definition writing_vars (E : vars) : Prop := changes E "ctx" = true /\ handle E "writer" = true.
Definition Stms (l : list tok) : Prop := forall Q r E b, writing_vars E -> clear b ->
  (forall E' b', writing_vars E' -> clear b' -> runs Q r (mkState E' b' None [] false)) -> runs Q (l ++ r) (mkState E b None [] false).
Lemma L_passes l E : Last l -> passes l E.
Proof. intros H. apply H. split; reflexivity. Qed.
Lemma S_passes l E : Stms l -> writing_vars E -> passes l E.
Proof. intros H W. rewrite <- (app_nil_r l). apply H; [exact W|split; reflexivity|]. intros E' b' _ _. apply W_nil. discriminate. Qed.
Lemma S_nil : Stms [].
Proof. intros Q r E b W C H. now apply H. Qed.
Lemma S_app l l' : Stms l -> Stms l' -> Stms (l ++ l').
Proof. intros H H' Q r E b W C K. rewrite <- app_assoc. apply H; auto. Qed.
Lemma S_flat {A} (f : A -> list tok) l : Forall (fun x => Stms (f x)) l -> Stms (flat_map f l).
Proof. induction 1; cbn [flat_map]; [apply S_nil|now apply S_app]. Qed.
Lemma Q_nil : Seq [].
Proof. intros Q r E b C H. now apply H. Qed.
Lemma Q_app l l' : Seq l -> Seq l' -> Seq (l ++ l').
Proof. intros H H' Q r E b C K. rewrite <- app_assoc. apply H; auto. Qed.
Lemma Q_flat {A} (f : A -> list tok) l : Forall (fun x => Seq (f x)) l -> Seq (flat_map f l).
Proof. induction 1; cbn [flat_map]; [apply Q_nil|now apply Q_app]. Qed.
Lemma Q_last l l' : Seq l -> Last l' -> Last (l ++ l').
Proof. intros H K E b C. apply H; auto. Qed.
Lemma Q_is_last l : Seq l -> Last l.
Proof. intros H. rewrite <- (app_nil_r l). apply Q_last; [exact H|]. intros E b C. apply W_nil. discriminate. Qed.
Create HintDb walks.
#[global] Hint Resolve L_passes S_passes : walks.

(** ** Automation *)
Lemma changes_cons y k E x : changes ((y, k) :: E) x = if x =?s y then match k with Changes => true | _ => false end else changes E x.
Proof. unfold changes. cbn [aget]. now destruct (x =?s y). Qed.
Lemma handle_cons y k E x : handle ((y, k) :: E) x = if x =?s y then match k with Handle => true | _ => false end else handle E x.
Proof. unfold handle. cbn [aget]. now destruct (x =?s y). Qed.
Ltac look :=
  repeat (first [rewrite changes_cons | rewrite handle_cons | progress cbn [String.eqb Ascii.eqb Bool.eqb]
                | match goal with H : changes ?E ?x = _ |- context [changes ?E ?x] => rewrite H | H : handle ?E ?x = _ |- context [handle ?E ?x] => rewrite H
                  | H : bare ?b = _ |- context [bare ?b] => rewrite H | H : after_mut ?b = _ |- context [after_mut ?b] => rewrite H end]).
Ltac calc1 :=
  cbn [leaf call_ok argument mut_argument st_vars st_before st_let st_next st_fn after expect head_id head_pu tl andb orb negb let_pattern
       member existsb mut_methods mut_arguments aget nth commas rev app String.eqb Ascii.eqb Bool.eqb];
  try match goal with |- context [after_mut (?t :: ?b)] => unfold after_mut; cbn [head_id head_pu tl andb String.eqb Ascii.eqb Bool.eqb] end;
  try match goal with |- context [bare (?t :: ?b)] => unfold bare; cbn [head_id head_pu tl andb orb negb String.eqb Ascii.eqb Bool.eqb] end;
  look; keywords; rewrite ?andb_false_r, ?orb_true_r.
Ltac solves := calc1; first [reflexivity | calc1; reflexivity].
Ltac clears := split; [first [assumption | reflexivity | solves]|first [assumption | reflexivity | solves]].
Ltac writings := split; look; reflexivity.
Ltac run :=
  lazymatch goal with
  | |- passes _ _ => first [solve [eauto 2 with walks nocore] | apply S_passes; [solve [eauto 2 with walks nocore]|writings] | unfold passes, enter; run]
  | |- runs _ [] _ => apply W_nil; try discriminate
  | |- runs _ (Gr "(" _ :: _) (mkState _ _ _ _ true) => apply W_params; match goal with |- context [parameters ?g] => let v := eval vm_compute in (parameters g) in change (parameters g) with v end; run
  | |- runs _ (Gr "(" _ :: _) _ => apply W_paren; [solves|run|run]
  | |- runs _ (Gr "{" _ :: _) _ => apply W_brace; [cbn [app]; run|run]
  | |- runs _ (Gr "[" _ :: _) _ => apply W_bracket; [run|run]
  | |- runs _ (_ :: _) _ => eapply W_leaf; [solves|exact I|unfold after, expect; cbn [st_vars st_before st_let st_next st_fn]; run]
  | |- runs _ (?l ++ _) _ => idtac
  | |- runs _ ?l _ => try (match goal with H : _ |- _ => apply H end; clears)
  | _ => idtac
  end.

(** ** Reading *)
Lemma lit_L l : Last (lit_tokens l).
Proof. intros E b [B A]. unfold lit_tokens. tokens. run. Qed.
#[global] Hint Resolve lit_L : walks.
Ltac solves ::= calc1; first [reflexivity | calc1; first [reflexivity | calc1; reflexivity]].
Lemma rx_L x : rx_names x -> Last (rx_tokens x).
Proof.
  intros N E b [B A]. destruct x as [l|s|id]; unfold rx_tokens; cbn [rx_names] in N; try destruct N as (N1 & N2 & N3); tokens.
  - pose proof (lit_L l). run.
  - run.
  - run.
Qed.
Ltac solves ::= calc1; first [reflexivity | calc1; first [reflexivity | calc1; reflexivity]].
Lemma vec_L o g : (forall E, passes g E) -> Last (vec_tokens o [Gr "{" g]).
Proof. intros H E b [B A]. destruct o; unfold vec_tokens; tokens; run; apply H. Qed.
Lemma fr_L f : fr_names f -> Last (fr_tokens f).
Proof.
  intros N. destruct f as [x|id x o|id x|n ns x o|n ns x|n ns x|n ns x]; unfold fr_tokens; cbn [fr_names] in N;
    try (destruct N as [(N1 & N2 & N3) N]); pose proof (rx_L x N) as X; [exact X| | | | | |];
    try (destruct ns as [ns|]); unfold ns_tokens; tokens;
    try (apply vec_L; intros E; run); try (intros E b [B A]; run).
Qed.
#[global] Hint Resolve rx_L fr_L : walks.
Lemma field_Q f : keyword (fst f) = false -> fr_names (snd f) -> Seq (field_from_tokens f).
Proof. intros K N Q r E b [B A] H. pose proof (fr_L _ N). destruct f as [n f]. unfold field_from_tokens. tokens. cbn [app fst snd] in *. run. Qed.
Lemma ra_Q a : keyword (ra_field a) = false -> Seq (ra_tokens a).
Proof.
  intros K Q r E b [B A] H. unfold ra_tokens. destruct (ra_opt a); (destruct (ra_conv a) as [l|id|]; unfold ax_tokens; [pose proof (lit_L l)| |]); tokens; cbn [app]; run.
Qed.
Lemma arm_Q a : arm_names a -> Seq (arm_tokens a ++ [Id "else"]).
Proof.
  intros N Q r E b [B A] H. destruct a as [w id x|w n ns x|w n ns x]; try (destruct ns as [ns|]); unfold arm_tokens, ns_tokens; cbn [arm_names] in N;
    [destruct N as (K & (N1 & N2 & N3) & N)| | | |]; try destruct N as (K & N); pose proof (rx_L x N); tokens; cbn [app]; run.
Qed.
Lemma read_L t : read_names t -> passes (read_tokens t) [] /\ forall E, passes (read_tokens t) E.
Proof.
  intros ((N1 & N2 & N3) & N4 & N). enough (H : forall E, passes (read_tokens t) E) by auto. intros E. unfold read_tokens.
  destruct (ti_read t) as [x| |fs ats|arms]; tokens.
  - pose proof (rx_L x N). run.
  - run.
  - destruct N as [HF HA].
    assert (H : Last (flat_map field_from_tokens fs ++ flat_map ra_tokens ats)).
    { apply Q_is_last, Q_app; apply Q_flat.
      - eapply Forall_impl; [|exact HF]. intros f [K F]. now apply field_Q.
      - eapply Forall_impl; [|exact HA]. intros a K. now apply ra_Q. }
    run.
  - rewrite flat_map_concat_map, map_map, <- flat_map_concat_map. apply L_passes, Q_last.
    + apply Q_flat. eapply Forall_impl; [|exact N]. intros a K. apply (arm_Q a K).
    + intros E' b [B A]. run.
Qed.
Lemma from_xml_Q t : read_names t -> Seq (from_xml_tokens t).
Proof.
  intros N Q r E b [B A] H. pose proof (proj2 (read_L t N)) as R. destruct N as ((N1 & N2 & N3) & N4 & _).
  unfold from_xml_tokens. destruct (ti_read_ns t); unfold ns_tokens; tokens; cbn [app]; run; try apply R.
Qed.
Lemma or_Q k : match k with LkCall id => name_ok id | _ => True end -> Seq (Pu "||" :: lk1_tokens k).
Proof.
  intros N Q r E b [B A] H. destruct k as [id|n [ns|]]; [destruct N as (N1 & N2 & N3)| |]; unfold lk1_tokens, ns_tokens; tokens; cbn [app]; run.
Qed.
Lemma look_L k : look_names k -> Last (look_tokens k).
Proof.
  intros N. destruct k as [|l]; unfold look_tokens; tokens; [intros E b [B A]; run|]. rewrite or_eq.
  assert (H : Last (or_tokens l)).
  { apply Q_is_last. unfold or_tokens. apply Q_flat. eapply Forall_impl; [|exact N]. intros k K. now apply or_Q. }
  intros E b [B A]. run.
Qed.
Lemma lookahead_Q t : keyword (ti_id t) = false -> look_names (ti_look t) -> Seq (lookahead_tokens t).
Proof. intros K N Q r E b [B A] H. pose proof (look_L _ N). unfold lookahead_tokens. tokens. cbn [app]. run. Qed.
