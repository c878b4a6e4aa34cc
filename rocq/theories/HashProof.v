(** * HashProof: the order of the hash maps has no influence on the generated code *)
From Coq Require Import Permutation.
From Verif Require Import Base Libs Xml Ast Decode Writer Gen Run MiscProof HashSpec.

Lemma aget_perm {V} k (l l' : list (string * V)) : Permutation l l' -> NoDup (map fst l) ->
  aget String.eqb k l = aget String.eqb k l'.
Proof.
  induction 1 as [|[a v] l l' P IH|[a v] [b w] l|l l2 l3 P1 IH1 P2 IH2]; intros N; simpl; auto.
  - inversion N; subst. now rewrite IH.
  - destruct (k =?s a) eqn:E1, (k =?s b) eqn:E2; auto. apply String.eqb_eq in E1, E2. subst. simpl in N. inversion N; subst.
    exfalso. simpl in *. tauto.
  - rewrite IH1 by exact N. apply IH2. eapply Permutation_NoDup; [apply Permutation_map, P1|exact N].
Qed.

Section Find.
Variable p p' : program.
Hypothesis Hs : same_module p p'.
Hypothesis Hn : NoDup (map ti_id p).

Lemma find_perm id (q : program) : Permutation p q -> NoDup (map ti_id p) -> lookup_item p id = lookup_item q id.
Proof.
  unfold lookup_item. clear Hs Hn. induction 1 as [|a l l' P IH|a b l|l l2 l3 P1 IH1 P2 IH2]; intros N; simpl; auto.
  - inversion N; subst. now rewrite IH.
  - destruct (String.eqb_spec (ti_id a) id), (String.eqb_spec (ti_id b) id); auto. subst. simpl in N. inversion N; subst.
    exfalso. simpl in *. apply H1. left. congruence.
  - rewrite IH1 by exact N. apply IH2. eapply Permutation_NoDup; [apply Permutation_map, P1|exact N].
Qed.

Lemma find_same id : match lookup_item p id, lookup_item p' id with
  | Some t, Some t' => In t p /\ same_item t t'
  | None, None => True
  | _, _ => False
  end.
Proof.
  destruct Hs as (q & P & F). rewrite (find_perm id q P Hn).
  assert (K : match lookup_item q id, lookup_item p' id with
    | Some t, Some t' => In t q /\ same_item t t' | None, None => True | _, _ => False end).
  { unfold lookup_item. clear -F. induction F as [|t t' q p' S F IH]; simpl; [exact I|].
    pose proof (proj1 S) as E. rewrite <- E. destruct (ti_id t =?s id); [auto|].
    destruct (find _ q), (find _ p'); intuition. }
  destruct (lookup_item q id), (lookup_item p' id); auto. destruct K as [I S]. split; [|exact S].
  eapply Permutation_in; [apply Permutation_sym|]; eassumption.
Qed.
End Find.

Section Decoder.
Context {L : Libs}.
Variable p p' : program.
Hypothesis Hs : same_module p p'.
Hypothesis Hn : NoDup (map ti_id p).
Hypothesis Hl : forall t, In t p -> distinct_literals t.

Lemma enum_perm vs vs' s : Permutation vs vs' -> NoDup (map snd vs) -> enum_from_str vs s = enum_from_str vs' s.
Proof.
  induction 1 as [|[a v] l l' P IH|[a v] [b w] l|l l2 l3 P1 IH1 P2 IH2]; intros N; simpl; auto.
  - inversion N; subst. now rewrite IH.
  - destruct (String.eqb_spec s v), (String.eqb_spec s w); auto. subst. simpl in N. inversion N; subst.
    exfalso. simpl in *. tauto.
  - rewrite IH1 by exact N. apply IH2. eapply Permutation_NoDup; [apply Permutation_map, P1|exact N].
Qed.

Lemma decl_perm t t' s : In t p -> same_item t t' ->
  match ti_decl t with DEnum vs => enum_from_str vs s | _ => Panic "no FromStr" end
  = match ti_decl t' with DEnum vs => enum_from_str vs s | _ => Panic "no FromStr" end.
Proof.
  intros I (_ & D & _). specialize (Hl t I). unfold distinct_literals in Hl. destruct D as [d|vs vs' P]; [reflexivity|].
  apply enum_perm; auto.
Qed.

Section Open.
Variable C : Type.
Variable ops : cursor_ops C.
Variable call call' : string -> xelem -> C -> R (value * C).
Variable look look' : string -> C -> R (bool * C).
Hypothesis Hc : forall id e c, call id e c = call' id e c.
Hypothesis Hk : forall id c, look id c = look' id c.

Lemma rx_same x e c : run_rx call x e c = run_rx call' x e c.
Proof. destruct x; simpl; auto. Qed.
Lemma sub_same x e : run_sub ops call x e = run_sub ops call' x e.
Proof. unfold run_sub. now rewrite rx_same. Qed.
Lemma while_look_same fuel id x e : forall c, while_look call look fuel id x e c = while_look call' look' fuel id x e c.
Proof.
  induction fuel as [|fuel IH]; intros c; simpl; [reflexivity|]. rewrite Hk. destruct (look' id c) as [[[] c1]| | |]; simpl; auto.
  rewrite rx_same. destruct (run_rx call' x e c1) as [[v c2]| | |]; simpl; auto. now rewrite IH.
Qed.
Lemma while_next_same fuel n ns x : forall c, while_next ops call fuel n ns x c = while_next ops call' fuel n ns x c.
Proof.
  induction fuel as [|fuel IH]; intros c; simpl; [reflexivity|]. destruct (op_next ops n ns c) as [[k|] c1]; auto.
  rewrite sub_same. destruct (run_sub ops call' x k); simpl; auto. now rewrite IH.
Qed.
Lemma fr_same fuel f e c : run_fr ops call look fuel f e c = run_fr ops call' look' fuel f e c.
Proof.
  destruct f; simpl.
  - apply rx_same.
  - now rewrite while_look_same.
  - rewrite Hk. destruct (look' look0 c) as [[[] c1]| | |]; simpl; auto. now rewrite rx_same.
  - now rewrite while_next_same.
  - destruct (op_next ops n ns c) as [[k|] c1]; auto. now rewrite sub_same.
  - destruct (op_child ops n ns c) as [[k|] c1]; auto. now rewrite sub_same.
  - destruct (op_next ops n ns c) as [[k|] c1]; auto. now rewrite sub_same.
Qed.
Lemma fields_same fuel fs e : forall c, run_fields ops call look fuel fs e c = run_fields ops call' look' fuel fs e c.
Proof.
  induction fs as [|[f x] fs IH]; intros c; simpl; [reflexivity|]. rewrite fr_same.
  destruct (run_fr ops call' look' fuel x e c) as [[v c1]| | |]; simpl; auto. now rewrite IH.
Qed.
Lemma ax_same a s : run_ax p a s = run_ax p' a s.
Proof.
  destruct a as [l|[pr| |id|t|t]|]; simpl; auto. pose proof (find_same p p' Hs Hn id) as K.
  destruct (lookup_item p id) as [t|], (lookup_item p' id) as [t'|]; try contradiction; [|reflexivity].
  destruct K as [I S]. now apply decl_perm.
Qed.
Lemma ra_same a e : run_ra p a e = run_ra p' a e.
Proof.
  unfold run_ra. destruct (ra_opt a).
  - destruct (d_attribute e (ra_xml a)); auto. now rewrite ax_same.
  - destruct (d_try_attribute e (ra_xml a)); simpl; auto. now rewrite ax_same.
Qed.
Lemma arms_same fuel self arms e : forall c, run_arms ops call look fuel self arms e c = run_arms ops call' look' fuel self arms e c.
Proof.
  induction arms as [|[v id x|v n ns x|v n ns x] arms IH]; intros c; simpl; [reflexivity| | |].
  - rewrite Hk. destruct (look' id c) as [[[] c1]| | |]; simpl; auto. now rewrite rx_same.
  - destruct (op_peek ops n ns c) as [[] c1]; auto. now rewrite while_next_same.
  - destruct (op_next ops n ns c) as [[k|] c1]; auto. now rewrite sub_same.
Qed.
Lemma body_same fuel t t' e c : In t p -> same_item t t' ->
  run_body ops p call look fuel t e c = run_body ops p' call' look' fuel t' e c.
Proof.
  intros I S. pose proof S as (Ei & _ & _ & _ & _ & _ & _ & Er & _). unfold run_body. rewrite <- Er, <- Ei.
  destruct (ti_read t) as [x| |fs ats|arms].
  - now rewrite rx_same.
  - destruct (d_text e) as [s| | |]; simpl; auto. destruct S as (_ & D & _).
    specialize (Hl t I). unfold distinct_literals in Hl. destruct D as [d|vs vs' P]; [reflexivity|].
    now rewrite (enum_perm vs vs') by auto.
  - rewrite fields_same. destruct (run_fields ops call' look' fuel fs e c) as [[vs c1]| | |]; simpl; auto.
    assert (E : mapM (fun a => run_ra p a e) ats = mapM (fun a => run_ra p' a e) ats).
    { clear Er. induction ats as [|a ats IH]; simpl; [reflexivity|]. rewrite ra_same. destruct (run_ra p' a e); simpl; auto. now rewrite IH. }
    now rewrite E.
  - apply arms_same.
Qed.
End Open.

Lemma look_same C (ops : cursor_ops C) fuel : forall id c, run_look ops p fuel id c = run_look ops p' fuel id c.
Proof.
  induction fuel as [|fuel IH]; intros id c; simpl; [reflexivity|]. pose proof (find_same p p' Hs Hn id) as K.
  destruct (lookup_item p id) as [t|], (lookup_item p' id) as [t'|]; try contradiction; [|reflexivity].
  destruct K as [_ (_ & _ & _ & _ & _ & _ & _ & _ & E)]. rewrite <- E. clear E. destruct (ti_look t) as [|l]; [reflexivity|].
  revert c. induction l as [|[i|n ns] l IHl]; intros c; simpl; [reflexivity| |].
  - rewrite IH. destruct (run_look ops p' fuel i c) as [[[] c1]| | |]; simpl; auto.
  - destruct (op_peek ops n ns c) as [[] c1]; auto.
Qed.

Lemma type_same C (ops : cursor_ops C) fuel : forall id e c, run_type ops p fuel id e c = run_type ops p' fuel id e c.
Proof.
  induction fuel as [|fuel IH]; intros id e c; simpl; [reflexivity|]. pose proof (find_same p p' Hs Hn id) as K.
  destruct (lookup_item p id) as [t|], (lookup_item p' id) as [t'|]; try contradiction; [|reflexivity].
  destruct K as [I S]. apply body_same; auto. intros. apply look_same.
Qed.

Lemma decode_same fuel id e : from_xml p fuel id e = from_xml p' fuel id e.
Proof.
  unfold from_xml, from_xml_with. pose proof (find_same p p' Hs Hn id) as K.
  destruct (lookup_item p id) as [t|], (lookup_item p' id) as [t'|]; try contradiction; [|reflexivity].
  destruct K as [_ (_ & _ & _ & _ & _ & E1 & E2 & _)]. rewrite <- E1, <- E2.
  destruct (doc_try_child e (ti_read_name t) (ti_read_ns t)); simpl; auto. now rewrite type_same.
Qed.
End Decoder.

(** ** Encoding *)
Definition like_inner (i i' : inner) : Prop :=
  in_name i = in_name i' /\ in_attrs i = in_attrs i' /\ Permutation (in_ns i) (in_ns i') /\ NoDup (map fst (in_ns i)).
Definition like (c c' : wctx) : Prop := wc_virtual c = wc_virtual c' /\ like_inner (wc_inner c) (wc_inner c').
Definition likes {A} (Rel : A -> A -> Prop) (r r' : W (list event * A)) : Prop :=
  match r, r' with
  | Ok (l, i), Ok (l', i') => Forall2 same_event l l' /\ Rel i i'
  | Err _, Err _ => True
  | Panic w, Panic w' => w = w'
  | OutOfFuel, OutOfFuel => True
  | _, _ => False
  end.
Definition liker {A} (Rel : A -> A -> Prop) (r r' : W A) : Prop :=
  match r, r' with
  | Ok i, Ok i' => Rel i i'
  | Err _, Err _ => True
  | Panic w, Panic w' => w = w'
  | OutOfFuel, OutOfFuel => True
  | _, _ => False
  end.

Lemma like_wrap c c' : like c c' -> like (ctx_wrap c) (ctx_wrap c').
Proof. intros [_ H]. now split. Qed.
Lemma like_unwrap c c' i i' : like c c' -> like_inner i i' -> like (ctx_unwrap c i) (ctx_unwrap c' i').
Proof. intros [E _] H. now split. Qed.
Lemma like_create n : like (ctx_create n) (ctx_create n).
Proof. repeat split; simpl; auto. constructor. Qed.
Lemma like_attr n v c c' : like c c' -> like (set_attr n v c) (set_attr n v c').
Proof. intros (E & A & B & D & N). repeat split; simpl; auto. now rewrite B. Qed.
Lemma like_start c c' : like c c' -> Forall2 same_event (fst (write_start_element c)) (fst (write_start_element c'))
  /\ like (snd (write_start_element c)) (snd (write_start_element c')).
Proof.
  intros (E & A & B & D & N). unfold write_start_element. rewrite <- E. destruct (wc_virtual c) eqn:V; simpl.
  - split; [constructor|]. repeat split; auto. congruence.
  - rewrite <- A, <- B. split; [repeat constructor; auto|]. repeat split; simpl; auto. constructor.
Qed.
Lemma like_end c c' : like c c' -> Forall2 same_event (write_end_element c) (write_end_element c').
Proof. intros [E _]. unfold write_end_element. rewrite <- E. destruct (wc_virtual c); repeat constructor. Qed.

Lemma put_fold l : forall m, NoDup (map fst l) -> NoDup (map fst m) ->
  fold_left (fun m d => ns_put (fst d) (snd d) m) l m = m ++ filter (fun d => negb (is_some (aget String.eqb (fst d) m))) l.
Proof.
  induction l as [|[k u] l IH]; intros m N M; simpl; [now rewrite app_nil_r|]. inversion N as [|? ? N1 N2]; subst.
  unfold ns_put at 2. destruct (aget String.eqb k m) eqn:G; simpl.
  - rewrite IH by assumption. reflexivity.
  - rewrite IH; [|assumption|].
    + rewrite <- app_assoc. simpl. f_equal. f_equal. apply filter_ext_in. intros [k' u'] I'. simpl.
      f_equal. f_equal. clear -N1 I'. induction m as [|[a b] m IHm]; simpl.
      * destruct (String.eqb_spec k' k) as [->|]; [|reflexivity]. exfalso. apply N1. apply in_map_iff. now exists (k, u').
      * destruct (k' =?s a); [reflexivity|exact IHm].
    + rewrite map_app. simpl. apply NoDup_app; simpl; auto.
      * repeat constructor. simpl. tauto.
      * intros x Ix [<-|[]]. clear -G Ix. induction m as [|[a b] m IHm]; [contradiction|]. simpl in *.
        destruct (String.eqb_spec k a); [discriminate|]. destruct Ix; [congruence|auto].
Qed.
Lemma filter_perm {A} (f : A -> bool) l l' : Permutation l l' -> Permutation (filter f l) (filter f l').
Proof.
  induction 1; simpl; auto.
  - destruct (f x); auto.
  - destruct (f x), (f y); auto. apply perm_swap.
  - now rewrite IHPermutation1.
Qed.
Lemma set_nss_inner nss : forall c, set_nss nss c = mkWctx (wc_virtual c) (mkInner (in_name (wc_inner c)) (in_attrs (wc_inner c))
  (fold_left (fun m d => ns_put (fst d) (snd d) m) nss (in_ns (wc_inner c)))).
Proof.
  unfold set_nss. induction nss as [|d nss IH]; intros c; simpl; [now destruct c as [v []]|]. now rewrite IH.
Qed.
Lemma NoDup_keep {A B} (f : A -> B) (g : A -> bool) l : NoDup (map f l) -> NoDup (map f (filter g l)).
Proof.
  induction l as [|a l IH]; simpl; auto. intros N. inversion N as [|? ? N1 N2]; subst. destruct (g a); simpl; auto.
  constructor; auto. intros I. apply N1. apply in_map_iff in I. destruct I as (x & E & Ix). apply filter_In in Ix.
  apply in_map_iff. exists x. tauto.
Qed.
Lemma aget_none_in {V} k (m : list (string * V)) : aget String.eqb k m = None -> ~ In k (map fst m).
Proof.
  induction m as [|[a b] m IH]; simpl; [tauto|]. destruct (String.eqb_spec k a); [discriminate|]. intros G [E|I]; [congruence|now apply IH].
Qed.
Lemma like_nss nss nss' c c' : like c c' -> Permutation nss nss' -> NoDup (map fst nss) -> like (set_nss nss c) (set_nss nss' c').
Proof.
  intros (E & A & B & D & N) P Nn. rewrite !set_nss_inner.
  assert (Nn' : NoDup (map fst nss')) by (eapply Permutation_NoDup; [apply Permutation_map, P|exact Nn]).
  assert (N' : NoDup (map fst (in_ns (wc_inner c')))) by (eapply Permutation_NoDup; [apply Permutation_map, D|exact N]).
  repeat split; simpl; auto.
  - rewrite !put_fold by assumption. apply Permutation_app; [exact D|].
    rewrite (filter_ext _ (fun d => negb (is_some (aget String.eqb (fst d) (in_ns (wc_inner c')))))).
    + now apply filter_perm.
    + intros d. now rewrite (aget_perm _ _ _ D N).
  - rewrite put_fold by assumption. rewrite map_app. apply NoDup_app; auto using NoDup_keep.
    intros x Ix I. apply in_map_iff in I. destruct I as (d & <- & Id). apply filter_In in Id. destruct Id as [_ Id].
    destruct (aget String.eqb (fst d) (in_ns (wc_inner c))) eqn:G; [discriminate|]. now apply (aget_none_in _ _ G).
Qed.

Section Encoder.
Context {L : Libs}.
Variable p p' : program.
Hypothesis Hs : same_module p p'.
Hypothesis Hn : NoDup (map ti_id p).
Hypothesis Hd : forall t, In t p -> distinct_names t.

Lemma as_str_perm vs vs' x : Permutation vs vs' -> NoDup (map fst vs) -> enum_as_str vs x = enum_as_str vs' x.
Proof.
  induction 1 as [|[a v] l l' P IH|[a v] [b w] l|l l2 l3 P1 IH1 P2 IH2]; intros N; simpl; auto.
  - inversion N; subst. now rewrite IH.
  - destruct (String.eqb_spec x a), (String.eqb_spec x b); auto. subst. simpl in N. inversion N; subst.
    exfalso. simpl in *. tauto.
  - rewrite IH1 by exact N. apply IH2. eapply Permutation_NoDup; [apply Permutation_map, P1|exact N].
Qed.

Lemma liker_refl {A} (r : W A) : liker eq r r.
Proof. destruct r; simpl; auto. Qed.

Lemma attr_string_same v t : attr_to_string p v t = attr_to_string p' v t.
Proof.
  destruct t as [[pr| |id|t|t]|]; try reflexivity. unfold attr_to_string.
  pose proof (find_same p p' Hs Hn id) as K.
  destruct (lookup_item p id) as [ti|], (lookup_item p' id) as [ti'|]; try contradiction; [|reflexivity].
  destruct K as [I (_ & D & _)]. destruct (Hd ti I) as [_ N]. destruct D as [d|vs vs' P]; [reflexivity|].
  destruct v; try reflexivity. now rewrite (as_str_perm vs vs' variant P) by auto.
Qed.

Lemma field_type_same t t' f : same_item t t' -> field_type t f = field_type t' f.
Proof. intros (_ & D & _). unfold field_type. destruct D; reflexivity. Qed.

Lemma write_attr_like t t' a v c c' : same_item t t' -> like c c' -> liker like (write_attr p t a v c) (write_attr p' t' a v c').
Proof.
  intros S Lc. unfold write_attr. rewrite <- (field_type_same t t' _ S).
  destruct (vfield v (wa_field a)) as [x| | |]; simpl; auto.
  assert (K : forall y, liker like
    (s <- match wa_fixed a with Some s => Ok s | None => attr_to_string p y (field_type t (wa_field a)) end ;; Ok (set_attr (wa_xml a) s c))
    (s <- match wa_fixed a with Some s => Ok s | None => attr_to_string p' y (field_type t (wa_field a)) end ;; Ok (set_attr (wa_xml a) s c'))).
  { intros y. rewrite attr_string_same. destruct (wa_fixed a); simpl; [now apply like_attr|].
    destruct (attr_to_string p' y (field_type t (wa_field a))); simpl; auto. now apply like_attr. }
  destruct (wa_opt a); [|apply K]. destruct x; simpl; auto.
Qed.
Lemma write_attrs_like t t' l v : same_item t t' -> forall c c', like c c' -> liker like (write_attrs p t l v c) (write_attrs p' t' l v c').
Proof.
  intros S. induction l as [|a l IH]; intros c c' Lc; simpl; auto.
  pose proof (write_attr_like t t' a v c c' S Lc) as K.
  destruct (write_attr p t a v c), (write_attr p' t' a v c'); simpl in *; try contradiction; auto.
Qed.

Section Open.
Variable call call' : string -> value -> wctx -> W (list event * inner).
Hypothesis Hc : forall id v c c', like c c' -> likes like_inner (call id v c) (call' id v c').

Lemma wx_like x v c c' : like c c' -> likes like_inner (write_wx call x v c) (write_wx call' x v c').
Proof.
  intros Lc. destruct x; simpl; auto.
  - destruct (value_to_string v); simpl; auto. split; [|apply Lc]. destruct (is_empty s); repeat constructor.
  - split; [repeat constructor|apply Lc].
Qed.

Lemma around_like x v c c' : like c c' ->
  likes like_inner
    (let '(ev0, c1) := write_start_element c in '(ev1, i) <- write_wx call x v c1 ;; Ok (ev0 ++ ev1 ++ write_end_element (ctx_unwrap c1 i), i))
    (let '(ev0, c1) := write_start_element c' in '(ev1, i) <- write_wx call' x v c1 ;; Ok (ev0 ++ ev1 ++ write_end_element (ctx_unwrap c1 i), i)).
Proof.
  intros Lc. destruct (like_start _ _ Lc) as [E0 L1].
  destruct (write_start_element c) as [e0 c1], (write_start_element c') as [e0' c1']. simpl in E0, L1.
  pose proof (wx_like x v _ _ L1) as K.
  destruct (write_wx call x v c1) as [[e i]| | |], (write_wx call' x v c1') as [[e' i']| | |]; simpl in *; try contradiction; auto.
  destruct K as [K1 K2]. split; [|exact K2]. apply Forall2_app; [exact E0|]. apply Forall2_app; [exact K1|].
  apply like_end. now apply like_unwrap.
Qed.

Lemma leaf_one_like w v c c' : like c c' -> likes like (write_leaf_one call w v c) (write_leaf_one call' w v c').
Proof.
  intros Lc. unfold write_leaf_one. destruct (wf_new w) as [n|].
  - destruct (wf_wrap w).
    + pose proof (around_like (wf_x w) v _ _ (like_create n)) as K. revert K.
      destruct (write_start_element (ctx_create n)) as [e0 c1].
      destruct (write_wx call (wf_x w) v c1) as [[e i]| | |], (write_wx call' (wf_x w) v c1) as [[e' i']| | |]; simpl; try tauto.
    + pose proof (wx_like (wf_x w) v _ _ (like_create n)) as K. revert K.
      destruct (write_wx call (wf_x w) v (ctx_create n)) as [[e i]| | |], (write_wx call' (wf_x w) v (ctx_create n)) as [[e' i']| | |]; simpl; tauto.
  - destruct (wf_wrap w).
    + pose proof (around_like (wf_x w) v _ _ (like_wrap _ _ Lc)) as K. revert K.
      destruct (write_start_element (ctx_wrap c)) as [e0 c1], (write_start_element (ctx_wrap c')) as [e0' c1'].
      destruct (write_wx call (wf_x w) v c1) as [[e i]| | |], (write_wx call' (wf_x w) v c1') as [[e' i']| | |]; simpl; try tauto.
      intros [K1 K2]. split; [exact K1|now apply like_unwrap].
    + pose proof (wx_like (wf_x w) v _ _ (like_wrap _ _ Lc)) as K. revert K.
      destruct (write_wx call (wf_x w) v (ctx_wrap c)) as [[e i]| | |], (write_wx call' (wf_x w) v (ctx_wrap c')) as [[e' i']| | |]; simpl; try tauto.
      intros [K1 K2]. split; [exact K1|now apply like_unwrap].
Qed.
Lemma each_like w vs : forall c c', like c c' -> likes like (write_each call w vs c) (write_each call' w vs c').
Proof.
  induction vs as [|v vs IH]; intros c c' Lc; simpl; [split; [constructor|exact Lc]|].
  pose proof (leaf_one_like w v _ _ Lc) as K.
  destruct (write_leaf_one call w v c) as [[e c1]| | |], (write_leaf_one call' w v c') as [[e' c1']| | |]; simpl in *; try contradiction; auto.
  destruct K as [K1 K2]. specialize (IH _ _ K2).
  destruct (write_each call w vs c1) as [[e2 c2]| | |], (write_each call' w vs c1') as [[e2' c2']| | |]; simpl in *; try contradiction; auto.
  destruct IH. split; [now apply Forall2_app|assumption].
Qed.
Lemma leaf_like w v c c' : like c c' -> likes like (write_leaf call w v c) (write_leaf call' w v c').
Proof.
  intros Lc. unfold write_leaf. destruct (vfield v (wf_field w)) as [x| | |]; simpl; auto.
  assert (K : forall y, likes like
    (if wf_vec w then match y with VVec vs => write_each call w vs c | _ => Panic "not a Vec" end else write_leaf_one call w y c)
    (if wf_vec w then match y with VVec vs => write_each call' w vs c' | _ => Panic "not a Vec" end else write_leaf_one call' w y c')).
  { intros y. destruct (wf_vec w); [|now apply leaf_one_like]. destruct y; simpl; auto. now apply each_like. }
  destruct (wf_opt w); [|apply K]. destruct x; simpl; auto.
Qed.
Lemma leaves_like ws v : forall c c', like c c' -> likes like (write_leaves call ws v c) (write_leaves call' ws v c').
Proof.
  induction ws as [|w ws IH]; intros c c' Lc; simpl; [split; [constructor|exact Lc]|].
  pose proof (leaf_like w v _ _ Lc) as K.
  destruct (write_leaf call w v c) as [[e c1]| | |], (write_leaf call' w v c') as [[e' c1']| | |]; simpl in *; try contradiction; auto.
  destruct K as [K1 K2]. specialize (IH _ _ K2).
  destruct (write_leaves call ws v c1) as [[e2 c2]| | |], (write_leaves call' ws v c1') as [[e2' c2']| | |]; simpl in *; try contradiction; auto.
  destruct IH. split; [now apply Forall2_app|assumption].
Qed.
Lemma body_like b v c c' : like c c' -> likes like_inner (write_body call b v c) (write_body call' b v c').
Proof.
  intros Lc. destruct b as [|f x|ws]; simpl.
  - split; [constructor|apply Lc].
  - destruct (vfield v f); simpl; auto. now apply wx_like.
  - pose proof (leaves_like ws v _ _ Lc) as K.
    destruct (write_leaves call ws v c) as [[e c1]| | |], (write_leaves call' ws v c') as [[e' c1']| | |]; simpl in *; try contradiction; auto.
    destruct K as [K1 [_ K2]]. auto.
Qed.
Lemma wrapped_like wrap c c' (b b' : wctx -> W (list event * inner)) : like c c' ->
  (forall c c', like c c' -> likes like_inner (b c) (b' c')) -> likes like_inner (wrapped wrap c b) (wrapped wrap c' b').
Proof.
  intros Lc Hb. unfold wrapped. destruct wrap; [|now apply Hb].
  destruct (like_start _ _ Lc) as [E0 L1].
  destruct (write_start_element c) as [e0 c1], (write_start_element c') as [e0' c1']. simpl in E0, L1.
  pose proof (Hb _ _ L1) as K.
  destruct (b c1) as [[e i]| | |], (b' c1') as [[e' i']| | |]; simpl in *; try contradiction; auto.
  destruct K as [K1 K2]. split; [|exact K2]. apply Forall2_app; [exact E0|]. apply Forall2_app; [exact K1|].
  apply like_end. now apply like_unwrap.
Qed.
Lemma arm_one_like a v : liker (Forall2 same_event) (write_arm_one call a v) (write_arm_one call' a v).
Proof.
  unfold write_arm_one. destruct (wm_wrap a).
  - pose proof (around_like (wm_x a) v _ _ (like_create (wm_xml a))) as K. revert K.
    destruct (write_start_element (ctx_create (wm_xml a))) as [e0 c1].
    destruct (write_wx call (wm_x a) v c1) as [[e i]| | |], (write_wx call' (wm_x a) v c1) as [[e' i']| | |]; simpl; tauto.
  - pose proof (wx_like (wm_x a) v _ _ (like_create (wm_xml a))) as K. revert K.
    destruct (write_wx call (wm_x a) v (ctx_create (wm_xml a))) as [[e i]| | |], (write_wx call' (wm_x a) v (ctx_create (wm_xml a))) as [[e' i']| | |]; simpl; tauto.
Qed.
Lemma arm_each_like a vs : liker (Forall2 same_event) (write_arm_each call a vs) (write_arm_each call' a vs).
Proof.
  induction vs as [|v vs IH]; simpl; [constructor|]. pose proof (arm_one_like a v) as K.
  destruct (write_arm_one call a v), (write_arm_one call' a v); simpl in *; try contradiction; auto.
  destruct (write_arm_each call a vs), (write_arm_each call' a vs); simpl in *; try contradiction; auto. now apply Forall2_app.
Qed.
Lemma choice_like arms v : liker (Forall2 same_event) (write_choice call arms v) (write_choice call' arms v).
Proof.
  unfold write_choice. destruct v; simpl; auto. destruct (find _ arms) as [a|]; simpl; auto.
  destruct (wm_vec a); [|apply arm_one_like]. destruct v; simpl; auto. apply arm_each_like.
Qed.

Lemma item_like t t' v c c' : In t p -> same_item t t' -> like c c' ->
  likes like_inner (write_item p call t v c) (write_item p' call' t' v c').
Proof.
  intros I S Lc. pose proof S as (_ & D & _ & P & Ew & _). destruct (Hd t I) as [Nn Nv].
  pose proof (like_nss _ _ _ _ Lc P Nn) as L1. unfold write_item. rewrite <- Ew. destruct (ti_write t) as [wrap x| |ats wrap b|wrap arms].
  - destruct v; simpl; auto. apply wrapped_like; auto. intros. now apply wx_like.
  - destruct v; try reflexivity.
    assert (K : forall s c c', like c c' ->
      likes like_inner (Ok ((if is_empty s then [] else [EvChars s]), wc_inner c)) (Ok ((if is_empty s then [] else [EvChars s]), wc_inner c'))).
    { intros s d d' Ld. simpl. split; [destruct (is_empty s); repeat constructor|apply Ld]. }
    destruct D as [d|vs vs' Pv].
    + destruct d; try reflexivity. destruct (enum_as_str variants variant); [|reflexivity]. apply (wrapped_like true); auto.
    + rewrite <- (as_str_perm vs vs' variant Pv) by auto. destruct (enum_as_str vs variant); [|reflexivity].
      apply (wrapped_like true); auto.
  - pose proof (write_attrs_like t t' ats v S _ _ L1) as K.
    destruct (write_attrs p t ats v (set_nss (ti_nss t) c)), (write_attrs p' t' ats v (set_nss (ti_nss t') c')); simpl in *; try contradiction; auto.
    apply wrapped_like; auto. intros. now apply body_like.
  - apply wrapped_like; auto. intros d d' Ld. pose proof (choice_like arms v) as K.
    destruct (write_choice call arms v), (write_choice call' arms v); simpl in *; try contradiction; auto. split; [exact K|apply Ld].
Qed.
End Open.

Lemma type_like fuel : forall id v c c', like c c' -> likes like_inner (write_type p fuel id v c) (write_type p' fuel id v c').
Proof.
  induction fuel as [|fuel IH]; intros id v c c' Lc; simpl; auto. pose proof (find_same p p' Hs Hn id) as K.
  destruct (lookup_item p id) as [t|], (lookup_item p' id) as [t'|]; try contradiction; [|reflexivity].
  destruct K as [I S]. now apply item_like.
Qed.

Lemma encode_same fuel id v : same_output (to_xml p fuel id v) (to_xml p' fuel id v).
Proof.
  unfold to_xml. pose proof (find_same p p' Hs Hn id) as K.
  destruct (lookup_item p id) as [t|], (lookup_item p' id) as [t'|]; try contradiction; [|reflexivity].
  destruct K as [_ (_ & _ & E & _)]. rewrite <- E. pose proof (type_like fuel id v _ _ (like_create (ti_xml_name t))) as K.
  destruct (write_type p fuel id v _) as [[e i]| | |], (write_type p' fuel id v _) as [[e' i']| | |]; simpl in *; try contradiction; auto.
  apply K.
Qed.
End Encoder.

(** ** The document that is read back *)
Section Document.
Context {L : Libs}.
Definition same_scope (s s' : list (string * string)) : Prop := forall k, aget String.eqb k s = aget String.eqb k s'.
Lemma aget_app k (l m : list (string * string)) : aget String.eqb k (l ++ m)
  = match aget String.eqb k l with Some v => Some v | None => aget String.eqb k m end.
Proof. induction l as [|[a b] l IH]; simpl; [reflexivity|]. destruct (k =?s a); auto. Qed.
Lemma scope_app nss nss' s s' : Permutation nss nss' -> NoDup (map fst nss) -> same_scope s s' -> same_scope (nss ++ s) (nss' ++ s').
Proof. intros P N S k. rewrite !aget_app, (aget_perm k _ _ P N), (S k). reflexivity. Qed.
Lemma forallb_perm {A} (f : A -> bool) l l' : Permutation l l' -> forallb f l = forallb f l'.
Proof.
  induction 1; simpl; auto.
  - now rewrite IHPermutation.
  - destruct (f x), (f y); reflexivity.
  - congruence.
Qed.
Definition same_frame (f f' : frame) : Prop :=
  fr_tag f = fr_tag f' /\ fr_ns f = fr_ns f' /\ fr_attrs f = fr_attrs f' /\ same_scope (fr_scope f) (fr_scope f') /\ fr_kids f = fr_kids f'.

Lemma open_same s s' n ats nss nss' : Permutation nss nss' -> NoDup (map fst nss) -> same_scope s s' ->
  match open_frame s n ats nss, open_frame s' n ats nss' with
  | Some f, Some f' => same_frame f f'
  | None, None => True
  | _, _ => False
  end.
Proof.
  intros P N S. pose proof (scope_app _ _ _ _ P N S) as K. unfold open_frame, decls_ok. rewrite <- (forallb_perm _ _ _ P).
  destruct (forallb _ nss); [|exact I].
  assert (E1 : expand_elem (nss ++ s) n = expand_elem (nss' ++ s') n).
  { unfold expand_elem, lookup_default. rewrite (K ""). destruct (split_colon n) as [[q l]|]; [|reflexivity]. now rewrite (K q). }
  assert (E2 : expand_attrs (nss ++ s) ats = expand_attrs (nss' ++ s') ats).
  { induction ats as [|[a v] ats IH]; simpl; [reflexivity|]. rewrite IH.
    assert (Ea : expand_attr (nss ++ s) a = expand_attr (nss' ++ s') a).
    { unfold expand_attr. destruct (split_colon a) as [[q l]|]; [|reflexivity]. now rewrite (K q). }
    now rewrite Ea. }
  rewrite E1, E2. destruct (expand_elem (nss' ++ s') n) as [[t ns]|]; [|exact I].
  destruct (expand_attrs (nss' ++ s') ats); [|exact I]. repeat split; auto.
Qed.

Lemma build_same l l' : Forall2 same_event l l' -> forall st st' d, Forall2 same_frame st st' -> build l st d = build l' st' d.
Proof.
  induction 1 as [|e e' l l' E F IH]; intros st st' d Fs; simpl.
  - destruct Fs; reflexivity.
  - destruct E as [n ats nss nss' P N| |s].
    + destruct Fs as [|f f' st st' Ef Fs].
      * destruct d; [reflexivity|]. pose proof (open_same [] [] n ats nss nss' P N (fun k => eq_refl)) as K.
        destruct (open_frame [] n ats nss), (open_frame [] n ats nss'); try contradiction; auto.
      * pose proof Ef as (_ & _ & _ & Sc & _). pose proof (open_same _ _ n ats nss nss' P N Sc) as K.
        destruct (open_frame _ n ats nss), (open_frame _ n ats nss'); try contradiction; auto.
    + destruct Fs as [|f f' st st' Ef Fs]; [reflexivity|]. destruct Ef as (A1 & A2 & A3 & A4 & A5).
      unfold close_frame. rewrite A1, A2, A3, A5. destruct (texts_back _); [|reflexivity].
      destruct Fs as [|g g' st st' Eg Fs]; [now apply IH|]. apply IH. constructor; [|exact Fs].
      destruct Eg as (B1 & B2 & B3 & B4 & B5). repeat split; simpl; auto. now rewrite B5.
    + destruct Fs as [|f f' st st' Ef Fs]; [reflexivity|]. apply IH. constructor; [|exact Fs].
      destruct Ef as (B1 & B2 & B3 & B4 & B5). repeat split; simpl; auto. now rewrite B5.
Qed.

Lemma document_same l l' : Forall2 same_event l l' -> document l = document l'.
Proof. intros F. unfold document. now apply build_same. Qed.
End Document.
