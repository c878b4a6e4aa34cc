(** * CanonProof: what is written for a canonical value is read as that value *)
From Verif Require Import Base Libs Xml Ast Parse Decode Writer Gen Run CursorSpec CursorProof GenSpec GenProof1 GenProof2
  DecSpec DecSim DecProof ReadSpec DecProof1 RepSpec RepProof WriterSpec WriterProof EncSpec EncProof WfSpec WfProof
  WfCheck TotalProof CanonSpec.

Lemma opt_s_eq a b : opt_eqb String.eqb a b = true <-> a = b.
Proof. apply (opt_eqb_eq String.eqb String.eqb_eq). Qed.
Lemma nodup_s l : nodupb String.eqb l = true <-> NoDup l.
Proof. apply (nodupb_NoDup String.eqb String.eqb_eq). Qed.
Lemma aget_app_s {V} (k : string) (a b : list (string * V)) :
  aget String.eqb k (a ++ b) = match aget String.eqb k a with Some v => Some v | None => aget String.eqb k b end.
Proof. induction a as [|[q v] a IH]; simpl; auto. destruct (k =?s q); auto. Qed.
Lemma aget_none_s {V} (k : string) (a : list (string * V)) : ~ In k (map fst a) -> aget String.eqb k a = None.
Proof.
  induction a as [|[q v] a IH]; simpl; auto. intros H. destruct (k =?s q) eqn:E; auto. apply String.eqb_eq in E. subst. tauto.
Qed.
Lemma aget_in_s {V} (k : string) v (a : list (string * V)) : NoDup (map fst a) -> In (k, v) a -> aget String.eqb k a = Some v.
Proof.
  induction a as [|[q w] a IH]; simpl; [tauto|]. intros N [E|E].
  - injection E as -> ->. now rewrite String.eqb_refl.
  - inversion N as [|? ? N1 N2]; subst. destruct (k =?s q) eqn:Q; auto. apply String.eqb_eq in Q. subst.
    exfalso. apply N1. apply (in_map fst) in E. exact E.
Qed.

(** ** Namespace declarations *)
Definition put_all (nss m : list (string * string)) := fold_left (fun m d => ns_put (fst d) (snd d) m) nss m.
Lemma put_cons a b nss m : put_all ((a, b) :: nss) m = put_all nss (ns_put a b m).
Proof. reflexivity. Qed.
Lemma put_keeps nss : forall m q, aget String.eqb q m <> None -> aget String.eqb q (put_all nss m) = aget String.eqb q m.
Proof.
  induction nss as [|[a b] nss IH]; intros m q H; [reflexivity|]. rewrite put_cons. unfold ns_put.
  destruct (aget String.eqb a m) eqn:E; auto. rewrite IH.
  - rewrite aget_app_s. destruct (aget String.eqb q m); congruence.
  - rewrite aget_app_s. destruct (aget String.eqb q m); congruence.
Qed.
Lemma put_has nss : forall m a b, In (a, b) nss -> aget String.eqb a (put_all nss m) <> None.
Proof.
  induction nss as [|[x y] nss IH]; intros m a b; [intros []|]. rewrite put_cons. intros [E|E]; [|eapply IH; eauto].
  injection E as -> ->. rewrite put_keeps.
  - unfold ns_put. destruct (aget String.eqb a m) eqn:E; [congruence|]. rewrite aget_app_s, E. simpl. rewrite String.eqb_refl. discriminate.
  - unfold ns_put. destruct (aget String.eqb a m) eqn:E; [congruence|]. rewrite aget_app_s, E. simpl. rewrite String.eqb_refl. discriminate.
Qed.
Lemma put_noop nss m : (forall a b, In (a, b) nss -> aget String.eqb a m <> None) -> put_all nss m = m.
Proof.
  induction nss as [|[a b] nss IH]; intros H; [reflexivity|]. rewrite put_cons. unfold ns_put.
  destruct (aget String.eqb a m) eqn:E.
  - apply IH. intros x y I. apply (H x y). now right.
  - exfalso. eapply (H a b); [now left|exact E].
Qed.
Lemma put_idem nss : put_all nss (put_all nss []) = put_all nss [].
Proof. apply put_noop. intros a b I. eapply put_has; eauto. Qed.

Lemma set_nss_inner nss : forall ctx, wc_inner (set_nss nss ctx) =
  mkInner (in_name (wc_inner ctx)) (in_attrs (wc_inner ctx)) (put_all nss (in_ns (wc_inner ctx))).
Proof.
  induction nss as [|[a b] nss IH]; intros ctx.
  - destruct ctx as [v [n a ns]]. reflexivity.
  - unfold set_nss in *. cbn [fold_left]. rewrite IH. simpl. reflexivity.
Qed.

(** ** Layout facts *)
Lemma indented_refl_text (ks : list (kid xelem)) ks' : elems_of ks = [] -> indented_kids ks ks' -> ks' = ks.
Proof.
  intros E H. inversion H as [|k k' N A]; subst; auto. now destruct N.
Qed.
Lemma elems_map_K (l : list xelem) : elems_of (map KElem l) = l.
Proof. induction l; simpl; congruence. Qed.
Lemma map_K_inj (a b : list xelem) : map KElem a = map KElem b -> a = b.
Proof. intros H. rewrite <- (elems_map_K a), <- (elems_map_K b). now rewrite H. Qed.
Lemma indented_elems l ks' : indented_kids (map KElem l) ks' -> indented_all l (elems_of ks').
Proof.
  intros H. inversion H as [ks E E1|k k' N A E1]; subst; rewrite elems_map_K in *; [subst; constructor|exact A].
Qed.
Lemma indented_refl e : indented e e.
Proof.
  induction e as [e IH] using xelem_ind'. destruct e as [t ns ats ss r ks]. constructor; [reflexivity|].
  unfold xe_children in IH. simpl in IH. destruct (elems_of ks) as [|x xs] eqn:E; [now constructor|].
  rewrite <- E in IH. apply ik_laid; [rewrite E; discriminate|].
  clear E. induction (elems_of ks) as [|y ys IHy]; constructor; [apply IH; now left|apply IHy; intros z Z; apply IH; now right].
Qed.
Lemma indented_all_app a b l : indented_all (a ++ b) l -> exists a' b', l = a' ++ b' /\ indented_all a a' /\ indented_all b b'.
Proof.
  revert l. induction a as [|x a IH]; intros l H.
  - exists [], l. repeat split; auto. constructor.
  - inversion H as [|? x' ? xs' Hx Hxs]; subst. destruct (IH _ Hxs) as (a' & b' & -> & A & B).
    exists (x' :: a'), b'. repeat split; auto. constructor; auto.
Qed.
Lemma key_attribute ats ats' q : map attr_key ats = map attr_key ats' -> rox_attribute ats q = rox_attribute ats' q.
Proof.
  revert ats'. induction ats as [|a ats IH]; intros [|b ats'] H; simpl in H; try discriminate; auto.
  injection H as E1 E2 E3 H. simpl. rewrite E1, E2, E3. destruct (_ && _); auto.
Qed.

(** Character data as written. *)
Definition tks (s : string) : list (kid xelem) := if is_empty s then [] else [KText s].
Lemma elems_tks s : elems_of (tks s) = [].
Proof. unfold tks. now destruct (is_empty s). Qed.
Lemma is_empty_eq s : is_empty s = true -> s = "".
Proof. now destruct s. Qed.
Lemma d_text_tks e s : xe_kids e = tks s -> d_text e = Ok s.
Proof.
  unfold d_text, tks. intros ->. destruct (is_empty s) eqn:E; auto. apply is_empty_eq in E. now subst.
Qed.
Lemma children_tks e s : xe_kids e = tks s -> xe_children e = [].
Proof. unfold xe_children. intros ->. apply elems_tks. Qed.

Section Canon.
Context {L : Libs}.

Lemma close_text s : text_ok s -> texts_back (merge_text (tks s)) = Some (tks s).
Proof.
  unfold tks, text_ok. intros H. destruct (is_empty s) eqn:E; auto. simpl. rewrite E. simpl. now rewrite H.
Qed.
Lemma close_fixed s : text_ok s -> texts_back (merge_text [KText s]) = Some (tks s).
Proof.
  unfold tks, text_ok. intros H. simpl. destruct (is_empty s) eqn:E; auto. simpl. now rewrite H.
Qed.
Lemma close_elems l : texts_back (merge_text (map KElem l)) = Some (map KElem l).
Proof. induction l as [|x l IH]; simpl; auto. now rewrite IH. Qed.

(** ** Names *)
Variable nss : list (string * string).
Definition like (sc : list (string * string)) : Prop := forall q, aget String.eqb q sc = aget String.eqb q nss.
Lemma like_app sc : like sc -> like (nss ++ sc).
Proof. intros H q. rewrite aget_app_s, H. now destruct (aget String.eqb q nss). Qed.
Lemma like_nil : like (nss ++ []).
Proof. intros q. now rewrite app_nil_r. Qed.
Lemma like_elem sc xn : like sc -> expand_elem sc xn = expand_elem nss xn.
Proof.
  intros H. unfold expand_elem, lookup_default. rewrite H. destruct (split_colon xn) as [[a b]|]; auto. now rewrite H.
Qed.

Definition plain_name (n : string) : Prop := split_colon n = None /\ is_ncname n = true /\ n <> "xmlns".
Lemma expand_plain A : Forall plain_name (map fst A) -> Forall (fun nv => attr_ok (snd nv)) A -> NoDup (map fst A) ->
  exists ats, (forall sc, expand_attrs sc A = Some ats) /\ (forall q, rox_attribute ats q = aget String.eqb q A).
Proof.
  induction A as [|[n v] A IH]; intros P V N; simpl in *.
  - exists []. auto.
  - inversion P as [|? ? (P1 & P2 & P3) P']; inversion V as [|? ? V1 V']; inversion N as [|? ? N1 N']; subst.
    destruct (IH P' V' N') as (ats & E & R). exists (mkAttr n None v (0%N, 0%N) :: ats). split.
    + intros sc'. rewrite E. unfold expand_attr. rewrite P1, P2. simpl in V1. unfold attr_ok in V1. rewrite V1.
      destruct (n =?s "xmlns") eqn:X; [apply String.eqb_eq in X; contradiction|]. simpl.
      destruct (existsb _ ats) eqn:Ex; auto. exfalso. apply existsb_exists in Ex. destruct Ex as (a & Ia & Ea).
      apply andb_true_iff in Ea. destruct Ea as [Ea Eb]. apply String.eqb_eq in Ea.
      assert (Q : rox_attribute ats n <> None).
      { clear -Ia Ea Eb. induction ats as [|b ats IH]; [destruct Ia|]. simpl. destruct Ia as [->|Ia].
        - rewrite Ea, String.eqb_refl, Eb. discriminate.
        - destruct (_ && _); [discriminate|auto]. }
      rewrite R, aget_none_s in Q by assumption. congruence.
    + intros q. simpl. rewrite R. rewrite andb_true_r. rewrite String.eqb_sym. now destruct (q =?s n).
Qed.

(** ** Events as children *)
Definition prod (evs : list event) (ks : list (kid xelem)) : Prop :=
  forall rest f stack done, like (fr_scope f) ->
    build (evs ++ rest) (f :: stack) done = build rest (add_kids f ks :: stack) done.
Lemma add_kids_nil f : add_kids f [] = f.
Proof. destruct f. unfold add_kids. simpl. now rewrite app_nil_r. Qed.
Lemma add_kids_app f a b : add_kids (add_kids f a) b = add_kids f (a ++ b).
Proof. destruct f. unfold add_kids. simpl. now rewrite app_assoc. Qed.
Lemma prod_nil : prod [] [].
Proof. intros rest f stack done _. now rewrite add_kids_nil. Qed.
Lemma prod_app a b ka kb : prod a ka -> prod b kb -> prod (a ++ b) (ka ++ kb).
Proof.
  intros A B rest f stack done Lk. rewrite <- app_assoc, A by assumption. rewrite B by (destruct f; exact Lk).
  now rewrite add_kids_app.
Qed.
Lemma prod_chars s : prod [EvChars s] [KText s].
Proof. intros rest f stack done _. reflexivity. Qed.
Lemma prod_text s : prod (if is_empty s then [] else [EvChars s]) (tks s).
Proof. unfold tks. destruct (is_empty s); [apply prod_nil|apply prod_chars]. Qed.

Hypothesis Hdecl : decls_ok nss = true.
Definition elem_of (t : string) (ns : option string) (ats : list attr) (ks : list (kid xelem)) : xelem :=
  XE t ns ats [] (0%N, 0%N) ks.
Lemma prod_elem xn A dn body ks ks' t ns ats : dn = [] \/ dn = nss -> expand_elem nss xn = Some (t, ns) ->
  (forall sc, expand_attrs sc A = Some ats) -> prod body ks -> texts_back (merge_text ks) = Some ks' ->
  prod (EvStart xn A dn :: body ++ [EvEnd]) [KElem (elem_of t ns ats ks')].
Proof.
  intros D E X P C rest f stack done Lk. simpl. unfold open_frame.
  assert (Dk : decls_ok dn = true) by (destruct D as [->| ->]; auto).
  assert (Lk' : like (dn ++ fr_scope f)) by (destruct D as [->| ->]; [exact Lk|now apply like_app]).
  rewrite Dk, (like_elem _ _ Lk'), E, X. rewrite <- app_assoc, P by exact Lk'. simpl.
  unfold close_frame. simpl. rewrite C. reflexivity.
Qed.
Lemma doc_elem xn A body ks ks' t ns ats : expand_elem nss xn = Some (t, ns) ->
  (forall sc, expand_attrs sc A = Some ats) -> prod body ks -> texts_back (merge_text ks) = Some ks' ->
  document (EvStart xn A nss :: body ++ [EvEnd]) = Some (elem_of t ns ats ks').
Proof.
  intros E X P C. unfold document. simpl. unfold open_frame. rewrite Hdecl, (like_elem _ _ like_nil), E, X.
  rewrite P by exact like_nil. simpl. unfold close_frame. simpl. rewrite C. reflexivity.
Qed.
End Canon.
