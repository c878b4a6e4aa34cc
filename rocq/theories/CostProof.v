(** * CostProof: reading takes a number of steps linear in the size of the document (C84) *)
From Verif Require Import Base Libs Xml Ast Decode Gen Run DepthSpec CostSpec.
From Coq Require Import Lia.

(** ** Without the count it is the same interpreter *)
Lemma fst_andthen {A B} (m : counted A) (f : A -> counted B) : fst (andthen m f) = bind (fst m) (fun a => fst (f a)).
Proof. unfold andthen. destruct m as [[a|x|x|] n]; reflexivity. Qed.
Lemma bind_same {A B} (m m' : R A) (f f' : A -> R B) : m = m' -> (forall a, f a = f' a) -> bind m f = bind m' f'.
Proof. intros <- H. destruct m; cbn [bind]; auto. Qed.
Section Same.
Context {L : Libs}.
Variable p : program.
Section Open.
Variables (cc : string -> xelem -> children -> counted (value * children)) (call : string -> xelem -> children -> R (value * children)).
Variables (cl : string -> children -> counted (bool * children)) (look : string -> children -> R (bool * children)).
Hypothesis Hc : forall id e c, fst (cc id e c) = call id e c.
Hypothesis Hl : forall id c, fst (cl id c) = look id c.
Lemma rx_counts x e c : fst (count_rx cc x e c) = run_rx call x e c.
Proof. unfold count_rx. cbn [tick fst]. destruct x; cbn [run_rx free fst]; auto. Qed.
Lemma sub_counts x e : fst (count_sub cc x e) = run_sub real_ops call x e.
Proof. unfold count_sub, run_sub. rewrite fst_andthen. apply bind_same; [apply rx_counts|]. now intros [v c]. Qed.
Lemma while_look_counts id x e f : forall c, fst (count_while_look cc cl f id x e c) = while_look call look f id x e c.
Proof.
  induction f as [|f IH]; intros c; [reflexivity|]. cbn [count_while_look while_look tick fst]. rewrite fst_andthen. apply bind_same; [apply Hl|].
  intros [[|] c1]; cbn [fst snd]; [|reflexivity]. rewrite fst_andthen. apply bind_same; [apply rx_counts|]. intros [v c2]. cbn [fst snd].
  rewrite fst_andthen. apply bind_same; [apply IH|]. now intros [vs c3].
Qed.
Lemma while_next_counts n ns x f : forall c, fst (count_while_next cc f n ns x c) = while_next real_ops call f n ns x c.
Proof.
  induction f as [|f IH]; intros c; [reflexivity|]. cbn [count_while_next while_next tick fst real_ops op_next]. destruct (next_child n ns c) as [[y|] c1]; [|reflexivity].
  rewrite fst_andthen. apply bind_same; [apply sub_counts|]. intros v. rewrite fst_andthen. apply bind_same; [apply IH|]. now intros [vs c3].
Qed.
Lemma fr_counts fuel f e c : fst (count_fr cc cl fuel f e c) = run_fr real_ops call look fuel f e c.
Proof.
  destruct f as [x|id x o|id x|n ns x o|n ns x|n ns x|n ns x]; cbn [count_fr run_fr real_ops op_next op_child tick fst].
  - apply rx_counts.
  - rewrite fst_andthen. apply bind_same; [apply while_look_counts|]. now intros [vs c1].
  - rewrite fst_andthen. apply bind_same; [apply Hl|]. intros [[|] c1]; cbn [fst snd]; [|reflexivity].
    rewrite fst_andthen. apply bind_same; [apply rx_counts|]. now intros [v c2].
  - rewrite fst_andthen. apply bind_same; [apply while_next_counts|]. now intros [vs c1].
  - destruct (next_child n ns c) as [[y|] c1]; [|reflexivity]. rewrite fst_andthen. apply bind_same; [apply sub_counts|]. reflexivity.
  - destruct (child n ns c) as [[y|] c1]; [|reflexivity]. rewrite fst_andthen. apply bind_same; [apply sub_counts|]. reflexivity.
  - destruct (next_child n ns c) as [[y|] c1]; [|reflexivity]. rewrite fst_andthen. apply bind_same; [apply sub_counts|]. reflexivity.
Qed.
Lemma fields_counts fuel fs e : forall c, fst (count_fields cc cl fuel fs e c) = run_fields real_ops call look fuel fs e c.
Proof.
  induction fs as [|[n f] fs IH]; intros c; [reflexivity|]. cbn [count_fields run_fields]. rewrite fst_andthen. apply bind_same; [apply fr_counts|].
  intros [v c1]. cbn [fst snd]. rewrite fst_andthen. apply bind_same; [apply IH|]. now intros [vs c2].
Qed.
Lemma attrs_counts ats e : fst (count_attrs p ats e) = mapM (fun a => run_ra p a e) ats.
Proof.
  induction ats as [|a ats IH]; [reflexivity|]. cbn [count_attrs mapM tick fst]. rewrite fst_andthen. apply bind_same; [reflexivity|].
  intros v. rewrite fst_andthen. apply bind_same; [apply IH|]. reflexivity.
Qed.
Lemma arms_counts fuel self arms e : forall c, fst (count_arms cc cl fuel self arms e c) = run_arms real_ops call look fuel self arms e c.
Proof.
  induction arms as [|a arms IH]; intros c; [reflexivity|]. destruct a as [v id x|v n ns x|v n ns x]; cbn [count_arms run_arms tick fst real_ops op_peek op_next].
  - rewrite fst_andthen. apply bind_same; [apply Hl|]. intros [[|] c1]; cbn [fst snd]; [|apply IH].
    rewrite fst_andthen. apply bind_same; [apply rx_counts|]. now intros [u c2].
  - cbv zeta. destruct (peek_child n ns c) as [[|] c1]; cbn [fst snd]; [|apply IH].
    rewrite fst_andthen. apply bind_same; [apply while_next_counts|]. now intros [vs c2].
  - destruct (next_child n ns c) as [[y|] c1]; [|apply IH]. rewrite fst_andthen. apply bind_same; [apply sub_counts|]. reflexivity.
Qed.
Lemma body_counts fuel t e c : fst (count_body p cc cl fuel t e c) = run_body real_ops p call look fuel t e c.
Proof.
  unfold count_body, run_body. destruct (ti_read t) as [x| |fs ats|arms].
  - rewrite fst_andthen. apply bind_same; [apply rx_counts|]. now intros [v c1].
  - reflexivity.
  - rewrite fst_andthen. apply bind_same; [apply fields_counts|]. intros [vs c1]. cbn [fst snd]. rewrite fst_andthen. apply bind_same; [apply attrs_counts|]. reflexivity.
  - apply arms_counts.
Qed.
Lemma lk_counts l : forall c, fst (count_lk cl l c) = run_lk real_ops look l c.
Proof.
  induction l as [|[id|n ns] l IH]; intros c; [reflexivity| |]; cbn [count_lk run_lk tick fst real_ops op_peek].
  - rewrite fst_andthen. apply bind_same; [apply Hl|]. intros [[|] c1]; cbn [fst snd]; [reflexivity|apply IH].
  - cbv zeta. destruct (peek_child n ns c) as [[|] c1]; cbn [fst snd]; [reflexivity|apply IH].
Qed.
End Open.
Lemma look_counts fuel : forall id c, fst (count_look p fuel id c) = run_look real_ops p fuel id c.
Proof.
  induction fuel as [|fuel IH]; intros id c; [reflexivity|]. cbn [count_look run_look tick fst]. destruct (lookup_item p id) as [t|]; [|reflexivity].
  destruct (ti_look t); [reflexivity|]. now apply lk_counts.
Qed.
Lemma type_counts fuel : forall id e c, fst (count_type p fuel id e c) = run_type real_ops p fuel id e c.
Proof.
  induction fuel as [|fuel IH]; intros id e c; [reflexivity|]. cbn [count_type run_type tick fst]. destruct (lookup_item p id) as [t|]; [|reflexivity].
  apply body_counts; [exact IH|apply look_counts].
Qed.
Lemma from_counts fuel id e : fst (count_from_xml p fuel id e) = from_xml p fuel id e.
Proof.
  unfold count_from_xml, from_xml, from_xml_with. destruct (lookup_item p id) as [t|]; [|reflexivity]. rewrite fst_andthen. apply bind_same; [reflexivity|].
  intros x. rewrite fst_andthen. apply bind_same; [apply type_counts|]. now intros [v c].
Qed.
End Same.

(** ** What a cursor still holds *)
Definition held (c : children) : list xelem := match ch_next c with Some x => [x] | None => [] end ++ ch_peeked c ++ ch_rest c.
Definition total (f : xelem -> nat) (l : list xelem) : nat := list_sum (map f l).
Lemma total_app f a b : total f (a ++ b) = total f a + total f b.
Proof. unfold total. now rewrite map_app, list_sum_app. Qed.
Lemma total_cons f x l : total f (x :: l) = f x + total f l.
Proof. reflexivity. Qed.
Ltac sums := unfold held; cbn [ch_next ch_peeked ch_rest app fst snd]; rewrite ?total_app, ?total_cons, ?total_app; cbn [total list_sum map fold_right]; try lia; auto.
Lemma held_next f c n ns : match next_child n ns c with
  | (Some x, c') => total f (held c) = f x + total f (held c')
  | (None, c') => total f (held c') = total f (held c) end.
Proof.
  destruct c as [[|x r] [|y k] [z|]]; unfold next_child, pop_peeked_or_next; cbn [ch_next ch_peeked ch_rest fst snd];
    repeat match goal with |- context [has_name n ns ?x] => destruct (has_name n ns x) end; sums.
Qed.
Lemma held_peek f c n ns : total f (held (snd (peek_child n ns c))) = total f (held c).
Proof.
  destruct c as [[|x r] [|y k] [z|]]; unfold peek_child, pop_peeked_or_next; cbn [ch_next ch_peeked ch_rest fst snd]; sums.
Qed.
Lemma total_remove f q l x l' : remove_first q l = Some (x, l') -> total f l = f x + total f l'.
Proof.
  revert l'. induction l as [|y l IH]; intros l'; cbn [remove_first]; [discriminate|]. destruct (q y); [intros [= <- <-]; reflexivity|].
  destruct (remove_first q l) as [[z l2]|]; [|discriminate]. intros [= <- <-]. rewrite !total_cons, (IH _ eq_refl). lia.
Qed.
Lemma total_skip f q l : forall k, match skip_to q l k with (o, r, k') =>
  total f l + total f k = match o with Some x => f x | None => 0 end + total f r + total f k' end.
Proof.
  induction l as [|y l IH]; intros k; cbn [skip_to]; [reflexivity|]. destruct (q y); [rewrite total_cons; lia|]. specialize (IH (k ++ [y])).
  destruct (skip_to q l (k ++ [y])) as [[o r] k']. rewrite total_app, total_cons in *. cbn [total list_sum map fold_right] in IH. lia.
Qed.
Lemma held_child f c n ns : match child n ns c with
  | (Some x, c') => total f (held c) = f x + total f (held c')
  | (None, c') => total f (held c') = total f (held c) end.
Proof.
  unfold child. pose proof (total_skip f (has_name n ns) (ch_rest c) (ch_peeked c)) as S. unfold held. destruct (ch_next c) as [x|] eqn:E.
  - destruct (has_name n ns x); [cbn [ch_next ch_peeked ch_rest app]; now rewrite total_cons|].
    destruct (remove_first (has_name n ns) (ch_peeked c)) as [[y k]|] eqn:R; cbn [ch_next ch_peeked ch_rest app]; rewrite ?total_cons, ?total_app.
    + rewrite (total_remove f _ _ _ _ R). cbn [ch_next ch_peeked ch_rest app]. rewrite ?E. cbn [app]. rewrite ?total_cons, ?total_app. lia.
    + destruct (skip_to (has_name n ns) (ch_rest c) (ch_peeked c)) as [[[z|] r] k]; cbn [ch_next ch_peeked ch_rest app]; rewrite ?E; cbn [app]; rewrite ?total_cons, ?total_app; lia.
  - destruct (remove_first (has_name n ns) (ch_peeked c)) as [[y k]|] eqn:R; cbn [ch_next ch_peeked ch_rest app]; rewrite ?total_cons, ?total_app.
    + rewrite (total_remove f _ _ _ _ R). cbn [ch_next ch_peeked ch_rest app]. rewrite ?E. cbn [app]. rewrite ?total_cons, ?total_app. lia.
    + destruct (skip_to (has_name n ns) (ch_rest c) (ch_peeked c)) as [[[z|] r] k]; cbn [ch_next ch_peeked ch_rest app]; rewrite ?E; cbn [app]; rewrite ?total_cons, ?total_app; lia.
Qed.
