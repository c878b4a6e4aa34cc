(** * LookupProof: running a module looks types up by their identifiers *)
From Coq Require Import Permutation.
From Verif Require Import Base Libs Xml Ast Decode Writer Gen Run HashSpec HashProof.

Section Lookup.
Context {L : Libs}.
Variable p q : program.
Hypothesis Hl : forall id, lookup_item p id = lookup_item q id.

(** ** Decoding *)
Lemma ax_look a s : run_ax p a s = run_ax q a s.
Proof. destruct a as [l|[pr| |id|t|t]|]; simpl; auto. now rewrite Hl. Qed.
Lemma ra_look a e : run_ra p a e = run_ra q a e.
Proof.
  unfold run_ra. destruct (ra_opt a).
  - destruct (d_attribute e (ra_xml a)); auto. now rewrite ax_look.
  - destruct (d_try_attribute e (ra_xml a)); simpl; auto. now rewrite ax_look.
Qed.
Lemma look_look C (ops : cursor_ops C) fuel : forall id c, run_look ops p fuel id c = run_look ops q fuel id c.
Proof.
  induction fuel as [|fuel IH]; intros id c; simpl; [reflexivity|]. rewrite <- Hl.
  destruct (lookup_item p id) as [t|]; [|reflexivity]. destruct (ti_look t) as [|l]; [reflexivity|].
  revert c. induction l as [|[i|n ns] l IHl]; intros c; simpl; [reflexivity| |].
  - rewrite IH. destruct (run_look ops q fuel i c) as [[[] c1]| | |]; simpl; auto.
  - destruct (op_peek ops n ns c) as [[] c1]; auto.
Qed.
Lemma type_look C (ops : cursor_ops C) fuel : forall id e c, run_type ops p fuel id e c = run_type ops q fuel id e c.
Proof.
  induction fuel as [|fuel IH]; intros id e c; simpl; [reflexivity|]. rewrite <- Hl.
  destruct (lookup_item p id) as [t|]; [|reflexivity]. unfold run_body.
  destruct (ti_read t) as [x| |fs ats|arms].
  - now rewrite (rx_same _ _ _ IH).
  - reflexivity.
  - rewrite (fields_same _ _ _ _ _ _ IH (look_look C ops fuel)).
    destruct (run_fields ops (run_type ops q fuel) (run_look ops q fuel) fuel fs e c) as [[vs c1]| | |]; simpl; auto.
    assert (E : mapM (fun a => run_ra p a e) ats = mapM (fun a => run_ra q a e) ats).
    { induction ats as [|a ats IHa]; simpl; [reflexivity|]. rewrite ra_look. destruct (run_ra q a e); simpl; auto. now rewrite IHa. }
    now rewrite E.
  - apply (arms_same _ _ _ _ _ _ IH (look_look C ops fuel)).
Qed.
Lemma decode_look fuel id e : from_xml p fuel id e = from_xml q fuel id e.
Proof.
  unfold from_xml, from_xml_with. rewrite <- Hl. destruct (lookup_item p id) as [t|]; [|reflexivity].
  destruct (doc_try_child e (ti_read_name t) (ti_read_ns t)); simpl; auto. now rewrite type_look.
Qed.

(** ** Encoding *)
Section Open.
Variable call call' : string -> value -> wctx -> W (list event * inner).
Hypothesis Hc : forall id v c, call id v c = call' id v c.
Lemma wx_look x v c : write_wx call x v c = write_wx call' x v c.
Proof. destruct x; simpl; auto. Qed.
Lemma leaf_one_look w v c : write_leaf_one call w v c = write_leaf_one call' w v c.
Proof.
  unfold write_leaf_one. destruct (wf_new w), (wf_wrap w); try destruct (write_start_element _); now rewrite wx_look.
Qed.
Lemma each_look w vs : forall c, write_each call w vs c = write_each call' w vs c.
Proof.
  induction vs as [|v vs IH]; intros c; simpl; [reflexivity|]. rewrite leaf_one_look.
  destruct (write_leaf_one call' w v c) as [[e c1]| | |]; simpl; auto. now rewrite IH.
Qed.
Lemma leaf_look_same w v c : write_leaf call w v c = write_leaf call' w v c.
Proof.
  unfold write_leaf. destruct (vfield v (wf_field w)) as [x| | |]; simpl; auto.
  assert (H : forall y, (if wf_vec w then match y with VVec vs => write_each call w vs c | _ => Panic "not a Vec" end
      else write_leaf_one call w y c)
    = if wf_vec w then match y with VVec vs => write_each call' w vs c | _ => Panic "not a Vec" end
      else write_leaf_one call' w y c).
  { intros y. rewrite leaf_one_look. destruct (wf_vec w); auto. destruct y; auto. apply each_look. }
  destruct (wf_opt w); [destruct x|]; auto.
Qed.
Lemma leaves_look_same ws v : forall c, write_leaves call ws v c = write_leaves call' ws v c.
Proof.
  induction ws as [|w ws IH]; intros c; simpl; [reflexivity|]. rewrite leaf_look_same.
  destruct (write_leaf call' w v c) as [[e c1]| | |]; simpl; auto. now rewrite IH.
Qed.
Lemma body_look b v c : write_body call b v c = write_body call' b v c.
Proof.
  destruct b; simpl; auto.
  - destruct (vfield v _) as [x'| | |]; simpl; auto. apply wx_look.
  - now rewrite leaves_look_same.
Qed.
Lemma wrapped_look wrap c b b' : (forall c, b c = b' c) -> wrapped wrap c b = wrapped wrap c b'.
Proof. intros H. unfold wrapped. destruct wrap; [destruct (write_start_element c)|]; now rewrite H. Qed.
Lemma arm_one_look a v : write_arm_one call a v = write_arm_one call' a v.
Proof. unfold write_arm_one. destruct (wm_wrap a); [destruct (write_start_element _)|]; now rewrite wx_look. Qed.
Lemma arm_each_look a vs : write_arm_each call a vs = write_arm_each call' a vs.
Proof. induction vs as [|v vs IH]; simpl; [reflexivity|]. now rewrite arm_one_look, IH. Qed.
Lemma choice_look arms v : write_choice call arms v = write_choice call' arms v.
Proof.
  destruct v; simpl; auto. destruct (find _ arms) as [a|]; auto. rewrite arm_one_look. destruct (wm_vec a); auto.
  destruct v; auto. apply arm_each_look.
Qed.
Lemma attr_look t a v c : write_attr p t a v c = write_attr q t a v c.
Proof.
  unfold write_attr. destruct (vfield v (wa_field a)) as [x| | |]; simpl; auto.
  assert (A : forall v, attr_to_string p v (field_type t (wa_field a)) = attr_to_string q v (field_type t (wa_field a))).
  { intros w. unfold attr_to_string. destruct (field_type t (wa_field a)) as [[]|]; auto. now rewrite Hl. }
  destruct (wa_fixed a); auto. destruct (wa_opt a); [destruct x|]; rewrite ?A; auto.
Qed.
Lemma attrs_look t l v : forall c, write_attrs p t l v c = write_attrs q t l v c.
Proof.
  induction l as [|a l IH]; intros c; simpl; [reflexivity|]. rewrite attr_look.
  destruct (write_attr q t a v c); simpl; auto.
Qed.
Lemma item_look t v c : write_item p call t v c = write_item q call' t v c.
Proof.
  unfold write_item. cbv zeta. destruct (ti_write t).
  - destruct v; auto. apply wrapped_look. intros. apply wx_look.
  - reflexivity.
  - rewrite attrs_look. destruct (write_attrs q t _ v _) as [c1| | |]; simpl; auto. apply wrapped_look. intros. apply body_look.
  - apply wrapped_look. intros. now rewrite choice_look.
Qed.
End Open.
Lemma write_look fuel : forall id v c, write_type p fuel id v c = write_type q fuel id v c.
Proof.
  induction fuel as [|fuel IH]; intros id v c; simpl; [reflexivity|]. rewrite <- Hl.
  destruct (lookup_item p id) as [t|]; [|reflexivity]. now apply item_look.
Qed.
Lemma encode_look fuel id v : to_xml p fuel id v = to_xml q fuel id v.
Proof.
  unfold to_xml. rewrite <- Hl. destruct (lookup_item p id) as [t|]; [|reflexivity]. now rewrite write_look.
Qed.
End Lookup.
