(** * TypedCheck: a test for [has_type], used for concrete values *)
From Verif Require Import Base Libs Ast Gen Run LitSpec WfSpec.

Definition prim_value_b (p : prim) (v : value) : bool :=
  match p, v with
  | PString, VStr _ | PBool, VBool _ | PDecimal, VDec _ | PF32, VF32 _ => true
  | PI64, VInt z => andb (-9223372036854775808 <=? z)%Z (z <=? 9223372036854775807)%Z
  | PU64, VInt z => andb (0 <=? z)%Z (z <=? 18446744073709551615)%Z
  | PI32, VInt z => andb (-2147483648 <=? z)%Z (z <=? 2147483647)%Z
  | _, _ => false
  end.
Lemma prim_value_b_ok p v : prim_value_b p v = true -> prim_value p v.
Proof.
  destruct p, v; simpl; try discriminate; auto; rewrite andb_true_iff, !Z.leb_le; tauto.
Qed.

Fixpoint forall2b {A B} (f : A -> B -> bool) (l : list A) (m : list B) : bool :=
  match l, m with
  | [], [] => true
  | a :: l', b :: m' => andb (f a b) (forall2b f l' m')
  | _, _ => false
  end.
Lemma forall2b_ok {A B} (f : A -> B -> bool) (P : A -> B -> Prop) l m :
  (forall a b, f a b = true -> P a b) -> forall2b f l m = true -> Forall2 P l m.
Proof.
  intros H. revert m. induction l as [|a l IH]; intros [|b m] E; simpl in E; try discriminate; constructor;
    apply andb_true_iff in E; destruct E; auto.
Qed.

Fixpoint has_type_b (fuel : nat) (p : program) (t : rty) (v : value) : bool :=
  match fuel with
  | O => false
  | S fuel =>
      match t, v with
      | TPrim q, v => prim_value_b q v
      | TUnit, VUnit => true
      | TVec t, VVec vs => forallb (has_type_b fuel p t) vs
      | TOpt _, VNone => true
      | TOpt t, VSome v => has_type_b fuel p t v
      | TRef id, v =>
          match lookup_item p id with
          | None => false
          | Some t =>
              match ti_decl t, v with
              | DTuple t _, VTuple v => has_type_b fuel p t v
              | DEnum vs, VEnum x => existsb (fun y => x =?s y) (map fst vs)
              | DStruct fs, VStruct vs =>
                  forall2b (fun f v => andb (fst f =?s fst v) (has_type_b fuel p (snd f) (snd v))) fs vs
              | DChoice vs, VChoice i v => existsb (fun it => andb (fst it =?s i) (has_type_b fuel p (snd it) v)) vs
              | _, _ => false
              end
          end
      | _, _ => false
      end
  end.

Lemma has_type_b_ok fuel p : forall t v, has_type_b fuel p t v = true -> has_type p t v.
Proof.
  induction fuel as [|fuel IH]; intros t v H; simpl in H; [discriminate|].
  destruct t as [q| |id|t|t].
  - constructor. apply prim_value_b_ok. destruct q, v; auto.
  - destruct v; try discriminate. constructor.
  - destruct (lookup_item p id) as [ti|] eqn:Lk; [|destruct v; discriminate]. econstructor; [exact Lk|].
    destruct (ti_decl ti) as [t b|vs|fs|vs], v; try discriminate; try (constructor; auto; fail).
    + constructor. apply existsb_exists in H. destruct H as (y & I & E). apply String.eqb_eq in E. now subst.
    + constructor. eapply forall2b_ok; [|exact H]. simpl. intros f v E. apply andb_true_iff in E. destruct E as [E1 E2].
      apply String.eqb_eq in E1. auto.
    + apply existsb_exists in H. destruct H as ((i & t) & I & E). apply andb_true_iff in E. destruct E as [E1 E2].
      apply String.eqb_eq in E1. simpl in *. subst. econstructor; eauto.
  - destruct v; try discriminate. constructor. apply Forall_forall. intros w I. rewrite forallb_forall in H. auto.
  - destruct v; try discriminate; constructor. auto.
Qed.
