(** * Base: results, strings, numbers, association maps.

    Nothing in this file is specific to the xsd crate; it supplies the Rust
    vocabulary (String as UTF-8 bytes, integer parsing/printing, HashMap) in
    which the model is written. *)
From Coq Require Export String Ascii List Arith NArith ZArith Bool Lia.
From Coq Require Import DecimalString DecimalN DecimalZ DecimalFacts.
Export ListNotations.
Open Scope string_scope.
Open Scope list_scope.
Open Scope bool_scope.

(** ** Results

    [Panic] is a Rust panic (at macro expansion or at run time), [OutOfFuel] is
    the model's stand-in for a computation that has not finished yet: every
    theorem excludes it explicitly or is about it. *)
Inductive res (E A : Type) : Type :=
| Ok (a : A)
| Err (e : E)
| Panic (why : string)
| OutOfFuel.
Arguments Ok {E A} a.
Arguments Err {E A} e.
Arguments Panic {E A} why.
Arguments OutOfFuel {E A}.

Definition bind {E A B} (m : res E A) (k : A -> res E B) : res E B :=
  match m with
  | Ok a => k a
  | Err e => Err e
  | Panic w => Panic w
  | OutOfFuel => OutOfFuel
  end.
Notation "x <- m ;; k" := (bind m (fun x => k))
  (at level 61, m at next level, right associativity).
Notation "' p <- m ;; k" := (bind m (fun x => match x with p => k end))
  (at level 61, p pattern, m at next level, right associativity).
Notation "m ;;; k" := (bind m (fun _ => k)) (at level 61, right associativity).

Definition is_ok {E A} (m : res E A) : bool :=
  match m with Ok _ => true | _ => false end.

Definition map_err {E F A} (f : E -> F) (m : res E A) : res F A :=
  match m with
  | Ok a => Ok a
  | Err e => Err (f e)
  | Panic w => Panic w
  | OutOfFuel => OutOfFuel
  end.

(** [Iterator::map(..).collect::<Result<Vec<_>>>()]. *)
Fixpoint mapM {E A B} (f : A -> res E B) (l : list A) : res E (list B) :=
  match l with
  | [] => Ok []
  | a :: l' => b <- f a ;; bs <- mapM f l' ;; Ok (b :: bs)
  end.

(** ** Strings: a Rust [String] is its UTF-8 byte sequence *)
Infix "+++" := String.append (right associativity, at level 60).
Infix "=?s" := String.eqb (at level 70).

Definition is_cont_byte (c : ascii) : bool :=
  let n := nat_of_ascii c in andb (Nat.leb 128 n) (Nat.ltb n 192).

Definition starts_with_cont (s : string) : bool :=
  match s with
  | EmptyString => false
  | String c _ => is_cont_byte c
  end.

(** [str::chars]: the characters, each given by its bytes. *)
Fixpoint utf8_chars (s : string) : list string :=
  match s with
  | EmptyString => []
  | String c s' =>
      match utf8_chars s' with
      | [] => [String c EmptyString]
      | h :: t => if starts_with_cont h then String c h :: t
                  else String c EmptyString :: h :: t
      end
  end.

Definition concat_str (l : list string) : string := String.concat "" l.

Definition is_empty (s : string) : bool :=
  match s with EmptyString => true | _ => false end.

(** [slice::join(" ")]. *)
Definition join_space (l : list string) : string := String.concat " " l.

Definition ascii_upper (c : ascii) : ascii :=
  let n := nat_of_ascii c in
  if andb (Nat.leb 97 n) (Nat.leb n 122) then ascii_of_nat (n - 32) else c.
Definition ascii_lower (c : ascii) : ascii :=
  let n := nat_of_ascii c in
  if andb (Nat.leb 65 n) (Nat.leb n 90) then ascii_of_nat (n + 32) else c.

(** [str::to_ascii_uppercase]. *)
Fixpoint str_upper (s : string) : string :=
  match s with
  | EmptyString => EmptyString
  | String c s' => String (ascii_upper c) (str_upper s')
  end.

(** [splitn(2, ':')] / [split_once(':')]. *)
Fixpoint split_colon (s : string) : option (string * string) :=
  match s with
  | EmptyString => None
  | String c s' =>
      if Ascii.eqb c ":" then Some (EmptyString, s')
      else match split_colon s' with
           | Some (a, b) => Some (String c a, b)
           | None => None
           end
  end.

Fixpoint has_colon (s : string) : bool :=
  match s with
  | EmptyString => false
  | String c s' => orb (Ascii.eqb c ":") (has_colon s')
  end.

(** ** Integers: [FromStr] and [Display] of u32, u64, usize, i32, i64 *)
Definition show_N (n : N) : string := NilZero.string_of_uint (N.to_uint n).
Definition show_nat (n : nat) : string := show_N (N.of_nat n).

Definition parse_digits (s : string) : option N :=
  match NilZero.uint_of_string s with
  | Some d => Some (N.of_uint d)
  | None => None
  end.

Definition parse_unsigned (max : N) (s : string) : option N :=
  let digits := match s with String "+" s' => s' | _ => s end in
  match parse_digits digits with
  | Some n => if N.leb n max then Some n else None
  | None => None
  end.

Definition show_Z (z : Z) : string :=
  match z with
  | Zneg p => String "-" (show_N (Npos p))
  | _ => show_N (Z.to_N z)
  end.

Definition parse_signed (min max : Z) (s : string) : option Z :=
  let v := match s with
           | String "-" s' => option_map (fun n => (- Z.of_N n)%Z) (parse_digits s')
           | String "+" s' => option_map Z.of_N (parse_digits s')
           | _ => option_map Z.of_N (parse_digits s)
           end in
  match v with
  | Some z => if andb (Z.leb min z) (Z.leb z max) then Some z else None
  | None => None
  end.

Definition u32_max : N := 4294967295%N.
Definition u64_max : N := 18446744073709551615%N.
Definition i32_min : Z := (-2147483648)%Z.
Definition i32_max : Z := 2147483647%Z.
Definition i64_min : Z := (-9223372036854775808)%Z.
Definition i64_max : Z := 9223372036854775807%Z.

(** [u32::from_str], [usize::from_str] on a 64-bit target. *)
Definition u32_from_str := parse_unsigned u32_max.
Definition usize_from_str := parse_unsigned u64_max.

(** [bool::from_str] / [Display]. *)
Definition bool_from_str (s : string) : option bool :=
  if s =?s "true" then Some true else if s =?s "false" then Some false else None.
Definition show_bool (b : bool) : string := if b then "true" else "false".

(** ** HashMap as an association list

    Iteration order is the list order. Theorems quantify over all lists, hence
    over all iteration orders. *)
Section AMap.
  Context {K V : Type} (eqb : K -> K -> bool).
  Fixpoint aget (k : K) (m : list (K * V)) : option V :=
    match m with
    | [] => None
    | (k', v) :: m' => if eqb k k' then Some v else aget k m'
    end.
  (** [HashMap::insert]: replaces the value of an existing key. *)
  Fixpoint aset (k : K) (v : V) (m : list (K * V)) : list (K * V) :=
    match m with
    | [] => [(k, v)]
    | (k', v') :: m' => if eqb k k' then (k, v) :: m' else (k', v') :: aset k v m'
    end.
End AMap.

Fixpoint mem {A} (eqb : A -> A -> bool) (x : A) (l : list A) : bool :=
  match l with
  | [] => false
  | y :: l' => orb (eqb x y) (mem eqb x l')
  end.

Fixpoint nodupb {A} (eqb : A -> A -> bool) (l : list A) : bool :=
  match l with
  | [] => true
  | x :: l' => andb (negb (mem eqb x l')) (nodupb eqb l')
  end.

Definition opt_eqb {A} (eqb : A -> A -> bool) (a b : option A) : bool :=
  match a, b with
  | None, None => true
  | Some x, Some y => eqb x y
  | _, _ => false
  end.

(** ** Facts *)
Lemma bind_ok {E A B} (m : res E A) (k : A -> res E B) b :
  bind m k = Ok b <-> exists a, m = Ok a /\ k a = Ok b.
Proof.
  destruct m; simpl; split; intros H; try discriminate;
    try (destruct H as (a' & H1 & H2); discriminate).
  - eauto.
  - destruct H as (a' & H1 & H2). congruence.
Qed.

Lemma eqb_s_refl s : (s =?s s) = true.
Proof. apply String.eqb_refl. Qed.

Lemma app_s_nil_r s : s +++ "" = s.
Proof. induction s as [|c s IH]; simpl; congruence. Qed.

Lemma app_s_assoc a b c : (a +++ b) +++ c = a +++ (b +++ c).
Proof. induction a as [|x a IH]; simpl; congruence. Qed.

Lemma app_s_inj_l a b c : a +++ b = a +++ c -> b = c.
Proof. induction a as [|x a IH]; simpl; intros H; [exact H|]. injection H; auto. Qed.

Lemma opt_eqb_eq {A} (eqb : A -> A -> bool) (H : forall x y, eqb x y = true <-> x = y) a b :
  opt_eqb eqb a b = true <-> a = b.
Proof.
  destruct a as [x|], b as [y|]; simpl; split; intros E; try discriminate; auto.
  - apply H in E. congruence.
  - apply H. congruence.
Qed.

Lemma mem_In {A} (eqb : A -> A -> bool) (H : forall x y, eqb x y = true <-> x = y) x l :
  mem eqb x l = true <-> In x l.
Proof.
  induction l as [|y l IH]; simpl; split; intros E; try discriminate; try tauto.
  - apply orb_prop in E. destruct E as [E|E]; [left; symmetry; apply H, E | right; apply IH, E].
  - apply orb_true_intro. destruct E as [E|E]; [left; apply H; auto | right; apply IH, E].
Qed.

Lemma nodupb_NoDup {A} (eqb : A -> A -> bool) (H : forall x y, eqb x y = true <-> x = y) l :
  nodupb eqb l = true <-> NoDup l.
Proof.
  induction l as [|x l IH]; simpl.
  - split; [constructor | reflexivity].
  - rewrite andb_true_iff, negb_true_iff, IH. split.
    + intros [E1 E2]. constructor; [|exact E2].
      intros Hin. apply (mem_In eqb H) in Hin. congruence.
    + intros E. inversion E as [|? ? E1 E2]; subst. split; [|exact E2].
      destruct (mem eqb x l) eqn:M; [|reflexivity]. apply (mem_In eqb H) in M. tauto.
Qed.

Section AMapFacts.
  Context {K V : Type} (eqb : K -> K -> bool) (Heqb : forall x y, eqb x y = true <-> x = y).

  Lemma eqb_refl_of k : eqb k k = true.
  Proof. apply Heqb; reflexivity. Qed.

  Lemma aget_aset_same k (v : V) m : aget eqb k (aset eqb k v m) = Some v.
  Proof.
    induction m as [|[k' v'] m IH]; simpl; [now rewrite eqb_refl_of|].
    destruct (eqb k k') eqn:E; simpl; rewrite ?E, ?eqb_refl_of; auto.
  Qed.

  Lemma aget_aset_other k k' (v : V) m : k <> k' -> aget eqb k' (aset eqb k v m) = aget eqb k' m.
  Proof.
    intros N. induction m as [|[k1 v1] m IH]; simpl.
    - destruct (eqb k' k) eqn:E; [apply Heqb in E; congruence | reflexivity].
    - destruct (eqb k k1) eqn:E; simpl.
      + apply Heqb in E; subst k1.
        destruct (eqb k' k) eqn:E2; [apply Heqb in E2; congruence | reflexivity].
      + destruct (eqb k' k1); auto.
  Qed.

  Lemma aget_In k (v : V) m : aget eqb k m = Some v -> In (k, v) m.
  Proof.
    induction m as [|[k' v'] m IH]; simpl; [discriminate|].
    destruct (eqb k k') eqn:E; intros H.
    - apply Heqb in E; subst. injection H as ->. now left.
    - right; auto.
  Qed.

  Lemma aget_None k (m : list (K * V)) : aget eqb k m = None <-> ~ In k (map fst m).
  Proof.
    induction m as [|[k' v'] m IH]; simpl; [tauto|].
    destruct (eqb k k') eqn:E.
    - apply Heqb in E; subst. split; [discriminate | intros H; exfalso; apply H; now left].
    - assert (k' <> k) by (intros ->; rewrite eqb_refl_of in E; discriminate).
      rewrite IH. tauto.
  Qed.

  Lemma In_aget k (v : V) m : NoDup (map fst m) -> In (k, v) m -> aget eqb k m = Some v.
  Proof.
    induction m as [|[k' v'] m IH]; simpl; [tauto|].
    intros ND [E|Hin]; inversion ND as [|? ? N1 N2]; subst.
    - injection E as -> ->. now rewrite eqb_refl_of.
    - destruct (eqb k k') eqn:E; [|auto].
      apply Heqb in E; subst. exfalso; apply N1. apply (in_map fst) in Hin. exact Hin.
  Qed.

  Lemma aset_keys k (v : V) m : forall k', In k' (map fst (aset eqb k v m)) <-> k' = k \/ In k' (map fst m).
  Proof.
    intros k'. induction m as [|[k1 v1] m IH]; simpl.
    - split; intros [H|H]; auto; try tauto.
    - destruct (eqb k k1) eqn:E; simpl.
      + apply Heqb in E; subst. intuition auto.
      + rewrite IH. intuition auto.
  Qed.

  Lemma aset_NoDup k (v : V) m : NoDup (map fst m) -> NoDup (map fst (aset eqb k v m)).
  Proof.
    induction m as [|[k1 v1] m IH]; simpl; intros ND.
    - constructor; [simpl; tauto | constructor].
    - inversion ND as [|? ? N1 N2]; subst. destruct (eqb k k1) eqn:E; simpl.
      + apply Heqb in E; subst. constructor; auto.
      + constructor; [|auto]. rewrite aset_keys. intros [->|H]; [|tauto].
        rewrite eqb_refl_of in E; discriminate.
  Qed.

  Lemma aset_In k (v : V) m k' v' :
    In (k', v') (aset eqb k v m) -> (k' = k /\ v' = v) \/ In (k', v') m.
  Proof.
    induction m as [|[k1 v1] m IH]; simpl.
    - intros [H|[]]. injection H as -> ->. auto.
    - destruct (eqb k k1) eqn:E; simpl.
      + intros [H|H]; [injection H as -> ->; auto | auto].
      + intros [H|H]; [auto|]. destruct (IH H); auto.
  Qed.
End AMapFacts.

Lemma utf8_chars_concat s : concat_str (utf8_chars s) = s.
Proof.
  unfold concat_str. induction s as [|c s IH]; [reflexivity|]. simpl.
  destruct (utf8_chars s) as [|h t].
  - simpl in *. now rewrite <- IH.
  - assert (E : String.concat "" (h :: t) = h +++ String.concat "" t).
    { destruct t; simpl; [now rewrite app_s_nil_r | reflexivity]. }
    rewrite E in IH. destruct (starts_with_cont h).
    + destruct t as [|a t']; simpl in *; [now rewrite <- IH, ?app_s_nil_r |].
      now rewrite <- IH.
    + rewrite <- IH. destruct t; simpl; [now rewrite ?app_s_nil_r | reflexivity].
Qed.

Lemma parse_digits_show_N n : parse_digits (show_N n) = Some n.
Proof.
  unfold parse_digits, show_N. rewrite NilZero.usu.
  - now rewrite DecimalN.Unsigned.of_to.
  - destruct n; [discriminate|].
    intros E. assert (H : N.of_uint (N.to_uint (Npos p)) = N.of_uint Decimal.Nil) by now rewrite E.
    rewrite DecimalN.Unsigned.of_to in H. discriminate.
Qed.

Lemma show_N_inj a b : show_N a = show_N b -> a = b.
Proof.
  intros H. assert (E : parse_digits (show_N a) = parse_digits (show_N b)) by now rewrite H.
  rewrite !parse_digits_show_N in E. congruence.
Qed.

Lemma show_nat_inj a b : show_nat a = show_nat b -> a = b.
Proof. intros H. apply show_N_inj in H. lia. Qed.

(** The digits of a number never start with a sign. *)
Lemma parse_digits_sign c s : (c = "+" \/ c = "-")%char -> parse_digits (String c s) = None.
Proof.
  intros [-> | ->]; unfold parse_digits; simpl;
    destruct (NilEmpty.uint_of_string s); reflexivity.
Qed.

Lemma show_N_no_sign n c s : show_N n = String c s -> c <> "+"%char /\ c <> "-"%char.
Proof.
  intros H. pose proof (parse_digits_show_N n) as P. rewrite H in P.
  split; intros ->; rewrite parse_digits_sign in P; auto; discriminate.
Qed.

Lemma show_N_nonempty n : show_N n <> "".
Proof. intros H. pose proof (parse_digits_show_N n) as P. rewrite H in P. discriminate. Qed.

Lemma parse_unsigned_show max n : (n <= max)%N -> parse_unsigned max (show_N n) = Some n.
Proof.
  intros H. unfold parse_unsigned.
  assert (E : (match show_N n with String "+" s' => s' | _ => show_N n end) = show_N n).
  { destruct (show_N n) as [|c s] eqn:S; [reflexivity|].
    destruct (show_N_no_sign _ _ _ S) as [H1 H2].
    destruct c as [[] [] [] [] [] [] [] []]; try reflexivity. congruence. }
  rewrite E, parse_digits_show_N.
  apply N.leb_le in H. now rewrite H.
Qed.

Lemma parse_unsigned_range max s n : parse_unsigned max s = Some n -> (n <= max)%N.
Proof.
  unfold parse_unsigned. destruct (parse_digits _) as [m|]; [|discriminate].
  destruct (N.leb m max) eqn:E; [|discriminate]. intros H; injection H as <-.
  now apply N.leb_le.
Qed.

Lemma parse_signed_show min max z : (min <= z <= max)%Z -> parse_signed min max (show_Z z) = Some z.
Proof.
  intros H. assert (B : ((min <=? z) && (z <=? max))%Z = true)
    by (apply andb_true_intro; split; apply Z.leb_le; lia).
  destruct z as [|p|p].
  - unfold parse_signed; simpl. now rewrite B.
  - unfold parse_signed. change (show_Z (Z.pos p)) with (show_N (Npos p)).
    assert (E : (match show_N (Npos p) with
             | String "-" s' => option_map (fun n => (- Z.of_N n)%Z) (parse_digits s')
             | String "+" s' => option_map Z.of_N (parse_digits s')
             | _ => option_map Z.of_N (parse_digits (show_N (Npos p)))
             end) = Some (Zpos p)).
    { destruct (show_N (Npos p)) as [|c s] eqn:S; [now apply show_N_nonempty in S|].
      destruct (show_N_no_sign _ _ _ S) as [H1 H2]. rewrite <- S, parse_digits_show_N.
      destruct c as [[] [] [] [] [] [] [] []]; try reflexivity; congruence. }
    now rewrite E, B.
  - unfold parse_signed. simpl show_Z. cbn -[parse_digits show_N Z.leb andb].
    rewrite parse_digits_show_N. cbn -[Z.leb andb]. now rewrite B.
Qed.

Lemma parse_signed_range min max s z : parse_signed min max s = Some z -> (min <= z <= max)%Z.
Proof.
  unfold parse_signed. destruct (match s with "" => _ | String _ _ => _ end) as [v|]; [|discriminate].
  destruct ((min <=? v) && (v <=? max))%Z eqn:E; [|discriminate].
  intros H; injection H as <-. apply andb_prop in E. destruct E as [E1 E2].
  apply Z.leb_le in E1, E2. lia.
Qed.

Lemma show_Z_nonempty z : show_Z z <> "".
Proof. destruct z; simpl; try apply show_N_nonempty. discriminate. Qed.

Lemma bool_from_str_show b : bool_from_str (show_bool b) = Some b.
Proof. destruct b; reflexivity. Qed.
