(** * NumberSpec: decimal and float according to XML Schema (C73)

    W3C XML Schema Part 2 (Datatypes), 3.2.3 and 3.2.4, with values as rational numbers; the
    values of float are those of IEEE 754 binary32. *)
From Verif Require Import Base TextSpec LexSpec.
From Coq Require Import QArith Qabs.

(** ** Texts *)
(** Digits, perhaps with a point: [n] / 10^[k]. *)
Inductive unsigned_form : string -> N -> nat -> Prop :=
| uf_plain s n : digits s n -> unsigned_form s n 0
| uf_point a b n : digits (a +++ b) n -> unsigned_form (a +++ "." +++ b) n (String.length b).
(** With a sign. *)
Inductive with_sign : string -> bool -> string -> Prop :=
| ws_none s : with_sign s false s
| ws_plus s : with_sign (String "+" s) false s
| ws_minus s : with_sign (String "-" s) true s.
Definition fraction (n : N) (k : nat) : Q := (Z.of_N n # 1) * (10 # 1) ^ (- Z.of_nat k).
Definition signed (neg : bool) (x : Q) : Q := if neg then - x else x.
Inductive decimal_form : string -> Q -> Prop :=
| df s neg t n k x : with_sign s neg t -> unsigned_form t n k -> x == signed neg (fraction n k) -> decimal_form s x.

(** ** Binary32 *)
(** Bits without sign, and their value; past the largest value the next one would be 2^128. *)
Definition infinite : N := 255 * 2 ^ 23.
Definition nan_bits : N := 511 * 2 ^ 22.
Definition sign_bit : N := 2 ^ 31.
Definition f32_value (b : N) : Q :=
  let e := (b / 2 ^ 23)%N in
  let f := (b mod 2 ^ 23)%N in
  if (e =? 0)%N then (Z.of_N f # 1) * (2 # 1) ^ (-149) else (Z.of_N (2 ^ 23 + f) # 1) * (2 # 1) ^ (Z.of_N e - 150).
(** Rounding to the nearest, in the middle to the one with even bits. *)
Definition nearest (x : Q) (b : N) : Prop := (b <= infinite)%N
  /\ forall b', (b' <= infinite)%N -> Qabs (x - f32_value b) <= Qabs (x - f32_value b')
     /\ (Qabs (x - f32_value b) == Qabs (x - f32_value b') -> b' <> b -> N.even b = true).
Definition with_bit (neg : bool) (b : N) : N := if neg then (sign_bit + b)%N else b.
(** The text stands for the value with these bits. *)
Inductive float_form : string -> N -> Prop :=
| ff_number s neg t n k b : with_sign s neg t -> unsigned_form t n k -> nearest (fraction n k) b -> float_form s (with_bit neg b)
| ff_exponent s neg t c x n k z b : with_sign s neg (t +++ String c x) -> unsigned_form t n k -> c = "e"%char \/ c = "E"%char ->
    integer_form x z -> nearest (fraction n k * (10 # 1) ^ z) b -> float_form s (with_bit neg b)
| ff_inf : float_form "INF" infinite
| ff_minus_inf : float_form "-INF" (with_bit true infinite)
| ff_nan : float_form "NaN" nan_bits.

(** ** The shortest text of a value *)
(** A number of at most [n] digits, before any zeros. *)
Definition of_digits (n : nat) (x : Q) : Prop := exists m z, (m < 10 ^ N.of_nat n)%N /\ x == (Z.of_N m # 1) * (10 # 1) ^ z.
(** Of the numbers that round to the value one with the fewest digits, and of these one next
    to the value. *)
Definition shortest_number (b : N) (x : Q) : Prop :=
  exists n, of_digits n x /\ nearest x b
    /\ forall n' x', of_digits n' x' -> nearest x' b -> (n <= n')%nat /\ (n' = n -> Qabs (x - f32_value b) <= Qabs (x' - f32_value b)).
(** No zeros that could be left out. *)
Definition tidy (t : string) : Prop :=
  exists a b, a <> "" /\ (a = "0" \/ forall r, a <> String "0" r)
    /\ (t = a /\ b = "" \/ t = a +++ "." +++ b /\ b <> "" /\ forall r, b <> r +++ "0").
