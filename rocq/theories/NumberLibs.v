(** * NumberLibs: decimal and float as built-in types (C73) *)
From Verif Require Import Base Libs Ast XsdNode Parse Gen Run TextSpec LexSpec NumberSpec.
From Coq Require Import QArith.

(** What a [Decimal] can hold, and its value. *)
Definition dec_valid (d : dec) : Prop := (dec_mant d < 2 ^ 96)%N /\ (dec_scale d <= 28)%N /\ (dec_neg d = true -> dec_mant d <> 0%N).
Definition dec_value (d : dec) : Q := signed (dec_neg d) (fraction (dec_mant d) (N.to_nat (dec_scale d))).
(** The bits of a value of [f32]; all NaNs are one value. *)
Definition number_bits (n : N) : Prop := exists neg b, n = with_bit neg b /\ (b <= infinite)%N.
Definition f32_valid (n : N) : Prop := number_bits n \/ n = nan_bits.

(** The library functions are those of Numbers.v. *)
Record numbers_are (L : Libs) : Prop := mkNumbersAre {
  na_f32_read : forall s, f32_from_str s = parse_f32 s;
  na_f32_show : forall n, f32_valid n -> f32_to_string n = show_f32 n;
  na_dec_read : forall s, dec_from_str s = parse_dec s;
  na_dec_show : forall d, dec_valid d -> dec_to_string d = show_dec d
}.

(** The text [s] stands for the value [v] of the type [t]. *)
Inductive number_denotes : string -> string -> value -> Prop :=
| nd_decimal s u x d : padded s u -> decimal_form u x -> dec_value d == x -> number_denotes "decimal" s (VDec d)
| nd_float s u b : padded s u -> float_form u b -> number_denotes "float" s (VF32 b).
