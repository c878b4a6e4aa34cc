(** * Numbers: the text forms of [f32] and [rust_decimal::Decimal]

    literal_type.rs:53-54 maps xs:decimal and xs:float to these types; the generated code
    calls their [FromStr] and [Display] implementations (leaf_content.rs:49-113), the schema
    parser calls [Decimal::from_str] (xsd/parse/simple_type.rs:81, 90). The implementations
    are those of std and of the crate rust_decimal, not part of /repo: what follows is
    written from their documentation and sources. *)
From Verif Require Import Base.
From Coq Require Import DecimalString.
Local Open Scope N_scope.

(** [rust_decimal::Decimal] (literal_type.rs:53): sign, 96-bit mantissa, scale 0..28. *)
Record dec := mkDec { dec_neg : bool; dec_mant : N; dec_scale : N }.

(** ** Digits (used for literal_type.rs:53-54) *)
Definition digit_char (d : N) : ascii := ascii_of_N (48 + d).
Definition char_digit (c : ascii) : option N :=
  let n := N_of_ascii c in if andb (48 <=? n) (n <=? 57) then Some (n - 48) else None.
(** The digits in front (core::num::dec2flt, for literal_type.rs:54). *)
Fixpoint span_digits (s : string) : string * string :=
  match s with
  | EmptyString => (EmptyString, EmptyString)
  | String c s' => match char_digit c with
                   | Some _ => let '(a, b) := span_digits s' in (String c a, b)
                   | None => (EmptyString, s)
                   end
  end.
(** The last [n] digits of a number (literal_type.rs:53-54, [Display]). *)
Fixpoint pad (n : nat) (d : N) : string :=
  match n with
  | O => EmptyString
  | S n => pad n (d / 10) +++ String (digit_char (d mod 10)) EmptyString
  end.
(** The number d / 10^n (literal_type.rs:53-54, [Display]). *)
Definition show_point (d : N) (n : nat) : string :=
  let p := 10 ^ N.of_nat n in
  show_N (d / p) +++ match n with O => EmptyString | _ => String "." (pad n (d mod p)) end.

(** ** f32 (literal_type.rs:54), a value being its bits; all NaNs are one value *)
Definition f32_inf : N := 2139095040.       (* 0x7f800000 *)
Definition f32_nan : N := 2143289344.       (* 0x7fc00000 *)
Definition f32_minus : N := 2147483648.     (* 0x80000000 *)
(** The value of non-negative bits, in units of the smallest positive one, 2^-149. *)
Definition f32_units (b : N) : N :=
  let e := b / 2 ^ 23 in
  let m := b mod 2 ^ 23 in
  if e =? 0 then m else (2 ^ 23 + m) * 2 ^ (e - 1).
(** The value next to a/b, of two the one with even bits. *)
Definition f32_round (a b : N) : N :=
  let x := a * 2 ^ 149 in
  let q := x / b in
  let k := N.log2 q - 23 in
  let m := q / 2 ^ k in
  let bits := k * 2 ^ 23 + m in
  let up := match 2 * (x - m * 2 ^ k * b) ?= 2 ^ k * b with
            | Lt => 0
            | Gt => 1
            | Eq => bits mod 2
            end in
  N.min (bits + up) f32_inf.
(** d * 10^e. *)
Definition f32_of_decimal (d : N) (e : Z) : N :=
  match e with
  | Zneg p => f32_round d (10 ^ Npos p)
  | _ => f32_round (d * 10 ^ Z.to_N e) 1
  end.

(** core::num::dec2flt (literal_type.rs:54): digits with a point and an exponent. *)
Definition parse_exponent (s : string) : option Z :=
  match s with
  | String "-" s' => option_map (fun n => (- Z.of_N n)%Z) (parse_digits s')
  | String "+" s' => option_map Z.of_N (parse_digits s')
  | _ => option_map Z.of_N (parse_digits s)
  end.
Definition parse_number (s : string) : option (N * Z) :=
  let '(a, r) := span_digits s in
  let '(b, r) := match r with String "." r' => span_digits r' | _ => (EmptyString, r) end in
  match parse_digits (a +++ b) with
  | None => None
  | Some m =>
      let k := Z.of_nat (String.length b) in
      match r with
      | EmptyString => Some (m, (- k)%Z)
      | String c r' =>
          if orb (Ascii.eqb c "e") (Ascii.eqb c "E")
          then option_map (fun e => (m, (e - k)%Z)) (parse_exponent r') else None
      end
  end.
Definition lower_string (s : string) : string := string_of_list_ascii (map ascii_lower (list_ascii_of_string s)).
(** [f32::from_str]. *)
Definition parse_f32 (s : string) : option N :=
  let '(neg, t) := match s with
                   | String "-" t => (true, t)
                   | String "+" t => (false, t)
                   | _ => (false, s)
                   end in
  let sign b := if neg : bool then f32_minus + b else b in
  let w := lower_string t in
  if orb (w =?s "inf") (w =?s "infinity") then Some (sign f32_inf)
  else if w =?s "nan" then Some f32_nan
  else option_map (fun '(m, e) => sign (f32_of_decimal m e)) (parse_number t).

(** core::num::flt2dec (literal_type.rs:54): the fewest digits that are read as the value
    (at most nine are needed), and among these the number next to the value. [d] is the value
    as a multiple of 10^-149, [len] the number of its digits. *)
Definition closest (b d : N) (len n : nat) : option (N * Z) :=
  let c := 10 ^ N.of_nat (len - n) in
  let e := (Z.of_nat (len - n) - 149)%Z in
  let lo := d / c in
  let ok x := f32_of_decimal x e =? b in
  if ok lo then Some (if andb (ok (lo + 1)) (c <=? 2 * (d - lo * c)) then (lo + 1, e) else (lo, e))
  else if ok (lo + 1) then Some (lo + 1, e) else None.
Fixpoint shortest_from (b d : N) (len n todo : nat) : N * Z :=
  match todo with
  | O => (d, (-149)%Z)
  | S todo => match closest b d len n with
              | Some r => r
              | None => shortest_from b d len (S n) todo
              end
  end.
Definition shortest (b : N) : N * Z :=
  let d := f32_units b * 5 ^ 149 in
  shortest_from b d (String.length (show_N d)) 1 9.
(** No zeros at the end of a fraction. *)
Fixpoint strip_zeros (d : N) (n : nat) : N * nat :=
  match n with
  | O => (d, O)
  | S n' => if d mod 10 =? 0 then strip_zeros (d / 10) n' else (d, n)
  end.
Definition show_decimal (d : N) (e : Z) : string :=
  match e with
  | Zneg p => let '(d, n) := strip_zeros d (Pos.to_nat p) in show_point d n
  | _ => show_N (d * 10 ^ Z.to_N e)
  end.
(** [f32: Display]. *)
Definition show_f32 (n : N) : string :=
  let b := n mod f32_minus in
  if f32_inf <? b then "NaN"
  else (if f32_minus <=? n then "-" else "") +++
       (if b =? f32_inf then "inf" else if b =? 0 then "0" else let '(d, e) := shortest b in show_decimal d e).

(** ** Decimal (rust_decimal's str.rs, for literal_type.rs:53 and simple_type.rs:81, 90) *)
(** [maybe_round]: the digit after the last one that fits. *)
Definition dec_round (data scale d : N) : option (N * N) :=
  let data := if 5 <=? d then data + 1 else data in
  if data <? 2 ^ 96 then Some (data, scale)
  else if scale =? 0 then None else Some ((data + 4) / 10, scale - 1).
(** [byte_dispatch_u64], [handle_digit_64], [handle_full_128]; [has]: there was a digit. *)
Fixpoint dec_digits (s : string) (point has : bool) (data scale : N) : option (N * N) :=
  match s with
  | EmptyString => if has then Some (data, scale) else None
  | String c s' =>
      if andb point (28 <=? scale) then
        match char_digit c with
        | Some d => dec_round data scale d
        | None => if orb (Ascii.eqb c "_") (Ascii.eqb c ".") then Some (data, scale) else None
        end
      else
        match char_digit c with
        | Some d =>
            let next := data * 10 + d in
            if next <? 2 ^ 96 then dec_digits s' point true next (if point then scale + 1 else 0)
            else if point then dec_round data scale d else None
        | None =>
            if andb (Ascii.eqb c ".") (negb point) then dec_digits s' true has data scale
            else if andb (Ascii.eqb c "_") has then dec_digits s' point has data scale
            else None
        end
  end.
(** [Decimal::from_str]. *)
Definition parse_dec (s : string) : option dec :=
  let '(neg, t) := match s with
                   | String "-" t => (true, t)
                   | String "+" t => (false, t)
                   | _ => (false, s)
                   end in
  option_map (fun '(m, k) => mkDec (andb neg (negb (m =? 0))) m k) (dec_digits t false false 0 0).
(** [Decimal: Display]. *)
Definition show_dec (d : dec) : string :=
  (if dec_neg d then "-" else "") +++ show_point (dec_mant d) (N.to_nat (dec_scale d)).
