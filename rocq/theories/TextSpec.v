(** * TextSpec: small specifications about strings, numbers and names *)
From Verif Require Import Base.

(** ** Numbers: positional value of a decimal digit string *)
Definition digit_value (c : ascii) : option N :=
  let n := nat_of_ascii c in
  if andb (Nat.leb 48 n) (Nat.leb n 57) then Some (N.of_nat (n - 48)) else None.

(** [digits s n]: [s] is a non-empty string of decimal digits denoting [n]. *)
Inductive digits : string -> N -> Prop :=
| dg_one c n : digit_value c = Some n -> digits (String c "") n
| dg_more s c n d : digits s n -> digit_value c = Some d -> digits (s +++ String c "") (10 * n + d).

(** What Rust's integer parsers accept: a sign (only "+" for unsigned) and digits. *)
Inductive unsigned_text : string -> N -> Prop :=
| ut_plain s n : digits s n -> unsigned_text s n
| ut_plus s n : digits s n -> unsigned_text (String "+" s) n.
Inductive signed_text : string -> Z -> Prop :=
| st_plain s n : digits s n -> signed_text s (Z.of_N n)
| st_plus s n : digits s n -> signed_text (String "+" s) (Z.of_N n)
| st_minus s n : digits s n -> signed_text (String "-" s) (- Z.of_N n).

(** ** Characters of a string *)
(** [p] is a prefix (suffix) of [s], character-wise. *)
Definition char_prefix (p s : string) : Prop := exists r, utf8_chars s = utf8_chars p ++ r.
Definition char_suffix (p s : string) : Prop := exists r, utf8_chars s = r ++ utf8_chars p.
Definition no_underscore (s : string) : Prop := ~ In "_" (utf8_chars s).

(** ** Rust's strict and reserved keywords (2021 edition) *)
Definition rust_keywords : list string :=
  ["as"; "break"; "const"; "continue"; "crate"; "else"; "enum"; "extern"; "false"; "fn";
   "for"; "if"; "impl"; "in"; "let"; "loop"; "match"; "mod"; "move"; "mut"; "pub"; "ref";
   "return"; "self"; "Self"; "static"; "struct"; "super"; "trait"; "true"; "type";
   "unsafe"; "use"; "where"; "while"; "async"; "await"; "dyn";
   "abstract"; "become"; "box"; "do"; "final"; "macro"; "override"; "priv"; "typeof";
   "unsized"; "virtual"; "yield"; "try"].

(** ** What naming anonymous groups relies on from the case conversion

    Converting an already converted piece without separator again may cut it
    into several words but neither changes nor reorders its characters: whatever
    separator-free prefix (suffix) comes out is a prefix (suffix) of the piece. *)
Definition snake_stable (snake : string -> string) : Prop :=
  (forall s p q, char_prefix p (snake s) -> no_underscore p ->
     char_prefix q (snake p) -> no_underscore q -> char_prefix q p)
  /\ (forall s p q, char_suffix p (snake s) -> no_underscore p ->
     char_suffix q (snake p) -> no_underscore q -> char_suffix q p).
