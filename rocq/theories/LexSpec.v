(** * LexSpec: texts and values of the built-in types according to XML Schema

    W3C XML Schema Part 2 (Datatypes), for the types whose values the model has: string,
    boolean and the integers; decimal and float are in NumberSpec.v.
    Not covered: dates, durations and binary data (which Rust keeps as strings). *)
From Verif Require Import Base Libs Ast Run TextSpec.

(** whiteSpace = collapse; none of the texts below contains white space. *)
Definition xml_space (c : ascii) : Prop := c = " "%char \/ c = "009"%char \/ c = "010"%char \/ c = "013"%char.
Definition blank (s : string) : Prop := Forall xml_space (list_ascii_of_string s).
Definition padded (s t : string) : Prop := exists a b, s = a +++ t +++ b /\ blank a /\ blank b.
Definition unpadded (s : string) : Prop := forall t, padded s t -> t <> s -> False.

(** Lexical forms after white space processing, and their values. *)
Inductive boolean_form : string -> bool -> Prop :=
| bf_true : boolean_form "true" true
| bf_false : boolean_form "false" false
| bf_one : boolean_form "1" true
| bf_zero : boolean_form "0" false.
Inductive integer_form : string -> Z -> Prop :=
| if_plain s n : digits s n -> integer_form s (Z.of_N n)
| if_plus s n : digits s n -> integer_form (String "+" s) (Z.of_N n)
| if_minus s n : digits s n -> integer_form (String "-" s) (- Z.of_N n).

(** The integer types and their values. *)
Inductive integer_type : string -> (Z -> Prop) -> Prop :=
| it_integer : integer_type "integer" (fun _ => True)
| it_long : integer_type "long" (fun z => (- 2 ^ 63 <= z < 2 ^ 63)%Z)
| it_int : integer_type "int" (fun z => (- 2 ^ 31 <= z < 2 ^ 31)%Z)
| it_non_negative : integer_type "nonNegativeInteger" (fun z => (0 <= z)%Z)
| it_positive : integer_type "positiveInteger" (fun z => (0 < z)%Z).

(** The text [s] stands for the value [v] of the built-in type [t]. *)
Inductive xsd_denotes : string -> string -> value -> Prop :=
| xd_string s : xsd_denotes "string" s (VStr s)
| xd_boolean s u b : padded s u -> boolean_form u b -> xsd_denotes "boolean" s (VBool b)
| xd_integer t P s u z : integer_type t P -> padded s u -> integer_form u z -> P z -> xsd_denotes t s (VInt z).

Definition covered : list string :=
  ["string"; "boolean"; "integer"; "long"; "int"; "nonNegativeInteger"; "positiveInteger"].
(** The values the Rust type of a built-in type can hold. *)
Definition representable (t : string) (v : value) : Prop :=
  match v with
  | VInt z =>
      if t =?s "int" then (- 2 ^ 31 <= z < 2 ^ 31)%Z
      else if orb (t =?s "nonNegativeInteger") (t =?s "positiveInteger") then (0 <= z < 2 ^ 64)%Z
      else (- 2 ^ 63 <= z < 2 ^ 63)%Z
  | _ => True
  end.
(** Texts that Rust spells like XML Schema: no white space around, no digits for booleans,
    no minus sign before a zero that is not negative. *)
Definition rust_spelling (t s : string) : Prop :=
  t = "string" \/ (unpadded s /\ (t = "boolean" -> s <> "1" /\ s <> "0")
                   /\ (t = "nonNegativeInteger" \/ t = "positiveInteger" -> forall r, s <> String "-" r)).
