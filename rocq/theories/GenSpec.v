(** * GenSpec: notions used to state properties of code generation *)
From Verif Require Import Base Libs Ast.

(** [alias c n m]: the type [n] is just another name of [m]
    (e.g. [<xs:element name="n" type="m"/>]). *)
Definition alias (c : schema_ctx) (n m : name) : Prop :=
  exists d, sc_get c n = Some (RootLeaf d) /\ ld_content d = LcNamed m.

(** Following aliases from [n] ends. *)
Inductive chain_ends (c : schema_ctx) : name -> Prop :=
| ce n : (forall m, alias c n m -> chain_ends c m) -> chain_ends c n.

(** Holds from some amount of fuel on. *)
Definition eventually (P : nat -> Prop) : Prop := exists N, forall f, N <= f -> P f.

(** ** Names of enumeration variants *)
Section Names.
Context {L : Libs}.
Definition letter_first (s : string) : Prop := exists ch t, utf8_chars s = ch :: t /\ char_is_alphabetic ch = true.
(** The characters of a literal that can be part of a name: letters, digits, and [_] for
    [_] and [-]. *)
Inductive name_chars : list string -> list string -> Prop :=
| nc_nil : name_chars [] []
| nc_dash ch l k : ch = "-" \/ ch = "_" -> name_chars l k -> name_chars (ch :: l) ("_" :: k)
| nc_keep ch l k : ch <> "-" -> ch <> "_" -> char_is_alphanumeric ch = true -> name_chars l k -> name_chars (ch :: l) (ch :: k)
| nc_drop ch l k : ch <> "-" -> ch <> "_" -> char_is_alphanumeric ch = false -> name_chars l k -> name_chars (ch :: l) k.
(** The readable name of a literal: these characters in pascal case, after a [V] unless
    they start with a letter. *)
Definition readable (s v : string) : Prop := exists k, name_chars (utf8_chars s) k /\
  let b := to_pascal_case (concat_str k) in
  ((b = "" \/ letter_first b) /\ v = b) \/ (b <> "" /\ ~ letter_first b /\ v = "V" +++ b).
End Names.
