(** * Libs: third-party functions the code calls

    The crate calls Inflector (case conversion), Unicode predicates of [char],
    [syn]/[proc_macro2] identifier construction and the text conversions of
    [f32] and [rust_decimal::Decimal]. None of them is part of /repo, so they
    are parameters: a record [Libs], passed as a type-class argument. Theorems
    hold for every such record unless they say otherwise. [ascii_libs] is one
    concrete instance, transcribing Inflector 0.11.4 on ASCII input, with the
    number conversions of Numbers.v and the characters and names of XML of XmlChars.v; it is used by refutations, examples and the
    conformance tests. *)
From Verif Require Import Base XmlChars.
From Verif Require Export Numbers.

Class Libs := {
  to_snake_case : string -> string;    (* Inflector::to_snake_case *)
  to_pascal_case : string -> string;   (* Inflector::to_pascal_case *)
  char_is_alphanumeric : string -> bool;  (* char::is_alphanumeric, a char being its UTF-8 bytes *)
  char_is_alphabetic : string -> bool;    (* char::is_alphabetic *)
  ident_valid : string -> bool;        (* accepted by proc_macro2::Ident::new (keywords included) *)
  f32_from_str : string -> option N;   (* f32::from_str, the value as its bits *)
  f32_to_string : N -> string;         (* f32: Display *)
  dec_from_str : string -> option dec; (* Decimal::from_str *)
  dec_to_string : dec -> string;       (* Decimal: Display *)
  is_ncname : string -> bool;          (* roxmltree accepts it as a local name *)
  xml_text_back : string -> option string; (* what roxmltree reads from character data xml-rs wrote; None: rejected *)
  xml_attr_back : string -> option string  (* same for an attribute value *)
}.

(** ** A concrete instance for ASCII text *)
Definition is_upper_a (c : ascii) : bool := let n := nat_of_ascii c in andb (Nat.leb 65 n) (Nat.leb n 90).
Definition is_lower_a (c : ascii) : bool := let n := nat_of_ascii c in andb (Nat.leb 97 n) (Nat.leb n 122).
Definition is_digit_a (c : ascii) : bool := let n := nat_of_ascii c in andb (Nat.leb 48 n) (Nat.leb n 57).
Definition is_alpha_a (c : ascii) : bool := orb (is_upper_a c) (is_lower_a c).
Definition is_alnum_a (c : ascii) : bool := orb (is_alpha_a c) (is_digit_a c).

(** Inflector's [trim_right]: drop trailing separators. *)
Fixpoint trim_right_a (s : list ascii) : list ascii :=
  match s with
  | [] => []
  | c :: s' => match trim_right_a s' with
               | [] => if is_alnum_a c then [c] else []
               | t => c :: t
               end
  end.

(** Inflector 0.11.4 cases/case: [to_case_snake_like] with separator "_" and
    lower case. [prev] is the preceding character of the original string; the
    character after the last one of the trimmed string is looked up in the
    original one, defaulting to 'A' ([char_is_uppercase]/[next_or_previous]). *)
Fixpoint snake_go (full : list ascii) (n : nat) (prev : ascii) (first : bool) : list ascii :=
  match n, full with
  | O, _ | _, [] => []
  | S n', c :: rest =>
      if negb (is_alnum_a c) then
        if first then snake_go rest n' c true else "_"%char :: snake_go rest n' c true
      else
        let next := match rest with [] => "A"%char | d :: _ => d end in
        let sep := andb (negb first)
                     (andb (Ascii.eqb c (ascii_upper c)) (orb (is_lower_a next) (is_lower_a prev))) in
        if sep then "_"%char :: ascii_lower c :: snake_go rest n' c false
        else ascii_lower c :: snake_go rest n' c false
  end.

Definition snake_ascii (s : string) : string :=
  let l := list_ascii_of_string s in
  string_of_list_ascii (snake_go l (length (trim_right_a l)) "A"%char true).

(** Inflector 0.11.4 [to_case_camel_like] with the PascalCase settings. *)
Fixpoint pascal_go (s : list ascii) (new_word : bool) (last : ascii) (found : bool) : list ascii :=
  match s with
  | [] => []
  | c :: s' =>
      if andb (negb (is_alnum_a c)) found then pascal_go s' true last found
      else if andb (negb found) (negb (is_alnum_a c)) then pascal_go s' new_word last found
      else if is_digit_a c then c :: pascal_go s' true last true
      else if orb new_word (andb (is_lower_a last) (is_upper_a c)) then
        ascii_upper c :: pascal_go s' false last true
      else ascii_lower c :: pascal_go s' false c true
  end.

Definition pascal_ascii (s : string) : string :=
  string_of_list_ascii (pascal_go (trim_right_a (list_ascii_of_string s)) true " "%char false).

Definition ident_ascii (s : string) : bool :=
  match list_ascii_of_string s with
  | [] => false
  | c :: cs => andb (negb (s =?s "_"))
                (andb (orb (is_alpha_a c) (Ascii.eqb c "_"))
                  (forallb (fun d => orb (is_alnum_a d) (Ascii.eqb d "_")) cs))
  end.

Definition single_char (p : ascii -> bool) (s : string) : bool :=
  match s with String c EmptyString => p c | _ => false end.

Definition ascii_libs : Libs := {|
  to_snake_case := snake_ascii;
  to_pascal_case := pascal_ascii;
  char_is_alphanumeric := single_char is_alnum_a;
  char_is_alphabetic := single_char is_alpha_a;
  ident_valid := ident_ascii;
  f32_from_str := parse_f32;
  f32_to_string := show_f32;
  dec_from_str := parse_dec;
  dec_to_string := show_dec;
  is_ncname := ncname;
  xml_text_back := text_back xml_rs;
  xml_attr_back := attr_back xml_rs
|}.

(** Spot checks against Inflector's documentation and the repository's tests. *)
Example snake_1 : map snake_ascii ["AngleDeg"; "isVerified"; "thicknessReductionThin"; "test1test"; "foo-bar_"; "FirstName"]
  = ["angle_deg"; "is_verified"; "thickness_reduction_thin"; "test_1test"; "foo_bar"; "first_name"].
Proof. reflexivity. Qed.
Example pascal_1 : map pascal_ascii ["article"; "PUBLISHED"; "UserRoleData"; "postedBy"; "foo-bar"; "v1a"; "ArticlepostedByData"]
  = ["Article"; "Published"; "UserRoleData"; "PostedBy"; "FooBar"; "V1A"; "ArticlepostedByData"].
Proof. reflexivity. Qed.
