(** * C60: the built-in types against XML Schema Part 2 *)
From Verif Require Import Base Libs Xml Ast XsdNode Parse Decode Gen Run Harness Samples TextSpec LitSpec LexSpec LexProof PropDecode.

(** What is accepted is a text of the type with the meaning XML Schema gives it, except that
    positiveInteger contains zero. *)
Theorem C60_meaning_partial : forall (L : Libs) t l s v, In t covered -> literal_from_str t = Some l ->
  lit_from_str l s = Ok v -> xsd_denotes t s v \/ (t = "positiveInteger" /\ v = VInt 0).
Proof. exact @accepted_meaning. Qed.
Print Assumptions C60_meaning_partial.
(** The texts of the type are accepted if Rust spells them alike (no white space around, no
    digits for booleans, no minus zero) and the Rust type has the value. *)
Theorem C60_accepted_partial : forall (L : Libs) t l s v, literal_from_str t = Some l ->
  xsd_denotes t s v -> representable t v -> rust_spelling t s -> lit_from_str l s = Ok v.
Proof. exact @meaning_accepted. Qed.
Print Assumptions C60_accepted_partial.
(** What is written for a value is a text of the type that stands for it. *)
Theorem C60_written_partial : forall (L : Libs) t l v, In t covered -> literal_from_str t = Some l ->
  in_prim (lit_prim l) v ->
  exists s, value_to_string v = Some s /\ (xsd_denotes t s v \/ (t = "positiveInteger" /\ v = VInt 0)).
Proof. exact @written_form. Qed.
Print Assumptions C60_written_partial.

Lemma digits_of s n : parse_digits s = Some n -> digits s n.
Proof. apply NumProof.parse_digits_iff. Qed.
Example C60_example : In "int" covered /\ literal_from_str "int" = Some LInt32
  /\ xsd_denotes "int" "-07" (VInt (-7)) /\ representable "int" (VInt (-7)) /\ rust_spelling "int" "-07"
  /\ lit_from_str LInt32 "-07" = Ok (VInt (-7)) /\ value_to_string (VInt (-7)) = Some "-7"
  /\ xsd_denotes "int" "-7" (VInt (-7)).
Proof.
  assert (D : forall s n, parse_digits s = Some n -> xsd_denotes "int" (String "-" s) (VInt (- Z.of_N n)) \/ (Z.of_N n > 2 ^ 31)%Z).
  { intros s n H. destruct (Z_lt_dec (2 ^ 31) (Z.of_N n)) as [Hn|Hn]; [right; lia|]. left.
    eapply xd_integer; [constructor|apply padded_self|apply if_minus, digits_of, H|simpl in *; lia]. }
  assert (A : xsd_denotes "int" "-07" (VInt (-7))) by (destruct (D "07" 7%N eq_refl) as [K|K]; [exact K|simpl in K; lia]).
  assert (B : xsd_denotes "int" "-7" (VInt (-7))) by (destruct (D "7" 7%N eq_refl) as [K|K]; [exact K|simpl in K; lia]).
  assert (R : rust_spelling "int" "-07").
  { right. split; [|split; [discriminate|intros [K|K]; discriminate]]. intros t (a & b & E & Ha & Hb) N.
    destruct a as [|c a]; [|injection E as <- _; inversion Ha as [|? ? S _]; subst; destruct S as [S|[S|[S|S]]]; discriminate].
    simpl in E. destruct t as [|c0 [|c1 [|c2 [|c3 t]]]]; simpl in E.
    - subst b. inversion Hb as [|? ? S _]; subst. destruct S as [S|[S|[S|S]]]; discriminate.
    - injection E as <- <-. inversion Hb as [|? ? S _]; subst. destruct S as [S|[S|[S|S]]]; discriminate.
    - injection E as <- <- <-. inversion Hb as [|? ? S _]; subst. destruct S as [S|[S|[S|S]]]; discriminate.
    - injection E as <- <- <- E. now apply N.
    - discriminate. }
  split; [simpl; tauto|]. split; [reflexivity|]. split; [exact A|]. split; [simpl; lia|]. split; [exact R|].
  split; [|split; [reflexivity|exact B]]. apply (C60_accepted_partial ascii_libs "int"); auto. simpl. lia.
Qed.

(** ** Refutations: documents *)
Definition ex_typed (t : string) : xelem := xschema [] [xtyped "a" ("xs:" +++ t)].
(** The text stands for a value of the type, but the document is rejected. *)
Definition rejects_text (t s : string) : Prop := exists v, xsd_denotes t s v
  /\ exists e, read_with (ex_typed t) "A" (txt "a" s) = Some (Err e).

Theorem C60_boolean_refuted : rejects_text "boolean" "1".
Proof.
  exists (VBool true). split; [apply (xd_boolean _ "1"); [apply padded_self|constructor]|]. eexists. by_compute.
Qed.
Print Assumptions C60_boolean_refuted.
Theorem C60_white_space_refuted : rejects_text "int" " 5 ".
Proof.
  exists (VInt 5). split; [|eexists; by_compute].
  apply (xd_integer _ _ _ "5" 5 it_int); [|apply (if_plain "5" 5), digits_of; reflexivity|lia].
  exists " ", " ". repeat split; (constructor; [now left|constructor]).
Qed.
Print Assumptions C60_white_space_refuted.
Theorem C60_large_refuted : rejects_text "integer" "9223372036854775808".
Proof.
  exists (VInt 9223372036854775808). split; [|eexists; by_compute].
  eapply (xd_integer _ _ _ _ _ it_integer); [apply padded_self| |exact I].
  apply (if_plain _ 9223372036854775808), digits_of. by_compute.
Qed.
Print Assumptions C60_large_refuted.
Theorem C60_minus_zero_refuted : rejects_text "nonNegativeInteger" "-0".
Proof.
  exists (VInt 0). split; [|eexists; by_compute].
  eapply (xd_integer _ _ _ _ _ it_non_negative); [apply padded_self| |lia].
  apply (if_minus "0" 0), digits_of. by_compute.
Qed.
Print Assumptions C60_minus_zero_refuted.
(** A text that stands for nothing is accepted. *)
Theorem C60_zero_refuted : (forall v, ~ xsd_denotes "positiveInteger" "0" v)
  /\ exists v, read_with (ex_typed "positiveInteger") "A" (txt "a" "0") = Some (Ok v).
Proof.
  split; [|eexists; by_compute]. intros v D. inversion D as [| |t P s u z It Pd F Pz Et Es Ev]; subst. inversion It; subst.
  destruct Pd as (a & b & E & Ha & Hb).
  destruct a as [|c a]; [|injection E as <- _; inversion Ha as [|? ? S _]; subst; destruct S as [S|[S|[S|S]]]; discriminate].
  simpl in E. destruct u as [|c0 u].
  - apply LexProof.integer_signed in F. inversion F as [s n Dg|s n Dg|s n Dg]; subst. apply NumProof.digits_dval in Dg. now destruct Dg.
  - injection E as <- E. destruct u; [|discriminate]. apply LexProof.integer_signed in F.
    inversion F as [s n Dg|s n Dg|s n Dg]; subst.
    apply NumProof.digits_dval in Dg. destruct Dg as [_ Dg]. vm_compute in Dg. injection Dg as <-. simpl in Pz. lia.
Qed.
Print Assumptions C60_zero_refuted.
