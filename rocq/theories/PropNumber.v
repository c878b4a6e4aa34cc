(** * C73: decimal and float against XML Schema Part 2 *)
From Coq Require Import QArith.
From Verif Require Import Base Libs Xml Ast XsdNode Parse Decode Writer Gen Run Harness Samples TextSpec LitSpec LexSpec NumProof LexProof
  CanonSpec StableSpec NumberSpec NumberLibs NumberText NumberRound NumberShort PropDecode PropRound PropLex.

(** ** float *)
(** The texts of the type without white space around are read as the value they stand for:
    the value of binary32 nearest to the number. *)
Theorem C73_float_accepted : forall (L : Libs) s b, numbers_are L -> float_form s b -> lit_from_str LFloat32 s = Ok (VF32 b).
Proof.
  intros L s b N F. unfold lit_from_str. cbn [lit_prim prim_from_str]. rewrite (na_f32_read L N), (float_read s b F). reflexivity.
Qed.
Print Assumptions C73_float_accepted.
(** A text stands for one value. *)
Theorem C73_float_unique : forall s b b', float_form s b -> float_form s b' -> b = b'.
Proof. intros s b b' H H'. apply float_read in H, H'. congruence. Qed.
Print Assumptions C73_float_unique.
(** What is accepted is a text of the type, or a word for infinity or not-a-number. *)
Theorem C73_float_meaning_partial : forall (L : Libs) s v, numbers_are L -> lit_from_str LFloat32 s = Ok v ->
  exists b, v = VF32 b /\ f32_valid b
    /\ (float_form s b \/ exists neg t, with_sign s neg t /\ In (lower_string t) ["inf"; "infinity"; "nan"]).
Proof.
  intros L s v N H. unfold lit_from_str in H. cbn [lit_prim prim_from_str] in H. rewrite (na_f32_read L N) in H.
  destruct (parse_f32 s) as [b|] eqn:E; [|discriminate]. injection H as <-. exists b. split; [reflexivity|]. split; [now apply f32_bits in E|now apply float_meaning].
Qed.
Print Assumptions C73_float_meaning_partial.
(** What is written for a value that is not infinite is a text of the type that stands for it. *)
Theorem C73_float_written_partial : forall (L : Libs) n, numbers_are L -> f32_valid n -> (forall neg, n <> with_bit neg infinite) ->
  exists s, value_to_string (VF32 n) = Some s /\ float_form s n.
Proof.
  intros L n N V I. exists (show_f32 n). split; [cbn [value_to_string]; now rewrite (na_f32_show L N)|].
  destruct V as [(neg & b & -> & H)| ->]; [|apply ff_nan]. apply show_finite. specialize (I neg). assert (b <> infinite) by congruence. lia.
Qed.
Print Assumptions C73_float_written_partial.
(** It is the shortest text: no number with fewer digits is rounded to the value, none with as
    many digits is nearer to it, and no zero can be left out. *)
Theorem C73_float_shortest : forall (L : Libs) neg b, numbers_are L -> (b < infinite)%N ->
  exists t m k, value_to_string (VF32 (with_bit neg b)) = Some ((if neg then "-" else "") +++ t)
    /\ unsigned_form t m k /\ shortest_number b (fraction m k) /\ tidy t.
Proof.
  intros L neg b N H. destruct (show_shortest neg b H) as (t & m & k & E & U & S & T). exists t, m, k. split; [|auto]. cbn [value_to_string].
  rewrite (na_f32_show L N); [now rewrite E|]. left. exists neg, b. split; [reflexivity|lia].
Qed.
Print Assumptions C73_float_shortest.
(** Every value is read back. *)
Theorem C73_float_back : forall (L : Libs) n, numbers_are L -> f32_valid n ->
  exists s, value_to_string (VF32 n) = Some s /\ lit_from_str LFloat32 s = Ok (VF32 n).
Proof.
  intros L n N V. exists (show_f32 n). split; [cbn [value_to_string]; now rewrite (na_f32_show L N)|].
  unfold lit_from_str. cbn [lit_prim prim_from_str]. now rewrite (na_f32_read L N), (f32_back n V).
Qed.
Print Assumptions C73_float_back.

(** ** decimal *)
(** Numbers of at most 28 digits after the point and a mantissa below 2^96. *)
Theorem C73_decimal_accepted_partial : forall (L : Libs) s neg t n k, numbers_are L -> with_sign s neg t -> unsigned_form t n k ->
  (n < 2 ^ 96)%N -> (k <= 28)%nat ->
  exists d, lit_from_str LDecimal s = Ok (VDec d) /\ dec_valid d /\ dec_value d == signed neg (fraction n k).
Proof.
  intros L s neg t n k N W U B K. pose proof (dec_read s neg t n k W U B K) as R. eexists. split; [|split].
  - unfold lit_from_str. cbn [lit_prim prim_from_str]. rewrite (na_dec_read L N), R. reflexivity.
  - eapply parse_dec_valid, R.
  - apply dec_value_zero_sign.
Qed.
Print Assumptions C73_decimal_accepted_partial.
(** Accepted texts without '_' in which every digit counts. *)
Theorem C73_decimal_meaning_partial : forall (L : Libs) s v, numbers_are L -> lit_from_str LDecimal s = Ok v ->
  exists d, v = VDec d /\ dec_valid d
    /\ (~ In "_"%char (list_ascii_of_string s) -> (String.length s <= 28)%nat -> decimal_form s (dec_value d)).
Proof.
  intros L s v N H. unfold lit_from_str in H. cbn [lit_prim prim_from_str] in H. rewrite (na_dec_read L N) in H.
  destruct (parse_dec s) as [d|] eqn:E; [|discriminate]. injection H as <-. exists d. split; [reflexivity|]. split; [eapply parse_dec_valid, E|].
  intros U S. now apply dec_meaning.
Qed.
Print Assumptions C73_decimal_meaning_partial.
(** What is written for a value is a text of the type that stands for it, and is read back. *)
Theorem C73_decimal_written : forall (L : Libs) d, numbers_are L -> dec_valid d ->
  exists s, value_to_string (VDec d) = Some s /\ decimal_form s (dec_value d) /\ lit_from_str LDecimal s = Ok (VDec d).
Proof.
  intros L d N V. exists (show_dec d). split; [cbn [value_to_string]; now rewrite (na_dec_show L N)|]. split.
  - eapply df; [apply show_dec_form|apply show_point_form|reflexivity].
  - unfold lit_from_str. cbn [lit_prim prim_from_str]. now rewrite (na_dec_read L N), (dec_back d V).
Qed.
Print Assumptions C73_decimal_written.
(** The conditions of the round-trip theorems (C24-C26) on numbers hold for these functions. *)
Theorem C73_scalar_laws : forall (L : Libs), numbers_are L ->
  (forall v s, scalar v -> value_to_string v = Some s -> text_ok s /\ attr_ok s) -> text_ok "" -> scalar_laws L.
Proof.
  intros L N T E. constructor; [exact T|exact E| |].
  - intros s d H. rewrite (na_dec_read L N) in *. pose proof (parse_dec_valid _ _ H) as V. rewrite (na_dec_show L N d V). now apply dec_back.
  - intros s n H. rewrite (na_f32_read L N) in *. pose proof (f32_bits _ _ H) as V. rewrite (na_f32_show L N n V). now apply f32_back.
Qed.
Print Assumptions C73_scalar_laws.

Lemma ascii_numbers : numbers_are ascii_libs.
Proof. constructor; reflexivity. Qed.

(** One third is read as the value nearest to it, written with as few digits as are needed,
    and these are read as the same value. *)
Example C73_example :
  read_with (ex_typed "float") "A" (txt "a" "0.333333333333") = Some (Ok (VTuple (VF32 1051372203)))
  /\ value_to_string (VF32 1051372203) = Some "0.33333334"
  /\ float_form "0.33333334" 1051372203 /\ f32_value 1051372203 == 11184811 # 33554432
  /\ map (fun s => lit_from_str LFloat32 s) ["1E-45"; "-.5e+1"; "16777217"; "16777219"; "3.5e38"; "NaN"; "-INF"; "1e"; "0x1"]
     = map (fun o => match o with Some n => Ok (VF32 n) | None => Err (FeParseType "float" "1e") end)
         [Some 1; Some 3231711232; Some 1266679808; Some 1266679810; Some 2139095040; Some 2143289344; Some 4286578688]%N
       ++ [Err (FeParseType "float" "1e"); Err (FeParseType "float" "0x1")]
  /\ read_with (ex_typed "decimal") "A" (txt "a" "-0012.340") = Some (Ok (VTuple (VDec (mkDec true 12340 3))))
  /\ value_to_string (VDec (mkDec true 12340 3)) = Some "-12.340".
Proof.
  split; [by_compute|]. split; [by_compute|]. split.
  - destruct (C73_float_written_partial ascii_libs 1051372203 ascii_numbers) as (s & E & F).
    + left. exists false, 1051372203%N. split; [reflexivity|discriminate].
    + intros []; discriminate.
    + assert (X : value_to_string (VF32 1051372203) = Some "0.33333334") by by_compute. rewrite X in E. injection E as <-. exact F.
  - split; [by_compute|]. split; [by_compute|]. split; by_compute.
Qed.

(** A tenth, the largest value, the least one, and whole numbers. *)
Example C73_shortest : map (fun b => value_to_string (VF32 b)) [1036831949; 2139095039; 1; 3405774848; 1266679808]%N
  = map Some ["0.1"; "340282350000000000000000000000000000000"; "0.000000000000000000000000000000000000000000001"; "-8388608"; "16777216"]
  /\ exists m k, unsigned_form "0.1" m k /\ shortest_number 1036831949 (fraction m k).
Proof.
  split; [by_compute|]. destruct (C73_float_shortest ascii_libs false 1036831949 ascii_numbers eq_refl) as (t & m & k & E & U & S & _).
  assert (X : value_to_string (VF32 (with_bit false 1036831949)) = Some "0.1") by by_compute. rewrite X in E. injection E as <-. eauto.
Qed.

(** ** Refutations *)
Lemma no_float c r b : (forall d, digit_value c <> Some d) -> c <> "."%char -> c <> "+"%char -> c <> "-"%char -> c <> "I"%char -> c <> "N"%char ->
  ~ float_form (String c r) b.
Proof.
  intros D P Pl M I N F. assert (K : forall neg t, with_sign (String c r) neg t -> t = String c r) by (intros neg t W; inversion W; subst; congruence).
  inversion F as [s' neg t n k b' W U|s' neg t c' x n k z b' W U|E|E|E]; subst; try congruence.
  - apply K in W. subst t. destruct (unsigned_head _ _ _ "" U) as (c0 & s0 & E0 & Hd). cbn [append] in E0. injection E0 as <- _. destruct Hd as [(d & Hd)|Hd]; [now apply D in Hd|congruence].
  - apply K in W. destruct (unsigned_head _ _ _ (String c' x) U) as (c0 & s0 & E0 & Hd). rewrite W in E0. injection E0 as <- _. destruct Hd as [(d & Hd)|Hd]; [now apply D in Hd|congruence].
Qed.
(** Infinity is written in a way XML Schema does not know: reading a document and writing it
    again makes it invalid. *)
Theorem C73_infinity_refuted : exists v evs d,
  float_form "INF" infinite /\ read_with (ex_typed "float") "A" (txt "a" "INF") = Some (Ok v)
  /\ write_with (ex_typed "float") "A" v = Some (Ok evs) /\ document evs = Some d /\ strip d = txt "a" "inf"
  /\ forall b, ~ float_form "inf" b.
Proof.
  eexists _, _, _. split; [apply ff_inf|]. split; [by_compute|]. split; [by_compute|]. split; [by_compute|]. split; [by_compute|].
  intros b. apply no_float; discriminate.
Qed.
Print Assumptions C73_infinity_refuted.
(** Words that are no texts of the type are accepted. *)
Theorem C73_words_refuted : exists v, read_with (ex_typed "float") "A" (txt "a" "infinity") = Some (Ok v) /\ forall b, ~ float_form "infinity" b.
Proof. eexists. split; [by_compute|]. intros b. apply no_float; discriminate. Qed.
Print Assumptions C73_words_refuted.
(** White space around a number. *)
Theorem C73_white_space_refuted : exists d e, number_denotes "decimal" " 1.5" (VDec d)
  /\ read_with (ex_typed "decimal") "A" (txt "a" " 1.5") = Some (Err e).
Proof.
  exists (mkDec false 15 1). eexists. split; [|by_compute].
  eapply (nd_decimal _ "1.5"); [exists " ", ""; split; [reflexivity|split; [constructor; [now left|constructor]|constructor]]| |reflexivity].
  eapply df; [apply ws_none|apply (uf_point "1" "5" 15), digits_of; reflexivity|reflexivity].
Qed.
Print Assumptions C73_white_space_refuted.
(** '_' between digits. *)
Theorem C73_underscore_refuted : exists v, read_with (ex_typed "decimal") "A" (txt "a" "1_0") = Some (Ok v) /\ forall x, ~ decimal_form "1_0" x.
Proof.
  eexists. split; [by_compute|]. intros x F. inversion F as [s neg t n k x' W U E]; subst. inversion W; subst. clear -U.
  destruct (unsigned_digits _ _ _ U) as (a & b & D & _ & T). apply digits_all in D. apply all_digits_app in D. destruct D as (A & B).
  destruct T as [T|[<- _]].
  - destruct a as [|c0 [|c1 [|c2 [|c3 a]]]]; try discriminate T. 
  - vm_compute in A. now apply A.
Qed.
Print Assumptions C73_underscore_refuted.
(** More digits than fit are rounded away. *)
Theorem C73_precision_refuted : exists x d, decimal_form "0.00000000000000000000000000001" x
  /\ read_with (ex_typed "decimal") "A" (txt "a" "0.00000000000000000000000000001") = Some (Ok (VTuple (VDec d))) /\ ~ dec_value d == x.
Proof.
  eexists _, _. split; [|split; [by_compute|]].
  - eapply df; [apply ws_none|apply (uf_point "0" "00000000000000000000000000001" 1), digits_of; by_compute|reflexivity].
  - intros H. vm_compute in H. discriminate.
Qed.
Print Assumptions C73_precision_refuted.
Theorem C73_large_refuted : exists x e, decimal_form "79228162514264337593543950336" x
  /\ read_with (ex_typed "decimal") "A" (txt "a" "79228162514264337593543950336") = Some (Err e).
Proof.
  eexists _, _. split; [|by_compute]. eapply df; [apply ws_none|apply uf_plain, digits_of; by_compute|reflexivity].
Qed.
Print Assumptions C73_large_refuted.
(** The bounds of a restriction of float are read as decimals: a valid schema is rejected. *)
Theorem C73_bound_refuted : exists b r p, float_form "1E2" b
  /\ parse_doc (xschema [] [xs "simpleType" [at_ "name" "t"] [xs "restriction" [at_ "base" "xs:float"] [xs "minInclusive" [at_ "value" "1E2"] []]]]) = Err (SeXsd (XeParseDecimal r) p)
  /\ exists s, parse_doc (xschema [] [xs "simpleType" [at_ "name" "t"] [xs "restriction" [at_ "base" "xs:float"] [xs "minInclusive" [at_ "value" "100"] []]]]) = Ok s.
Proof.
  exists 1120403456%N. eexists _, _. split; [|split; [by_compute|eexists; by_compute]].
  destruct (float_meaning "1E2" 1120403456 ltac:(by_compute)) as [F|(neg & t & W & I)]; [exact F|]. inversion W; subst. vm_compute in I. destruct I as [I|[I|[I|[]]]]; discriminate.
Qed.
Print Assumptions C73_bound_refuted.
