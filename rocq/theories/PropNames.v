(** * C33, C39-C42: namespaces, derived names, documentation, dependency closure *)
From Coq Require Import Lia.
From Verif Require Import Base Libs Ast XsdNode Parse Gen Harness TextSpec MiscSpec CharProof NameProof MiscProof GenProof1 GenProof2.

(** C33 *)
Theorem C33_interning : forall (uris : list string) ids s,
  intern uris namespaces_default = (ids, s) ->
  length ids = length uris
  /\ (forall i j u v, nth_error uris i = Some u -> nth_error uris j = Some v ->
        (u = v <-> nth_error ids i = nth_error ids j))
  /\ (forall i u, nth_error uris i = Some u -> exists k d,
        nth_error ids i = Some (NsId k) /\ get_by_id s k = Some d /\ nd_uri d = u)
  /\ (forall k k' d d', get_by_id s k = Some d -> get_by_id s k' = Some d' ->
        nd_prefix d = nd_prefix d' -> k = k')
  /\ (forall k d, get_by_id s k = Some d -> In (nd_uri d) uris)
  /\ (forall more jds s', intern more s = (jds, s') ->
        forall k d, get_by_id s k = Some d -> get_by_id s' k = Some d).
Proof. exact interning. Qed.
Print Assumptions C33_interning.

Example C33_example :
  fst (intern ["urn:a"; "urn:b"; "urn:a"; "urn:c"] namespaces_default) = [NsId 1; NsId 2; NsId 1; NsId 3]
  /\ get_by_id (snd (intern ["urn:a"; "urn:b"; "urn:a"; "urn:c"] namespaces_default)) 2
     = Some (mkNsDef "urn:b" "ns2").
Proof. split; reflexivity. Qed.

(** C39, the part that holds: deriving a name succeeds, and leaves the parser
    state alone, when the first character of every name is one byte long (or the
    name is empty). Missing for the full statement: other names, see
    [C39_derived_name_refuted]. *)
Theorem C39_derived_name_partial : forall (L : Libs) (names : list name) (shorten : bool) (c : ctx),
  Forall (fun n => match utf8_chars (nm n) with [] => True | ch :: _ => String.length ch = 1 end) names ->
  exists n, derive_virtual_name names shorten c = Ok (n, c).
Proof. exact @derive_virtual_name_ok. Qed.
Print Assumptions C39_derived_name_partial.

Definition c_empty : ctx := mkCtx [] None NsNone [] false shared_default.
Example C39_example :
  derive_virtual_name [mkName "article" NsNone; mkName "postedBy" NsNone; mkName "Data" NsNone] false c_empty
  = Ok (mkName "ArticlePostedByData" NsNone, c_empty)
  /\ derive_virtual_name [mkName "angleDeg" NsNone; mkName "angleRad" NsNone] true c_empty
     = Ok (mkName "angle" NsNone, c_empty).
Proof. split; reflexivity. Qed.

(** C39 in full is false: a name starting with "é" (bytes C3 A9), which XML allows. *)
Definition e_acute : string := String (ascii_of_nat 195) (String (ascii_of_nat 169) "tat").
Theorem C39_derived_name_refuted :
  exists (names : list name) (c : ctx) w,
    utf8_chars (nm (hd (mkName "" NsNone) names)) <> []
    /\ derive_virtual_name names false c = Panic w.
Proof.
  exists [mkName e_acute NsNone; mkName "Data" NsNone], c_empty, "byte index 1 is not a char boundary".
  split; [discriminate|reflexivity].
Qed.
Print Assumptions C39_derived_name_refuted.

(** C40: for two or more names, with a case conversion that does not rearrange
    already converted text. *)
Theorem C40_shared_prefix : forall (L : Libs) a b rest p,
  snake_stable to_snake_case ->
  derive_mutal_prefix (a :: b :: rest) = Some p ->
  p <> "" /\ no_underscore p /\ Forall (fun n => char_prefix p (to_snake_case n)) (a :: b :: rest).
Proof. exact @derive_prefix. Qed.
Print Assumptions C40_shared_prefix.

Theorem C40_shared_suffix : forall (L : Libs) a b rest p,
  snake_stable to_snake_case ->
  derive_mutal_suffix (a :: b :: rest) = Some p ->
  p <> "" /\ no_underscore p /\ Forall (fun n => char_suffix p (to_snake_case n)) (a :: b :: rest).
Proof. exact @derive_suffix. Qed.
Print Assumptions C40_shared_suffix.

(** Maximality for two names, whatever the case conversion. *)
Theorem C40_prefix_maximal : forall (L : Libs) a b q,
  char_prefix q (to_snake_case a) -> char_prefix q (to_snake_case b) -> no_underscore q ->
  match derive_mutal_prefix [a; b] with Some p => char_prefix q p | None => q = "" end.
Proof. exact @derive_prefix_two. Qed.
Print Assumptions C40_prefix_maximal.

Theorem C40_suffix_maximal : forall (L : Libs) a b q,
  char_suffix q (to_snake_case a) -> char_suffix q (to_snake_case b) -> no_underscore q ->
  match derive_mutal_suffix [a; b] with Some p => char_suffix q p | None => q = "" end.
Proof. exact @derive_suffix_two. Qed.
Print Assumptions C40_suffix_maximal.

(** The hypothesis is met by Inflector's conversion on ASCII. *)
Theorem C40_ascii_stable : snake_stable (@to_snake_case ascii_libs).
Proof. exact ascii_stable. Qed.
Print Assumptions C40_ascii_stable.

Example C40_example :
  derive_mutal_prefix ["thicknessMin"; "ThicknessMax"; "thickness"] = Some "thickness"
  /\ derive_mutal_suffix ["minAngle"; "maxAngle"] = Some "angle"
  /\ derive_mutal_prefix ["foo"; "bar"] = None.
Proof. repeat split; reflexivity. Qed.

(** The name of the type of a choice between two elements: the longest text both names
    begin or both end with, if there is one; otherwise the names joined. *)
Definition shared {L : Libs} (a b q : string) : Prop := q <> "" /\ no_underscore q
  /\ (char_prefix q (to_snake_case a) /\ char_prefix q (to_snake_case b) \/ char_suffix q (to_snake_case a) /\ char_suffix q (to_snake_case b)).
Theorem C40_longest : forall (L : Libs) a b c n c',
  snake_stable to_snake_case -> derive_virtual_name [a; b] true c = Ok (n, c') ->
  (shared (nm a) (nm b) (nm n) /\ forall q, shared (nm a) (nm b) q -> String.length q <= String.length (nm n))
  \/ ((forall q, ~ shared (nm a) (nm b) q) /\ derive_virtual_name [a; b] false c = Ok (n, c')).
Proof.
  intros L a b c n c' St H. unfold derive_virtual_name in *. cbn [map] in *.
  assert (Ln : forall l, String.length (concat_str l) = list_sum (map String.length l)).
  { assert (La : forall x y, String.length (x +++ y) = String.length x + String.length y).
    { induction x as [|ch x IHx]; intros y; [reflexivity|]. simpl. now rewrite IHx. }
    unfold concat_str. induction l as [|x [|y l] IH]; [reflexivity|simpl; lia|].
    change (String.concat "" (x :: y :: l)) with (x +++ "" +++ String.concat "" (y :: l)). rewrite !La, IH. reflexivity. }
  assert (Lp : forall q p, char_prefix q p -> String.length q <= String.length p).
  { intros q p [r E]. rewrite <- (utf8_chars_concat q), <- (utf8_chars_concat p), E, !Ln, map_app, list_sum_app. apply Nat.le_add_r. }
  assert (Ls : forall q p, char_suffix q p -> String.length q <= String.length p).
  { intros q p [r E]. rewrite <- (utf8_chars_concat q), <- (utf8_chars_concat p), E, !Ln, map_app, list_sum_app. apply Nat.le_add_l. }
  pose proof (C40_prefix_maximal L (nm a) (nm b)) as Mp. pose proof (C40_suffix_maximal L (nm a) (nm b)) as Ms.
  pose proof (C40_shared_prefix L (nm a) (nm b) []) as Sp. pose proof (C40_shared_suffix L (nm a) (nm b) []) as Ss.
  assert (Two : forall (P : string -> Prop), Forall P [nm a; nm b] -> P (nm a) /\ P (nm b)).
  { intros P F. inversion F as [|? ? A F']; subst. inversion F'; subst. auto. }
  destruct (derive_mutal_prefix [nm a; nm b]) as [p|], (derive_mutal_suffix [nm a; nm b]) as [s|]; cbn [Nat.ltb] in H.
  - left. destruct (Sp p St eq_refl) as (P1 & P2 & P3). destruct (Ss s St eq_refl) as (S1 & S2 & S3). apply Two in P3, S3.
    injection H as <- _. cbn [nm get_node_name]. destruct (Nat.ltb (String.length s) (String.length p)) eqn:El.
    + apply Nat.ltb_lt in El. split; [repeat split; auto|]. intros q (Q1 & Q2 & [[A B]|[A B]]).
      * apply Lp, Mp; auto. * specialize (Ms q A B Q2). apply Ls in Ms. lia.
    + apply Nat.ltb_ge in El. split; [repeat split; auto|]. intros q (Q1 & Q2 & [[A B]|[A B]]).
      * specialize (Mp q A B Q2). apply Lp in Mp. lia. * apply Ls, Ms; auto.
  - left. destruct (Sp p St eq_refl) as (P1 & P2 & P3). apply Two in P3. injection H as <- _. cbn [nm get_node_name]. split; [repeat split; auto|].
    intros q (Q1 & Q2 & [[A B]|[A B]]); [apply Lp, Mp; auto|]. elim Q1; now apply Ms.
  - left. destruct (Ss s St eq_refl) as (S1 & S2 & S3). apply Two in S3. injection H as <- _. cbn [nm get_node_name]. split; [repeat split; auto|].
    intros q (Q1 & Q2 & [[A B]|[A B]]); [|apply Ls, Ms; auto]. elim Q1; now apply Mp.
  - right. split; [|exact H]. intros q (Q1 & Q2 & [[A B]|[A B]]); [elim Q1; now apply Mp|elim Q1; now apply Ms].
Qed.
Print Assumptions C40_longest.
Example C40_longest_example : forall c, exists n, derive_virtual_name [mkName "minAngle" NsNone; mkName "maxAngle" NsNone] true c = Ok (n, c) /\ nm n = "angle"
  /\ derive_mutal_prefix ["minAngle"; "maxAngle"] = Some "m".
Proof. intros c. eexists. repeat split. Qed.

(** C41 *)
Theorem C41_cleanup_docs : forall s : string, exists words,
  wordy (utf8_chars s) words
  /\ cleanup_docs s = String.concat " " (map concat_str words)
  /\ wordy (utf8_chars (cleanup_docs s)) words
  /\ cleanup_docs (cleanup_docs s) = cleanup_docs s
  /\ (forall c r, utf8_chars (cleanup_docs s) = c :: r -> char_is_whitespace c = false)
  /\ (forall c r, utf8_chars (cleanup_docs s) = r ++ [c] -> char_is_whitespace c = false).
Proof. exact docs. Qed.
Print Assumptions C41_cleanup_docs.

(** A text has only one division into words. *)
Theorem C41_words_unique : forall cs w1 w2, wordy cs w1 -> wordy cs w2 -> w1 = w2.
Proof. exact wordy_det. Qed.
Print Assumptions C41_words_unique.

Example C41_example : cleanup_docs ("  two" +++ String (ascii_of_nat 10) "   words ") = "two words".
Proof. reflexivity. Qed.

(** C42 *)
Theorem C42_closure : forall (L : Libs) fuel (s : schema) start already p already',
  generate_element_and_dependencies fuel s start already = Ok (p, already') ->
  exists todo,
    Forall2 (fun x t => generate_element fuel (s_context s) x = Ok t) todo p
    /\ NoDup todo
    /\ (forall x, In x todo <-> reachable (s_dependencies s) start x /\ ~ In x already)
    /\ (forall x, In x already' <-> In x already \/ reachable (s_dependencies s) start x).
Proof. exact @generate_deps_sound. Qed.
Print Assumptions C42_closure.

(** The loop ends on every graph, cyclic ones included. *)
Theorem C42_terminates : forall deps start already,
  exists n, forall fuel, n <= fuel -> exists r, closure_names fuel deps start already = Some r.
Proof. exact closure_total. Qed.
Print Assumptions C42_terminates.

Example C42_example :
  let a := mkName "a" NsNone in let b := mkName "b" NsNone in
  let c := mkName "c" NsNone in let d := mkName "d" NsNone in
  closure_names 10 [(a, [b; c]); (b, [a; c]); (d, [a])] a [c] = Some ([a; b], [c; a; b]).
Proof. reflexivity. Qed.
