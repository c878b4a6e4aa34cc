(** * C01-C04: the child cursor and text of decode::Node *)
From Coq Require Import Permutation.
From Verif Require Import Base Xml Decode CursorSpec CursorProof.

(** C01: any history of calls answers as on the plain list of the children not
    yet taken; nothing is lost, duplicated or reordered. *)
Theorem C01_cursor_is_list : forall (e : xelem) (h : list call),
  exists rest, spec_run h (xe_children e) (fst (api_run h (children_new e))) rest
    /\ Permutation (taken (fst (api_run h (children_new e))) ++ rest) (xe_children e)
    /\ sublist rest (xe_children e).
Proof. exact cursor_is_list. Qed.
Print Assumptions C01_cursor_is_list.

(** Three children, a history that mixes all calls: peek a, skip to c, then a, b. *)
Definition ex_el (t : string) : xelem := XE t None [] [] (0%N, 0%N) [].
Example C01_example :
  fst (api_run [CPeek "a" None; CChild "c" None; CNext "b" None; CNext "a" None; CNext "b" None]
         (children_new (with_children [ex_el "a"; ex_el "b"; ex_el "c"])))
  = [ABool true; AElem (Some (ex_el "c")); AElem None; AElem (Some (ex_el "a")); AElem (Some (ex_el "b"))].
Proof. reflexivity. Qed.

(** The [try_] calls among others; a failed one leaves the children where they were. *)
Example C01_try_example :
  fst (api_run [CTryNext "b" (Some "u"); CTryChild "b" None; CTryChild "z" None; CTryNext "a" None; CTryNext "c" None]
         (children_new (with_children [ex_el "a"; ex_el "b"; ex_el "c"])))
  = [ATry (Err (FeMissingElement "b" (Some "u"))); ATry (Ok (ex_el "b")); ATry (Err (FeMissingElement "z" None));
     ATry (Ok (ex_el "a")); ATry (Ok (ex_el "c"))].
Proof. reflexivity. Qed.

(** C02: a peek inserted anywhere changes no other answer. *)
Theorem C02_peek_unobservable : forall (e : xelem) (h1 h2 : list call) n ns,
  exists a1 a2 b,
    length a1 = length h1
    /\ fst (api_run (h1 ++ h2) (children_new e)) = a1 ++ a2
    /\ fst (api_run (h1 ++ CPeek n ns :: h2) (children_new e)) = a1 ++ ABool b :: a2.
Proof. exact peek_unobservable. Qed.
Print Assumptions C02_peek_unobservable.

Example C02_example :
  let e := with_children [ex_el "a"; ex_el "b"; ex_el "c"] in
  fst (api_run [CChild "c" None; CNext "a" None] (children_new e))
    = [AElem (Some (ex_el "c")); AElem (Some (ex_el "a"))]
  /\ fst (api_run [CChild "c" None; CPeek "a" None; CNext "a" None] (children_new e))
    = [AElem (Some (ex_el "c")); ABool true; AElem (Some (ex_el "a"))].
Proof. split; reflexivity. Qed.

(** C03: [child] takes the first match wherever it stands; the cursor then
    behaves like a new one on the other children, in their order. *)
Theorem C03_child_takes_first : forall (e : xelem) (h : list call) n ns,
  let before := api_run h (children_new e) in
  let after := child n ns (snd before) in
  exists rest,
    Permutation (taken (fst before) ++ rest) (xe_children e)
    /\ sublist rest (xe_children e)
    /\ (forall h2, fst (api_run h2 (snd before)) = fst (api_run h2 (children_new (with_children rest))))
    /\ match fst after with
       | Some x => exists l1 l2, rest = l1 ++ x :: l2 /\ matches n ns x
                     /\ Forall (fun y => ~ matches n ns y) l1
                     /\ forall h2, fst (api_run h2 (snd after))
                                   = fst (api_run h2 (children_new (with_children (l1 ++ l2))))
       | None => Forall (fun y => ~ matches n ns y) rest
                 /\ forall h2, fst (api_run h2 (snd after)) = fst (api_run h2 (snd before))
       end.
Proof. exact child_takes_first. Qed.
Print Assumptions C03_child_takes_first.

(** After a peek the head sits in [next], after a skip two children sit in
    [peeked]: [child] still finds the third. *)
Example C03_example :
  let s := snd (api_run [CPeek "x" None; CChild "d" None]
                  (children_new (with_children [ex_el "a"; ex_el "b"; ex_el "c"; ex_el "d"]))) in
  ch_next s = Some (ex_el "a") /\ ch_peeked s = [ex_el "b"; ex_el "c"]
  /\ fst (child "c" None s) = Some (ex_el "c").
Proof. repeat split; reflexivity. Qed.

(** C04, the part that holds: content made of character data only is returned
    whole, no content is the empty string. Missing for the full statement:
    content interrupted by comments or processing instructions, see
    [C04_text_whole_refuted]. *)
Theorem C04_text_whole_partial : forall e : xelem,
  texts_merged (xe_kids e) -> Forall is_text (xe_kids e) -> d_text e = Ok (all_text (xe_kids e)).
Proof. exact text_whole. Qed.
Print Assumptions C04_text_whole_partial.

Example C04_example :
  d_text (XE "a" None [] [] (0%N, 0%N) [KText "some text"]) = Ok "some text"
  /\ d_text (XE "a" None [] [] (0%N, 0%N) []) = Ok "".
Proof. split; reflexivity. Qed.

(** C04 in full (for every element without element children) is false: a comment
    in the middle cuts the text, a comment in front makes it an error. *)
Theorem C04_text_whole_refuted :
  (exists e s, no_elements e /\ texts_merged (xe_kids e) /\ d_text e = Ok s /\ s <> all_text (xe_kids e))
  /\ (exists e err, no_elements e /\ texts_merged (xe_kids e) /\ d_text e = Err err).
Proof.
  split.
  - exists (XE "a" None [] [] (0%N, 0%N) [KText "12"; KOther "comment"; KText "34"]), "12".
    repeat split. discriminate.
  - exists (XE "a" None [] [] (0%N, 0%N) [KOther "comment"; KText "34"]), (FeTextExpected "a").
    repeat split.
Qed.
Print Assumptions C04_text_whole_refuted.
