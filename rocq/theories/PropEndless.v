(** * C29, exactly: when reading files with includes comes to an end *)
From Verif Require Import Base Libs Xml Ast XsdNode Parse Gen ParseSpec EndlessSpec EndlessProof Harness Samples PropDecode PropParse.

(** Whatever is accepted has no endless chain of includes, and everything that can
    be reached by includes is a schema. *)
Theorem C29_accepted : forall (L : Libs) fuel f path s,
  parse_file fuel f path = Ok s ->
  ~ endless f path /\ Acc (fun q p => refers f p q) path /\ (forall q, reaches f path q -> is_schema_file f q).
Proof.
  intros L fuel f path s E. assert (A := accepted_end _ _ _ _ _ E). split; [now apply acc_not_endless|]. split; [exact A|].
  intros q Q. destruct (accepted_reach _ _ _ _ _ E q Q) as (n & sh & s' & E'). now apply (accepted_step _ _ _ _ _ E').
Qed.
Print Assumptions C29_accepted.
(** So with an endless chain no schema is ever returned. *)
Theorem C29_endless : forall (L : Libs) f path, endless f path -> forall fuel s, parse_file fuel f path <> Ok s.
Proof. intros L f path H fuel s E. now apply (C29_accepted L) in E. Qed.
Print Assumptions C29_endless.

(** Reading comes to an end exactly if files are opened inside of files only
    finitely often. *)
Theorem C29_exact : forall (L : Libs) f path,
  settles (fun fuel => parse_file fuel f path) <-> visits_end f (path, None).
Proof. exact @settles_exact. Qed.
Print Assumptions C29_exact.
(** If one file is opened while another one is read, and so on for ever, nothing is returned. *)
Theorem C29_diverges : forall (L : Libs) f path (chain : nat -> visit),
  chain 0 = (path, None) -> (forall n, enters f (chain n) (chain (S n))) ->
  forall fuel, parse_file fuel f path = OutOfFuel.
Proof. intros L f path ch E K fuel. pose proof (diverges f ch K fuel) as D. rewrite E in D. exact D. Qed.
Print Assumptions C29_diverges.
(** A result, if there is one, does not depend on how much recursion was allowed. *)
Theorem C29_one_result : forall (L : Libs) f path n m,
  parse_file n f path <> OutOfFuel -> parse_file m f path <> OutOfFuel -> parse_file n f path = parse_file m f path.
Proof.
  intros L f path n m N M. unfold parse_file in *. destruct (Nat.le_ge_cases n m) as [H|H].
  - symmetry. now apply file_mono.
  - now apply file_mono.
Qed.
Print Assumptions C29_one_result.

(** Two files that include each other. *)
Definition ex_mutual (front : list xelem) : list (string * xelem) :=
  [("a.xsd", xschema [] (front ++ [xs "include" [at_ "schemaLocation" "b.xsd"] []]));
   ("b.xsd", xschema [] [xtyped "y" "xs:int"; xs "import" [at_ "schemaLocation" "a.xsd"] []])].
Lemma last_single e a n : xe_attrs e = [a] -> at_name a = n -> last_attr e n a.
Proof. intros E K. exists [], []. split; [exact E|]. split; [exact K|intros b []]. Qed.
Lemma ex_endless front : Forall (fun c => xe_ns c = Some NS_XSD) front -> endless (list_fs (ex_mutual front)) "a.xsd".
Proof.
  intros F. exists (fun n => if Nat.even n then "a.xsd" else "b.xsd"). split; [reflexivity|]. intros n.
  rewrite Nat.even_succ, <- Nat.negb_even. destruct (Nat.even n); simpl.
  - eexists. exists (xs "include" [at_ "schemaLocation" "b.xsd"] []), (at_ "schemaLocation" "b.xsd").
    split; [reflexivity|]. split; [reflexivity|]. split; [reflexivity|]. split.
    { unfold xsd_children. apply filter_In. split; [|reflexivity]. unfold xe_children. simpl xe_kids.
      apply elems_of_In, in_map, in_or_app. right. now left. }
    split; [now left|]. split; [now apply last_single|reflexivity].
  - eexists. exists (xs "import" [at_ "schemaLocation" "a.xsd"] []), (at_ "schemaLocation" "a.xsd").
    split; [reflexivity|]. split; [reflexivity|]. split; [reflexivity|]. split; [right; now left|].
    split; [now right|]. split; [now apply last_single|reflexivity].
Qed.
Example C29_endless_example : forall fuel s, parse_file fuel (list_fs (ex_mutual [xtyped "x" "xs:string"])) "a.xsd" <> Ok s.
Proof. apply C29_endless, ex_endless. repeat constructor. Qed.
(** With an error in front of the include, the error is returned in spite of the cycle. *)
Example C29_error_first :
  endless (list_fs (ex_mutual [xelement [at_ "name" "x"; at_ "abstract" "true"] []])) "a.xsd"
  /\ parse_file 40 (list_fs (ex_mutual [xelement [at_ "name" "x"; at_ "abstract" "true"] []])) "a.xsd"
     = Err (SeXsd (XeNode (NeUnsupportedAttribute "abstract" "element" r0)) "a.xsd")
  /\ visits_end (list_fs (ex_mutual [xelement [at_ "name" "x"; at_ "abstract" "true"] []])) ("a.xsd", None).
Proof.
  split; [apply ex_endless; repeat constructor|]. split; [by_compute|].
  apply (not_out_ends (L := ascii_libs) _ 40). intros E. vm_compute in E. discriminate E.
Qed.
(** A diamond: the same file included twice is no cycle, and accepted. *)
Definition ex_diamond : list (string * xelem) :=
  [("a.xsd", xschema [] [xs "include" [at_ "schemaLocation" "b.xsd"] []; xs "include" [at_ "schemaLocation" "c.xsd"] []]);
   ("b.xsd", xschema [] [xs "include" [at_ "schemaLocation" "c.xsd"] []]);
   ("c.xsd", xschema [] [xtyped "y" "xs:int"])].
Example C29_accepted_example : (exists s, parse_file 40 (list_fs ex_diamond) "a.xsd" = Ok s)
  /\ ~ endless (list_fs ex_diamond) "a.xsd".
Proof.
  assert (E : exists s, parse_file 40 (list_fs ex_diamond) "a.xsd" = Ok s) by (eexists; by_compute).
  split; [exact E|]. destruct E as [s E]. now apply (C29_accepted ascii_libs) in E.
Qed.
