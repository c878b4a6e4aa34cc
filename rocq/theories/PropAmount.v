(** * C85: no more types than elements in the schema files *)
From Verif Require Import Base Libs Xml Ast XsdNode Parse Gen ParseSpec EndlessSpec EndlessProof CostSpec AmountSpec AmountProof Harness Samples PropDecode.
From Coq Require Import Lia.

(** C85. What an accepted schema is made of is at most as much as its files have elements
    (without the schema elements themselves): types, parts of types, and uses of a type in a
    type. The files are counted as often as they are opened, and which ones are opened is
    determined by the includes and imports in them. *)
Theorem C85_amount : forall (L : Libs) fuel f path s,
  parse_file fuel f path = Ok s ->
  exists ds, opened f path ds /\ (forall ds', opened f path ds' -> ds' = ds)
    /\ length ds + length (sc_elements (s_context s)) <= elements ds
    /\ length ds + all_parts (sc_elements (s_context s)) <= elements ds
    /\ length ds + all_uses (s_dependencies s) <= elements ds.
Proof.
  intros L fuel f path s H. destruct (file_amount fuel f path None s H) as (ds & O & T & F & D). exists ds. split; [exact O|]. split; [now apply opened_unique|].
  cbn [shared_default sh_dependencies all_uses map list_sum fold_right] in D. split; [exact T|]. split; [exact F|]. lia.
Qed.
Print Assumptions C85_amount.

(** So is the number of generated items. *)
Theorem C85_items : forall (L : Libs) fuel gfuel f path s p,
  parse_file fuel f path = Ok s -> generate_all gfuel s = Ok p ->
  forall ds, opened f path ds -> length ds + length p <= elements ds.
Proof.
  intros L fuel gfuel f path s p H G ds O. destruct (C85_amount L fuel f path s H) as (ds' & _ & U & T & _). rewrite (U ds O).
  unfold generate_all in G. apply mapM_len in G. lia.
Qed.
Print Assumptions C85_items.

(** One file without includes. *)
Theorem C85_one_file : forall (L : Libs) fuel f path d s,
  fs_read f path = Some (Some d) -> no_loads d -> parse_file fuel f path = Ok s ->
  length (sc_elements (s_context s)) < size d /\ all_parts (sc_elements (s_context s)) < size d /\ all_uses (s_dependencies s) < size d.
Proof.
  intros L fuel f path d s R N H. destruct (C85_amount L fuel f path s H) as (ds & _ & U & B).
  assert (O : forall cs dir, (forall c, In c cs -> ~ is_load c) -> opened_in f dir cs []).
  { induction cs as [|c cs IH]; intros dir K; constructor; [apply K; now left|]. apply IH. intros x Hx. apply K. now right. }
  rewrite <- (U [d]) in B; [|constructor; [exact R|now apply O]]. unfold elements in B. cbn [map list_sum fold_right length] in B. lia.
Qed.
Print Assumptions C85_one_file.

(** As many as that: every element of this file but the first makes a type. *)
Definition ex_flat : xelem := xschema [] [xtyped "a" "xs:string"; xtyped "b" "xs:int"; xtyped "c" "xs:date"].
Example C85_reached : exists s, parse_doc ex_flat = Ok s /\ S (length (sc_elements (s_context s))) = size ex_flat.
Proof. eexists. split; [by_compute|by_compute]. Qed.

(** Types and their parts together may be more: a sequence in a sequence makes a type and a
    field for it. *)
Definition ex_deep : xelem := xschema [] [xelement [at_ "name" "a"] [xcomplex [xsequence
  [xtyped "b" "xs:int"; xsequence [xtyped "c" "xs:int"; xsequence [xtyped "d" "xs:int"; xsequence [xtyped "e" "xs:int"; xsequence [xtyped "f" "xs:int"; xsequence [xtyped "g" "xs:int"]]]]]]]]].
Theorem C85_together_refuted : exists (L : Libs) fuel f path d s,
  fs_read f path = Some (Some d) /\ no_loads d /\ parse_file fuel f path = Ok s
  /\ size d < length (sc_elements (s_context s)) + all_parts (sc_elements (s_context s)).
Proof.
  exists ascii_libs, 40, (list_fs [("m.xsd", ex_deep)]), "m.xsd", ex_deep.
  eexists. split; [reflexivity|]. split.
  { intros c [<-|[]] [K|K]; discriminate K. }
  split; [vm_compute; reflexivity|]. vm_compute. lia.
Qed.
Print Assumptions C85_together_refuted.

(** Two files, the second one included twice. *)
Definition ex_files : list (string * xelem) :=
  [("a.xsd", xschema [] [xs "include" [at_ "schemaLocation" "b.xsd"] [];
      xelement [at_ "name" "x"] [xcomplex [xsequence [xtyped "y" "t:u"; xs "choice" [] [xtyped "p" "xs:int"; xtyped "q" "xs:date"]]; xs "attribute" [at_ "name" "k"; at_ "type" "xs:string"] []]];
      xs "include" [at_ "schemaLocation" "b.xsd"] []]);
   ("b.xsd", xschema [at_ "targetNamespace" "urn:t"] [xs "simpleType" [at_ "name" "u"] [xs "restriction" [at_ "base" "xs:string"] [xs "enumeration" [at_ "value" "one"] []; xs "enumeration" [at_ "value" "two"] []]]])].
Example C85_example : exists s ds, parse_file 40 (list_fs ex_files) "a.xsd" = Ok s /\ opened (list_fs ex_files) "a.xsd" ds
  /\ length ds = 3 /\ elements ds = 21
  /\ length (sc_elements (s_context s)) = 3 /\ all_parts (sc_elements (s_context s)) = 7 /\ all_uses (s_dependencies s) = 2.
Proof.
  destruct (parse_file 40 (list_fs ex_files) "a.xsd") as [s| | |] eqn:E; try (vm_compute in E; discriminate E).
  destruct (C85_amount ascii_libs _ _ _ _ E) as (ds & O & U & _). exists s, ds. split; [reflexivity|]. split; [exact O|].
  set (b := xschema [at_ "targetNamespace" "urn:t"] [xs "simpleType" [at_ "name" "u"] [xs "restriction" [at_ "base" "xs:string"] [xs "enumeration" [at_ "value" "one"] []; xs "enumeration" [at_ "value" "two"] []]]]).
  assert (Ob : opened (list_fs ex_files) "b.xsd" [b]).
  { apply op_file; [reflexivity|]. apply oi_other; [intros [K|K]; discriminate K|apply oi_nil]. }
  destruct (aget String.eqb "a.xsd" ex_files) as [a|] eqn:Ea; [|discriminate Ea].
  assert (Oa : opened (list_fs ex_files) "a.xsd" (a :: [b] ++ [b] ++ [])).
  { apply op_file; [cbn [list_fs fs_read]; now rewrite Ea|]. vm_compute in Ea. injection Ea as <-. change (fs_parent (list_fs ex_files) "a.xsd") with "".
    change (xsd_children ?d) with (elems_of (xe_kids d)). cbn [xe_kids elems_of].
    eapply oi_load; [now left|now apply EndlessProof.lookup_last|exact Ob|]. apply oi_other; [intros [K|K]; discriminate K|].
    eapply oi_load; [now left|now apply EndlessProof.lookup_last|exact Ob|]. apply oi_nil. }
  rewrite <- (U _ Oa). vm_compute in Ea. injection Ea as <-. split; [reflexivity|]. split; [by_compute|].
  vm_compute in E. injection E as <-. split; [by_compute|]. split; by_compute.
Qed.
