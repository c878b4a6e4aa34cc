(** * C12 at any depth: the order of the members of xs:all *)
From Coq Require Import Permutation.
From Verif Require Import Base Libs Xml Ast XsdNode Parse Decode Gen Run Harness Samples CursorSpec
  GenSpec DecSpec ReadSpec RepSpec SimSpec DecProof1 DecProof2 SimProof PropDecode WfCheck SimCheck.

(** C12, at any depth: [e'] is [e] with the children of any elements in another order,
    provided that the types that read these elements are xs:all without optional members
    and that the names of these children differ. Missing for the full statement: optional
    members, see [C12_all_refuted]. *)
Theorem C12_deep_partial : forall (L : Libs) gfuel c gs p n id e e',
  generated gfuel c gs p -> In n gs -> type_ident n = Ok id -> reordered c gs e e' -> agree p id e e'.
Proof.
  intros L gfuel c gs p n id e e' G I Ei E. apply (similar_agree gfuel c gs p n id e e' G I Ei).
  exact (reordered_similar c gs e e' E).
Qed.
Print Assumptions C12_deep_partial.

(** An xs:all within a repeated element of a sequence, and one of a named type within it. *)
Definition ex_deep : xelem :=
  xschema [] [xelement [at_ "name" "p"] [xcomplex [xsequence
    [xtyped "h" "xs:int";
     xelement ([at_ "name" "q"] ++ occ "1" "unbounded") [xcomplex [xs "all" []
       [xtyped "x" "xs:int"; xtyped "y" "Inner"; xtyped "z" "xs:int"]]]]]];
   xs "complexType" [at_ "name" "Inner"] [xs "all" [] [xtyped "u" "xs:string"; xtyped "v" "xs:int"]]].
Definition q_of (x u v z : string) : list xelem := [txt "x" x; el "y" [] [txt "u" u; txt "v" v]; txt "z" z].
Definition deep_doc : xelem := el "p" [] [txt "h" "0"; el "q" [] (q_of "1" "a" "2" "3"); el "q" [] (q_of "4" "b" "5" "6")].
Definition deep_doc' : xelem := el "p" [] [txt "h" "0";
  el "q" [] [el "y" [] [txt "v" "2"; txt "u" "a"]; txt "z" "3"; txt "x" "1"];
  el "q" [] [txt "z" "6"; txt "x" "4"; el "y" [] [txt "u" "b"; txt "v" "5"]]].
Definition deep_value : value := VStruct [("h", VInt 0); ("q", VVec
  [VStruct [("x", VInt 1); ("y", VStruct [("u", VStr "a"); ("v", VInt 2)]); ("z", VInt 3)];
   VStruct [("x", VInt 4); ("y", VStruct [("u", VStr "b"); ("v", VInt 5)]); ("z", VInt 6)]])].

Ltac no_dup := repeat constructor; simpl; intuition discriminate.
Example C12_deep_example :
  generated 40 (ctx_of ex_deep) (names_of ex_deep) (module_of ex_deep)
  /\ reordered (ctx_of ex_deep) (names_of ex_deep) deep_doc deep_doc' /\ deep_doc <> deep_doc'
  /\ read_with ex_deep "P" deep_doc = Some (Ok deep_value)
  /\ read_with ex_deep "P" deep_doc' = Some (Ok deep_value).
Proof.
  assert (Aq : all_name (ctx_of ex_deep) (names_of ex_deep) "q" None) by (apply all_name_ok; by_compute).
  assert (Ay : all_name (ctx_of ex_deep) (names_of ex_deep) "y" None) by (apply all_name_ok; by_compute).
  split; [split; [by_compute|apply nodupb_NoDup; by_compute]|].
  split; [|split; [discriminate|split; by_compute]].
  unfold deep_doc, deep_doc', q_of. apply ro_inside; [simpl; constructor; [apply ro_same|constructor; [|constructor; [|constructor]]]|reflexivity].
  - apply (ro_all _ _ "q" None _ _ _ _ _ [txt "x" "1"; el "y" [] [txt "v" "2"; txt "u" "a"]; txt "z" "3"]); auto; try no_dup.
    + simpl. repeat (apply Forall2_cons; [try apply ro_same|]); [|apply Forall2_nil].
      apply (ro_all _ _ "y" None _ _ _ _ _ [txt "u" "a"; txt "v" "2"]); auto; try no_dup.
    + simpl. apply (Permutation_app_comm [txt "x" "1"] [_; _]).
  - apply (ro_all _ _ "q" None _ _ _ _ _ (q_of "4" "b" "5" "6")); auto; try no_dup.
    apply (Permutation_app_comm [_; _] [txt "z" "6"]).
Qed.
