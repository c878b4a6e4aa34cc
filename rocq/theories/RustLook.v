(** * RustLook: which nested groups are asked whether they start here *)
From Verif Require Import Base Libs Xml Ast.

(** [lookahead] is called for every nested group of a choice, for optional and repeated
    groups of a sequence, and for those before which everything is optional. *)
Inductive looked : root -> leaf -> Prop :=
| lk_variant d f : In f (cd_variants d) -> looked (RootChoice d) f
| lk_member d f ls a b : ed_content d = Some (EcLeaves ls) -> ls = a ++ f :: b ->
    (lf_is_vec f = true \/ lf_is_optional f = true) \/ (forall x, In x a -> lf_is_optional x = true) ->
    looked (RootElement d) f.
