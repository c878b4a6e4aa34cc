(** * LocalSpec: declarations of a schema document on their own *)
From Coq Require Import Permutation.
From Verif Require Import Base Libs Xml Ast XsdNode Parse ParseSpec DeclSpec.

(** The schema document that has [x] as its only declaration. *)
Definition alone (d x : xelem) : xelem :=
  XE (xe_tag d) (xe_ns d) (xe_attrs d) (xe_nss d) (xe_range d) [KElem x].
(** The same schema element with the declarations in another order. *)
Definition reordered (d d' : xelem) : Prop :=
  xe_tag d = xe_tag d' /\ xe_ns d = xe_ns d' /\ xe_attrs d = xe_attrs d' /\ xe_nss d = xe_nss d'
  /\ Permutation (xsd_children d) (xsd_children d').
(** Prefixes stand for the schema language or for the target namespace of the document. *)
Definition own_prefixes (d : xelem) : Prop :=
  forall p uri, binds d (Some p) uri -> uri = NS_XSD \/ exists a, the_attr d "targetNamespace" a /\ at_value a = uri.

Section WithLibs.
Context {L : Libs}.
(** [x], as the only declaration of [d], makes a type named [n]. *)
Definition makes (fuel : nat) (f : fs) (path : string) (d x : xelem) (n : name) (r : root) : Prop :=
  exists s, schema_parse fuel f (Some (alone d x)) path = Ok s /\ sc_get (s_context s) n = Some r.
(** No two declarations make types of the same name. *)
Definition no_collisions (fuel : nat) (f : fs) (path : string) (d : xelem) : Prop :=
  forall l1 x l2 y l3 n r r', xsd_children d = l1 ++ x :: l2 ++ y :: l3 ->
    makes fuel f path d x n r -> ~ makes fuel f path d y n r'.
End WithLibs.
(** [m] is recorded as used by [n]. *)
Definition uses (s : schema) (n m : name) : Prop :=
  exists l, aget name_eqb n (s_dependencies s) = Some l /\ In m l.
