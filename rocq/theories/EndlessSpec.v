(** * EndlessSpec: chains of includes, exactly

    For the exact form of C29. [includes] of ParseSpec.v looks at every attribute
    whose local name is schemaLocation; here the one the parser looks up. *)
From Verif Require Import Base Libs Xml Ast XsdNode Parse ParseSpec.

(** [a] is the last attribute of [e] with the given local name. *)
Definition last_attr (e : xelem) (n : string) (a : attr) : Prop :=
  exists l1 l2, xe_attrs e = l1 ++ a :: l2 /\ at_name a = n /\ forall b, In b l2 -> at_name b <> n.
(** The file at [p] is a schema. *)
Definition is_schema_file (f : fs) (p : string) : Prop :=
  exists d, fs_read f p = Some (Some d) /\ xe_ns d = Some NS_XSD /\ xe_tag d = "schema".
(** The schema at [p] includes or imports [q]. *)
Definition refers (f : fs) (p q : string) : Prop :=
  exists d c a, fs_read f p = Some (Some d) /\ xe_ns d = Some NS_XSD /\ xe_tag d = "schema"
    /\ In c (xsd_children d) /\ is_load c /\ last_attr c "schemaLocation" a
    /\ q = fs_push f (fs_parent f p) (at_value a).
(** [q] is [p] or can be reached from it. *)
Inductive reaches (f : fs) (p : string) : string -> Prop :=
| rc_self : reaches f p p
| rc_step q r : reaches f p q -> refers f q r -> reaches f p r.
(** An endless chain of includes, beginning with [p]. *)
Definition endless (f : fs) (p : string) : Prop :=
  exists chain : nat -> string, chain 0 = p /\ forall n, refers f (chain n) (chain (S n)).

(** ** Where reading gets to *)
Section WithLibs.
Context {L : Libs}.
(** A file about to be read, and what has been collected before. *)
Definition visit : Type := string * option shared_ctx.
Definition loader (fuel : nat) (f : fs) : string -> shared_ctx -> res schema_err schema :=
  fun p s => parse_file_with_context fuel f p (Some s).
(** The context in which the declarations of the schema [d] are read. *)
Definition start_ctx (d : xelem) (sh : option shared_ctx) : ctx :=
  ctx_new d (option_map at_value (fst (n_attribute (node_of d) "targetNamespace")))
    (match sh with Some s => s | None => shared_default end).
(** While reading the first file, the second one is opened: everything in front of
    the include was read without an error. *)
Definition enters (f : fs) (v w : visit) : Prop :=
  exists d pre x post a fuel c,
    fs_read f (fst v) = Some (Some d) /\ xe_ns d = Some NS_XSD /\ xe_tag d = "schema"
    /\ n_children (node_of d) NS_XSD = pre ++ x :: post
    /\ is_load (n_elem x) /\ last_attr (n_elem x) "schemaLocation" a
    /\ schema_children fuel (loader fuel f) f (fs_parent f (fst v)) pre (start_ctx d (snd v)) = Ok c
    /\ w = (fs_push f (fs_parent f (fst v)) (at_value a), Some (cx_shared c)).
(** Files are opened inside of files only finitely often. *)
Definition visits_end (f : fs) (v : visit) : Prop := Acc (fun w v => enters f v w) v.
End WithLibs.
