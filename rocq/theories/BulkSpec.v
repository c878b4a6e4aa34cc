(** * BulkSpec: how long a text of tokens is (C86) *)
From Verif Require Import Base Libs Xml Ast XsdNode Parse Gen Emit.

(** The number of tokens; a group counts its two delimiters and what is in it. *)
Fixpoint toks (t : tok) : nat :=
  match t with
  | Gr _ l => 2 + list_sum (map toks l)
  | _ => 1
  end.
Definition bulk (l : list tok) : nat := list_sum (map toks l).
(** The number of namespaces of a schema. *)
Definition namespaces_of (c : schema_ctx) : nat := length (by_id (sc_namespaces c)).
