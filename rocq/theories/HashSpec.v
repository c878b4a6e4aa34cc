(** * HashSpec: the orders in which the generator's hash maps can be visited *)
From Coq Require Import Permutation.
From Verif Require Import Base Libs Xml Ast XsdNode Parse Writer Gen Run MergeSpec.

(** What [generate_element] can emit instead of [t]: the variants of an enumeration
    (root.rs:85-134, 421-464) and the namespace declarations (schema.rs:244-251) come out of
    hash maps. *)
Inductive same_decl : decl -> decl -> Prop :=
| sd_same d : same_decl d d
| sd_enum vs vs' : Permutation vs vs' -> same_decl (DEnum vs) (DEnum vs').
Definition same_item (t t' : titem) : Prop :=
  ti_id t = ti_id t' /\ same_decl (ti_decl t) (ti_decl t') /\ ti_xml_name t = ti_xml_name t'
  /\ Permutation (ti_nss t) (ti_nss t') /\ ti_write t = ti_write t' /\ ti_read_name t = ti_read_name t'
  /\ ti_read_ns t = ti_read_ns t' /\ ti_read t = ti_read t' /\ ti_look t = ti_look t'.
(** [generate_all] (schema.rs:152-160) moreover visits the types in any order. *)
Definition same_module (p p' : program) : Prop := exists q, Permutation p q /\ Forall2 same_item q p'.

(** No two types, enumeration literals, enumeration variants or prefixes are the same. *)
Definition distinct_literals (t : titem) : Prop :=
  forall vs, ti_decl t = DEnum vs -> NoDup (map snd vs).
Definition distinct_names (t : titem) : Prop :=
  NoDup (map fst (ti_nss t)) /\ forall vs, ti_decl t = DEnum vs -> NoDup (map fst vs).

(** Events that differ in the order of namespace declarations (which xml-rs sorts). *)
Inductive same_event : event -> event -> Prop :=
| se_start n ats nss nss' : Permutation nss nss' -> NoDup (map fst nss) -> same_event (EvStart n ats nss) (EvStart n ats nss')
| se_end : same_event EvEnd EvEnd
| se_chars s : same_event (EvChars s) (EvChars s).
Definition same_output (r r' : res unit (list event)) : Prop :=
  match r, r' with
  | Ok l, Ok l' => Forall2 same_event l l'
  | Err _, Err _ => True
  | Panic w, Panic w' => w = w'
  | OutOfFuel, OutOfFuel => True
  | _, _ => False
  end.

(** The modules the macro can emit for a file: those generated when every hash map is
    visited in some order. *)
Definition emits {L : Libs} (fuel gfuel : nat) (f : fs) (path : string) (p : program) : Prop :=
  exists ord s q, shuffles ord /\ parse_file_in_order ord fuel f path None = Ok s
    /\ generate_all gfuel s = Ok q /\ same_module q p.
