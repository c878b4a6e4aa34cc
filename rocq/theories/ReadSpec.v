(** * ReadSpec: vocabulary for the statements about decoding *)
From Verif Require Import Base Libs Xml Ast Decode Gen Run CursorSpec DecSpec.

(** The element has that expanded name. *)
Notation named := matches (only parsing).

(** [p] is the module generated for the names [gs]; type names are unique, as
    Rust demands. *)
Definition generated {L : Libs} (gfuel : nat) (c : schema_ctx) (gs : list name) (p : program) : Prop :=
  mapM (generate_element gfuel c) gs = Ok p /\ NoDup (map ti_id p).

(** The children the cursor has still to offer, in order. *)
Definition remaining (s : children) : list xelem :=
  match ch_next s with Some x => x :: ch_peeked s ++ ch_rest s | None => ch_peeked s ++ ch_rest s end.

(** The next one is (not) an element of that name. *)
Definition next_is (n : string) (ns : option string) (l : list xelem) (x : xelem) (l' : list xelem) : Prop :=
  l = x :: l' /\ matches n ns x.
Definition next_is_not (n : string) (ns : option string) (l : list xelem) : Prop :=
  forall x l', l = x :: l' -> ~ matches n ns x.

(** Split off the longest run of elements of that name. *)
Definition longest_run (n : string) (ns : option string) (l xs rest : list xelem) : Prop :=
  l = xs ++ rest /\ Forall (matches n ns) xs /\ next_is_not n ns rest.

Definition plain (l : leaf) : Prop := lf_virtual l = false.
Definition single (l : leaf) : Prop := lf_is_vec l = false.
Definition repeated (l : leaf) : Prop := lf_is_vec l = true.
Definition required (l : leaf) : Prop := lf_is_optional l = false.
Definition optional (l : leaf) : Prop := lf_is_optional l = true.
Definition ordered (l : leaf) : Prop := lf_unordered l = false.
Definition anywhere (l : leaf) : Prop := lf_unordered l = true.

(** Expanded name of a leaf. *)
Definition xname (c : schema_ctx) (l : leaf) (n : string) (ns : option string) : Prop :=
  n = nm (lf_name l) /\ quote_xml_namespace c (lf_name l) = Some ns.
Definition xnames (c : schema_ctx) (ls : list leaf) : list (string * option (option string)) :=
  map (fun l => (nm (lf_name l), quote_xml_namespace c (lf_name l))) ls.

(** The element has an attribute [n] (in no namespace) with the value [v] / has none. *)
Definition carries (e : xelem) (n v : string) : Prop :=
  exists a l1 l2, xe_attrs e = l1 ++ a :: l2 /\ at_name a = n /\ at_ns a = None /\ at_value a = v
    /\ Forall (fun b => ~ (at_name b = n /\ at_ns b = None)) l1.
Definition lacks (e : xelem) (n : string) : Prop :=
  Forall (fun b => ~ (at_name b = n /\ at_ns b = None)) (xe_attrs e).

(** Expanded name of a child; the members of an xs:all that must occur once. *)
Definition kid_name (x : xelem) : string * option string := (xe_tag x, xe_ns x).
Definition all_leaf (l : leaf) : Prop := plain l /\ single l /\ required l /\ anywhere l.

(** The same document with the children of the root in another order. *)
Definition with_kids (e : xelem) (ks : list (kid xelem)) : xelem :=
  XE (xe_tag e) (xe_ns e) (xe_attrs e) (xe_nss e) (xe_range e) ks.

(** The result of a step with the children left instead of the cursor. *)
Definition seen {E A} (o : res E (A * children)) : res E (A * list xelem) :=
  match o with
  | Ok (a, s) => Ok (a, remaining s)
  | Err x => Err x
  | Panic w => Panic w
  | OutOfFuel => OutOfFuel
  end.

(** Decoding either document ends with the same value or error, or neither ends. *)
Definition agree {L : Libs} (p : program) (id : string) (e e' : xelem) : Prop :=
  forall o, fin o -> ((exists fuel, from_xml p fuel id e = o) <-> (exists fuel, from_xml p fuel id e' = o)).
