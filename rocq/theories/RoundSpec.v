(** * RoundSpec: notions for the theorems on writing and reading back *)
From Verif Require Import Base Libs Xml Ast Decode Gen Run DecSpec RepSpec WfSpec WfCheck LlSpec.

(** Eventually, with enough fuel. *)
Definition yields {A} (run : nat -> A) (o : A) : Prop := exists N, forall fuel, N <= fuel -> run fuel = o.

(** The elements occurring in the contents of the generated types. *)
Definition schema_element {L : Libs} (c : schema_ctx) (gs : list name) (tag : string) (ns : option string) : Prop :=
  exists n r f, In n gs /\ sc_get c n = Some r /\ In f (leaves_of r) /\ lf_virtual f = false
    /\ nm (lf_name f) = tag /\ quote_xml_namespace c (lf_name f) = Some ns.
(** All descendants of an element are such elements. *)
Inductive all_schema {L : Libs} (c : schema_ctx) (gs : list name) : xelem -> Prop :=
| as_ e : (forall x, In x (xe_children e) -> schema_element c gs (xe_tag x) (xe_ns x) /\ all_schema c gs x) -> all_schema c gs e.

(** Groups whose lookahead looks for everything they can start with; groups nested
    [k] deep at most. *)
Definition sees_starts {L : Libs} (c : schema_ctx) (gs : list name) (k : nat) (m : name) : bool :=
  match glooks c gs k m, gstart c gs true k m with
  | Some lk, Some (fi, _) => subset fi lk
  | _, _ => false
  end.
