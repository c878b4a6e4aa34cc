(** * ParseSpec: what the properties of schema parsing talk about

    Nothing here mentions a function of the parser; documents are [xelem] trees. *)
From Verif Require Import Base Libs Xml Ast XsdNode Parse.

(** [e] is the root of the document [d] or lies below it. *)
Inductive within (d : xelem) : xelem -> Prop :=
| wi_root : within d d
| wi_child e c : within d e -> In c (xe_children e) -> within d c.

(** [r] is the source range of an element or of an attribute of [d]. *)
Definition points_into (d : xelem) (r : range) : Prop :=
  exists e, within d e /\ (r = xe_range e \/ exists a, In a (xe_attrs e) /\ r = at_range a).

(** Plain ASCII text. *)
Definition ascii_only (s : string) : Prop :=
  Forall (fun c => nat_of_ascii c < 128) (list_ascii_of_string s).
(** All attribute values of the document are ASCII. *)
Definition ascii_attrs (d : xelem) : Prop :=
  forall e a, within d e -> In a (xe_attrs e) -> ascii_only (at_value a).
(** Inflector turns ASCII into ASCII. *)
Definition snake_keeps_ascii (L : Libs) : Prop :=
  forall s, ascii_only s -> ascii_only (to_snake_case s).

(** The attribute of an element with the given local name, whatever its namespace. *)
Definition has_attr (e : xelem) (n : string) (a : attr) : Prop :=
  In a (xe_attrs e) /\ at_name a = n.
Definition no_attr (e : xelem) (n : string) : Prop :=
  forall a, In a (xe_attrs e) -> at_name a <> n.

(** Children of an element in the XSD namespace. *)
Definition xsd_children (e : xelem) : list xelem :=
  filter (fun c => opt_eqb String.eqb (xe_ns c) (Some NS_XSD)) (xe_children e).

(** ** Files *)
(** Which XSD children of a schema element load another file. *)
Definition is_load (e : xelem) : Prop := xe_tag e = "include" \/ xe_tag e = "import".
Definition no_loads (d : xelem) : Prop := forall c, In c (xsd_children d) -> ~ is_load c.
(** The file at [p] includes or imports the file at [q]. *)
Definition includes (f : fs) (p q : string) : Prop :=
  exists d c a, fs_read f p = Some (Some d) /\ In c (xsd_children d) /\ is_load c
    /\ has_attr c "schemaLocation" a /\ q = fs_push f (fs_parent f p) (at_value a).
(** No endless chain of includes starts at [p]. *)
Definition includes_end (f : fs) (p : string) : Prop := Acc (fun q p => includes f p q) p.

(** Converging computations on fuel: from some point on always the same result. *)
Definition settles {E A} (f : nat -> res E A) : Prop :=
  exists bound r, r <> OutOfFuel /\ forall fuel, bound <= fuel -> f fuel = r.

(** The generator's panics about identifiers (proc_macro2 refuses the text). *)
Definition identifier_panic (w : string) : Prop :=
  exists id, w = "not a valid identifier: " +++ id \/ w = "cannot be a raw identifier: " +++ id.

(** ** Errors *)
(** The error carries a source range, and it is one of the document [d]. *)
Definition error_in (d : xelem) (e : xsd_err) : Prop :=
  exists r, xsd_err_range e = Some r /\ points_into d r.
(** Where an error of a run over several files may come from. *)
Definition error_in_files (f : fs) (e : schema_err) : Prop :=
  match e with
  | SeXsd e p => (e = XeXml /\ fs_read f p = Some None)
                 \/ exists d, fs_read f p = Some (Some d) /\ error_in d e
  | SeOpen p => fs_read f p = None
  | SeNotFound _ => False
  end.
