(** * AmountSpec: how much a schema file says, and how much is made of it (C85) *)
From Verif Require Import Base Libs Xml Ast XsdNode Parse ParseSpec EndlessSpec CostSpec.

(** ** What is opened
    The documents read for the file [p]: its own, and for each include or import in it, from
    the first to the last, the ones read for that file. A file included twice is there twice. *)
Inductive opened (f : fs) : string -> list xelem -> Prop :=
| op_file p d ds : fs_read f p = Some (Some d) -> opened_in f (fs_parent f p) (xsd_children d) ds -> opened f p (d :: ds)
with opened_in (f : fs) : string -> list xelem -> list xelem -> Prop :=
| oi_nil dir : opened_in f dir [] []
| oi_load dir c cs a ds ds' : is_load c -> last_attr c "schemaLocation" a ->
    opened f (fs_push f dir (at_value a)) ds -> opened_in f dir cs ds' -> opened_in f dir (c :: cs) (ds ++ ds')
| oi_other dir c cs ds : ~ is_load c -> opened_in f dir cs ds -> opened_in f dir (c :: cs) ds.
(** The number of elements of these documents ([size] counts the elements of one). *)
Definition elements (ds : list xelem) : nat := list_sum (map size ds).

(** ** What is made *)
(** The parts of a type: its values, or its variants, or its attributes and what it contains,
    and the restrictions on its text. *)
Definition parts (r : root) : nat :=
  match r with
  | RootLeaf d => length (ld_restrictions d)
  | RootEnum ns => length ns
  | RootElement e => length (ed_attributes e)
      + match ed_content e with None => 0 | Some (EcLeaf _ d) => 1 + length (ld_restrictions d) | Some (EcLeaves ls) => length ls end
  | RootChoice c => length (cd_variants c)
  end.
Definition all_parts (l : list (name * root)) : nat := list_sum (map (fun x => parts (snd x)) l).
(** The pairs of a type and a type it uses. *)
Definition all_uses (l : list (name * list name)) : nat := list_sum (map (fun x => length (snd x)) l).
