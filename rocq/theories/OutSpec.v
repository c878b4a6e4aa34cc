(** * OutSpec: how large a value is (C87) *)
From Verif Require Import Base Libs Xml Ast Gen Run.

(** The number of values in a value, itself included. *)
Fixpoint nodes (v : value) : nat :=
  match v with
  | VSome v | VTuple v | VChoice _ v => S (nodes v)
  | VVec vs => S (list_sum (map nodes vs))
  | VStruct fs => S (list_sum (map (fun f => nodes (snd f)) fs))
  | _ => 1
  end.
