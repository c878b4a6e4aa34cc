(** * DepthSpec: how deep the generated functions call each other

    A specification for C83. The interpreter of Run.v counts calls and rounds of loops with
    one number. Here they are counted apart: [rounds] bounds every loop, [depth] is the number
    of calls of generated functions that may be open at once, which is what a stack has to hold. *)
From Verif Require Import Base Libs Xml Ast Decode Gen Run.

Section Depth.
Context {L : Libs}.
Variables (p : program) (rounds : nat).
Fixpoint look_within (depth : nat) (id : string) (c : children) : R (bool * children) :=
  match depth with
  | O => OutOfFuel
  | S depth =>
      match lookup_item p id with
      | None => Panic "unknown type"
      | Some t => match ti_look t with LkTrue => Ok (true, c) | LkOr l => run_lk real_ops (look_within depth) l c end
      end
  end.
Fixpoint node_within (depth : nat) (id : string) (e : xelem) (c : children) : R (value * children) :=
  match depth with
  | O => OutOfFuel
  | S depth =>
      match lookup_item p id with
      | None => Panic "unknown type"
      | Some t => run_body real_ops p (node_within depth) (look_within depth) rounds t e c
      end
  end.
Definition from_xml_within (depth : nat) (id : string) (root : xelem) : R value :=
  match lookup_item p id with
  | None => Panic "unknown type"
  | Some t =>
      e <- doc_try_child root (ti_read_name t) (ti_read_ns t) ;;
      '(v, _) <- node_within depth id e (children_new e) ;; Ok v
  end.
End Depth.

(** The types whose functions a type calls on the same element: groups, extended types, aliases. *)
Definition rx_types (x : rx) : list string := match x with RxCall id => [id] | _ => [] end.
Definition fr_here (f : fr) : list string :=
  match f with
  | FrHere x => rx_types x
  | FrWhileLook id x _ | FrIfLook id x => id :: rx_types x
  | _ => []
  end.
Definition arm_here (a : arm) : list string := match a with ArmLook _ id x => id :: rx_types x | _ => [] end.
Definition read_here (b : br) : list string :=
  match b with
  | BrTuple x => rx_types x
  | BrEnum => []
  | BrStruct fs _ => flat_map (fun f => fr_here (snd f)) fs
  | BrChoice arms => flat_map arm_here arms
  end.
Definition look_here (k : lk) : list string :=
  match k with LkTrue => [] | LkOr l => flat_map (fun k => match k with LkCall id => [id] | LkPeek _ _ => [] end) l end.
(** The types lie in layers: on the same element a type calls only types of lower layers. *)
Definition layered (p : program) (layer : string -> nat) (top : nat) : Prop :=
  Forall (fun t => layer (ti_id t) <= top /\
    Forall (fun id => layer id < layer (ti_id t)) (read_here (ti_read t) ++ look_here (ti_look t))) p.
