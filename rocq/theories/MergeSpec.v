(** * MergeSpec: iteration order of the hash maps (C46) *)
From Coq Require Import Permutation.
From Verif Require Import Base Libs Xml Ast XsdNode Parse.

(** [Schema::parse_file] where the types of every loaded file are visited in an
    arbitrary order [ord] (schema.rs:120-127 iterates over a HashMap). *)
Definition order := string -> list (name * root) -> list (name * root).
Definition shuffles (ord : order) : Prop := forall p l, Permutation (ord p l) l.
Definition reorder (o : list (name * root) -> list (name * root)) (s : schema) : schema :=
  mkSchema (s_dependencies s)
    (mkSchemaCtx (o (sc_elements (s_context s))) (sc_target (s_context s)) (sc_qualified (s_context s))
       (sc_namespaces (s_context s))).
Definition map_ok {E A B} (f : A -> B) (r : res E A) : res E B :=
  match r with Ok a => Ok (f a) | Err e => Err e | Panic w => Panic w | OutOfFuel => OutOfFuel end.
Fixpoint parse_file_in_order {L : Libs} (ord : order) (fuel : nat) (f : fs) (path : string) (shared : option shared_ctx)
  : res schema_err schema :=
  match fuel with
  | O => OutOfFuel
  | S fuel =>
      match fs_read f path with
      | None => Err (SeOpen path)
      | Some doc =>
          parse_with fuel (fun p s => map_ok (reorder (ord p)) (parse_file_in_order ord fuel f p (Some s))) f doc path shared
      end
  end.
(** The same up to the order of the types. *)
Definition same_schema (s s' : schema) : Prop :=
  s_dependencies s = s_dependencies s' /\ Permutation (sc_elements (s_context s)) (sc_elements (s_context s'))
  /\ sc_target (s_context s) = sc_target (s_context s') /\ sc_qualified (s_context s) = sc_qualified (s_context s')
  /\ sc_namespaces (s_context s) = sc_namespaces (s_context s')
  /\ forall n, sc_get (s_context s) n = sc_get (s_context s') n.
Definition same_result {E} (r r' : res E schema) : Prop :=
  match r, r' with
  | Ok s, Ok s' => same_schema s s'
  | Err e, Err e' => e = e'
  | Panic w, Panic w' => w = w'
  | OutOfFuel, OutOfFuel => True
  | _, _ => False
  end.
