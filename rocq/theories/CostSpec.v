(** * CostSpec: how many steps reading takes

    A specification for C84. The interpreter of Run.v once more, counting: a step is a call of a
    generated function, the reading of a text or an attribute, a round of a loop, or a question to the
    cursor ([next_child], [peek_child], [child]). Where the count is left out it is the same
    interpreter (C84_counts). *)
From Verif Require Import Base Libs Xml Ast Decode Gen Run.

Definition counted (A : Type) : Type := R A * nat.
Definition free {A} (r : R A) : counted A := (r, 0).
Definition tick {A} (m : counted A) : counted A := (fst m, S (snd m)).
Definition andthen {A B} (m : counted A) (f : A -> counted B) : counted B :=
  match fst m with
  | Ok a => let r := f a in (fst r, snd m + snd r)
  | Err x => (Err x, snd m)
  | Panic x => (Panic x, snd m)
  | OutOfFuel => (OutOfFuel, snd m)
  end.

Section Count.
Context {L : Libs}.
Variable p : program.
Section Open.
  Variable call : string -> xelem -> children -> counted (value * children).
  Variable look : string -> children -> counted (bool * children).
  Definition count_rx (x : rx) (e : xelem) (c : children) : counted (value * children) :=
    tick match x with
    | RxText _ | RxFixed _ => free (run_rx (fun _ _ _ => OutOfFuel) x e c)
    | RxCall id => call id e c
    end.
  Definition count_sub (x : rx) (e : xelem) : counted value :=
    andthen (count_rx x e (children_new e)) (fun r => free (Ok (fst r))).
  Fixpoint count_while_look (fuel : nat) (id : string) (x : rx) (e : xelem) (c : children) : counted (list value * children) :=
    match fuel with
    | O => free OutOfFuel
    | S fuel => tick
        (andthen (look id c) (fun r =>
         if fst r then
           andthen (count_rx x e (snd r)) (fun r =>
           andthen (count_while_look fuel id x e (snd r)) (fun rs => free (Ok (fst r :: fst rs, snd rs))))
         else free (Ok ([], snd r))))
    end.
  Fixpoint count_while_next (fuel : nat) (n : string) (ns : option string) (x : rx) (c : children) : counted (list value * children) :=
    match fuel with
    | O => free OutOfFuel
    | S fuel => tick
        match next_child n ns c with
        | (Some k, c) =>
            andthen (count_sub x k) (fun v =>
            andthen (count_while_next fuel n ns x c) (fun rs => free (Ok (v :: fst rs, snd rs))))
        | (None, c) => free (Ok ([], c))
        end
    end.
  Definition count_fr (fuel : nat) (f : fr) (e : xelem) (c : children) : counted (value * children) :=
    match f with
    | FrHere x => count_rx x e c
    | FrWhileLook id x opt => andthen (count_while_look fuel id x e c) (fun rs => free (Ok (vec_value opt (fst rs), snd rs)))
    | FrIfLook id x =>
        andthen (look id c) (fun r =>
        if fst r then andthen (count_rx x e (snd r)) (fun r => free (Ok (VSome (fst r), snd r))) else free (Ok (VNone, snd r)))
    | FrWhileNext n ns x opt => andthen (count_while_next fuel n ns x c) (fun rs => free (Ok (vec_value opt (fst rs), snd rs)))
    | FrIfNext n ns x => tick
        match next_child n ns c with
        | (Some k, c) => andthen (count_sub x k) (fun v => free (Ok (VSome v, c)))
        | (None, c) => free (Ok (VNone, c))
        end
    | FrTryChild n ns x => tick
        match child n ns c with
        | (Some k, c) => andthen (count_sub x k) (fun v => free (Ok (v, c)))
        | (None, _) => free (Err (FeMissingElement n ns))
        end
    | FrTryNext n ns x => tick
        match next_child n ns c with
        | (Some k, c) => andthen (count_sub x k) (fun v => free (Ok (v, c)))
        | (None, _) => free (Err (FeMissingElement n ns))
        end
    end.
  Fixpoint count_fields (fuel : nat) (fs : list (string * fr)) (e : xelem) (c : children) : counted (list (string * value) * children) :=
    match fs with
    | [] => free (Ok ([], c))
    | (n, f) :: fs =>
        andthen (count_fr fuel f e c) (fun r =>
        andthen (count_fields fuel fs e (snd r)) (fun rs => free (Ok ((n, fst r) :: fst rs, snd rs))))
    end.
  Fixpoint count_attrs (ats : list ra) (e : xelem) : counted (list (string * value)) :=
    match ats with
    | [] => free (Ok [])
    | a :: ats => tick (andthen (free (run_ra p a e)) (fun v => andthen (count_attrs ats e) (fun vs => free (Ok (v :: vs)))))
    end.
  Fixpoint count_arms (fuel : nat) (self : string) (arms : list arm) (e : xelem) (c : children) : counted (value * children) :=
    match arms with
    | [] => free (Err (FeMissingVariant self))
    | ArmLook v id x :: arms =>
        andthen (look id c) (fun r =>
        if fst r then andthen (count_rx x e (snd r)) (fun r => free (Ok (VChoice v (fst r), snd r))) else count_arms fuel self arms e (snd r))
    | ArmVec v n ns x :: arms => tick
        (let r := peek_child n ns c in
         if fst r then andthen (count_while_next fuel n ns x (snd r)) (fun rs => free (Ok (VChoice v (VVec (fst rs)), snd rs)))
         else count_arms fuel self arms e (snd r))
    | ArmOne v n ns x :: arms => tick
        match next_child n ns c with
        | (Some k, c) => andthen (count_sub x k) (fun w => free (Ok (VChoice v w, c)))
        | (None, c) => count_arms fuel self arms e c
        end
    end.
  Definition count_body (fuel : nat) (t : titem) (e : xelem) (c : children) : counted (value * children) :=
    match ti_read t with
    | BrTuple x => andthen (count_rx x e c) (fun r => free (Ok (VTuple (fst r), snd r)))
    | BrEnum => tick (free (run_body real_ops p (fun _ _ _ => OutOfFuel) (fun _ _ => OutOfFuel) fuel t e c))
    | BrStruct fs ats =>
        andthen (count_fields fuel fs e c) (fun rs =>
        andthen (count_attrs ats e) (fun avs => free (Ok (VStruct (fst rs ++ avs), snd rs))))
    | BrChoice arms => count_arms fuel (ti_id t) arms e c
    end.
  Fixpoint count_lk (l : list lk1) (c : children) : counted (bool * children) :=
    match l with
    | [] => free (Ok (false, c))
    | LkCall id :: l => andthen (look id c) (fun r => if fst r then free (Ok (true, snd r)) else count_lk l (snd r))
    | LkPeek n ns :: l => tick (let r := peek_child n ns c in if fst r then free (Ok (true, snd r)) else count_lk l (snd r))
    end.
End Open.
Fixpoint count_look (fuel : nat) (id : string) (c : children) : counted (bool * children) :=
  match fuel with
  | O => free OutOfFuel
  | S fuel => tick
      match lookup_item p id with
      | None => free (Panic "unknown type")
      | Some t => match ti_look t with LkTrue => free (Ok (true, c)) | LkOr l => count_lk (count_look fuel) l c end
      end
  end.
Fixpoint count_type (fuel : nat) (id : string) (e : xelem) (c : children) : counted (value * children) :=
  match fuel with
  | O => free OutOfFuel
  | S fuel => tick
      match lookup_item p id with
      | None => free (Panic "unknown type")
      | Some t => count_body (count_type fuel) (count_look fuel) fuel t e c
      end
  end.
Definition count_from_xml (fuel : nat) (id : string) (root : xelem) : counted value :=
  match lookup_item p id with
  | None => free (Panic "unknown type")
  | Some t =>
      andthen (free (doc_try_child root (ti_read_name t) (ti_read_ns t))) (fun e =>
      andthen (count_type fuel id e (children_new e)) (fun r => free (Ok (fst r))))
  end.
End Count.

(** The number of elements of a document. *)
Fixpoint size (e : xelem) : nat :=
  let 'XE _ _ _ _ _ ks := e in S (list_sum (map (fun k => match k with KElem x => size x | _ => 0 end) ks)).
