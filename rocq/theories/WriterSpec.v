(** * WriterSpec: call histories on a [Context], balanced output *)
From Verif Require Import Base Xml Writer.

(** The calls the generated code makes on a context and on the contexts it
    borrows from it ([Context::wrap]); only the innermost one can be used. *)
Inductive ccall :=
| CAttr (n v : string)
| CNs (prefix uri : string)     (* set_default_ns: prefix "" *)
| CWrap                          (* enter a borrowed context *)
| CUnwrap                        (* leave it *)
| CStart | CEnd.

(** ** Running a history on the model. The stack holds the innermost context first. *)
Definition ccall_step (k : ccall) (st : list wctx) : list event * list wctx :=
  match k, st with
  | CAttr n v, c :: st => ([], set_attr n v c :: st)
  | CNs p u, c :: st => ([], set_ns p u c :: st)
  | CWrap, c :: st => ([], ctx_wrap c :: c :: st)
  | CUnwrap, c :: d :: st => ([], ctx_unwrap d (wc_inner c) :: st)
  | CStart, c :: st => let '(e, c) := write_start_element c in (e, c :: st)
  | CEnd, c :: st => (write_end_element c, c :: st)
  | _, _ => ([], st)
  end.
Fixpoint ccalls (ks : list ccall) (st : list wctx) : list event * list wctx :=
  match ks with
  | [] => ([], st)
  | k :: ks' => let '(e1, st) := ccall_step k st in let '(e2, st) := ccalls ks' st in (e1 ++ e2, st)
  end.

(** ** What should come out *)

(** The attributes set in a history, in order; the namespace declarations, the
    first one of a prefix winning. *)
Fixpoint attrs_set (ks : list ccall) : list (string * string) :=
  match ks with
  | [] => []
  | CAttr n v :: ks' => (n, v) :: attrs_set ks'
  | _ :: ks' => attrs_set ks'
  end.
Fixpoint ns_set (ks : list ccall) : list (string * string) :=
  match ks with
  | [] => []
  | CNs p u :: ks' => (p, u) :: filter (fun d => negb (fst d =?s p)) (ns_set ks')
  | _ :: ks' => ns_set ks'
  end.

(** [tags name depth before ks evs pending]: the calls [ks] are made with [depth]
    borrowed contexts open and [before] having been called since the last start
    tag; they write [evs] and leave the calls [pending] without a start tag. Only
    calls at depth 0 write, a start tag carrying all that was set since the last
    one, at whatever depth. *)
Inductive tags (name : string) : nat -> list ccall -> list ccall -> list event -> list ccall -> Prop :=
| tg_nil d b : tags name d b [] [] b
| tg_attr d b n v ks evs p : tags name d (b ++ [CAttr n v]) ks evs p -> tags name d b (CAttr n v :: ks) evs p
| tg_ns d b n v ks evs p : tags name d (b ++ [CNs n v]) ks evs p -> tags name d b (CNs n v :: ks) evs p
| tg_wrap d b ks evs p : tags name (S d) b ks evs p -> tags name d b (CWrap :: ks) evs p
| tg_unwrap d b ks evs p : tags name d b ks evs p -> tags name (S d) b (CUnwrap :: ks) evs p
| tg_start b ks evs p : tags name 0 [] ks evs p ->
    tags name 0 b (CStart :: ks) (EvStart name (attrs_set b) (ns_set b) :: evs) p
| tg_end b ks evs p : tags name 0 b ks evs p -> tags name 0 b (CEnd :: ks) (EvEnd :: evs) p
| tg_inner_start d b ks evs p : tags name (S d) b ks evs p -> tags name (S d) b (CStart :: ks) evs p
| tg_inner_end d b ks evs p : tags name (S d) b ks evs p -> tags name (S d) b (CEnd :: ks) evs p.

(** The number of borrowed contexts open after a history; every borrow left was
    entered. *)
Fixpoint depth (d : nat) (ks : list ccall) : option nat :=
  match ks with
  | [] => Some d
  | CWrap :: ks' => depth (S d) ks'
  | CUnwrap :: ks' => match d with O => None | S d => depth d ks' end
  | _ :: ks' => depth d ks'
  end.
Fixpoint nested (d : nat) (ks : list ccall) : bool :=
  match ks with
  | [] => true
  | CWrap :: ks' => nested (S d) ks'
  | CUnwrap :: ks' => match d with O => false | S d => nested d ks' end
  | _ :: ks' => nested d ks'
  end.

(** The attributes on the start tags written. *)
Definition attrs_written (evs : list event) : list (string * string) :=
  flat_map (fun e => match e with EvStart _ ats _ => ats | _ => [] end) evs.

(** ** Balanced output *)
Inductive balanced : list event -> Prop :=
| bl_nil : balanced []
| bl_chars s l : balanced l -> balanced (EvChars s :: l)
| bl_elem n ats nss b l : balanced b -> balanced l -> balanced (EvStart n ats nss :: b ++ EvEnd :: l).

(** One element with the given name, and nothing else. *)
Definition one_element (n : string) (evs : list event) : Prop :=
  exists ats nss b, evs = EvStart n ats nss :: b ++ [EvEnd] /\ balanced b.
