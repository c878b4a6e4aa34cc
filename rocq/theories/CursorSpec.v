(** * CursorSpec: what the child cursor should do

    A cursor over an element is specified as the plain list of the element
    children nobody has taken yet. *)
From Verif Require Import Base Xml Decode.

Inductive call :=
| CPeek (n : string) (ns : option string)
| CNext (n : string) (ns : option string)
| CChild (n : string) (ns : option string)
| CTryNext (n : string) (ns : option string)
| CTryChild (n : string) (ns : option string).

Inductive answer := ABool (b : bool) | AElem (o : option xelem) | ATry (r : res from_xml_err xelem).

Definition matches (n : string) (ns : option string) (e : xelem) : Prop :=
  xe_tag e = n /\ xe_ns e = ns.

(** [spec_step c l a l']: call [c] with [l] left answers [a] and leaves [l']. *)
Inductive spec_step : call -> list xelem -> answer -> list xelem -> Prop :=
| sp_peek_yes n ns x l : matches n ns x -> spec_step (CPeek n ns) (x :: l) (ABool true) (x :: l)
| sp_peek_no n ns x l : ~ matches n ns x -> spec_step (CPeek n ns) (x :: l) (ABool false) (x :: l)
| sp_peek_end n ns : spec_step (CPeek n ns) [] (ABool false) []
| sp_next_yes n ns x l : matches n ns x -> spec_step (CNext n ns) (x :: l) (AElem (Some x)) l
| sp_next_no n ns x l : ~ matches n ns x -> spec_step (CNext n ns) (x :: l) (AElem None) (x :: l)
| sp_next_end n ns : spec_step (CNext n ns) [] (AElem None) []
| sp_child_yes n ns l1 x l2 : Forall (fun y => ~ matches n ns y) l1 -> matches n ns x ->
    spec_step (CChild n ns) (l1 ++ x :: l2) (AElem (Some x)) (l1 ++ l2)
| sp_child_no n ns l : Forall (fun y => ~ matches n ns y) l ->
    spec_step (CChild n ns) l (AElem None) l
(** The [try_] calls: the same, with an error naming what was looked for. *)
| sp_trynext_yes n ns x l : matches n ns x -> spec_step (CTryNext n ns) (x :: l) (ATry (Ok x)) l
| sp_trynext_no n ns x l : ~ matches n ns x ->
    spec_step (CTryNext n ns) (x :: l) (ATry (Err (FeMissingElement n ns))) (x :: l)
| sp_trynext_end n ns : spec_step (CTryNext n ns) [] (ATry (Err (FeMissingElement n ns))) []
| sp_trychild_yes n ns l1 x l2 : Forall (fun y => ~ matches n ns y) l1 -> matches n ns x ->
    spec_step (CTryChild n ns) (l1 ++ x :: l2) (ATry (Ok x)) (l1 ++ l2)
| sp_trychild_no n ns l : Forall (fun y => ~ matches n ns y) l ->
    spec_step (CTryChild n ns) l (ATry (Err (FeMissingElement n ns))) l.

Inductive spec_run : list call -> list xelem -> list answer -> list xelem -> Prop :=
| sr_nil l : spec_run [] l [] l
| sr_cons c cs l a l1 ans l2 :
    spec_step c l a l1 -> spec_run cs l1 ans l2 -> spec_run (c :: cs) l (a :: ans) l2.

(** The API run on a history of calls. *)
Definition api_step (c : call) (s : children) : answer * children :=
  match c with
  | CPeek n ns => let '(b, s) := peek_child n ns s in (ABool b, s)
  | CNext n ns => let '(o, s) := next_child n ns s in (AElem o, s)
  | CChild n ns => let '(o, s) := child n ns s in (AElem o, s)
  | CTryNext n ns => let '(r, s) := try_next_child n ns s in (ATry r, s)
  | CTryChild n ns => let '(r, s) := try_child n ns s in (ATry r, s)
  end.
Fixpoint api_run (cs : list call) (s : children) : list answer * children :=
  match cs with
  | [] => ([], s)
  | c :: cs' => let '(a, s) := api_step c s in
                let '(ans, s) := api_run cs' s in (a :: ans, s)
  end.

(** The elements handed out by a history. *)
Definition taken (ans : list answer) : list xelem :=
  flat_map (fun a => match a with AElem (Some x) | ATry (Ok x) => [x] | _ => [] end) ans.

(** An element with exactly the given element children. *)
Definition with_children (l : list xelem) : xelem := XE "" None [] [] (0%N, 0%N) (map KElem l).

(** [l] in the order of [m], possibly with elements left out. *)
Inductive sublist {A} : list A -> list A -> Prop :=
| sub_nil : sublist [] []
| sub_keep x l m : sublist l m -> sublist (x :: l) (x :: m)
| sub_drop x l m : sublist l m -> sublist l (x :: m).

(** The character data directly inside an element. *)
Fixpoint all_text (ks : list (kid xelem)) : string :=
  match ks with
  | [] => ""
  | KText s :: ks' => s +++ all_text ks'
  | _ :: ks' => all_text ks'
  end.

(** roxmltree never has two text nodes next to each other. *)
Fixpoint texts_merged (ks : list (kid xelem)) : Prop :=
  match ks with
  | KText _ :: (KText _ :: _) => False
  | _ :: ks' => texts_merged ks'
  | [] => True
  end.

Definition is_text (k : kid xelem) : Prop := exists s, k = KText s.
Definition no_elements (e : xelem) : Prop := xe_children e = [].
