(** * MiscSpec: histories of namespace registrations, dependency graphs, words *)
From Verif Require Import Base Libs Ast XsdNode Parse.

(** ** Namespace registrations *)
Fixpoint intern (uris : list string) (s : namespaces) : list namespace * namespaces :=
  match uris with
  | [] => ([], s)
  | u :: us => let '(id, s) := get_or_insert s u in
               let '(ids, s) := intern us s in (id :: ids, s)
  end.

(** ** Dependency graphs *)
Definition depends (deps : list (name * list name)) (a b : name) : Prop :=
  exists ds, aget name_eqb a deps = Some ds /\ In b ds.
Inductive reachable (deps : list (name * list name)) (a : name) : name -> Prop :=
| re_start : reachable deps a a
| re_step b c : reachable deps a b -> depends deps b c -> reachable deps a c.

(** ** Words of a text: [wordy cs ws]: the characters [cs] consist of the words
    [ws] with white space around and between them. *)
Definition space (l : list string) : Prop := Forall (fun c => char_is_whitespace c = true) l.
Definition word (l : list string) : Prop := l <> [] /\ Forall (fun c => char_is_whitespace c = false) l.
Inductive wordy : list string -> list (list string) -> Prop :=
| wd_none s : space s -> wordy s []
| wd_last s w s' : space s -> word w -> space s' -> wordy (s ++ w ++ s') [w]
| wd_more s w s' rest ws : space s -> word w -> space s' -> s' <> [] -> ws <> [] -> wordy rest ws ->
    wordy (s ++ w ++ s' ++ rest) (w :: ws).
