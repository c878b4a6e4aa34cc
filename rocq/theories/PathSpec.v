(** * PathSpec: what paths mean in a tree of directories (C80) *)
From Verif Require Import Base Xml Parse ParseSpec Macro XmlRead XmlGrammar Path.

(** The parts of a path between slashes, and those that say something: not nothing, not a dot. *)
Fixpoint parts (s : string) : list string :=
  match s with
  | EmptyString => [""]
  | String c r =>
      if Ascii.eqb c "/" then "" :: parts r
      else match parts r with p :: ps => String c p :: ps | [] => [String c ""] end
  end.
Definition steps (p : string) : list string := filter (fun c => negb (orb (c =?s "") (c =?s "."))) (parts p).

(** A tree of directories: from a place one gets to others by names (".." is one of them), some
    places are files with a text. *)
Record tree := mkTree {
  place : Type;
  tr_root : place;
  tr_step : place -> string -> option place;
  tr_text : place -> option string
}.
Arguments tr_root {_}. Arguments tr_step {_}. Arguments tr_text {_}.
Fixpoint walk {t : tree} (d : place t) (cs : list string) : option (place t) :=
  match cs with
  | [] => Some d
  | c :: cs => match tr_step d c with Some e => walk e cs | None => None end
  end.
(** Where a path starts, and what it names, seen from the directory [cwd]. *)
Definition begin {t : tree} (cwd : place t) (p : string) : place t := if prefix "/" p then tr_root else cwd.
Definition names {t : tree} (cwd : place t) (p : string) : option (place t) := walk (begin cwd p) (steps p).
(** The text of the file it names; a path that ends in a slash or dots names no file. *)
Definition names_file (p : string) : Prop := exists ps c, parts p = ps ++ [c] /\ c <> "" /\ c <> "." /\ c <> "..".
Inductive opens {t : tree} (cwd : place t) (p : string) : string -> Prop :=
| op_file n text : names_file p -> names cwd p = Some n -> tr_text n = Some text -> opens cwd p text.
(** The directory that a file is looked for in. *)
Inductive directory {t : tree} (cwd : place t) (p : string) : place t -> Prop :=
| dr_last cs c d : steps p = cs ++ [c] -> walk (begin cwd p) cs = Some d -> directory cwd p d.

(** The disk of a tree, for a program that runs in [cwd]. *)
Definition on_tree {t : tree} (cwd : place t) (k : disk) : Prop :=
  dk_push k = path_push /\ dk_parent k = path_parent /\ forall p text, dk_text k p = Some text <-> opens cwd p text.

(** A location that a schema document names. *)
Definition location (d : xelem) (l : string) : Prop :=
  exists c a, In c (xsd_children d) /\ is_load c /\ has_attr c "schemaLocation" a /\ l = at_value a.

(** [R d d' text]: a file with this text is in the directories [d] and [d'] of two trees. The
    trees are alike if the locations it names are the same files again. *)
Definition alike_trees {t t' : tree} (xml : string -> option xelem) (R : place t -> place t' -> string -> Prop) : Prop :=
  forall d d' text x l, R d d' text -> xml text = Some x -> location x l ->
    (forall u, opens d l u <-> opens d' l u)
    /\ forall u, opens d l u -> exists e e', directory d l e /\ directory d' l e' /\ R e e' u.
(** The trees below two places are the same, as far as one gets without "..". *)
Definition same_below {t t' : tree} (d : place t) (d' : place t') : Prop :=
  forall cs, ~ In ".." cs ->
    match walk d cs, walk d' cs with
    | Some e, Some e' => tr_text e = tr_text e'
    | None, None => True
    | _, _ => False
    end.
(** Locations that stay below: relative, without "..". *)
Definition stays (l : string) : Prop := prefix "/" l = false /\ ~ In ".." (parts l).

(** Errors about the same in files with other paths. *)
Definition renamed_err (P : string -> string -> Prop) (e e' : schema_err) : Prop :=
  match e, e' with
  | SeXsd x p, SeXsd x' p' => x' = x /\ P p p'
  | SeOpen p, SeOpen p' => P p p'
  | SeNotFound n, SeNotFound n' => n' = n
  | _, _ => False
  end.
Definition renamed {A} (P : string -> string -> Prop) (m m' : res schema_err A) : Prop :=
  match m, m' with
  | Ok a, Ok a' => a' = a
  | Err e, Err e' => renamed_err P e e'
  | Panic w, Panic w' => w' = w
  | OutOfFuel, OutOfFuel => True
  | _, _ => False
  end.
