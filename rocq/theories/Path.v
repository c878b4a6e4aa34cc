(** * Path: the paths of std, as the parser and the macro use them *)
From Verif Require Import Base.

(** [std::path] on Unix, called at xsd-internal/src/xsd/schema.rs:71 and 118-119 and at
    xsd-derive/src/lib.rs:57-60. [Path::is_absolute]. *)
Definition absolute (p : string) : bool := match p with String c _ => Ascii.eqb c "/" | EmptyString => false end.
Fixpoint ends_in_slash (p : string) : bool :=
  match p with
  | EmptyString => false
  | String c EmptyString => Ascii.eqb c "/"
  | String _ r => ends_in_slash r
  end.
(** [PathBuf::push] (schema.rs:119, lib.rs:60): an absolute path replaces, otherwise a separator
    is put between unless there is one or the buffer is empty. *)
Definition path_push (base p : string) : string :=
  if absolute p then p
  else if orb (base =?s "") (ends_in_slash base) then base +++ p
  else base +++ "/" +++ p.

(** The last separator, [rposition] in [Components::parse_next_component_back] (schema.rs:71). *)
Fixpoint split_last (s : string) : option (string * string) :=
  match s with
  | EmptyString => None
  | String c r =>
      match split_last r with
      | Some (a, b) => Some (String c a, b)
      | None => if Ascii.eqb c "/" then Some ("", r) else None
      end
  end.
(** [Components::parse_next_component_back] (schema.rs:71), on the body of the path: what is left and the
    part at the end. *)
Definition pop_part (body : string) : string * string :=
  match split_last body with Some (a, b) => (a, b) | None => ("", body) end.
(** [Components::parse_single_component] (schema.rs:71): nothing and a dot are no components. *)
Definition is_component (c : string) : bool := negb (orb (c =?s "") (c =?s ".")).
(** [Components::trim_right] (schema.rs:71), [fuel] is the length of the body. *)
Fixpoint trim_right (fuel : nat) (body : string) : string :=
  match fuel with
  | O => body
  | S fuel =>
      if body =?s "" then ""
      else let '(rest, c) := pop_part body in if is_component c then body else trim_right fuel rest
  end.
(** [Components::len_before_body] (schema.rs:71): the root, or a leading dot; and the body behind it. *)
Definition path_head (p : string) : string * string :=
  match p with
  | String "/" r => ("/", r)
  | String "." "" => (".", "")
  | String "." (String "/" r) => (".", String "/" r)
  | _ => ("", p)
  end.
(** [Path::parent] (schema.rs:71): [next_back], then [as_path]. *)
Definition path_parent_opt (p : string) : option string :=
  let '(head, body) := path_head p in
  let body := trim_right (String.length body) body in
  if body =?s "" then (if head =?s "." then Some "" else None)
  else let '(rest, _) := pop_part body in Some (head +++ trim_right (String.length rest) rest).
(** schema.rs:71: [path.parent().unwrap_or(path)]. *)
Definition path_parent (p : string) : string := match path_parent_opt p with Some q => q | None => p end.
