(** * MutSpec: what is changed is declared so

    A specification for C82. The tree of C70 says neither [mut] nor [&mut]; this file reads
    them off the tokens. A text is walked once, from left to right and into its groups, with
    the variables in scope and how each of them may be used:
    - [let mut x], [mut x: T]: the variable may be changed and borrowed with [&mut x];
    - [x: &mut T]: what the variable stands for may be changed through it;
    - every other variable may only be read.
    The walk fails where a variable is changed that may not be: at [&mut x], at the call of a
    method that takes [&mut self], and where an argument has to be a [&mut]. *)
From Verif Require Import Base Libs Xml Ast Gen Emit Quote.

Inductive kind := Changes | Handle | Fixed.
Definition vars := list (string * kind).
Definition changes (E : vars) (x : string) : bool := match aget String.eqb x E with Some Changes => true | _ => false end.
Definition handle (E : vars) (x : string) : bool := match aget String.eqb x E with Some Handle => true | _ => false end.

(** The methods of the libraries that take [&mut self]: [Context] (xsd/src/lib.rs:42-106), [EventWriter::write],
    [Vec::push], [Formatter::write_str]; and the arguments that are a [&mut]. [create_writer] takes any [io::Write],
    which a vector is only behind a [&mut]. *)
Definition mut_methods : list string :=
  ["set_attr"; "set_ns"; "set_default_ns"; "write_start_element"; "write_end_element"; "write"; "push"; "write_str"].
Definition mut_arguments : list (string * nat) :=
  [("write_start_element", 0); ("write_end_element", 0); ("to_xml_writer", 1); ("create_writer", 0); ("fmt", 0)].

(** ** What stands before a token, the nearest token first *)
Definition head_pu (p : string) (b : list tok) : bool := match b with Pu q :: _ => q =?s p | _ => false end.
Definition head_id (x : string) (b : list tok) : bool := match b with Id y :: _ => y =?s x | _ => false end.
Definition after_mut (b : list tok) : bool := (head_id "mut" b && head_pu "&" (tl b))%bool.   (* [& mut] *)
Definition bare (b : list tok) : bool := negb (head_pu "." b || head_pu "::" b).                (* no path, no field *)

(** The variables of a pattern before [=]: of a [let], which are in scope after the semicolon, or of an [if let] or
    [while let], which are in scope in the block. *)
Inductive pattern := Later (d : string * kind) | Block (d : string * kind).
Definition let_pattern (b : list tok) : option pattern :=
  match b with
  | Id x :: b =>
      if head_id "let" b then Some (Later (x, Fixed))
      else if (head_id "mut" b && head_id "let" (tl b))%bool then Some (Later (x, Changes))
      else None
  | Gr _ [Id x] :: b => if (head_id "Some" b && head_id "let" (tl b))%bool then Some (Block (x, Fixed)) else None
  | _ => None
  end.

(** ** Parameters and arguments *)
Fixpoint commas (l : list tok) (cur : list tok) : list (list tok) :=
  match l with
  | [] => [rev cur]
  | t :: l => if head_pu "," [t] then rev cur :: commas l [] else commas l (t :: cur)
  end.
Definition parameter (l : list tok) : vars :=
  match l with
  | Id m :: Id x :: _ => if m =?s "mut" then [(x, Changes)] else []
  | Id x :: Pu _ :: t => [(x, if (head_pu "&" t && head_id "mut" (tl t))%bool then Handle else Fixed)]
  | _ => []
  end.
Definition parameters (l : list tok) : vars := flat_map parameter (commas l []).
(** A [&mut x], of which [x] is checked where it is walked, or a [&mut] at hand. *)
Definition mut_argument (E : vars) (l : list tok) : bool :=
  match l with
  | [Id x] => handle E x
  | [a; m; Id _] => (head_pu "&" [a] && head_id "mut" [m])%bool
  | _ => false
  end.
Definition argument (E : vars) (n : nat) (l : list tok) : bool := mut_argument E (nth n (commas l []) []).
(** What is called, read from [b], may be called so. *)
Definition call_ok (E : vars) (b : list tok) (args : list tok) : bool :=
  match b with
  | Id m :: b =>
      if head_pu "." b then
        (if member m mut_methods then
           match tl b with
           | Id x :: b => bare b && (changes E x || handle E x)
           | _ => false
           end
         else true)
        && match aget String.eqb m mut_arguments with Some n => argument E n args | None => true end
      else if head_pu "::" b && head_id "Context" (tl b) && (m =?s "wrap") then argument E 0 args
      else true
  | _ => true
  end%bool.

(** ** The walk *)
Record state := mkState {
  st_vars : vars;                       (* in scope *)
  st_before : list tok;                 (* in this group *)
  st_let : option (string * kind);      (* in scope after the semicolon *)
  st_next : vars;                       (* in scope in the next block *)
  st_fn : bool                          (* after [fn], before the parameters *)
}.
Definition after (t : tok) (s : state) : state := mkState (st_vars s) (t :: st_before s) (st_let s) (st_next s) (st_fn s).
Definition expect (n : vars) (s : state) : state := mkState (st_vars s) (st_before s) (st_let s) n (st_fn s).
Definition leaf (t : tok) (s : state) : option state :=
  let b := st_before s in
  match t with
  | Id x =>
      if after_mut b then if changes (st_vars s) x then Some (after t s) else None
      else if x =?s "fn" then Some (mkState (st_vars s) (t :: b) (st_let s) (st_next s) true)
      else if x =?s "in" then
        match b with
        | Id y :: b => Some (after t (if head_id "for" b then expect [(y, Fixed)] s else s))
        | _ => Some (after t s)
        end
      else Some (after t s)
  | Pu p =>
      if p =?s "=" then
        match let_pattern b with
        | Some (Later d) => Some (mkState (st_vars s) (t :: b) (Some d) (st_next s) (st_fn s))
        | Some (Block d) => Some (after t (expect [d] s))
        | None => Some (after t s)
        end
      else if p =?s ";" then
        Some (mkState (match st_let s with Some d => d :: st_vars s | None => st_vars s end) (t :: b) None (st_next s) (st_fn s))
      else if p =?s "|" then
        match b with
        | Id y :: b => Some (after t (if head_pu "|" b then expect [(y, Fixed)] s else s))
        | _ => Some (after t s)
        end
      else if p =?s "=>" then
        Some (after t (expect (match b with Gr _ [Id y] :: _ => [(y, Fixed)] | _ => [] end) s))
      else Some (after t s)
  | _ => Some (after t s)
  end.
Definition enter (E : vars) : state := mkState E [] None [] false.
Fixpoint walk (t : tok) (s : state) {struct t} : option state :=
  let fix go (l : list tok) (s : state) : option state :=
    match l with [] => Some s | t :: l => match walk t s with Some s => go l s | None => None end end in
  match t with
  | Gr o l =>
      if o =?s "(" then
        if st_fn s then Some (mkState (st_vars s) (t :: st_before s) (st_let s) (parameters l) false)
        else if call_ok (st_vars s) (st_before s) l then
          match go l (enter (st_vars s)) with Some _ => Some (after t s) | None => None end
        else None
      else if o =?s "{" then
        match go l (enter (st_next s ++ st_vars s)) with Some _ => Some (after t (expect [] s)) | None => None end
      else
        match go l (enter (st_vars s)) with Some _ => Some (after t s) | None => None end
  | _ => leaf t s
  end.
Fixpoint walks (l : list tok) (s : state) : option state :=
  match l with [] => Some s | t :: l => match walk t s with Some s => walks l s | None => None end end.

(** Nothing is changed in the text that is not declared to be. *)
Definition mut_ok (l : list tok) : bool := match walks l (enter []) with Some _ => true | None => false end.

(** ** The same text without one of its [mut]s: for counting that they are needed *)
Fixpoint drops (t : tok) : list (list tok) :=
  let fix go (l : list tok) : list (list tok) :=
    match l with
    | [] => []
    | t :: l => map (fun x => x ++ l) (drops t) ++ map (cons t) (go l)
    end in
  match t with
  | Id x => if x =?s "mut" then [[]] else []
  | Gr o l => map (fun l => [Gr o l]) (go l)
  | _ => []
  end.
Fixpoint without_one_mut (l : list tok) : list (list tok) :=
  match l with
  | [] => []
  | t :: l => map (fun x => x ++ l) (drops t) ++ map (cons t) (without_one_mut l)
  end.
