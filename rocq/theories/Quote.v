(** * Quote: the macro [quote!]

    A template is written as the string that stands between the braces of [quote!] in the
    source; [template] is the lexer with the two forms of interpolation, [#x] and
    [#( .. )*], [quote] fills in. A repetition ranges over one sequence. Tokens as in Emit.v. *)
From Verif Require Import Base Libs Xml Ast Gen Emit.
From Coq Require Import Ascii.

(** ** Lexer *)
Definition word_char (c : ascii) : bool :=
  let n := nat_of_ascii c in
  (((48 <=? n) && (n <=? 57)) || ((65 <=? n) && (n <=? 90)) || ((97 <=? n) && (n <=? 122)) || (n =? 95))%nat%bool.
Definition digit (c : ascii) : bool := let n := nat_of_ascii c in ((48 <=? n) && (n <=? 57))%nat%bool.
Definition one (c : ascii) : string := String c "".
Definition member (s : string) (l : list string) : bool := existsb (String.eqb s) l.

Inductive raw := RTok (t : tok) | ROpen (o : string) | RClose.
Inductive mode := Between | InWord (w : string) | InText (s : string) | InPunct (p : string).
(** What a mode ends with. *)
Definition flush (m : mode) : list raw :=
  match m with
  | Between | InText _ => []
  | InWord w => [RTok (match w with String c _ => if digit c then Nu w else Id w | "" => Id w end)]
  | InPunct p => [RTok (Pu p)]
  end.
Definition start (c : ascii) : list raw * mode :=
  let s := one c in
  if ((s =?s " ") || (s =?s "
"))%bool then ([], Between)
  else if word_char c then ([], InWord s)
  else if s =?s """" then ([], InText "")
  else if member s ["("; "["; "{"] then ([ROpen s], Between)
  else if member s [")"; "]"; "}"] then ([RClose], Between)
  else ([], InPunct s).
Definition step (m : mode) (c : ascii) : list raw * mode :=
  let s := one c in
  let fresh := let '(r, m') := start c in (flush m ++ r, m') in
  match m with
  | Between => start c
  | InWord w => if word_char c then ([], InWord (w +++ s)) else fresh
  | InText t => if s =?s """" then ([RTok (St t)], Between) else ([], InText (t +++ s))
  | InPunct p => if member (p +++ s) ["::"; "->"; "=>"; "!="; "||"] then ([RTok (Pu (p +++ s))], Between) else fresh
  end.
Fixpoint lex (m : mode) (s : string) : list raw :=
  match s with
  | "" => flush m
  | String c s => let '(r, m) := step m c in r ++ lex m s
  end.

(** ** Templates *)
Inductive tpl :=
| TTok (t : tok)
| TVar (x : string)               (* #x *)
| TRep (l : list tpl)             (* #( l )* *)
| TGr (o : string) (l : list tpl).
Fixpoint group (l : list raw) (cur : list tpl) (stack : list (string * list tpl)) : list tpl :=
  match l with
  | [] => rev cur
  | ROpen o :: l => group l [] ((o, cur) :: stack)
  | RClose :: l =>
      match stack with
      | [] => rev cur
      | (o, up) :: stack =>
          match up with
          | TTok (Pu h) :: up' =>
              if ((h =?s "#") && (o =?s "("))%bool then group l (TRep (rev cur) :: up') stack
              else group l (TGr o (rev cur) :: up) stack
          | _ => group l (TGr o (rev cur) :: up) stack
          end
      end
  | RTok t :: l =>
      match t, cur with
      | Id x, TTok (Pu h) :: cur' => if h =?s "#" then group l (TVar x :: cur') stack else group l (TTok t :: cur) stack
      | Pu s, TRep _ :: _ => if s =?s "*" then group l cur stack else group l (TTok t :: cur) stack
      | _, _ => group l (TTok t :: cur) stack
      end
  end.
Definition template (s : string) : list tpl := group (lex Between s) [] [].

(** What is interpolated: tokens, or a sequence of tokens for a repetition. *)
Inductive arg := One (ts : list tok) | Each (l : list (list tok)).
Definition args := list (string * arg).
(** The sequence that a repetition ranges over. *)
Fixpoint each_of (a : args) (l : list tpl) : string * list (list tok) :=
  match l with
  | [] => ("", [])
  | TVar x :: l => match aget String.eqb x a with Some (Each es) => (x, es) | _ => each_of a l end
  | _ :: l => each_of a l
  end.
Fixpoint inst (a : args) (t : tpl) : list tok :=
  let go := fix go (a : args) (l : list tpl) : list tok := match l with [] => [] | t :: l => inst a t ++ go a l end in
  match t with
  | TTok t => [t]
  | TVar x => match aget String.eqb x a with Some (One ts) => ts | _ => [Pu "#"; Id x] end
  | TGr o l => [Gr o (go a l)]
  | TRep l => let '(x, es) := each_of a l in flat_map (fun e => go ((x, One e) :: a) l) es
  end.
Fixpoint insts (a : args) (l : list tpl) : list tok := match l with [] => [] | t :: l => inst a t ++ insts a l end.
Definition quote (s : string) (a : args) : list tok := insts a (template s).

(** Interpolated identifiers and strings (quote::ToTokens for Ident, String). *)
Definition idn (x : string) : arg := One [Id x].
Definition lit (s : string) : arg := One [St s].
