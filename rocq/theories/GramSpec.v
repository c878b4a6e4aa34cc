(** * GramSpec: reading Rust (C70)

    A parser for functions and [impl] blocks, written from the Rust reference
    ("Statements", "Expressions", "Patterns", "Paths", "Implementations"), for the part
    of the language that Rust.v has a meaning for. Names are resolved on the way:
    variables in scope, imports of [use], paths into crates. It knows nothing of the
    templates. What is inferred from types is not in the text: [untyped]. *)
From Verif Require Import Base Libs Xml Ast Gen Emit Rust Body RustSpec EmitSpec.

(** ** Trees without inferred types *)
Fixpoint untyped (e : ex) : ex :=
  match e with
  | EVar _ | EStr _ | EBool _ | EUnit | EPath _ => e
  | ERef e => ERef (untyped e)
  | EBlock l e => EBlock (map (fun s => match s with SLet x e => SLet x (untyped e) | SExpr e => SExpr (untyped e) end) l) (untyped e)
  | EIf c t e => EIf (untyped c) (untyped t) (untyped e)
  | EIfLet q x t e => EIfLet q (untyped x) (untyped t) (untyped e)
  | EWhile c b => EWhile (untyped c) (untyped b)
  | EWhileLet q x b => EWhileLet q (untyped x) (untyped b)
  | EFor x e b => EFor x (untyped e) (untyped b)
  | EMatch e arms => EMatch (untyped e) (map (fun a => (fst a, untyped (snd a))) arms)
  | ECall q _ args => ECall q None (map untyped args)
  | EMethod e _ m args => EMethod (untyped e) None m (map untyped args)
  | EMapped e m x b => EMapped (untyped e) m x (untyped b)
  | EPush x e => EPush x (untyped e)
  | EField e f => EField (untyped e) f
  | ETry e => ETry (untyped e)
  | EReturn e => EReturn (untyped e)
  | ENot e => ENot (untyped e)
  | EOr a b => EOr (untyped a) (untyped b)
  | ENe a b => ENe (untyped a) (untyped b)
  | EStruct q fs => EStruct q (map (fun f => (fst f, untyped (snd f))) fs)
  end.

(** ** Scopes and paths *)
Record scope := mkScope {
  sc_self : string;                         (* the type of the [impl] *)
  sc_vars : list string;                    (* variables *)
  sc_uses : list (string * string)          (* imported names *)
}.
Definition bind_var (x : string) (c : scope) : scope := mkScope (sc_self c) (x :: sc_vars c) (sc_uses c).
Definition import (x full : string) (c : scope) : scope := mkScope (sc_self c) (sc_vars c) ((x, full) :: sc_uses c).
Definition in_scope (x : string) (c : scope) : bool := existsb (String.eqb x) (sc_vars c).

Definition is_pu (s : string) (t : tok) : bool := match t with Pu p => p =?s s | _ => false end.
Definition is_id (s : string) (t : tok) : bool := match t with Id x => x =?s s | _ => false end.
(** The first token is [t]; the rest. *)
Definition eat (f : tok -> bool) (ts : list tok) : option (list tok) :=
  match ts with t :: r => if f t then Some r else None | [] => None end.
Definition done {A} (o : option (A * list tok)) : option A := match o with Some (a, []) => Some a | _ => None end.
Notation "'let*' p := o 'in' k" := (match o with Some p => k | None => None end) (at level 200, p pattern, k at level 200).

(** Segments; a path that begins with :: has an empty first segment. *)
Definition segment (x : string) : bool := (negb (keyword x) || (x =?s "Self") || (x =?s "self"))%bool.
Fixpoint segs_at (n : nat) (ts : list tok) : option (list string * list tok) :=
  match n, ts with
  | S n, Id x :: r =>
      if segment x then
        match eat (is_pu "::") r with
        | Some r => let* (l, r) := segs_at n r in Some (x :: l, r)
        | None => Some ([x], r)
        end
      else None
  | _, _ => None
  end.
Definition path_at (ts : list tok) : option (list string * list tok) :=
  match eat (is_pu "::") ts with
  | Some r => let* (l, r) := segs_at (length r) r in Some ("" :: l, r)
  | None => segs_at (length ts) ts
  end.
Fixpoint show (l : list string) : string :=
  match l with [] => "" | [x] => x | x :: l => x +++ "::" +++ show l end.
(** What a path means. *)
Definition resolve (c : scope) (l : list string) : option rpath :=
  match l with
  | [] => None
  | x :: l' =>
      if x =?s "" then Some (PLib (show l))
      else match aget String.eqb x (sc_uses c) with
           | Some full => Some (PLib (show (full :: l')))
           | None =>
               match l' with
               | [] => Some (PName x)
               | f :: l'' => if x =?s "std" then Some (PLib (show l))
                             else match l'' with [] => Some (PAssoc x f) | _ => None end
               end
           end
  end.

(** ** Patterns *)
Definition own_type (c : scope) (t : string) : bool := ((t =?s "Self") || (t =?s sc_self c))%bool.
Definition pattern_at (c : scope) (ts : list tok) : option (pat * list tok) :=
  match ts with
  | St s :: r => Some (PLit s, r)
  | _ =>
      match eat (is_id "_") ts with
      | Some r => Some (PAny, r)
      | None =>
          let* (l, r) := path_at ts in
          match l, r with
          | [s], Gr o [Id x] :: r => if ((s =?s "Some") && (o =?s "(") && negb (keyword x))%bool then Some (PSome x, r) else None
          | [t; w], Gr o [Id x] :: r' =>
              if o =?s "(" then if (own_type c t && negb (keyword x))%bool then Some (PCase w x, r') else None
              else if own_type c t then Some (PUnit w, r) else None
          | [t; w], _ => if own_type c t then Some (PUnit w, r) else None
          | _, _ => None
          end
      end
  end.
Definition pat_vars (q : pat) : list string := match q with PSome x | PCase _ x => [x] | _ => [] end.
Definition bind_pat (q : pat) (c : scope) : scope := fold_right bind_var c (pat_vars q).

(** ** Expressions; [ns]: where struct expressions are excluded *)
Definition method (e : ex) (m : string) (args : list ex) : ex :=
  match e, args with
  | EVar x, [a] => if m =?s "push" then EPush x a else EMethod e None m args
  | _, _ => EMethod e None m args
  end.
(** The first token of an expression with block. *)
Definition block_first (ts : list tok) : bool :=
  match ts with
  | Gr o _ :: _ => o =?s "{"
  | Id x :: _ => existsb (String.eqb x) ["if"; "while"; "for"; "match"]
  | _ => false
  end.
(** [|x| ..]. *)
Definition closure_at (l : list tok) : option (string * list tok) :=
  match l with
  | Pu a :: Id x :: Pu b :: r => if ((a =?s "|") && (b =?s "|") && negb (keyword x))%bool then Some (x, r) else None
  | _ => None
  end.

Fixpoint expr (n : nat) (c : scope) (ns : bool) (ts : list tok) {struct n} : option (ex * list tok) :=
  match n with
  | O => None
  | S n =>
      match eat (is_id "return") ts with
      | Some r => let* (e, r) := expr n c ns r in Some (EReturn e, r)
      | None => let* (a, r) := compare n c ns ts in ors n c ns a r
      end
  end
with ors (n : nat) (c : scope) (ns : bool) (a : ex) (ts : list tok) {struct n} : option (ex * list tok) :=
  match n with
  | O => None
  | S n =>
      match eat (is_pu "||") ts with
      | Some r => let* (b, r) := compare n c ns r in ors n c ns (EOr a b) r
      | None => Some (a, ts)
      end
  end
with compare (n : nat) (c : scope) (ns : bool) (ts : list tok) {struct n} : option (ex * list tok) :=
  match n with
  | O => None
  | S n =>
      let* (a, r) := unary n c ns ts in
      match eat (is_pu "!=") r with
      | Some r => let* (b, r) := unary n c ns r in Some (ENe a b, r)
      | None => Some (a, r)
      end
  end
with unary (n : nat) (c : scope) (ns : bool) (ts : list tok) {struct n} : option (ex * list tok) :=
  match n with
  | O => None
  | S n =>
      match eat (is_pu "!") ts, eat (is_pu "&") ts with
      | Some r, _ => let* (e, r) := unary n c ns r in Some (ENot e, r)
      | None, Some r =>
          let r := match eat (is_id "mut") r with Some r => r | None => r end in
          let* (e, r) := unary n c ns r in Some (ERef e, r)
      | None, None => let* (e, r) := primary n c ns ts in postfix n c e r
      end
  end
with postfix (n : nat) (c : scope) (e : ex) (ts : list tok) {struct n} : option (ex * list tok) :=
  match n with
  | O => None
  | S n =>
      match eat (is_pu "?") ts, eat (is_pu ".") ts with
      | Some r, _ => postfix n c (ETry e) r
      | None, Some (Nu f :: r) => postfix n c (EField e f) r
      | None, Some (Id m :: r) =>
          if keyword m then None
          else match r with
               | Gr o l :: r' =>
                   if o =?s "(" then
                     match closure_at l with
                     | Some (x, b) => let* b := done (expr n (bind_var x c) false b) in postfix n c (EMapped e m x b) r'
                     | None => let* args := exprs n c l in postfix n c (method e m args) r'
                     end
                   else postfix n c (EField e m) r
               | _ => postfix n c (EField e m) r
               end
      | None, Some _ => None
      | None, None => Some (e, ts)
      end
  end
with primary (n : nat) (c : scope) (ns : bool) (ts : list tok) {struct n} : option (ex * list tok) :=
  match n with
  | O => None
  | S n =>
      if block_first ts then with_block n c ts
      else match ts with
      | St s :: r => Some (EStr s, r)
      | Gr o l :: r =>
          if o =?s "(" then match l with [] => Some (EUnit, r) | _ => let* e := done (expr n c false l) in Some (e, r) end
          else None
      | _ =>
          match eat (is_id "true") ts, eat (is_id "false") ts with
          | Some r, _ => Some (EBool true, r)
          | None, Some r => Some (EBool false, r)
          | None, None =>
              let* (l, r) := path_at ts in
              match l with
              | [x] => if in_scope x c then Some (EVar x, r)
                       else let* q := resolve c l in value_path n c ns q r
              | _ => let* q := resolve c l in value_path n c ns q r
              end
          end
      end
  end
(** A call, a struct expression, or the path alone. *)
with value_path (n : nat) (c : scope) (ns : bool) (q : rpath) (ts : list tok) {struct n} : option (ex * list tok) :=
  match n with
  | O => None
  | S n =>
      match ts with
      | Gr o l :: r =>
          if o =?s "(" then let* args := exprs n c l in Some (ECall q None args, r)
          else if ((o =?s "{") && negb ns)%bool then let* fs := fields n c l in Some (EStruct q fs, r)
          else Some (EPath q, ts)
      | _ => Some (EPath q, ts)
      end
  end
(** Blocks, conditionals, loops, [match]. *)
with with_block (n : nat) (c : scope) (ts : list tok) {struct n} : option (ex * list tok) :=
  match n with
  | O => None
  | S n =>
      match ts with
      | Gr o l :: r => if o =?s "{" then let* b := block n c l in Some (b, r) else None
      | Id k :: r =>
          if k =?s "if" then
            match eat (is_id "let") r with
            | Some r =>
                let* (q, r) := pattern_at c r in
                let* r := eat (is_pu "=") r in
                let* (x, r) := expr n c true r in
                let* (b, r) := braced n (bind_pat q c) r in
                let* (e, r) := els n c r in Some (EIfLet q x b e, r)
            | None =>
                let* (x, r) := expr n c true r in
                let* (b, r) := braced n c r in
                let* (e, r) := els n c r in Some (EIf x b e, r)
            end
          else if k =?s "while" then
            match eat (is_id "let") r with
            | Some r =>
                let* (q, r) := pattern_at c r in
                let* r := eat (is_pu "=") r in
                let* (x, r) := expr n c true r in
                let* (b, r) := braced n (bind_pat q c) r in Some (EWhileLet q x b, r)
            | None =>
                let* (x, r) := expr n c true r in
                let* (b, r) := braced n c r in Some (EWhile x b, r)
            end
          else if k =?s "for" then
            let* (x, r) := ident r in
            let* r := eat (is_id "in") r in
            let* (e, r) := expr n c true r in
            let* (b, r) := braced n (bind_var x c) r in Some (EFor x e b, r)
          else if k =?s "match" then
            let* (e, r) := expr n c true r in
            match r with
            | Gr o l :: r => if o =?s "{" then let* arms := match_arms n c l in Some (EMatch e arms, r) else None
            | _ => None
            end
          else None
      | _ => None
      end
  end
with braced (n : nat) (c : scope) (ts : list tok) {struct n} : option (ex * list tok) :=
  match n with
  | O => None
  | S n => match ts with Gr o l :: r => if o =?s "{" then let* b := block n c l in Some (b, r) else None | _ => None end
  end
(** [else]: a block or another [if]. *)
with els (n : nat) (c : scope) (ts : list tok) {struct n} : option (ex * list tok) :=
  match n with
  | O => None
  | S n =>
      match eat (is_id "else") ts with
      | Some r => match eat (is_id "if") r with Some _ => with_block n c r | None => braced n c r end
      | None => Some (EUnit, ts)
      end
  end
with block (n : nat) (c : scope) (ts : list tok) {struct n} : option ex :=
  match n with
  | O => None
  | S n => let* (l, e) := stms n c ts in Some (EBlock l e)
  end
(** Statements and the value at the end. *)
with stms (n : nat) (c : scope) (ts : list tok) {struct n} : option (list stm * ex) :=
  match n with
  | O => None
  | S n =>
      match ts with
      | [] => Some ([], EUnit)
      | _ =>
          match eat (is_pu ";") ts, eat (is_id "let") ts, eat (is_id "use") ts with
          | Some r, _, _ => stms n c r
          | None, Some r, _ =>
              let r := match eat (is_id "mut") r with Some r => r | None => r end in
              let* (x, r) := ident r in
              let* r := eat (is_pu "=") r in
              let* (e, r) := expr n c false r in
              let* r := eat (is_pu ";") r in
              let* (l, v) := stms n (bind_var x c) r in Some (SLet x e :: l, v)
          | None, None, Some r =>
              let* (p, r) := path_at r in
              let* r := eat (is_pu ";") r in
              stms n (import (last p "") (show p) c) r
          | None, None, None =>
              if block_first ts then
                let* (e, r) := with_block n c ts in
                match r with
                | [] => Some ([], e)
                | _ => let* (l, v) := stms n c (match eat (is_pu ";") r with Some r => r | None => r end) in Some (SExpr e :: l, v)
                end
              else
                let* (e, r) := expr n c false ts in
                match r with
                | [] => Some ([], e)
                | _ => let* r := eat (is_pu ";") r in let* (l, v) := stms n c r in Some (SExpr e :: l, v)
                end
          end
      end
  end
with exprs (n : nat) (c : scope) (ts : list tok) {struct n} : option (list ex) :=
  match n with
  | O => None
  | S n =>
      match ts with
      | [] => Some []
      | _ =>
          let* (e, r) := expr n c false ts in
          match r with
          | [] => Some [e]
          | _ => let* r := eat (is_pu ",") r in let* l := exprs n c r in Some (e :: l)
          end
      end
  end
with fields (n : nat) (c : scope) (ts : list tok) {struct n} : option (list (string * ex)) :=
  match n with
  | O => None
  | S n =>
      match ts with
      | [] => Some []
      | _ =>
          let* (f, r) := ident ts in
          let* r := eat (is_pu ":") r in
          let* (e, r) := expr n c false r in
          match r with
          | [] => Some [(f, e)]
          | _ => let* r := eat (is_pu ",") r in let* l := fields n c r in Some ((f, e) :: l)
          end
      end
  end
with match_arms (n : nat) (c : scope) (ts : list tok) {struct n} : option (list (pat * ex)) :=
  match n with
  | O => None
  | S n =>
      match ts with
      | [] => Some []
      | _ =>
          let* (q, r) := pattern_at c ts in
          let* r := eat (is_pu "=>") r in
          let blk := block_first r in
          let* (e, r) := if blk then with_block n (bind_pat q c) r else expr n (bind_pat q c) false r in
          match r, eat (is_pu ",") r with
          | [], _ => Some [(q, e)]
          | _, Some r => let* l := match_arms n c r in Some ((q, e) :: l)
          | _, None => if blk then let* l := match_arms n c r in Some ((q, e) :: l) else None
          end
      end
  end.

(** ** Types of parameters and results *)
Inductive pty :=
| PtPath (segs : list string) (args : list pty)
| PtRef (mut : bool) (t : pty)
| PtUnit
| PtImpl (t : pty)
| PtLife (x : string).
Definition lifetime (ts : list tok) : option (string * list tok) :=
  match eat (is_pu "'") ts with Some (Id x :: r) => Some (x, r) | _ => None end.
Fixpoint pty_at (n : nat) (ts : list tok) {struct n} : option (pty * list tok) :=
  match n with
  | O => None
  | S n =>
      match ts with
      | Gr o [] :: r => if o =?s "(" then Some (PtUnit, r) else None
      | _ =>
          match lifetime ts, eat (is_pu "&") ts, eat (is_id "impl") ts with
          | Some (x, r), _, _ => Some (PtLife x, r)
          | None, Some r, _ =>
              let r := match lifetime r with Some (_, r) => r | None => r end in
              match eat (is_id "mut") r with
              | Some r => let* (t, r) := pty_at n r in Some (PtRef true t, r)
              | None => let* (t, r) := pty_at n r in Some (PtRef false t, r)
              end
          | None, None, Some r => let* (t, r) := pty_at n r in Some (PtImpl t, r)
          | None, None, None =>
              let* (l, r) := path_at ts in
              match eat (is_pu "<") r with
              | Some r => let* (args, r) := ptys_at n r in let* r := eat (is_pu ">") r in Some (PtPath l args, r)
              | None => Some (PtPath l [], r)
              end
          end
      end
  end
with ptys_at (n : nat) (ts : list tok) {struct n} : option (list pty * list tok) :=
  match n with
  | O => None
  | S n =>
      let* (t, r) := pty_at n ts in
      match eat (is_pu ",") r with
      | Some r => let* (l, r) := ptys_at n r in Some (t :: l, r)
      | None => Some ([t], r)
      end
  end.

(** ** Functions *)
Record pfn := mkPfn { pf_pub : bool; pf_name : string; pf_generics : list (string * option pty);
                      pf_params : list (string * pty); pf_ret : option pty; pf_body : ex }.
Record pimpl := mkPimpl { pi_trait : option (list string); pi_type : string; pi_types : list (string * pty); pi_fns : list pfn }.

(** &self, &'a self, [mut] x: T. *)
Definition param_at (n : nat) (ts : list tok) : option (string * pty * list tok) :=
  match eat (is_pu "&") ts with
  | Some r =>
      let r := match lifetime r with Some (_, r) => r | None => r end in
      let* r := eat (is_id "self") r in Some ("self", PtRef false (PtPath ["Self"] []), r)
  | None =>
      let r := match eat (is_id "mut") ts with Some r => r | None => ts end in
      let* (x, r) := ident r in
      let* r := eat (is_pu ":") r in
      let* (t, r) := pty_at n r in Some (x, t, r)
  end.
(** 'a, T, T: B. *)
Definition generic_at (n : nat) (ts : list tok) : option (string * option pty * list tok) :=
  match lifetime ts with
  | Some (x, r) => Some (x, None, r)
  | None =>
      let* (x, r) := ident ts in
      match eat (is_pu ":") r with
      | Some r => let* (t, r) := pty_at n r in Some (x, Some t, r)
      | None => Some (x, None, r)
      end
  end.
Fixpoint generics_at (n : nat) (ts : list tok) : option (list (string * option pty) * list tok) :=
  match n with
  | O => None
  | S n =>
      let* (g, r) := generic_at n ts in
      match eat (is_pu ",") r with
      | Some r => let* (l, r) := generics_at n r in Some (g :: l, r)
      | None => let* r := eat (is_pu ">") r in Some ([g], r)
      end
  end.
Definition body_of (n : nat) (c : scope) (ts : list tok) : option ex :=
  let* (l, e) := stms n c ts in Some (EBlock l e).
Definition fn_at (n : nat) (self : string) (ts : list tok) : option (pfn * list tok) :=
  let '(pub, ts) := vis ts in
  let* r := eat (is_id "fn") ts in
  let* (f, r) := ident r in
  let* (gs, r) := match eat (is_pu "<") r with Some r => generics_at n r | None => Some ([], r) end in
  match r with
  | Gr o ps :: r =>
      if o =?s "(" then
        let* ps := comma_list (param_at n) n ps in
        let* (t, r) := match eat (is_pu "->") r with
                       | Some r => let* (t, r) := pty_at n r in Some (Some t, r)
                       | None => Some (None, r)
                       end in
        match r with
        | Gr o b :: r =>
            if o =?s "{" then
              let* e := body_of n (mkScope self (rev (map fst ps)) []) b in Some (mkPfn pub f gs ps t e, r)
            else None
        | _ => None
        end
      else None
  | _ => None
  end.

(** ** Implementations *)
Fixpoint members (n : nat) (self : string) (ts : list tok) : option (list (string * pty) * list pfn) :=
  match n with
  | O => None
  | S n =>
      match ts with
      | [] => Some ([], [])
      | _ =>
          match eat (is_id "type") ts with
          | Some r =>
              let* (x, r) := ident r in
              let* r := eat (is_pu "=") r in
              let* (t, r) := pty_at n r in
              let* r := eat (is_pu ";") r in
              let* (ts, fs) := members n self r in Some ((x, t) :: ts, fs)
          | None =>
              let* (f, r) := fn_at n self ts in
              let* (ts, fs) := members n self r in Some (ts, f :: fs)
          end
      end
  end.
Definition impl_at (n : nat) (ts : list tok) : option (pimpl * list tok) :=
  let* r := eat (is_id "impl") ts in
  let* (l, r) := path_at r in
  let* (tr, x, r) := match eat (is_id "for") r with
                     | Some r => let* (x, r) := ident r in Some (Some l, x, r)
                     | None => match l with [x] => Some (None, x, r) | _ => None end
                     end in
  match r with
  | Gr o b :: r => if o =?s "{" then let* (ts, fs) := members n x b in Some (mkPimpl tr x ts fs, r) else None
  | _ => None
  end.

(** ** Files: type declarations (EmitSpec.v) and implementations *)
Inductive pitem := IType (y : type_item) | IImpl (i : pimpl).
(** A declaration ends with the first braces or semicolon. *)
Fixpoint cut (ts : list tok) : list tok * list tok :=
  match ts with
  | [] => ([], [])
  | t :: r =>
      if match t with Gr o _ => o =?s "{" | Pu p => p =?s ";" | _ => false end then ([t], r)
      else let '(a, b) := cut r in (t :: a, b)
  end.
Fixpoint file (n : nat) (ts : list tok) : option (list pitem) :=
  match n with
  | O => None
  | S n =>
      match ts with
      | [] => Some []
      | _ =>
          match eat (is_id "impl") ts with
          | Some _ => let* (i, r) := impl_at n ts in let* l := file n r in Some (IImpl i :: l)
          | None => let '(a, r) := cut ts in let* y := type_item_of a in let* l := file n r in Some (IType y :: l)
          end
      end
  end.

(** ** What is expected of a generated type *)
Definition here (l : list string) : pty := PtPath l [].
Definition decode_error : pty := here [""; "xsd"; "decode"; "FromXmlError"].
Definition writer_error : pty := here [""; "xsd"; "xml"; "writer"; "Error"].
Definition result (t e : pty) : option pty := Some (PtPath ["Result"] [t; e]).
Definition this : pty := here ["Self"].
Definition node_ref : pty := PtRef false (here [""; "xsd"; "decode"; "Node"]).
(** Visibility, generic parameters, types of the parameters, result. *)
Definition signature (f : string) : option (bool * list (string * option pty) * list pty * option pty) :=
  if f =?s "from_xml" then Some (true, [], [PtImpl (PtPath ["AsRef"] [here ["str"]])], result this decode_error)
  else if f =?s "from_xml_node" then Some (false, [], [node_ref], result this decode_error)
  else if f =?s "lookahead" then Some (false, [], [node_ref], Some (here ["bool"]))
  else if f =?s "to_xml" then Some (true, [], [PtRef false this], result (PtPath ["Vec"] [here ["u8"]]) writer_error)
  else if f =?s "to_xml_writer" then
    Some (false, [("a", None); ("b", None); ("W", Some (here [""; "std"; "io"; "Write"]))],
          [PtRef false this; PtPath [""; "xsd"; "Context"] [PtLife "a"; PtLife "b"];
           PtRef true (PtPath [""; "xsd"; "xml"; "writer"; "EventWriter"] [here ["W"]])],
          result PtUnit writer_error)
  else if f =?s "from_str" then Some (false, [], [PtRef false (here ["str"])], result this (here ["Self"; "Err"]))
  else if f =?s "as_str" then Some (true, [], [PtRef false this], Some (PtRef false (here ["str"])))
  else if f =?s "fmt" then Some (false, [], [PtRef false this; PtRef true (here [""; "std"; "fmt"; "Formatter"])], Some (here [""; "std"; "fmt"; "Result"]))
  else None.
(** The body of a function is a block. *)
Definition as_body (e : ex) : ex := match e with EBlock _ _ => e | _ => EBlock [] e end.
(** The functions of Body.v. *)
Definition fn_of (t : titem) (f : string) : list pfn :=
  match item_fn t f, signature f with
  | Some g, Some (pub, gs, tys, ret) => [mkPfn pub f gs (combine (fn_params g) tys) ret (as_body (untyped (fn_body g)))]
  | _, _ => []
  end.
Definition impls_of (t : titem) : list pimpl :=
  let own fs := mkPimpl None (ti_id t) [] (flat_map (fn_of t) fs) in
  let from_str := mkPimpl (Some [""; "std"; "str"; "FromStr"]) (ti_id t) [("Err", decode_error)] (fn_of t "from_str") in
  let display := mkPimpl (Some [""; "std"; "fmt"; "Display"]) (ti_id t) [] (fn_of t "fmt") in
  match ti_decl t with
  | DTuple _ true => [from_str; display]
  | DEnum _ => [from_str; own ["as_str"]; display]
  | _ => []
  end ++ [own ["to_xml"; "to_xml_writer"]; own ["from_xml"; "from_xml_node"]; own ["lookahead"]].
(** A module: for each type its declaration, documented as in the AST, and its functions. *)
Definition describes (y : type_item) (r : root) (t : titem) : Prop := exists sh,
  y = mkTypeItem (type_docs r) ["Debug"; "Clone"; "PartialEq"] true (ti_id t) sh /\ declares sh (fields_docs r) (ti_decl t).
Inductive holds : list pitem -> list (root * titem) -> Prop :=
| ho_nil : holds [] []
| ho_cons y r t items l : describes y r t -> holds items l -> holds (IType y :: map IImpl (impls_of t) ++ items) ((r, t) :: l).
(** Names of types that the functions use for something else: their variables, and [std]. *)
Definition taken : list string := [""; "std"; "node"; "s"].
