(** * LinesSpec: texts that differ in their line ends only (C79) *)
From Verif Require Import Base Xml ForeignSpec Macro XmlGrammar.

(** [lines s u]: [u] is [s] with a line feed for every line end of Windows (CR LF) and of the
    old Macintosh (CR alone): XML 1.0, 2.11. *)
Inductive lines : string -> string -> Prop :=
| ln_nil : lines "" ""
| ln_char c s u : c <> CR -> lines s u -> lines (String c s) (String c u)
| ln_cr s u : ~ is_lf s -> lines s u -> lines (String CR s) (String LF u)
| ln_crlf s u : lines s u -> lines (String CR (String LF s)) (String LF u).
Definition same_lines (s t : string) : Prop := exists u, lines s u /\ lines t u.
(** The text with line ends of Windows. *)
Fixpoint windows (s : string) : string :=
  match s with
  | "" => ""
  | String c r => if Ascii.eqb c LF then String CR (String LF (windows r)) else String c (windows r)
  end.

(** The same tree, with related positions, up to what stands in comments and processing
    instructions. *)
Definition related (P : N -> N -> Prop) (r r' : range) : Prop := P (fst r) (fst r') /\ P (snd r) (snd r').
Inductive alike (P : N -> N -> Prop) : xelem -> xelem -> Prop :=
| al_elem t ns ats ats' nss r r' ks ks' : Forall2 (fun a b => same_attr a b /\ related P (at_range a) (at_range b)) ats ats' ->
    related P r r' -> alike_kids P ks ks' ->
    alike P (XE t ns ats nss r ks) (XE t ns ats' nss r' ks')
with alike_kids (P : N -> N -> Prop) : list (kid xelem) -> list (kid xelem) -> Prop :=
| ak_nil : alike_kids P [] []
| ak_elem e e' ks ks' : alike P e e' -> alike_kids P ks ks' -> alike_kids P (KElem e :: ks) (KElem e' :: ks')
| ak_text s ks ks' : alike_kids P ks ks' -> alike_kids P (KText s :: ks) (KText s :: ks')
| ak_other s s' ks ks' : alike_kids P ks ks' -> alike_kids P (KOther s :: ks) (KOther s' :: ks').
(** What stands before the positions differs in line ends only, and what stands behind them. *)
Definition corresponds (text text' : string) (p p' : N) : Prop :=
  exists a b a' b', text = a +++ b /\ text' = a' +++ b' /\ len a = p /\ len a' = p' /\ same_lines a a' /\ same_lines b b'.

(** Disks with the same files, up to line ends. *)
Definition same_files (k k' : disk) : Prop :=
  dk_push k = dk_push k' /\ dk_parent k = dk_parent k'
  /\ forall p, match dk_text k p, dk_text k' p with
               | Some s, Some t => same_lines s t
               | None, None => True
               | _, _ => False
               end.
