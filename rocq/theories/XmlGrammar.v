(** * XmlGrammar: which texts are documents of XML, and what is in them

    Specification for PropGrammar.v: XML 1.0 (fifth edition) and Namespaces in XML 1.0,
    without document type declarations, which roxmltree rejects (/repo never asks for them:
    xsd-internal/src/xsd/schema.rs:57). Numbers in brackets are
    productions. A document is a sequence of pieces (tags, text, comments, ...), and these
    are nested. *)
From Verif Require Import Base Xml.
Local Open Scope N_scope.

(** ** Characters *)
(** [2] *)
Definition Char (c : N) : Prop :=
  c = 0x9 \/ c = 0xA \/ c = 0xD \/ 0x20 <= c <= 0xD7FF \/ 0xE000 <= c <= 0xFFFD \/ 0x10000 <= c <= 0x10FFFF.
(** [4], without the colon *)
Definition NameStartChar (c : N) : Prop :=
  0x41 <= c <= 0x5A \/ c = 0x5F \/ 0x61 <= c <= 0x7A \/ 0xC0 <= c <= 0xD6 \/ 0xD8 <= c <= 0xF6 \/ 0xF8 <= c <= 0x2FF
  \/ 0x370 <= c <= 0x37D \/ 0x37F <= c <= 0x1FFF \/ 0x200C <= c <= 0x200D \/ 0x2070 <= c <= 0x218F \/ 0x2C00 <= c <= 0x2FEF
  \/ 0x3001 <= c <= 0xD7FF \/ 0xF900 <= c <= 0xFDCF \/ 0xFDF0 <= c <= 0xFFFD \/ 0x10000 <= c <= 0xEFFFF.
(** [4a], without the colon *)
Definition NameChar (c : N) : Prop :=
  NameStartChar c \/ c = 0x2D \/ c = 0x2E \/ 0x30 <= c <= 0x39 \/ c = 0xB7 \/ 0x300 <= c <= 0x36F \/ 0x203F <= c <= 0x2040.

(** UTF-8 (RFC 3629) *)
Definition byte (n : N) (s : string) : string := String (ascii_of_N n) s.
Inductive utf8 : N -> string -> Prop :=
| utf8_1 c : c < 0x80 -> utf8 c (byte c "")
| utf8_2 a b : a < 0x20 -> b < 0x40 -> 0x80 <= 0x40 * a + b -> utf8 (0x40 * a + b) (byte (0xC0 + a) (byte (0x80 + b) ""))
| utf8_3 a b c : a < 0x10 -> b < 0x40 -> c < 0x40 -> 0x800 <= 0x1000 * a + 0x40 * b + c ->
    utf8 (0x1000 * a + 0x40 * b + c) (byte (0xE0 + a) (byte (0x80 + b) (byte (0x80 + c) "")))
| utf8_4 a b c d : a < 0x8 -> b < 0x40 -> c < 0x40 -> d < 0x40 -> 0x10000 <= 0x40000 * a + 0x1000 * b + 0x40 * c + d ->
    utf8 (0x40000 * a + 0x1000 * b + 0x40 * c + d) (byte (0xF0 + a) (byte (0x80 + b) (byte (0x80 + c) (byte (0x80 + d) "")))).
(** The bytes of characters. *)
Inductive text_of : list N -> string -> Prop :=
| text_nil : text_of [] ""
| text_cons c l u s : Char c -> utf8 c u -> text_of l s -> text_of (c :: l) (u +++ s).

Definition len (s : string) : N := N.of_nat (String.length s).
Definition every (P : ascii -> Prop) (s : string) : Prop := Forall P (list_ascii_of_string s).
Definition occurs (p s : string) : Prop := exists a b, s = a +++ p +++ b.
Definition CR : ascii := "013".
Definition LF : ascii := "010".
(** [3] *)
Definition Space (c : ascii) : Prop := In c [" "; "009"; CR; LF]%char.
Definition spaces (s : string) : Prop := every Space s.
Definition is_lf (s : string) : Prop := exists r, s = String LF r.

(** Namespaces [4], [7]: prefix ("" if there is none) and local name. *)
Definition NCName (s : string) : Prop := exists c l, text_of (c :: l) s /\ NameStartChar c /\ Forall NameChar l.
Inductive QName : string -> string * string -> Prop :=
| q_local s : NCName s -> QName s ("", s)
| q_prefix p s : NCName p -> NCName s -> QName (p +++ ":" +++ s) (p, s).

(** ** References, values of attributes, text *)
Definition digit_of (base : N) (c : ascii) (d : N) : Prop :=
  d < base /\ (String.get (N.to_nat d) "0123456789abcdef" = Some c \/ String.get (N.to_nat d) "0123456789ABCDEF" = Some c).
Inductive numeral (base : N) : string -> N -> Prop :=
| n_one c d : digit_of base c d -> numeral base (String c "") d
| n_more s n c d : numeral base s n -> digit_of base c d -> numeral base (s +++ String c "") (base * n + d).
(** [66], [68], 4.6 *)
Inductive Reference : string -> string -> Prop :=
| r_decimal s n u : numeral 10 s n -> Char n -> utf8 n u -> Reference ("&#" +++ s +++ ";") u
| r_hexadecimal s n u : numeral 16 s n -> Char n -> utf8 n u -> Reference ("&#x" +++ s +++ ";") u
| r_lt : Reference "&lt;" "<"
| r_gt : Reference "&gt;" ">"
| r_amp : Reference "&amp;" "&"
| r_apos : Reference "&apos;" "'"
| r_quot : Reference "&quot;" """".
(** What stands between the quotes [q] of an attribute ([10]), and its value (2.11, 3.3.3). *)
Inductive AttContent (q : ascii) : string -> string -> Prop :=
| a_nil : AttContent q "" ""
| a_char c r v : ~ Space c -> ~ In c [q; "<"; "&"]%char -> AttContent q r v -> AttContent q (String c r) (String c v)
| a_space c r v : Space c -> c <> CR -> AttContent q r v -> AttContent q (String c r) (String " " v)
| a_cr r v : ~ is_lf r -> AttContent q r v -> AttContent q (String CR r) (String " " v)
| a_crlf r v : AttContent q r v -> AttContent q (String CR (String LF r)) (String " " v)
| a_ref t u r v : Reference t u -> AttContent q r v -> AttContent q (t +++ r) (u +++ v).
Definition AttValue (s v : string) : Prop :=
  exists q raw, In q ["'"; """"]%char /\ s = String q (raw +++ String q "") /\ AttContent q raw v.
(** [14], with references, and the text meant (2.11). *)
Inductive CharData : string -> string -> Prop :=
| d_nil : CharData "" ""
| d_char c r v : ~ In c [CR; "<"; "&"]%char -> CharData r v -> CharData (String c r) (String c v)
| d_cr r v : ~ is_lf r -> CharData r v -> CharData (String CR r) (String LF v)
| d_crlf r v : CharData r v -> CharData (String CR (String LF r)) (String LF v)
| d_ref t u r v : Reference t u -> CharData r v -> CharData (t +++ r) (u +++ v).
(** [20] *)
Inductive CData : string -> string -> Prop :=
| e_nil : CData "" ""
| e_char c r v : c <> CR -> CData r v -> CData (String c r) (String c v)
| e_cr r v : ~ is_lf r -> CData r v -> CData (String CR r) (String LF v)
| e_crlf r v : CData r v -> CData (String CR (String LF r)) (String LF v).

(** ** Pieces, with the positions of their first byte and of the first one after them *)
Record xatt := mkXatt { x_name : string * string; x_value : string; x_range : range }.
Inductive xpiece :=
| POpen (name : string * string) (ats : list xatt) (empty : bool)
| PClose (name : string * string)
| PText (raw s : string)
| PCData (s : string)
| POther (s : string).      (* comment, processing instruction *)
(** [25] *)
Definition EqSign (s : string) : Prop := exists a b, spaces a /\ spaces b /\ s = a +++ "=" +++ b.
(** [40], [41]: each attribute after white space *)
Inductive attributes : N -> string -> list xatt -> Prop :=
| as_nil pos : attributes pos "" []
| as_cons pos w n name e q v r l : spaces w -> w <> "" -> QName n name -> EqSign e -> AttValue q v ->
    attributes (pos + len w + len n + len e + len q) r l ->
    attributes pos (w +++ n +++ e +++ q +++ r) (mkXatt name v (pos + len w, pos + len w + len n + len e + len q) :: l).
(** [17]: not [xml] in any case *)
Definition xml_like (s : string) : Prop :=
  exists a b c, s = String a (String b (String c "")) /\ In a ["x"; "X"]%char /\ In b ["m"; "M"]%char /\ In c ["l"; "L"]%char.
Inductive piece (pos : N) : string -> xpiece -> Prop :=
| p_start n name ats l w : QName n name -> attributes (pos + 1 + len n) ats l -> spaces w ->   (* [40] *)
    piece pos ("<" +++ n +++ ats +++ w +++ ">") (POpen name l false)
| p_empty n name ats l w : QName n name -> attributes (pos + 1 + len n) ats l -> spaces w ->   (* [44] *)
    piece pos ("<" +++ n +++ ats +++ w +++ "/>") (POpen name l true)
| p_end n name w : QName n name -> spaces w -> piece pos ("</" +++ n +++ w +++ ">") (PClose name)   (* [42] *)
| p_text raw v : raw <> "" -> CharData raw v -> ~ occurs "]]>" raw -> piece pos raw (PText raw v)
| p_cdata b v : CData b v -> ~ occurs "]]>" b -> piece pos ("<![CDATA[" +++ b +++ "]]>") (PCData v)   (* [18] *)
| p_comment b : ~ occurs "--" (b +++ "-") -> piece pos ("<!--" +++ b +++ "-->") (POther b)   (* [15] *)
| p_pi t b : NCName t -> ~ xml_like t -> b = "" \/ (exists c r, b = String c r /\ Space c) -> ~ occurs "?>" b ->   (* [16] *)
    piece pos ("<?" +++ t +++ b +++ "?>") (POther (t +++ b)).
(** No text stands next to text. *)
Definition at_text (l : list (N * xpiece * N)) : Prop := exists b raw s e r, l = (b, PText raw s, e) :: r.
Inductive pieces : N -> string -> list (N * xpiece * N) -> Prop :=
| ps_nil pos : pieces pos "" []
| ps_cons pos t p s l : piece pos t p -> (forall raw v, p = PText raw v -> ~ at_text l) -> pieces (pos + len t) s l ->
    pieces pos (t +++ s) ((pos, p, pos + len t) :: l).

(** ** Namespaces *)
Definition xml_ns : string := "http://www.w3.org/XML/1998/namespace".
Definition xmlns_ns : string := "http://www.w3.org/2000/xmlns/".
(** Prefixes ([None]: the default) and names. *)
Definition bindings := list (option string * string).
(** The attributes that declare namespaces ([1]), and the others. *)
Inductive sorted : list xatt -> bindings -> list xatt -> Prop :=
| s_nil : sorted [] [] []
| s_default v rng l d o : sorted l d o -> sorted (mkXatt ("", "xmlns") v rng :: l) ((None, v) :: d) o
| s_prefix p v rng l d o : sorted l d o -> sorted (mkXatt ("xmlns", p) v rng :: l) ((Some p, v) :: d) o
| s_attr p n v rng l d o : p <> "xmlns" -> ~ (p = "" /\ n = "xmlns") -> sorted l d o -> sorted (mkXatt (p, n) v rng :: l) d (mkXatt (p, n) v rng :: o).
(** Section 3: reserved prefixes and names; prefixes are not undeclared. *)
Definition binding_ok (d : option string * string) : Prop :=
  fst d <> Some "xmlns" /\ snd d <> xmlns_ns /\ (fst d = Some "xml" <-> snd d = xml_ns) /\ (fst d <> None -> snd d <> "").
(** Section 6: those of the outer element, unless declared anew, and the new ones. *)
Definition newest (new : bindings) (d : option string * string) : option string * string :=
  match find (fun e => opt_eqb String.eqb (fst e) (fst d)) new with Some e => e | None => d end.
Definition in_scope (outer new : bindings) : bindings :=
  map (newest new) outer ++ filter (fun d => negb (existsb (fun e => opt_eqb String.eqb (fst e) (fst d)) outer)) new.
Definition means (sc : bindings) (p u : string) : Prop := p = "xml" /\ u = xml_ns \/ p <> "xml" /\ p <> "xmlns" /\ In (Some p, u) sc.
Definition element_ns (sc : bindings) (p : string) (ns : option string) : Prop :=
  p = "" /\ (forall u, ns = Some u <-> In (None, u) sc /\ u <> "") \/ p <> "" /\ exists u, ns = Some u /\ means sc p u.
Definition attribute_ns (sc : bindings) (p : string) (ns : option string) : Prop :=
  p = "" /\ ns = None \/ p <> "" /\ exists u, ns = Some u /\ means sc p u.
Definition attribute_of (sc : bindings) (a : xatt) (b : attr) : Prop :=
  at_name b = snd (x_name a) /\ attribute_ns sc (fst (x_name a)) (at_ns b) /\ at_value b = x_value a /\ at_range b = x_range a.
(** A start tag within [sc]: the namespaces in scope, that of the element, its attributes. *)
Definition tag (sc : bindings) (name : string * string) (l : list xatt) (sc' : bindings) (ns : option string) (ats : list attr) : Prop :=
  exists d o, sorted l d o /\ NoDup (map fst d) /\ Forall binding_ok d /\ sc' = in_scope sc d
    /\ element_ns sc' (fst name) ns /\ Forall2 (attribute_of sc') o ats /\ NoDup (map (fun b => (at_name b, at_ns b)) ats).

(** ** The tree *)
(** Adjacent text is one node, empty text is none. *)
Fixpoint join (l : list (kid xelem)) : list (kid xelem) :=
  match l with
  | [] => []
  | KText s :: l =>
      match join l with
      | KText t :: r => KText (s +++ t) :: r
      | r => match s with "" => r | _ => KText s :: r end
      end
  | k :: l => k :: join l
  end.
(** [39], [43] *)
Inductive element (sc : bindings) : list (N * xpiece * N) -> xelem -> Prop :=
| el_empty b n l e sc' ns ats : tag sc n l sc' ns ats -> element sc [(b, POpen n l true, e)] (XE (snd n) ns ats sc' (b, e) [])
| el_full b n l e sc' ns ats ps ks b' e' : tag sc n l sc' ns ats -> content sc' ps ks ->
    element sc ((b, POpen n l false, e) :: ps ++ [(b', PClose n, e')]) (XE (snd n) ns ats sc' (b, e') (join ks))
with content (sc : bindings) : list (N * xpiece * N) -> list (kid xelem) -> Prop :=
| c_nil : content sc [] []
| c_text b raw s e ps ks : content sc ps ks -> content sc ((b, PText raw s, e) :: ps) (KText s :: ks)
| c_cdata b s e ps ks : content sc ps ks -> content sc ((b, PCData s, e) :: ps) (KText s :: ks)
| c_other b s e ps ks : content sc ps ks -> content sc ((b, POther s, e) :: ps) (KOther s :: ks)
| c_element ps x qs ks : element sc ps x -> content sc qs ks -> content sc (ps ++ qs) (KElem x :: ks).

(** ** Documents *)
Definition quote_of (v s : string) : Prop := exists q, In q ["'"; """"]%char /\ s = String q (v +++ String q "").
Definition Digit (c : ascii) : Prop := 0x30 <= N_of_ascii c <= 0x39.
Definition Letter (c : ascii) : Prop := 0x41 <= N_of_ascii c <= 0x5A \/ 0x61 <= N_of_ascii c <= 0x7A.
(** White space, name, equals sign and quoted value. *)
Definition declares_value (name v s : string) : Prop :=
  exists w e q, spaces w /\ w <> "" /\ EqSign e /\ quote_of v q /\ s = w +++ name +++ e +++ q.
Definition VersionNum (v : string) : Prop := exists d, v = "1." +++ d /\ d <> "" /\ every Digit d.   (* [26] *)
Definition EncName (v : string) : Prop :=   (* [81] *)
  exists c r, v = String c r /\ Letter c /\ every (fun c => Letter c \/ Digit c \/ In c ["."; "_"; "-"]%char) r.
(** [23] *)
Definition XMLDecl (s : string) : Prop :=
  exists v ver enc alone w, s = "<?xml" +++ ver +++ enc +++ alone +++ w +++ "?>"
    /\ VersionNum v /\ declares_value "version" v ver
    /\ (enc = "" \/ exists n, EncName n /\ declares_value "encoding" n enc)
    /\ (alone = "" \/ exists b, In b ["yes"; "no"] /\ declares_value "standalone" b alone) /\ spaces w.
(** [27], white space being part of it *)
Definition Misc (p : N * xpiece * N) : Prop :=
  match snd (fst p) with POther _ => True | PText raw _ => spaces raw | _ => False end.
(** [1], [22], after a byte order mark or none *)
Definition XmlDocument (text : string) (x : xelem) : Prop :=
  exists bom decl body l before ps after,
    text = bom +++ decl +++ body
    /\ (bom = "" \/ bom = byte 0xEF (byte 0xBB (byte 0xBF ""))) /\ text_of l (decl +++ body)
    /\ (decl = "" \/ XMLDecl decl)
    /\ pieces (len bom + len decl) body (before ++ ps ++ after)
    /\ Forall Misc before /\ element [] ps x /\ Forall Misc after.
