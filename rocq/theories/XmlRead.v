(** * XmlRead: reading the text of a document

    [roxmltree::Document::parse] with the default options, as called by
    xsd/src/decode.rs:51-54 ([decode]) and xsd-internal/src/xsd/schema.rs:57. roxmltree is
    not part of /repo; this is the grammar of XML 1.0 (5th edition) with Namespaces in XML
    1.0, for documents without a document type declaration (the default options of
    roxmltree reject those), and the tree that roxmltree builds. A text is the bytes of its
    UTF-8 encoding. Simplified: limits (number of nodes, nesting) and the kind of an error
    are not represented; ranges are from the first to after the last byte. *)
From Verif Require Import Base Xml XmlChars.
Local Open Scope N_scope.

(** ** Pieces of text *)
Fixpoint span (p : ascii -> bool) (s : string) : string * string :=
  match s with
  | "" => ("", "")
  | String c r => if p c then let '(a, b) := span p r in (String c a, b) else ("", s)
  end.
Definition skip_ws (s : string) : string := snd (span ws s).
(** What is before and after the first [p]. *)
Fixpoint split_at (p s : string) : option (string * string) :=
  match lit p s, s with
  | Some r, _ => Some ("", r)
  | None, String c r => option_map (fun x => (String c (fst x), snd x)) (split_at p r)
  | None, "" => None
  end.
(** Names: bytes that can be part of one. *)
Definition name_byte (c : ascii) : bool :=
  let n := N_of_ascii c in (between [(45, 46); (48, 57); (65, 90); (95, 95); (97, 122)] n || (128 <=? n))%bool.
(** Namespaces [7] QName: prefix ("" if none) and local name. *)
Definition qname (s : string) : option ((string * string) * string) :=
  let '(a, r) := span name_byte s in
  if ncname a then
    match r with
    | String ":" r => let '(b, r) := span name_byte r in if ncname b then Some ((a, b), r) else None
    | _ => Some (("", a), r)
    end
  else None.

(** [67] Reference: what stands between [&] and [;] *)
Definition digit (base : N) (c : ascii) : option N :=
  let n := N_of_ascii c in
  let d := if (48 <=? n) && (n <=? 57) then n - 48 else if (65 <=? n) && (n <=? 70) then n - 55 else if (97 <=? n) && (n <=? 102) then n - 87 else 16 in
  if d <? base then Some d else None.
Fixpoint number_of (base acc : N) (s : string) : option N :=
  match s with
  | "" => Some acc
  | String c r => match digit base c with Some d => number_of base (base * acc + d) r | None => None end
  end.
Definition char_ref (base : N) (s : string) : option string :=
  if is_empty s then None
  else match number_of base 0 s with Some c => if char_ok c then Some (encode c) else None | None => None end.
Definition entity (s : string) : option string :=
  match lit "#x" s, lit "#" s with
  | Some r, _ => char_ref 16 r
  | None, Some r => char_ref 10 r
  | None, None =>
      if s =?s "lt" then Some "<" else if s =?s "gt" then Some ">" else if s =?s "amp" then Some "&"
      else if s =?s "apos" then Some "'" else if s =?s "quot" then Some """" else None
  end.
(** Character data and attribute values with references replaced and line ends (2.11) and,
    in attributes, white space (3.3.3) normalised. [ref] is the part of a reference read. *)
Fixpoint chardata (att : bool) (ref : option string) (s : string) : option string :=
  match s with
  | "" => match ref with None => Some "" | Some _ => None end
  | String c r =>
      match ref with
      | Some b =>
          if Ascii.eqb c ";" then match entity b, chardata att None r with Some t, Some v => Some (t +++ v) | _, _ => None end
          else chardata att (Some (b +++ String c "")) r
      | None =>
          let nl := if att then " "%char else lf in
          if Ascii.eqb c "&" then chardata att (Some "") r
          else if Ascii.eqb c cr then
            match r with
            | String d _ => if Ascii.eqb d lf then chardata att None r else option_map (String nl) (chardata att None r)
            | "" => Some (String nl "")
            end
          else if (att && ws c)%bool then option_map (String " ") (chardata att None r)
          else option_map (String c) (chardata att None r)
      end
  end.

(** ** Markup
    Positions are kept as the number of bytes that are left. *)
Definition left_of (s : string) : N := N.of_nat (String.length s).
Record rattr := mkRattr { ra_name : string * string; ra_value : string; ra_left : N * N }.
Inductive xtok :=
| TkOpen (name : string * string) (attrs : list rattr) (closed : bool)
| TkClose (name : string * string)
| TkText (s : string) (blank : bool)   (* literal white space only *)
| TkOther (s : string).

Definition quoted_raw (s : string) : option (string * string) :=
  match s with
  | String q r =>
      if (Ascii.eqb q "'" || Ascii.eqb q """")%bool then
        match span (fun c => negb (Ascii.eqb c q)) r with
        | (raw, String _ r) => Some (raw, r)
        | _ => None
        end
      else None
  | "" => None
  end.
Definition quoted (s : string) : option (string * string) :=
  match quoted_raw s with
  | Some (raw, r) => if contains "<" raw then None else option_map (fun v => (v, r)) (chardata true None raw)
  | None => None
  end.
Definition xml_attribute (s : string) : option (rattr * string) :=
  match qname s with
  | Some (n, r) =>
      match lit "=" (skip_ws r) with
      | Some r => option_map (fun x => (mkRattr n (fst x) (left_of s, left_of (snd x)), snd x)) (quoted (skip_ws r))
      | None => None
      end
  | None => None
  end.
(** The rest of a start tag, after the name: attributes, each after white space. *)
Fixpoint xml_attributes (fuel : nat) (s : string) : option (list rattr * bool * string) :=
  match fuel with
  | O => None
  | S n =>
      match span ws s with
      | (w, r) =>
          match lit ">" r, lit "/>" r with
          | Some r, _ => Some ([], false, r)
          | None, Some r => Some ([], true, r)
          | None, None =>
              if is_empty w then None
              else match xml_attribute r with
                   | Some (a, r) => option_map (fun x => (a :: fst (fst x), snd (fst x), snd x)) (xml_attributes n r)
                   | None => None
                   end
          end
      end
  end.
(** [19] CDSect, [15] Comment, [16] PI (not called xml), [42] ETag, [40] STag, [44]
    EmptyElemTag, after [<]. *)
Definition markup (s : string) : option (xtok * string) :=
  match lit "!--" s, lit "![CDATA[" s, lit "?" s, lit "/" s with
  | Some r, _, _, _ =>
      match split_at "--" r with
      | Some (b, r) => option_map (fun r => (TkOther b, r)) (lit ">" r)
      | None => None
      end
  | None, Some r, _, _ => option_map (fun x => (TkText (eol (fst x)) false, snd x)) (split_at "]]>" r)
  | None, None, Some r, _ =>
      match split_at "?>" r with
      | Some (b, r) =>
          let '(t, b') := span name_byte b in
          if (ncname t && negb (str_upper t =?s "XML") && (is_empty b' || ws (match b' with String c _ => c | "" => "x"%char end)))%bool
          then Some (TkOther b, r) else None
      | None => None
      end
  | None, None, None, Some r =>
      match qname r with
      | Some (n, r) => option_map (fun r => (TkClose n, r)) (lit ">" (skip_ws r))
      | None => None
      end
  | None, None, None, None =>
      match qname s with
      | Some (n, r) => option_map (fun x => (TkOpen n (fst (fst x)) (snd (fst x)), snd x)) (xml_attributes (S (String.length r)) r)
      | None => None
      end
  end.
(** [14] CharData, or markup. *)
Definition xml_token (s : string) : option (xtok * string) :=
  match s with
  | String "<" r => markup r
  | _ =>
      let '(raw, r) := span (fun c => negb (Ascii.eqb c "<")) s in
      if contains "]]>" raw then None else option_map (fun v => (TkText v (is_empty (skip_ws raw)), r)) (chardata false None raw)
  end.
Fixpoint xml_tokens (fuel : nat) (s : string) : option (list (xtok * (N * N))) :=
  match fuel, s with
  | _, "" => Some []
  | O, _ => None
  | S n, _ => match xml_token s with Some (t, r) => option_map (cons (t, (left_of s, left_of r))) (xml_tokens n r) | None => None end
  end.

(** ** Namespaces and the tree *)
Definition NS_XML : string := "http://www.w3.org/XML/1998/namespace".
Definition NS_XMLNS : string := "http://www.w3.org/2000/xmlns/".
Definition scope := list (option string * string).
Definition oeq : option string -> option string -> bool := opt_eqb String.eqb.
Fixpoint bound (p : option string) (sc : scope) : option string :=
  match sc with [] => None | (q, u) :: sc => if oeq p q then Some u else bound p sc end.
Fixpoint bind_ns (p : option string) (u : string) (sc : scope) : scope :=
  match sc with [] => [(p, u)] | (q, v) :: sc => if oeq p q then (p, u) :: sc else (q, v) :: bind_ns p u sc end.

(** The declarations among the attributes, and the other ones. *)
Definition declared (a : rattr) : option (option string) :=
  match ra_name a with
  | (p, l) => if (is_empty p && (l =?s "xmlns"))%bool then Some None else if p =?s "xmlns" then Some (Some l) else None
  end.
Fixpoint split_attrs (l : list rattr) : scope * list rattr :=
  match l with
  | [] => ([], [])
  | a :: l => let '(d, o) := split_attrs l in match declared a with Some p => ((p, ra_value a) :: d, o) | None => (d, a :: o) end
  end.
(** Namespaces 2.2, 3: reserved prefixes and names, no undeclaring of prefixes. *)
Definition decl_fine (d : option string * string) : bool :=
  let plain := (negb (snd d =?s NS_XML) && negb (snd d =?s NS_XMLNS))%bool in
  match fst d with
  | None => plain
  | Some p => if p =?s "xml" then snd d =?s NS_XML else (negb (p =?s "xmlns") && plain && negb (is_empty (snd d)))%bool
  end.
(** The namespace of a prefix; [None]: there is none. *)
Definition prefix_ns (sc : scope) (p : string) : option string := if p =?s "xml" then Some NS_XML else if p =?s "xmlns" then None else bound (Some p) sc.
Definition elem_ns (sc : scope) (p : string) : option (option string) :=
  if is_empty p then Some (match bound None sc with Some u => if is_empty u then None else Some u | None => None end)
  else option_map Some (prefix_ns sc p).
Definition attr_ns (sc : scope) (p : string) : option (option string) := if is_empty p then Some None else option_map Some (prefix_ns sc p).
Fixpoint resolve (total : N) (sc : scope) (l : list rattr) : option (list attr) :=
  match l with
  | [] => Some []
  | a :: l =>
      match attr_ns sc (fst (ra_name a)), resolve total sc l with
      | Some ns, Some r =>
          if existsb (fun b => (at_name b =?s snd (ra_name a)) && oeq (at_ns b) ns)%bool r then None
          else Some (mkAttr (snd (ra_name a)) ns (ra_value a) (total - fst (ra_left a), total - snd (ra_left a)) :: r)
      | _, _ => None
      end
  end.

Record rframe := mkRframe { rf_name : string * string; rf_ns : option string; rf_attrs : list attr; rf_scope : scope; rf_start : N; rf_kids : list (kid xelem) }.
Definition open_tag (total start : N) (sc : scope) (n : string * string) (l : list rattr) : option rframe :=
  let '(d, o) := split_attrs l in
  let sc := fold_left (fun sc d => bind_ns (fst d) (snd d) sc) d sc in
  if (forallb decl_fine d && nodupb oeq (map fst d))%bool then
    match elem_ns sc (fst n), resolve total sc o with
    | Some ns, Some ats => Some (mkRframe n ns ats sc start [])
    | _, _ => None
    end
  else None.
Definition with_kids (f : rframe) (ks : list (kid xelem)) : rframe := mkRframe (rf_name f) (rf_ns f) (rf_attrs f) (rf_scope f) (rf_start f) ks.
(** Adjacent text is one node. *)
Definition add_text (s : string) (ks : list (kid xelem)) : list (kid xelem) :=
  if is_empty s then ks
  else match rev ks with KText t :: r => rev r ++ [KText (t +++ s)] | _ => ks ++ [KText s] end.
Definition close_tag (stop : N) (f : rframe) : xelem := XE (snd (rf_name f)) (rf_ns f) (rf_attrs f) (rf_scope f) (rf_start f, stop) (rf_kids f).
Fixpoint xml_tree (total : N) (ts : list (xtok * (N * N))) (stack : list rframe) (root : option xelem) : option xelem :=
  match ts with
  | [] => match stack with [] => root | _ => None end
  | (t, (b, e)) :: ts =>
      let closing f st :=
        let x := close_tag (total - e) f in
        match st with
        | [] => xml_tree total ts [] (Some x)
        | g :: st => xml_tree total ts (with_kids g (rf_kids g ++ [KElem x]) :: st) root
        end in
      match t, stack with
      | TkText _ blank, [] => if blank then xml_tree total ts [] root else None
      | TkText s _, f :: st => xml_tree total ts (with_kids f (add_text s (rf_kids f)) :: st) root
      | TkOther _, [] => xml_tree total ts [] root
      | TkOther s, f :: st => xml_tree total ts (with_kids f (rf_kids f ++ [KOther s]) :: st) root
      | TkOpen n l closed, _ =>
          match stack, root with
          | [], Some _ => None
          | _, _ =>
              match open_tag total (total - b) (match stack with [] => [] | f :: _ => rf_scope f end) n l with
              | Some f => if closed then closing f stack else xml_tree total ts (f :: stack) root
              | None => None
              end
          end
      | TkClose n, f :: st => if ((fst n =?s fst (rf_name f)) && (snd n =?s snd (rf_name f)))%bool then closing f st else None
      | TkClose _, [] => None
      end
  end.

(** ** Documents *)
(** [23] XMLDecl *)
Definition pseudo (name s : string) : option (string * string) :=
  match span ws s with
  | (w, r) =>
      if is_empty w then None
      else match lit name r with
           | Some r => match lit "=" (skip_ws r) with Some r => quoted_raw (skip_ws r) | None => None end
           | None => None
           end
  end.
Definition all_of (p : ascii -> bool) (s : string) : bool := is_empty (snd (span p s)).
Definition version_ok (v : string) : bool := match lit "1." v with Some d => (negb (is_empty d) && all_of (fun c => between [(48, 57)] (N_of_ascii c)) d)%bool | None => false end.
Definition encoding_ok (v : string) : bool :=
  match v with
  | String c r => (between [(65, 90); (97, 122)] (N_of_ascii c) && all_of (fun c => between [(45, 46); (48, 57); (65, 90); (95, 95); (97, 122)] (N_of_ascii c)) r)%bool
  | "" => false
  end.
Definition declaration (s : string) : option string :=
  match lit "<?xml" s with
  | Some (String c r') =>
      if ws c then
        match pseudo "version" (String c r') with
        | Some (v, r) =>
            if version_ok v then
              let enc r := match pseudo "encoding" r with Some (v, r) => if encoding_ok v then Some r else None | None => Some r end in
              let alone r := match pseudo "standalone" r with Some (v, r) => if ((v =?s "yes") || (v =?s "no"))%bool then Some r else None | None => Some r end in
              match enc r with Some r => match alone r with Some r => lit "?>" (skip_ws r) | None => None end | None => None end
            else None
        | None => None
        end
      else Some s
  | _ => Some s
  end.
Definition parse_xml (text : string) : option xelem :=
  let s := match lit (byte_of 239 +++ byte_of 187 +++ byte_of 191) text with Some r => r | None => text end in
  if xml_chars s then
    match declaration s with
    | Some r =>
        match xml_tokens (String.length r) r with
        | Some ts => xml_tree (left_of text) ts [] None
        | None => None
        end
    | None => None
    end
  else None.
