(** * XmlChars: characters of XML, and what is read back from written text

    Characters and names of XML 1.0 (5th edition), texts being the bytes of UTF-8; the
    reading back of character data and attribute values that xml-rs wrote, as proved of
    the models of both libraries in PropXml.v. *)
From Verif Require Import Base.
Local Open Scope N_scope.

(** ** Characters *)
Definition cont (c : ascii) : option N := let n := N_of_ascii c in if (128 <=? n) && (n <? 192) then Some (n - 128) else None.
(** The code points of well-formed UTF-8 (shortest form, no surrogates). *)
Fixpoint points (s : string) : option (list N) :=
  match s with
  | "" => Some []
  | String a r =>
      let n := N_of_ascii a in
      if n <? 128 then option_map (cons n) (points r)
      else if n <? 192 then None
      else if n <? 224 then
        match r with
        | String b r =>
            match cont b with
            | Some x => let c := (n - 192) * 64 + x in if 128 <=? c then option_map (cons c) (points r) else None
            | None => None
            end
        | _ => None
        end
      else if n <? 240 then
        match r with
        | String b (String b' r) =>
            match cont b, cont b' with
            | Some x, Some y => let c := ((n - 224) * 64 + x) * 64 + y in
                if (2048 <=? c) && negb ((55296 <=? c) && (c <? 57344)) then option_map (cons c) (points r) else None
            | _, _ => None
            end
        | _ => None
        end
      else if n <? 248 then
        match r with
        | String b (String b' (String b'' r)) =>
            match cont b, cont b', cont b'' with
            | Some x, Some y, Some z => let c := (((n - 240) * 64 + x) * 64 + y) * 64 + z in
                if (65536 <=? c) && (c <? 1114112) then option_map (cons c) (points r) else None
            | _, _, _ => None
            end
        | _ => None
        end
      else None
  end.
Definition byte_of (n : N) : string := String (ascii_of_N n) "".
Definition encode (c : N) : string :=
  if c <? 128 then byte_of c
  else if c <? 2048 then byte_of (192 + c / 64) +++ byte_of (128 + c mod 64)
  else if c <? 65536 then byte_of (224 + c / 4096) +++ byte_of (128 + c / 64 mod 64) +++ byte_of (128 + c mod 64)
  else byte_of (240 + c / 262144) +++ byte_of (128 + c / 4096 mod 64) +++ byte_of (128 + c / 64 mod 64) +++ byte_of (128 + c mod 64).

Definition between (l : list (N * N)) (c : N) : bool := existsb (fun r => (fst r <=? c) && (c <=? snd r)) l.
(** [2] Char *)
Definition char_ok : N -> bool := between [(9, 10); (13, 13); (32, 55295); (57344, 65533); (65536, 1114111)].
(** [4] NameStartChar and [4a] NameChar, without the colon *)
Definition start_ranges : list (N * N) :=
  [(65, 90); (95, 95); (97, 122); (192, 214); (216, 246); (248, 767); (880, 893); (895, 8191); (8204, 8205); (8304, 8591);
   (11264, 12271); (12289, 55295); (63744, 64975); (65008, 65533); (65536, 983039)].
Definition name_start : N -> bool := between start_ranges.
Definition name_char : N -> bool := between (start_ranges ++ [(45, 46); (48, 57); (183, 183); (768, 879); (8255, 8256)]).
Definition xml_chars (s : string) : bool := match points s with Some l => forallb char_ok l | None => false end.
Definition ncname (s : string) : bool := match points s with Some (c :: l) => name_start c && forallb name_char l | _ => false end.

Definition tab : ascii := "009".
Definition lf : ascii := "010".
Definition cr : ascii := "013".
Definition ws (c : ascii) : bool := (Ascii.eqb c " " || Ascii.eqb c tab || Ascii.eqb c lf || Ascii.eqb c cr)%bool.
Fixpoint lit (p s : string) : option string :=
  match p, s with
  | "", _ => Some s
  | String a p, String b s => if Ascii.eqb a b then lit p s else None
  | _, _ => None
  end.
Fixpoint contains (p s : string) : bool :=
  match lit p s, s with
  | Some _, _ => true
  | None, String _ r => contains p r
  | None, "" => false
  end.

(** End-of-line handling (2.11). *)
Fixpoint eol (s : string) : string :=
  match s with
  | "" => ""
  | String c r =>
      if Ascii.eqb c cr then match r with String d _ => if Ascii.eqb d lf then eol r else String lf (eol r) | "" => String lf "" end
      else String c (eol r)
  end.

(** ** Reading back
    What differs between versions of xml-rs: whether [>] and carriage return in text, tabs
    in attributes, and the names of namespaces are escaped. *)
Record emitter := mkEmitter { em_gt : bool; em_cr : bool; em_tab : bool; em_uri : bool }.
Fixpoint untab (s : string) : string := match s with "" => "" | String c r => String (if Ascii.eqb c tab then " "%char else c) (untab r) end.
Definition text_back (em : emitter) (s : string) : option string :=
  if (xml_chars s && (em_gt em || negb (contains "]]>" s)))%bool then Some (if em_cr em then s else eol s) else None.
Definition attr_back (em : emitter) (s : string) : option string :=
  if xml_chars s then Some (if em_tab em then s else untab s) else None.
(** The choice made in the concrete instance of Libs.v. *)
Definition xml_rs : emitter := mkEmitter true false true true.
