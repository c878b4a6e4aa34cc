(** * XmlWrite: the text that xml-rs writes

    [xml::writer::EventWriter] with [EmitterConfig::new().perform_indent(true)], as used by
    the emitted [to_xml] (xsd-internal/src/xsd/schema.rs:257-275) and by xsd/src/lib.rs:68-107.
    xml-rs is not part of /repo; the functions follow its writer/emitter.rs, namespace.rs and
    escape.rs. Where versions differ the choice is a parameter ([emitter],
    XmlChars.v). *)
From Verif Require Import Base Libs Xml Writer XmlChars.

Section Emitter.
Variable em : emitter.

Definition esc_text (c : ascii) : string :=
  if Ascii.eqb c "<" then "&lt;" else if Ascii.eqb c "&" then "&amp;"
  else if (Ascii.eqb c ">" && em_gt em)%bool then "&gt;" else if (Ascii.eqb c cr && em_cr em)%bool then "&#xD;" else String c "".
Definition esc_attr (c : ascii) : string :=
  if Ascii.eqb c "<" then "&lt;" else if Ascii.eqb c ">" then "&gt;" else if Ascii.eqb c """" then "&quot;" else if Ascii.eqb c "'" then "&apos;"
  else if Ascii.eqb c "&" then "&amp;" else if Ascii.eqb c lf then "&#xA;" else if Ascii.eqb c cr then "&#xD;"
  else if (Ascii.eqb c tab && em_tab em)%bool then "&#x9;" else String c "".
Fixpoint escape (f : ascii -> string) (s : string) : string := match s with "" => "" | String c r => f c +++ escape f r end.

(** Emitter: how deep, what was written last at each level, the open elements, whether the
    last start tag still lacks its [>], and the namespaces declared by each open element. *)
Inductive wrote := Nothing | Markup | Text.
Record wstate := mkWstate { ws_level : nat; ws_wrote : list wrote; ws_names : list string; ws_open : bool; ws_nss : list (list (string * string)) }.
Definition wrote_last (w : wrote) (s : wstate) : bool :=
  match ws_wrote s, w with Nothing :: _, Nothing | Markup :: _, Markup | Text :: _, Text => true | _, _ => false end.
Definition set_wrote (w : wrote) (l : list wrote) : list wrote := match l with [] => [] | _ :: l => w :: l end.
Fixpoint indent (n : nat) : string := match n with O => "" | S n => "  " +++ indent n end.
Definition newline (n : nat) : string := String lf (indent n).

(** [before_markup] *)
Definition before_markup (s : wstate) : string * list wrote :=
  if (negb (wrote_last Text s) && (negb (ws_level s =? 0) || wrote_last Markup s))%nat%bool
  then (newline (ws_level s), if (ws_level s =? 0)%nat then ws_wrote s else set_wrote Markup (ws_wrote s))
  else ("", ws_wrote s).
(** [fix_non_empty_element] *)
Definition finish (s : wstate) : string := if ws_open s then ">" else "".

(** [put_checked]: not declared again if some open element declares it so. A namespace is a
    BTreeMap, so prefixes come in order. *)
Fixpoint insert_ns (d : string * string) (l : list (string * string)) : list (string * string) :=
  match l with
  | [] => [d]
  | e :: l => if String.leb (fst d) (fst e) then d :: e :: l else e :: insert_ns d l
  end.
Definition sort_ns (l : list (string * string)) : list (string * string) := fold_right insert_ns [] l.
Definition declares_ns (nss : list (list (string * string))) (d : string * string) : bool :=
  existsb (fun m => opt_eqb String.eqb (aget String.eqb (fst d) m) (Some (snd d))) nss.
Definition new_ns (nss : list (list (string * string))) (l : list (string * string)) : list (string * string) :=
  filter (fun d => negb (declares_ns nss d)) (sort_ns l).
(** [emit_current_namespace_attributes] *)
Definition ns_text (d : string * string) : string :=
  let u := if em_uri em then escape esc_attr (snd d) else snd d in
  if ((fst d =?s "xml") || (fst d =?s "xmlns"))%bool then ""
  else if is_empty (fst d) then if is_empty (snd d) then "" else " xmlns=""" +++ u +++ """"
  else " xmlns:" +++ fst d +++ "=""" +++ u +++ """".
(** [emit_attributes] *)
Definition attr_text (a : string * string) : string := " " +++ fst a +++ "=""" +++ escape esc_attr (snd a) +++ """".

Definition start_text (s : wstate) (name : string) (ats nss : list (string * string)) : string * wstate :=
  let '(ind, w) := before_markup (mkWstate (ws_level s) (ws_wrote s) (ws_names s) false (ws_nss s)) in
  let d := new_ns (ws_nss s) nss in
  (finish s +++ ind +++ "<" +++ name +++ concat_str (map ns_text d) +++ concat_str (map attr_text ats),
   mkWstate (S (ws_level s)) (Markup :: w) (name :: ws_names s) true (d :: ws_nss s)).
Definition end_text (s : wstate) : option (string * wstate) :=
  match ws_names s with
  | [] => None
  | name :: names =>
      let t := if ws_open s then " />"
               else (if (wrote_last Markup s && negb (ws_level s =? 0))%nat%bool then newline (ws_level s - 1) else "") +++ "</" +++ name +++ ">" in
      let w := if (ws_level s =? 0)%nat then ws_wrote s else tl (ws_wrote s) in
      Some (t, mkWstate (ws_level s - 1) (set_wrote Markup w) names false (tl (ws_nss s)))
  end.
Definition chars_text (s : wstate) (t : string) : string * wstate :=
  (finish s +++ escape esc_text t, mkWstate (ws_level s) (set_wrote Text (ws_wrote s)) (ws_names s) false (ws_nss s)).

(** The text of events; [None]: the writer reports an error (an end tag without start tag). *)
Fixpoint write_events (s : wstate) (evs : list event) : option string :=
  match evs with
  | [] => Some ""
  | EvStart n ats nss :: evs => let '(t, s) := start_text s n ats nss in option_map (append t) (write_events s evs)
  | EvEnd :: evs => match end_text s with Some (t, s) => option_map (append t) (write_events s evs) | None => None end
  | EvChars c :: evs => let '(t, s) := chars_text s c in option_map (append t) (write_events s evs)
  end.
(** schema.rs:266-270: the start of the document comes first. *)
Definition write_xml (evs : list event) : option string :=
  option_map (append "<?xml version=""1.0"" encoding=""UTF-8""?>") (write_events (mkWstate 0 [Markup] [] false []) evs).
End Emitter.
