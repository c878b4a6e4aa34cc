(** * MacroSpec: what the attribute macro should do, positions in a text *)
From Verif Require Import Base Libs Xml Ast XsdNode Parse Gen ParseSpec RustSpec Macro.

(** ** Lines and columns *)
Definition newline : string := String "010" EmptyString.
Definition one_line (s : string) : Prop := ~ In "010"%char (list_ascii_of_string s).
(** The byte offset [pos] of [text] is in line [row], before character [col], counted from 1. *)
Inductive located (text : string) (pos row col : nat) : Prop :=
| loc lines line rest :
    text = concat_str (map (fun l => l +++ newline) lines) +++ line +++ rest ->
    Forall one_line lines -> one_line line ->
    pos = String.length (concat_str (map (fun l => l +++ newline) lines) +++ line) ->
    row = S (length lines) -> col = S (length (utf8_chars line)) -> located text pos row col.
(** [pos] is not inside a character of [text]. *)
Definition between_chars (text : string) (pos : nat) : Prop :=
  exists a b, text = a +++ b /\ String.length a = pos /\ starts_with_cont b = false.
(** The texts are UTF-8: no line feed is followed by the middle of a character. *)
Definition texts_sound (k : disk) : Prop := forall p a b,
  dk_text k p = Some (a +++ newline +++ b) -> starts_with_cont b = false.
(** roxmltree's ranges start between characters of the text. *)
Definition ranges_sound (k : disk) : Prop := forall text d r,
  dk_xml k text = Some d -> points_into d r -> between_chars text (N.to_nat (fst r)).

(** ** Modules as they are written *)
(** A module as the user writes it: the outer attributes, then the body with its inner
    attributes and items, or [;] for a module in a file of its own. *)
Record written_mod := mkWritten {
  wr_outer : list string;
  wr_vis : string;
  wr_ident : string;
  wr_body : option (list string * list user_item)
}.
(** How [syn] reads it. *)
Definition syn_reads (w : written_mod) (i : item_mod) : Prop :=
  im_vis i = wr_vis w /\ im_ident i = wr_ident w
  /\ match wr_body w with
     | None => im_attrs i = map (mkUattr AOuter) (wr_outer w) /\ im_content i = None
     | Some (inner, items) =>
         im_attrs i = map (mkUattr AOuter) (wr_outer w) ++ map (mkUattr AInner) inner /\ im_content i = Some items
     end.

(** ** What the user may expect *)
(** The arguments are [schema = "..."], at least once; the last one counts. *)
Definition names_schema (args : meta_args) (path : string) : Prop :=
  ms_rest args = true /\ exists l, ms_list args = l ++ [mkMarg "schema" (MvStr path)]
  /\ forall a, In a l -> exists s, a = mkMarg "schema" (MvStr s).

(** Attributes may stand before [mod] only if they are outer attributes; the names of the
    user's types and of the generated ones differ. *)
Definition accepted_output (o : out_mod) : Prop :=
  Forall (fun a => ua_style a = AOuter) (om_attrs o) /\ rust_ok (om_types o)
  /\ NoDup (flat_map ui_types (om_items o) ++ map ti_id (om_types o)).
