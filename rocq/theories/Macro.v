(** * Macro: the attribute macro [xsd::all] and the positions of its errors *)
From Verif Require Import Base Libs Xml Ast XsdNode Parse Gen.

(** ** Files as texts *)
(** What the macro sees of the disk. [dk_text] is [read_to_string] (schema.rs:34-42; [None]:
    cannot be opened, or not UTF-8), [dk_xml] is [roxmltree::Document::parse]
    (schema.rs:57-69), [dk_xml_pos] the position of a syntax error. *)
Record disk := mkDisk {
  dk_text : string -> option string;
  dk_xml : string -> option xelem;
  dk_xml_pos : string -> nat * nat;
  dk_push : string -> string -> string;
  dk_parent : string -> string
}.
(** xsd-internal/src/xsd/schema.rs:28-69: opening and parsing a file. *)
Definition fs_of (k : disk) : fs :=
  mkFs (fun p => match dk_text k p with None => None | Some t => Some (dk_xml k t) end) (dk_push k) (dk_parent k).

(** [str::is_char_boundary], for the slice below (roxmltree, called at schema.rs:77). *)
Definition char_boundary (s : string) (pos : nat) : bool :=
  match String.get pos s with
  | None => Nat.eqb pos (String.length s)
  | Some c => negb (is_cont_byte c)
  end.
(** roxmltree's [calc_curr_row], called at schema.rs:77. *)
Fixpoint count_newlines (s : string) : nat :=
  match s with
  | EmptyString => 0
  | String c s' => (if Ascii.eqb c "010" then 1 else 0) + count_newlines s'
  end.
(** roxmltree's [calc_curr_col], called at schema.rs:77. *)
Fixpoint chars_to_newline (l : list string) : nat :=
  match l with
  | [] => 0
  | c :: l' => if c =?s String "010" "" then 0 else S (chars_to_newline l')
  end.
(** roxmltree 0.20 [Document::text_pos_at], called at schema.rs:77 ([gen_text_pos_from], [calc_curr_row],
    [calc_curr_col]): the row counts line feeds, the column the characters since the last
    one, both from 1. Slicing inside a character panics ([None]). *)
Definition text_pos_at (text : string) (pos : nat) : option (nat * nat) :=
  let pos := Nat.min pos (String.length text) in
  if char_boundary text pos then
    let before := substring 0 pos text in
    Some (S (count_newlines before), S (chars_to_newline (rev (utf8_chars before))))
  else None.

(** schema.rs:57-84: row and column of a [SchemaError::Xsd]; [None] for the other errors
    (schema.rs:328-347), inner [None] for the panic. *)
Definition error_position (k : disk) (e : schema_err) : option (option (nat * nat)) :=
  match e with
  | SeXsd x file =>
      match dk_text k file with
      | None => None
      | Some text =>
          match dk_xml k text with
          | None => Some (Some (dk_xml_pos k text))
          | Some _ => match xsd_err_range x with
                      | Some r => Some (text_pos_at text (N.to_nat (fst r)))
                      | None => Some (Some (0, 0))
                      end
          end
      end
  | SeOpen _ | SeNotFound _ => None
  end.

(** ** The item the attribute is written on *)
(** [syn::Attribute] (xsd-derive/src/generator.rs:11). *)
Inductive attr_style := AOuter | AInner.
Record user_attr := mkUattr { ua_style : attr_style; ua_text : string }.
(** An item of the user (xsd-derive/src/generator.rs:14-18); [ui_types] are the names it adds to the type namespace. *)
Record user_item := mkUitem { ui_text : string; ui_types : list string }.
(** [syn::ItemMod] (xsd-derive/src/lib.rs:12, generator.rs:11-18). syn appends the inner attributes of the body to [attrs]. *)
Record item_mod := mkImod {
  im_attrs : list user_attr;
  im_vis : string;
  im_ident : string;
  im_content : option (list user_item)
}.

(** ** The arguments (xsd-derive/src/lib.rs:14-25) *)
(** What follows the name of an argument (xsd-derive/src/lib.rs:17). *)
Inductive meta_value := MvStr (s : string) | MvOther | MvMissing.
Record meta_arg := mkMarg { ma_path : string; ma_value : meta_value }.
(** A comma separated list (xsd-derive/src/lib.rs:15, 24); [ms_rest] says whether what follows the listed arguments is
    empty (or one comma). *)
Record meta_args := mkMargs { ms_list : list meta_arg; ms_rest : bool }.

(** The compile errors (xsd-derive/src/lib.rs:12, 17, 21, 24, 29-33, 63). *)
Inductive macro_err :=
| MeItem                       (* not a module *)
| MeProperty (path : string)   (* "unsupported property" *)
| MeValue                      (* no [=], or not a string literal *)
| MeSyntax                     (* the rest of the arguments *)
| MeRequired                   (* "Argument `schema` required" *)
| MeSchema (e : schema_err).

(** lib.rs:15-24, the closure of [syn::meta::parser]; a later value replaces an earlier one. *)
Fixpoint read_args (l : list meta_arg) (schema : option string) : macro_err + option string :=
  match l with
  | [] => inr schema
  | a :: l' =>
      if ma_path a =?s "schema" then
        match ma_value a with
        | MvStr s => read_args l' (Some s)
        | _ => inl MeValue
        end
      else inl (MeProperty (ma_path a))
  end.

(** The module that is emitted (generator.rs:20-28). *)
Record out_mod := mkOmod {
  om_attrs : list user_attr;
  om_vis : string;
  om_ident : string;
  om_items : list user_item;
  om_types : program
}.

Section WithLibs.
Context {L : Libs}.

(** generator.rs:7-32 [generate]. *)
Definition emit_module (fuel gfuel : nat) (k : disk) (item : item_mod) (path : string) : res schema_err out_mod :=
  s <- parse_file fuel (fs_of k) path ;;
  p <- generate_all gfuel s ;;
  Ok (mkOmod (im_attrs item) (im_vis item) (im_ident item)
        (match im_content item with Some items => items | None => [] end) p).

(** lib.rs:10-67 [all], [generate]. [item] is [None] if [syn] cannot read the item as a
    module; [manifest] is the variable CARGO_MANIFEST_DIR. *)
Definition expand (fuel gfuel : nat) (k : disk) (manifest : option string) (args : meta_args)
  (item : option item_mod) : res macro_err out_mod :=
  match item with
  | None => Err MeItem
  | Some item =>
      match read_args (ms_list args) None with
      | inl e => Err e
      | inr schema =>
          if ms_rest args then
            match schema with
            | None => Err MeRequired
            | Some path =>
                match manifest with
                | None => Panic "CARGO_MANIFEST_DIR env to be defined"
                | Some dir => map_err MeSchema (emit_module fuel gfuel k item (dk_push k dir path))
                end
            end
          else Err MeSyntax
      end
  end.
End WithLibs.
