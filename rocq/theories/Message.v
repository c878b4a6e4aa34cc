(** * Message: the texts of error messages

    The [Display] implementations derived by [thiserror] from the [#[error("..")]]
    attributes. Texts of library errors (roxmltree, std::io, the number parsers,
    syn) are arguments. *)
From Verif Require Import Base Libs Xml Ast XsdNode Parse Decode Macro.

Definition quote : string := String "034" "".
(** [format!("{:?}")] of a [&str] (std), used through [{namespace:?}] (node.rs:13, decode.rs:11): quotes,
    backslashes and control characters are escaped. Simplified: characters outside
    ASCII are copied; std escapes the ones that cannot be printed. *)
Definition hex_digit (n : nat) : ascii :=
  ascii_of_nat (if Nat.ltb n 10 then 48 + n else 87 + n).
Definition escape_char (c : ascii) : string :=
  let n := nat_of_ascii c in
  if Nat.eqb n 34 then "\" +++ quote
  else if Nat.eqb n 92 then "\\"
  else if Nat.eqb n 0 then "\0"
  else if Nat.eqb n 9 then "\t"
  else if Nat.eqb n 10 then "\n"
  else if Nat.eqb n 13 then "\r"
  else if orb (Nat.ltb n 32) (Nat.eqb n 127) then
    "\u{" +++ (if Nat.ltb n 16 then "" else String (hex_digit (Nat.div n 16)) "")
          +++ String (hex_digit (Nat.modulo n 16)) "" +++ "}"
  else String c "".
Fixpoint escape (s : string) : string :=
  match s with EmptyString => "" | String c s => escape_char c +++ escape s end.
Definition debug_string (s : string) : string := quote +++ escape s +++ quote.
(** [{:?}] of an [Option<String>] (std), used at node.rs:13, decode.rs:11. *)
Definition debug_option (o : option string) : string :=
  match o with Some s => "Some(" +++ debug_string s +++ ")" | None => "None" end.

(** xsd-internal/src/xsd/node.rs:11-48 [NodeError]. *)
Definition node_text (e : node_err) : string :=
  match e with
  | NeMissingElement n ns _ => "Missing required element " +++ n +++ " (" +++ debug_option ns +++ ")"
  | NeMissingAttribute n el _ => "Missing required attribute `" +++ n +++ "` on element `" +++ el +++ "`"
  | NeTextExpected n _ => "Expected element " +++ n +++ " to contain text content"
  | NeUnsupportedAttribute n el _ => "Encountered unsupported attribute `" +++ n +++ "` in `" +++ el +++ "`"
  | NeUnsupportedElement n p _ => "Encountered unsupported element `" +++ n +++ "` in `" +++ p +++ "`"
  end.

(** xsd-internal/src/xsd/error.rs:3-54 [XsdError]; [xml] is the text of the roxmltree error. *)
Definition xsd_text (xml : string) (e : xsd_err) : string :=
  match e with
  | XeXml => "XML parsing error: " +++ xml
  | XeNode e => "Error traversing XML tree: " +++ node_text e
  | XeUnsupportedElement n _ => "Encountered unsupported element `" +++ n +++ "` at that location"
  | XeUnsupportedAttributeValue n v el _ =>
      "Encountered unsupported value `" +++ v +++ "` for attribute `" +++ n +++ "` in `" +++ el +++ "`"
  | XeUnexpectedAttribute n el _ => "Encountered unexpected attribute `" +++ n +++ "` in `" +++ el +++ "`"
  | XeMissingElement n p _ => "Missing element `" +++ n +++ "` in `" +++ p +++ "`"
  | XeMissingNamespace p _ => "Missing namespace for `" +++ p +++ "`"
  | XeParseInt _ => "Failed to parse int value"
  | XeParseDecimal _ => "Failed to parse decimal value"
  | XeUnsupportedType n _ => "Unsupported XSD type " +++ n
  end.

(** xsd-internal/src/xsd/schema.rs:328-347 [SchemaError]; row and column from [error_position]
    ([pos] is used by the first case only), [lib] is the text of the roxmltree or io error. *)
Definition schema_text (lib : string) (pos : nat * nat) (e : schema_err) : string :=
  match e with
  | SeXsd x file => "Error on line " +++ show_nat (fst pos) +++ " (offset " +++ show_nat (snd pos) +++ " in " +++ file
                    +++ "): " +++ xsd_text lib x
  | SeOpen file => "Failed to load XSD include " +++ file +++ ": " +++ lib
  | SeNotFound n => "Element `" +++ n +++ "` not found in schema"
  end.

(** What the disk adds to the texts: the texts of the io error of a file (schema.rs:36) and of the
    XML error of a text (schema.rs:59). *)
Record lib_texts := mkTexts { lt_open : string -> string; lt_xml : string -> string }.
(** The message of an error on the disk [k]; [None] where computing the position panics. *)
Definition schema_message (t : lib_texts) (k : disk) (e : schema_err) : option string :=
  match e with
  | SeXsd x file =>
      match dk_text k file, error_position k e with
      | Some text, Some (Some pos) => Some (schema_text (lt_xml t text) pos e)
      | _, _ => None
      end
  | SeOpen file => Some (schema_text (lt_open t file) (0, 0) e)
  | SeNotFound _ => Some (schema_text "" (0, 0) e)
  end.

(** xsd-derive/src/lib.rs:12-63: the text given to [compile_error!]; [syn_text] for syn's own errors. *)
Definition macro_message (t : lib_texts) (syn_text : macro_err -> string) (k : disk) (e : macro_err) : option string :=
  match e with
  | MeProperty _ => Some "unsupported property"
  | MeRequired => Some "Argument `schema` required"
  | MeItem | MeValue | MeSyntax => Some (syn_text e)
  | MeSchema e => schema_message t k e
  end.

(** xsd/src/decode.rs:7-36 [FromXmlError]; [lib] is the text of the library error. *)
Definition from_xml_text (lib : string) (e : from_xml_err) : string :=
  match e with
  | FeXml => "XML error: " +++ lib
  | FeMissingElement n ns => "Missing required element " +++ n +++ " (" +++ debug_option ns +++ ")"
  | FeMissingAttribute n => "Missing required attribute " +++ n
  | FeTextExpected n => "Expected element " +++ n +++ " to contain text content"
  | FeInvalidVariant n => "Encountered invalid enum variant " +++ n
  | FeMissingVariant n => "Could not find valid variant for choice `" +++ n +++ "`"
  | FeParseType ty v => "Failed to parse type " +++ ty +++ " from " +++ v +++ ": " +++ lib
  | FeFixedMismatch e r => "Expected fixed value `" +++ e +++ "`, but received `" +++ r +++ "`"
  end.
