(** * PropMessage: the texts of error messages (C68) *)
From Verif Require Import Base Libs Xml Ast XsdNode Parse Decode TextSpec ParseSpec DeclSpec Macro MacroSpec ErrSpec Message MessageSpec
  Harness Samples PropDecode PropParse PropMacro PropErr MessageProof Gen MacroProof GenErr.

(** C68. Every error of reading schema files has a message ... *)
Theorem C68_total : forall (L : Libs) t k fuel path e, texts_sound k -> ranges_sound k ->
  parse_file fuel (fs_of k) path = Err e -> exists m, schema_message t k e = Some m.
Proof. exact @message_total. Qed.
Print Assumptions C68_total.
(** ... and what it says is so: read as "Error on line R (offset C in F): T", in any
    way that makes F a file name, F is a file, an element or attribute of its document
    starts in line R before character C, and T is a true statement about the document. *)
Theorem C68_true : forall (L : Libs) t k fuel path e m row col file txt, texts_sound k -> ranges_sound k ->
  files_bind_once (fs_of k) -> (forall q, dk_text k q <> None -> file_like q) -> file_like file ->
  parse_file fuel (fs_of k) path = Err e -> schema_message t k e = Some m ->
  m = "Error on line " +++ show_nat row +++ " (offset " +++ show_nat col +++ " in " +++ file +++ "): " +++ txt ->
  exists text, dk_text k file = Some text
  /\ match dk_xml k text with
     | None => txt = "XML parsing error: " +++ lt_xml t text /\ dk_xml_pos k text = (row, col)
     | Some d => exists x r, txt = xsd_text "" x /\ tells d x /\ xsd_err_range x = Some r /\ points_into d r
                   /\ located text (N.to_nat (fst r)) row col
     end.
Proof. exact @message_reads. Qed.
Print Assumptions C68_true.

(** The message of the attribute macro says what is wrong with its use: there is no module, an
    argument other than [schema = "..."] (the first such one counts), no argument at all, or a
    schema that cannot be read; the types of a schema that is read are generated without error.
    [syn_text] is the text of syn's own errors. *)
Theorem C68_macro : forall (L : Libs) t syn_text k fuel gfuel manifest args item e, texts_sound k -> ranges_sound k ->
  expand fuel gfuel k manifest args item = Err e ->
  exists m, macro_message t syn_text k e = Some m
  /\ ( (item = None /\ m = syn_text MeItem)
     \/ (exists l1 a l2, ms_list args = l1 ++ a :: l2 /\ (forall b, In b l1 -> exists s, b = mkMarg "schema" (MvStr s))
          /\ ma_path a <> "schema" /\ m = "unsupported property")
     \/ (exists l1 a l2, ms_list args = l1 ++ a :: l2 /\ (forall b, In b l1 -> exists s, b = mkMarg "schema" (MvStr s))
          /\ ma_path a = "schema" /\ (forall s, ma_value a <> MvStr s) /\ m = syn_text MeValue)
     \/ ((forall b, In b (ms_list args) -> exists s, b = mkMarg "schema" (MvStr s)) /\ ms_rest args = false /\ m = syn_text MeSyntax)
     \/ (ms_list args = [] /\ ms_rest args = true /\ m = "Argument `schema` required")
     \/ (exists dir path se, manifest = Some dir /\ names_schema args path
          /\ parse_file fuel (fs_of k) (dk_push k dir path) = Err se /\ schema_message t k se = Some m)).
Proof.
  intros L t st k fuel gfuel manifest args item e T R H. unfold expand in H.
  destruct item as [i|]; [|injection H as <-; eexists; split; [reflexivity|]; left; auto].
  destruct (read_args (ms_list args) None) as [e0|schema] eqn:Ea.
  { injection H as ->. apply read_args_err in Ea. destruct Ea as (l1 & a & l2 & E & F & [[K ->]|(K & V & ->)]).
    - eexists. split; [reflexivity|]. right. left. exists l1, a, l2. auto.
    - eexists. split; [reflexivity|]. right. right. left. exists l1, a, l2. auto. }
  destruct (ms_rest args) eqn:Er.
  2:{ injection H as <-. eexists. split; [reflexivity|]. right. right. right. left.
      apply read_args_iff in Ea. split; [apply Ea|auto]. }
  destruct schema as [path|].
  2:{ injection H as <-. eexists. split; [reflexivity|]. do 4 right. left. split; [|auto].
      apply read_args_iff in Ea. destruct Ea as [F E]. destruct (rev (ms_list args)) as [|a l] eqn:Q.
      - apply (f_equal (@rev _)) in Q. now rewrite rev_involutive in Q.
      - destruct (F a) as [s ->]; [|discriminate]. apply in_rev. rewrite Q. now left. }
  destruct manifest as [dir|]; [|discriminate]. unfold emit_module in H.
  destruct (parse_file fuel (fs_of k) (dk_push k dir path)) as [s|se|w|] eqn:Ep; simpl in H; try discriminate.
  - pose proof (generate_all_noerr gfuel s) as N. destruct (generate_all gfuel s) as [p|x|w|]; simpl in H; try discriminate.
    destruct (N x eq_refl).
  - injection H as <-. destruct (message_total t k fuel _ se T R Ep) as [m Hm]. exists m. split; [exact Hm|].
    do 5 right. exists dir, path, se. split; [reflexivity|]. split; [now apply args_iff|auto].
Qed.
Print Assumptions C68_macro.
(** A name is not found exactly if the schema does not have it. *)
Theorem C68_not_found : forall (L : Libs) fuel c n e,
  generate_element fuel c n = Err e <-> sc_get c n = None /\ e = SeNotFound (nm n).
Proof. exact @generate_err. Qed.
Print Assumptions C68_not_found.

(** A text says which error it is, but for the range, if the names in the error are
    names; values of attributes, prefixes and type names may be anything. *)
Theorem C68_schema : forall lib lib' pos pos' a b, readable a -> readable b ->
  schema_text lib pos a = schema_text lib' pos' b ->
  same_schema_err a b /\ match a with SeXsd _ _ => pos = pos' | SeOpen _ => lib = lib' | _ => True end.
Proof. exact schema_text_inj. Qed.
Print Assumptions C68_schema.
(** The names in errors about documents with XML names are names. *)
Theorem C68_names : forall (L : Libs) d x, xml_names d -> tells d x -> Forall name_like (err_names x).
Proof. exact @tells_names. Qed.
Print Assumptions C68_names.
(** The same for the errors of decoding. *)
Theorem C68_decode : forall lib lib' a b, readable_fe a -> readable_fe b ->
  from_xml_text lib a = from_xml_text lib' b -> a = b.
Proof. exact from_xml_text_inj. Qed.
Print Assumptions C68_decode.

(** *** Examples: the messages of [faults] (PropErr.v), and that they are all different. *)
Definition fault_texts : list string := map (fun x => xsd_text "" (snd x)) faults.
Example C68_texts : fault_texts =
  [ "Error traversing XML tree: Missing required element restriction (Some(" +++ quote +++ "http://www.w3.org/2001/XMLSchema" +++ quote +++ "))";
    "Error traversing XML tree: Missing required attribute `name` on element `element`";
    "Error traversing XML tree: Expected element documentation to contain text content";
    "Error traversing XML tree: Encountered unsupported attribute `nillable` in `element`";
    "Error traversing XML tree: Encountered unsupported element `anyAttribute` in `complexType`";
    "Encountered unsupported element `scheme` at that location";
    "Encountered unsupported element `group` at that location";
    "Encountered unsupported element `any` at that location";
    "Encountered unsupported element `whiteSpace` at that location";
    "Encountered unsupported value `t:x` for attribute `base` in `restriction`";
    "Encountered unsupported value `xs:int` for attribute `base` in `extension`";
    "Encountered unsupported value `xs:int` for attribute `ref` in `element`";
    "Encountered unsupported value `maybe` for attribute `use` in `attribute`";
    "Encountered unsupported value `true` for attribute `mixed` in `complexType`";
    "Encountered unexpected attribute `default` in `attribute`";
    "Missing element `simpleType|complexType` in `element`";
    "Missing namespace for `u`";
    "Unsupported XSD type gYear";
    "Failed to parse int value"; "Failed to parse int value"; "Failed to parse int value";
    "Failed to parse decimal value" ].
Proof. by_compute. Qed.

(** A message on a disk: the text of C59's example. *)
Definition ex_texts : lib_texts := mkTexts (fun _ => "No such file or directory (os error 2)") (fun _ => "unexpected end of stream").
Example C68_message :
  exists e, parse_file 20 (fs_of ex_bad_disk) "a.xsd" = Err e
  /\ schema_message ex_texts ex_bad_disk e
     = Some "Error on line 2 (offset 34 in a.xsd): Missing namespace for `q`".
Proof. eexists. split; by_compute. Qed.
Example C68_debug : debug_option (Some ("a" +++ quote +++ "\" +++ newline +++ String "001" "b"))
  = "Some(" +++ quote +++ "a\" +++ quote +++ "\\\n\u{1}b" +++ quote +++ ")" /\ debug_option None = "None".
Proof. split; by_compute. Qed.

(** Without the conditions: a value with a colon, a fixed value with backticks. *)
Theorem C68_decode_refuted : (exists lib lib' a b, a <> b /\ from_xml_text lib a = from_xml_text lib' b
    /\ exists v v', a = FeParseType "i32" v /\ b = FeParseType "i32" v')
  /\ (exists lib a b, a <> b /\ from_xml_text lib a = from_xml_text lib b /\ exists x y r s, a = FeFixedMismatch x r /\ b = FeFixedMismatch y s).
Proof.
  split.
  - exists "invalid digit found in string", "x: invalid digit found in string", (FeParseType "i32" "1: x"), (FeParseType "i32" "1").
    split; [discriminate|]. split; [reflexivity|]. eauto.
  - exists "", (FeFixedMismatch "a" "b`, but received `c"), (FeFixedMismatch "a`, but received `b" "c").
    split; [discriminate|]. split; [reflexivity|]. eauto 6.
Qed.
Print Assumptions C68_decode_refuted.
(** Two different errors with one message, over files whose names contain the separator. *)
Theorem C68_file_refuted : exists pos a b, ~ same_schema_err a b /\ schema_text "" pos a = schema_text "" pos b.
Proof.
  exists (1, 1), (SeXsd (XeUnsupportedType "x): Unsupported XSD type y" (0, 1)%N) "a"),
    (SeXsd (XeUnsupportedType "y" (0, 1)%N) "a): Unsupported XSD type x").
  split; [intros [E _]; discriminate|reflexivity].
Qed.
Print Assumptions C68_file_refuted.

(** The four uses that are refused, and their messages. *)
Definition refuse (manifest : option string) (args : meta_args) : option string :=
  match expand 40 40 ex_disk manifest args (Some (read_as (ex_written [] [profile]))) with
  | Err e => macro_message (mkTexts (fun _ => "No such file or directory") (fun _ => "")) (fun _ => "syn") ex_disk e
  | _ => None
  end.
Example C68_uses :
  refuse (Some "crate") (mkMargs [mkMarg "schema" (MvStr "a.xsd"); mkMarg "path" (MvStr "b.xsd")] true) = Some "unsupported property"
  /\ refuse (Some "crate") (mkMargs [] true) = Some "Argument `schema` required"
  /\ refuse (Some "crate") (mkMargs [mkMarg "schema" MvOther; mkMarg "path" MvOther] true) = Some "syn"
  /\ refuse (Some "crate") (mkMargs [mkMarg "schema" (MvStr "c.xsd")] true)
     = Some "Failed to load XSD include crate/c.xsd: No such file or directory".
Proof. split; [by_compute|]. split; [by_compute|]. split; by_compute. Qed.
