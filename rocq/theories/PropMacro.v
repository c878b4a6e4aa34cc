(** * C58, C59: the attribute macro, the positions of its errors *)
From Verif Require Import Base Libs Xml Ast XsdNode Parse Gen Harness Samples ParseSpec RustSpec RustCheck
  Macro MacroSpec MacroProof PropDecode.

(** ** C58 *)
(** The macro emits a module exactly if the arguments name a schema, the variable is set and
    the schema is read and translated; then it is the user's module with the types appended. *)
Theorem C58_expansion : forall (L : Libs) fuel gfuel k manifest args i o,
  expand fuel gfuel k manifest args (Some i) = Ok o <->
  exists dir path s p, manifest = Some dir /\ names_schema args path
    /\ parse_file fuel (fs_of k) (dk_push k dir path) = Ok s /\ generate_all gfuel s = Ok p
    /\ o = mkOmod (im_attrs i) (im_vis i) (im_ident i) (match im_content i with Some l => l | None => [] end) p.
Proof. exact @expand_iff. Qed.
Print Assumptions C58_expansion.

(** Everything else is a compile error, except for the panics of C28 and C30 and a missing
    variable. *)
Theorem C58_panics : forall (L : Libs) fuel gfuel k manifest args item w,
  expand fuel gfuel k manifest args item = Panic w ->
  manifest = None \/ (exists dir path, manifest = Some dir /\ names_schema args path
    /\ (parse_file fuel (fs_of k) (dk_push k dir path) = Panic w \/ identifier_panic w)).
Proof. exact @expand_panics. Qed.
Print Assumptions C58_panics.

(** A module with a body and no inner attributes keeps its attributes, visibility, name and
    items. *)
Theorem C58_keeps_partial : forall (L : Libs) fuel gfuel k manifest args w items i o,
  wr_body w = Some ([], items) -> syn_reads w i -> expand fuel gfuel k manifest args (Some i) = Ok o ->
  om_attrs o = map (mkUattr AOuter) (wr_outer w) /\ om_vis o = wr_vis w /\ om_ident o = wr_ident w /\ om_items o = items.
Proof.
  intros L fuel gfuel k manifest args w items i o Hb (V & Id & B) E. apply expand_iff in E.
  destruct E as (dir & path & s & p & _ & _ & _ & _ & ->). rewrite Hb in B. destruct B as [A C]. simpl in *.
  rewrite app_nil_r in A. rewrite A, C. auto.
Qed.
Print Assumptions C58_keeps_partial.

(** The emitted module compiles exactly if there are no inner attributes, the types compile,
    and the names of the user's types are not those of generated ones. *)
Theorem C58_accepted : forall (L : Libs) fuel gfuel k manifest args w i o,
  syn_reads w i -> expand fuel gfuel k manifest args (Some i) = Ok o ->
  (accepted_output o <->
   (forall inner items, wr_body w = Some (inner, items) -> inner = []) /\ rust_ok (om_types o)
   /\ NoDup (flat_map ui_types (om_items o) ++ map ti_id (om_types o))).
Proof.
  intros L fuel gfuel k manifest args w i o (V & Id & B) E. apply expand_iff in E.
  destruct E as (dir & path & s & p & _ & _ & _ & _ & ->). unfold accepted_output. cbn [om_attrs om_types om_items].
  assert (O : forall l, Forall (fun a => ua_style a = AOuter) (map (mkUattr AOuter) l)) by (induction l; constructor; auto).
  destruct (wr_body w) as [[inner items]|]; destruct B as [-> _].
  - rewrite Forall_app. split.
    + intros ((_ & F) & R). split; [|exact R]. intros inner' items' K. injection K as <- <-.
      destruct inner as [|a inner]; [reflexivity|]. inversion F; subst; discriminate.
    + intros (Hi & R). rewrite (Hi _ _ eq_refl). split; [split; [apply O|constructor]|exact R].
  - split; [intros (_ & R); split; [discriminate|exact R]|intros (_ & R); split; [apply O|exact R]].
Qed.
Print Assumptions C58_accepted.

(** *** Examples and refutations *)
Definition ex_text : string := "<a schema>".
Definition ex_disk : disk := mkDisk (fun p => if p =?s "crate/a.xsd" then Some ex_text else None)
  (fun t => if t =?s ex_text then Some (xschema [] [xtyped "name" "xs:string"]) else None)
  (fun _ => (1, 1)) (fun a b => a +++ "/" +++ b) (fun p => p).
Definition ex_args : meta_args := mkMargs [mkMarg "schema" (MvStr "b.xsd"); mkMarg "schema" (MvStr "a.xsd")] true.
Definition profile : user_item := mkUitem "pub struct Profile { pub name: Name }" ["Profile"].
Definition ex_written (inner : list string) (items : list user_item) : written_mod :=
  mkWritten ["#[allow(dead_code)]"] "pub" "schema" (Some (inner, items)).
Definition read_as (w : written_mod) : item_mod :=
  mkImod (map (mkUattr AOuter) (wr_outer w) ++ match wr_body w with Some (inner, _) => map (mkUattr AInner) inner | None => [] end)
    (wr_vis w) (wr_ident w) (option_map snd (wr_body w)).
Lemma read_as_ok w : syn_reads w (read_as w).
Proof. repeat split. destruct w as [o v id [[inner items]|]]; simpl; [auto|]. now rewrite app_nil_r. Qed.

(** The module of the repository's test existing_mod_content.rs. *)
Example C58_example : exists o, syn_reads (ex_written [] [profile]) (read_as (ex_written [] [profile]))
  /\ expand 40 40 ex_disk (Some "crate") ex_args (Some (read_as (ex_written [] [profile]))) = Ok o
  /\ om_items o = [profile] /\ map ti_id (om_types o) = ["Name"] /\ accepted_output o.
Proof.
  eexists. split; [apply read_as_ok|]. split; [by_compute|]. split; [by_compute|]. split; [by_compute|].
  split; [repeat constructor|]. split; [apply rust_accepts; by_compute|]. apply nodupb_NoDup. by_compute.
Qed.

(** An inner attribute (or inner doc comment) of the module is emitted before [mod]. *)
Theorem C58_inner_refuted : exists k args w i o, syn_reads w i
  /\ expand 40 40 k (Some "crate") args (Some i) = Ok o /\ rust_ok (om_types o) /\ ~ accepted_output o
  /\ wr_body w = Some (["#![allow(dead_code)]"], []).
Proof.
  exists ex_disk, ex_args, (ex_written ["#![allow(dead_code)]"] []), (read_as (ex_written ["#![allow(dead_code)]"] [])).
  eexists. split; [apply read_as_ok|]. split; [by_compute|]. split; [apply rust_accepts; by_compute|]. split; [|reflexivity].
  intros (F & _). inversion F as [|? ? _ F2]; subst. inversion F2; subst. discriminate.
Qed.
Print Assumptions C58_inner_refuted.

(** [mod schema;]: the items of the module's file are replaced by the generated types. *)
Theorem C58_file_refuted : exists k args w i o, syn_reads w i /\ wr_body w = None
  /\ expand 40 40 k (Some "crate") args (Some i) = Ok o /\ om_items o = [] /\ accepted_output o.
Proof.
  exists ex_disk, ex_args, (mkWritten [] "pub" "schema" None), (read_as (mkWritten [] "pub" "schema" None)).
  eexists. split; [apply read_as_ok|]. split; [reflexivity|]. split; [by_compute|]. split; [by_compute|].
  split; [repeat constructor|]. split; [apply rust_accepts; by_compute|]. apply nodupb_NoDup. by_compute.
Qed.
Print Assumptions C58_file_refuted.

(** A type of the user with the name of a generated one. *)
Theorem C58_names_refuted : exists k args w i o, syn_reads w i
  /\ expand 40 40 k (Some "crate") args (Some i) = Ok o /\ rust_ok (om_types o) /\ ~ accepted_output o
  /\ wr_body w = Some ([], [mkUitem "struct Name;" ["Name"]]).
Proof.
  exists ex_disk, ex_args, (ex_written [] [mkUitem "struct Name;" ["Name"]]), (read_as (ex_written [] [mkUitem "struct Name;" ["Name"]])).
  eexists. split; [apply read_as_ok|]. split; [by_compute|]. split; [apply rust_accepts; by_compute|]. split; [|reflexivity].
  intros (_ & _ & N). vm_compute in N. inversion N as [|? ? K _]; subst. apply K. now left.
Qed.
Print Assumptions C58_names_refuted.

(** ** C59 *)
(** An error of the schema parser names a file, and the line and column of an element or
    attribute of its document (or roxmltree's position, if it is not XML); never 0:0. *)
Theorem C59_position : forall (L : Libs) k fuel path e, texts_sound k -> ranges_sound k ->
  parse_file fuel (fs_of k) path = Err e ->
  match e with
  | SeOpen q => dk_text k q = None
  | SeNotFound _ => False
  | SeXsd x q => exists text, dk_text k q = Some text
      /\ match dk_xml k text with
         | None => x = XeXml /\ error_position k e = Some (Some (dk_xml_pos k text))
         | Some d => exists r row col, xsd_err_range x = Some r /\ points_into d r
                       /\ located text (N.to_nat (fst r)) row col /\ error_position k e = Some (Some (row, col))
         end
  end.
Proof. exact @error_positions. Qed.
Print Assumptions C59_position.
(** Line and column determine the place in the text. *)
Theorem C59_unique : forall text pos pos' row col, between_chars text pos -> between_chars text pos' ->
  located text pos row col -> located text pos' row col -> pos = pos'.
Proof. exact position_unique. Qed.
Print Assumptions C59_unique.

(** *** Example: the error is in an attribute of the second line, after non-ASCII text. *)
Definition q : string := String "034" "".
Definition ex_bad_text : string :=
  "<xs:schema xmlns:xs=" +++ q +++ "http://www.w3.org/2001/XMLSchema" +++ q +++ ">" +++ newline +++
  "  <!-- é --><xs:element name=" +++ q +++ "é" +++ q +++ " type=" +++ q +++ "q:b" +++ q +++ "/>" +++ newline +++ "</xs:schema>".
Definition ex_bad_element : xelem := XE "element" (Some NS_XSD)
  [mkAttr "name" None "é" (81, 90)%N; mkAttr "type" None "q:b" (91, 101)%N] [(Some "xs", NS_XSD)] (69, 103)%N [].
Definition ex_bad : xelem := XE "schema" (Some NS_XSD) [] [(Some "xs", NS_XSD)] (0, 116)%N
  [KText newline; KElem ex_bad_element; KText newline].
Definition ex_bad_disk : disk := mkDisk (fun p => if p =?s "a.xsd" then Some ex_bad_text else None)
  (fun t => if t =?s ex_bad_text then Some ex_bad else None) (fun _ => (1, 1)) (fun a b => a +++ "/" +++ b) (fun p => p).

Fixpoint newlines_ok (s : string) : bool :=
  match s with
  | EmptyString => true
  | String c s' => andb (negb (andb (Ascii.eqb c "010") (starts_with_cont s'))) (newlines_ok s')
  end.
Lemma newlines_ok_sound s : newlines_ok s = true -> forall a b, s = a +++ newline +++ b -> starts_with_cont b = false.
Proof.
  intros H a. revert s H. induction a as [|c a IH]; intros s H b ->; simpl in H; apply andb_true_iff in H; destruct H as [A B].
  - now apply negb_true_iff in A.
  - eapply IH; [exact B|reflexivity].
Qed.
Lemma char_boundary_sound s : forall pos, char_boundary s pos = true -> between_chars s pos.
Proof.
  unfold char_boundary. induction s as [|c s IH]; intros [|pos] H; simpl in H; try discriminate.
  - exists "", "". auto.
  - exists "", (String c s). repeat split. now apply negb_true_iff in H.
  - destruct (IH pos H) as (a & b & -> & <- & S). exists (String c a), b. auto.
Qed.
Lemma ex_bad_texts : texts_sound ex_bad_disk.
Proof.
  intros p a b. simpl. destruct (p =?s "a.xsd"); [|discriminate]. intros H. injection H as H.
  eapply (newlines_ok_sound ex_bad_text); [by_compute|exact H].
Qed.
Lemma ex_bad_ranges : ranges_sound ex_bad_disk.
Proof.
  intros text d r. simpl. destruct (String.eqb_spec text ex_bad_text) as [->|]; [|discriminate]. intros H. injection H as <-.
  intros (e & W & K).
  assert (e = ex_bad \/ e = ex_bad_element) as E.
  { clear K. induction W as [|e c W IH I]; [now left|]. destruct IH as [->| ->]; [|destruct I].
    destruct I as [<-|[]]. now right. }
  apply char_boundary_sound.
  destruct E as [->| ->]; destruct K as [->|(a & I & ->)]; try by_compute; simpl in I;
    repeat (destruct I as [<-|I]; [by_compute|]); destruct I.
Qed.
Example C59_example : texts_sound ex_bad_disk /\ ranges_sound ex_bad_disk /\ exists x, parse_file 40 (fs_of ex_bad_disk) "a.xsd" = Err (SeXsd x "a.xsd")
  /\ error_position ex_bad_disk (SeXsd x "a.xsd") = Some (Some (2, 34)) /\ located ex_bad_text 91 2 34.
Proof.
  split; [exact ex_bad_texts|]. split; [exact ex_bad_ranges|]. eexists. split; [by_compute|]. split; [by_compute|].
  destruct (position_of ex_bad_text 91) as (row & col & E & Lc).
  - apply newlines_ok_sound. by_compute.
  - apply char_boundary_sound. by_compute.
  - vm_compute in E. injection E as <- <-. exact Lc.
Qed.
