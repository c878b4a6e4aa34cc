(** * C79: the line ends of a text, of a schema or of a document, do not matter *)
From Verif Require Import Base Libs Xml Ast Gen Run XsdNode Parse DecSpec ReadSpec SimSpec SimProof ParseSpec Macro MacroSpec MacroProof Message XmlChars XmlRead XmlGrammar
  PlaceSpec PlaceProof ForeignSpec ForeignProof ForeignMain LinesSpec LinesProof LinesProof2 LinesProof3 LinesProof4 GenErr PropMacro PropDecode PropXml PropGrammar PropErr PropPlace Samples GrammarProof5 GrammarProof1 Macro.
Local Open Scope N_scope.

(** Texts that differ in line ends are documents together, with the same tree; its elements
    and attributes are in corresponding places. *)
Theorem C79_document : forall text text' x, XmlDocument text x -> same_lines text text' ->
  exists x', XmlDocument text' x' /\ alike (corresponds text text') x x'.
Proof.
  intros text text' x D S. destruct (document_lines _ _ _ D S) as (x' & D' & A). exists x'. split; [exact D'|].
  revert A. apply alike_weaken. intros p q (a & b & a' & b' & E & E' & Lp & Lq & Ap). exists a, b, a', b'. repeat (split; [assumption|]). now destruct Ap as (? & ? & _).
Qed.
Print Assumptions C79_document.
(** The line ends of Windows are one of the differences, and it is a symmetric relation. *)
Theorem C79_windows : forall s, (forall a b, s <> a +++ String CR b) -> same_lines s (windows s).
Proof.
  intros s N. exists s. induction s as [|c s IH]; [split; constructor|].
  destruct IH as [A B]; [intros a b ->; exact (N (String c a) b eq_refl)|]. assert (Nc : c <> CR) by (intros ->; exact (N "" s eq_refl)).
  split; [now constructor|]. cbn [windows]. destruct (Ascii.eqb_spec c LF) as [->|Nl]; now constructor.
Qed.
Print Assumptions C79_windows.
Theorem C79_equivalence : (forall s, same_lines s s) /\ (forall s t, same_lines s t -> same_lines t s)
  /\ (forall s t u, same_lines s t -> same_lines t u -> same_lines s u).
Proof.
  split; [|split].
  - intros s. destruct (lines_total s) as [u H]. now exists u.
  - intros s t (u & A & B). now exists u.
  - intros s t u (v & A & B) (w & C & D). exists v. split; [exact A|]. now rewrite (lines_fun _ _ _ B C).
Qed.
Print Assumptions C79_equivalence.

Lemma texts_alike text text' : same_lines text text' ->
  match parse_xml text, parse_xml text' with
  | Some x, Some x' => XmlDocument text x /\ XmlDocument text' x' /\ alike (after text text') x x'
  | None, None => True
  | _, _ => False
  end.
Proof.
  intros S. destruct (parse_xml text) as [x|] eqn:E.
  - apply C77_reader in E. destruct (document_lines _ _ _ E S) as (x' & D' & A). pose proof (proj2 (C77_reader _ _) D') as ->. auto.
  - destruct (parse_xml text') as [x'|] eqn:E'; [|exact I]. apply C77_reader in E'. destruct (document_lines _ _ _ E' (same_sym _ _ S)) as (x & D & _).
    apply C77_reader in D. congruence.
Qed.

(** Generated types read the same value, or report the same error. *)
Theorem C79_decoded : forall (L : Libs) gfuel c gs p n id text text', generated gfuel c gs p -> In n gs -> type_ident n = Ok id ->
  same_lines text text' -> forall o, (forall r, o = Some r -> fin r) ->
  (exists fuel, from_text p fuel id text = o) <-> (exists fuel, from_text p fuel id text' = o).
Proof.
  intros L gfuel c gs p n id text text' G I Ei S o Fo. pose proof (texts_alike _ _ S) as H. unfold from_text.
  destruct (parse_xml text) as [x|], (parse_xml text') as [x'|]; try easy. destruct H as (_ & _ & A).
  pose proof (similar_agree gfuel c gs p n id x x' G I Ei (proj1 (alike_similar c gs _) x x' A)) as Ag.
  destruct o as [r|]; [|split; intros (f & Hf); discriminate].
  specialize (Ag r (Fo r eq_refl)). split; intros (f & Hf); injection Hf as Hf.
  - destruct (proj1 Ag (ex_intro _ f Hf)) as (f' & <-). now exists f'.
  - destruct (proj2 Ag (ex_intro _ f Hf)) as (f' & <-). now exists f'.
Qed.
Print Assumptions C79_decoded.

(** ** Schema files *)
Definition places_by (P : string -> string -> N -> N -> Prop) (k k' : disk) (p : string) (r r' : range) : Prop :=
  exists text text', dk_text k p = Some text /\ dk_text k' p = Some text' /\ related (P text text') r r'.
Definition places : disk -> disk -> string -> range -> range -> Prop := places_by corresponds.
Lemma files_moved k k' : text_files k -> text_files k' -> same_files k k' -> moved_files (places_by after k k') True (fs_of k) (fs_of k').
Proof.
  intros T T' (E1 & E2 & S). split; [cbn; now rewrite E1|]. split; [cbn; now rewrite E2|]. intros p. specialize (S p). cbn.
  destruct (dk_text k p) as [text|] eqn:Ek, (dk_text k' p) as [text'|] eqn:Ek'; try easy.
  rewrite (proj2 T), (proj2 T'). pose proof (texts_alike _ _ S) as H. destruct (parse_xml text) as [x|], (parse_xml text') as [x'|]; try easy.
  destruct H as (D & D' & A). apply (alike_moved text (after text text')); auto. intros r r' R. exists text, text'. auto.
Qed.
(** The parser has the same outcome on them; errors are at corresponding places. *)
Theorem C79_schema : forall (L : Libs) k k' fuel path, text_files k -> text_files k' -> same_files k k' ->
  moved (places k k') (parse_file fuel (fs_of k) path) (parse_file fuel (fs_of k') path).
Proof.
  intros L k k' fuel path T T' S. pose proof (file_moved _ fuel _ _ path (files_moved _ _ T T' S)) as M.
  destruct (parse_file fuel (fs_of k) path) as [s|e|w|], (parse_file fuel (fs_of k') path) as [s'|e'|w'|]; try exact M.
  destruct e as [x q|q|n], e' as [x' q'|q'|n']; try exact M. destruct M as (Eq & Et & R). split; [exact Eq|]. split; [exact Et|].
  intros r r' Er Er'. destruct (R r r' Er Er') as (text & text' & E & E' & R1 & R2). exists text, text'. split; [exact E|]. split; [exact E'|].
  split; [destruct R1 as (a & b & a' & b' & ? & ? & ? & ? & ? & ? & _); exists a, b, a', b'|destruct R2 as (a & b & a' & b' & ? & ? & ? & ? & ? & ? & _); exists a, b, a', b']; repeat (split; [assumption|]); assumption.
Qed.
Print Assumptions C79_schema.
(** The macro emits the same module, or fails on both. *)
Theorem C79_macro : forall (L : Libs) k k' fuel gfuel manifest args item, text_files k -> text_files k' -> same_files k k' ->
  match expand fuel gfuel k manifest args item, expand fuel gfuel k' manifest args item with
  | Ok o, Ok o' => o' = o
  | Err (MeSchema e), Err (MeSchema e') => moved_schema_err (places k k') e e'
  | Err e, Err e' => e' = e
  | Panic w, Panic w' => w' = w
  | OutOfFuel, OutOfFuel => True
  | _, _ => False
  end.
Proof.
  intros L k k' fuel gfuel manifest args item T T' S. unfold expand. destruct item as [item|]; [|reflexivity].
  destruct (read_args (ms_list args) None) as [e|schema] eqn:Er.
  { assert (N : forall x, e <> MeSchema x). { clear - Er. intros x ->. revert Er. generalize (@None string). induction (ms_list args) as [|a l IH]; intros o; cbn; [discriminate|].
      destruct (ma_path a =?s "schema"); [|discriminate]. destruct (ma_value a); try discriminate. apply IH. }
    destruct e; try reflexivity. now destruct (N e). }
  destruct (ms_rest args); [|reflexivity]. destruct schema as [path|]; [|reflexivity]. destruct manifest as [dir|]; [|reflexivity].
  rewrite <- (proj1 S). unfold emit_module. pose proof (C79_schema L k k' fuel (dk_push k dir path) T T' S) as M.
  destruct (parse_file fuel (fs_of k) _) as [s|e|w|], (parse_file fuel (fs_of k') _) as [s'|e'|w'|]; try easy; cbn in M |- *.
  subst s'. destruct (generate_all gfuel s) as [p|e|w|] eqn:Eg; cbn; auto. exfalso. exact (generate_all_noerr _ _ _ Eg).
Qed.
Print Assumptions C79_macro.

Lemma xsd_text_moved l l' x x' : err_text x' = err_text x -> x <> XeXml -> xsd_text l' x' = xsd_text l x.
Proof.
  intros E N. destruct x, x'; try discriminate E; try (now destruct N); cbn in E |- *; try (injection E as E; try subst; reflexivity); try reflexivity.
  match type of E with XeNode (node_err_text ?a) = XeNode (node_err_text ?b) => destruct a, b end; try discriminate E; injection E as E; subst; reflexivity.
Qed.
(** The message is the same, row and column included, unless the file is not XML (then the
    position and the text are roxmltree's) or has a carriage return alone, which is no line
    end for roxmltree's positions. *)
Theorem C79_message : forall (L : Libs) t k k' fuel path e, text_files k -> text_files k' -> same_files k k' ->
  (forall p text, dk_text k p = Some text \/ dk_text k' p = Some text -> forall a b, text = a +++ String CR b -> is_lf b) ->
  parse_file fuel (fs_of k) path = Err e -> (forall q, e <> SeXsd XeXml q) ->
  exists e', parse_file fuel (fs_of k') path = Err e' /\ schema_message t k' e' = schema_message t k e.
Proof.
  intros L t k k' fuel path e T T' S N E Nx. pose proof (file_moved _ fuel _ _ path (files_moved _ _ T T' S)) as M. rewrite E in M.
  destruct (parse_file fuel (fs_of k') path) as [s'|e'|w'|] eqn:E'; try easy. exists e'. split; [reflexivity|]. cbn in M.
  destruct e as [x q|q|n], e' as [x' q'|q'|n']; try discriminate; try (injection M as <-; reflexivity). destruct M as (-> & Et & R).
  destruct (C78_files k T) as (K1 & K2 & K3 & _). destruct (C78_files k' T') as (K1' & K2' & K3' & _).
  destruct (C59_position L k fuel path _ K1 K2 E) as (text & Ek & P). destruct (C59_position L k' fuel path _ K1' K2' E') as (text' & Ek' & P').
  destruct (dk_xml k text) as [d|] eqn:Ed; [|destruct P as [P _]; exfalso; exact (Nx q (f_equal (fun x => SeXsd x q) P))].
  assert (Nx' : x' <> XeXml) by (intros ->; destruct x; try discriminate; now apply (Nx q)).
  destruct (dk_xml k' text') as [d'|] eqn:Ed'; [|destruct P' as [P' _]; easy].
  destruct P as (r & row & col & Er & _ & _ & Ep). destruct P' as (r' & row' & col' & Er' & _ & _ & Ep').
  destruct (R r r' Er Er') as (u & u' & Hu & Hu' & R1 & _). rewrite Ek in Hu. rewrite Ek' in Hu'. injection Hu as <-. injection Hu' as <-.
  unfold schema_message. rewrite Ek, Ek', Ep, Ep'. f_equal. cbn [schema_text].
  assert (Q : (row', col') = (row, col)).
  { unfold error_position in Ep, Ep'. rewrite Ek in Ep. rewrite Ek' in Ep'. rewrite Er, Ed in Ep. rewrite Er', Ed' in Ep'.
    assert (X : text_pos_at text' (N.to_nat (fst r')) = text_pos_at text (N.to_nat (fst r))).
    { apply same_position; [exact (N q text (or_introl Ek))|exact (N q text' (or_intror Ek'))|intros a b ->; exact (K1 q a b Ek)|intros a b ->; exact (K1' q a b Ek')|exact R1]. }
    congruence. }
  injection Q as -> ->. rewrite (xsd_text_moved (lt_xml t text) (lt_xml t text') x x' Et); [reflexivity|]. intros ->. now apply (Nx q).
Qed.
Print Assumptions C79_message.

(** ** Examples *)
Ltac by_compute_ne := let H := fresh in intros H; vm_compute in H; discriminate H.
Fixpoint cr_free (s : string) : bool := match s with "" => true | String c r => negb (Ascii.eqb c CR) && cr_free r end.
Lemma cr_free_spec s : cr_free s = true -> forall a b, s <> a +++ String CR b.
Proof. intros H a b ->. induction a as [|c a IH]; cbn in H; [discriminate|]. apply andb_true_iff in H. now apply IH. Qed.
(** An order, with line ends of Unix and of Windows. *)
Example C79_order : same_lines order_text (windows order_text) /\ windows order_text <> order_text
  /\ from_text (module_of ex_order) 40 "Order" order_text = Some (Ok ex_order_value)
  /\ from_text (module_of ex_order) 40 "Order" (windows order_text) = Some (Ok ex_order_value).
Proof. split; [apply C79_windows, cr_free_spec; by_compute|]. split; [by_compute_ne|]. split; by_compute. Qed.
(** The schema with an error, with line ends of Windows: the same message at the same place. *)
Definition disk_of (text : string) : disk := mkDisk (fun path => if path =?s "a.xsd" then Some text else None) parse_xml
  (fun _ => (1, 1)%nat) (fun a b => (a +++ "/" +++ b)%string) (fun path => path).
Lemma disk_files text : (exists l, text_of l text) -> text_files (disk_of text).
Proof.
  intros [l H]. split; [|reflexivity]. intros p u E. unfold disk_of, dk_text in E. destruct (p =?s "a.xsd"); [|discriminate]. injection E as <-. exact (text_utf8 l _ H).
Qed.
Lemma disk_same s t : same_lines s t -> same_files (disk_of s) (disk_of t).
Proof. intros H. split; [reflexivity|]. split; [reflexivity|]. intros p. cbn. now destruct (p =?s "a.xsd"). Qed.
Definition message_of (text : string) : option string :=
  match parse_file (L:=ascii_libs) 40 (fs_of (disk_of text)) "a.xsd" with Err e => schema_message (mkTexts (fun _ => "") (fun _ => "")) (disk_of text) e | _ => None end.
Example C79_bad : text_files (disk_of bad_xsd) /\ text_files (disk_of (windows bad_xsd)) /\ same_files (disk_of bad_xsd) (disk_of (windows bad_xsd))
  /\ windows bad_xsd <> bad_xsd
  /\ (exists e e', parse_file (L:=ascii_libs) 40 (fs_of (disk_of bad_xsd)) "a.xsd" = Err e
        /\ parse_file (L:=ascii_libs) 40 (fs_of (disk_of (windows bad_xsd))) "a.xsd" = Err e' /\ e <> e')
  /\ message_of bad_xsd = Some "Error on line 2 (offset 25 in a.xsd): Missing namespace for `u`"
  /\ message_of (windows bad_xsd) = Some "Error on line 2 (offset 25 in a.xsd): Missing namespace for `u`".
Proof.
  split; [apply disk_files, chars_iff; by_compute|].
  split; [apply disk_files, chars_iff; by_compute|].
  split; [apply disk_same, C79_windows, cr_free_spec; by_compute|]. split; [by_compute_ne|].
  split; [eexists _, _; split; [by_compute|split; [by_compute|discriminate]]|]. split; by_compute.
Qed.
(** A carriage return alone ends a line for XML, not for the positions in messages: the same
    schema with line ends of the old Macintosh has the error on line 1. *)
Fixpoint macintosh (s : string) : string :=
  match s with "" => "" | String c r => String (if Ascii.eqb c LF then CR else c) (macintosh r) end.
Lemma mac_lines s : cr_free s = true -> lines (macintosh s) s.
Proof.
  induction s as [|c s IH]; cbn; [constructor|]. intros H. apply andb_true_iff in H. destruct H as [Hc H]. specialize (IH H).
  destruct (Ascii.eqb_spec c LF) as [->|N]; constructor; auto.
  - intros [r E]. destruct s as [|d s]; [discriminate|]. cbn in E. destruct (Ascii.eqb_spec d LF) as [->|Nd]; [discriminate|]. now injection E as -> _.
  - intros ->. discriminate.
Qed.
Lemma lines_self s : cr_free s = true -> lines s s.
Proof.
  induction s as [|c s IH]; cbn; [constructor|]. intros H. apply andb_true_iff in H. destruct H as [Hc H]. constructor; auto. intros ->. discriminate.
Qed.
Example C79_macintosh : exists text text' m m', same_lines text text' /\ text_files (disk_of text) /\ text_files (disk_of text')
  /\ message_of text = Some m /\ message_of text' = Some m' /\ m <> m'.
Proof.
  exists bad_xsd, (macintosh bad_xsd). eexists _, _.
  split; [|split; [apply disk_files, chars_iff; by_compute|split; [apply disk_files, chars_iff; by_compute|
    split; [by_compute|split; [by_compute|by_compute_ne]]]]].
  exists bad_xsd. split; [apply lines_self; by_compute|].
  apply mac_lines; by_compute.
Qed.
