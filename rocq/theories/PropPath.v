(** * C80: which files are read, and that a project may be moved *)
From Coq Require Import Relations.
From Verif Require Import Base Libs Xml Ast XsdNode Parse ParseSpec Gen Macro MacroSpec GenErr XmlRead XmlGrammar Path PathSpec PathProof PropDecode Samples.

(** The location written in a file is looked up from the directory that the file is in, whatever
    the path of the file looks like (an absolute location from the root, as everywhere), and
    the directory of the file it names is found in the same way. *)
Theorem C80_include : forall (t : tree) (cwd d : place t) path loc, directory cwd path d ->
  let q := path_push (path_parent path) loc in
  (forall text, opens cwd q text <-> opens d loc text) /\ (forall e, directory d loc e -> directory cwd q e).
Proof.
  intros t cwd d path loc D q. pose proof (parent_names t _ _ _ D) as N. split.
  - intros text. now apply push_opens.
  - intros e. now apply push_directory.
Qed.
Print Assumptions C80_include.
(** The schema that the macro is given is looked up from the directory of the manifest. *)
Theorem C80_manifest : forall (t : tree) (cwd d : place t) dir schema, names cwd dir = Some d ->
  let q := path_push dir schema in
  (forall text, opens cwd q text <-> opens d schema text) /\ (forall e, directory d schema e -> directory cwd q e).
Proof.
  intros t cwd d dir schema N q. split.
  - intros text. now apply push_opens.
  - intros e. now apply push_directory.
Qed.
Print Assumptions C80_manifest.

(** Nothing but the files that are included, directly or by others, is looked at. *)
Theorem C80_only : forall (L : Libs) f f' path fuel, (forall p l, fs_push f p l = fs_push f' p l) -> (forall p, fs_parent f p = fs_parent f' p) ->
  (forall q, clos_refl_trans _ (includes f) path q -> fs_read f q = fs_read f' q) ->
  parse_file fuel f path = parse_file fuel f' path.
Proof.
  intros L f f' path fuel E1 E2 H.
  assert (X : rn (renamed_err (fun p p' => p' = p /\ clos_refl_trans _ (includes f) path p)) (parse_file_with_context fuel f path None) (parse_file_with_context fuel f' path None)).
  { apply rn_file.
    - intros p p' [-> C]. now apply H.
    - intros p p' d l [-> C] R (c & a & I1 & I2 & I3 & ->). split; [now rewrite E1, E2|]. eapply rt_trans; [exact C|]. apply rt_step. exists d, c, a. auto.
    - split; [reflexivity|apply rt_refl]. }
  unfold parse_file. destruct (parse_file_with_context fuel f path None) as [s|e|w|], (parse_file_with_context fuel f' path None) as [s'|e'|w'|]; cbn in X; try easy; try (now rewrite X).
  f_equal. destruct e, e'; cbn in X; try easy; [destruct X as (-> & -> & _)|destruct X as (-> & _)|rewrite X]; reflexivity.
Qed.
Print Assumptions C80_only.

(** Two trees in which the files that are included are the same: the same outcome, up to the
    paths in errors. *)
Definition same_path {t t' : tree} (cwd : place t) (cwd' : place t') (q q' : string) : Prop := forall u, opens cwd q u <-> opens cwd' q' u.
Theorem C80_trees : forall (L : Libs) (t t' : tree) (cwd : place t) (cwd' : place t') k k' R path path' fuel,
  on_tree cwd k -> on_tree cwd' k' -> (forall text, dk_xml k' text = dk_xml k text) -> alike_trees (dk_xml k) R ->
  same_path cwd cwd' path path' -> (forall u, opens cwd path u -> exists e e', directory cwd path e /\ directory cwd' path' e' /\ R e e' u) ->
  renamed (same_path cwd cwd') (parse_file fuel (fs_of k) path) (parse_file fuel (fs_of k') path').
Proof.
  intros L t t' cwd cwd' k k' R path path' fuel (K1 & K2 & K3) (K1' & K2' & K3') Kx A Sp Dp.
  set (P := fun q q' => same_path cwd cwd' q q' /\ forall u, opens cwd q u -> exists e e', directory cwd q e /\ directory cwd' q' e' /\ R e e' u).
  assert (T : forall q q', same_path cwd cwd' q q' -> dk_text k q = dk_text k' q').
  { intros q q' S. destruct (dk_text k q) as [u|] eqn:E.
    - apply K3, S, K3' in E. now rewrite E.
    - destruct (dk_text k' q') as [u|] eqn:E'; [|reflexivity]. apply K3', S, K3 in E'. congruence. }
  assert (X : rn (renamed_err P) (parse_file_with_context fuel (fs_of k) path None) (parse_file_with_context fuel (fs_of k') path' None)).
  { apply rn_file.
    - intros q q' [S _]. cbn. rewrite (T _ _ S). destruct (dk_text k' q'); [now rewrite Kx|reflexivity].
    - intros q q' d l [S D] Rd Lo. cbn in Rd |- *. rewrite K1, K2, K1', K2'. destruct (dk_text k q) as [u|] eqn:Ek; [|discriminate]. injection Rd as Rd.
      apply K3 in Ek. destruct (D u Ek) as (e & e' & De & De' & Re). destruct (A e e' u d l Re Rd Lo) as [B1 B2].
      destruct (C80_include t cwd e q l De) as [I1 I2]. destruct (C80_include t' cwd' e' q' l De') as [I1' I2']. split.
      + intros v. rewrite I1, I1'. apply B1.
      + intros v O. apply I1 in O. destruct (B2 v O) as (g & g' & G & G' & Rg). exists g, g'. auto.
    - split; assumption. }
  unfold parse_file. destruct (parse_file_with_context fuel (fs_of k) path None) as [s|e|w|], (parse_file_with_context fuel (fs_of k') path' None) as [s'|e'|w'|]; cbn in X |- *; try easy.
  destruct e, e'; cbn in X |- *; try easy; [destruct X as (-> & [X _]); split; [reflexivity|exact X]|now destruct X].
Qed.
Print Assumptions C80_trees.

(** ** Moving a project *)
Lemma stay_steps l : stays l -> ~ In ".." (steps l) /\ absolute l = false.
Proof. intros [A N]. split; [|now rewrite abs_prefix]. intros I. apply N. unfold steps in I. now apply filter_In in I. Qed.
Lemma stay_opens (t t' : tree) (top : place t) (top' : place t') cs d d' l u : same_below top top' -> ~ In ".." cs -> walk top cs = Some d -> walk top' cs = Some d' ->
  stays l -> opens d l u -> opens d' l u.
Proof.
  intros S N W W' St [n v F E T]. destruct (stay_steps l St) as [Nl A]. unfold names, begin in E. rewrite <- abs_prefix, A in E.
  assert (Nc : ~ In ".." (cs ++ steps l)) by (intros I; apply in_app_or in I; tauto). specialize (S _ Nc). rewrite !walk_app, W, W', E in S.
  destruct (walk d' (steps l)) as [n'|] eqn:E'; [|easy]. apply (op_file _ _ n'); [exact F| |congruence]. unfold names, begin. now rewrite <- abs_prefix, A.
Qed.
Lemma below_sym {t t' : tree} (top : place t) (top' : place t') : same_below top top' -> same_below top' top.
Proof. intros S cs N. specialize (S cs N). destruct (walk top cs), (walk top' cs); auto. Qed.
(** A file below [top]. *)
Definition file_below {t : tree} (top : place t) (text : string) : Prop :=
  exists cs n, ~ In ".." cs /\ walk top cs = Some n /\ tr_text n = Some text.
Lemma stay_directory (t t' : tree) (top : place t) (top' : place t') cs d d' l u : same_below top top' -> ~ In ".." cs -> walk top cs = Some d -> walk top' cs = Some d' ->
  stays l -> opens d l u -> exists cs1 e e', directory d l e /\ directory d' l e' /\ ~ In ".." cs1 /\ walk top cs1 = Some e /\ walk top' cs1 = Some e' /\ file_below top u.
Proof.
  intros S N W W' St O. destruct (stay_steps l St) as [Nl A]. pose proof (stay_opens _ _ _ _ _ _ _ _ _ S N W W' St O) as O'.
  pose proof O as [n v F E T]. pose proof O' as [n' v' F' E' T']. destruct (file_step _ F) as (xs & c & Ex). unfold names, begin in E, E'. rewrite <- abs_prefix, A in E, E'.
  rewrite Ex, walk_app in E, E'. destruct (walk d xs) as [e|] eqn:We; [|discriminate]. destruct (walk d' xs) as [e'|] eqn:We'; [|discriminate].
  exists (cs ++ xs), e, e'. assert (Nx : ~ In ".." xs) by (intros I; apply Nl; rewrite Ex; apply in_or_app; now left).
  split; [apply (dr_last _ _ xs c); [exact Ex|unfold begin; now rewrite <- abs_prefix, A]|].
  split; [apply (dr_last _ _ xs c); [exact Ex|unfold begin; now rewrite <- abs_prefix, A]|].
  split; [intros I; apply in_app_or in I; tauto|]. split; [now rewrite walk_app, W|]. split; [now rewrite walk_app, W'|].
  exists (cs ++ steps l), n. split; [intros I; apply in_app_or in I; tauto|]. split; [|congruence]. rewrite walk_app, W, Ex, walk_app, We. exact E.
Qed.
(** A project that is moved or copied to another directory, on another machine, gives the same
    modules, if the locations in its schemas do not leave it. *)
Theorem C80_moved : forall (L : Libs) (t t' : tree) (cwd top : place t) (cwd' top' : place t') k k' dir dir' fuel gfuel args item,
  on_tree cwd k -> on_tree cwd' k' -> (forall text, dk_xml k' text = dk_xml k text) ->
  names cwd dir = Some top -> names cwd' dir' = Some top' -> same_below top top' ->
  (forall a s, In a (ms_list args) -> ma_value a = MvStr s -> stays s) ->
  (forall text x l, file_below top text -> dk_xml k text = Some x -> location x l -> stays l) ->
  match expand fuel gfuel k (Some dir) args item, expand fuel gfuel k' (Some dir') args item with
  | Ok o, Ok o' => o' = o
  | Err (MeSchema e), Err (MeSchema e') => renamed_err (same_path cwd cwd') e e'
  | Err e, Err e' => e' = e
  | Panic w, Panic w' => w' = w
  | OutOfFuel, OutOfFuel => True
  | _, _ => False
  end.
Proof.
  intros L t t' cwd top cwd' top' k k' dir dir' fuel gfuel args item K K' Kx Nd Nd' Sb Sa Sl. unfold expand.
  destruct item as [item|]; [|reflexivity].
  assert (Ra : forall l o, (forall a s, In a l -> ma_value a = MvStr s -> stays s) -> (forall s, o = Some s -> stays s) ->
    match read_args l o with inl e => forall x, e <> MeSchema x | inr None => True | inr (Some s) => stays s end).
  { clear. induction l as [|a l IH]; intros o H Ho; cbn; [destruct o; auto|]. destruct (ma_path a =?s "schema"); [|discriminate].
    destruct (ma_value a) as [s| |] eqn:Ev; [|discriminate|discriminate]. apply IH; [intros b s' I; apply H; now right|]. intros s' [= <-]. apply (H a); [now left|exact Ev]. }
  specialize (Ra (ms_list args) None Sa ltac:(discriminate)).
  destruct (read_args (ms_list args) None) as [e|[schema|]].
  { destruct e; try reflexivity. now destruct (Ra e). }
  2:{ destruct (ms_rest args); reflexivity. }
  destruct (ms_rest args); [|reflexivity]. unfold emit_module.
  set (R := fun (d : place t) (d' : place t') (u : string) => (exists cs, ~ In ".." cs /\ walk top cs = Some d /\ walk top' cs = Some d') /\ file_below top u).
  assert (A : alike_trees (dk_xml k) R).
  { intros d d' text x l [(cs & N & W & W') Fb] Ex Lo. pose proof (Sl _ _ _ Fb Ex Lo) as St. split.
    - intros u. split; intros O; [exact (stay_opens _ _ _ _ _ _ _ _ _ Sb N W W' St O)|exact (stay_opens _ _ _ _ _ _ _ _ _ (below_sym _ _ Sb) N W' W St O)].
    - intros u O. destruct (stay_directory _ _ _ _ _ _ _ _ _ Sb N W W' St O) as (cs1 & e & e' & D & D' & N1 & W1 & W1' & F). exists e, e'. split; [exact D|]. split; [exact D'|]. split; [eauto|exact F]. }
  assert (M : renamed (same_path cwd cwd') (parse_file fuel (fs_of k) (dk_push k dir schema)) (parse_file fuel (fs_of k') (dk_push k' dir' schema))).
  { rewrite (proj1 K), (proj1 K'). destruct (C80_manifest t cwd top dir schema Nd) as [I1 I2]. destruct (C80_manifest t' cwd' top' dir' schema Nd') as [I1' I2'].
    apply (C80_trees L t t' cwd cwd' k k' R); auto.
    - intros u. rewrite I1, I1'. split; intros O; [exact (stay_opens _ _ top top' [] top top' _ _ Sb ltac:(easy) eq_refl eq_refl Ra O)|exact (stay_opens _ _ top' top [] top' top _ _ (below_sym _ _ Sb) ltac:(easy) eq_refl eq_refl Ra O)].
    - intros u O. apply I1 in O. destruct (stay_directory _ _ top top' [] top top' _ _ Sb ltac:(easy) eq_refl eq_refl Ra O) as (cs1 & e & e' & D & D' & N1 & W1 & W1' & F).
      exists e, e'. split; [now apply I2|]. split; [now apply I2'|]. split; [eauto|exact F]. }
  destruct (parse_file fuel (fs_of k) _) as [s|e|w|], (parse_file fuel (fs_of k') _) as [s'|e'|w'|]; try easy; cbn in M |- *.
  subst s'. destruct (generate_all gfuel s) as [p|e|w|] eqn:Eg; cbn; auto. exfalso. exact (generate_all_noerr _ _ _ Eg).
Qed.
Print Assumptions C80_moved.

(** ** Examples *)
(** How std joins and cuts paths. *)
Example C80_parents : map path_parent ["a/b.xsd"; "b.xsd"; "/b.xsd"; "a//b.xsd"; "a/./b.xsd/"; "./b.xsd"; "."; "/"; ""; "../b.xsd"; "/x/../b.xsd"]
  = ["a"; ""; "/"; "a"; "a"; "."; ""; "/"; ""; ".."; "/x/.."]
  /\ path_push "a" "b" = "a/b" /\ path_push "a/" "b" = "a/b" /\ path_push "" "b" = "b" /\ path_push "a" "/b" = "/b" /\ path_push "a" "" = "a/".
Proof. repeat split; by_compute. Qed.
(** A tree whose places are the names from the root on, with the files of a project below [top]. *)
Fixpoint strip (top n : list string) : option (list string) :=
  match top, n with
  | [], _ => Some n
  | a :: top, b :: n => if a =?s b then strip top n else None
  | _, [] => None
  end.
Definition project (top : list string) (files : list (list string * string)) : tree :=
  mkTree (list string) [] (fun d c => Some (if c =?s ".." then removelast d else d ++ [c]))
    (fun n => match strip top n with
              | Some q => match find (fun x => if list_eq_dec string_dec (fst x) q then true else false) files with Some (_, text) => Some text | None => None end
              | None => None
              end).
Definition open_file {t : tree} (cwd : place t) (p : string) : option string :=
  let c := last (parts p) "" in
  if orb (c =?s "") (orb (c =?s ".") (c =?s "..")) then None else match names cwd p with Some n => tr_text n | None => None end.
Lemma open_file_spec {t : tree} (cwd : place t) p u : open_file cwd p = Some u <-> opens cwd p u.
Proof.
  unfold open_file. destruct (exists_last (parts_ne p)) as (ps & c & E). rewrite E, last_last. split.
  - destruct (String.eqb_spec c ""); [discriminate|]. destruct (String.eqb_spec c "."); [discriminate|]. destruct (String.eqb_spec c ".."); [discriminate|]. cbn.
    destruct (names cwd p) as [n'|] eqn:N; [|discriminate]. intros T. apply (op_file _ _ n'); auto. exists ps, c. auto.
  - intros [n' v (ps' & c' & E' & N1 & N2 & N3) N T]. rewrite E in E'. apply app_inj_tail in E'. destruct E' as [_ <-].
    destruct (String.eqb_spec c ""); [easy|]. destruct (String.eqb_spec c "."); [easy|]. destruct (String.eqb_spec c ".."); [easy|]. cbn. now rewrite N.
Qed.
Definition tree_disk {t : tree} (cwd : place t) : disk := mkDisk (open_file cwd) parse_xml (fun _ => (1, 1)) path_push path_parent.
Lemma tree_disk_on {t : tree} (cwd : place t) : on_tree cwd (tree_disk cwd).
Proof. split; [reflexivity|]. split; [reflexivity|]. intros p text. apply open_file_spec. Qed.
Lemma project_below top top' files : same_below (t := project top files) (t' := project top' files) top top'.
Proof.
  assert (W : forall T cs (d : list string), ~ In ".." cs -> walk (t := project T files) d cs = Some (d ++ cs)).
  { intros T cs. induction cs as [|c cs IH]; intros d N; cbn; [now rewrite app_nil_r|]. destruct (String.eqb_spec c "..") as [->|_]; [destruct N; now left|].
    rewrite IH by (intros I; apply N; now right). now rewrite <- app_assoc. }
  assert (St : forall T cs, strip T (T ++ cs) = Some cs) by (induction T as [|a T IH]; intros cs; cbn; [reflexivity|]; now rewrite String.eqb_refl).
  intros cs N. rewrite !W by exact N. cbn. now rewrite !St.
Qed.
Definition main_xsd : string :=
  "<xs:schema xmlns:xs='http://www.w3.org/2001/XMLSchema'><xs:include schemaLocation='common/base.xsd'/><xs:element name='order' type='Text'/></xs:schema>".
Definition base_xsd : string :=
  "<xs:schema xmlns:xs='http://www.w3.org/2001/XMLSchema'><xs:include schemaLocation='./more.xsd'/><xs:simpleType name='Text'><xs:restriction base='xs:string'/></xs:simpleType></xs:schema>".
Definition more_xsd : string :=
  "<xs:schema xmlns:xs='http://www.w3.org/2001/XMLSchema'><xs:element name='note' type='xs:string'/></xs:schema>".
Definition files : list (list string * string) :=
  [(["schemas"; "main.xsd"], main_xsd); (["schemas"; "common"; "base.xsd"], base_xsd); (["schemas"; "common"; "more.xsd"], more_xsd)].
Definition home : list string := ["home"; "a"; "shop"].
Definition srv : list string := ["srv"; "build"].
Definition call : meta_args := mkMargs [mkMarg "schema" (MvStr "schemas/main.xsd")] true.
Definition shop_mod : item_mod := mkImod [] "pub" "shop" (Some []).
Definition run_at (top cwd : list string) (dir : string) : res macro_err out_mod :=
  expand (L := ascii_libs) 40 40 (tree_disk (t := project top files) cwd) (Some dir) call (Some shop_mod).
(** The same project in two directories, one given by a path from the root, one by a path from the
    working directory. *)
Example C80_shop : exists o, run_at home [] "/home/a/shop" = Ok o /\ run_at srv ["srv"; "tmp"] "../build/." = Ok o /\ length (om_types o) = 3.
Proof. eexists. split; [by_compute|]. split; by_compute. Qed.
(** ... which C80_moved says without running anything. *)
Lemma shop_stays : forall text x l, file_below (t := project home files) home text -> parse_xml text = Some x -> location x l -> stays l.
Proof.
  intros text x l (cs & n & _ & _ & T) E Lo.
  assert (C : text = main_xsd \/ text = base_xsd \/ text = more_xsd).
  { cbn [tr_text project] in T. destruct (strip home n) as [q|]; [|discriminate]. destruct (find _ files) as [[q' u]|] eqn:F; [|discriminate]. injection T as <-. apply find_some in F. destruct F as [F _].
    cbn in F. repeat (destruct F as [F|F]; [injection F as <- <-; tauto|]). destruct F. }
  destruct Lo as (c & a & I1 & I2 & [I3 I4] & ->). 
  destruct C as [->|[->| ->]]; vm_compute in E; injection E as <-; vm_compute in I1;
    repeat (destruct I1 as [<-|I1]; [vm_compute in I3; repeat (destruct I3 as [<-|I3]; [first [discriminate I4|split; [reflexivity|vm_compute; intuition discriminate]|destruct I2; discriminate]|]); destruct I3|]); destruct I1.
Qed.
Example C80_shop_moved : on_tree (t := project home files) [] (tree_disk (t := project home files) [])
  /\ on_tree (t := project srv files) ["srv"; "tmp"] (tree_disk (t := project srv files) ["srv"; "tmp"])
  /\ names (t := project home files) [] "/home/a/shop" = Some home /\ names (t := project srv files) ["srv"; "tmp"] "../build/." = Some srv
  /\ same_below (t := project home files) (t' := project srv files) home srv
  /\ (forall a s, In a (ms_list call) -> ma_value a = MvStr s -> stays s)
  /\ (forall text x l, file_below (t := project home files) home text -> parse_xml text = Some x -> location x l -> stays l).
Proof.
  split; [apply tree_disk_on|]. split; [apply tree_disk_on|]. split; [by_compute|]. split; [by_compute|]. split; [apply project_below|]. split; [|exact shop_stays].
  intros a s [<-|[]] [= <-]. split; [reflexivity|]. vm_compute. intuition discriminate.
Qed.
(** A project with a location outside of it does depend on where it is. *)
Definition outer_files : list (list string * string) :=
  [(["main.xsd"], "<xs:schema xmlns:xs='http://www.w3.org/2001/XMLSchema'><xs:include schemaLocation='../shop/more.xsd'/></xs:schema>"); (["more.xsd"], more_xsd)].
Definition run_outer (top : list string) (dir : string) : res macro_err out_mod :=
  expand (L := ascii_libs) 40 40 (tree_disk (t := project top outer_files) []) (Some dir) (mkMargs [mkMarg "schema" (MvStr "main.xsd")] true) (Some shop_mod).
Example C80_outer : exists o, run_outer home "/home/a/shop" = Ok o /\ run_outer srv "/srv/build" = Err (MeSchema (SeOpen "/srv/build/../shop/more.xsd")).
Proof. eexists. split; by_compute. Qed.
