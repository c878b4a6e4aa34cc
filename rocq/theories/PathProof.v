(** * PathProof: proofs about paths and the files of a schema (C80) *)
From Coq Require Import Lia.
From Verif Require Import Base Libs Xml Ast XsdNode Parse ParseSpec Macro XmlRead XmlGrammar DeclSpec DeclProof1 Path PathSpec.

(** ** Parts *)
Lemma parts_ne s : parts s <> [].
Proof. destruct s as [|c s]; cbn; [discriminate|]. destruct (Ascii.eqb c "/"); [discriminate|]. destruct (parts s); discriminate. Qed.
Lemma parts_app a b : parts (a +++ String "/" b) = parts a ++ parts b.
Proof.
  induction a as [|c a IH]; [reflexivity|]. cbn [append parts]. rewrite IH. destruct (Ascii.eqb c "/"); [reflexivity|].
  pose proof (parts_ne a). destruct (parts a); [easy|reflexivity].
Qed.
Lemma steps_app a b : steps (a +++ String "/" b) = steps a ++ steps b.
Proof. unfold steps. now rewrite parts_app, filter_app. Qed.
Definition plain_part (s : string) : Prop := parts s = [s].
Lemma split_parts s : match split_last s with Some (a, b) => s = a +++ String "/" b /\ plain_part b | None => plain_part s end.
Proof.
  induction s as [|c s IH]; [reflexivity|]. cbn [split_last]. destruct (split_last s) as [[a b]|].
  - destruct IH as [-> P]. now split.
  - destruct (Ascii.eqb_spec c "/") as [->|N]; [now split|]. unfold plain_part. cbn [parts]. destruct (Ascii.eqb_spec c "/"); [easy|]. now rewrite IH.
Qed.
Definition said (c : string) : bool := negb (orb (c =?s "") (c =?s ".")).
Lemma steps_plain c : plain_part c -> steps c = if said c then [c] else [].
Proof. intros P. unfold steps. rewrite P. cbn. unfold said. now destruct (negb _). Qed.
(** The body [b] is either one part or a body, a slash and a part. *)
Lemma pop_steps b : let '(rest, c) := pop_part b in plain_part c /\ steps b = steps rest ++ steps c
  /\ (b = rest +++ String "/" c \/ rest = "" /\ b = c) /\ (b <> "" -> String.length rest < String.length b).
Proof.
  unfold pop_part. pose proof (split_parts b) as H. destruct (split_last b) as [[a c]|].
  - destruct H as [-> P]. split; [exact P|]. split; [apply steps_app|]. split; [now left|]. intros _.
    clear. induction a; cbn; lia.
  - split; [exact H|]. split; [reflexivity|]. split; [now right|]. destruct b; [easy|cbn; lia].
Qed.
Lemma trim_steps fuel b : String.length b <= fuel -> steps (trim_right fuel b) = steps b
  /\ (trim_right fuel b = "" \/ let '(rest, c) := pop_part (trim_right fuel b) in said c = true)
  /\ exists z, b = trim_right fuel b +++ z.
Proof.
  revert b. induction fuel as [|fuel IH]; intros b Hb.
  - destruct b; [|cbn in Hb; lia]. split; [reflexivity|]. split; [now left|]. exists "". reflexivity.
  - cbn [trim_right]. destruct (String.eqb_spec b "") as [->|Nb]; [split; [reflexivity|]; split; [now left|exists ""; reflexivity]|].
    pose proof (pop_steps b) as H. destruct (pop_part b) as [rest c] eqn:Ep. destruct H as (P & E & D & Ln). specialize (Ln Nb).
    destruct (is_component c) eqn:Ec.
    + split; [reflexivity|]. split; [right; now rewrite Ep|]. exists "". clear. induction b as [|x b IH]; cbn; [reflexivity|now rewrite <- IH].
    + destruct (IH rest) as (I1 & I2 & z & I3); [lia|]. split; [|split; [exact I2|]].
      * rewrite I1, E, (steps_plain c P). change (said c) with (is_component c). rewrite Ec. now rewrite app_nil_r.
      * assert (X : exists w, b = rest +++ w) by (destruct D as [D|[D ->]]; [rewrite D; now eexists|rewrite D; now exists c]). destruct X as [w Ew]. exists (z +++ w). rewrite Ew, I3 at 1.
        generalize (trim_right fuel rest). clear. intros s. induction s as [|c s IH]; cbn; [reflexivity|]. now rewrite IH.
Qed.

Lemma abs_prefix p : absolute p = prefix "/" p.
Proof.
  destruct p as [|c p]; [reflexivity|]. cbn [absolute prefix]. destruct (Ascii.ascii_dec "/" c) as [<-|N]; [now destruct p|].
  apply Ascii.eqb_neq. congruence.
Qed.
Lemma head_spec p : let '(head, body) := path_head p in p = head +++ body /\ steps body = steps p
  /\ (head = "/" \/ head = "." /\ (body = "" \/ exists r, body = String "/" r) \/ head = "" /\ absolute p = false).
Proof.
  destruct p as [|c p]; [repeat split; tauto|]. unfold path_head.
  destruct (Ascii.eqb_spec c "/") as [->|N1]; [repeat split; tauto|].
  destruct (Ascii.eqb_spec c ".") as [->|N2].
  - destruct p as [|d p]; [repeat split; right; left; auto|]. destruct (Ascii.eqb_spec d "/") as [->|N3].
    + repeat split. right. left. split; [reflexivity|]. right. now exists p.
    + replace (match String d p with "" => (".", "") | String "/" r => (".", String "/" r) | _ => ("", String "." (String d p)) end)
        with ("", String "." (String d p)); [repeat split; tauto|]. destruct d as [[] [] [] [] [] [] [] []]; try reflexivity. now destruct N3.
  - match goal with |- let '(h, b) := ?m in _ => replace m with ("", String c p) end.
    + repeat split. right. right. split; [reflexivity|]. cbn. now destruct (Ascii.eqb_spec c "/").
    + destruct c as [[] [] [] [] [] [] [] []]; try reflexivity; [now destruct N2|now destruct N1].
Qed.
Lemma steps_slash b : steps (String "/" b) = steps b.
Proof. reflexivity. Qed.
Lemma abs_app a b : a <> "" -> absolute (a +++ b) = absolute a.
Proof. now destruct a. Qed.
Lemma app_s_nil2 (a : string) : a +++ "" = a.
Proof. induction a as [|c a IH]; cbn; [reflexivity|now rewrite IH]. Qed.
Lemma app_s_assoc2 (a b c : string) : (a +++ b) +++ c = a +++ b +++ c.
Proof. induction a as [|x a IH]; cbn; [reflexivity|now rewrite IH]. Qed.
Lemma parent_spec p cs c : steps p = cs ++ [c] -> steps (path_parent p) = cs /\ absolute (path_parent p) = absolute p.
Proof.
  intros E. unfold path_parent, path_parent_opt. pose proof (head_spec p) as H. destruct (path_head p) as [head body]. destruct H as (Ep & Es & Hd).
  rewrite <- Es in E. destruct (trim_steps _ body (le_n _)) as (T1 & T2 & z & T3). set (b := trim_right (String.length body) body) in *. rewrite <- T1 in E.
  destruct (String.eqb_spec b "") as [Eb|Nb]; [rewrite Eb in E; destruct cs; discriminate|]. destruct T2 as [T2|T2]; [easy|].
  pose proof (pop_steps b) as P. destruct (pop_part b) as [rest c'] eqn:Epp. destruct P as (Pc & Pe & Pd & _). rewrite (steps_plain _ Pc), T2 in Pe.
  rewrite E in Pe. apply app_inj_tail in Pe. destruct Pe as [-> ->].
  destruct (trim_steps _ rest (le_n _)) as (U1 & _ & w & U3). set (q := trim_right (String.length rest) rest) in *.
  assert (Pre : exists y, body = q +++ y).
  { rewrite T3. destruct Pd as [->|[Er ->]].
    - rewrite U3. exists (w +++ String "/" c' +++ z). rewrite !app_s_assoc2. reflexivity.
    - rewrite Er in U3. destruct q; [now eexists|discriminate]. }
  destruct Pre as [y Ey]. destruct Hd as [->|[[-> Hb]|[-> Ha]]].
  - split; [cbn [append]; rewrite steps_slash; exact U1|]. now rewrite Ep.
  - split; [|now rewrite Ep]. rewrite Ey in Hb. destruct q as [|d q]; [exact U1|]. destruct Hb as [Hb|[r Hb]]; [discriminate|]. injection Hb as -> _.
    change ("." +++ String "/" q) with ("." +++ String "/" q). rewrite steps_app. exact U1.
  - split; [exact U1|]. cbn [append] in Ep |- *. rewrite Ep, Ey. destruct q as [|d q]; [|reflexivity]. rewrite <- Ey, <- Ep. now rewrite Ha.
Qed.
Lemma ends_spec p : ends_in_slash p = true -> exists q, p = q +++ "/".
Proof.
  induction p as [|c p IH]; [discriminate|]. cbn. destruct p as [|d p].
  - intros H. apply Ascii.eqb_eq in H as ->. now exists "".
  - intros H. destruct (IH H) as [q ->]. now exists (String c q).
Qed.
Lemma push_spec q l : absolute l = false -> steps (path_push q l) = steps q ++ steps l /\ absolute (path_push q l) = absolute q
  /\ exists ps, parts (path_push q l) = ps ++ parts l.
Proof.
  intros A. unfold path_push. rewrite A. destruct (String.eqb_spec q "") as [->|N]; cbn [orb].
  - cbn [append]. split; [reflexivity|]. split; [exact A|]. now exists [].
  - destruct (ends_in_slash q) eqn:E.
    + apply ends_spec in E. destruct E as [r ->]. rewrite app_s_assoc2. cbn [append]. rewrite !steps_app, app_nil_r. split; [reflexivity|].
      split; [now destruct r|]. exists (parts r). apply parts_app.
    + change ("/" +++ l) with (String "/" l). rewrite steps_app. split; [reflexivity|]. split; [now apply abs_app|]. exists (parts q). apply parts_app.
Qed.
Lemma push_abs q l : absolute l = true -> path_push q l = l.
Proof. unfold path_push. now intros ->. Qed.

(** ** Trees *)
Section Tree.
Variable t : tree.
Implicit Types (d cwd : place t).
Lemma walk_app d a b : walk d (a ++ b) = match walk d a with Some e => walk e b | None => None end.
Proof. revert d. induction a as [|c a IH]; intros d; cbn; [reflexivity|]. destruct (tr_step d c); auto. Qed.
Lemma push_begin cwd q l : absolute l = false -> begin cwd (path_push q l) = begin cwd q.
Proof. intros A. unfold begin. rewrite <- !abs_prefix. now rewrite (proj1 (proj2 (push_spec q l A))). Qed.
(** [push] onto a path that names the directory [d]. *)
Lemma push_names cwd q d l : names cwd q = Some d -> names cwd (path_push q l) = names d l.
Proof.
  intros N. destruct (absolute l) eqn:A.
  - rewrite (push_abs _ _ A). unfold names, begin. rewrite <- abs_prefix, A. reflexivity.
  - unfold names at 1. rewrite (push_begin _ _ _ A), (proj1 (push_spec q l A)), walk_app. unfold names in N. rewrite N. unfold names, begin. now rewrite <- abs_prefix, A.
Qed.
Lemma push_file q l : names_file (path_push q l) <-> names_file l.
Proof.
  destruct (absolute l) eqn:A; [now rewrite (push_abs _ _ A)|]. destruct (push_spec q l A) as (_ & _ & ps & E). unfold names_file. rewrite E. split.
  - intros (xs & c & K & H). destruct (exists_last (parts_ne l)) as (ys & c' & Ey). rewrite Ey, app_assoc in K. apply app_inj_tail in K. destruct K as [_ ->]. eauto.
  - intros (xs & c & -> & H). exists (ps ++ xs), c. now rewrite app_assoc.
Qed.
Lemma push_opens cwd q d l text : names cwd q = Some d -> opens cwd (path_push q l) text <-> opens d l text.
Proof.
  intros N. split; intros [n u F E T]; apply (op_file _ _ n); auto.
  - exact (proj1 (push_file q l) F).
  - now rewrite (push_names _ _ _ _ N) in E.
  - exact (proj2 (push_file q l) F).
  - now rewrite (push_names _ _ _ _ N).
Qed.
Lemma push_directory cwd q d l e : names cwd q = Some d -> directory d l e -> directory cwd (path_push q l) e.
Proof.
  intros N [cs c d' S W]. destruct (absolute l) eqn:A.
  - rewrite (push_abs _ _ A). apply (dr_last _ _ cs c); [exact S|]. unfold begin in W |- *. now rewrite <- abs_prefix, A in *.
  - destruct (push_spec q l A) as (E & _). apply (dr_last _ _ (steps q ++ cs) c); [now rewrite E, S, app_assoc|].
    rewrite (push_begin _ _ _ A), walk_app. unfold names in N. rewrite N. unfold begin in W. now rewrite <- abs_prefix, A in W.
Qed.
Lemma parent_names cwd p d : directory cwd p d -> names cwd (path_parent p) = Some d.
Proof.
  intros [cs c d' S W]. destruct (parent_spec _ _ _ S) as [E A]. unfold names, begin. rewrite E, <- abs_prefix, A, abs_prefix. exact W.
Qed.
Lemma directory_fun cwd p d d' : directory cwd p d -> directory cwd p d' -> d = d'.
Proof. intros [cs c e S W] [cs' c' e' S' W']. rewrite S in S'. apply app_inj_tail in S'. destruct S' as [<- <-]. congruence. Qed.
Lemma file_step p : names_file p -> exists cs c, steps p = cs ++ [c].
Proof.
  intros (ps & c & E & N1 & N2 & _). unfold steps. rewrite E, filter_app. cbn.
  destruct (String.eqb_spec c ""); [easy|]. destruct (String.eqb_spec c "."); [easy|]. cbn. eauto.
Qed.
Lemma opens_directory cwd p text : opens cwd p text -> exists d, directory cwd p d.
Proof.
  intros [n u F E T]. destruct (file_step _ F) as (cs & c & S). unfold names in E. rewrite S, walk_app in E.
  destruct (walk (begin cwd p) cs) as [d|] eqn:W; [|discriminate]. exists d. now apply (dr_last _ _ cs c).
Qed.
Lemma opens_fun cwd p u u' : opens cwd p u -> opens cwd p u' -> u = u'.
Proof. intros [n x F E T] [n' x' F' E' T']. congruence. Qed.
End Tree.

(** ** The parser, with paths renamed *)
Section Renamed.
Context {L : Libs}.
Variable P : string -> string -> Prop.
Variables f f' : fs.
Hypothesis reads : forall p p', P p p' -> fs_read f p = fs_read f' p'.
Hypothesis next : forall p p' d l, P p p' -> fs_read f p = Some (Some d) -> location d l ->
  P (fs_push f (fs_parent f p) l) (fs_push f' (fs_parent f' p') l).
Definition rn_parse (e e' : parse_err) : Prop :=
  match e, e' with PeSchema e, PeSchema e' => renamed_err P e e' | PeXsd e, PeXsd e' => e' = e | _, _ => False end.
Definition rn {E A} (Re : E -> E -> Prop) (m m' : res E A) : Prop :=
  match m, m' with
  | Ok a, Ok a' => a' = a
  | Err e, Err e' => Re e e'
  | Panic w, Panic w' => w' = w
  | OutOfFuel, OutOfFuel => True
  | _, _ => False
  end.
Lemma rn_bind {E A B} (Re : E -> E -> Prop) (m m' : res E A) (g g' : A -> res E B) : rn Re m m' -> (forall a, m = Ok a -> rn Re (g a) (g' a)) -> rn Re (bind m g) (bind m' g').
Proof. destruct m, m'; cbn; try easy. intros -> H. now apply H. Qed.
Lemma rn_refl {E A} (Re : E -> E -> Prop) (m : res E A) : (forall e, m = Err e -> Re e e) -> rn Re m m.
Proof. destruct m; cbn; auto. Qed.
Lemma rn_map {E F A} (Re : E -> E -> Prop) (Rf : F -> F -> Prop) g g' (m m' : res E A) : rn Re m m' -> (forall e e', Re e e' -> Rf (g e) (g' e')) -> rn Rf (map_err g m) (map_err g' m').
Proof. destruct m, m'; cbn; try easy; auto. Qed.
Definition loads_alike (load load' : string -> shared_ctx -> res schema_err schema) (d : xelem) (b b' : string) : Prop :=
  forall l s, location d l -> rn (renamed_err P) (load (fs_push f b l) s) (load' (fs_push f' b' l) s).
Lemma try_location n a n' d : In (n_elem n) (xsd_children d) -> is_load (n_elem n) -> n_try_attribute n "schemaLocation" = Ok (a, n') -> location d (at_value a).
Proof.
  intros I Il H. exists (n_elem n), a. split; [exact I|]. split; [exact Il|]. split; [|reflexivity].
  destruct (try_attr _ _ _ _ H) as [(xs & ys & E & En & _) _]. split; [rewrite E; apply in_or_app; right; now left|exact En].
Qed.
Lemma rn_child fuel load load' d b b' n c : loads_alike load load' d b b' -> In (n_elem n) (xsd_children d) ->
  rn rn_parse (schema_child fuel load f b n c) (schema_child fuel load' f' b' n c).
Proof.
  intros H I. unfold schema_child. destruct (orb _ _) eqn:O.
  - assert (Il : is_load (n_elem n)) by (apply orb_true_iff in O; rewrite !String.eqb_eq in O; exact O).
    apply rn_bind; [apply rn_refl; intros [e|e]; [|reflexivity]|].
    { destruct (n_try_attribute n "schemaLocation"); discriminate. }
    intros [a n'] Ea. destruct (n_try_attribute n "schemaLocation") as [[a1 n1]| | |] eqn:Et; cbn in Ea; try discriminate. injection Ea as -> ->.
    apply rn_bind; [|intros s _; reflexivity]. apply (rn_map (renamed_err P)); [|auto]. apply H. eapply try_location; eauto.
  - apply rn_refl. intros [e|e] Ee; [|reflexivity]. exfalso. revert Ee. destruct (n_try_attribute n "name") as [[a n1]| | |]; cbn; try discriminate.
    destruct (root_parse _ _ _ _) as [[r c']| | |]; cbn; discriminate.
Qed.
Lemma rn_children fuel load load' d b b' ns : loads_alike load load' d b b' -> (forall n, In n ns -> In (n_elem n) (xsd_children d)) ->
  forall c, rn rn_parse (schema_children fuel load f b ns c) (schema_children fuel load' f' b' ns c).
Proof.
  intros H. induction ns as [|n ns IH]; intros I c; cbn; [reflexivity|]. apply rn_bind.
  - apply (rn_child _ _ _ d); [exact H|]. apply I. now left.
  - intros c1 _. apply IH. intros m Im. apply I. now right.
Qed.
Lemma rn_schema fuel load load' d b b' sh : loads_alike load load' d b b' -> rn rn_parse (parse_schema_with fuel load f d b sh) (parse_schema_with fuel load' f' d b' sh).
Proof.
  intros H. unfold parse_schema_with. destruct (negb _); [reflexivity|]. destruct (n_attribute (node_of d) "targetNamespace") as [tn n] eqn:E.
  apply rn_bind; [|intros c _; reflexivity]. apply (rn_children _ _ _ d); [exact H|].
  assert (En : n_elem n = d) by (unfold n_attribute in E; injection E as _ <-; reflexivity).
  rewrite children_nodes, En. intros m Im. apply in_map_iff in Im. now destruct Im as (x & <- & Ix).
Qed.
Lemma rn_file fuel : forall p p' sh, P p p' -> rn (renamed_err P) (parse_file_with_context fuel f p sh) (parse_file_with_context fuel f' p' sh).
Proof.
  induction fuel as [|fuel IH]; intros p p' sh Hp; cbn [parse_file_with_context]; [exact I|]. rewrite <- (reads _ _ Hp).
  destruct (fs_read f p) as [[d|]|] eqn:Er; [|split; [reflexivity|exact Hp]|exact Hp].
  unfold parse_with. apply (rn_map rn_parse).
  - apply rn_schema. intros l s Hl. apply IH. now apply (next _ _ d).
  - intros [e|e] [e'|e'] He; cbn in *; now auto.
Qed.
End Renamed.
