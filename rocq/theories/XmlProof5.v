(** * XmlProof5: the whole text (lemmas of PropXml.v) *)
From Verif Require Import Base Libs Xml Writer XmlChars XmlRead XmlWrite CanonSpec XmlSpec XmlProof XmlProof2 XmlProof3 XmlProof4.

Section WithLibs.
Context {L : Libs}.
Variable em : emitter.
Hypothesis XA : xml_are em L.
Variable N' : string -> option string.
Variable total : N.
Notation state_ok := (state_ok N' total).
Notation pend_text := (pend_text em).

Definition events_ok (evs : list event) : Prop := forall n ats nss, In (EvStart n ats nss) evs ->
  NoDup (map fst nss) /\ forall p u, In (p, u) nss -> plain_uri u /\ unreserved p u /\ N' p = Some u.
(** What is shown of the rest of the text. *)
Definition good_text (text : string) (rs : list rframe) (root : option xelem) (x : xelem) : Prop :=
  xml_chars text = true /\ exists ts x', lexes text ts /\ xml_tree total ts rs root = Some x' /\ indented x x'.
Definition goal (evs : list event) : Prop := forall fs done s pd rs root t x,
  state_ok fs s pd rs -> done_rel done root -> (fs <> [] -> root = None) -> build evs fs done = Some x -> write_events em s evs = Some t ->
  good_text (pend_text pd +++ t) rs root x.

Lemma pend_lt n ps r : begins_lt (pend_text (POpen n ps) +++ r).
Proof. reflexivity. Qed.
Lemma good_flush raw v rf rs root r x : reads raw v -> begins_lt r -> xml_chars raw = true ->
  good_text r (with_kids rf (add_text v (rf_kids rf)) :: rs) root x -> good_text (raw +++ r) (rf :: rs) root x.
Proof.
  intros R B C (C' & ts & x' & X & T & I). destruct (flush total raw v r ts rf rs root R B X) as (ts' & X' & T').
  split; [now apply chars_app|]. exists ts', x'. split; [exact X'|]. split; [now rewrite T'|exact I].
Qed.
(** The end of an element, when its text has been read. *)
Lemma good_close n rf rs root r x : fine_name n -> rf_name rf = qn n ->
  match rs with [] => good_text r [] (Some (close_tag (total - left_of r) rf)) x
              | g :: st => good_text r (with_kids g (rf_kids g ++ [KElem (close_tag (total - left_of r) rf)]) :: st) root x end ->
  good_text ("</" +++ n +++ ">" +++ r) (rf :: rs) root x.
Proof.
  intros F E H. assert (C : xml_chars ("</" +++ n +++ ">") = true).
  { apply chars_app; [reflexivity|]. apply chars_app; [now apply fine_chars|reflexivity]. }
  assert (Eq : "</" +++ n +++ ">" +++ r = ("</" +++ n +++ ">") +++ r) by now rewrite !app_s_assoc.
  assert (T : xml_token (("</" +++ n +++ ">") +++ r) = Some (TkClose (qn n), r)) by (rewrite <- Eq; now apply token_close).
  assert (G : exists root' st', good_text r st' root' x /\
     forall ts, xml_tree total ((TkClose (qn n), (left_of (("</" +++ n +++ ">") +++ r), left_of r)) :: ts) (rf :: rs) root = xml_tree total ts st' root').
  { destruct rs as [|g st]; (eexists; eexists; split; [exact H|]; intros ts; cbn [xml_tree]; rewrite E, !String.eqb_refl; reflexivity). }
  destruct G as (root' & st' & (C' & ts & x' & X & TT & I) & Q). rewrite Eq. split; [now apply chars_app|].
  assert (NE : "</" +++ n +++ ">" <> "") by (intros Z; discriminate Z).
  eexists. exists x'. split; [apply (lx_cons _ r _ ts NE T X)|]. split; [now rewrite Q|exact I].
Qed.

(** After the end of an element. *)
Lemma after_end evs : goal evs -> forall f fs rf rs n ns d nss w done root root' t x y e, stacks N' (f :: fs) (rf :: rs) (n :: ns) (d :: nss) ->
  length w = S (length fs) -> done_rel done root -> root' = root -> root = None -> indented y (close_tag e rf) ->
  match fs with [] => build evs [] (Some y) | p :: st => build evs (add_kids p [KElem y] :: st) done end = Some x ->
  write_events em (mkWstate (length fs) (set_wrote Markup w) ns false nss) evs = Some t ->
  match rs with [] => good_text t [] (Some (close_tag e rf)) x | g :: st => good_text t (with_kids g (rf_kids g ++ [KElem (close_tag e rf)]) :: st) root' x end.
Proof.
  intros G f fs rf rs n ns d nss w done root root' t x y e S' W D -> -> I B T. inversion S' as [|? ? ? ? ? ? ? ? ST TR IA S2]; subst.
  destruct S2 as [|p fs rg rs n' ns' d' nss' ST' TR' IA' S3].
  - assert (w = [Markup] \/ exists z, w = [z]) as Hw.
    { destruct w as [|z [|]]; simpl in W; try discriminate. eauto. }
    assert (Sw : set_wrote Markup w = [Markup]) by (destruct Hw as [->|(z & ->)]; reflexivity). rewrite Sw in T.
    exact (G [] (Some y) _ PNone [] (Some (close_tag e rf)) t x (so_out N' total) I ltac:(congruence) B T).
  - destruct w as [|z w]; [discriminate|]. cbn [set_wrote] in T.
    refine (G (add_kids p [KElem y] :: fs) done (mkWstate (S (length fs)) (Markup :: w) (n' :: ns') false (d' :: nss')) PNone
             (with_kids rg (rf_kids rg ++ [KElem (close_tag e rf)]) :: rs) None t x _ D ltac:(reflexivity) B T).
    apply so_none with (q := fr_kids p) (e := y).
    + apply stacks_kids; [now constructor|]. rewrite !elems_app. cbn [elems_of]. now apply all_snoc.
    + reflexivity.
    + simpl in W. cbn [length]. lia.
Qed.


(** An unfinished start tag. *)
Lemma good_open f fs rs names nss d n sc ps r root k closed x : stacks N' fs rs names nss -> static N' f sc n (d :: nss) -> opens total f rs n ps sc -> closer k closed -> fr_kids f = [] ->
  root = None ->
  exists rf, stacks N' (f :: fs) (rf :: rs) (n :: names) (d :: nss) /\ rf_kids rf = [] /\
    let e := (total - left_of r)%N in
    ((if closed then match rs with [] => good_text r [] (Some (close_tag e rf)) x | g :: st => good_text r (with_kids g (rf_kids g ++ [KElem (close_tag e rf)]) :: st) root x end
      else good_text r (rf :: rs) root x) -> good_text (pend_text (POpen n ps) +++ k +++ r) rs root x).
Proof.
  intros S' SF OP K FK RN. destruct (open_step em N' total f fs rs names nss d n sc ps r root k closed S' SF OP K FK (fun _ => RN)) as (rf & S1 & RK & H).
  exists rf. split; [exact S1|]. split; [exact RK|]. intros e G.
  assert (C : xml_chars (pend_text (POpen n ps) +++ k) = true).
  { apply chars_app; [apply pend_open_chars; [apply SF|apply OP]|]. destruct K as [[-> _]|[-> _]]; reflexivity. }
  assert (X : exists ts x', xml_chars r = true /\ lexes r ts /\ indented x x' /\
     (if closed then match rs with [] => xml_tree total ts [] (Some (close_tag e rf)) | g :: st => xml_tree total ts (with_kids g (rf_kids g ++ [KElem (close_tag e rf)]) :: st) root end
         else xml_tree total ts (rf :: rs) root) = Some x').
  { destruct closed; [destruct rs|]; destruct G as (C' & ts & x' & X & T & I); exists ts, x'; auto. }
  destruct X as (ts & x' & C' & X & I & T). destruct (H ts X) as (ts' & X' & T').
  split; [rewrite <- app_s_assoc; now apply chars_app|]. exists ts', x'. split; [exact X'|]. split; [|exact I]. rewrite T'. exact T.
Qed.

Lemma some_inj {A} (a b : A) : Some a = Some b -> a = b.
Proof. congruence. Qed.
Lemma read_back evs : events_ok evs -> goal evs.
Proof.
  induction evs as [|ev evs IH]; intros OK.
  { intros fs done s pd rs root t x ST D _ B T. cbn [build] in B. destruct fs; [|discriminate]. inversion ST; subst. cbn [write_events] in T. injection T as <-.
    cbn [done_rel] in D. destruct root as [x'|]; [|contradiction]. split; [reflexivity|]. exists [], x'. split; [constructor|]. auto. }
  assert (IH' : goal evs) by (apply IH; intros n ats nss I; apply (OK n ats nss); now right). clear IH.
  intros fs done s pd rs root t x ST D RT B T.
  destruct ev as [n ats nss'| |c].
  - (* start tag *)
    destruct (OK n ats nss' (or_introl eq_refl)) as [ND U]. clear OK.
    assert (BF : exists f1, open_frame (fscope fs) n ats nss' = Some f1 /\ build evs (f1 :: fs) done = Some x /\ (fs = [] -> done = None)).
    { cbn [build] in B. destruct fs as [|p fs].
      - destruct done; [discriminate|]. cbn [fscope]. destruct (open_frame [] n ats nss') as [f1|]; [|discriminate]. eauto.
      - cbn [fscope]. destruct (open_frame (fr_scope p) n ats nss') as [f1|]; [|discriminate]. exists f1. split; [reflexivity|]. split; [exact B|discriminate]. }
    destruct BF as (f1 & O & B1 & DN). clear B. cbn [write_events] in T.
    assert (RN : root = None).
    { destruct fs; [|apply RT; discriminate]. specialize (DN eq_refl). subst. cbn [done_rel] in D. now destruct root. }
    assert (GO : forall names nss w rs1 t', stacks N' fs rs1 names nss -> length w = S (length fs) ->
       write_events em (mkWstate (S (length fs)) (Markup :: w) (n :: names) true (new_ns nss nss' :: nss)) evs = Some t' ->
       good_text (("<" +++ n +++ concat_str (map (ns_text em) (new_ns nss nss')) +++ concat_str (map (attr_text em) ats)) +++ t') rs1 root x).
    { intros names nss w rs1 t' S' W T'. destruct (start_step em XA N' total fs rs1 names nss n ats nss' f1 w S' O ND U W) as (ps & E & SO).
      rewrite E. exact (IH' _ _ _ _ _ _ _ _ SO D (fun _ => RN) B1 T'). }
    destruct ST as [f fs rs n0 names d nss ps sc w S' SF FK OP W|f fs rf rs names nss pre l w S' FK LA EX W|f fs rf rs names nss q e w S' FK W|].
    + (* after an unfinished start tag *)
      unfold start_text in T. unfold before_markup, wrote_last, finish in T.
      cbn [ws_level ws_wrote ws_names ws_open ws_nss negb andb Nat.eqb orb set_wrote fst snd] in T.
      match type of T with option_map _ ?W = _ => destruct W as [t'|] eqn:T' end; [|discriminate]. cbn [option_map] in T. apply some_inj in T. rewrite <- T. clear T t.
      set (u := "<" +++ n +++ concat_str (map (ns_text em) (new_ns (d :: nss) nss')) +++ concat_str (map (attr_text em) ats)) in *.
      destruct (good_open f fs rs names nss d n0 sc ps (newline (S (length fs)) +++ u +++ t') root ">" false x S' SF OP (or_introl (conj eq_refl eq_refl)) FK RN) as (rf & S1 & RK & H).
      replace (pend_text (POpen n0 ps) +++ (">" +++ newline (S (length fs)) +++ u) +++ t') with (pend_text (POpen n0 ps) +++ ">" +++ newline (S (length fs)) +++ u +++ t') by now rewrite !app_s_assoc.
      apply H. cbn iota.
      apply (good_flush _ (newline (S (length fs)))); [apply reads_newline|reflexivity|apply newline_chars|].
      apply GO with (names := n0 :: names) (w := Markup :: w); [|simpl; now rewrite W|exact T'].
      rewrite <- (add_nil f). apply stacks_kids; [exact S1|]. rewrite FK, elems_add, RK. constructor.
    + (* after text *)
      unfold start_text in T. unfold before_markup, wrote_last, finish in T.
      cbn [ws_level ws_wrote ws_names ws_open ws_nss negb andb Nat.eqb orb set_wrote fst snd] in T.
      match type of T with option_map _ ?W = _ => destruct W as [t'|] eqn:T' end; [|discriminate]. cbn [option_map] in T. apply some_inj in T. rewrite <- T. clear T t.
      destruct (build_closes evs [f1] f fs done x B1) as (ks & y & C & [Z|(e & ks' & ->)]); [discriminate|].
      unfold close_frame in C. cbn [add_kids fr_kids] in C. rewrite FK, <- app_assoc in C.
      destruct (texts_back _) as [kk|] eqn:TB in C; [|discriminate].
      assert (R : exists v, (concat_str l = "" /\ v = "" \/ xml_text_back (concat_str l) = Some v)).
      { destruct (readable pre l (KElem e :: ks') kk LA) as [E|(v & E)]; eauto. }
      destruct R as (v & R). cbn [pend_text append].
      apply (good_flush _ v); [now apply reads_text|reflexivity| |].
      { destruct R as [[-> _]|R]; [reflexivity|]. now apply (text_back_chars em XA) in R. }
      apply GO with (names := names) (w := Text :: w); [|simpl; now rewrite W|exact T'].
      rewrite <- (add_nil f). apply stacks_kids; [exact S'|]. rewrite app_nil_r, elems_add. now inversion S'.
    + (* after an element *)
      unfold start_text in T. unfold before_markup, wrote_last, finish in T.
      cbn [ws_level ws_wrote ws_names ws_open ws_nss negb andb Nat.eqb orb set_wrote fst snd] in T.
      match type of T with option_map _ ?W = _ => destruct W as [t'|] eqn:T' end; [|discriminate]. cbn [option_map] in T. apply some_inj in T. rewrite <- T. clear T t.
      cbn [XmlProof4.pend_text append]. rewrite app_s_assoc.
      apply (good_flush _ (newline (S (length fs)))); [apply reads_newline|reflexivity|apply newline_chars|].
      apply GO with (names := names) (w := Markup :: w); [|simpl; now rewrite W|exact T'].
      rewrite <- (add_nil f). apply stacks_kids; [exact S'|]. rewrite app_nil_r, elems_add. now inversion S'.
    + (* the first one *)
      unfold start_text in T. unfold before_markup, wrote_last, finish in T.
      cbn [ws_level ws_wrote ws_names ws_open ws_nss negb andb Nat.eqb orb set_wrote fst snd] in T.
      match type of T with option_map _ ?W = _ => destruct W as [t'|] eqn:T' end; [|discriminate]. cbn [option_map] in T. apply some_inj in T. rewrite <- T. clear T t.
      destruct (GO [] [] [Markup] [] t' (st_nil N') eq_refl T') as (C & ts & x' & X & TT & I).
      cbn [XmlProof4.pend_text append]. rewrite app_s_assoc. split; [apply chars_app; [reflexivity|exact C]|].
      eexists. exists x'. split; [apply (lx_cons (newline 0) _ (TkText (newline 0) true) ts); [discriminate|now apply token_blank|exact X]|]. split; [|exact I]. exact TT.
  - (* end tag *)
    clear OK. cbn [build] in B. cbn [write_events] in T.
    destruct ST as [f fs rs n0 names d nss ps sc w S' SF FK OP W|f fs rf rs names nss pre l w S' FK LA EX W|f fs rf rs names nss q e w S' FK W|]; [..|discriminate].
    + destruct (close_frame f) as [y|] eqn:C; [|discriminate]. assert (RN : root = None) by (apply RT; discriminate).
      unfold end_text in T. cbn [ws_level ws_wrote ws_names ws_open ws_nss Nat.eqb tl] in T. rewrite Nat.sub_succ, Nat.sub_0_r in T.
      match type of T with option_map _ ?W = _ => destruct W as [t'|] eqn:T' end; [|discriminate]. cbn [option_map] in T. apply some_inj in T. rewrite <- T. clear T t.
      destruct (good_open f fs rs names nss d n0 sc ps t' root " />" true x S' SF OP (or_intror (conj eq_refl eq_refl)) FK RN) as (rf & S1 & RK & H).
      apply H. apply (after_end evs IH' f fs rf rs n0 names d nss w done root root t' x y _ S1 W D eq_refl RN); [|exact B|exact T'].
      inversion S1 as [|? ? ? ? ? ? ? ? ST TR IA S2]; subst. apply (closed_element f rf n0 y TR C). exists []. rewrite FK, RK. split; [reflexivity|]. now constructor.
    + destruct (close_frame f) as [y|] eqn:C; [|discriminate]. assert (RN : root = None) by (apply RT; discriminate).
      inversion S' as [|? ? ? ? n names' d nss' ST TR IA S2]; subst names nss. subst.
      unfold end_text in T. cbn [ws_level ws_wrote ws_names ws_open ws_nss Nat.eqb tl wrote_last andb] in T. rewrite Nat.sub_succ, Nat.sub_0_r in T.
      match type of T with option_map _ ?W = _ => destruct W as [t'|] eqn:T' end; [|discriminate]. cbn [option_map] in T. apply some_inj in T. rewrite <- T. clear T t.
      unfold close_frame in C. rewrite FK in C. destruct (texts_back (merge_text (pre ++ texts l))) as [kk|] eqn:TB; [|discriminate].
      assert (R : exists v, (concat_str l = "" /\ v = "" \/ xml_text_back (concat_str l) = Some v)).
      { destruct (readable pre l [] kk LA) as [E|(v & E)]; [now left|now rewrite app_nil_r|eauto..]. }
      destruct R as (v & R). cbn [pend_text append].
      apply (good_flush _ v); [now apply reads_text|reflexivity| |].
      { destruct R as [[-> _]|R]; [reflexivity|]. now apply (text_back_chars em XA) in R. }
      rewrite (app_s_assoc n). 
      set (rf' := with_kids rf (add_text v (rf_kids rf))).
      assert (S1 : stacks N' (f :: fs) (rf' :: rs) (n :: names') (d :: nss')).
      { rewrite <- (add_nil f). apply stacks_kids; [exact S'|]. now rewrite app_nil_r, elems_add. }
      apply (good_close n rf' rs None (t') x); [apply ST|apply TR|].
      apply (after_end evs IH' f fs rf' rs n names' d nss' w done None None t' x y _ S1 W D eq_refl eq_refl); [|exact B|exact T'].
      apply (closed_element f rf' n y); [exact TR|unfold close_frame; rewrite FK, TB; exact C|]. exists kk. rewrite FK. split; [exact TB|].
      destruct LA as [->|(q & e & ->)].
      * cbn [app] in *. unfold rf', with_kids. cbn [rf_kids]. rewrite (EX eq_refl). rewrite merge_texts in TB.
        destruct R as [[E ->]|R].
        -- rewrite E in TB. cbn in TB. injection TB as <-. now constructor.
        -- destruct (is_empty (concat_str l)) eqn:E.
           ++ destruct (concat_str l) as [|]; [|discriminate]. injection TB as <-.
              assert (V : v = ""). { destruct (reads_text em XA N' "" v (or_intror R)) as [[_ V]|[V _]]; [exact V|exfalso; apply V; reflexivity]. }
              subst. now constructor.
           ++ cbn [texts_back] in TB. rewrite R in TB. injection TB as <-. unfold add_text.
              assert (V : v <> ""). { apply (text_back_chars em XA) in R. apply R. intros Z. now rewrite Z in E. }
              destruct v; [congruence|]. cbn [is_empty rev app]. now constructor.
      * rewrite <- FK in TB. apply (closed_kids f rf'); [|inversion S1; assumption|exact TB]. rewrite FK, !elems_app. cbn [elems_of].
        destruct (elems_of q); discriminate.
    + destruct (close_frame f) as [y|] eqn:C; [|discriminate]. assert (RN : root = None) by (apply RT; discriminate).
      inversion S' as [|? ? ? ? n names' d nss' ST TR IA S2]; subst names nss. subst.
      unfold end_text in T. cbn [ws_level ws_wrote ws_names ws_open ws_nss Nat.eqb tl wrote_last andb negb] in T. rewrite Nat.sub_succ, Nat.sub_0_r in T.
      match type of T with option_map _ ?W = _ => destruct W as [t'|] eqn:T' end; [|discriminate]. cbn [option_map] in T. apply some_inj in T. rewrite <- T. clear T t.
      cbn [XmlProof4.pend_text append]. rewrite !app_s_assoc.
      apply (good_flush _ (newline (length fs))); [apply reads_newline|reflexivity|apply newline_chars|].
      set (rf' := with_kids rf (add_text (newline (length fs)) (rf_kids rf))).
      assert (S1 : stacks N' (f :: fs) (rf' :: rs) (n :: names') (d :: nss')).
      { rewrite <- (add_nil f). apply stacks_kids; [exact S'|]. now rewrite app_nil_r, elems_add. }
      change (String "<" (String "/" (n +++ ">")) +++ t') with ("</" +++ (n +++ ">") +++ t'). rewrite (app_s_assoc n).
      apply (good_close n rf' rs None (t') x); [apply ST|apply TR|].
      apply (after_end evs IH' f fs rf' rs n names' d nss' w done None None t' x y _ S1 W D eq_refl eq_refl); [|exact B|exact T'].
      pose proof C as C1. unfold close_frame in C1. destruct (texts_back (merge_text (fr_kids f))) as [kk|] eqn:TB; [|discriminate].
      apply (closed_element f rf' n y); [exact TR|exact C|]. exists kk. split; [exact TB|].
      apply (closed_kids f rf'); [|inversion S1; assumption|exact TB]. rewrite FK, !elems_app. cbn [elems_of]. destruct (elems_of q); discriminate.
  - (* text *)
    clear OK. cbn [build] in B. cbn [write_events chars_text] in T.
    destruct ST as [f fs rs n0 names d nss ps sc w S' SF FK OP W|f fs rf rs names nss pre l w S' FK LA EX W|f fs rf rs names nss q e w S' FK W|]; [..|discriminate].
    + assert (RN : root = None) by (apply RT; discriminate). unfold finish in T. cbn [ws_level ws_wrote ws_names ws_open ws_nss set_wrote] in T.
      match type of T with option_map _ ?W = _ => destruct W as [t'|] eqn:T' end; [|discriminate]. cbn [option_map] in T. apply some_inj in T. rewrite <- T. clear T t.
      destruct (good_open f fs rs names nss d n0 sc ps (escape (esc_text em) c +++ t') root ">" false x S' SF OP (or_introl (conj eq_refl eq_refl)) FK RN) as (rf & S1 & RK & H).
      rewrite (app_s_assoc ">"). apply H. cbn iota.
      assert (SO : state_ok (add_kids f [KText c] :: fs) (mkWstate (S (length fs)) (Text :: w) (n0 :: names) false (d :: nss)) (PText (concat_str [c])) (rf :: rs)).
      { apply so_text with (pre := []); [| |now left|auto|exact W].
        - replace rf with (with_kids rf (rf_kids rf)) by now destruct rf. apply stacks_kids; [exact S1|]. rewrite FK, RK. constructor.
        - cbn [add_kids fr_kids]. now rewrite FK. }
      exact (IH' _ _ _ _ _ _ _ _ SO D (fun _ => RN) B T').
    + assert (RN : root = None) by (apply RT; discriminate). unfold finish in T. cbn [ws_level ws_wrote ws_names ws_open ws_nss set_wrote append] in T.
      match type of T with option_map _ ?W = _ => destruct W as [t'|] eqn:T' end; [|discriminate]. cbn [option_map] in T. apply some_inj in T. rewrite <- T. clear T t.
      assert (SO : state_ok (add_kids f [KText c] :: fs) (mkWstate (S (length fs)) (Text :: w) names false nss) (PText (concat_str (l ++ [c]))) (rf :: rs)).
      { apply so_text with (pre := pre); [| |exact LA|exact EX|exact W].
        - replace rf with (with_kids rf (rf_kids rf)) by now destruct rf. apply stacks_kids; [exact S'|]. rewrite elems_app. cbn [elems_of]. rewrite app_nil_r. now inversion S'.
        - cbn [add_kids fr_kids]. rewrite FK. unfold texts. now rewrite map_app, app_assoc. }
      pose proof (IH' _ _ _ _ _ _ _ _ SO D (fun _ => RN) B T') as G. cbn [XmlProof4.pend_text] in *.
      rewrite concat_app_s, escape_app, app_s_assoc in G. exact G.
    + assert (RN : root = None) by (apply RT; discriminate). unfold finish in T. cbn [ws_level ws_wrote ws_names ws_open ws_nss set_wrote append] in T.
      match type of T with option_map _ ?W = _ => destruct W as [t'|] eqn:T' end; [|discriminate]. cbn [option_map] in T. apply some_inj in T. rewrite <- T. clear T t.
      assert (SO : state_ok (add_kids f [KText c] :: fs) (mkWstate (S (length fs)) (Text :: w) names false nss) (PText (concat_str [c])) (rf :: rs)).
      { apply so_text with (pre := fr_kids f); [|reflexivity|right; eauto| |exact W].
        - replace rf with (with_kids rf (rf_kids rf)) by now destruct rf. apply stacks_kids; [exact S'|]. rewrite elems_app. cbn [elems_of]. rewrite app_nil_r. now inversion S'.
        - rewrite FK. intros Z. destruct q; discriminate. }
      exact (IH' _ _ _ _ _ _ _ _ SO D (fun _ => RN) B T').
Qed.
End WithLibs.

(** ** The document *)
Lemma prolog_read t : declaration ("<?xml version=""1.0"" encoding=""UTF-8""?>" +++ t) = Some t.
Proof. reflexivity. Qed.
Theorem write_read {L : Libs} em evs x text : xml_are em L -> declarations_ok evs -> document evs = Some x -> write_xml em evs = Some text ->
  exists x', parse_xml text = Some x' /\ indented x x'.
Proof.
  intros XA (D1 & D2 & D3) B T. unfold write_xml in T.
  destruct (write_events em (mkWstate 0 [Markup] [] false []) evs) as [t|] eqn:T'; [|discriminate]. cbn [option_map] in T. apply some_inj in T. rewrite <- T. clear T text.
  set (ds := flat_map (fun ev => match ev with EvStart _ _ nss => nss | _ => [] end) evs).
  assert (Dec : forall p u, In (p, u) ds <-> declares evs p u).
  { intros p u. unfold ds. rewrite in_flat_map. split.
    - intros ([n ats nss| |c] & I & J); [exists n, ats, nss; auto|destruct J|destruct J].
    - intros (n & ats & nss & I & J). exists (EvStart n ats nss). auto. }
  set (text := "<?xml version=""1.0"" encoding=""UTF-8""?>" +++ t).
  assert (OK : events_ok (fun p => aget String.eqb p ds) evs).
  { intros n ats nss I. split; [eapply D1; eauto|]. intros p u J. assert (DD : declares evs p u) by (exists n, ats, nss; auto).
    destruct (D2 p u DD) as [U1 U2]. split; [exact U1|]. split; [exact U2|].
    destruct (aget String.eqb p ds) as [u'|] eqn:E.
    - f_equal. apply (D3 p); [|exact DD]. apply Dec. now apply (aget_In _ String.eqb_eq).
    - apply (aget_None _ String.eqb_eq) in E. exfalso. apply E. apply Dec in DD. now apply (in_map fst) in DD. }
  destruct (read_back em XA (fun p => aget String.eqb p ds) (left_of text) evs OK [] None _ PNone [] None t x (so_out _ _) I ltac:(congruence) B T')
    as (C & ts & x' & X & TT & II).
  exists x'. split; [|exact II]. unfold parse_xml.
  change (lit (byte_of 239 +++ byte_of 187 +++ byte_of 191) text) with (@None string). cbn iota.
  assert (CT : xml_chars text = true) by (apply chars_app; [reflexivity|exact C]). rewrite CT.
  unfold text at 1. rewrite prolog_read. cbn [XmlProof4.pend_text append] in X. now rewrite (lexes_tokens _ _ X _ (le_n _)).
Qed.
