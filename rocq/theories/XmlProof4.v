(** * XmlProof4: the written text is read as the document (lemmas of PropXml.v) *)
From Verif Require Import Base Libs Xml Writer XmlChars XmlRead XmlWrite CanonSpec XmlSpec XmlProof XmlProof2 XmlProof3.

(** ** Tokens *)
Inductive lexes : string -> list (xtok * (N * N)) -> Prop :=
| lx_nil : lexes "" []
| lx_cons p r t ts : p <> "" -> xml_token (p +++ r) = Some (t, r) -> lexes r ts -> lexes (p +++ r) ((t, (left_of (p +++ r), left_of r)) :: ts).
Lemma lexes_tokens s ts : lexes s ts -> forall fuel, (String.length s <= fuel)%nat -> xml_tokens fuel s = Some ts.
Proof.
  induction 1 as [|p r t ts N T H IH]; intros fuel F; [now destruct fuel|]. destruct p as [|c p]; [congruence|].
  destruct fuel as [|fuel]; [simpl in F; lia|]. 
  assert (IH' : xml_tokens fuel r = Some ts). { apply IH. cbn [append String.length] in F. rewrite length_app_s in F. lia. }
  change (xml_tokens (S fuel) (String c p +++ r)) with (match xml_token (String c p +++ r) with
    | Some (t, r0) => option_map (cons (t, (left_of (String c p +++ r), left_of r0))) (xml_tokens fuel r0) | None => None end).
  now rewrite T, IH'.
Qed.

(** ** Frames that will be closed *)
Section WithLibs.
Context {L : Libs}.

Lemma add_nil f : add_kids f [] = f.
Proof. unfold add_kids. rewrite app_nil_r. now destruct f. Qed.
Lemma add_add f a b : add_kids (add_kids f a) b = add_kids f (a ++ b).
Proof. unfold add_kids. cbn [fr_tag fr_ns fr_attrs fr_scope fr_kids]. now rewrite app_assoc. Qed.
Lemma build_closes evs : forall st1 f st done x, build evs (st1 ++ f :: st) done = Some x ->
  exists ks y, close_frame (add_kids f ks) = Some y /\ (st1 = [] \/ exists e ks', ks = KElem e :: ks').
Proof.
  induction evs as [|[n ats nss| |c] evs IH]; intros st1 f st done x H.
  - simpl in H. destruct st1; discriminate.
  - assert (X : exists g, build evs ((g :: st1) ++ f :: st) done = Some x).
    { cbn [build] in H. destruct st1 as [|p st1]; cbn [app] in *.
      - destruct (open_frame (fr_scope f) n ats nss) as [g|]; [|discriminate]. eauto.
      - destruct (open_frame (fr_scope p) n ats nss) as [g|]; [|discriminate]. eauto. }
    destruct X as (g & X). destruct (IH (g :: st1) f st done x X) as (ks & y & C & [D|D]); [discriminate|]. exists ks, y. auto.
  - cbn [build] in H. destruct st1 as [|p st1]; cbn [app] in H.
    + destruct (close_frame f) as [e|] eqn:C; [|discriminate]. exists [], e. rewrite add_nil. auto.
    + destruct (close_frame p) as [e|] eqn:C; [|discriminate]. destruct st1 as [|p' st1]; cbn [app] in H.
      * destruct (IH [] (add_kids f [KElem e]) st done x H) as (ks & y & C' & _). exists (KElem e :: ks), y. rewrite add_add in C'. split; [exact C'|]. right. eauto.
      * destruct (IH (add_kids p' [KElem e] :: st1) f st done x H) as (ks & y & C' & [D|D]); [discriminate|]. exists ks, y. auto.
  - cbn [build] in H. destruct st1 as [|p st1]; cbn [app] in H.
    + destruct (IH [] (add_kids f [KText c]) st done x H) as (ks & y & C' & _). exists (KText c :: ks), y. rewrite add_add in C'. auto.
    + destruct (IH (add_kids p [KText c] :: st1) f st done x H) as (ks & y & C' & [D|D]); [discriminate|]. exists ks, y. auto.
Qed.
Lemma merge_elem q e rest : merge_text (q ++ KElem e :: rest) = merge_text q ++ KElem e :: merge_text rest.
Proof.
  induction q as [|[x|s|s] q IH]; cbn [app merge_text]; [reflexivity|now rewrite IH| |now rewrite IH].
  rewrite IH. destruct (merge_text q) as [|[x'|s'|s'] r]; cbn [app]; destruct (is_empty s); reflexivity.
Qed.
Definition texts (l : list string) : list (kid xelem) := map (fun s => KText s) l.
Lemma merge_texts l : merge_text (texts l) = if is_empty (concat_str l) then [] else [KText (concat_str l)].
Proof.
  induction l as [|s l IH]; [reflexivity|]. cbn [texts map merge_text]. rewrite concat_cons_s. fold (texts l). rewrite IH.
  destruct (concat_str l) as [|c t] eqn:E; cbn [is_empty].
  - rewrite app_s_nil_r. destruct (is_empty s); reflexivity.
  - destruct s; reflexivity.
Qed.
Lemma texts_back_app a b ks : texts_back (a ++ b) = Some ks -> exists ka kb, texts_back a = Some ka /\ texts_back b = Some kb /\ ks = ka ++ kb.
Proof.
  revert ks. induction a as [|[x|s|s] a IH]; intros ks H; cbn [app texts_back] in H.
  - exists [], ks. auto.
  - destruct (texts_back (a ++ b)) as [k|]; [|discriminate]. destruct (IH k eq_refl) as (ka & kb & A & B & ->). injection H as <-.
    exists (KElem x :: ka), kb. cbn [texts_back]. rewrite A. auto.
  - destruct (xml_text_back s) as [s'|] eqn:E; [|discriminate]. destruct (texts_back (a ++ b)) as [k|]; [|discriminate].
    destruct (IH k eq_refl) as (ka & kb & A & B & ->). injection H as <-. exists (KText s' :: ka), kb. cbn [texts_back]. rewrite E, A. auto.
  - destruct (texts_back (a ++ b)) as [k|]; [|discriminate]. destruct (IH k eq_refl) as (ka & kb & A & B & ->). injection H as <-.
    exists (KOther s :: ka), kb. cbn [texts_back]. rewrite A. auto.
Qed.
Definition laid (pre : list (kid xelem)) : Prop := pre = [] \/ exists q e, pre = q ++ [KElem e].
Lemma merge_laid pre rest : laid pre -> merge_text (pre ++ rest) = merge_text pre ++ merge_text rest.
Proof.
  intros [->|(q & e & ->)]; [reflexivity|]. rewrite <- app_assoc. cbn [app]. rewrite !merge_elem. cbn [merge_text]. now rewrite <- app_assoc.
Qed.
Lemma readable pre l post ks : laid pre -> post = [] \/ (exists e p, post = KElem e :: p) ->
  texts_back (merge_text (pre ++ texts l ++ post)) = Some ks -> concat_str l = "" \/ exists v, xml_text_back (concat_str l) = Some v.
Proof.
  intros P Q H. rewrite (merge_laid _ _ P) in H. destruct (texts_back_app _ _ _ H) as (_ & k & _ & H1 & _). clear H.
  assert (H2 : exists k', texts_back (merge_text (texts l)) = Some k').
  { destruct Q as [->|(e & p & ->)]; [rewrite app_nil_r in H1; eauto|]. rewrite merge_elem in H1.
    destruct (texts_back_app _ _ _ H1) as (k' & _ & H2 & _). eauto. }
  destruct H2 as (k' & H2). rewrite merge_texts in H2. destruct (is_empty (concat_str l)) eqn:E; [left; now destruct (concat_str l)|].
  right. cbn [texts_back] in H2. destruct (xml_text_back (concat_str l)) as [v|]; [eauto|discriminate].
Qed.
Lemma elems_app {A} (a b : list (kid A)) : elems_of (a ++ b) = elems_of a ++ elems_of b.
Proof. induction a as [|[x|s|s] a IH]; cbn [app elems_of]; [reflexivity|now rewrite IH|exact IH|exact IH]. Qed.
Lemma elems_merge ks : elems_of (merge_text ks) = elems_of ks.
Proof.
  induction ks as [|[x|s|s] ks IH]; cbn [merge_text elems_of]; [reflexivity|now rewrite IH| |exact IH].
  destruct (merge_text ks) as [|[x'|s'|s'] r]; cbn [elems_of] in *; destruct (is_empty s); cbn [elems_of]; auto.
Qed.
Lemma elems_back ks ks' : texts_back ks = Some ks' -> elems_of ks' = elems_of ks.
Proof.
  revert ks'. induction ks as [|[x|s|s] ks IH]; intros ks' H; cbn [texts_back] in H.
  - now injection H as <-.
  - destruct (texts_back ks) as [k|]; [|discriminate]. injection H as <-. cbn [elems_of]. now rewrite (IH k eq_refl).
  - destruct (xml_text_back s); [|discriminate]. destruct (texts_back ks) as [k|]; [|discriminate]. injection H as <-. cbn [elems_of]. now apply IH.
  - destruct (texts_back ks) as [k|]; [|discriminate]. injection H as <-. cbn [elems_of]. now apply IH.
Qed.
Lemma elems_add {v} ks : elems_of (add_text v ks) = elems_of ks.
Proof.
  unfold add_text. destruct (is_empty v); [reflexivity|].
  destruct (rev ks) as [|[x|s|s] r] eqn:E; try (rewrite elems_app; cbn [elems_of]; now rewrite app_nil_r).
  assert (K : ks = rev r ++ [KText s]) by (rewrite <- (rev_involutive ks), E; reflexivity). rewrite K, !elems_app. reflexivity.
Qed.

(** ** Reading *)
Variable em : emitter.
Hypothesis XA : xml_are em L.
Variable N' : string -> option string.
Variable total : N.

Definition static (f : frame) (sc : scope) (n : string) (nss : list (list (string * string))) : Prop :=
  fine_name n /\ same_scope (fr_scope f) sc /\ scope_good (fr_scope f)
  /\ (forall m p u, In m nss -> aget String.eqb p m = Some u -> aget String.eqb p (fr_scope f) = Some u)
  /\ (forall p u, aget String.eqb p (fr_scope f) = Some u -> N' p = Some u).
Definition tag_rel (f : frame) (rf : rframe) (n : string) : Prop :=
  rf_name rf = qn n /\ snd (qn n) = fr_tag f /\ rf_ns rf = fr_ns f /\ map attr_key (fr_attrs f) = map attr_key (rf_attrs rf).
Inductive stacks : list frame -> list rframe -> list string -> list (list (string * string)) -> Prop :=
| st_nil : stacks [] [] [] []
| st_cons f fs rf rs n ns d nss : static f (rf_scope rf) n (d :: nss) -> tag_rel f rf n ->
    indented_all (elems_of (fr_kids f)) (elems_of (rf_kids rf)) -> stacks fs rs ns nss -> stacks (f :: fs) (rf :: rs) (n :: ns) (d :: nss).
Definition fscope (fs : list frame) : list (string * string) := match fs with [] => [] | f :: _ => fr_scope f end.
Definition rscope (rs : list rframe) : scope := match rs with [] => [] | f :: _ => rf_scope f end.
Lemma stacks_scope fs rs ns nss : stacks fs rs ns nss ->
  same_scope (fscope fs) (rscope rs) /\ scope_good (fscope fs)
  /\ (forall m p u, In m nss -> aget String.eqb p m = Some u -> aget String.eqb p (fscope fs) = Some u)
  /\ (forall p u, aget String.eqb p (fscope fs) = Some u -> N' p = Some u).
Proof.
  intros [|f fs' rf rs' n ns' d nss' (A & B & C & D & E) _ _ _]; cbn [fscope rscope]; [|auto].
  split; [intros p; reflexivity|]. split; [intros p u; discriminate|]. split; [intros m p u []|intros p u; discriminate].
Qed.
(** New children that mean the same. *)
Lemma stacks_kids f fs rf rs ns nss ks ks' : stacks (f :: fs) (rf :: rs) ns nss ->
  indented_all (elems_of (fr_kids f ++ ks)) (elems_of ks') -> stacks (add_kids f ks :: fs) (with_kids rf ks' :: rs) ns nss.
Proof.
  intros H I. inversion H as [|? ? ? ? n ns' d nss' ST TR IA S']; subst. constructor; auto.
Qed.

Inductive pend := POpen (n : string) (ps : list piece) | PText (acc : string) | PNone.
Definition pend_text (p : pend) : string :=
  match p with POpen n ps => "<" +++ n +++ concat_str (map piece_text ps) | PText acc => escape (esc_text em) acc | PNone => "" end.
Definition opens (f : frame) (rs : list rframe) (n : string) (ps : list piece) (sc : scope) : Prop :=
  Forall piece_ok ps /\ forall ras start, map rattr_key ras = map piece_key ps ->
    exists rf, open_tag total start (rscope rs) (qn n) ras = Some rf /\ tag_rel f rf n /\ rf_scope rf = sc /\ rf_kids rf = [].
Inductive state_ok : list frame -> wstate -> pend -> list rframe -> Prop :=
| so_open f fs rs n names d nss ps sc w : stacks fs rs names nss -> static f sc n (d :: nss) -> fr_kids f = [] -> opens f rs n ps sc ->
    length w = S (length fs) -> state_ok (f :: fs) (mkWstate (S (length fs)) (Markup :: w) (n :: names) true (d :: nss)) (POpen n ps) rs
| so_text f fs rf rs names nss pre l w : stacks (f :: fs) (rf :: rs) names nss -> fr_kids f = pre ++ texts l -> laid pre -> (pre = [] -> rf_kids rf = []) ->
    length w = S (length fs) -> state_ok (f :: fs) (mkWstate (S (length fs)) (Text :: w) names false nss) (PText (concat_str l)) (rf :: rs)
| so_none f fs rf rs names nss q e w : stacks (f :: fs) (rf :: rs) names nss -> fr_kids f = q ++ [KElem e] ->
    length w = S (length fs) -> state_ok (f :: fs) (mkWstate (S (length fs)) (Markup :: w) names false nss) PNone (rf :: rs)
| so_out : state_ok [] (mkWstate 0 [Markup] [] false []) PNone [].
Definition done_rel (done root : option xelem) : Prop :=
  match done, root with None, None => True | Some x, Some x' => indented x x' | _, _ => False end.

(** Reading text before a tag. *)
Definition reads (raw v : string) : Prop :=
  raw = "" /\ v = "" \/ raw <> "" /\ forall r, begins_lt r -> exists b, xml_token (raw +++ r) = Some (TkText v b, r).
Lemma flush raw v r ts rf rs root : reads raw v -> begins_lt r -> lexes r ts ->
  exists ts', lexes (raw +++ r) ts' /\ xml_tree total ts' (rf :: rs) root = xml_tree total ts (with_kids rf (add_text v (rf_kids rf)) :: rs) root.
Proof.
  intros [[-> ->]|[NE H]] B X.
  - exists ts. split; [exact X|]. unfold add_text, with_kids. cbn [is_empty]. now destruct rf.
  - destruct (H r B) as (b & T). eexists. split; [apply (lx_cons raw r _ ts NE T X)|]. reflexivity.
Qed.
Lemma reads_newline n : reads (newline n) (newline n).
Proof. right. split; [discriminate|]. intros r B. exists true. apply token_blank; [discriminate|apply indent_blank|exact B]. Qed.
Lemma reads_text s v : s = "" /\ v = "" \/ xml_text_back s = Some v -> reads (escape (esc_text em) s) v.
Proof.
  intros [[-> ->]|H]; [now left|]. destruct XA as (XT & _ & _). rewrite XT in H. destruct s as [|c s].
  - left. split; [reflexivity|]. unfold text_back in H. destruct (_ && _)%bool; [|discriminate]. injection H as <-. now destruct (em_cr em).
  - right. split.
    + cbn [escape]. destruct (esc_text_cases em c) as [->|[I _]]; [discriminate|].
      simpl in I. decompose [or] I; try tauto; match goal with X : _ = esc_text em c |- _ => rewrite <- X; discriminate end.
    + intros r B. apply token_chars; auto. discriminate.
Qed.
Lemma text_back_chars s v : xml_text_back s = Some v -> xml_chars (escape (esc_text em) s) = true /\ (s <> "" -> v <> "").
Proof.
  intros H. destruct XA as (XT & _ & _). rewrite XT in H. unfold text_back in H. destruct (xml_chars s) eqn:C; [|discriminate].
  destruct (_ && _)%bool; [|discriminate]. injection H as <-. split; [apply chars_escape; [exact (esc_text_cases em)|exact C]|].
  destruct (em_cr em); [auto|]. destruct s as [|c [|d s]]; [congruence|..]; intros _; cbn [eol].
  - destruct (Ascii.eqb c cr); discriminate.
  - destruct (Ascii.eqb c cr); [|discriminate]. destruct (Ascii.eqb_spec d lf) as [->|]; discriminate.
Qed.

(** A start tag is begun. *)
Lemma start_step fs rs names nss n ats nss' f w : stacks fs rs names nss -> open_frame (fscope fs) n ats nss' = Some f ->
  NoDup (map fst nss') -> (forall p u, In (p, u) nss' -> plain_uri u /\ unreserved p u /\ N' p = Some u) -> length w = S (length fs) ->
  let d := new_ns nss nss' in
  exists ps, concat_str (map (ns_text em) d) +++ concat_str (map (attr_text em) ats) = concat_str (map piece_text ps)
    /\ state_ok (f :: fs) (mkWstate (S (length fs)) (Markup :: w) (n :: names) true (d :: nss)) (POpen n ps) rs.
Proof.
  intros S' O ND U W d. destruct (stacks_scope _ _ _ _ S') as (SS & G & WN & AG).
  assert (SC : fr_scope f = nss' ++ fscope fs /\ fr_kids f = []).
  { unfold open_frame in O. destruct (decls_ok nss'); [|discriminate]. destruct (expand_elem _ n) as [[t ns]|]; [|discriminate].
    destruct (expand_attrs _ ats); [|discriminate]. now injection O as <-. }
  destruct SC as [SC SK].
  assert (AG' : forall p u, aget String.eqb p nss' = Some u -> N' p = Some u).
  { intros p u E. apply (aget_In _ String.eqb_eq) in E. now apply U in E. }
  destruct (open_read em XA (fscope fs) (rscope rs) n ats nss' f nss SS G O ND) as (ps & T & PO & F & SS' & G' & R).
  { intros p u I. destruct (U _ _ I) as (A & B & _). auto. }
  { exact WN. }
  { intros p u u' E1 E2. apply AG' in E1. apply AG in E2. congruence. }
  exists ps. split; [exact T|].
  apply so_open with (sc := tag_scope d (rscope rs)); auto.
  - split; [exact F|]. split; [exact SS'|]. split; [exact G'|]. rewrite SC. split.
    + intros m p u [<-|I] E; rewrite aget_app_s.
      * apply (aget_In _ String.eqb_eq) in E. apply new_In in E. destruct E as [E _]. apply (In_aget _ String.eqb_eq _ _ _ ND) in E. now rewrite E.
      * pose proof (WN _ _ _ I E) as E'. destruct (aget String.eqb p nss') as [u'|] eqn:E2; [|exact E'].
        apply AG' in E2. apply AG in E'. congruence.
    + intros p u. rewrite aget_app_s. destruct (aget String.eqb p nss') as [u'|] eqn:E; [intros [= ->]; auto|apply AG].
  - split; [exact PO|]. intros ras start M. destruct (R ras total start M) as (rf & O' & A1 & A2 & A3 & A4 & A5 & A6). exists rf.
    split; [exact O'|]. split; [split; [exact A1|split; [exact A2|split; [exact A3|exact A4]]]|auto].
Qed.
(** A start tag is finished. *)
Lemma open_step f fs rs names nss d n sc ps r root k closed : stacks fs rs names nss -> static f sc n (d :: nss) -> opens f rs n ps sc -> closer k closed -> fr_kids f = [] ->
  (fs = [] -> root = None) ->
  exists rf, stacks (f :: fs) (rf :: rs) (n :: names) (d :: nss) /\ rf_kids rf = [] /\
    (forall ts, lexes r ts -> let e := (total - left_of r)%N in exists ts', lexes (pend_text (POpen n ps) +++ k +++ r) ts' /\
      xml_tree total ts' rs root = if closed then
         match rs with [] => xml_tree total ts [] (Some (close_tag e rf)) | g :: st => xml_tree total ts (with_kids g (rf_kids g ++ [KElem (close_tag e rf)]) :: st) root end
         else xml_tree total ts (rf :: rs) root).
Proof.
  intros S' ST (PO & R) K FK RT. pose proof ST as ST'. destruct ST as (F & _).
  destruct (token_open n ps k closed r F PO K) as (ras & T & M).
  destruct (R ras (total - left_of (pend_text (POpen n ps) +++ k +++ r))%N M) as (rf & O & TR & SC & RK).
  exists rf. split; [|split; [exact RK|]].
  - constructor; auto; [now rewrite SC|]. rewrite FK, RK. constructor.
  - intros ts X e. assert (Eq : pend_text (POpen n ps) +++ k +++ r = (pend_text (POpen n ps) +++ k) +++ r) by now rewrite app_s_assoc.
    assert (T' : xml_token ((pend_text (POpen n ps) +++ k) +++ r) = Some (TkOpen (qn n) ras closed, r)).
    { rewrite <- T. f_equal. cbn [pend_text]. now rewrite !app_s_assoc. }
    assert (NE : pend_text (POpen n ps) +++ k <> "") by (intros E; discriminate E).
    eexists. split; [rewrite Eq; apply (lx_cons _ r _ ts NE T' X)|].
    cbn [xml_tree]. rewrite <- Eq.
    assert (Rs : match rs, root with [], Some _ => false | _, _ => true end = true).
    { inversion S'; subst; [now rewrite (RT eq_refl)|reflexivity]. }
    destruct rs as [|g st].
    + destruct root; [discriminate|]. cbn [rscope] in O. rewrite O. destruct closed; reflexivity.
    + cbn [rscope] in O. rewrite O. destruct closed; reflexivity.
Qed.
Lemma piece_chars p : piece_ok p -> xml_chars (piece_text p) = true.
Proof.
  destruct p as [[n raw] v]. intros (F & _ & _ & _ & C). unfold piece_text. apply chars_app; [reflexivity|].
  apply chars_app; [now apply fine_chars|]. apply chars_app; [reflexivity|]. apply chars_app; [exact C|reflexivity].
Qed.
Lemma pend_open_chars n ps : fine_name n -> Forall piece_ok ps -> xml_chars (pend_text (POpen n ps)) = true.
Proof.
  intros F P. cbn [pend_text]. apply chars_app; [reflexivity|]. apply chars_app; [now apply fine_chars|].
  induction P as [|p ps H P IH]; [reflexivity|]. cbn [map]. rewrite concat_cons_s. apply chars_app; [now apply piece_chars|exact IH].
Qed.
Lemma newline_chars n : xml_chars (newline n) = true.
Proof. apply blank_chars, indent_blank. Qed.

(** An element is finished. *)
Lemma closed_element f rf n y : tag_rel f rf n -> close_frame f = Some y ->
  (exists ks, texts_back (merge_text (fr_kids f)) = Some ks /\ indented_kids ks (rf_kids rf)) -> forall e, indented y (close_tag e rf).
Proof.
  intros (A1 & A2 & A3 & A4) C (ks & T & I) e. unfold close_frame in C. rewrite T in C. injection C as <-.
  unfold close_tag. rewrite A1, A2, A3. constructor; auto.
Qed.
Lemma closed_kids f rf ks : elems_of (fr_kids f) <> [] -> indented_all (elems_of (fr_kids f)) (elems_of (rf_kids rf)) ->
  texts_back (merge_text (fr_kids f)) = Some ks -> indented_kids ks (rf_kids rf).
Proof.
  intros NE I T. pose proof (elems_back _ _ T) as E. rewrite elems_merge in E. apply ik_laid; rewrite E; auto.
Qed.
Lemma all_snoc xs ys x y : indented_all xs ys -> indented x y -> indented_all (xs ++ [x]) (ys ++ [y]).
Proof. intros H I. induction H; cbn [app]; [constructor; [exact I|constructor]|constructor; auto]. Qed.
End WithLibs.
