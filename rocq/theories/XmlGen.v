(** * XmlGen: the declarations written by generated code (lemmas of PropXml.v) *)
From Verif Require Import Base Libs Xml Ast Decode Writer Gen Run XmlChars XmlRead XmlWrite XmlSpec XmlProof3.

(** Writing succeeds for the events of a document. *)
Lemma writes_text {L : Libs} em evs : forall fs done x s, build evs fs done = Some x -> length (ws_names s) = length fs -> exists t, write_events em s evs = Some t.
Proof.
  induction evs as [|[n ats nss| |c] evs IH]; intros fs done x s B E; cbn [write_events].
  - eauto.
  - cbn [build] in B. destruct (start_text em s n ats nss) as [t0 s1] eqn:E1. unfold start_text in E1. destruct (before_markup _) as [ind w]. injection E1 as _ <-.
    assert (X : exists f, build evs (f :: fs) done = Some x).
    { destruct fs as [|p fs].
      - destruct done; [discriminate|]. destruct (open_frame [] n ats nss); [eauto|discriminate].
      - destruct (open_frame (fr_scope p) n ats nss); [eauto|discriminate]. }
    destruct X as (f & X). edestruct (IH (f :: fs) done x) as (t & ->); [exact X|simpl; now rewrite E|]. simpl. eauto.
  - cbn [build] in B. destruct fs as [|f fs]; [discriminate|]. destruct (close_frame f) as [y|]; [|discriminate].
    unfold end_text. destruct (ws_names s) as [|n names]; [discriminate|]. simpl in E. injection E as E.
    destruct fs as [|p fs].
    + edestruct (IH [] (Some y) x) as (t & ->); [exact B|exact E|]. simpl. eauto.
    + edestruct (IH (add_kids p [KElem y] :: fs) done x) as (t & ->); [exact B|exact E|]. simpl. eauto.
  - cbn [build] in B. destruct fs as [|f fs]; [discriminate|]. unfold chars_text.
    edestruct (IH (add_kids f [KText c] :: fs) done x) as (t & ->); [exact B|exact E|]. simpl. eauto.
Qed.

Lemma nodup_snoc {A} (l : list A) x : NoDup l -> ~ In x l -> NoDup (l ++ [x]).
Proof.
  induction l as [|y l IH]; intros N I; simpl; [constructor; [intros []|constructor]|]. inversion N as [|? ? N1 N2]; subst. constructor.
  - intros H. apply in_app_or in H. destruct H as [H|[H|[]]]; [auto|]. subst. apply I. now left.
  - apply IH; [exact N2|]. intros H. apply I. now right.
Qed.

Section WithLibs.
Context {L : Libs}.
Variable p : program.
Variable NSS : list (string * string).
Hypothesis Same : forall id t, lookup_item p id = Some t -> ti_nss t = NSS.

Definition known (m : list (string * string)) : Prop := NoDup (map fst m) /\ forall q u, In (q, u) m -> aget String.eqb q NSS = Some u.
Definition known_events (evs : list event) : Prop := forall n ats nss, In (EvStart n ats nss) evs -> known nss.

Lemma known_nil : known [].
Proof. split; [constructor|intros q u []]. Qed.
Lemma put_known q u m : known m -> (aget String.eqb q m = None -> aget String.eqb q NSS = Some u) -> known (ns_put q u m).
Proof.
  intros [N K] H. unfold ns_put. destruct (aget String.eqb q m) eqn:E; [now split|]. split.
  - rewrite map_app. simpl. apply nodup_snoc; auto. apply (aget_None _ String.eqb_eq) in E. exact E.
  - intros q' u' I. apply in_app_or in I. destruct I as [I|[I|[]]]; [auto|]. injection I as <- <-. auto.
Qed.
Lemma set_known nss : forall a c, NSS = a ++ nss -> (forall q, In q (map fst a) -> aget String.eqb q (in_ns (wc_inner c)) <> None) -> known (in_ns (wc_inner c)) ->
  known (in_ns (wc_inner (set_nss nss c))).
Proof.
  induction nss as [|[q u] nss IH]; intros a c E A K; [exact K|]. cbn [set_nss fold_left]. apply (IH (a ++ [(q, u)])).
  - rewrite <- app_assoc. exact E.
  - intros q' I. unfold set_ns. cbn [wc_inner in_ns fst snd]. unfold ns_put. rewrite map_app in I. apply in_app_or in I.
    destruct (aget String.eqb q (in_ns (wc_inner c))) eqn:G.
    + destruct I as [I|[<-|[]]]; [auto|]. cbn [fst]. congruence.
    + rewrite aget_app_s. destruct I as [I|[<-|[]]].
      * destruct (aget String.eqb q' (in_ns (wc_inner c))) eqn:G'; [discriminate|]. exfalso. now apply (A q' I).
      * cbn [fst]. rewrite G. simpl. rewrite String.eqb_refl. discriminate.
  - unfold set_ns. cbn [wc_inner in_ns fst snd]. apply put_known; [exact K|]. intros G. rewrite E, aget_app_s.
    assert (Z : aget String.eqb q a = None).
    { apply (aget_None _ String.eqb_eq). intros I. now apply (A q I). }
    rewrite Z. simpl. now rewrite String.eqb_refl.
Qed.
Lemma set_all c : known (in_ns (wc_inner c)) -> known (in_ns (wc_inner (set_nss NSS c))).
Proof. intros K. apply (set_known NSS [] c); [reflexivity|intros q []|exact K]. Qed.

Lemma ev_app a b : known_events a -> known_events b -> known_events (a ++ b).
Proof. intros A B n ats nss I. apply in_app_or in I. destruct I; eauto. Qed.
Lemma ev_nil : known_events [].
Proof. intros n ats nss []. Qed.
Lemma ev_chars s : known_events [EvChars s].
Proof. intros n ats nss [H|[]]. discriminate. Qed.
Lemma ev_end c : known_events (write_end_element c).
Proof. unfold write_end_element. destruct (wc_virtual c); [apply ev_nil|]. intros n ats nss [H|[]]. discriminate. Qed.
Lemma ev_start c ev0 c1 : known (in_ns (wc_inner c)) -> write_start_element c = (ev0, c1) -> known_events ev0 /\ known (in_ns (wc_inner c1)).
Proof.
  intros K. unfold write_start_element. destruct (wc_virtual c); intros [= <- <-]; [split; [apply ev_nil|exact K]|].
  split; [|apply known_nil]. intros n ats nss [H|[]]. injection H as <- <- <-. exact K.
Qed.
Section Open.
Variable call : string -> value -> wctx -> W (list event * inner).
Hypothesis Hcall : forall id v c e i, known (in_ns (wc_inner c)) -> call id v c = Ok (e, i) -> known_events e /\ known (in_ns i).

Lemma k_text s i : known (in_ns i) -> known_events (if is_empty s then [] else [EvChars s]) /\ known (in_ns i).
Proof. intros K. split; [destruct (is_empty s); [apply ev_nil|apply ev_chars]|exact K]. Qed.
Lemma k_wx x v c e i : known (in_ns (wc_inner c)) -> write_wx call x v c = Ok (e, i) -> known_events e /\ known (in_ns i).
Proof.
  intros K. destruct x as [|s|id]; cbn [write_wx].
  - destruct (value_to_string v) as [s|]; [|discriminate]. intros [= <- <-]. now apply k_text.
  - intros [= <- <-]. split; [apply ev_chars|exact K].
  - now apply Hcall.
Qed.
Lemma k_one w v c e c' : known (in_ns (wc_inner c)) -> write_leaf_one call w v c = Ok (e, c') -> known_events e /\ known (in_ns (wc_inner c')).
Proof.
  intros K H. unfold write_leaf_one in H. destruct (wf_new w) as [n|].
  - destruct (wf_wrap w).
    + destruct (write_start_element (ctx_create n)) as [ev0 c1] eqn:E. destruct (ev_start (ctx_create _) _ _ known_nil E) as [A B].
      apply bind_ok in H. destruct H as ([ev1 i] & H1 & H2). destruct (k_wx _ _ _ _ _ B H1) as [C D]. injection H2 as <- <-.
      split; [apply ev_app; [exact A|apply ev_app; [exact C|apply ev_end]]|exact K].
    + apply bind_ok in H. destruct H as ([ev1 i] & H1 & H2). destruct (k_wx _ _ (ctx_create n) _ _ known_nil H1) as [C D]. injection H2 as <- <-. auto.
  - destruct (wf_wrap w).
    + destruct (write_start_element (ctx_wrap c)) as [ev0 c1] eqn:E. destruct (ev_start (ctx_wrap c) _ _ K E) as [A B].
      apply bind_ok in H. destruct H as ([ev1 i] & H1 & H2). destruct (k_wx _ _ _ _ _ B H1) as [C D]. injection H2 as <- <-.
      split; [apply ev_app; [exact A|apply ev_app; [exact C|apply ev_end]]|exact D].
    + apply bind_ok in H. destruct H as ([ev1 i] & H1 & H2). destruct (k_wx _ _ (ctx_wrap c) _ _ K H1) as [C D]. injection H2 as <- <-. auto.
Qed.
Lemma k_each w vs : forall c e c', known (in_ns (wc_inner c)) -> write_each call w vs c = Ok (e, c') -> known_events e /\ known (in_ns (wc_inner c')).
Proof.
  induction vs as [|v vs IH]; intros c e c' K H; cbn [write_each] in H; [injection H as <- <-; split; [apply ev_nil|exact K]|].
  apply bind_ok in H. destruct H as ([e1 c1] & H1 & H2). apply bind_ok in H2. destruct H2 as ([e2 c2] & H2 & H3). injection H3 as <- <-.
  destruct (k_one _ _ _ _ _ K H1) as [A B]. destruct (IH _ _ _ B H2) as [C D]. split; [now apply ev_app|exact D].
Qed.
Lemma k_leaf w self c e c' : known (in_ns (wc_inner c)) -> write_leaf call w self c = Ok (e, c') -> known_events e /\ known (in_ns (wc_inner c')).
Proof.
  intros K H. unfold write_leaf in H. apply bind_ok in H. destruct H as (val & _ & H). cbv zeta in H.
  assert (V : forall v, (if wf_vec w then match v with VVec vs => write_each call w vs c | _ => Panic "not a Vec" end else write_leaf_one call w v c) = Ok (e, c') ->
    known_events e /\ known (in_ns (wc_inner c'))).
  { intros v. destruct (wf_vec w); [destruct v; try discriminate; now apply k_each|now apply k_one]. }
  destruct (wf_opt w); [|now apply V in H]. destruct val; try discriminate; [|now apply V in H].
  injection H as <- <-. split; [apply ev_nil|exact K].
Qed.
Lemma k_leaves ws self : forall c e c', known (in_ns (wc_inner c)) -> write_leaves call ws self c = Ok (e, c') -> known_events e /\ known (in_ns (wc_inner c')).
Proof.
  induction ws as [|v vs IH]; intros c e c' K H; cbn [write_leaves] in H; [injection H as <- <-; split; [apply ev_nil|exact K]|].
  apply bind_ok in H. destruct H as ([e1 c1] & H1 & H2). apply bind_ok in H2. destruct H2 as ([e2 c2] & H2 & H3). injection H3 as <- <-.
  destruct (k_leaf _ _ _ _ _ K H1) as [A B]. destruct (IH _ _ _ B H2) as [C D]. split; [now apply ev_app|exact D].
Qed.
Lemma k_attrs t l self : forall c c', write_attrs p t l self c = Ok c' -> in_ns (wc_inner c') = in_ns (wc_inner c).
Proof.
  induction l as [|a l IH]; intros c c' H; cbn [write_attrs] in H; [now injection H as <-|].
  apply bind_ok in H. destruct H as (c1 & H1 & H2). rewrite (IH _ _ H2). unfold write_attr in H1.
  apply bind_ok in H1. destruct H1 as (val & _ & H1). cbv zeta in H1. destruct (wa_opt a).
  - destruct val; try discriminate; [now injection H1 as <-|]. apply bind_ok in H1. destruct H1 as (s & _ & H1). now injection H1 as <-.
  - apply bind_ok in H1. destruct H1 as (s & _ & H1). now injection H1 as <-.
Qed.
Lemma k_wrapped wrap c body e i : known (in_ns (wc_inner c)) ->
  (forall c e i, known (in_ns (wc_inner c)) -> body c = Ok (e, i) -> known_events e /\ known (in_ns i)) ->
  wrapped wrap c body = Ok (e, i) -> known_events e /\ known (in_ns i).
Proof.
  intros K B H. unfold wrapped in H. destruct wrap; [|eauto]. destruct (write_start_element c) as [e0 c1] eqn:E. destruct (ev_start _ _ _ K E) as [A A'].
  apply bind_ok in H. destruct H as ([e1 j] & H1 & H2). injection H2 as <- <-. destruct (B _ _ _ A' H1) as [C D].
  split; [apply ev_app; [exact A|apply ev_app; [exact C|apply ev_end]]|exact D].
Qed.
Lemma k_arm a v e : write_arm_one call a v = Ok e -> known_events e.
Proof.
  intros H. unfold write_arm_one in H. destruct (wm_wrap a).
  - destruct (write_start_element (ctx_create (wm_xml a))) as [e0 c1] eqn:E. destruct (ev_start (ctx_create _) _ _ known_nil E) as [A A'].
    apply bind_ok in H. destruct H as ([e1 j] & H1 & H2). injection H2 as <-. destruct (k_wx _ _ _ _ _ A' H1) as [C D].
    apply ev_app; [exact A|apply ev_app; [exact C|apply ev_end]].
  - apply bind_ok in H. destruct H as ([e1 j] & H1 & H2). injection H2 as <-. now destruct (k_wx _ _ (ctx_create (wm_xml a)) _ _ known_nil H1).
Qed.
Lemma k_choice arms self e : write_choice call arms self = Ok e -> known_events e.
Proof.
  unfold write_choice. destruct self; try discriminate. destruct (find _ arms) as [a|]; [|discriminate]. destruct (wm_vec a); [|apply k_arm].
  match goal with |- match ?v with _ => _ end = _ -> _ => destruct v as [| | | | | | | |vs| | | |] eqn:V; try discriminate end. clear V. revert e. induction vs as [|y l IH]; intros e H; cbn [write_arm_each] in H; [injection H as <-; apply ev_nil|].
  apply bind_ok in H. destruct H as (e1 & H1 & H2). apply bind_ok in H2. destruct H2 as (e2 & H2 & H3). injection H3 as <-.
  apply ev_app; [now apply k_arm in H1|now apply IH].
Qed.
Lemma k_item t v c e i : ti_nss t = NSS -> known (in_ns (wc_inner c)) -> write_item p call t v c = Ok (e, i) -> known_events e /\ known (in_ns i).
Proof.
  intros T K H. unfold write_item in H. rewrite T in H. apply set_all in K. set (c1 := set_nss NSS c) in *. clearbody c1.
  destruct (ti_write t) as [wrap x| |ats wrap b|wrap arms].
  - destruct v; try discriminate. revert H. apply k_wrapped; [exact K|]. intros; eapply k_wx; eauto.
  - destruct v; try discriminate. destruct (ti_decl t); try discriminate. destruct (enum_as_str _ _) as [s|]; [|discriminate].
    revert H. apply k_wrapped; [exact K|]. intros c0 e0 i0 K0 [= <- <-]. now apply k_text.
  - apply bind_ok in H. destruct H as (c2 & H1 & H2). revert H2. apply k_wrapped; [now rewrite (k_attrs _ _ _ _ _ H1)|].
    intros c0 e0 i0 K0 H. destruct b as [|f x|ws]; cbn [write_body] in H.
    + injection H as <- <-. split; [apply ev_nil|exact K0].
    + apply bind_ok in H. destruct H as (val & _ & H). eapply k_wx; eauto.
    + apply bind_ok in H. destruct H as ([e1 c3] & H3 & H4). injection H4 as <- <-. eapply k_leaves; eauto.
  - revert H. apply k_wrapped; [exact K|]. intros c0 e0 i0 K0 H. apply bind_ok in H. destruct H as (e1 & H3 & H4). injection H4 as <- <-.
    split; [now apply k_choice in H3|exact K0].
Qed.
End Open.
Lemma k_type fuel : forall id v c e i, known (in_ns (wc_inner c)) -> write_type p fuel id v c = Ok (e, i) -> known_events e /\ known (in_ns i).
Proof.
  induction fuel as [|fuel IH]; intros id v c e i K H; cbn [write_type] in H; [discriminate|].
  destruct (lookup_item p id) as [t|] eqn:E; [|discriminate]. eapply k_item; eauto.
Qed.
Lemma to_xml_known fuel id v evs : to_xml p fuel id v = Ok evs -> known_events evs.
Proof.
  unfold to_xml. destruct (lookup_item p id) as [t|]; [|discriminate]. intros H. apply bind_ok in H. destruct H as ([e i] & H1 & H2). injection H2 as <-.
  now destruct (k_type fuel id v (ctx_create (ti_xml_name t)) e i known_nil H1).
Qed.
Lemma known_ok evs : known_events evs -> (forall q u, In (q, u) NSS -> plain_uri u /\ unreserved q u) -> declarations_ok evs.
Proof.
  intros K U. split; [intros n ats nss I; apply (K _ _ _ I)|]. split.
  - intros q u (n & ats & nss & I & J). apply K in I. apply I in J. apply U. now apply (aget_In _ String.eqb_eq) in J.
  - intros q u u' (n & ats & nss & I & J) (n' & ats' & nss' & I' & J'). apply K in I, I'. apply I in J. apply I' in J'. congruence.
Qed.
End WithLibs.
