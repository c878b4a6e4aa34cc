(** * XmlProof3: tags, attributes and namespaces are read back (lemmas of PropXml.v) *)
From Verif Require Import Base Libs Xml Writer XmlChars XmlRead XmlWrite CanonSpec XmlSpec XmlProof XmlProof2.
From Coq Require Import Sorting.Permutation.

Lemma concat_cons_s x l : concat_str (x :: l) = x +++ concat_str l.
Proof. unfold concat_str. destruct l; simpl; [now rewrite app_s_nil_r|reflexivity]. Qed.
Lemma concat_app_s a b : concat_str (a ++ b) = concat_str a +++ concat_str b.
Proof. induction a as [|x a IH]; [reflexivity|]. cbn [app]. now rewrite !concat_cons_s, IH, app_s_assoc. Qed.
Lemma length_app_s a b : String.length (a +++ b) = (String.length a + String.length b)%nat.
Proof. induction a as [|c a IH]; simpl; [reflexivity|]. now rewrite IH. Qed.

(** ** Names *)
Definition qn (n : string) : string * string := match split_colon n with None => ("", n) | Some x => x end.
Definition fine_name (n : string) : Prop := ncname (snd (qn n)) = true /\ (split_colon n = None \/ ncname (fst (qn n)) = true).
Lemma split_colon_eq n p l : split_colon n = Some (p, l) -> n = p +++ String ":" l.
Proof.
  revert p. induction n as [|c n IH]; intros p; simpl; [discriminate|]. destruct (Ascii.eqb_spec c ":") as [->|].
  - intros [= <- <-]. reflexivity.
  - destruct (split_colon n) as [[a b]|]; [|discriminate]. intros [= <- <-]. now rewrite (IH a eq_refl).
Qed.
Lemma name_byte_not c d : name_byte c = true -> name_byte d = false -> Ascii.eqb c d = false.
Proof. intros A B. destruct (Ascii.eqb_spec c d) as [->|]; congruence. Qed.
Lemma ncname_head n : ncname n = true -> exists c n', n = String c n' /\ name_byte c = true.
Proof.
  intros H. pose proof (ncname_ne _ H) as N. apply ncname_bytes in H. destruct n as [|c n]; [congruence|].
  cbn [all_bytes] in H. apply andb_true_iff in H. destruct H as [H _]. eauto.
Qed.
Lemma fine_head n : fine_name n -> exists c n', n = String c n' /\ name_byte c = true.
Proof.
  unfold fine_name, qn. destruct (split_colon n) as [[p l]|] eqn:E; simpl.
  - intros [_ [H|H]]; [discriminate|]. apply split_colon_eq in E. destruct (ncname_head _ H) as (c & p' & -> & B).
    subst. simpl. eauto.
  - intros [H _]. now apply ncname_head.
Qed.
Lemma fine_chars n : fine_name n -> xml_chars n = true.
Proof.
  unfold fine_name, qn. destruct (split_colon n) as [[p l]|] eqn:E; simpl.
  - intros [A [H|H]]; [discriminate|]. apply split_colon_eq in E. subst. apply chars_app; [now apply ncname_chars|].
    change (String ":" l) with (":" +++ l). apply chars_app; [reflexivity|now apply ncname_chars].
  - intros [H _]. now apply ncname_chars.
Qed.
Definition ends (r : string) : Prop := exists c r', r = String c r' /\ In c [" "; ">"; "/"; "="]%char.
Lemma ends_byte r : ends r -> match r with "" => True | String c _ => name_byte c = false end.
Proof. intros (c & r' & -> & H). simpl in H. decompose [or] H; try tauto; subst; reflexivity. Qed.
Lemma qname_read n r : fine_name n -> ends r -> qname (n +++ r) = Some (qn n, r).
Proof.
  intros F E. unfold fine_name, qn in *. destruct (split_colon n) as [[p l]|] eqn:S; simpl in F.
  - destruct F as [L [P|P]]; [discriminate|]. apply split_colon_eq in S. subst n. unfold qname.
    rewrite app_s_assoc. rewrite (span_all name_byte p (String ":" l +++ r)); [|now apply ncname_bytes|reflexivity].
    rewrite P. cbn [append]. rewrite (span_all name_byte l r); [|now apply ncname_bytes|now apply ends_byte]. now rewrite L.
  - destruct F as [L _]. unfold qname. rewrite (span_all name_byte n r); [|now apply ncname_bytes|now apply ends_byte]. rewrite L.
    destruct E as (c & r' & -> & H). simpl in H. decompose [or] H; try tauto; subst; reflexivity.
Qed.

(** ** Attributes: name, what is written between the quotes, what is read *)
Definition piece := (string * string * string)%type.
Definition piece_text (p : piece) : string := let '(n, raw, _) := p in " " +++ n +++ "=""" +++ raw +++ """".
Definition piece_ok (p : piece) : Prop :=
  let '(n, raw, v) := p in
  fine_name n /\ all_bytes (fun c => negb (Ascii.eqb c """")) raw = true /\ contains "<" raw = false /\ chardata true None raw = Some v /\ xml_chars raw = true.
Definition piece_key (p : piece) : (string * string) * string := let '(n, _, v) := p in (qn n, v).
Definition rattr_key (a : rattr) : (string * string) * string := (ra_name a, ra_value a).

Lemma attribute_read n raw v r : piece_ok (n, raw, v) ->
  exists a, xml_attribute (n +++ "=""" +++ raw +++ """" +++ r) = Some (a, r) /\ rattr_key a = (qn n, v).
Proof.
  intros (F & Q & L & C & _). unfold xml_attribute. rewrite qname_read; [|exact F|exists "="%char; eexists; split; [reflexivity|simpl; tauto]].
  cbn [append]. unfold skip_ws at 1. change (span ws (String "=" ?x)) with ("", String "=" x).
  cbn [span]. change (ws "=") with false. cbn iota. cbn [snd lit]. change (Ascii.eqb "=" "=") with true. cbn iota.
  unfold skip_ws. cbn [span]. change (ws """") with false. cbn iota. cbn [snd]. unfold quoted, quoted_raw.
  change (Ascii.eqb """" "'" || Ascii.eqb """" """")%bool with true. cbn iota.
  rewrite (span_all (fun c => negb (Ascii.eqb c """")) raw (String """" r) Q eq_refl), L, C. simpl. eauto.
Qed.
Definition closer (k : string) (closed : bool) : Prop := k = ">" /\ closed = false \/ k = " />" /\ closed = true.
Lemma attributes_read l k closed r fuel : closer k closed -> Forall piece_ok l -> (length l < fuel)%nat ->
  exists ras, xml_attributes fuel (concat_str (map piece_text l) +++ k +++ r) = Some (ras, closed, r) /\ map rattr_key ras = map piece_key l.
Proof.
  intros K H. revert fuel. induction H as [|[[n raw] v] l P H IH]; intros fuel F; (destruct fuel as [|fuel]; [simpl in F; lia|]).
  - exists []. split; [|reflexivity]. destruct K as [[-> ->]|[-> ->]]; reflexivity.
  - cbn [length] in F. destruct (IH fuel ltac:(lia)) as (ras & E & M).
    destruct (attribute_read n raw v (concat_str (map piece_text l) +++ k +++ r) P) as (a & A & KA).
    exists (a :: ras). split; [|cbn [map piece_key]; now rewrite KA, M].
    cbn [map]. rewrite concat_cons_s. unfold piece_text at 1. rewrite !app_s_assoc. cbn [xml_attributes].
    destruct (fine_head n (proj1 P)) as (c & n' & En & Bc).
    assert (Wc : ws c = false).
    { unfold ws. rewrite !(name_byte_not c _ Bc) by reflexivity. reflexivity. }
    rewrite (span_all ws " " (n +++ "=""" +++ raw +++ """" +++ concat_str (map piece_text l) +++ k +++ r)); [|reflexivity|].
    2: { rewrite En. exact Wc. }
    assert (L1 : lit ">" (n +++ "=""" +++ raw +++ """" +++ concat_str (map piece_text l) +++ k +++ r) = None).
    { rewrite En. cbn [append lit]. rewrite Ascii.eqb_sym, (name_byte_not c _ Bc) by reflexivity. reflexivity. }
    assert (L2 : lit "/>" (n +++ "=""" +++ raw +++ """" +++ concat_str (map piece_text l) +++ k +++ r) = None).
    { rewrite En. cbn [append lit]. rewrite Ascii.eqb_sym, (name_byte_not c _ Bc) by reflexivity. reflexivity. }
    rewrite L1, L2, A, E. reflexivity.
Qed.
Lemma pieces_length l : (length l <= String.length (concat_str (map piece_text l)))%nat.
Proof.
  induction l as [|[[n raw] v] l IH]; [simpl; lia|]. cbn [map]. rewrite concat_cons_s, length_app_s. unfold piece_text at 1.
  rewrite !length_app_s. cbn [length String.length]. lia.
Qed.
Lemma pieces_ends l k closed r : closer k closed -> ends (concat_str (map piece_text l) +++ k +++ r).
Proof.
  intros K. destruct l as [|[[n raw] v] l].
  - simpl. destruct K as [[-> _]|[-> _]]; (eexists; eexists; split; [reflexivity|simpl; tauto]).
  - cbn [map]. rewrite concat_cons_s. unfold piece_text at 1. rewrite !app_s_assoc. eexists; eexists; split; [reflexivity|simpl; tauto].
Qed.
Lemma token_open n l k closed r : fine_name n -> Forall piece_ok l -> closer k closed ->
  exists ras, xml_token ("<" +++ n +++ concat_str (map piece_text l) +++ k +++ r) = Some (TkOpen (qn n) ras closed, r) /\ map rattr_key ras = map piece_key l.
Proof.
  intros F P K.
  destruct (attributes_read l k closed r (S (String.length (concat_str (map piece_text l) +++ k +++ r))) K P) as (ras & E & M).
  { rewrite length_app_s. pose proof (pieces_length l). lia. }
  exists ras. split; [|exact M]. pose proof (qname_read n _ F (pieces_ends l k closed r K)) as Q.
  set (rest := concat_str (map piece_text l) +++ k +++ r) in *.
  destruct (fine_head n F) as (c & n' & En & Bc).
  assert (L : forall d t, name_byte d = false -> lit (String d t) (n +++ rest) = None).
  { intros d t D. rewrite En. cbn [append lit]. rewrite Ascii.eqb_sym, (name_byte_not c d Bc D). reflexivity. }
  change (xml_token ("<" +++ n +++ rest)) with (markup (n +++ rest)). unfold markup.
  rewrite !L by reflexivity. rewrite Q, E. reflexivity.
Qed.
Lemma token_close n r : fine_name n -> xml_token ("</" +++ n +++ ">" +++ r) = Some (TkClose (qn n), r).
Proof.
  intros F. change (xml_token ("</" +++ n +++ ">" +++ r)) with (match qname (n +++ ">" +++ r) with
      | Some (n, r) => option_map (fun r => (TkClose n, r)) (lit ">" (skip_ws r)) | None => None end).
  rewrite qname_read; [reflexivity|exact F|]. eexists; eexists; split; [reflexivity|simpl; tauto].
Qed.

(** ** Declarations *)
Definition kept (d : string * string) : bool := negb ((fst d =?s "xml") || (fst d =?s "xmlns") || (is_empty (fst d) && is_empty (snd d))).
Definition keyed (p : string) : option string := if is_empty p then None else Some p.
Lemma keyed_inj p q : keyed p = keyed q -> p = q.
Proof. unfold keyed. destruct p, q; simpl; congruence. Qed.
Lemma oeq_eq a b : oeq a b = true <-> a = b.
Proof. apply opt_eqb_eq, String.eqb_eq. Qed.
Section Emitter.
Variable em : emitter.
Definition uri_text (u : string) : string := if em_uri em then escape (esc_attr em) u else u.
Definition decl_piece (d : string * string) : piece := ((if is_empty (fst d) then "xmlns" else "xmlns:" +++ fst d), uri_text (snd d), snd d).
Lemma ns_pieces d : concat_str (map (ns_text em) d) = concat_str (map piece_text (map decl_piece (filter kept d))).
Proof.
  induction d as [|[p u] d IH]; [reflexivity|]. cbn [map filter]. rewrite concat_cons_s, IH. unfold kept at 2, ns_text, decl_piece, uri_text. cbn [fst snd].
  destruct (p =?s "xml"); [reflexivity|]. destruct (p =?s "xmlns"); [reflexivity|]. cbn [orb].
  destruct p as [|c p]; cbn [is_empty andb].
  - destruct u as [|x u]; cbn [is_empty negb]; [reflexivity|]. cbn [map piece_text]. rewrite concat_cons_s. reflexivity.
  - cbn [negb map piece_text]. rewrite concat_cons_s, !app_s_assoc. unfold piece_text at 1. reflexivity.
Qed.
Lemma uri_ok u : plain_uri u -> all_bytes (fun c => negb (Ascii.eqb c """")) (uri_text u) = true /\ contains "<" (uri_text u) = false
  /\ chardata true None (uri_text u) = Some u /\ xml_chars (uri_text u) = true.
Proof.
  intros (C & P). unfold uri_text.
  assert (P' : all_bytes plain_byte u = true).
  { clear C. induction u as [|c u IH]; [reflexivity|]. cbn [plain_chars] in P. apply andb_true_iff in P. destruct P as [A B].
    cbn [all_bytes]. rewrite (IH B), andb_true_r. exact A. }
  clear P.
  destruct (em_uri em).
  - split; [apply escape_all; intros c; apply escape_attr_free; simpl; tauto|]. split; [|split].
    + rewrite contains_byte. apply negb_false_iff. apply escape_all. intros c. apply escape_attr_free. simpl; tauto.
    + rewrite chardata_attr, (plain_untab _ P'). now destruct (em_tab em).
    + apply chars_escape; [exact (esc_attr_cases em)|exact C].
  - split; [|split; [|split]].
    + revert P'. apply all_impl. intros c H. apply negb_true_iff. now apply plain_not.
    + rewrite contains_byte. apply negb_false_iff. revert P'. apply all_impl. intros c H. apply negb_true_iff. now apply plain_not.
    + now apply chardata_verbatim.
    + exact C.
Qed.

Lemma insert_perm d l : Permutation (insert_ns d l) (d :: l).
Proof.
  induction l as [|e l IH]; simpl; [reflexivity|]. destruct (String.leb (fst d) (fst e)); [reflexivity|].
  rewrite IH. apply perm_swap.
Qed.
Lemma sort_perm l : Permutation (sort_ns l) l.
Proof. induction l as [|d l IH]; simpl; [reflexivity|]. rewrite insert_perm. now constructor. Qed.
Lemma filter_keys {A} (g : A -> bool) (k : A -> string) l : NoDup (map k l) -> NoDup (map k (filter g l)).
Proof.
  induction l as [|a l IH]; simpl; [auto|]. intros H. inversion H as [|? ? N D]; subst. destruct (g a); [|auto].
  simpl. constructor; [|auto]. intros I. apply N. apply in_map_iff in I. destruct I as (b & E & I). apply filter_In in I. rewrite <- E. now apply in_map.
Qed.
Lemma new_keys nss l : NoDup (map fst l) -> NoDup (map fst (new_ns nss l)).
Proof. intros H. unfold new_ns. apply filter_keys. apply (Permutation_NoDup (l := map fst l)); [|exact H]. apply Permutation_map. symmetry. apply sort_perm. Qed.
Lemma new_In nss l d : In d (new_ns nss l) <-> In d l /\ declares_ns nss d = false.
Proof.
  unfold new_ns. rewrite filter_In, negb_true_iff. split; intros [A B]; split; auto.
  - now apply (Permutation_in _ (sort_perm l)).
  - now apply (Permutation_in _ (Permutation_sym (sort_perm l))).
Qed.

(** ** Scopes *)
Lemma bound_bind k p u sc : bound k (bind_ns p u sc) = if oeq k p then Some u else bound k sc.
Proof.
  induction sc as [|[q v] sc IH]; simpl; [reflexivity|]. destruct (oeq p q) eqn:E; simpl.
  - apply oeq_eq in E. subst. destruct (oeq k q); reflexivity.
  - destruct (oeq k q) eqn:E2; [|exact IH]. apply oeq_eq in E2. subst. destruct (oeq q p) eqn:E3; [|reflexivity].
    apply oeq_eq in E3. subst. rewrite (proj2 (oeq_eq p p) eq_refl) in E. discriminate.
Qed.
Lemma bound_fold k d sc : NoDup (map fst d) ->
  bound k (fold_left (fun sc d => bind_ns (fst d) (snd d) sc) d sc) = match bound k d with Some u => Some u | None => bound k sc end.
Proof.
  revert sc. induction d as [|[q v] d IH]; intros sc N; [reflexivity|]. inversion N as [|? ? N1 N2]; subst.
  cbn [fold_left fst snd bound]. rewrite (IH _ N2), bound_bind. destruct (oeq k q) eqn:E; [|reflexivity].
  apply oeq_eq in E. subst. assert (B : bound q d = None).
  { clear -N1. induction d as [|[p u] d IH]; [reflexivity|]. simpl in *. destruct (oeq q p) eqn:E; [apply oeq_eq in E; subst; tauto|]. apply IH. tauto. }
  now rewrite B.
Qed.
Definition meant (p : string) (o : option string) : option string :=
  match o with Some u => if is_empty p && is_empty u then None else Some u | None => None end.
(** The declarations in scope mean the same. *)
Definition same_scope (fs : list (string * string)) (rs : scope) : Prop :=
  forall p, p <> "xml" -> p <> "xmlns" -> bound (keyed p) rs = meant p (aget String.eqb p fs).
Definition scope_good (fs : list (string * string)) : Prop := forall p u, aget String.eqb p fs = Some u -> p <> "xmlns" /\ (p = "xml" -> u = NS_XML).

Lemma bound_keyed p d : bound (keyed p) (map (fun d => (keyed (fst d), snd d)) d) = aget String.eqb p d.
Proof.
  induction d as [|[q u] d IH]; simpl; [reflexivity|]. rewrite IH. destruct (String.eqb_spec p q) as [->|N].
  - now rewrite (proj2 (oeq_eq _ _) eq_refl).
  - destruct (oeq (keyed p) (keyed q)) eqn:E; [|reflexivity]. apply oeq_eq, keyed_inj in E. congruence.
Qed.
Lemma aget_app_s k (a b : list (string * string)) : aget String.eqb k (a ++ b) = match aget String.eqb k a with Some v => Some v | None => aget String.eqb k b end.
Proof. induction a as [|[q v] a IH]; simpl; [reflexivity|]. destruct (k =?s q); auto. Qed.
Lemma aget_filter (g : string * string -> bool) k l : NoDup (map fst l) ->
  aget String.eqb k (filter g l) = match aget String.eqb k l with Some v => if g (k, v) then Some v else None | None => None end.
Proof.
  induction l as [|[q v] l IH]; [reflexivity|]. intros N. inversion N as [|? ? N1 N2]; subst. cbn [filter].
  cbn [aget]. destruct (String.eqb_spec k q) as [->|NE].
  - destruct (g (q, v)) eqn:G; cbn [aget]; [now rewrite String.eqb_refl|]. rewrite (IH N2).
    cbn [fst] in N1. apply (aget_None String.eqb String.eqb_eq) in N1. now rewrite N1.
  - destruct (g (q, v)); cbn [aget]; [rewrite (proj2 (String.eqb_neq k q) NE)|]; now apply IH.
Qed.
Lemma aget_perm k (a b : list (string * string)) : Permutation a b -> NoDup (map fst b) -> aget String.eqb k a = aget String.eqb k b.
Proof.
  intros P N. destruct (aget String.eqb k b) as [v|] eqn:E.
  - apply (In_aget _ String.eqb_eq).
    + apply (Permutation_NoDup (l := map fst b)); [|exact N]. apply Permutation_map. now symmetry.
    + apply (Permutation_in _ (Permutation_sym P)). now apply (aget_In _ String.eqb_eq).
  - apply (aget_None _ String.eqb_eq) in E. apply (aget_None _ String.eqb_eq). intros I. apply E.
    now apply (Permutation_in _ (Permutation_map fst P)).
Qed.
Lemma aget_new nss k l : NoDup (map fst l) ->
  aget String.eqb k (new_ns nss l) = match aget String.eqb k l with Some v => if declares_ns nss (k, v) then None else Some v | None => None end.
Proof.
  intros N. unfold new_ns. rewrite aget_filter.
  - rewrite (aget_perm k (sort_ns l) l (sort_perm l) N). destruct (aget String.eqb k l) as [v|]; [|reflexivity]. now destruct (declares_ns nss (k, v)).
  - apply (Permutation_NoDup (l := map fst l)); [|exact N]. apply Permutation_map. symmetry. apply sort_perm.
Qed.
Lemma declares_In nss d : declares_ns nss d = true -> exists m, In m nss /\ aget String.eqb (fst d) m = Some (snd d).
Proof.
  unfold declares_ns. intros H. apply existsb_exists in H. destruct H as (m & I & E). exists m. split; [exact I|].
  now apply (opt_eqb_eq String.eqb String.eqb_eq) in E.
Qed.

(** The new scope, from what is written. *)
Definition tag_scope (d : list (string * string)) (rs : scope) : scope :=
  fold_left (fun sc d => bind_ns (fst d) (snd d) sc) (map (fun d => (keyed (fst d), snd d)) (filter kept d)) rs.
Lemma keyed_NoDup (d : list (string * string)) : NoDup (map fst d) -> NoDup (map fst (map (fun d => (keyed (fst d), snd d)) d)).
Proof.
  rewrite map_map. cbn [fst]. induction d as [|[p u] d IH]; simpl; [constructor|]. intros N. inversion N as [|? ? N1 N2]; subst.
  constructor; [|auto]. intros I. apply in_map_iff in I. destruct I as ([q v] & E & I). cbn [fst] in E. apply keyed_inj in E. subst. apply N1.
  now apply (in_map fst) in I.
Qed.
Lemma scope_step fs rs nss wnss : same_scope fs rs -> NoDup (map fst nss) ->
  (forall m p u, In m wnss -> aget String.eqb p m = Some u -> aget String.eqb p fs = Some u) ->
  (forall p u u', aget String.eqb p nss = Some u -> aget String.eqb p fs = Some u' -> u = u') ->
  same_scope (nss ++ fs) (tag_scope (new_ns wnss nss) rs).
Proof.
  intros S N W A p P1 P2. unfold tag_scope.
  assert (ND : NoDup (map fst (new_ns wnss nss))) by now apply new_keys.
  rewrite bound_fold by (apply keyed_NoDup; now apply filter_keys).
  rewrite bound_keyed, aget_filter, (aget_new wnss p nss N), aget_app_s by exact ND.
  assert (K : forall u, kept (p, u) = negb (is_empty p && is_empty u)).
  { intros u. unfold kept. cbn [fst snd]. rewrite (proj2 (String.eqb_neq _ _) P1), (proj2 (String.eqb_neq _ _) P2). reflexivity. }
  destruct (aget String.eqb p nss) as [u|] eqn:E; [|now apply S].
  destruct (declares_ns wnss (p, u)) eqn:D.
  - apply declares_In in D. destruct D as (m & I & D). cbn [fst snd] in D. rewrite (S p P1 P2), (W _ _ _ I D). reflexivity.
  - rewrite K. unfold meant. destruct (is_empty p && is_empty u)%bool eqn:Em; cbn [negb]; [|reflexivity].
    rewrite (S p P1 P2). destruct (aget String.eqb p fs) as [u'|] eqn:F; [|reflexivity].
    rewrite <- (A p u u' E F). unfold meant. now rewrite Em.
Qed.

(** ** Start tags *)
Section WithLibs.
Context {L : Libs}.
Hypothesis XA : xml_are em L.

Definition attr_piece (a : string * string) (v : string) : piece := (fst a, escape (esc_attr em) (snd a), v).
Lemma nc s : is_ncname s = ncname s.
Proof. apply XA. Qed.
Lemma elem_read fs rs n t ns : same_scope fs rs -> scope_good fs -> expand_elem fs n = Some (t, ns) ->
  fine_name n /\ snd (qn n) = t /\ elem_ns rs (fst (qn n)) = Some ns.
Proof.
  intros SS G. unfold expand_elem, fine_name, qn, elem_ns. destruct (split_colon n) as [[p l]|]; cbn [fst snd].
  - rewrite !nc. destruct (ncname p) eqn:P; [|discriminate]. destruct (ncname l) eqn:L'; [|discriminate]. cbn [andb].
    destruct (aget String.eqb p fs) as [u|] eqn:E; [|discriminate]. intros [= <- <-]. split; [auto|]. split; [reflexivity|].
    destruct (G p u E) as [G1 G2]. pose proof (ncname_ne _ P) as NE.
    assert (X : is_empty p = false) by (destruct p; [congruence|reflexivity]). rewrite X. unfold prefix_ns.
    destruct (String.eqb_spec p "xml") as [->|N1]; [now rewrite (G2 eq_refl)|].
    rewrite (proj2 (String.eqb_neq _ _) G1). pose proof (SS p N1 G1) as H. unfold keyed, meant in H. rewrite X, E in H. cbn [andb] in H. now rewrite H.
  - rewrite nc. destruct (ncname n); [|discriminate]. intros [= <- <-]. split; [auto|]. split; [reflexivity|]. cbn [is_empty].
    pose proof (SS "" ltac:(discriminate) ltac:(discriminate)) as H. change (keyed "") with (@None string) in H. rewrite H. unfold lookup_default, meant. cbn [is_empty andb].
    destruct (aget String.eqb "" fs) as [u|]; [|reflexivity]. now destruct u.
Qed.
Lemma attr_read fs rs n t ns : same_scope fs rs -> scope_good fs -> expand_attr fs n = Some (t, ns) ->
  fine_name n /\ snd (qn n) = t /\ attr_ns rs (fst (qn n)) = Some ns /\ fst (qn n) <> "xmlns" /\ (fst (qn n) = "" -> t <> "xmlns").
Proof.
  intros SS G. unfold expand_attr, fine_name, qn, attr_ns. destruct (split_colon n) as [[p l]|]; cbn [fst snd].
  - rewrite !nc. destruct (ncname p) eqn:P; [|discriminate]. destruct (ncname l) eqn:L'; [|discriminate]. cbn [andb].
    destruct (String.eqb_spec p "xmlns") as [|G1]; [discriminate|]. cbn [negb].
    destruct (aget String.eqb p fs) as [u|] eqn:E; [|discriminate]. intros [= <- <-]. split; [auto|]. split; [reflexivity|].
    destruct (G p u E) as [_ G2]. pose proof (ncname_ne _ P) as NE.
    assert (X : is_empty p = false) by (destruct p; [congruence|reflexivity]). rewrite X. unfold prefix_ns.
    split; [|split; [exact G1|congruence]].
    destruct (String.eqb_spec p "xml") as [->|N1]; [now rewrite (G2 eq_refl)|].
    rewrite (proj2 (String.eqb_neq _ _) G1). pose proof (SS p N1 G1) as H. unfold keyed, meant in H. rewrite X, E in H. cbn [andb] in H. now rewrite H.
  - rewrite nc. destruct (ncname n); [|discriminate]. cbn [andb]. destruct (String.eqb_spec n "xmlns") as [|X]; [discriminate|]. cbn [negb].
    intros [= <- <-]. split; [auto|]. split; [reflexivity|]. cbn [is_empty]. split; [reflexivity|]. split; [discriminate|auto].
Qed.
Lemma attr_back_piece n v v' : fine_name n -> xml_attr_back v = Some v' -> piece_ok (attr_piece (n, v) v').
Proof.
  intros F E. destruct XA as (_ & XB & _). rewrite XB in E. unfold attr_back in E. destruct (xml_chars v) eqn:C; [|discriminate].
  unfold attr_piece, piece_ok. cbn [fst snd]. split; [exact F|]. split; [apply escape_all; intros c; apply escape_attr_free; simpl; tauto|].
  split; [rewrite contains_byte; apply negb_false_iff; apply escape_all; intros c; apply escape_attr_free; simpl; tauto|].
  split; [now rewrite chardata_attr|]. apply chars_escape; [exact (esc_attr_cases em)|exact C].
Qed.
Lemma attr_piece_text a v : piece_text (attr_piece a v) = attr_text em a.
Proof. destruct a as [n x]. reflexivity. Qed.
Lemma same_keys_existsb ln ns (l l' : list attr) : map attr_key l = map attr_key l' ->
  existsb (fun a => andb (at_name a =?s ln) (opt_eqb String.eqb (at_ns a) ns)) l = existsb (fun b => (at_name b =?s ln) && oeq (at_ns b) ns)%bool l'.
Proof.
  revert l'. induction l as [|a l IH]; intros [|b l']; simpl; try discriminate; [reflexivity|]. intros E. unfold attr_key at 1 3 in E.
  injection E as -> -> _ E. now rewrite (IH _ E).
Qed.
(** The attributes, and that none is a declaration. *)
Lemma attrs_read fs rs ats l : same_scope fs rs -> scope_good fs -> expand_attrs fs ats = Some l ->
  exists ps, concat_str (map (attr_text em) ats) = concat_str (map piece_text ps) /\ Forall piece_ok ps
    /\ forall o total, map rattr_key o = map piece_key ps ->
        split_attrs o = ([], o) /\ exists l', resolve total rs o = Some l' /\ map attr_key l = map attr_key l'.
Proof.
  intros SS G. revert l. induction ats as [|[n v] ats IH]; intros l; simpl.
  { intros [= <-]. exists []. split; [reflexivity|]. split; [constructor|]. intros [|a o] total; [|discriminate]. intros _. split; [reflexivity|].
    exists []. auto. }
  destruct (expand_attr fs n) as [[ln ns]|] eqn:EA; [|discriminate]. destruct (xml_attr_back v) as [v'|] eqn:EV; [|discriminate].
  destruct (expand_attrs fs ats) as [rest|] eqn:ER; [|discriminate]. destruct (existsb _ rest) eqn:EX; [discriminate|]. intros [= <-].
  destruct (IH rest eq_refl) as (ps & T & P & R). destruct (attr_read fs rs n ln ns SS G EA) as (F & S1 & A1 & D1 & D2).
  exists (attr_piece (n, v) v' :: ps). split; [|split].
  - cbn [map]. now rewrite !concat_cons_s, attr_piece_text, T.
  - constructor; [now apply attr_back_piece|exact P].
  - intros [|a o] total; [discriminate|]. cbn [map]. intros K. assert (K1 : rattr_key a = piece_key (attr_piece (n, v) v')) by congruence.
    assert (K2 : map rattr_key o = map piece_key ps) by congruence. clear K.
    destruct (R o total K2) as (R1 & l' & R2 & R3). unfold rattr_key, attr_piece, piece_key in K1. cbn [fst snd] in K1. injection K1 as K1 K3.
    cbn [split_attrs]. rewrite R1. unfold declared. rewrite K1. destruct (qn n) as [p ln'] eqn:Q. cbn [fst snd] in *. subst ln'.
    rewrite (proj2 (String.eqb_neq _ _) D1). assert (X : (is_empty p && (ln =?s "xmlns"))%bool = false).
    { destruct p; [|reflexivity]. simpl. apply String.eqb_neq. auto. }
    rewrite X. split; [reflexivity|]. cbn [resolve]. rewrite K1. cbn [fst snd]. rewrite A1, R2, <- (same_keys_existsb ln ns rest l' R3), EX.
    eexists. split; [reflexivity|]. cbn [map]. rewrite R3. unfold attr_key at 1 3. cbn [at_name at_ns at_value]. now rewrite K3.
Qed.
(** The declarations. *)
Definition good_decl (d : string * string) : Prop :=
  (fst d = "" \/ ncname (fst d) = true /\ snd d <> "") /\ plain_uri (snd d) /\ unreserved (fst d) (snd d).
Lemma decl_ok d : good_decl d -> kept d = true -> piece_ok (decl_piece d) /\ decl_fine (keyed (fst d), snd d) = true.
Proof.
  destruct d as [p u]. intros (N & P & (U1 & U2 & U3)) K. cbn [fst snd] in *. destruct (uri_ok u P) as (Q & L' & C & X).
  unfold kept in K. cbn [fst snd] in K. apply negb_true_iff in K. apply orb_false_iff in K. destruct K as [K K3]. apply orb_false_iff in K. destruct K as [K1 _].
  assert (Pl : (negb (u =?s NS_XML) && negb (u =?s NS_XMLNS))%bool = true).
  { rewrite (proj2 (String.eqb_neq u NS_XMLNS) U2), andb_true_r. apply negb_true_iff, String.eqb_neq. intros ->. apply String.eqb_neq in K1. tauto. }
  unfold piece_ok, decl_piece, decl_fine. cbn [fst snd].
  split.
  - split; [|auto]. destruct p as [|c p]; cbn [is_empty]; [now split; [reflexivity|left]|].
    destruct N as [N|[N _]]; [discriminate|]. split.
    + unfold qn. change (split_colon ("xmlns:" +++ String c p)) with (Some ("xmlns", String c p)). exact N.
    + right. reflexivity.
  - unfold keyed. destruct p as [|c p]; cbn [is_empty]; [exact Pl|]. rewrite K1, (proj2 (String.eqb_neq _ _) U1).
    destruct N as [N|[_ N]]; [discriminate|]. rewrite <- andb_assoc in *. cbn [negb andb].
    assert (Y : is_empty u = false) by (destruct u; [congruence|reflexivity]). rewrite Y. cbn [negb]. rewrite andb_true_r. exact Pl.
Qed.
Lemma decls_split d o ras : map rattr_key ras = map piece_key (map decl_piece d) ++ map rattr_key o ->
  exists ras1 ras2, ras = ras1 ++ ras2 /\ map rattr_key ras2 = map rattr_key o
    /\ fst (split_attrs ras) = map (fun d => (keyed (fst d), snd d)) d ++ fst (split_attrs ras2) /\ snd (split_attrs ras) = snd (split_attrs ras2).
Proof.
  revert ras. induction d as [|[p u] d IH]; intros ras H.
  - exists [], ras. auto.
  - destruct ras as [|a ras]; [discriminate|]. cbn [map app] in H.
    assert (K : rattr_key a = piece_key (decl_piece (p, u))) by congruence.
    destruct (IH ras ltac:(congruence)) as (r1 & r2 & -> & M & S1 & S2). exists (a :: r1), r2. split; [reflexivity|]. split; [exact M|].
    unfold rattr_key, piece_key, decl_piece in K. cbn [fst snd] in K. injection K as K1 K2.
    assert (D : declared a = Some (keyed p)).
    { unfold declared. rewrite K1. unfold keyed. destruct p as [|c p]; reflexivity. }
    cbn [app split_attrs]. destruct (split_attrs (r1 ++ r2)) as [x y]. cbn [fst snd] in S1, S2. rewrite D. cbn [fst snd map app]. rewrite K2, S1, S2. auto.
Qed.
Lemma open_read fs rs n ats nss f wnss : same_scope fs rs -> scope_good fs -> open_frame fs n ats nss = Some f ->
  NoDup (map fst nss) -> (forall p u, In (p, u) nss -> plain_uri u /\ unreserved p u) ->
  (forall m p u, In m wnss -> aget String.eqb p m = Some u -> aget String.eqb p fs = Some u) ->
  (forall p u u', aget String.eqb p nss = Some u -> aget String.eqb p fs = Some u' -> u = u') ->
  let d := new_ns wnss nss in
  exists ps, concat_str (map (ns_text em) d) +++ concat_str (map (attr_text em) ats) = concat_str (map piece_text ps) /\ Forall piece_ok ps /\ fine_name n
    /\ same_scope (fr_scope f) (tag_scope d rs) /\ scope_good (fr_scope f)
    /\ forall ras total start, map rattr_key ras = map piece_key ps ->
        exists rf, open_tag total start rs (qn n) ras = Some rf /\ rf_name rf = qn n /\ snd (qn n) = fr_tag f /\ rf_ns rf = fr_ns f
          /\ map attr_key (fr_attrs f) = map attr_key (rf_attrs rf) /\ rf_scope rf = tag_scope d rs /\ rf_kids rf = [].
Proof.
  intros SS G O N U W A d. unfold open_frame in O. destruct (decls_ok nss) eqn:DO; [|discriminate].
  destruct (expand_elem (nss ++ fs) n) as [[t ns]|] eqn:EE; [|discriminate]. destruct (expand_attrs (nss ++ fs) ats) as [l|] eqn:EA; [|discriminate].
  injection O as <-. cbn [fr_scope fr_tag fr_ns fr_attrs].
  assert (SS' : same_scope (nss ++ fs) (tag_scope d rs)) by now apply scope_step.
  assert (G' : scope_good (nss ++ fs)).
  { intros p u E. rewrite aget_app_s in E. destruct (aget String.eqb p nss) as [u'|] eqn:E'; [|now apply G]. injection E as ->.
    apply (aget_In _ String.eqb_eq) in E'. destruct (U _ _ E') as [_ (U1 & _ & U2)]. split; [exact U1|]. now intros ->; apply U2. }
  destruct (elem_read _ _ _ _ _ SS' G' EE) as (F & T & EN).
  destruct (attrs_read _ _ _ _ SS' G' EA) as (ps & PT & PO & R).
  assert (GD : forall x, In x d -> good_decl x).
  { intros [p u] I. unfold d in I. apply new_In in I. destruct I as [I _]. destruct (U _ _ I) as [U1 U2]. split; [|auto]. cbn [fst snd].
    unfold decls_ok in DO. rewrite forallb_forall in DO. specialize (DO _ I). cbn [fst snd] in DO. apply orb_true_iff in DO. destruct DO as [DO|DO].
    - left. now destruct p.
    - right. apply andb_true_iff in DO. destruct DO as [D1 D2]. rewrite nc in D1. split; [exact D1|]. intros ->. discriminate D2. }
  exists (map decl_piece (filter kept d) ++ ps). split; [|split; [|split; [exact F|split; [exact SS'|split; [exact G'|]]]]].
  - now rewrite map_app, concat_app_s, ns_pieces, PT.
  - apply Forall_app. split; [|exact PO]. apply Forall_map, Forall_forall. intros x I. apply filter_In in I. destruct I as [I K].
    now apply decl_ok; [apply GD|].
  - intros ras total start M. rewrite map_app in M.
    assert (Lo : exists o, map piece_key ps = map rattr_key o).
    { clear. induction ps as [|p ps [o IH]]; [now exists []|]. exists (mkRattr (fst (piece_key p)) (snd (piece_key p)) (0%N, 0%N) :: o). cbn [map]. rewrite IH.
      unfold rattr_key at 2. cbn [ra_name ra_value]. now rewrite <- surjective_pairing. }
    destruct Lo as [o Lo]. rewrite Lo in M. destruct (decls_split _ _ _ M) as (r1 & r2 & -> & M2 & S1 & S2).
    destruct (R r2 total ltac:(congruence)) as (R1 & l' & R2 & R3). rewrite R1 in S1, S2. cbn [fst snd] in S1, S2. rewrite app_nil_r in S1.
    unfold open_tag. destruct (split_attrs (r1 ++ r2)) as [x y]. cbn [fst snd] in S1, S2. subst x y.
    change (fold_left _ _ rs) with (tag_scope d rs). 
    assert (B : (forallb decl_fine (map (fun d => (keyed (fst d), snd d)) (filter kept d)) && nodupb oeq (map fst (map (fun d => (keyed (fst d), snd d)) (filter kept d))))%bool = true).
    { apply andb_true_iff. split.
      - apply forallb_forall. intros x I. apply in_map_iff in I. destruct I as (y & <- & I). apply filter_In in I. destruct I as [I K].
        now apply decl_ok; [apply GD|].
      - apply (nodupb_NoDup oeq oeq_eq). apply keyed_NoDup. apply filter_keys. now apply new_keys. }
    rewrite B, EN, R2. eexists. split; [reflexivity|]. cbn [rf_name rf_ns rf_attrs rf_scope rf_kids]. auto 10.
Qed.
End WithLibs.
End Emitter.
