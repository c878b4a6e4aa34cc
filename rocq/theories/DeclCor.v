(** * DeclCor: consequences used by the properties *)
From Verif Require Import Base Libs Xml Ast XsdNode Parse TextSpec MiscProof ParseSpec DeclSpec ParseProof ParseFiles ParseRoots
  DeclProof1 DeclProof2 DeclProof3 DeclMain DeclCheck.

Section Cor.
Context {L : Libs}.

(** ** C34 *)
Lemma the_attr_det e n a b : the_attr e n a -> the_attr e n b -> a = b.
Proof. rewrite <- !attr_lookup_iff. congruence. Qed.
Lemma binds_det d p u u' : prefixes_once d -> binds d p u -> binds d p u' -> u = u'.
Proof.
  unfold prefixes_once, binds. induction (xe_nss d) as [|[q w] l IH]; simpl; [tauto|]. intros ND. inversion ND; subst.
  intros [E|I] [E'|I']; [congruence| | |auto].
  - injection E as -> ->. exfalso. apply H1. apply in_map_iff. exists (p, u'). auto.
  - injection E' as -> ->. exfalso. apply H1. apply in_map_iff. exists (p, u). auto.
Qed.
Lemma builtins_det s l l' : In (s, l) builtins -> In (s, l') builtins -> l = l'.
Proof. rewrite <- !literal_some. congruence. Qed.
Lemma qname_det v p l p' l' : qname v p l -> qname v p' l' -> p = p' /\ l = l'.
Proof. rewrite <- !split_colon_some. intros H H'. rewrite H in H'. injection H' as -> ->. auto. Qed.
Lemma qname_plain v p l : qname v p l -> plain v -> False.
Proof. rewrite <- split_colon_some, <- split_colon_none. congruence. Qed.
Lemma in_keys s l : In (s, l) builtins -> In s (map fst builtins).
Proof. intros H. apply in_map_iff. exists (s, l). auto. Qed.
Lemma means_det d v m m' : prefixes_once d -> means d v m -> means d v m' -> m = m'.
Proof.
  intros PO H H'.
  destruct H as [p l lit Q B I|p l Q B N|p l uri Q B N|p l Q N|lit Q B I|Q B N|Q N];
  destruct H' as [p' l' lit' Q' B' I'|p' l' Q' B' N'|p' l' uri' Q' B' N'|p' l' Q' N'|lit' Q' B' I'|Q' B' N'|Q' N'];
  try (exfalso; eapply qname_plain; eassumption; fail);
  try (destruct (qname_det _ _ _ _ _ Q Q') as [<- <-]);
  try (pose proof (binds_det _ _ _ _ PO B B') as Eu; subst);
  try (exfalso; eapply N; eassumption; fail); try (exfalso; eapply N'; eassumption; fail);
  try (exfalso; apply N; eapply in_keys; eassumption; fail); try (exfalso; apply N'; eapply in_keys; eassumption; fail);
  try congruence.
  - now rewrite (builtins_det _ _ _ I I').
  - now rewrite (builtins_det _ _ _ I I').
Qed.

(** Every context that occurs while the document is read. *)
Definition reading (d : xelem) (c : ctx) : Prop :=
  exists sh R sh', ns_wf (sh_namespaces sh) /\ ns_wf (sh_namespaces sh')
    /\ c = set_roots R (set_shared sh' (ctx_new d (option_map at_value (attr_lookup "targetNamespace" (xe_attrs d))) sh)).
Lemma reading_env d c : prefixes_once d -> reading d c -> env d (vns c) c.
Proof.
  intros PO (sh & R & sh' & W & W' & ->). destruct (new_env d sh PO W) as ((IS & _ & _) & _).
  split; [exact IS|]. split; [reflexivity|exact W'].
Qed.
Lemma resolves d c a m : prefixes_once d -> reading d c -> means d (at_value a) m ->
  match m with
  | MBuiltin lit => get_type_name a c = Ok (LcLiteral lit, c)
  | MUnsupported l => get_type_name a c = Err (XeUnsupportedType l (at_range a))
  | MName uri l => exists ns c', get_type_name a c = Ok (LcNamed (mkName l ns), c')
                     /\ ns_uri (sh_namespaces (cx_shared c')) ns uri
  | MBare l => get_type_name a c = Ok (LcNamed (mkName l NsNone), c)
  | MUnbound p => get_type_name a c = Err (XeMissingNamespace p (at_range a))
  end.
Proof.
  intros PO Rd M. destruct (reading_env _ _ PO Rd) as (IS & _ & W).
  pose proof (type_name_means d c a m IS W M) as K. destruct m; auto.
  destruct K as (ns & nss & E & U & _). exists ns. eexists. split; [exact E|exact U].
Qed.

(** ** C36 *)
Lemma type_refers d nss v t : type_of d nss v (LcNamed t) -> refers v (nm t).
Proof.
  intros [(lit & _ & E)|[(uri & l & ns & M & E & _)|(l & M & E)]]; [discriminate| |]; injection E as ->; simpl;
    inversion M; subst; [left; eauto|right; auto].
Qed.
Lemma element_kept d nss v st p x l : xe_tag x = "element" -> element_member d nss v st p x l -> kept x l.
Proof.
  intros T H. destruct H; (split; [simpl; assumption|]); left; (split; [exact T|]); (split; [simpl; assumption|]);
    first [left; eexists; split; [eassumption|]; simpl; eapply type_refers; eassumption
          |right; split; [assumption|]; eexists; split; [eassumption|reflexivity]].
Qed.
Lemma sequence_kept d nss v st known x p ls : sequence_of d nss v st known x p ls -> Forall2 kept (particles x) ls.
Proof.
  intros H. inversion H as [? ? ? ? O F]; subst. clear O H. induction F as [|y l ys ls M F IH]; constructor; [|exact IH].
  inversion M; subst.
  - eapply element_kept; eassumption.
  - split; [assumption|]. right. left. auto.
  - split; [assumption|]. right. right. auto.
Qed.
Lemma choice_kept d nss v st known x p ls : choice_of d nss v st known x p ls -> Forall2 kept (particles x) ls.
Proof.
  intros H. inversion H as [? ? ? ? O F]; subst. clear O H. induction F as [|y l ys ls M F IH]; constructor; [|exact IH].
  inversion M; subst.
  - eapply element_kept; eassumption.
  - split; [assumption|]. right. right. auto.
Qed.
Lemma sequence_parse_kept fuel d x seen p c ls c' : prefixes_once d -> reading d c ->
  sequence_parse fuel (mkNode x seen) p c = Ok (ls, c') -> Forall2 kept (particles x) ls.
Proof.
  intros PO Rd E. destruct (walk_ok d (vns c) fuel) as (_ & _ & _ & _ & _ & HS & _).
  destruct (HS _ _ _ _ _ (reading_env _ _ PO Rd) E) as (_ & _ & adds & _ & _ & Q).
  eapply sequence_kept. exact (Q _ _ (nss_le_refl _) (incl_refl _)).
Qed.
Lemma choice_parse_kept fuel d x seen p c ls c' : prefixes_once d -> reading d c ->
  choice_parse fuel (mkNode x seen) p c = Ok (ls, c') -> Forall2 kept (particles x) ls.
Proof.
  intros PO Rd E. destruct (walk_ok d (vns c) fuel) as (_ & _ & _ & _ & _ & _ & HC).
  destruct (HC _ _ _ _ _ (reading_env _ _ PO Rd) E) as (_ & _ & adds & _ & _ & Q).
  eapply choice_kept. exact (Q _ _ (nss_le_refl _) (incl_refl _)).
Qed.

(** ** C37 *)
Lemma name_dec (a b : name) : {a = b} + {a <> b}.
Proof. destruct (name_eqb a b) eqn:E; [left; now apply name_eqb_eq|right; intros ->; rewrite name_eqb_refl in E; discriminate]. Qed.
Lemma last_def_ex n r log : In (n, r) log -> exists r', last_def n log r'.
Proof.
  induction log as [|[k v] log IH] using rev_ind; [intros []|]. rewrite in_app_iff. intros H.
  destruct (name_dec n k) as [->|N].
  - exists v. apply last_def_snoc. auto.
  - destruct H as [H|[H|[]]]; [|injection H as -> _; contradiction]. destruct (IH H) as [r' D]. exists r'.
    apply last_def_snoc. auto.
Qed.
Lemma get_last (s : schema) log n r : listing log (sc_elements (s_context s)) ->
  (sc_get (s_context s) n = Some r <-> last_def n log r).
Proof. intros [ND H]. unfold sc_get. now rewrite aget_iff_In, H. Qed.
Lemma Forall2_app_inv {A B} (R : A -> B -> Prop) l1 x l2 m : Forall2 R (l1 ++ x :: l2) m ->
  exists m1 y m2, m = m1 ++ y :: m2 /\ Forall2 R l1 m1 /\ R x y /\ Forall2 R l2 m2.
Proof.
  intros H. apply Forall2_app_inv_l in H. destruct H as (m1 & m2 & F1 & F2 & ->). inversion F2; subst. eauto 8.
Qed.

(** Every declaration has a type of its name. *)
Lemma declaration_typed fuel f d path s x : files_bind_once f -> prefixes_once d ->
  schema_parse fuel f (Some d) path = Ok s -> In x (xsd_children d) -> ~ is_load x ->
  exists a n r, the_attr x "name" a /\ nm n = at_value a /\ target_of d (sc_namespaces (s_context s)) (nm_ns n)
    /\ sc_get (s_context s) n = Some r.
Proof.
  intros BO PO E I NL. destruct (parse_log _ _ _ _ _ BO PO E) as (log & D & Li).
  inversion D as [? ? t v ess Tg Lo F]; subst. destruct (in_split _ _ I) as (l1 & l2 & Ec). rewrite Ec in F.
  destruct (Forall2_app_inv _ _ _ _ _ F) as (m1 & y & m2 & -> & _ & C & _). inversion C; subst; [contradiction|].
  destruct (last_def_ex (mkName (at_value a) t) r (concat (m1 ++ (made ++ [(mkName (at_value a) t, r)]) :: m2))) as [r' Ld].
  { rewrite concat_app. simpl. apply in_or_app. right. apply in_or_app. left. apply in_or_app. right. now left. }
  exists a, (mkName (at_value a) t), r'. split; [assumption|]. split; [reflexivity|]. split; [exact Tg|].
  now apply (get_last s _ _ _ Li).
Qed.

(** ... and it is the one generated from this declaration if nothing later takes
    the name. *)
Lemma declaration_kept fuel f d path s l x rest a : files_bind_once f -> prefixes_once d ->
  schema_parse fuel f (Some d) path = Ok s ->
  xsd_children d = l ++ x :: rest -> ~ is_load x -> the_attr x "name" a ->
  Forall (fun y => ~ is_load y /\ forall b, the_attr y "name" b -> at_value b <> at_value a) rest ->
  ~ qualified_form d -> ~ no_attr d "targetNamespace" ->
  exists n r made, nm n = at_value a /\ target_of d (sc_namespaces (s_context s)) (nm_ns n)
    /\ sc_get (s_context s) n = Some r
    /\ declared d (sc_namespaces (s_context s)) NsNone made ["name"] x n r.
Proof.
  intros BO PO E Ec NL Hn Later NQ HT. destruct (parse_log _ _ _ _ _ BO PO E) as (log & D & Li).
  inversion D as [? ? t v ess Tg Lo F]; subst. rewrite Ec in F.
  destruct Lo as [[Q _]|[_ ->]]; [contradiction|].
  assert (Nt : t <> NsNone).
  { destruct Tg as [(b & _ & (id & def & -> & _))|[N _]]; [discriminate|contradiction]. }
  destruct (Forall2_app_inv _ _ _ _ _ F) as (m1 & y & m2 & -> & _ & C & F2).
  inversion C as [|? ? ? ? ? a' made r NL' Hn' De Vm]; subst; [contradiction|].
  pose proof (the_attr_det _ _ _ _ Hn Hn') as <-. exists (mkName (at_value a) t), r, made.
  split; [reflexivity|]. split; [exact Tg|]. split; [|exact De]. apply (get_last s _ _ _ Li).
  exists (concat m1 ++ made), (concat m2). split.
  - rewrite concat_app. simpl. now rewrite <- !app_assoc.
  - clear -F2 Later Nt. revert m2 F2. induction Later as [|y rest [NLy Ny] Later IH]; intros m2 F2; inversion F2; subst; [constructor|].
    simpl. apply Forall_app. split; [|now apply IH].
    match goal with H : child_defines _ _ _ _ _ _ _ _ |- _ => inversion H; subst; [contradiction|] end.
    apply Forall_app. split.
    + eapply Forall_impl; [|eassumption]. simpl. intros e He K. rewrite K in He. simpl in He. contradiction.
    + constructor; [|constructor]. simpl. intros K. injection K as K. eapply Ny; eassumption.
Qed.
End Cor.
