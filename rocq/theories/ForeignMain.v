(** * ForeignMain: foreign markup in whole documents (C32) *)
From Verif Require Import Base Libs Xml Ast XsdNode Parse MiscProof ParseSpec DeclSpec ParseProof DeclProof1 DeclMain ForeignSpec ForeignProof.

Section Foreign.
Context {L : Libs}.
Variable strict : Prop.
Variable At : string -> range -> range -> Prop.
Definition rres {E A} (g : E -> E -> Prop) (Q : A -> A -> Prop) (m m' : res E A) : Prop :=
  match m with
  | Ok a => exists a', m' = Ok a' /\ Q a a'
  | Err e => strict -> exists e', m' = Err e' /\ g e e'
  | Panic w => strict -> m' = Panic w
  | OutOfFuel => strict -> m' = OutOfFuel
  end.
Lemma rres_bind {E A B} (g : E -> E -> Prop) (Q : A -> A -> Prop) (S : B -> B -> Prop) (m m' : res E A) (k k' : A -> res E B) :
  rres g Q m m' -> (forall a a', Q a a' -> rres g S (k a) (k' a')) -> rres g S (bind m k) (bind m' k').
Proof.
  intros H K. destruct m as [a|e|w|]; simpl in *.
  - destruct H as (a' & -> & Qa). exact (K a a' Qa).
  - intros s. destruct (H s) as (e' & -> & Ee). exists e'. auto.
  - intros s. now rewrite (H s).
  - intros s. now rewrite (H s).
Qed.
Lemma rres_map {E F A} (g : E -> E -> Prop) (g' : F -> F -> Prop) (Q : A -> A -> Prop) (h : E -> F) (m m' : res E A) :
  (forall e e', g e e' -> g' (h e) (h e')) -> rres g Q m m' -> rres g' Q (map_err h m) (map_err h m').
Proof.
  intros C H. destruct m as [a|e|w|]; simpl in *.
  - destruct H as (a' & -> & Qa). exists a'. auto.
  - intros s. destruct (H s) as (e' & -> & Ee). exists (h e'). auto.
  - intros s. now rewrite (H s).
  - intros s. now rewrite (H s).
Qed.
Definition moved_parse_err (path : string) (e e' : parse_err) : Prop :=
  match e, e' with
  | PeSchema e, PeSchema e' => moved_schema_err At e e'
  | PeXsd x, PeXsd x' => moved_err (At path) x x'
  | _, _ => False
  end.
Lemma rres_xsd {A} path (Q : A -> A -> Prop) m m' : rres (moved_err (At path)) Q m m' -> rres (moved_parse_err path) Q (map_err PeXsd m) (map_err PeXsd m').
Proof. apply rres_map. intros e e' H. exact H. Qed.
Lemma rres_schema {A} path (Q : A -> A -> Prop) m m' : rres (moved_schema_err At) Q m m' -> rres (moved_parse_err path) Q (map_err PeSchema m) (map_err PeSchema m').
Proof. apply rres_map. intros e e' H. exact H. Qed.
Lemma rres_lrel {A} path (Q : A -> A -> Prop) m m' : lrel (At path) Q m m' -> rres (moved_err (At path)) Q m m'.
Proof.
  destruct m, m'; simpl; try contradiction; intros H; [eexists; eauto|intros _; eexists; eauto|now intros _; rewrite H|auto].
Qed.

Definition loads (load load' : string -> shared_ctx -> res schema_err schema) : Prop :=
  forall p s, rres (moved_schema_err At) eq (load p s) (load' p s).

Lemma rel_schema_child path fuel load load' f f' base n n' c c' : loads load load' -> (forall p q, fs_push f p q = fs_push f' p q) ->
  nrel (At path) n n' -> crel strict c c' -> rres (moved_parse_err path) (crel strict) (schema_child fuel load f base n c) (schema_child fuel load' f' base n' c').
Proof.
  intros Hl Hp R C. unfold schema_child. rewrite (nrel_name _ _ _ R). destruct (crel_same _ _ _ C) as (Es & Et & _ & _ & Er).
  destruct (orb _ _).
  - apply (rres_bind _ (arel (At path))); [apply rres_xsd, rres_lrel, nrel_try_attr; [exact R|simpl; tauto]|].
    intros [a m] [a' m'] [((_ & _ & E) & _) _]. simpl in E. rewrite <- Hp, Es, E. apply (rres_bind _ eq); [apply rres_schema, Hl|].
    intros s _ <-. simpl. eexists. split; [reflexivity|]. rewrite Er. destruct C as (E' & H1 & H2).
    split; [rewrite E' at 1; reflexivity|]. split; assumption.
  - apply (rres_bind _ (arel (At path))); [apply rres_xsd, rres_lrel, nrel_try_attr; [exact R|simpl; tauto]|].
    intros [a m] [a' m'] [((_ & _ & E) & _) Hm]. simpl in E, Hm. rewrite Et, E.
    apply (rres_bind _ (fun x x' => fst x = fst x' /\ crel strict (snd x) (snd x'))).
    + apply rres_xsd. destruct (rel_all (At path) strict fuel _ _ (mkName (at_value a) (cx_target c)) Hm) as (H & _). specialize (H c c' C).
      destruct (root_parse fuel m _ c) as [[r c1]|e|w|]; simpl; try exact H.
      destruct H as (r' & c1' & -> & <- & C1). exists (r, c1'). auto.
    + intros [r c1] [r' c1'] [E1 C1]. simpl in E1, C1. subst r'. simpl. eexists. split; [reflexivity|].
      destruct (crel_same _ _ _ C1) as (_ & _ & _ & _ & Er1). rewrite Er1. destruct C1 as (E' & H1 & H2).
      split; [rewrite E' at 1; reflexivity|]. split; assumption.
Qed.
Lemma rel_schema_children path fuel load load' f f' base l l' : loads load load' -> (forall p q, fs_push f p q = fs_push f' p q) ->
  Forall2 (nrel (At path)) l l' -> forall c c', crel strict c c' ->
  rres (moved_parse_err path) (crel strict) (schema_children fuel load f base l c) (schema_children fuel load' f' base l' c').
Proof.
  intros Hl Hp. induction 1 as [|n n' l l' Hn F IH]; intros c c' C; simpl; [exists c'; auto|].
  apply (rres_bind _ (crel strict)); [now apply rel_schema_child|exact IH].
Qed.
Lemma rox_more A bare l l' n : more_attrs A bare l l' -> rox_attribute l' n = rox_attribute l n.
Proof.
  intros H. induction H as [|a b l l' ((E1 & E2 & E3) & _) _ IH|a l l' N _ _ _ IH]; simpl; [reflexivity|now rewrite IH, E1, E2, E3|].
  destruct (at_ns a); [|congruence]. now rewrite andb_false_r.
Qed.
Lemma nss_default_more d d' : more_prefixes d d' -> nss_default (xe_nss d') = nss_default (xe_nss d).
Proof.
  intros (N & N' & _ & H). destruct (nss_default (xe_nss d)) as [u|] eqn:E.
  - apply default_spec; [exact N'|]. apply H. now apply default_spec.
  - destruct (nss_default (xe_nss d')) as [u|] eqn:E'; [|reflexivity]. apply (default_spec _ N') in E'. apply H in E'.
    apply (default_spec _ N) in E'. congruence.
Qed.
Lemma ctx_new_rel A d d' t sh : moved_doc A strict d d' -> crel strict (ctx_new d t sh) (ctx_new d' t sh).
Proof.
  intros (D & M & Hs). destruct (dressed_same _ _ _ D) as (_ & _ & Am & _).
  pose proof (nss_default_more _ _ M) as Ed. pose proof (rox_more _ _ _ _ "elementFormDefault" Am) as Eq. unfold ctx_new.
  destruct (match t with Some x => _ | None => _ end) as [tn nss]. rewrite Ed, Eq. split; [reflexivity|]. split.
  - intros p u. simpl. destruct M as (N & N' & H & _). rewrite (doc_nss_spec _ N p u), (doc_nss_spec _ N' p u). apply H.
  - intros s. simpl. now rewrite (Hs s).
Qed.
Lemma has_name_doc A d d' t ns : dressed A d d' -> has_name t ns d' = has_name t ns d.
Proof. apply has_name_dressed. Qed.
Lemma rel_parse_schema path fuel load load' f f' d d' base sh : loads load load' -> (forall p q, fs_push f p q = fs_push f' p q) ->
  moved_doc (At path) strict d d' -> rres (moved_parse_err path) eq (parse_schema_with fuel load f d base sh) (parse_schema_with fuel load' f' d' base sh).
Proof.
  intros Hl Hp D. unfold parse_schema_with. rewrite (has_name_doc _ _ _ _ _ (proj1 D)).
  destruct (negb _).
  { simpl. intros _. eexists. split; [reflexivity|]. simpl. destruct (dressed_same _ _ _ (proj1 D)) as (-> & _ & _ & _ & _ & Rg).
    split; [reflexivity|]. simpl. intros ? ? [= <-] [= <-]. exact Rg. }
  assert (R : nrel (At path) (node_of d) (node_of d')) by (split; [exact (proj1 D)|reflexivity]).
  destruct (nrel_attr _ _ _ "targetNamespace" R) as (o & o' & m & m' & E & E' & Ho & Hm); [simpl; tauto|]. rewrite E, E'.
  assert (Eo : option_map at_value o' = option_map at_value o) by (destruct o, o'; simpl in Ho; try contradiction; simpl; f_equal; apply Ho). rewrite Eo.
  apply (rres_bind _ (crel strict)).
  - apply rel_schema_children; [exact Hl|exact Hp|now apply nrel_children|]. now apply (ctx_new_rel (At path)).
  - intros c c' C. simpl. exists (into_schema c'). split; [reflexivity|]. destruct (crel_same _ _ _ C) as (Es & Et & Eq & Ed & Er).
    unfold into_schema. now rewrite Es, Et, Eq, Er.
Qed.
Definition odoc (path : string) (d d' : option xelem) : Prop :=
  match d, d' with Some x, Some y => moved_doc (At path) strict x y | None, None => True | _, _ => False end.
Lemma rel_parse_with fuel load load' f f' d d' path sh : loads load load' -> (forall p q, fs_push f p q = fs_push f' p q) ->
  (forall p, fs_parent f p = fs_parent f' p) -> odoc path d d' ->
  rres (moved_schema_err At) eq (parse_with fuel load f d path sh) (parse_with fuel load' f' d' path sh).
Proof.
  intros Hl Hp Hq D. unfold parse_with. destruct d as [d|], d' as [d'|]; simpl in D; try contradiction; [|simpl; intros _; eexists; split; [reflexivity|]; split; [reflexivity|]; split; [reflexivity|]; intros ? ? E; discriminate E].
  rewrite <- Hq. apply (rres_map (moved_parse_err path)); [intros [e|e] [e'|e'] H; simpl in *; try contradiction; [exact H|split; [reflexivity|exact H]]|]. now apply rel_parse_schema.
Qed.
Lemma rel_file fuel f f' : moved_files At strict f f' -> forall path sh,
  rres (moved_schema_err At) eq (parse_file_with_context fuel f path sh) (parse_file_with_context fuel f' path sh).
Proof.
  intros (Hp & Hq & Hr). induction fuel as [|fuel IH]; intros path sh; simpl; [auto|]. specialize (Hr path).
  destruct (fs_read f path) as [d|], (fs_read f' path) as [d'|]; try (destruct d; contradiction); try contradiction; [|simpl; intros _; eexists; auto].
  apply rel_parse_with; [intros p s; apply IH|exact Hp|exact Hq|]. destruct d, d'; simpl; try contradiction; auto.
Qed.
Lemma rel_schema_parse fuel f f' d d' path : moved_files At strict f f' -> moved_doc (At path) strict d d' ->
  rres (moved_schema_err At) eq (schema_parse fuel f (Some d) path) (schema_parse fuel f' (Some d') path).
Proof. intros F D. pose proof F as (Hp & Hq & _). apply rel_parse_with; try assumption. intros p s. now apply rel_file. Qed.
End Foreign.

Section Main.
Context {L : Libs}.
Lemma rres_moved {A} At (m m' : res schema_err A) : rres True (moved_schema_err At) eq m m' -> moved At m m'.
Proof.
  intros H. destruct m as [s|e|w|]; unfold rres in H; simpl in H.
  - destruct H as (s' & -> & <-). reflexivity.
  - destruct (H I) as (e' & -> & Ee). exact Ee.
  - now rewrite (H I).
  - now rewrite (H I).
Qed.
Lemma moved_outcome {A} At (m m' : res schema_err A) : moved At m m' -> outcome m' = outcome m.
Proof.
  unfold outcome. destruct m as [a|e|w|], m' as [a'|e'|w'|]; simpl; try contradiction; intros H; try congruence.
  destruct e as [x p|p|n], e' as [x' p'|p'|n']; simpl in H; try discriminate; try (now rewrite H). destruct H as (-> & E & _). simpl. now rewrite E.
Qed.
Lemma foreign_moved At fuel f f' d d' path : moved_files At True f f' -> moved_doc (At path) True d d' ->
  moved At (schema_parse fuel f (Some d) path) (schema_parse fuel f' (Some d') path).
Proof. intros F D. apply rres_moved. exact (rel_schema_parse True At fuel f f' d d' path F D). Qed.
Lemma file_moved At fuel f f' path : moved_files At True f f' -> moved At (parse_file fuel f path) (parse_file fuel f' path).
Proof. intros F. apply rres_moved. exact (rel_file True At fuel f f' F path None). Qed.
Lemma foreign_ignored fuel f f' d d' path : dressed_files True f f' -> dressed_doc True d d' ->
  outcome (schema_parse fuel f' (Some d') path) = outcome (schema_parse fuel f (Some d) path).
Proof. intros F D. apply (moved_outcome (fun _ => anywhere)). now apply foreign_moved. Qed.
Lemma foreign_accepted fuel f f' d d' path s : dressed_files False f f' -> dressed_doc False d d' ->
  schema_parse fuel f (Some d) path = Ok s -> schema_parse fuel f' (Some d') path = Ok s.
Proof.
  intros F D E. pose proof (rel_schema_parse False (fun _ => anywhere) fuel f f' d d' path F D) as H. rewrite E in H. unfold rres in H.
  destruct H as (s' & E' & <-). exact E'.
Qed.
End Main.
