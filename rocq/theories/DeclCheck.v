(** * DeclCheck: everything the generator looks into is checked (C31) *)
From Verif Require Import Base Libs Xml Ast XsdNode Parse TextSpec ParseSpec DeclSpec DeclProof1 DeclProof2 DeclProof3 DeclMain.

Section Check.
Context {L : Libs}.
Variable d : xelem.
Variable nss : namespaces.
Variable v : namespace.
Variable st : list (name * root).

Ltac incl := let x := fresh in let H := fresh in intros x H; simpl in *; tauto.

Definition seen_all := ["minOccurs"; "maxOccurs"; "ref"; "name"; "default"; "form"; "type"].
Inductive acc : xelem -> Prop :=
| a_element seen x p r : xe_tag x = "element" -> incl seen seen_all -> element_decl d nss v st seen x p r -> acc x
| a_member x p l : xe_tag x = "element" -> element_member d nss v st p x l -> acc x
| a_complex seen x p r : xe_tag x = "complexType" -> incl seen ["name"] -> complex_type d nss v st seen x p r -> acc x
| a_simple seen x r : xe_tag x = "simpleType" -> incl seen ["name"] -> simple_type d seen x r -> acc x
| a_attr x p o : xe_tag x = "attribute" -> attribute_decl d nss v st p x o -> acc x
| a_seq x known p ls : In (xe_tag x) ["sequence"; "all"] -> incl known ["minOccurs"; "maxOccurs"] ->
    sequence_of d nss v st known x p ls -> acc x
| a_choice x known p ls : xe_tag x = "choice" -> incl known ["minOccurs"; "maxOccurs"] ->
    choice_of d nss v st known x p ls -> acc x
| a_content x ext : In (xe_tag x) ["simpleContent"; "complexContent"] -> only_attrs x [] ->
    take "extension" (xsd_children x) (Some ext) [] -> acc ext -> acc x
| a_ext x sq rest p known ls ats : xe_tag x = "extension" -> take "sequence" (xsd_children x) sq rest ->
    (forall q, sq = Some q -> incl known ["minOccurs"; "maxOccurs"] /\ sequence_of d nss v st known q p ls) ->
    attributes_of d nss v st p rest ats -> acc x.

Lemma take_In t l o rest y : take t l o rest -> In y l -> o = Some y \/ In y rest.
Proof.
  intros H. destruct H as [l F|l x r F E]; [auto|]. rewrite in_app_iff. intros [I|[->|I]]; [right; apply in_or_app; auto|auto|].
  right. apply in_or_app. auto.
Qed.
Lemma take_not t l o y rest : take t l o rest -> o = None -> In y l -> xe_tag y <> t.
Proof. intros H. destruct H as [l F|l x r F E]; [|discriminate]. intros _ I. rewrite Forall_forall in F. now apply F. Qed.
Lemma particles_In x y : In y (xsd_children x) -> xe_tag y <> "annotation" -> In y (particles x).
Proof.
  intros I N. apply filter_In. split; [exact I|]. unfold is_annotation. apply negb_true_iff. now apply String.eqb_neq.
Qed.
Lemma Forall2_In {A B} (R : A -> B -> Prop) l m x : Forall2 R l m -> In x l -> exists y, R x y.
Proof. induction 1; [intros []|]. intros [<-|I]; eauto. Qed.

Lemma attributes_acc p cs ats y : attributes_of d nss v st p cs ats -> In y cs -> acc y.
Proof.
  intros [F (os & F2 & _)] I. rewrite Forall_forall in F. destruct (Forall2_In _ _ _ _ F2 I) as [o H].
  eapply a_attr; [now apply F|exact H].
Qed.

Lemma element_opens seen x p r y : element_decl d nss v st seen x p r -> no_attr x "type" ->
  In y (xsd_children x) -> In (xe_tag y) ["complexType"; "simpleType"] -> acc y.
Proof.
  intros H NT I T. assert (Na : xe_tag y <> "annotation") by (intros E; rewrite E in T; simpl in T; destruct T as [T|[T|[]]]; discriminate).
  destruct H as [? ? ? an docs lc known Tk Dc Ty Oa|? ? ? an rest docs ct r Tk Dc N Oa Tc C|? ? ? an rest docs s r Tk Dc N Oa Tc Ts S].
  - exfalso. destruct Ty as (a & t & Ha & _). destruct Ha as (l & q & E & En & _). apply (NT a); [|exact En].
    rewrite E. apply in_or_app. right. now left.
  - destruct (take_In _ _ _ _ _ Tk I) as [->|I1]; [apply take_tag in Tk; contradiction|].
    destruct (take_In _ _ _ _ _ Tc I1) as [E|[]]. injection E as ->.
    eapply a_complex; [eapply take_tag; exact Tc|apply incl_nil_l|exact C].
  - destruct (take_In _ _ _ _ _ Tk I) as [->|I1]; [apply take_tag in Tk; contradiction|].
    destruct (take_In _ _ _ _ _ Ts I1) as [E|[]]. injection E as ->.
    eapply a_simple; [eapply take_tag; exact Ts|apply incl_nil_l|exact S].
Qed.
Lemma sequence_acc known x p ls y : sequence_of d nss v st known x p ls -> In y (particles x) -> acc y.
Proof.
  intros H I. inversion H as [? ? ? ? O F]; subst. destruct (Forall2_In _ _ _ _ F I) as [l M].
  inversion M; subst; [eapply a_member; eassumption|eapply a_choice; [assumption| |eassumption]; incl|].
  eapply a_seq; [left; symmetry; eassumption| |eassumption]. incl.
Qed.
Lemma choice_acc known x p ls y : choice_of d nss v st known x p ls -> In y (particles x) -> acc y.
Proof.
  intros H I. inversion H as [? ? ? ? O F]; subst. destruct (Forall2_In _ _ _ _ F I) as [l M].
  inversion M; subst; [eapply a_member; eassumption|].
  eapply a_seq; [left; symmetry; eassumption| |eassumption]. incl.
Qed.
Lemma group_acc x p f content : In (xe_tag x) ["sequence"; "all"] -> group_content d nss v st x p f content -> acc x.
Proof. intros T H. inversion H; subst; (eapply a_seq; [exact T| |eassumption]; incl). Qed.
Lemma content_acc p cs content rest y : content_model d nss v st p cs content rest -> In y cs -> acc y \/ In y rest.
Proof.
  intros H I. inversion H as [? ? T1 T2 T3|? ? x ? ls T1 T2 T3 C St|? ? x ? ct T1 G|? ? x ? ct T1 T2 G]; subst.
  - auto.
  - destruct (take_In _ _ _ _ _ T3 I) as [E|I']; [injection E as ->|auto]. left.
    eapply a_choice; [eapply take_tag; exact T3|apply incl_nil_l|exact C].
  - destruct (take_In _ _ _ _ _ T1 I) as [E|I']; [injection E as ->|auto]. left.
    eapply group_acc; [|exact G]. rewrite (take_tag _ _ _ _ T1). simpl. auto.
  - destruct (take_In _ _ _ _ _ T2 I) as [E|I']; [injection E as ->|auto]. left.
    eapply group_acc; [|exact G]. rewrite (take_tag _ _ _ _ T2). simpl. auto.
Qed.
Lemma complex_opens seen x p r y : complex_type d nss v st seen x p r -> In y (xsd_children x) -> xe_tag y <> "annotation" -> acc y.
Proof.
  intros H I N.
  destruct H as [? ? ? an rest docs c ext rest' base lc n ats Mx Oa Tk Dc Ts Oc Te B Ty En Er At
    |? ? ? an rest rest1 docs c ext base t sq rest' content ats Mx Oa Tk Dc Ts Tc Oc Te B Ty Tq X At
    |? ? ? an rest rest1 docs rest2 content ats Mx Oa Tk Dc Ts Tc Cm At].
  - destruct (take_In _ _ _ _ _ Tk I) as [->|I1]; [apply take_tag in Tk; contradiction|].
    destruct (take_In _ _ _ _ _ Ts I1) as [E|[]]. injection E as ->.
    eapply a_content; [left; symmetry; eapply take_tag; exact Ts|exact Oc|exact Te|].
    eapply (a_ext ext None rest' p [] [] ats); [eapply take_tag; exact Te| |discriminate|exact At].
    rewrite Er. apply tk_none. destruct At as [F _]. eapply Forall_impl; [|exact F]. simpl. intros a ->. discriminate.
  - destruct (take_In _ _ _ _ _ Tk I) as [->|I1]; [apply take_tag in Tk; contradiction|].
    destruct (take_In _ _ _ _ _ Ts I1) as [E|I2]; [discriminate|].
    destruct (take_In _ _ _ _ _ Tc I2) as [E|[]]. injection E as ->.
    eapply a_content; [right; left; symmetry; eapply take_tag; exact Tc|exact Oc|exact Te|].
    inversion X as [|? ? q min ls Mi Sq Ad]; subst.
    + eapply (a_ext ext None rest' p [] [] ats); [eapply take_tag; exact Te|exact Tq|discriminate|exact At].
    + eapply (a_ext ext (Some q) rest' p ["minOccurs"] ls ats); [eapply take_tag; exact Te|exact Tq| |exact At].
      intros q' E. injection E as <-. split; [incl|exact Sq].
  - destruct (take_In _ _ _ _ _ Tk I) as [->|I1]; [apply take_tag in Tk; contradiction|].
    destruct (take_In _ _ _ _ _ Tc I1) as [E|I2]; [discriminate|].
    destruct (content_acc _ _ _ _ _ Cm I2) as [A|I3]; [exact A|]. eapply attributes_acc; eassumption.
Qed.

Ltac tags H := repeat match type of H with _ \/ _ => destruct H as [H|H] | False => destruct H end; try congruence.

Lemma opens_acc x y : acc x -> In y (xsd_children x) -> opens x y -> acc y.
Proof.
  intros A I O. unfold opens in O.
  destruct A as [seen x p r T Sn D|x p l T M|seen x p r T Sn C|seen x r T Sn S|x p o T D|x known p ls T K Sq|x known p ls T K Ch
    |x ext T Oa Te Ax|x sq rest p known ls ats T Tq Hq At].
  - rewrite T in O. simpl in O. destruct O as [(_ & NT & _ & Ty)|[[O _]|[O|[O _]]]]; tags O.
    eapply element_opens; eassumption.
  - rewrite T in O. simpl in O. destruct O as [(_ & NT & NR & Ty)|[[O _]|[O|[O _]]]]; tags O.
    inversion M; subst.
    + exfalso. match goal with H : the_attr x "ref" _ |- _ => destruct H as (l0 & q & E & En & _) end.
      apply (NR a); [|exact En]. rewrite E. apply in_or_app. right. now left.
    + exfalso. match goal with H : typed _ _ _ _ _ |- _ => destruct H as (a & t & Ha & _) end.
      destruct Ha as (l0 & q & E & En & _). apply (NT a); [|exact En]. rewrite E. apply in_or_app. right. now left.
    + exfalso. match goal with H : Forall _ (xsd_children x) |- _ => rewrite Forall_forall in H; destruct (H y I) as [N1 N2] end.
      simpl in Ty. destruct Ty as [Ty|[Ty|[]]]; congruence.
    + match goal with H : declared _ _ _ _ _ x _ _ |- _ => inversion H; subst; try congruence end.
      eapply element_opens; eassumption.
  - rewrite T in O. simpl in O. destruct O as [(O & _)|[[_ N]|[O|[O _]]]]; tags O.
    eapply complex_opens; eassumption.
  - rewrite T in O. simpl in O. destruct O as [(O & _)|[[O N]|[O|[O _]]]]; tags O.
  - rewrite T in O. simpl in O. destruct O as [(O & _)|[[O N]|[O|[_ Ty]]]]; tags O.
    assert (Na : xe_tag y <> "annotation") by (rewrite Ty; discriminate).
    inversion D; subst.
    + match goal with H : take "annotation" _ _ _ |- _ => destruct (take_In _ _ _ _ _ H I) as [->|I1]; [apply take_tag in H; contradiction|] end.
      match goal with H : take "simpleType" _ _ _ |- _ => destruct (take_In _ _ _ _ _ H I1) as [->|[]] end.
      match goal with H : attribute_content _ _ _ _ _ _ _ _ _ _ |- _ => inversion H; subst end;
        (eapply a_simple; [exact Ty|apply incl_nil_l|eassumption]).
    + match goal with H : take "annotation" _ _ _ |- _ => destruct (take_In _ _ _ _ _ H I) as [->|I1]; [apply take_tag in H; contradiction|] end.
      match goal with H : take "simpleType" _ _ _ |- _ => destruct (take_In _ _ _ _ _ H I1) as [->|[]] end.
      match goal with H : attribute_content _ _ _ _ _ _ _ _ _ _ |- _ => inversion H; subst end;
        (eapply a_simple; [exact Ty|apply incl_nil_l|eassumption]).
  - assert (N : xe_tag y <> "annotation").
    { destruct O as [(E & _)|[[_ N]|[E|[E _]]]]; [|exact N| |]; exfalso; simpl in T, E; destruct T as [T|[T|[]]]; rewrite <- T in E; tags E. }
    eapply sequence_acc; [exact Sq|now apply particles_In].
  - assert (N : xe_tag y <> "annotation").
    { rewrite T in O. simpl in O. destruct O as [(E & _)|[[_ N]|[E|[E _]]]]; [|exact N| |]; exfalso; tags E. }
    eapply choice_acc; [exact Ch|now apply particles_In].
  - destruct (take_In _ _ _ _ _ Te I) as [E|[]]. injection E as ->. exact Ax.
  - destruct (take_In _ _ _ _ _ Tq I) as [E|I1].
    + destruct (Hq _ E) as [K Sq]. subst sq. eapply a_seq; [left; symmetry; eapply take_tag; exact Tq|exact K|exact Sq].
    + eapply attributes_acc; eassumption.
Qed.

Lemma sub_attrs x k k' : only_attrs x k -> incl k k' -> only_attrs x k'.
Proof. intros H I. eapply only_attrs_incl; eassumption. Qed.
Lemma typed_known e lc known : typed d nss e lc known -> incl known ["type"; "fixed"].
Proof.
  intros (a & t & _ & _ & H). destruct t as [l|n|s]; destruct H as [-> _]; incl.
Qed.
Lemma element_checked seen x p r : xe_tag x = "element" -> incl seen seen_all -> element_decl d nss v st seen x p r ->
  only_attrs x ["name"; "type"; "fixed"; "minOccurs"; "maxOccurs"; "ref"; "default"; "form"]
  /\ Forall (fun y => In (xe_tag y) ["annotation"; "complexType"; "simpleType"]) (xsd_children x).
Proof.
  intros T Sn D. unfold seen_all in Sn. split.
  - destruct D as [? ? ? an docs lc known Tk Dc Ty Oa|? ? ? an rest docs ct r Tk Dc N Oa Tc C|? ? ? an rest docs s r Tk Dc N Oa Tc Ts S];
      (eapply sub_attrs; [exact Oa|]; intros k I).
    + apply in_app_or in I. destruct I as [I|I]; [apply (typed_known _ _ _ Ty) in I|apply Sn in I]; simpl in *; tauto.
    + destruct I as [<-|I]; [simpl; tauto|]. apply Sn in I. simpl in *. tauto.
    + destruct I as [<-|I]; [simpl; tauto|]. apply Sn in I. simpl in *. tauto.
  - apply Forall_forall. intros y I.
    destruct D as [? ? ? an docs lc known Tk Dc Ty Oa|? ? ? an rest docs ct r Tk Dc N Oa Tc C|? ? ? an rest docs s r Tk Dc N Oa Tc Ts S].
    + destruct (take_In _ _ _ _ _ Tk I) as [->|[]]. apply take_tag in Tk. simpl. auto.
    + destruct (take_In _ _ _ _ _ Tk I) as [->|I1]; [apply take_tag in Tk; simpl; auto|].
      destruct (take_In _ _ _ _ _ Tc I1) as [E|[]]; injection E as ->. apply take_tag in Tc. simpl. auto.
    + destruct (take_In _ _ _ _ _ Tk I) as [->|I1]; [apply take_tag in Tk; simpl; auto|].
      destruct (take_In _ _ _ _ _ Ts I1) as [E|[]]; injection E as ->. apply take_tag in Ts. simpl. auto.
Qed.
Lemma has_not_no x n a : the_attr x n a -> ~ no_attr x n.
Proof. intros (l & r & E & En & _) N. apply (N a); [|exact En]. rewrite E. apply in_or_app. right. now left. Qed.

Ltac known := eexists _, _; split; [simpl; match goal with H : xe_tag _ = _ |- _ => rewrite H end; auto 12|].
Lemma acc_checked x : acc x -> checked x.
Proof.
  intros A. unfold checked.
  destruct A as [seen x p r T Sn D|x p l T M|seen x p r T Sn C|seen x r T Sn S|x p o T D|x known p ls T K Sq|x known p ls T K Ch
    |x ext T Oa Te Ax|x sq rest p known ls ats T Tq Hq At].
  - known. destruct (element_checked _ _ _ _ T Sn D) as [A1 A2]. auto.
  - known. destruct M as [p x a t min max Ha Mi Ma Oa Ty|p x na an rest docs lc known Mi Ma Nr Hn Mi' Ma' Tk Dc Ty Oa
      |p x na an rest docs min max Nr Hn Mi Ma Tk Dc Nt Oa F|p x na an rest docs min max r Nr Hn Mi Ma Tk Dc Nt Oa Ex De St].
    + split; [right; eapply sub_attrs; [exact Oa|incl]|]. left. split; [exact T|]. right. left. now apply has_not_no in Ha.
    + split; [right; eapply sub_attrs; [exact Oa|]|].
      * intros k I. apply in_app_or in I. destruct I as [I|I]; [|apply (typed_known _ _ _ Ty) in I]; simpl in *; tauto.
      * left. split; [exact T|]. left. destruct Ty as (a & t & Ha & _). now apply has_not_no in Ha.
    + split; [right; eapply sub_attrs; [exact Oa|incl]|]. left. split; [exact T|]. right. right.
      eapply Forall_impl; [|exact F]. simpl. intros y [N1 N2] [H|[H|[]]]; congruence.
    + inversion De; subst; try congruence.
      match goal with H : element_decl _ _ _ _ _ _ _ _ |- _ => destruct (element_checked _ _ _ _ T (incl_refl _) H) as [A1 A2] end. auto.
  - known. destruct C as [? ? ? an rest docs c ext rest' base lc n ats Mx Oa Tk Dc Ts Oc Te B Ty En Er At
    |? ? ? an rest rest1 docs c ext base t sq rest' content ats Mx Oa Tk Dc Ts Tc Oc Te B Ty Tq X At
    |? ? ? an rest rest1 docs rest2 content ats Mx Oa Tk Dc Ts Tc Cm At];
    (split; [right; eapply sub_attrs; [exact Oa|intros k [<-|I]; [simpl; tauto|apply Sn in I; simpl in *; tauto]]|]); right;
    apply Forall_forall; intros y I; (destruct (take_In _ _ _ _ _ Tk I) as [->|I1]; [apply take_tag in Tk; simpl; auto|]).
    + destruct (take_In _ _ _ _ _ Ts I1) as [E|[]]; injection E as ->. apply take_tag in Ts. simpl. auto.
    + destruct (take_In _ _ _ _ _ Ts I1) as [E|I2]; [discriminate|]. destruct (take_In _ _ _ _ _ Tc I2) as [E|[]]; injection E as ->.
      apply take_tag in Tc. simpl. auto.
    + destruct (take_In _ _ _ _ _ Tc I1) as [E|I2]; [discriminate|].
      assert (R : In (xe_tag y) ["sequence"; "all"; "choice"] \/ In y rest2).
      { inversion Cm as [? ? T1 T2 T3|? ? z ? ls T1 T2 T3 C St|? ? z ? ct T1 G|? ? z ? ct T1 T2 G]; subst; [auto| | |].
        - destruct (take_In _ _ _ _ _ T3 I2) as [E|I3]; [injection E as ->; apply take_tag in T3; simpl; auto|auto].
        - destruct (take_In _ _ _ _ _ T1 I2) as [E|I3]; [injection E as ->; apply take_tag in T1; simpl; auto|auto].
        - destruct (take_In _ _ _ _ _ T2 I2) as [E|I3]; [injection E as ->; apply take_tag in T2; simpl; auto|auto]. }
      destruct R as [R|R]; [simpl in *; tauto|]. destruct At as [F _]. rewrite Forall_forall in F. apply F in R.
      rewrite R. simpl. auto 10.
  - known. destruct S as [an rest docs rs a lit fs Oa Tk Dc Tr B Me F]. split; [right; eapply sub_attrs; [exact Oa|exact Sn]|].
    right. apply Forall_forall. intros y I. destruct (take_In _ _ _ _ _ Tk I) as [->|I1]; [apply take_tag in Tk; simpl; auto|].
    destruct (take_In _ _ _ _ _ Tr I1) as [E|[]]; injection E as ->. apply take_tag in Tr. simpl. auto.
  - known. destruct D as [na an r1 docs s lc known optional def Hn Tk Dc Ts Ac Us Df Oa|na an r1 docs s lc known a Hn Tk Dc Ts Ac Us Eu];
    (split; [|right; apply Forall_forall; intros y I; (destruct (take_In _ _ _ _ _ Tk I) as [->|I1]; [apply take_tag in Tk; simpl; auto|]);
      destruct (take_In _ _ _ _ _ Ts I1) as [->|[]]; apply take_tag in Ts; simpl; auto]).
    + right. eapply sub_attrs; [exact Oa|]. intros k I. apply in_app_or in I. destruct I as [I|I]; [simpl in *; tauto|].
      inversion Ac; subst; [|destruct I|destruct I]. match goal with H : typed _ _ _ _ _ |- _ => apply (typed_known _ _ _ H) in I end.
      simpl in *. tauto.
    + left. right. split; [exact T|]. eauto.
  - assert (Hx : only_attrs x ["minOccurs"; "maxOccurs"] /\ Forall (fun y => In (xe_tag y) ["annotation"; "element"; "choice"; "sequence"]) (xsd_children x)).
    { inversion Sq as [? ? ? ? Oa F]; subst. split; [eapply sub_attrs; eassumption|]. apply Forall_forall. intros y I.
      destruct (String.eqb_spec (xe_tag y) "annotation") as [E|N]; [simpl; auto|].
      destruct (Forall2_In _ _ _ _ F (particles_In _ _ I N)) as [l Mm]. inversion Mm; subst; simpl; auto. }
    simpl in T. destruct T as [T|[T|[]]]; symmetry in T; known; tauto.
  - known. inversion Ch as [? ? ? ? Oa F]; subst. split; [right; eapply sub_attrs; eassumption|]. right. apply Forall_forall. intros y I.
    destruct (String.eqb_spec (xe_tag y) "annotation") as [E|N]; [simpl; auto|].
    destruct (Forall2_In _ _ _ _ F (particles_In _ _ I N)) as [l Mm]. inversion Mm; subst; simpl; auto.
  - assert (Hk : Forall (fun y => In (xe_tag y) ["extension"]) (xsd_children x)).
    { apply Forall_forall. intros y I. destruct (take_In _ _ _ _ _ Te I) as [E|[]]. injection E as ->. apply take_tag in Te. simpl. auto. }
    simpl in T. destruct T as [T|[T|[]]]; symmetry in T; known; auto.
  - known. split; [left; now left|]. right. apply Forall_forall. intros y I.
    destruct (take_In _ _ _ _ _ Tq I) as [->|I1]; [apply take_tag in Tq; simpl; auto|].
    destruct At as [F _]. rewrite Forall_forall in F. apply F in I1. rewrite I1. simpl. auto.
Qed.
End Check.

Lemma checked_all {L : Libs} fuel f d path s x : files_bind_once f -> prefixes_once d ->
  schema_parse fuel f (Some d) path = Ok s -> reached d x -> checked x.
Proof.
  intros BO PO E R. destruct (parse_log _ _ _ _ _ BO PO E) as (log & D & _).
  assert (H : exists v st, acc d (sc_namespaces (s_context s)) v st x).
  { inversion D as [? ? t v ess Tg Lo F]; subst. exists v. clear D.
    induction R as [x I NL|x y R IH I O].
    - destruct (Forall2_In _ _ _ _ F I) as [es C]. inversion C as [|? ? ? ? ? a made r NL' Hn De V]; subst; [contradiction|].
      exists made. inversion De; subst.
      + eapply a_element; [assumption| |eassumption]. intros k [<-|[]]. unfold seen_all. simpl. tauto.
      + eapply a_complex; [assumption|apply incl_refl|eassumption].
      + eapply a_simple; [assumption|apply incl_refl|eassumption].
    - destruct IH as [st A]. exists st. eapply opens_acc; eassumption. }
  destruct H as (v & st & A). eapply acc_checked; exact A.
Qed.
