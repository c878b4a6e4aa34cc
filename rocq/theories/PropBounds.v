(** * PropBounds: which occurrence bounds the decoder enforces (C14) *)
From Verif Require Import Base Libs Xml Ast Parse Decode Gen Run CursorSpec GenSpec GenProof1 DecSpec RepSpec WfSpec
  RoundSpec ReadSpec RustSpec RustCheck ValidSpec ValidProof ValidCheck BoundProof Harness Samples PropDecode PropValid.

(** The bounds that the generator keeps: exactly one, at most one, any number. *)
Definition kept_bounds (f : leaf) : Prop :=
  (lf_max f = MaxNumber 1 /\ (lf_min f = 0 \/ lf_min f = 1)%N) \/ (lf_max f = MaxUnbounded /\ lf_min f = 0%N).
Definition kept_everywhere (c : schema_ctx) (gs : list name) : Prop :=
  forall n r f, In n gs -> sc_get c n = Some r -> In f (leaves_of r) -> kept_bounds f.

(** C14, partial: if the bounds of all members are among these, whatever is decoded
    keeps to them: the parts that the members account for are as many as the schema
    allows. Children that no member accounts for may follow (C56). For other bounds it is
    false ([C14_bounds_refuted], and [C56_none_refuted] for one to unbounded). *)
Theorem C14_kept_partial : forall (L : Libs) gfuel c gs p n id e fuel v,
  kept_everywhere c gs ->
  generated gfuel c gs p -> In n gs -> type_ident n = Ok id -> from_xml p fuel id e = Ok v ->
  valid_doc c gs shuffle (leftovers shuffle) allowed first_text false n e
  /\ (all_ordered c gs -> valid_doc c gs appended (leftovers appended) allowed first_text false n e).
Proof.
  intros L gfuel c gs p n id e fuel v KB G I Ti R.
  assert (HA : forall n r f k, In n gs -> sc_get c n = Some r -> In f (leaves_of r) -> loosely f k -> allowed f k).
  { intros n' r f k I' G' If Lo. specialize (KB _ _ _ I' G' If). unfold loosely in Lo. unfold allowed.
    destruct KB as [[M [E|E]]|[M E]]; rewrite M, E in *; cbn in Lo.
    - split; [lia|]. destruct Lo. lia.
    - destruct Lo as [_ Lo]. rewrite Lo; [lia|discriminate].
    - split; [lia|exact Logic.I]. }
  destruct (C56_checked_partial L gfuel c gs p n id e fuel v G I Ti R) as [C1 C2]. split.
  - eapply document_mono; [exact HA|exact C1].
  - intros O. eapply document_mono; [exact HA|exact (C2 O)].
Qed.
Print Assumptions C14_kept_partial.

(** Non-vacuous: a schema with all three bounds and a choice, and a document with
    something extra at its end. The bounds one to unbounded are not kept. *)
Definition ex_kept : xelem := xschema [] [xelement [at_ "name" "p"] [xcomplex [xsequence
  [xtyped "a" "xs:int"; xelement ([at_ "name" "b"; at_ "type" "xs:int"] ++ occ "0" "1") [];
   xelement ([at_ "name" "c"; at_ "type" "xs:string"] ++ occ "0" "unbounded") [];
   xs "choice" [] [xtyped "d" "xs:int"; xtyped "e" "xs:int"]]]]].
Definition ex_kept_doc : xelem := el "p" [] [txt "a" "1"; txt "c" "x"; txt "c" "y"; txt "c" "z"; txt "e" "2"; txt "a" "3"].
Example C14_kept_example : kept_everywhere (ctx_of ex_kept) (Samples.names_of ex_kept)
  /\ valid_doc (ctx_of ex_kept) (Samples.names_of ex_kept) appended (leftovers appended) allowed first_text false
    (mkName "p" NsNone) ex_kept_doc
  /\ ~ kept_everywhere (ctx_of (ex_bounds "1" "unbounded")) (Samples.names_of (ex_bounds "1" "unbounded")).
Proof.
  assert (KB : kept_everywhere (ctx_of ex_kept) (Samples.names_of ex_kept)).
  { intros n r f I G If. vm_compute in I.
    destruct I as [<-|[<-|[]]]; vm_compute in G; injection G as <-; vm_compute in If; unfold kept_bounds; intuition (subst; simpl; auto). }
  split; [exact KB|]. split.
  - refine (proj2 (C14_kept_partial _ 40 (ctx_of ex_kept) (Samples.names_of ex_kept) (module_of ex_kept)
      (mkName "p" NsNone) "P" ex_kept_doc 40 _ KB _ _ _ _) _).
    + split; [by_compute|apply nodupb_NoDup; by_compute].
    + vm_compute. auto.
    + by_compute.
    + by_compute.
    + intros n r f I G If. vm_compute in I.
      destruct I as [<-|[<-|[]]]; vm_compute in G; injection G as <-; vm_compute in If; intuition (subst; reflexivity).
  - intros H. edestruct (H (mkName "p" NsNone)) as [[E _]|[_ E]]; [vm_compute; auto|vm_compute; reflexivity|vm_compute; left; reflexivity| |];
      vm_compute in E; discriminate.
Qed.
