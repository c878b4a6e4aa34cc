(** * BoundProof: occurrence bounds that the decoder enforces *)
From Verif Require Import Base Libs Xml Ast Decode Gen Run CursorSpec DecSpec RepSpec ValidSpec.

Section Mono.
Context {L : Libs}.
Variable c : schema_ctx.
Variable gs : list name.
Variable J : list xelem -> list xelem -> list xelem -> Prop.
Variable K : list xelem -> list xelem -> Prop.
Variables A A' : leaf -> nat -> Prop.
Variable T : xelem -> string -> Prop.
Variable X : bool.
Hypothesis HA : forall n r f k, In n gs -> sc_get c n = Some r -> In f (leaves_of r) -> A f k -> A' f k.

Definition known (f : leaf) : Prop := exists n r, In n gs /\ sc_get c n = Some r /\ In f (leaves_of r).

Lemma bounds_mono :
  (forall ct e l, valid_content c gs J K A T X ct e l -> valid_content c gs J K A' T X ct e l) /\
  (forall r e l, valid_type c gs J K A T X r e l -> (forall f, In f (leaves_of r) -> known f) -> valid_type c gs J K A' T X r e l) /\
  (forall o e l, valid_fields c gs J K A T X o e l ->
     (forall ls f, o = Some (EcLeaves ls) -> In f ls -> known f) -> valid_fields c gs J K A' T X o e l) /\
  (forall ls e l, valid_sequence c gs J K A T X ls e l -> (forall f, In f ls -> known f) -> valid_sequence c gs J K A' T X ls e l) /\
  (forall f e l, valid_particle c gs J K A T X f e l -> known f -> valid_particle c gs J K A' T X f e l) /\
  (forall f k e l, valid_times c gs J K A T X f k e l -> valid_times c gs J K A' T X f k e l) /\
  (forall f e l, valid_once c gs J K A T X f e l -> valid_once c gs J K A' T X f e l).
Proof.
  apply valid_ind.
  - intros. eapply va_text; eassumption.
  - intros ct m n r e l F Ty _ IH. eapply va_type; [exact F|exact Ty|]. apply IH. intros f I. exists n, r.
    destruct Ty as (I1 & G & _). auto.
  - intros d e l _ IH _. now apply vt_alias.
  - intros. eapply vt_enum; eassumption.
  - intros d e l _ IH Ha Hk. apply vt_element; [|exact Ha]. apply IH. intros ls f E I. apply Hk. simpl. now rewrite E.
  - intros d f e l I _ IH Hk. apply (vt_choice _ _ _ _ _ _ _ _ f); [exact I|]. apply IH. now apply Hk.
  - constructor.
  - intros n d e l _ IH _. now apply vf_simple.
  - intros ls e l _ IH Hk. apply vf_sequence. apply IH. intros f. now apply Hk.
  - constructor.
  - intros f fs e l1 l2 l _ IH1 _ IH2 Hj Hk. eapply vs_cons; [apply IH1, Hk; now left|apply IH2; intros; apply Hk; now right|exact Hj].
  - intros f k e l Ha _ IH (n & r & I & G & If). apply (vp _ _ _ _ _ _ _ f k); [|exact IH]. eapply HA; eassumption.
  - constructor.
  - intros. eapply vn_more; eassumption.
  - intros. now apply vo_group.
  - intros. eapply vo_element; eassumption.
Qed.
Lemma document_mono n e : valid_doc c gs J K A T X n e -> valid_doc c gs J K A' T X n e.
Proof.
  intros [m ns r x l I Q M G V Kl]. apply (vd _ _ _ _ _ _ _ m ns r x l); auto. apply bounds_mono; [exact V|]. intros f If. exists m, r. auto.
Qed.
End Mono.
