(** * LexProof: the built-in types against XML Schema *)
From Verif Require Import Base Libs Xml Ast XsdNode Parse Decode Writer Gen Run TextSpec NumProof LitSpec GenProof2 LexSpec.

Lemma padded_self s : padded s s.
Proof. exists "", "". rewrite app_s_nil_r. repeat split; constructor. Qed.
Lemma unpadded_same s t : unpadded s -> padded s t -> t = s.
Proof. intros U P. destruct (string_dec t s) as [E|N]; [exact E|]. exfalso. exact (U t P N). Qed.
Lemma integer_signed s z : integer_form s z <-> signed_text s z.
Proof. split; intros []; now constructor. Qed.
Lemma unsigned_signed s n : unsigned_text s n -> signed_text s (Z.of_N n).
Proof. intros []; now constructor. Qed.
Lemma signed_unsigned s z : signed_text s z -> (forall r, s <> String "-" r) -> unsigned_text s (Z.to_N z) /\ (0 <= z)%Z.
Proof.
  intros H N. destruct H as [s n D|s n D|s n D].
  - rewrite N2Z.id. split; [now constructor|lia].
  - rewrite N2Z.id. split; [now constructor|lia].
  - now elim (N s).
Qed.

Section WithLibs.
Context {L : Libs}.

Lemma covered_cases t : In t covered -> exists l, literal_from_str t = Some l /\ modelled_prim (lit_prim l) = true.
Proof. intros H. repeat (destruct H as [<-|H]; [eexists; split; reflexivity|]). destruct H. Qed.

Lemma accepted_meaning t l s v : In t covered -> literal_from_str t = Some l -> lit_from_str l s = Ok v ->
  xsd_denotes t s v \/ (t = "positiveInteger" /\ v = VInt 0).
Proof.
  intros C El E. assert (M : modelled_prim (lit_prim l) = true).
  { destruct (covered_cases t C) as (l' & E' & M). congruence. }
  apply (proj1 (lit_accepts l s M) v) in E. destruct E as [D I].
  assert (Pd := padded_self s).
  repeat (destruct C as [<-|C]; [injection El as <-; simpl in D, I; destruct v; try contradiction|]); [..|destruct C].
  - subst. left. constructor.
  - left. apply (xd_boolean _ s); [exact Pd|]. subst s. destruct b; constructor.
  - left. eapply xd_integer; [constructor|exact Pd|now apply integer_signed|exact Logic.I].
  - left. eapply xd_integer; [constructor|exact Pd|now apply integer_signed|simpl; lia].
  - left. eapply xd_integer; [constructor|exact Pd|now apply integer_signed|simpl; lia].
  - left. apply unsigned_signed in D. rewrite Z2N.id in D by lia.
    eapply xd_integer; [constructor|exact Pd|now apply integer_signed|simpl; lia].
  - apply unsigned_signed in D. rewrite Z2N.id in D by lia. destruct (Z.eq_dec z 0) as [->|N]; [auto|].
    left. eapply xd_integer; [constructor|exact Pd|now apply integer_signed|simpl; lia].
Qed.

Lemma meaning_accepted t l s v : literal_from_str t = Some l -> xsd_denotes t s v -> representable t v -> rust_spelling t s ->
  lit_from_str l s = Ok v.
Proof.
  intros El D R S. destruct D as [s|s u b P B|t T s u z It P F Pz].
  - injection El as <-. reflexivity.
  - destruct S as [S|(U & Nb & _)]; [discriminate|]. apply (unpadded_same s) in P; [|exact U]. subst u.
    injection El as <-. destruct (Nb eq_refl) as [N1 N0]. destruct B; try reflexivity; contradiction.
  - destruct S as [S|(U & _ & Nm)]; [subst t; inversion It|]. apply (unpadded_same s) in P; [|exact U]. subst u.
    apply integer_signed in F.
    destruct It; injection El as <-; unfold representable in R; cbn [String.eqb Ascii.eqb Bool.eqb orb] in R;
      match goal with |- lit_from_str ?k _ = _ => apply (proj1 (lit_accepts k s eq_refl)) end; simpl in R |- *;
      (split; [|lia]); try assumption; (apply signed_unsigned; [exact F|]; apply Nm; auto).
Qed.

Lemma written_form t l v : In t covered -> literal_from_str t = Some l -> in_prim (lit_prim l) v ->
  exists s, value_to_string v = Some s /\ (xsd_denotes t s v \/ (t = "positiveInteger" /\ v = VInt 0)).
Proof.
  intros C El I. destruct (lit_roundtrip l v I) as (s & E & D). exists s. split; [exact E|]. eapply accepted_meaning; eassumption.
Qed.
End WithLibs.
