(** * EmitProof: the emitted declarations read back (C61) *)
From Verif Require Import Base Libs Xml Ast Gen GenProof1 RustSpec Emit EmitSpec.

Fixpoint ty_of (t : rty) : ty :=
  match t with
  | TPrim PString => TyPath ["String"] []
  | TPrim PBool => TyPath ["bool"] []
  | TPrim PI64 => TyPath ["i64"] []
  | TPrim PU64 => TyPath ["u64"] []
  | TPrim PI32 => TyPath ["i32"] []
  | TPrim PDecimal => TyPath ["rust_decimal"; "Decimal"] []
  | TPrim PF32 => TyPath ["f32"] []
  | TUnit => TyUnit
  | TRef id => TyPath [id] []
  | TVec t => TyPath ["Vec"] [ty_of t]
  | TOpt t => TyPath ["Option"] [ty_of t]
  end.
(** The types mentioned are named by identifiers which nothing else is called. *)
Fixpoint named_well (t : rty) : Prop :=
  match t with
  | TRef id => keyword id = false /\ ~ In id (primitive_names ++ prelude_types)
  | TVec t | TOpt t => named_well t
  | _ => True
  end.
Lemma ty_of_denotes t : named_well t -> denotes (ty_of t) t.
Proof. induction t as [[]| | | |]; simpl; intros W; try (constructor; tauto); constructor; auto. Qed.

Lemma keyword_plain s : plain_ident s -> keyword s = false.
Proof.
  unfold plain_ident, keyword. intros H. destruct (existsb _ _) eqn:E; [|reflexivity].
  apply existsb_exists in E. destruct E as (x & Hx & E). apply String.eqb_eq in E. subst. contradiction.
Qed.

(** What follows a type. *)
Definition stops (r : list tok) : bool :=
  match r with
  | [] => true
  | Pu p :: _ => negb ((p =?s "<") || (p =?s "::"))
  | _ => false
  end.

Lemma path_one fuel s r : keyword s = false -> stops r = true \/ (exists r', r = Pu "<" :: r') ->
  path (S fuel) (Id s :: r) = Some ([s], r).
Proof.
  intros K H. simpl. rewrite K. destruct r as [|[| p | | |] r]; try (destruct H as [H|[r' H]]; discriminate); [reflexivity|].
  destruct (p =?s "::") eqn:E; [|reflexivity].
  destruct H as [H|[r' H]].
  - simpl in H. rewrite E, orb_true_r in H. discriminate.
  - injection H as -> _. discriminate.
Qed.

Lemma ty_path fuel s r : keyword s = false -> stops r = true -> ty_at (S fuel) (Id s :: r) = Some (TyPath [s] [], r).
Proof.
  intros K H. cbn [ty_at]. rewrite path_one by auto.
  destruct r as [|[| p | | |] r]; try discriminate; [reflexivity|].
  simpl in H. destruct (p =?s "<"); [discriminate|reflexivity].
Qed.

Lemma ty_generic fuel s ts t r : keyword s = false ->
  ty_at fuel (ts ++ Pu ">" :: r) = Some (t, Pu ">" :: r) ->
  ty_at (S (S fuel)) (Id s :: Pu "<" :: ts ++ Pu ">" :: r) = Some (TyPath [s] [t], r).
Proof.
  intros K H. remember (S fuel) as f1 eqn:E1. cbn [ty_at]. rewrite path_one by eauto.
  change ("<" =?s "<")%string with true. cbv iota. subst f1. cbn [tys_at]. rewrite H. reflexivity.
Qed.

Lemma ty_reads t : forall fuel r, named_well t -> length (rty_tokens t) <= fuel -> stops r = true ->
  ty_at fuel (rty_tokens t ++ r) = Some (ty_of t, r).
Proof.
  induction t as [p| |id|t IH|t IH]; intros fuel r W L S.
  - destruct fuel as [|fuel]; [destruct p; simpl in L; lia|].
    destruct p; try (apply ty_path; [reflexivity|exact S]).
    destruct fuel as [|fuel]; [simpl in L; lia|]. simpl.
    destruct r as [|[| p | | |] r]; try discriminate; [reflexivity|].
    simpl in S. apply negb_true_iff, orb_false_iff in S. destruct S as [S1 S2]. rewrite S2, S1. reflexivity.
  - destruct fuel as [|fuel]; [simpl in L; lia|]. reflexivity.
  - destruct fuel as [|fuel]; [simpl in L; lia|]. apply ty_path; [apply W|exact S].
  - cbn [rty_tokens ty_of] in *. rewrite !app_length in L. simpl in L.
    destruct fuel as [|[|fuel]]; try lia. rewrite <- !app_assoc. cbn [app].
    apply ty_generic; [reflexivity|]. apply IH; [exact W|lia|reflexivity].
  - cbn [rty_tokens ty_of] in *. rewrite !app_length in L. simpl in L.
    destruct fuel as [|[|fuel]]; try lia. rewrite <- !app_assoc. cbn [app].
    apply ty_generic; [reflexivity|]. apply IH; [exact W|lia|reflexivity].
Qed.

Lemma attrs_doc docs r : attributes (doc_tokens docs ++ r) =
  match attributes r with Some (ds, dr, r') => Some (doc_comment docs ++ ds, dr, r') | None => None end.
Proof.
  destruct docs as [s|]; simpl.
  - destruct s as [|a s]; simpl; destruct (attributes r) as [[[ds dr] r']|]; reflexivity.
  - destruct (attributes r) as [[[ds dr] r']|]; reflexivity.
Qed.

Lemma field_reads docs f r : named_well (snd f) -> keyword (fst f) = false -> stops r = true ->
  struct_field (doc_tokens docs ++ Id "pub" :: Id (fst f) :: Pu ":" :: rty_tokens (snd f) ++ r)
  = Some (mkField (doc_comment docs) true (fst f) (ty_of (snd f)), r).
Proof.
  intros W K S. unfold struct_field. rewrite attrs_doc. cbn [attributes]. rewrite app_nil_r.
  cbn [vis]. change ("pub" =?s "pub")%string with true. cbv iota. cbn [ident]. rewrite K.
  change (":" =?s ":")%string with true. cbv iota.
  rewrite ty_reads; [reflexivity|exact W|rewrite app_length; lia|exact S].
Qed.

Definition read_field (x : option string * (string * rty)) : field :=
  mkField (doc_comment (fst x)) true (fst (snd x)) (ty_of (snd (snd x))).
Lemma comma_fields l : forall fuel, Forall (fun x => named_well (snd (snd x)) /\ keyword (fst (snd x)) = false) l ->
  length (concat (map (fun x => field_tokens (fst x) (snd x)) l)) <= fuel ->
  comma_list struct_field fuel (concat (map (fun x => field_tokens (fst x) (snd x)) l)) = Some (map read_field l).
Proof.
  induction l as [|x l IH]; intros fuel H L; [destruct fuel; reflexivity|].
  inversion H as [|? ? [W K] Hl]; subst. cbn [map concat] in *.
  set (rest := concat (map (fun x => field_tokens (fst x) (snd x)) l)) in *.
  assert (E : field_tokens (fst x) (snd x) ++ rest
    = doc_tokens (fst x) ++ Id "pub" :: Id (fst (snd x)) :: Pu ":" :: rty_tokens (snd (snd x)) ++ Pu "," :: rest)
    by (unfold field_tokens; rewrite <- !app_assoc; reflexivity).
  rewrite E in *. rewrite !app_length in L. simpl in L. rewrite app_length in L. simpl in L.
  destruct fuel as [|fuel]; [lia|].
  assert (R := field_reads (fst x) (snd x) (Pu "," :: rest) W K eq_refl).
  set (ts := doc_tokens (fst x) ++ _) in *.
  assert (N : ts <> []) by (unfold ts; destruct (doc_tokens (fst x)); discriminate).
  cbn [comma_list]. destruct ts as [|t0 ts]; [contradiction|]. rewrite R.
  change ("," =?s ",")%string with true. cbv iota. rewrite IH; [reflexivity|exact Hl|lia].
Qed.

Lemma comma_units vs : forall fuel, Forall (fun v : string * string => keyword (fst v) = false) vs ->
  length (flat_map (fun v : string * string => [Id (fst v); Pu ","]) vs) <= fuel ->
  comma_list enum_variant fuel (flat_map (fun v : string * string => [Id (fst v); Pu ","]) vs)
  = Some (map (fun v => mkVariant [] (fst v) []) vs).
Proof.
  induction vs as [|v vs IH]; intros fuel H L; [destruct fuel; reflexivity|].
  inversion H as [|? ? K Hl]; subst. simpl in L. destruct fuel as [|fuel]; [lia|].
  cbn [flat_map app comma_list]. unfold enum_variant at 1. cbn [attributes ident]. rewrite K.
  change ("," =?s ",")%string with true. cbv iota. rewrite IH; [reflexivity|exact Hl|lia].
Qed.

Lemma comma_variants vs : forall fuel, Forall (fun v => named_well (snd v) /\ keyword (fst v) = false) vs ->
  length (flat_map variant_tokens vs) <= fuel ->
  comma_list enum_variant fuel (flat_map variant_tokens vs) = Some (map (fun v => mkVariant [] (fst v) [ty_of (snd v)]) vs).
Proof.
  induction vs as [|v vs IH]; intros fuel H L; [destruct fuel; reflexivity|].
  inversion H as [|? ? [W K] Hl]; subst. simpl in L. destruct fuel as [|fuel]; [lia|].
  cbn [flat_map variant_tokens app comma_list]. unfold enum_variant at 1. cbn [attributes ident]. rewrite K.
  change ("(" =?s "(")%string with true. cbv iota.
  assert (R := ty_reads (snd v) (length (rty_tokens (snd v))) [] W (le_n _) eq_refl). rewrite app_nil_r in R.
  assert (N : rty_tokens (snd v) <> []) by (destruct (snd v) as [[]| | | |]; discriminate).
  assert (C : comma_list (fun ts => ty_at (length ts) ts) (length (rty_tokens (snd v))) (rty_tokens (snd v)) = Some [ty_of (snd v)]).
  { remember (rty_tokens (snd v)) as ts. destruct ts as [|t0 ts]; [contradiction|].
    cbn [length comma_list]. change (S (length ts)) with (length (t0 :: ts)). rewrite R. reflexivity. }
  rewrite C. change ("," =?s ",")%string with true. cbv iota. rewrite IH; [reflexivity|exact Hl|lia].
Qed.

Lemma tuple_reads t : named_well t ->
  comma_list tuple_field (length (Id "pub" :: rty_tokens t)) (Id "pub" :: rty_tokens t) = Some [(true, ty_of t)].
Proof.
  intros W. cbn [length comma_list]. unfold tuple_field. cbn [vis]. change ("pub" =?s "pub")%string with true. cbv iota.
  assert (R := ty_reads t (length (rty_tokens t)) [] W (le_n _) eq_refl). rewrite app_nil_r in R. rewrite R. reflexivity.
Qed.

Definition kind_of (r : root) : string := match r with RootEnum _ | RootChoice _ => "enum" | _ => "struct" end.
(** The outer part of an item. *)
Lemma item_header r id rest : keyword id = false ->
  attributes (doc_tokens (root_docs r)
    ++ [Pu "#"; Gr "[" [Id "derive"; Gr "(" [Id "Debug"; Pu ","; Id "Clone"; Pu ","; Id "PartialEq"]]]
    ++ [Pu "#"; Gr "[" [Id "allow"; Gr "(" [Id "clippy"; Pu "::"; Id "derive_partial_eq_without_eq"]]]
    ++ [Id "pub"; Id (kind_of r); Id id] ++ rest)
  = Some (type_docs r, ["Debug"; "Clone"; "PartialEq"], Id "pub" :: Id (kind_of r) :: Id id :: rest).
Proof.
  intros K. rewrite attrs_doc. cbn. rewrite app_nil_r. destruct r; reflexivity.
Qed.

Definition members_well (d : decl) : Prop :=
  match d with
  | DTuple t _ => named_well t
  | DEnum vs => Forall (fun v => keyword (fst v) = false) vs
  | DStruct fs | DChoice fs => Forall (fun v => named_well (snd v) /\ keyword (fst v) = false) fs
  end.
(** [d] is a declaration for [r]. *)
Definition matches (r : root) (d : decl) : Prop :=
  match r, d with
  | RootLeaf _, DTuple _ _ | RootEnum _, DEnum _ | RootChoice _, DChoice _ => True
  | RootElement e, DStruct fs => length (field_docs e) = length fs
  | _, _ => False
  end.

Lemma field_docs_spec e : map doc_comment (field_docs e) = fields_docs (RootElement e).
Proof.
  unfold field_docs, fields_docs, content_docs. rewrite map_app, map_map. f_equal.
  destruct (ed_content e) as [[n d|ls]|]; simpl; rewrite ?map_map; reflexivity.
Qed.

Lemma combine_fst {A B} (l : list A) (m : list B) : length l = length m -> map fst (combine l m) = l.
Proof. revert m. induction l as [|a l IH]; intros [|b m] E; try discriminate; [reflexivity|]. simpl. f_equal. apply IH. simpl in E. lia. Qed.
Lemma combine_snd {A B} (l : list A) (m : list B) : length l = length m -> map snd (combine l m) = m.
Proof. revert m. induction l as [|a l IH]; intros [|b m] E; try discriminate; [reflexivity|]. simpl. f_equal. apply IH. simpl in E. lia. Qed.

Lemma Forall2_map_l {A B} (R : B -> A -> Prop) (f : A -> B) l : Forall (fun a => R (f a) a) l -> Forall2 R (map f l) l.
Proof. induction 1; simpl; constructor; auto. Qed.
Lemma item_reads r t : matches r (ti_decl t) -> members_well (ti_decl t) -> keyword (ti_id t) = false ->
  reads_as (item_tokens r t) r t.
Proof.
  intros M W K. unfold reads_as, item_tokens, type_item_of. fold (kind_of r). rewrite item_header by exact K.
  cbn [vis]. change ("pub" =?s "pub")%string with true. cbv iota. cbn [ident]. rewrite K.
  destruct r as [d|names|e|ch], (ti_decl t) as [u b|vs|fs|vs]; try contradiction; cbn [kind_of declaration_tokens].
  - exists (ShTuple [(true, ty_of u)]). split; [|constructor; now apply ty_of_denotes].
    change ("(" =?s "(")%string with true. change (";" =?s ";")%string with true. change ("struct" =?s "struct")%string with true.
    cbn [andb]. cbv iota. rewrite tuple_reads by exact W. reflexivity.
  - exists (ShEnum (map (fun v => mkVariant [] (fst v) []) vs)). split.
    + change (negb ("{" =?s "{"))%string with false. change ("enum" =?s "struct")%string with false. change ("enum" =?s "enum")%string with true.
      cbv iota. rewrite comma_units by (auto || lia). reflexivity.
    + constructor. apply Forall2_map_l. apply Forall_forall. intros v _. simpl. auto.
  - cbn [matches] in M. set (l := combine (field_docs e) fs).
    exists (ShStruct (map read_field l)). split.
    + change (negb ("{" =?s "{"))%string with false. change ("struct" =?s "struct")%string with true. cbv iota.
      rewrite comma_fields; [reflexivity| |lia].
      apply Forall_forall. intros x Hx. cbn in W. rewrite Forall_forall in W.
      destruct x as [dd f]. apply in_combine_r in Hx. apply (W _ Hx).
    + constructor.
      * rewrite <- (combine_snd _ _ M). fold l. cbn in W.
        assert (W' : Forall (fun x => named_well (snd (snd x))) l).
        { apply Forall_forall. intros [dd f] Hx. apply in_combine_r in Hx. rewrite Forall_forall in W. apply (W _ Hx). }
        clear - W'. induction l as [|x l IH]; simpl; [constructor|]. inversion W'; subst. constructor; [|auto].
        simpl. repeat split. now apply ty_of_denotes.
      * rewrite map_map. cbn [read_field fd_docs].
        rewrite <- (map_map (@fst (option string) (string * rty)) doc_comment). unfold l. rewrite combine_fst by exact M.
        apply field_docs_spec.
  - exists (ShEnum (map (fun v => mkVariant [] (fst v) [ty_of (snd v)]) vs)). split.
    + change (negb ("{" =?s "{"))%string with false. change ("enum" =?s "struct")%string with false. change ("enum" =?s "enum")%string with true.
      cbv iota. rewrite comma_variants by (auto || lia). reflexivity.
    + constructor. apply Forall2_map_l. eapply Forall_impl; [|exact W]. intros v [Wv _]. simpl. split; [reflexivity|]. split; [|reflexivity].
      eexists. split; [reflexivity|]. now apply ty_of_denotes.
Qed.

(** ** Generated modules *)
Section Gen.
Context {L : Libs}.
Lemma mapM_length {E A B} (f : A -> res E B) l r : mapM f l = Ok r -> length r = length l.
Proof. intros H. apply mapM_ok in H. induction H; simpl; congruence. Qed.

Lemma declaration_matches fuel c r d : root_to_declaration fuel c r = Ok d -> matches r d.
Proof.
  destruct r as [l|names|e|ch]; cbn [root_to_declaration].
  - destruct (def_to_impl fuel c l); try discriminate. intros [= <-]. exact I.
  - destruct (enum_variants names); try discriminate. intros [= <-]. exact I.
  - unfold element_to_impl. cbn [matches]. destruct (ed_content e) as [[n def|ls]|] eqn:EC; cbn [bind].
    + destruct (field_ident n); try discriminate. cbn. destruct (def_to_impl fuel c def); try discriminate. cbn.
      destruct (mapM (attr_to_impl fuel c) (ed_attributes e)) eqn:E; try discriminate. intros [= <-]. cbn [matches].
      apply mapM_length in E. unfold field_docs. rewrite EC, !app_length, !map_length. simpl. rewrite ?map_length. lia.
    + destruct (mapM (leaf_to_impl fuel c) ls) eqn:E1; try discriminate. cbn.
      destruct (mapM (attr_to_impl fuel c) (ed_attributes e)) eqn:E; try discriminate. intros [= <-]. cbn [matches].
      apply mapM_length in E, E1. unfold field_docs. rewrite EC, !app_length, !map_length. simpl. rewrite ?map_length. lia.
    + destruct (mapM (attr_to_impl fuel c) (ed_attributes e)) eqn:E; try discriminate. intros [= <-]. cbn [matches].
      apply mapM_length in E. unfold field_docs. rewrite EC, !app_length, !map_length. simpl. rewrite ?map_length. lia.
  - destruct (mapM _ (cd_variants ch)); try discriminate. intros [= <-]. exact I.
Qed.

Lemma type_ok_well p t : Forall item_name_ok p -> Forall (fun t => ~ In (ti_id t) primitive_names) p ->
  type_ok p t -> named_well t.
Proof.
  intros Hn Hp. induction 1 as [| |id Hd| |]; cbn [named_well]; auto.
  unfold defined in Hd. apply in_map_iff in Hd. destruct Hd as (t & <- & Ht).
  rewrite Forall_forall in Hn, Hp. specialize (Hn _ Ht) as (P1 & P2 & _). split; [now apply keyword_plain|].
  rewrite in_app_iff. intros [H|H]; [now apply (Hp _ Ht)|contradiction].
Qed.

Lemma members_ok_well p fs : Forall item_name_ok p -> Forall (fun t => ~ In (ti_id t) primitive_names) p ->
  members_ok p fs -> Forall (fun v => named_well (snd v) /\ keyword (fst v) = false) fs.
Proof.
  intros Hn Hp (_ & K & T). rewrite Forall_map in K, T. rewrite Forall_forall in *. intros v Hv. split.
  - eapply type_ok_well; [| |now apply T]; now apply Forall_forall.
  - now apply keyword_plain, K.
Qed.

Lemma decl_ok_well p d : Forall item_name_ok p -> Forall (fun t => ~ In (ti_id t) primitive_names) p ->
  decl_ok p d -> members_well d.
Proof.
  intros Hn Hp. destruct 1 as [t b T _|vs _ _ K|fs M|vs _ M]; simpl.
  - eapply type_ok_well; eauto.
  - rewrite Forall_map in K. eapply Forall_impl; [|exact K]. intros v. apply keyword_plain.
  - eapply members_ok_well; eauto.
  - eapply members_ok_well; eauto.
Qed.

Lemma module_reads fuel c gs p : mapM (generate_element fuel c) gs = Ok p -> decls_ok p ->
  Forall (fun t => ~ In (ti_id t) primitive_names) p ->
  Forall2 (fun n t => exists r, sc_get c n = Some r /\ reads_as (item_tokens r t) r t /\ matches r (ti_decl t)) gs p.
Proof.
  intros G [_ Hn Hd _] Hp. apply mapM_ok in G.
  assert (D : Forall (fun t => members_well (ti_decl t) /\ keyword (ti_id t) = false) p).
  { rewrite Forall_forall in *. intros t Ht. split.
    - eapply decl_ok_well; [| |now apply Hd]; now apply Forall_forall.
    - apply keyword_plain. apply (Hn _ Ht). }
  clear Hn Hd Hp. induction G as [|n t gs p G _ IH]; [constructor|]. inversion D as [|? ? [W K] Dl]; subst. constructor; [|auto].
  unfold generate_element in G. destruct (sc_get c n) as [r|]; [|discriminate]. exists r. split; [reflexivity|].
  destruct (type_ident n) as [id| | |]; try discriminate. cbn [bind] in G.
  destruct (root_to_declaration fuel c r) as [d| | |] eqn:E; try discriminate. cbn [bind] in G.
  destruct (root_to_xml fuel c r); try discriminate. cbn [bind] in G.
  destruct (xml_name_of c n); try discriminate. cbn [bind] in G.
  destruct (element_nss c); try discriminate. cbn [bind] in G.
  destruct (xml_ns_of c n); try discriminate. cbn [bind] in G.
  destruct (root_from_xml fuel c r); try discriminate. cbn [bind] in G.
  destruct (root_lookahead c r); try discriminate. cbn [bind] in G.
  injection G as <-. apply declaration_matches in E. split; [now apply item_reads|exact E].
Qed.
End Gen.
