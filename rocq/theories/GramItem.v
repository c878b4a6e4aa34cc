(** * GramItem: the tokens of a generated module read as its types and functions (C70) *)
From Verif Require Import Base Libs Xml Ast Gen Run Emit Quote Impl Rust Body RustSpec EmitSpec EmitProof GramSpec GramRules GramProof GramRead GramWrite.
From Coq Require Import Lia.

(** ** Functions *)
Definition head (n : nat) (ts : list tok)
  : option (bool * string * list (string * option pty) * list (string * pty) * option pty * list tok * list tok) :=
  let '(pub, ts) := vis ts in
  let* r := eat (is_id "fn") ts in
  let* (f, r) := ident r in
  let* (gs, r) := match eat (is_pu "<") r with Some r => generics_at n r | None => Some ([], r) end in
  match r with
  | Gr o ps :: r =>
      if o =?s "(" then
        let* ps := comma_list (param_at n) n ps in
        let* (t, r) := match eat (is_pu "->") r with
                       | Some r => let* (t, r) := pty_at n r in Some (Some t, r)
                       | None => Some (None, r)
                       end in
        match r with
        | Gr o b :: r => if o =?s "{" then Some (pub, f, gs, ps, t, b, r) else None
        | _ => None
        end
      else None
  | _ => None
  end.
Lemma head_fn n self ts : fn_at n self ts =
  match head n ts with
  | Some (pub, f, gs, ps, t, b, r) =>
      match body_of n (mkScope self (rev (map fst ps)) []) b with Some e => Some (mkPfn pub f gs ps t e, r) | None => None end
  | None => None
  end.
Proof.
  unfold fn_at, head. destruct (vis ts) as [pub ts']. destruct (eat (is_id "fn") ts') as [r|]; [|reflexivity].
  destruct (ident r) as [[f r1]|]; [|reflexivity].
  destruct (match eat (is_pu "<") r1 with Some r => generics_at n r | None => Some ([], r1) end) as [[gs r2]|]; [|reflexivity].
  destruct r2 as [|[| | | |o ps] r3]; try reflexivity. destruct (o =?s "("); [|reflexivity].
  destruct (comma_list (param_at n) n ps) as [ps'|]; [|reflexivity].
  destruct (match eat (is_pu "->") r3 with Some r => let* (t, r) := pty_at n r in Some (Some t, r) | None => Some (None, r3) end) as [[t r4]|]; [|reflexivity].
  destruct r4 as [|[| | | |o' b] r5]; try reflexivity. destruct (o' =?s "{"); reflexivity.
Qed.
Definition Np (self : string) (ts : list tok) (f : pfn) (r : list tok) : Prop := enough (fun n => fn_at n self ts) (f, r).
Lemma N_fn self ts pub f gs ps t b r l e : (forall n, head (30 + n) ts = Some (pub, f, gs, ps, t, b, r)) ->
  Tp (sc self (rev (map fst ps))) b l e -> Np self ts (mkPfn pub f gs ps t (EBlock l e)) r.
Proof.
  intros H T. apply T_enough in T as [k T]. exists (30 + k). intros n Hn. rewrite head_fn.
  replace n with (30 + (n - 30)) by lia. rewrite H. unfold body_of. fold (sc self (rev (map fst ps))). rewrite T by lia. reflexivity.
Qed.
(** ** Members *)
Definition Ip (self : string) (ts : list tok) tys fs : Prop := enough (fun n => members n self ts) (tys, fs).
Lemma I_nil self : Ip self [] [] [].
Proof. exists 1. intros [|n] H; [lia|reflexivity]. Qed.
Lemma I_fn self ts f r tys fs : ts <> [] -> eat (is_id "type") ts = None -> Np self ts f r -> Ip self r tys fs -> Ip self ts tys (f :: fs).
Proof.
  intros N E [k F] [k' I]. exists (S (k + k')). intros [|n] H; [lia|]. cbn [members]. destruct ts; [contradiction|].
  rewrite E, F, I by lia. reflexivity.
Qed.
Lemma I_type self r x r1 r2 t r3 r4 tys fs : ident r = Some (x, r1) -> eat (is_pu "=") r1 = Some r2 -> (forall n, pty_at (30 + n) r2 = Some (t, r3)) ->
  eat (is_pu ";") r3 = Some r4 -> Ip self r4 tys fs -> Ip self (Id "type" :: r) ((x, t) :: tys) fs.
Proof.
  intros E1 E2 E3 E4 [k I]. exists (S (30 + k)). intros [|n] H; [lia|]. cbn [members eat is_id String.eqb Ascii.eqb Bool.eqb].
  rewrite E1, E2. replace n with (30 + (n - 30)) by lia. rewrite E3, E4, I by lia. reflexivity.
Qed.
Definition Zp (ts : list tok) (i : pimpl) (r : list tok) : Prop := enough (fun n => impl_at n ts) (i, r).
Lemma Z_own x b r tys fs : keyword x = false -> Ip x b tys fs -> Zp (Id "impl" :: Id x :: Gr "{" b :: r) (mkPimpl None x tys fs) r.
Proof.
  intros K [k I]. exists k. intros n H. unfold impl_at. cbn [eat is_id String.eqb Ascii.eqb Bool.eqb].
  unfold path_at. cbn [eat is_pu length segs_at]. unfold segment. rewrite K. cbn [negb orb eat is_id is_pu]. cbn [String.eqb Ascii.eqb Bool.eqb].
  rewrite I by lia. reflexivity.
Qed.
Lemma Z_trait p l x b r tys fs : path_at (p ++ Id "for" :: Id x :: Gr "{" b :: r) = Some (l, Id "for" :: Id x :: Gr "{" b :: r) ->
  keyword x = false -> Ip x b tys fs -> Zp (Id "impl" :: p ++ Id "for" :: Id x :: Gr "{" b :: r) (mkPimpl (Some l) x tys fs) r.
Proof.
  intros E K [k I]. exists k. intros n H. unfold impl_at. cbn [eat is_id String.eqb Ascii.eqb Bool.eqb]. rewrite E.
  cbn [eat is_id String.eqb Ascii.eqb Bool.eqb ident]. rewrite K. cbn [eat is_id String.eqb Ascii.eqb Bool.eqb]. rewrite I by lia. reflexivity.
Qed.
Definition Gp (ts : list tok) (l : list pitem) : Prop := enough (fun n => file n ts) l.
Lemma G_nil : Gp [] [].
Proof. exists 1. intros [|n] H; [lia|reflexivity]. Qed.
Lemma G_impl ts i r l : Zp (Id "impl" :: ts) i r -> Gp r l -> Gp (Id "impl" :: ts) (IImpl i :: l).
Proof.
  intros [k Z] [k' G]. exists (S (k + k')). intros [|n] H; [lia|]. cbn [file]. cbn [eat is_id String.eqb Ascii.eqb Bool.eqb]. rewrite Z, G by lia. reflexivity.
Qed.
Lemma G_type ts a r y l : ts <> [] -> eat (is_id "impl") ts = None -> cut ts = (a, r) -> type_item_of a = Some y -> Gp r l -> Gp ts (IType y :: l).
Proof.
  intros N E C Y [k G]. exists (S k). intros [|n] H; [lia|]. cbn [file]. destruct ts; [contradiction|]. rewrite E, C, Y, G by lia. reflexivity.
Qed.

(** ** Conversions *)
Lemma reading_s self : in_scope "s" (sc self ["s"]) = true.
Proof. reflexivity. Qed.
Lemma tuple_from_str_T id ty : name_ok id -> (id =?s "s") = false ->
  Tp (sc id ["s"]) (quote "Ok(#root_name(::std::str::FromStr::from_str(s).map_err(|err| {
                   ::xsd::decode::FromXmlError::ParseType {
                     type_: #type_.to_string(),
                     value: s.to_string(),
                     err: Box::new(err),
                   }
                 })?))" [("root_name", idn id); ("type_", lit id)]) [] (untyped (tuple_from_str_code id ty)).
Proof. intros (N1 & N2 & N3) N4. tokens. eapply T_eq; [parse|reflexivity|reflexivity]. Qed.
Lemma tuple_fmt_T id ty : Tp (sc id ["f"; "self"]) (quote "self.0.fmt(f)" []) [] (untyped (tuple_fmt_code ty)).
Proof. tokens. eapply T_eq; [parse|reflexivity|]. unfold tuple_fmt_code. destruct ty; reflexivity. Qed.
Definition from_str_variant (id : string) (d : string * string) : list tok :=
  quote "#name_xml => #root_name::#variant" [("name_xml", lit (snd d)); ("root_name", idn id); ("variant", idn (fst d))].
Definition as_str_variant (id : string) (d : string * string) : list tok :=
  quote "#root_name::#variant => #name_xml" [("name_xml", lit (snd d)); ("root_name", idn id); ("variant", idn (fst d))].
Lemma from_str_M c id vs ts l : name_ok id -> sc_uses c = [] -> Forall (fun d => keyword (fst d) = false) vs -> Mp c ts l -> 
  Mp c (flat_map (fun d => from_str_variant id d ++ [Pu ","]) vs ++ ts)
    (map (fun a => (fst a, untyped (snd a))) (map (fun d => (PLit (snd d), EPath (PAssoc id (fst d)))) vs) ++ l).
Proof.
  intros (N1 & N2 & N3) U H M. induction H as [|[x s] vs K H IH]; [exact M|].
  cbn [flat_map map app fst snd untyped] in *. rewrite <- !app_assoc. unfold from_str_variant at 1. cbn [fst snd]. tokens.
  eapply M_expr; [discriminate|reflexivity|reflexivity|side|parse|reflexivity|exact IH].
Qed.
Lemma as_str_M c id vs : keyword id = false -> sc_self c = id -> Forall (fun d => keyword (fst d) = false) vs ->
  Mp c (flat_map (fun d => as_str_variant id d ++ [Pu ","]) vs)
    (map (fun a => (fst a, untyped (snd a))) (map (fun d => (PUnit (fst d), EStr (snd d))) vs)).
Proof.
  intros N1 U H. induction H as [|[x s] vs K H IH]; [apply M_nil|].
  cbn [flat_map map app fst snd untyped] in *. rewrite <- !app_assoc. unfold as_str_variant at 1. cbn [fst snd]. tokens.
  subst id. eapply M_expr; [discriminate|side|reflexivity|reflexivity|parse|reflexivity|exact IH].
Qed.
Lemma enum_from_str_T id vs : name_ok id -> Forall (fun d => keyword (fst d) = false) vs ->
  Tp (sc id ["s"]) (quote "Ok(match s {
                   #(#from_str_variants,)*
                   _ => return Err(::xsd::decode::FromXmlError::InvalidVariant {
                     name: s.to_string(),
                   })
                 })" [("from_str_variants", Each (map (from_str_variant id) vs))]) [] (untyped (enum_from_str_code id vs)).
Proof.
  intros N H. tokens.
  replace (flat_map _ _) with (flat_map (fun d => from_str_variant id d ++ [Pu ","]) vs) by (rewrite !flat_map_concat_map, map_map; reflexivity).
  match goal with |- context [_ ++ ?ts] => eassert (L : Mp (sc id ["s"]) ts _) end.
  { eapply M_last; [discriminate|reflexivity|reflexivity|reflexivity|parse]. }
  pose proof (from_str_M (sc id ["s"]) id vs _ _ N eq_refl H L) as M.
  eapply T_eq; [parse|reflexivity|]. unfold enum_from_str_code. cbn [untyped map]. rewrite map_app. reflexivity.
Qed.
Lemma enum_as_str_T id vs : keyword id = false -> Forall (fun d => keyword (fst d) = false) vs ->
  Tp (sc id ["self"]) (quote "match self {
                   #(#as_str_variants,)*
                 }" [("as_str_variants", Each (map (as_str_variant id) vs))]) [] (untyped (enum_as_str_code vs)).
Proof.
  intros N H. tokens.
  replace (flat_map _ _) with (flat_map (fun d => as_str_variant id d ++ [Pu ","]) vs) by (rewrite !flat_map_concat_map, map_map; reflexivity).
  pose proof (as_str_M (sc id ["self"]) id vs N eq_refl H) as M.
  eapply T_eq; [parse|reflexivity|reflexivity].
Qed.
Lemma enum_fmt_T id : Tp (sc id ["f"; "self"]) (quote "f.write_str(self.as_str())" []) [] (untyped (enum_fmt_code id)).
Proof. tokens. eapply T_eq; [parse|reflexivity|reflexivity]. Qed.

(** ** Implementations *)
Ltac heads := intros n; reflexivity.
Definition item_names (t : titem) : Prop :=
  read_names t /\ (ti_id t =?s "s") = false /\ look_names (ti_look t) /\ write_names (ti_write t)
  /\ match ti_decl t with DEnum vs => Forall (fun d => keyword (fst d) = false) vs | _ => True end.
Lemma from_xml_G t ts l : item_names t -> Gp ts l ->
  Gp (from_xml_tokens t ++ ts) (IImpl (mkPimpl None (ti_id t) [] (flat_map (fn_of t) ["from_xml"; "from_xml_node"])) :: l).
Proof.
  intros (N & _) G. pose proof (from_xml_T t) as T1. pose proof (read_T t N) as T2. destruct N as ((K & _) & _).
  unfold from_xml_tokens. revert T1 T2. tokens. intros T1 T2.
  eapply G_impl; [|exact G]. apply Z_own; auto.
  eapply I_fn; [discriminate|reflexivity| |].
  { eapply N_fn; [heads|]. exact T1. }
  eapply I_fn; [discriminate|reflexivity| |apply I_nil].
  eapply N_fn; [heads|]. exact T2.
Qed.
Lemma lookahead_G t ts l : item_names t -> Gp ts l ->
  Gp (lookahead_tokens t ++ ts) (IImpl (mkPimpl None (ti_id t) [] (flat_map (fn_of t) ["lookahead"])) :: l).
Proof.
  intros (((K & _) & _) & _ & N & _) G. pose proof (look_T (ti_id t) _ N) as T1.
  assert (E : flat_map (fn_of t) ["lookahead"] = [mkPfn false "lookahead" [] [("node", node_ref)] (Some (here ["bool"])) (EBlock [] (untyped (look_code (ti_look t))))]).
  { cbn [flat_map]. unfold fn_of, item_fn. cbn [String.eqb Ascii.eqb Bool.eqb]. cbn [signature String.eqb Ascii.eqb Bool.eqb fn_params fn_body combine app].
    do 3 f_equal. destruct (ti_look t) as [|[|k ks]]; try reflexivity. unfold look_code.
    assert (Q : forall ks a, (exists x y, a = EOr x y) -> exists x y, untyped (fold_left (fun e k => EOr e (lk1_code k)) ks a) = EOr x y).
    { clear. induction ks as [|k ks IH]; intros a (x & y & ->); [cbn; eauto|]. cbn [fold_left]. apply IH. eauto. }
    destruct (Q ks (EOr (EBool false) (lk1_code k))) as (x & y & E); [eauto|]. cbn [fold_left]. rewrite E. reflexivity. }
  rewrite E. unfold lookahead_tokens. tokens. eapply G_impl; [|exact G]. apply Z_own; auto. eapply I_fn; [discriminate|reflexivity| |apply I_nil].
  eapply N_fn; [heads|]. exact T1.
Qed.
Lemma to_xml_G t ts l : item_names t -> Gp ts l ->
  Gp (to_xml_tokens t ++ ts) (IImpl (mkPimpl None (ti_id t) [] (flat_map (fn_of t) ["to_xml"; "to_xml_writer"])) :: l).
Proof.
  intros (((K & _) & _) & _ & _ & N & _) G. pose proof (to_xml_T t) as T1. pose proof (writer_T t N) as T2.
  unfold to_xml_tokens. unfold to_xml_body in T1. unfold writer_body in T2. revert T1 T2. tokens. intros T1 T2.
  eapply G_impl; [|exact G]. apply Z_own; auto.
  eapply I_fn; [discriminate|reflexivity| |].
  { eapply N_fn; [heads|]. exact T1. }
  eapply I_fn; [discriminate|reflexivity| |apply I_nil].
  eapply N_fn; [heads|]. exact T2.
Qed.
Lemma from_str_G id p l e ts r : keyword id = false -> Tp (sc id ["s"]) p l e -> Gp ts r ->
  Gp (quote "impl ::std::str::FromStr for #root_name {
               type Err = ::xsd::decode::FromXmlError;

               fn from_str(s: &str) -> Result<Self, Self::Err> { #body }
             }" [("root_name", idn id); ("body", One p)] ++ ts)
   (IImpl (mkPimpl (Some [""; "std"; "str"; "FromStr"]) id [("Err", decode_error)]
     [mkPfn false "from_str" [] [("s", PtRef false (here ["str"]))] (result this (here ["Self"; "Err"])) (EBlock l e)]) :: r).
Proof.
  intros K T G. tokens. eapply G_impl; [|exact G].
  apply (Z_trait [Pu "::"; Id "std"; Pu "::"; Id "str"; Pu "::"; Id "FromStr"]); [reflexivity|auto|].
  eapply I_type; [reflexivity|reflexivity|intros n; reflexivity|reflexivity|].
  eapply I_fn; [discriminate|reflexivity| |apply I_nil]. eapply N_fn; [heads|]. exact T.
Qed.
Lemma fmt_G id p l e ts r : keyword id = false -> Tp (sc id ["f"; "self"]) p l e -> Gp ts r ->
  Gp (quote "impl ::std::fmt::Display for #root_name {
               fn fmt(&self, f: &mut ::std::fmt::Formatter) -> ::std::fmt::Result { #body }
             }" [("root_name", idn id); ("body", One p)] ++ ts)
   (IImpl (mkPimpl (Some [""; "std"; "fmt"; "Display"]) id []
     [mkPfn false "fmt" [] [("self", PtRef false this); ("f", PtRef true (here [""; "std"; "fmt"; "Formatter"]))] (Some (here [""; "std"; "fmt"; "Result"])) (EBlock l e)]) :: r).
Proof.
  intros K T G. tokens. eapply G_impl; [|exact G].
  apply (Z_trait [Pu "::"; Id "std"; Pu "::"; Id "fmt"; Pu "::"; Id "Display"]); [reflexivity|auto|].
  eapply I_fn; [discriminate|reflexivity| |apply I_nil]. eapply N_fn; [heads|]. exact T.
Qed.
Lemma as_str_G id p l e ts r : keyword id = false -> Tp (sc id ["self"]) p l e -> Gp ts r ->
  Gp (quote "impl #root_name {
               pub fn as_str(&self) -> &str { #body }
             }" [("root_name", idn id); ("body", One p)] ++ ts)
   (IImpl (mkPimpl None id [] [mkPfn true "as_str" [] [("self", PtRef false this)] (Some (PtRef false (here ["str"]))) (EBlock l e)]) :: r).
Proof.
  intros K T G. tokens. eapply G_impl; [|exact G]. apply Z_own; auto.
  eapply I_fn; [discriminate|reflexivity| |apply I_nil]. eapply N_fn; [heads|]. exact T.
Qed.
Lemma conversion_G t ts l : item_names t -> Gp ts (map IImpl [mkPimpl None (ti_id t) [] (flat_map (fn_of t) ["to_xml"; "to_xml_writer"]);
    mkPimpl None (ti_id t) [] (flat_map (fn_of t) ["from_xml"; "from_xml_node"]); mkPimpl None (ti_id t) [] (flat_map (fn_of t) ["lookahead"])] ++ l) ->
  Gp (conversion_tokens t ++ ts) (map IImpl (impls_of t) ++ l).
Proof.
  intros ((N & _) & S & _ & _ & V) G. pose proof N as (K & _). unfold conversion_tokens, impls_of, fn_of, item_fn. cbn [String.eqb Ascii.eqb Bool.eqb].
  destruct (ti_decl t) as [ty [|]|vs|fs|fs]; try exact G.
  - pose proof (from_str_G (ti_id t) _ _ _ _ _ K (tuple_from_str_T (ti_id t) ty N S) (fmt_G (ti_id t) _ _ _ _ _ K (tuple_fmt_T (ti_id t) ty) G)) as H.
    revert H. tokens. intros H. exact H.
  - pose proof (from_str_G (ti_id t) _ _ _ _ _ K (enum_from_str_T (ti_id t) vs N V)
      (as_str_G (ti_id t) _ _ _ _ _ K (enum_as_str_T (ti_id t) vs K V) (fmt_G (ti_id t) _ _ _ _ _ K (enum_fmt_T (ti_id t)) G))) as H.
    revert H. tokens. intros H. exact H.
Qed.
Lemma impl_G t ts l : item_names t -> Gp ts l -> Gp (impl_tokens t ++ ts) (map IImpl (impls_of t) ++ l).
Proof.
  intros N G. unfold impl_tokens. rewrite <- !app_assoc. apply conversion_G; auto. cbn [map app].
  apply to_xml_G, from_xml_G, lookahead_G; auto.
Qed.

(** ** Modules *)
Lemma cut_item r t rest : cut (item_tokens r t ++ rest) = (item_tokens r t, rest).
Proof.
  unfold item_tokens. rewrite <- !app_assoc.
  assert (C : cut (declaration_tokens r (ti_decl t) ++ rest) = (declaration_tokens r (ti_decl t), rest)) by (destruct (ti_decl t); reflexivity).
  assert (D : forall d ts x, cut ts = (x, rest) -> cut (doc_tokens d ++ ts) = (doc_tokens d ++ x, rest)).
  { intros [d|] ts x H; [|exact H]. unfold doc_tokens. destruct (is_empty d); [exact H|]. cbn [app cut String.eqb Ascii.eqb Bool.eqb]. rewrite H. reflexivity. }
  apply D. cbn [app cut String.eqb Ascii.eqb Bool.eqb]. rewrite C. reflexivity.
Qed.
Lemma element_G r t ts l y : item_names t -> type_item_of (item_tokens r t) = Some y -> Gp ts l ->
  Gp (element_tokens r t ++ ts) (IType y :: map IImpl (impls_of t) ++ l).
Proof.
  intros N Y G. unfold element_tokens. rewrite <- app_assoc. eapply G_type; [| |apply cut_item|exact Y|now apply impl_G].
  - unfold item_tokens, doc_tokens. destruct (root_docs r) as [d|]; [destruct (is_empty d)|]; discriminate.
  - unfold item_tokens, doc_tokens. destruct (root_docs r) as [d|]; [destruct (is_empty d)|]; reflexivity.
Qed.
Section Names.
Variable p : program.
Hypothesis OK : rust_ok p.
Hypothesis apart : Forall (fun t => ~ In (ti_id t) taken) p.
Lemma defined_ok id : defined p id -> name_ok id /\ (id =?s "node") = false /\ (id =?s "s") = false.
Proof.
  intros D. apply in_map_iff in D as (t & <- & I). destruct OK as [[_ Hn _ _] _]. rewrite Forall_forall in *.
  specialize (apart t I). destruct (Hn t I) as (P & _). unfold name_ok.
  assert (Q : forall x, In x taken -> (ti_id t =?s x) = false).
  { intros x Hx. destruct (String.eqb_spec (ti_id t) x) as [E|]; [|reflexivity]. rewrite E in apart. contradiction. }
  repeat split; try (apply Q; unfold taken; simpl; tauto). now apply keyword_plain.
Qed.
Lemma rx_type_names x t : rx_type p x t -> rx_names x.
Proof. intros H. destruct H; cbn; auto. now apply defined_ok. Qed.
Lemma fr_type_names f t : fr_type p f t -> fr_names f.
Proof.
  intros H. destruct H; cbn [fr_names]; try split; try (now apply defined_ok); eapply rx_type_names; eauto.
Qed.
Lemma member_plain t f : In t p -> In f (match ti_decl t with DStruct fs | DChoice fs => map fst fs | DEnum vs => map fst vs | DTuple _ _ => [] end) ->
  keyword f = false.
Proof.
  intros I J. destruct OK as [[_ _ Hd _] _]. rewrite Forall_forall in Hd. specialize (Hd t I). apply keyword_plain.
  destruct Hd as [ty b _ _|vs _ _ P|fs (_ & P & _)|vs _ (_ & P & _)]; [destruct J| | |]; rewrite Forall_forall in P; now apply P.
Qed.
Lemma items_names : Forall item_names p.
Proof.
  apply Forall_forall. intros t I.
  assert (D : defined p (ti_id t)) by now apply in_map.
  destruct (defined_ok _ D) as (N1 & N2 & N3). pose proof OK as [_ Hf]. rewrite Forall_forall in Hf.
  destruct (Hf t I) as (R & W & K). pose proof (fun f => member_plain t f I) as M. unfold item_names, read_names.
  repeat split; auto; try apply N1; clear N1 N2 N3 D I Hf.
  - destruct R as [ty b x Hx|vs|ds1 ds2 fs ats F1 F2|vs arms Ha].
    + eapply rx_type_names; eauto.
    + exact Logic.I.
    + rewrite map_app in M. split.
      * assert (M1 : forall f, In f (map fst ds1) -> keyword f = false) by (intros; apply M, in_or_app; auto).
        clear M W. induction F1 as [|d f ds fs (E & T) F1 IH]; constructor.
        -- split; [rewrite <- E; apply M1; now left|eapply fr_type_names; eauto].
        -- apply IH. intros; apply M1; now right.
      * assert (M1 : forall f, In f (map fst ds2) -> keyword f = false) by (intros; apply M, in_or_app; auto).
        clear M W. induction F2 as [|d f ds fs' (E & T) F2 IH]; constructor.
        -- rewrite <- E. apply M1. now left.
        -- apply IH. intros; apply M1; now right.
    + eapply Forall_impl; [|exact Ha]. intros a Ht.
      destruct Ht as [v id x ty Hd Hv Hx|v n ns x ty Hv Hx|v n ns x ty Hv Hx]; cbn [arm_names];
        apply (in_map fst) in Hv; cbn [fst] in Hv; apply M in Hv; repeat split; auto; try (apply (defined_ok _ Hd)); eapply rx_type_names; eauto.
  - clear R W M. destruct K as [|l Hl]; cbn [look_names]; [exact Logic.I|]. apply Forall_forall. intros [id|n ns] Hk; [|exact Logic.I].
    now apply (defined_ok id), Hl.
  - clear R K. destruct W as [ty b wrap x _ _|vs|fs ats wrap b Ha Hb|vs wrap arms _ Ha]; cbn [write_names]; try exact Logic.I.
    + split.
      * eapply Forall_impl; [|exact Ha]. intros a (ty & J & _). apply M. apply (in_map fst) in J. exact J.
      * destruct b as [|f x|ws]; cbn [wbody_names body_ok] in *; [exact Logic.I| |].
        -- destruct Hb as (ty & J & _). apply M. apply (in_map fst) in J. exact J.
        -- eapply Forall_impl; [|exact Hb]. intros w (ty & J & _). apply M. apply (in_map fst) in J. exact J.
    + eapply Forall_impl; [|exact Ha]. intros w (ty & J & _). apply M. apply (in_map fst) in J. exact J.
  - clear R W K. destruct (ti_decl t) as [| |fs|]; auto. apply Forall_forall. intros d J. apply M. now apply in_map.
Qed.
End Names.
