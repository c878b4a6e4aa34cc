(** * MutWrite: the writing functions and the declarations declare what they change (C82) *)
From Verif Require Import Base Libs Xml Ast Gen Run Emit Quote Impl Rust Body RustSpec EmitSpec GramSpec GramProof GramRead GramWrite GramItem MutSpec MutProof.

Ltac st := let Q := fresh "Q" in let r := fresh "r" in let E := fresh "E" in let b := fresh "b" in let K := fresh "K" in
  intros Q r E b [Hctx Hwriter] [B A] K; tokens; cbn [app]; run; try (apply K; [writings|clears]).
Lemma start_S : Stms start_tokens.
Proof. unfold start_tokens. st. Qed.
Lemma end_S : Stms end_tokens.
Proof. unfold end_tokens. st. Qed.
Lemma tagged_S w l : Stms l -> Stms (tagged_tokens w l).
Proof. intros H. destruct w; [|exact H]. unfold tagged_tokens. apply S_app; [apply start_S|]. apply S_app; [exact H|apply end_S]. Qed.
Lemma wx_S x : Stms (wx_tokens x).
Proof. destruct x; unfold wx_tokens; st. Qed.
Lemma for_S l : Stms l -> Stms (quote "for val in val { #tn }" [("tn", One l)]).
Proof. intros H. st. Qed.
Lemma some_S l : Stms l -> Stms (quote "if let Some(val) = val { #tn }" [("tn", One l)]).
Proof. intros H. st. Qed.
Lemma wf_S w : keyword (wf_field w) = false -> Stms (wf_tokens w).
Proof.
  intros N. unfold wf_tokens. cbv zeta.
  match goal with |- context [quote "let val = &self.#name_ident; {#tn}" _] => idtac | _ => idtac end.
  assert (H : Stms (match wf_new w with
             | Some n => quote "let mut ctx = ::xsd::Context::new(#name_xml);" [("name_xml", lit n)]
             | None => quote "let mut ctx = ::xsd::Context::wrap(&mut ctx);" []
             end ++ tagged_tokens (wf_wrap w) (wx_tokens (wf_x w)))).
  { apply S_app; [|apply tagged_S, wx_S]. destruct (wf_new w); st. }
  revert H. generalize (match wf_new w with
             | Some n => quote "let mut ctx = ::xsd::Context::new(#name_xml);" [("name_xml", lit n)]
             | None => quote "let mut ctx = ::xsd::Context::wrap(&mut ctx);" []
             end ++ tagged_tokens (wf_wrap w) (wx_tokens (wf_x w))) as l. intros l H.
  assert (H1 : Stms (if wf_vec w then quote "for val in val { #tn }" [("tn", One l)] else l)) by (destruct (wf_vec w); [now apply for_S|exact H]).
  revert H1. generalize (if wf_vec w then quote "for val in val { #tn }" [("tn", One l)] else l) as l1. clear H l. intros l H.
  assert (H1 : Stms (if wf_opt w then quote "if let Some(val) = val { #tn }" [("tn", One l)] else l)) by (destruct (wf_opt w); [now apply some_S|exact H]).
  revert H1. generalize (if wf_opt w then quote "if let Some(val) = val { #tn }" [("tn", One l)] else l) as l1. clear H l. intros l H. st.
Qed.
Lemma wa_S a : keyword (wa_field a) = false -> Stms (wa_tokens a).
Proof. intros N. unfold wa_tokens. destruct (wa_opt a), (wa_fixed a); st. Qed.
Lemma wb_S b : wbody_names b -> Stms (wb_tokens b).
Proof.
  intros N. destruct b as [|f x|l]; unfold wb_tokens; cbn [wbody_names] in N.
  - apply S_nil.
  - destruct x; unfold wx_tokens; st.
  - apply S_flat. eapply Forall_impl; [|exact N]. intros w K. now apply wf_S.
Qed.
(** The arms of a [match]: separated by commas, each a block. *)
Definition Arm (l : list tok) : Prop := forall Q r E b, writing_vars E -> clear b ->
  (forall b', clear b' -> runs Q r (mkState E b' None [] false)) -> runs Q (l ++ r) (mkState E b None [] false).
Lemma warm_A a : keyword (wm_variant a) = false -> Arm (warm_tokens a ++ [Pu ","]).
Proof.
  intros N. unfold warm_tokens. cbv zeta. pose proof (wx_S (wm_x a)) as X.
  match goal with |- context [if wm_vec a then quote ?f [("inner", One ?i)] else _] => assert (H : Stms i) end.
  { destruct (wm_wrap a).
    - intros Q r E b [Hctx Hwriter] [B A] K. tokens. cbn [app]. run. rewrite <- app_assoc. apply X; [writings|clears|].
      clear Hctx Hwriter B A. intros E' b' [Hctx Hwriter] [B A]. cbn [app]. run; try (apply K; [writings|clears]).
    - intros Q r E b [Hctx Hwriter] [B A] K. tokens. cbn [app]. run. apply X; [writings|clears|exact K]. }
  revert H. match goal with |- Stms ?i -> _ => generalize i end. clear X. intros l H.
  assert (H1 : Stms (if wm_vec a then quote "for val in val { #inner }" [("inner", One l)] else l)).
  { destruct (wm_vec a); [|exact H]. st. }
  revert H1. match goal with |- Stms ?i -> _ => generalize i end. clear H l. intros l H.
  intros Q r E b [Hctx Hwriter] [B A] K. tokens. cbn [app]. run; try (apply K; clears).
Qed.
Lemma match_S arms : Forall (fun a => keyword (wm_variant a) = false) arms ->
  Stms (quote "match self { #(#variants,)* }" [("variants", Each (map warm_tokens arms))]).
Proof.
  intros N.
  assert (H : forall E, writing_vars E -> passes (flat_map (fun a => warm_tokens a ++ [Pu ","]) arms) E).
  { intros E W. enough (G : forall b, clear b -> runs through (flat_map (fun a => warm_tokens a ++ [Pu ","]) arms) (mkState E b None [] false)).
    { apply G. split; reflexivity. }
    induction N as [|a arms K N IH]; intros b C; cbn [flat_map]; [apply W_nil; discriminate|]. apply (warm_A a K); [exact W|exact C|exact IH]. }
  intros Q r E b [Hctx Hwriter] [B A] K. tokens. cbn [app].
  rewrite flat_map_concat_map, map_map, <- flat_map_concat_map.
  do 2 (eapply W_leaf; [solves|exact I|unfold after, expect; cbn [st_vars st_before st_let st_next st_fn]]).
  apply W_brace; [cbn [app]; apply H; split; assumption|]. apply K; [writings|clears].
Qed.
Lemma write_S t : write_names (ti_write t) -> Stms (write_tokens t).
Proof.
  intros N. unfold write_tokens. destruct (ti_write t) as [wrap x| |ats wrap b|wrap arms]; cbn [write_names] in N.
  - apply tagged_S. pose proof (wx_S x) as X. intros Q r E b [Hctx Hwriter] [B A] K. tokens. cbn [app]. run.
    apply X; [writings|clears|exact K].
  - st.
  - destruct N as [N1 N2]. apply S_app.
    + apply S_flat. eapply Forall_impl; [|exact N1]. intros a K. now apply wa_S.
    + apply tagged_S. now apply wb_S.
  - apply tagged_S. now apply match_S.
Qed.
Lemma ns_S d : Stms (Id "ctx" :: ns_decl_tokens d ++ [Pu ";"]).
Proof. unfold ns_decl_tokens. destruct (is_empty (fst d)); st. Qed.
Lemma to_xml_Q t : keyword (ti_id t) = false -> write_names (ti_write t) -> Seq (to_xml_tokens t).
Proof.
  intros N W Q r E b [B A] K. pose proof (write_S t W) as H.
  assert (D : Stms (flat_map (fun d => Id "ctx" :: ns_decl_tokens d ++ [Pu ";"]) (ti_nss t))).
  { apply S_flat, Forall_forall. intros d _. apply ns_S. }
  unfold to_xml_tokens. tokens. cbn [app].
  rewrite flat_map_concat_map, map_map, <- flat_map_concat_map. revert D H.
  generalize (flat_map (fun d => Id "ctx" :: ns_decl_tokens d ++ [Pu ";"]) (ti_nss t)) as l1. generalize (write_tokens t) as l2. intros l2 l1 D H.
  run; try (apply K; clears).
  apply D; [writings|clears|]. intros E1 b1 W1 C1. apply H; [exact W1|exact C1|]. intros E2 b2 W2 [B2 A2].
  unfold bare in B2. apply negb_true_iff, orb_false_iff in B2 as [B2 B3]. run.
Qed.

(** ** Conversions *)
Lemma enum_from_Q id vs : keyword id = false -> Forall (fun d => keyword (fst d) = false) vs -> Seq (flat_map (fun d => from_str_variant id d ++ [Pu ","]) vs).
Proof.
  intros K H. apply Q_flat. eapply Forall_impl; [|exact H]. intros [v s] N Q r E b [B A] G. cbn [fst] in N. unfold from_str_variant. cbn [fst snd]. tokens. cbn [app]. run.
Qed.
Lemma enum_as_Q id vs : keyword id = false -> Forall (fun d => keyword (fst d) = false) vs -> Seq (flat_map (fun d => as_str_variant id d ++ [Pu ","]) vs).
Proof.
  intros K H. apply Q_flat. eapply Forall_impl; [|exact H]. intros [v s] N Q r E b [B A] G. cbn [fst] in N. unfold as_str_variant. cbn [fst snd]. tokens. cbn [app]. run.
Qed.
Lemma conversion_Q t : keyword (ti_id t) = false -> match ti_decl t with DEnum vs => Forall (fun d => keyword (fst d) = false) vs | _ => True end ->
  Seq (conversion_tokens t).
Proof.
  intros K N. unfold conversion_tokens. destruct (ti_decl t) as [ty [|]|vs|fs|fs]; try apply Q_nil.
  - intros Q r E b [B A] H. tokens. cbn [app]. run.
  - pose proof (enum_from_Q (ti_id t) vs K N) as F. pose proof (Q_is_last _ (enum_as_Q (ti_id t) vs K N)) as S.
    intros Q r E b [B A] H.
    change (fun d : string * string => quote "#name_xml => #root_name::#variant"
                    [("name_xml", lit (snd d)); ("root_name", idn (ti_id t)); ("variant", idn (fst d))]) with (from_str_variant (ti_id t)).
    change (fun d : string * string => quote "#root_name::#variant => #name_xml"
                    [("name_xml", lit (snd d)); ("root_name", idn (ti_id t)); ("variant", idn (fst d))]) with (as_str_variant (ti_id t)).
    tokens. cbn [app].
    rewrite !(flat_map_concat_map _ (map _ vs)), !map_map, <- !flat_map_concat_map. revert F S.
    generalize (flat_map (fun d => from_str_variant (ti_id t) d ++ [Pu ","]) vs) as l1.
    generalize (flat_map (fun d => as_str_variant (ti_id t) d ++ [Pu ","]) vs) as l2. intros l2 l1 F S.
    run. apply F; [clears|]. intros b' [B' A']. run.
Qed.

(** ** Declarations *)
Fixpoint type_names (t : rty) : Prop :=
  match t with TRef id => keyword id = false | TVec t | TOpt t => type_names t | _ => True end.
