(** * BodyGen: names of variants; [FromStr] and [Display] *)
From Verif Require Import Base Libs Xml Ast Decode Writer Gen Run RustSpec RustProof Rust Body RustRules BodySpec BodyRead BodyWrite GenProof1 LitSpec.
From Coq Require Import Lia.

(** ** Names *)
Lemma pascal_go_first s last : match pascal_go s true last false with [] => True | c :: _ => is_lower_a c = false end.
Proof.
  induction s as [|c s IH]; [exact I|]. cbn [pascal_go]. destruct (is_alnum_a c) eqn:A; cbn [negb andb]; [|exact IH].
  destruct (is_digit_a c) eqn:Dg.
  - revert Dg. clear. destruct c as [[] [] [] [] [] [] [] []]; vm_compute; congruence.
  - cbn [orb]. clear. destruct c as [[] [] [] [] [] [] [] []]; reflexivity.
Qed.
Lemma ascii_pascal_law : pascal_law ascii_libs.
Proof.
  intros s H. change (In (pascal_ascii s) function_names) in H. unfold pascal_ascii in H.
  pose proof (pascal_go_first (trim_right_a (list_ascii_of_string s)) " "%char) as F.
  destruct (pascal_go (trim_right_a (list_ascii_of_string s)) true " "%char false) as [|c l]; cbn [string_of_list_ascii] in H.
  - destruct H as [H|[H|[]]]; discriminate.
  - destruct H as [H|[H|[]]]; injection H as <- _; discriminate.
Qed.

Section Names.
Context {L : Libs}.
Hypothesis PL : pascal_law L.
Lemma enum_base_free s : ~ In (enum_base_name s) function_names.
Proof.
  unfold enum_base_name. destruct (utf8_chars _) as [|ch r]; [apply PL|]. destruct (negb (char_is_alphabetic ch)); [|apply PL].
  intros [H|[H|[]]]; discriminate.
Qed.
Lemma enum_fresh_free fuel taken : forall count w y k, ~ In w function_names -> enum_fresh fuel taken count w = Some (y, k) -> ~ In y function_names.
Proof.
  induction fuel as [|fuel IH]; intros count w y k Hw; cbn [enum_fresh]; destruct (is_empty w || is_some (aget String.eqb w taken))%bool; try discriminate.
  - intros H. now injection H as <- _.
  - apply IH. intros [H|[H|[]]]; discriminate.
  - intros H. now injection H as <- _.
Qed.
Lemma escape_enum_go_free names : forall taken count l, Forall (fun e => ~ In (fst e) function_names) taken ->
  escape_enum_go names taken count = Some l -> Forall (fun e => ~ In (fst e) function_names) l.
Proof.
  induction names as [|n names IH]; intros taken count l F; cbn [escape_enum_go]; [intros H; now injection H as <-|].
  destruct (enum_fresh _ taken count _) as [[w c]|] eqn:E; [|discriminate]. apply IH.
  destruct (enum_fresh_ok _ _ _ _ _ _ E) as [_ A]. rewrite aset_fresh by exact A. apply Forall_app. split; [exact F|].
  constructor; [|constructor]. eapply enum_fresh_free; [|exact E]. apply enum_base_free.
Qed.
Lemma generated_free gfuel c gs p : mapM (generate_element gfuel c) gs = Ok p -> no_function_variant p.
Proof.
  intros Hp t w It Iw. apply mapM_ok in Hp. assert (Hn : exists n, generate_element gfuel c n = Ok t).
  { clear - Hp It. induction Hp as [|n u gs p Hu _ IH]; [destruct It|]. destruct It as [<-|It]; eauto. }
  clear Hp. destruct Hn as [n Hn]. unfold generate_element in Hn. destruct (sc_get c n) as [r|]; [|discriminate].
  apply bind_ok in Hn. destruct Hn as (id & _ & Hn). apply bind_ok in Hn. destruct Hn as (d & Hd & Hn).
  do 6 (apply bind_ok in Hn; destruct Hn as (? & _ & Hn)). injection Hn as <-. cbn [ti_decl] in Iw. destruct r as [df|names|ed|cd]; cbn [root_to_declaration] in Hd.
  - apply bind_ok in Hd. destruct Hd as (ty & _ & Hd). injection Hd as <-. destruct Iw.
  - apply bind_ok in Hd. destruct Hd as (vs & Hv & Hd). injection Hd as <-. cbn [variants_of] in Iw. unfold enum_variants in Hv.
    destruct (escape_enum_names names) as [l|] eqn:E; [|discriminate].
    unfold escape_enum_names in E. apply escape_enum_go_free in E; [|constructor].
    apply mapM_ok in Hv. revert E Iw. clear - Hv. induction Hv as [|[v n] [v' s] l vs H _ IH]; [intros _ []|]. intros E [<-|I].
    + inversion E; subst. apply bind_ok in H. destruct H as (v'' & H & H1). injection H1 as <- _. unfold format_ident in H.
      destruct (ident_valid _); [|discriminate]. injection H as <-. assumption.
    + inversion E; subst. auto.
  - unfold element_to_impl in Hd. repeat (apply bind_ok in Hd; destruct Hd as (? & _ & Hd)). injection Hd as <-. destruct Iw.
  - apply bind_ok in Hd. destruct Hd as (vs & Hv & Hd). injection Hd as <-. cbn [variants_of] in Iw.
    apply mapM_ok in Hv. revert Iw. clear - Hv PL. induction Hv as [|x [v' s] l vs H _ IH]; [intros []|]. intros [<-|I]; auto.
    apply bind_ok in H. destruct H as (v'' & H & H1). apply bind_ok in H1. destruct H1 as (ty & _ & H1). injection H1 as <- _.
    unfold variant_ident, format_ident in H. destruct (ident_valid _); [|discriminate]. injection H as <-. apply PL.
Qed.
End Names.

(** ** [FromStr] and [Display] *)
Section Strings.
Context {L : Libs}.
Variable p : program.
Hypothesis OK : rust_ok p.
Hypothesis Nv : no_function_variant p.
Notation fns := (module_fn p).

Lemma tuple_from_str_fn id t q x st : lookup_item p id = Some t -> ti_decl t = DTuple (TPrim q) true ->
  fn_to p fns id "from_str" [D (VStr x)] st
    (match prim_from_str q x with Some w => ROk (D (VTuple w)) | None => RErr (Er (FeParseType id x)) end) st.
Proof.
  intros Lk Dt. pose proof (found _ _ _ Lk) as [_ Ei].
  assert (G : fns id "from_str" = Some (mkFn ["s"] (tuple_from_str_code id (TPrim q)))).
  { unfold module_fn. rewrite Lk. unfold item_fn. rewrite Dt, Ei. reflexivity. }
  assert (Hf : forall o, lib_call "::std::str::FromStr::from_str" (Some (TPrim q)) [D (VStr x)] [("s", D (VStr x))] st = o ->
    evals p fns id (ECall (PLib "::std::str::FromStr::from_str") (Some (TPrim q)) [v "s"]) [("s", D (VStr x))] st o).
  { intros o Ho. eapply ev_call_lib; [apply args_one, ev_var; reflexivity|discriminate|exact Ho]. }
  cbn in Hf. destruct (prim_from_str q x) as [w|] eqn:Eq.
  - eapply fn_body_to; [exact G|reflexivity|]. unfold tuple_from_str_code. cbn [fn_body fn_params combine rev app].
    apply ev_ok; auto. eapply (RustRules.ev_call_name _ _ _ id).
    + apply args_one, ev_try. eapply ev_map_err_ok. apply Hf. reflexivity.
    + unfold name_call, is_tuple_struct. rewrite Lk, Dt. reflexivity.
  - eapply fn_body_ret; [exact G|reflexivity|]. unfold tuple_from_str_code. cbn [fn_body fn_params combine rev app].
    apply ev_call_ret, args_one_ret, ev_call_ret, args_one_ret. eapply ev_try_err.
    eapply ev_map_err; [apply Hf; reflexivity|]. apply ev_value_block. eapply ev_error.
    { eapply fields_cons; [apply ev_str_of, ev_str|]. eapply fields_cons; [apply ev_str_of, ev_var; reflexivity|].
      eapply fields_cons; [apply ev_box; [assumption|apply ev_var; reflexivity]|apply fields_nil]. }
    reflexivity.
Qed.
Lemma tuple_fmt_fn id t q w y st : lookup_item p id = Some t -> ti_decl t = DTuple (TPrim q) true -> value_to_string w = Some y ->
  fn_to p fns id "fmt" [D (VTuple w); Fm] st (ROk (D VUnit)) (set_text (s_text st +++ y) st).
Proof.
  intros Lk Dt Ev.
  assert (G : fns id "fmt" = Some (mkFn ["self"; "f"] (tuple_fmt_code (TPrim q)))).
  { unfold module_fn. rewrite Lk. unfold item_fn. rewrite Dt. reflexivity. }
  eapply fn_body_to; [exact G|reflexivity|]. unfold tuple_fmt_code. cbn [fn_body fn_params combine rev app].
  eapply ev_method; [apply ev_field0, ev_var; reflexivity|apply args_one, ev_var; reflexivity|discriminate|].
  destruct w; try discriminate; cbn in Ev |- *; injection Ev as <-; reflexivity.
Qed.
End Strings.
