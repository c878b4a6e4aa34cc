(** * LlSpec: schemas that can be read with one element of lookahead

    A test on the schema: at each point the next element decides which member it
    belongs to. Computed from the elements a member can start with, whether it can be
    empty ([start]) and the elements its generated lookahead accepts ([looks]). *)
From Verif Require Import Base Libs Xml Ast Decode Gen Run DecSpec RepSpec WfSpec WfCheck.

Definition qn := (string * option string)%type.
Definition qn_eqb (a b : qn) : bool := (fst a =?s fst b) && opt_eqb String.eqb (snd a) (snd b).
Definition qn_of (x : xelem) : qn := (xe_tag x, xe_ns x).
Definition disjoint (a b : list qn) : bool := forallb (fun q => negb (mem qn_eqb q b)) a.
Definition subset (a b : list qn) : bool := forallb (fun q => mem qn_eqb q b) a.

Definition oapp (a b : option (list qn)) : option (list qn) :=
  match a, b with Some x, Some y => Some (x ++ y) | _, _ => None end.

Section Spec.
Context {L : Libs}.
Variable c : schema_ctx.
Variable gs : list name.
(** May a required repeated member be empty? *)
Variable vn : bool.

Definition leaf_qn (f : leaf) : option qn :=
  match quote_xml_namespace c (lf_name f) with Some ns => Some (nm (lf_name f), ns) | None => None end.

(** ** Sets, given those of the groups *)
Section Open.
  Variable glooks : name -> option (list qn).
  (** first elements, and whether it can be empty *)
  Variable gstart : name -> option (list qn * bool).

  Definition leaf_looks (f : leaf) : option (list qn) :=
    if lf_virtual f then match ld_content (lf_def f) with LcNamed m => glooks m | _ => None end
    else option_map (fun q => [q]) (leaf_qn f).
  (** The generated lookahead stops at the first required member. *)
  Fixpoint seq_looks (ls : list leaf) : option (list qn) :=
    match ls with
    | [] => Some []
    | f :: ls' => if lf_is_optional f then oapp (leaf_looks f) (seq_looks ls') else leaf_looks f
    end.
  Fixpoint any_looks (ls : list leaf) : option (list qn) :=
    match ls with [] => Some [] | f :: ls' => oapp (leaf_looks f) (any_looks ls') end.
  Definition root_looks (r : root) : option (list qn) :=
    match r with
    | RootElement d => match ed_content d with Some (EcLeaves ls) => seq_looks ls | _ => Some [] end
    | RootChoice d => any_looks (cd_variants d)
    | _ => None
    end.

  Definition one_start (f : leaf) : option (list qn * bool) :=
    if lf_virtual f then match ld_content (lf_def f) with LcNamed m => gstart m | _ => None end
    else option_map (fun q => ([q], false)) (leaf_qn f).
  Definition leaf_start (f : leaf) : option (list qn * bool) :=
    match one_start f with
    | Some (fi, nu) => Some (fi, nu || lf_is_optional f || (lf_is_vec f && vn))
    | None => None
    end.
  Fixpoint seq_start (ls : list leaf) : option (list qn * bool) :=
    match ls with
    | [] => Some ([], true)
    | f :: ls' =>
        match leaf_start f, seq_start ls' with
        | Some (f1, n1), Some (f2, n2) => Some (if n1 then f1 ++ f2 else f1, n1 && n2)
        | _, _ => None
        end
    end.
  Fixpoint any_start (ls : list leaf) : option (list qn * bool) :=
    match ls with
    | [] => Some ([], false)
    | f :: ls' =>
        match one_start f, any_start ls' with
        | Some (f1, n1), Some (f2, n2) => Some (f1 ++ f2, n1 || n2)
        | _, _ => None
        end
    end.
  Definition root_start (r : root) : option (list qn * bool) :=
    match r with
    | RootElement d => match ed_content d with
                       | None => Some ([], true)
                       | Some (EcLeaves ls) => seq_start ls
                       | Some (EcLeaf _ _) => None
                       end
    | RootChoice d => any_start (cd_variants d)
    | _ => None
    end.
End Open.

(** ** Groups, unfolded [k] deep *)
Definition group_root (m : name) : option root := if is_group_b c gs m then sc_get c m else None.
Fixpoint glooks (k : nat) (m : name) : option (list qn) :=
  match k, group_root m with S k, Some r => root_looks (glooks k) r | _, _ => None end.
Fixpoint gstart (k : nat) (m : name) : option (list qn * bool) :=
  match k, group_root m with S k, Some r => root_start (gstart k) r | _, _ => None end.

Variable F : nat.      (* how deep groups may be nested *)
Notation looks := (glooks F). Notation start := (gstart F).

(** An optional or repeated group is recognised by its lookahead, exactly. *)
Definition recognised (m : name) (fol : list qn) : bool :=
  match looks m, start m with
  | Some lk, Some (fi, nu) => negb nu && subset fi lk && disjoint lk fol
  | _, _ => false
  end.

(** ** The test. [fol]: elements that may come next, after the member. *)
Section Check.
  Variable ck : list qn -> leaf_content -> bool.     (* content of the same element *)

  Definition ck_leaf (fol : list qn) (f : leaf) : bool :=
    if lf_virtual f then
      match ld_content (lf_def f) with
      | LcNamed m =>
          is_group_b c gs m &&
          (if lf_is_vec f then
             match start m with Some (fi, _) => ck (fi ++ fol) (LcNamed m) | None => false end && recognised m fol
           else ck fol (LcNamed m) && (if lf_is_optional f then recognised m fol else true))
      | _ => false
      end
    else content_b c gs (ld_content (lf_def f)) &&
         match leaf_qn f with
         | Some q => if lf_is_vec f || lf_is_optional f then negb (mem qn_eqb q fol) else true
         | None => false
         end.
  Fixpoint ck_seq (fol : list qn) (ls : list leaf) : bool :=
    match ls with
    | [] => true
    | f :: ls' =>
        match seq_start start ls' with
        | Some (fi, nu) => ck_leaf (fi ++ if nu then fol else []) f && ck_seq fol ls'
        | None => false
        end
    end.
  Definition ck_variant (fol : list qn) (f : leaf) : bool :=
    if lf_virtual f then
      match ld_content (lf_def f) with
      | LcNamed m => is_group_b c gs m && ck fol (LcNamed m) && recognised m []
      | _ => false
      end
    else content_b c gs (ld_content (lf_def f)) &&
         match leaf_qn f with
         | Some q => if lf_is_vec f then negb (mem qn_eqb q fol) else true
         | None => false
         end.
  Fixpoint ck_choice (fol : list qn) (ls : list leaf) : bool :=
    match ls with
    | [] => true
    | f :: ls' =>
        match leaf_looks looks f, any_start start ls' with
        | Some lk, Some (fi, _) => ck_variant fol f && disjoint lk fi && ck_choice fol ls'
        | _, _ => false
        end
    end.
  Definition ck_root (fol : list qn) (r : root) : bool :=
    match r with
    | RootLeaf d => ck fol (ld_content d)
    | RootEnum _ => true
    | RootElement d =>
        match ed_content d with
        | None => true
        | Some (EcLeaf _ d) => ck fol (ld_content d)
        | Some (EcLeaves ls) => ck_seq fol ls
        end
    | RootChoice d => ck_choice fol (cd_variants d)
    end.
End Check.
Fixpoint ck (k : nat) (fol : list qn) (ct : leaf_content) : bool :=
  match final_b c (chain_fuel c) ct with
  | Some (LcNamed m) =>
      match k, type_b c gs m with
      | S k, Some (_, r) => ck_root (ck k) fol r
      | _, _ => false
      end
  | Some _ => true
  | None => false
  end.

Definition unambiguous_b : bool := each_root c gs (fun _ r => ck_root (ck F) [] r).
End Spec.
