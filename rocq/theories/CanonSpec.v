(** * CanonSpec: canonical values, schemas that can be written, layout of documents *)
From Verif Require Import Base Libs Xml Ast Decode Writer Gen Run DecSpec RepSpec WfSpec WfCheck EncSpec.

(** ** Layout

    [indented e e']: [e'] is [e] with any character data, comments and processing
    instructions between the children of elements that have child elements. Source positions and namespace declarations may differ. *)
Definition attr_key (a : attr) : string * option string * string := (at_name a, at_ns a, at_value a).
Inductive indented : xelem -> xelem -> Prop :=
| id_elem t ns ats ats' ss ss' r r' ks ks' : map attr_key ats = map attr_key ats' -> indented_kids ks ks' ->
    indented (XE t ns ats ss r ks) (XE t ns ats' ss' r' ks')
with indented_kids : list (kid xelem) -> list (kid xelem) -> Prop :=
| ik_same ks : elems_of ks = [] -> indented_kids ks ks
| ik_laid ks ks' : elems_of ks <> [] -> indented_all (elems_of ks) (elems_of ks') -> indented_kids ks ks'
with indented_all : list xelem -> list xelem -> Prop :=
| ia_nil : indented_all [] []
| ia_cons x x' xs xs' : indented x x' -> indented_all xs xs' -> indented_all (x :: xs) (x' :: xs').

Section Spec.
Context {L : Libs}.
Variable c : schema_ctx.
Variable gs : list name.
(** May a required repeated member be empty? *)
Variable vn : bool.

(** ** Canonical values

    Values that have a written form from which they can be read back: texts that
    survive XML, an absent optional list is [None] and not [Some] of the empty
    list, a repeated choice variant is not empty. *)
Definition text_ok (s : string) : Prop := xml_text_back s = Some s.
Definition attr_ok (s : string) : Prop := xml_attr_back s = Some s.

(** The text of an attribute. *)
Inductive shown_attr : leaf_content -> value -> string -> Prop :=
| sa_lit lit v s : value_to_string v = Some s -> lit_from_str lit s = Ok v -> shown_attr (LcLiteral lit) v s
| sa_fixed s : shown_attr (LcFixed s) VUnit s
| sa_string m s : alias_string c m -> shown_attr (LcNamed m) (VStr s) s
| sa_enum m m' n names vs x s : final c (LcNamed m) (LcNamed m') -> type_of c gs m' n (RootEnum names) ->
    enum_variants names = Ok vs -> enum_as_str vs x = Some s -> enum_from_str vs s = Ok (VEnum x) ->
    shown_attr (LcNamed m) (VEnum x) s.

Inductive canon_attr : attribute -> value -> Prop :=
| ca_none a : a_optional a = true -> canon_attr a VNone
| ca_some a v s : a_optional a = true -> shown_attr (a_content a) v s -> attr_ok s -> canon_attr a (VSome v)
| ca_one a v s : a_optional a = false -> shown_attr (a_content a) v s -> attr_ok s -> canon_attr a v.
Definition canon_attrs (ats : list attribute) (avs : list (string * value)) : Prop :=
  Forall2 (fun a fv => field_ident (a_name a) = Ok (fst fv) /\ canon_attr a (snd fv)) ats avs.

Inductive canon_content : leaf_content -> value -> Prop :=
| cc_lit ct lit s v : final c ct (LcLiteral lit) -> value_to_string v = Some s -> lit_from_str lit s = Ok v ->
    text_ok s -> canon_content ct v
| cc_fixed ct s : final c ct (LcFixed s) -> text_ok s -> canon_content ct VUnit
| cc_named ct m n r v : final c ct (LcNamed m) -> type_of c gs m n r -> canon_root n r v -> canon_content ct v

with canon_root : name -> root -> value -> Prop :=
| cr_leaf n d v : canon_content (ld_content d) v -> canon_root n (RootLeaf d) (VTuple v)
| cr_enum n names vs x s : enum_variants names = Ok vs -> enum_as_str vs x = Some s ->
    enum_from_str vs s = Ok (VEnum x) -> text_ok s -> canon_root n (RootEnum names) (VEnum x)
| cr_element n d vs avs : canon_fields (ed_content d) vs -> canon_attrs (ed_attributes d) avs ->
    canon_root n (RootElement d) (VStruct (vs ++ avs))
| cr_choice n d f i w : In f (cd_variants d) -> variant_ident (lf_name f) = Ok i -> canon_variant f w ->
    canon_root n (RootChoice d) (VChoice i w)

with canon_fields : option element_content -> list (string * value) -> Prop :=
| cf_none : canon_fields None []
| cf_leaf n d f v : field_ident n = Ok f -> canon_content (ld_content d) v ->
    canon_fields (Some (EcLeaf n d)) [(f, v)]
| cf_leaves ls vs : canon_leaves ls vs -> canon_fields (Some (EcLeaves ls)) vs

with canon_leaves : list leaf -> list (string * value) -> Prop :=
| cs_nil : canon_leaves [] []
| cs_cons f fs i v vs : field_ident (lf_name f) = Ok i -> canon_leaf f v -> canon_leaves fs vs ->
    canon_leaves (f :: fs) ((i, v) :: vs)

with canon_leaf : leaf -> value -> Prop :=
| cl_one f v : lf_is_vec f = false -> lf_is_optional f = false -> canon_content (ld_content (lf_def f)) v -> canon_leaf f v
| cl_none f : lf_is_vec f = false -> lf_is_optional f = true -> canon_leaf f VNone
| cl_some f v : lf_is_vec f = false -> lf_is_optional f = true -> canon_content (ld_content (lf_def f)) v ->
    canon_leaf f (VSome v)
| cl_vec f vs : lf_is_vec f = true -> counted vn f vs -> canon_each (ld_content (lf_def f)) vs ->
    canon_leaf f (vec_value (lf_is_optional f) vs)

with canon_each : leaf_content -> list value -> Prop :=
| ce_nil ct : canon_each ct []
| ce_cons ct v vs : canon_content ct v -> canon_each ct vs -> canon_each ct (v :: vs)

with canon_variant : leaf -> value -> Prop :=
| cv_one f w : lf_is_vec f = false -> canon_content (ld_content (lf_def f)) w -> canon_variant f w
| cv_vec f w ws : lf_is_vec f = true -> canon_each (ld_content (lf_def f)) (w :: ws) -> canon_variant f (VVec (w :: ws)).

(** ** Schemas whose values can be written

    A test: every element occurrence has a tag, names resolve to the namespaces
    the decoder expects, attribute names are plain and distinct. *)

(** The namespace declarations of a written element. *)
Definition written_nss : option (list (string * string)) :=
  match element_nss c with
  | Ok nss => Some (fold_left (fun m d => ns_put (fst d) (snd d) m) nss [])
  | _ => None
  end.
(** The tag [xn] is read as the name [n]. *)
Definition name_b (nss : list (string * string)) (xn : option string) (n : name) : bool :=
  match xn, quote_xml_namespace c n with
  | Some xn, Some ns => match expand_elem nss xn with
                        | Some (t, ns') => (t =?s nm n) && opt_eqb String.eqb ns' ns
                        | None => false
                        end
  | _, _ => false
  end.

(** The type a named content ends up with. *)
Definition via (m : name) : option name :=
  match final_b c (chain_fuel c) (LcNamed m) with
  | Some (LcNamed m') => option_map fst (type_b c gs m')
  | _ => None
  end.
(** [Some] for types written inside a tag of their own: the attributes that tag may have. *)
Fixpoint chain (k : nat) (n : name) : option (list string) :=
  match k with
  | O => None
  | S k =>
      match sc_get c n with
      | None => None
      | Some (RootLeaf d) =>
          match ld_content d with
          | LcNamed m => match via m with Some n' => chain k n' | None => None end
          | _ => Some []
          end
      | Some (RootEnum _) => Some []
      | Some (RootElement d) =>
          let own := map (fun a => nm (a_name a)) (ed_attributes d) in
          match named_content (ed_content d) with
          | Some m => match via m with Some n' => option_map (app own) (chain k n') | None => None end
          | None => if ed_virtual d then None else Some own
          end
      | Some (RootChoice d) => if cd_virtual d then None else Some []
      end
  end.
Definition tagged_b (k : nat) (n : name) : bool :=
  match chain k n with Some D => nodupb String.eqb D | None => false end.
Definition via_tagged_b (k : nat) (m : name) : bool :=
  match via m with Some n => tagged_b k n | None => false end.

Definition group_shape (r : root) : bool :=
  match r with
  | RootElement d => match ed_attributes d with [] => true | _ => false end &&
                     match ed_content d with Some (EcLeaf _ _) => false | _ => true end
  | RootChoice _ => true
  | _ => false
  end.
Definition virtual_root (r : root) : bool :=
  match r with RootElement d => ed_virtual d | RootChoice d => cd_virtual d | _ => false end.

Definition plain_attr_b (a : attribute) : bool :=
  match get_xml_element_name c (a_name a) with
  | Some xn => (xn =?s nm (a_name a)) && negb (is_some (split_colon xn)) && is_ncname xn && negb (xn =?s "xmlns")
  | None => false
  end.

Section Check.
  Variable nss : list (string * string).
  Variable k : nat.
  Definition enc_leaf (f : leaf) : bool :=
    if lf_virtual f then
      match ld_content (lf_def f) with
      | LcNamed m => is_group_b c gs m && match sc_get c m with Some r => group_shape r | None => false end
      | _ => false
      end
    else name_b nss (get_xml_element_name c (lf_name f)) (lf_name f) &&
         match ld_content (lf_def f) with
         | LcNamed m => match final_b c (chain_fuel c) (LcNamed m) with
                        | Some (LcLiteral _) => true
                        | _ => via_tagged_b k m
                        end
         | _ => true
         end.
  Definition enc_variant (f : leaf) : bool :=
    if lf_virtual f then
      match ld_content (lf_def f) with
      | LcNamed m => is_group_b c gs m && negb (lf_is_vec f) &&
                     match sc_get c m with Some r => group_shape r && virtual_root r | None => false end
      | _ => false
      end
    else name_b nss (Some (nm (lf_name f))) (lf_name f) &&
         match ld_content (lf_def f) with
         | LcNamed m => via_tagged_b k m
         | LcLiteral _ => true
         | LcFixed _ => false
         end.
  Definition field_names (d : element_def) : option (list string) :=
    match mapM field_ident (match ed_content d with
                            | None => []
                            | Some (EcLeaf n _) => [n]
                            | Some (EcLeaves ls) => map lf_name ls
                            end ++ map a_name (ed_attributes d)) with
    | Ok l => Some l
    | _ => None
    end.
  Definition enc_root (r : root) : bool :=
    match r with
    | RootLeaf _ | RootEnum _ => true
    | RootElement d =>
        forallb plain_attr_b (ed_attributes d) &&
        match field_names d with Some l => nodupb String.eqb l | None => false end &&
        match ed_content d with
        | Some (EcLeaves ls) => forallb enc_leaf ls
        | _ => true
        end
    | RootChoice d =>
        forallb enc_variant (cd_variants d) &&
        match mapM (fun f => variant_ident (lf_name f)) (cd_variants d) with
        | Ok l => nodupb String.eqb l
        | _ => false
        end
    end.
End Check.

Definition writable_b (k : nat) : bool :=
  match written_nss with
  | Some nss => decls_ok nss && each_root c gs (fun _ r => enc_root nss k r)
  | None => false
  end.
(** Documents can be written for the type [n]. *)
Definition entry_b (k : nat) (n : name) : bool :=
  match written_nss with
  | Some nss => name_b nss (get_xml_element_name c n) n && tagged_b k n
  | None => false
  end.
End Spec.

Scheme canon_content_mut := Minimality for canon_content Sort Prop
  with canon_root_mut := Minimality for canon_root Sort Prop
  with canon_fields_mut := Minimality for canon_fields Sort Prop
  with canon_leaves_mut := Minimality for canon_leaves Sort Prop
  with canon_leaf_mut := Minimality for canon_leaf Sort Prop
  with canon_each_mut := Minimality for canon_each Sort Prop
  with canon_variant_mut := Minimality for canon_variant Sort Prop.
Combined Scheme canon_ind from canon_content_mut, canon_root_mut, canon_fields_mut, canon_leaves_mut,
  canon_leaf_mut, canon_each_mut, canon_variant_mut.
Scheme indented_mut := Minimality for indented Sort Prop with indented_kids_mut := Minimality for indented_kids Sort Prop
  with indented_all_mut := Minimality for indented_all Sort Prop.
Combined Scheme indented_ind3 from indented_mut, indented_kids_mut, indented_all_mut.
