(** * FaultSpec: when is a decoding error a true statement about the document?

    [wrong err]: the error [err] tells the truth about the document [e0] read as the
    type [n0]. To say so, the elements of the document are put in relation to the
    types of the schema ([meets], [holds]). Which children belong to the members in
    front of the one complained about is said with RepSpec.v; nothing of the
    generated code is mentioned. *)
From Verif Require Import Base Libs Xml Ast Decode Gen Run CursorSpec DecSpec RepSpec ReadSpec ValidSpec ParseSpec.

Section Fault.
Context {L : Libs}.
Variable c : schema_ctx.
Variable gs : list name.
Variable J : list xelem -> list xelem -> list xelem -> Prop.   (* as in RepSpec.v *)
Variable n0 : name.
Variable e0 : xelem.

(** The members [pre] in front account for the children [used] of [x]; of the children
    [l], [l'] are left. *)
Definition after (pre : list leaf) (x : xelem) (l l' : list xelem) : Prop :=
  exists vs used, rep_leaves c gs J (leftovers J) any_number pre vs x used /\ J used l' l.

(** [meets n r x l]: a value of the type [n], defined as [r], is expected in the element
    [x], of whose children [l] are left. [holds ct x l]: the same for content of kind [ct]. *)
Inductive meets : name -> root -> xelem -> list xelem -> Prop :=
| me_root ns r : In n0 gs -> quote_xml_namespace c n0 = Some ns -> matches (nm n0) ns e0 -> sc_get c n0 = Some r ->
    meets n0 r e0 (xe_children e0)
| me_named ct m n r x l : holds ct x l -> final c ct (LcNamed m) -> type_of c gs m n r -> meets n r x l

with holds : leaf_content -> xelem -> list xelem -> Prop :=
| ho_alias n d x l : meets n (RootLeaf d) x l -> holds (ld_content d) x l
| ho_simple n d k d' x l : meets n (RootElement d) x l -> ed_content d = Some (EcLeaf k d') -> holds (ld_content d') x l
(* a group among the members, possibly repeated: then [used] are those of its earlier repetitions *)
| ho_group n d pre f post x l l1 used l2 : meets n (RootElement d) x l -> ed_content d = Some (EcLeaves (pre ++ f :: post)) ->
    after pre x l l1 -> lf_virtual f = true -> J used l2 l1 -> (lf_is_vec f = false -> used = []) ->
    holds (ld_content (lf_def f)) x l2
| ho_element n d pre f post ns x l l1 y : meets n (RootElement d) x l -> ed_content d = Some (EcLeaves (pre ++ f :: post)) ->
    after pre x l l1 -> lf_virtual f = false -> quote_xml_namespace c (lf_name f) = Some ns ->
    In y l1 -> matches (nm (lf_name f)) ns y -> holds (ld_content (lf_def f)) y (xe_children y)
| ho_variant_group n d f x l : meets n (RootChoice d) x l -> In f (cd_variants d) -> lf_virtual f = true ->
    holds (ld_content (lf_def f)) x l
| ho_variant n d f ns x l y : meets n (RootChoice d) x l -> In f (cd_variants d) -> lf_virtual f = false ->
    quote_xml_namespace c (lf_name f) = Some ns -> In y l -> matches (nm (lf_name f)) ns y ->
    holds (ld_content (lf_def f)) y (xe_children y).

(** The text [s] is given for content of kind [ct]: as an attribute, or as the text of
    an element. *)
Inductive given : leaf_content -> string -> Prop :=
| gi_attribute n d a x l s : meets n (RootElement d) x l -> In a (ed_attributes d) -> carries x (nm (a_name a)) s ->
    given (a_content a) s
| gi_text ct x l s : holds ct x l -> first_text x s -> given ct s.

(** Text is expected in the element [x]. *)
Inductive text_in : xelem -> Prop :=
| ti_literal ct lit x l : holds ct x l -> final c ct (LcLiteral lit) -> text_in x
| ti_fixed ct s x l : holds ct x l -> final c ct (LcFixed s) -> text_in x
| ti_enum n names x l : meets n (RootEnum names) x l -> text_in x.

Inductive wrong : from_xml_err -> Prop :=
(* the document is another element *)
| wr_root ns : quote_xml_namespace c n0 = Some ns -> ~ matches (nm n0) ns e0 -> wrong (FeMissingElement (nm n0) ns)
(* a required member is not the next child left by the members before it; of an xs:all: not among them *)
| wr_element n d pre f post ns x l l1 : meets n (RootElement d) x l -> ed_content d = Some (EcLeaves (pre ++ f :: post)) ->
    after pre x l l1 -> plain f -> single f -> required f -> quote_xml_namespace c (lf_name f) = Some ns ->
    (ordered f -> next_is_not (nm (lf_name f)) ns l1) ->
    (anywhere f -> Forall (fun y => ~ matches (nm (lf_name f)) ns y) l1) ->
    wrong (FeMissingElement (nm (lf_name f)) ns)
(* no alternative of a choice starts with the next child *)
| wr_choice n d id x l : meets n (RootChoice d) x l -> type_ident n = Ok id ->
    (forall f ns, In f (cd_variants d) -> plain f -> quote_xml_namespace c (lf_name f) = Some ns -> next_is_not (nm (lf_name f)) ns l) ->
    (forall f m, In f (cd_variants d) -> lf_virtual f = true -> ld_content (lf_def f) = LcNamed m -> look_group c gs m l false) ->
    wrong (FeMissingVariant id)
| wr_attribute n d a x l : meets n (RootElement d) x l -> In a (ed_attributes d) -> a_optional a = false ->
    lacks x (nm (a_name a)) -> wrong (FeMissingAttribute (nm (a_name a)))
| wr_text x k ks : text_in x -> xe_kids x = k :: ks -> (forall s, k <> KText s) -> wrong (FeTextExpected (xe_tag x))
| wr_literal ct lit s : given ct s -> final c ct (LcLiteral lit) -> prim_from_str (lit_prim lit) s = None ->
    wrong (FeParseType (xsd_name lit) s)
| wr_enum n names x l s : meets n (RootEnum names) x l -> first_text x s -> ~ In s (map nm names) -> wrong (FeInvalidVariant s)
| wr_enum_attribute n d a x l m k names s : meets n (RootElement d) x l -> In a (ed_attributes d) -> carries x (nm (a_name a)) s ->
    final c (a_content a) (LcNamed m) -> type_of c gs m k (RootEnum names) -> ~ In s (map nm names) -> wrong (FeInvalidVariant s)
| wr_fixed ct s x l t : holds ct x l -> final c ct (LcFixed s) -> first_text x t -> t <> s -> wrong (FeFixedMismatch s t).
End Fault.

(** The same without saying which type belongs to which element: an element of the
    document and a declaration of the schema that the error is about. *)
Definition about {L : Libs} (c : schema_ctx) (gs : list name) (n0 : name) (e0 : xelem) (err : from_xml_err) : Prop :=
  let declared r := exists n, In n gs /\ sc_get c n = Some r in
  let said s := exists x, within e0 x /\ (first_text x s \/ exists k, carries x k s) in
  match err with
  | FeMissingElement k ns =>
      (k = nm n0 /\ ~ matches k ns e0)
      \/ (exists d ls f, declared (RootElement d) /\ ed_content d = Some (EcLeaves ls) /\ In f ls /\ required f /\ xname c f k ns)
  | FeMissingVariant id => exists n d, In n gs /\ sc_get c n = Some (RootChoice d) /\ type_ident n = Ok id
  | FeMissingAttribute k =>
      (exists d a, declared (RootElement d) /\ In a (ed_attributes d) /\ nm (a_name a) = k /\ a_optional a = false)
      /\ exists x, within e0 x /\ lacks x k
  | FeTextExpected t => exists x k ks, within e0 x /\ xe_tag x = t /\ xe_kids x = k :: ks /\ forall s, k <> KText s
  | FeInvalidVariant s => said s /\ exists names, declared (RootEnum names) /\ ~ In s (map nm names)
  | FeParseType t s => said s
  | FeXml => False   (* the text is no XML document: not the matter of a tree *)
  | FeFixedMismatch s t => s <> t /\ exists x, within e0 x /\ first_text x t
  end.

(** Types without groups whose members are those of one xs:all, or of elements of
    different names. *)
Definition flat_all (c : schema_ctx) (gs : list name) : Prop :=
  forall n r, In n gs -> sc_get c n = Some r ->
    Forall (fun f => plain f /\ anywhere f) (leaves_of r) /\ NoDup (xnames c (leaves_of r)).

Scheme meets_mut := Minimality for meets Sort Prop
  with holds_mut := Minimality for holds Sort Prop.
Combined Scheme meets_ind2 from meets_mut, holds_mut.
