(** * C10-C15, C17, C18, C20, C21, C49: decoding *)
From Coq Require Import Permutation.
From Verif Require Import Base Libs Xml Ast XsdNode Parse Decode Gen Run Harness Samples CursorSpec
  GenSpec DecSpec ReadSpec RepSpec SimSpec DecProof1 DecProof2 SimProof.

Ltac by_compute := vm_compute; reflexivity.

(** A schema with most kinds of fields, used below. *)
Definition occ (mn mx : string) : list attr := [at_ "minOccurs" mn; at_ "maxOccurs" mx].
Definition ex_order : xelem :=
  xschema [at_ "targetNamespace" "urn:t"; at_ "elementFormDefault" "qualified"]
    [xelement [at_ "name" "order"]
      [xcomplex [xsequence
        [xtyped "id" "xs:int";
         xelement ([at_ "name" "note"; at_ "type" "xs:string"] ++ occ "0" "1") [];
         xelement ([at_ "name" "item"; at_ "type" "xs:string"] ++ occ "1" "unbounded") [];
         xelement ([at_ "name" "tag"; at_ "type" "xs:string"] ++ occ "0" "unbounded") [];
         xelement [at_ "name" "version"; at_ "type" "xs:string"; at_ "fixed" "1.0"] [];
         xs "choice" [] [xtyped "cash" "xs:boolean"; xtyped "card" "xs:string"]];
        xs "attribute" [at_ "name" "lang"; at_ "type" "xs:string"] [];
        xs "attribute" [at_ "name" "currency"; at_ "type" "xs:string"; at_ "use" "required"] []]]].
Definition ex_order_doc : xelem :=
  elq "order" [at_ "currency" "EUR"]
    [txtq "id" "7"; txtq "item" "a"; txtq "item" "b"; txtq "version" "1.0"; txtq "card" "x"].
Definition ex_order_value : value :=
  VStruct [("id", VInt 7); ("note", VNone); ("item", VVec [VStr "a"; VStr "b"]); ("tag", VNone);
           ("version", VUnit); ("ca", VChoice "Card" (VStr "x"));
           ("lang", VNone); ("currency", VStr "EUR")].

Example order_generated : generated 40 (ctx_of ex_order) (names_of ex_order) (module_of ex_order)
  /\ length (module_of ex_order) = 2.
Proof.
  split; [split; [by_compute|]|by_compute].
  apply nodupb_NoDup. by_compute.
Qed.
Example order_decodes : read_with ex_order "Order" ex_order_doc = Some (Ok ex_order_value).
Proof. by_compute. Qed.

(** C49: the generated decoder ends with the result [o] exactly when the
    schema-level rules of DecSpec.v give [o]; more fuel does not change the
    result, and the rules give at most one result. *)
Theorem C49_decoder_meets_spec : forall (L : Libs) gfuel c gs p n id e o,
  generated gfuel c gs p -> In n gs -> type_ident n = Ok id -> fin o ->
  ((exists fuel, from_xml p fuel id e = o) <-> read_doc c gs n e o).
Proof. intros L gfuel c gs p n id e o G. exact (decoder_spec gfuel c gs p G n id e o). Qed.
Print Assumptions C49_decoder_meets_spec.

Theorem C49_stable : forall (L : Libs) p id e f f' o,
  from_xml p f id e = o -> fin o -> f <= f' -> from_xml p f' id e = o.
Proof. exact @from_xml_stable. Qed.
Print Assumptions C49_stable.

Theorem C49_deterministic : forall (L : Libs) gfuel c gs p n e o o',
  generated gfuel c gs p -> In n gs -> read_doc c gs n e o -> read_doc c gs n e o' -> o = o'.
Proof. intros L gfuel c gs p n e o o' G. exact (decoder_det gfuel c gs p G n e o o'). Qed.
Print Assumptions C49_deterministic.

Example C49_example : exists fuel, from_xml (module_of ex_order) fuel "Order" ex_order_doc = Ok ex_order_value.
Proof. exists 40. by_compute. Qed.

(** C10: a decoded value describes its document (RepSpec.v): every child used is
    an element the value stands for, in document order within a type without
    xs:all, and the rest of the children is left alone. *)
Theorem C10_described : forall (L : Libs) gfuel c gs p n id e fuel v,
  generated gfuel c gs p -> In n gs -> type_ident n = Ok id -> from_xml p fuel id e = Ok v ->
  rep_doc c gs shuffle (leftovers shuffle) any_number n v e /\ (all_ordered c gs -> rep_doc c gs appended (leftovers appended) any_number n v e).
Proof. exact @described. Qed.
Print Assumptions C10_described.

Example C10_example : all_ordered (ctx_of ex_order) (names_of ex_order) /\
  rep_doc (ctx_of ex_order) (names_of ex_order) appended (leftovers appended) any_number (mkName "order" (NsId 1)) ex_order_value ex_order_doc.
Proof.
  assert (O : all_ordered (ctx_of ex_order) (names_of ex_order)).
  { intros n r f I G If. vm_compute in I. vm_compute in G.
    destruct I as [<-|[<-|[]]]; vm_compute in G; injection G as <-; simpl in If; intuition (subst; reflexivity). }
  split; [exact O|]. apply (C10_described _ 40 _ _ (module_of ex_order) _ "Order" _ 40); auto.
  - exact (proj1 order_generated).
  - vm_compute. auto 10.
Qed.

(** C11: the code reading a required single element of a sequence. *)
Theorem C11_required_next : forall (L : Libs) gfuel c l f r,
  leaf_from_xml gfuel c l = Ok (f, r) -> plain l -> single l -> required l -> ordered l ->
  exists ns x, quote_xml_namespace c (lf_name l) = Some ns
  /\ content_from_xml gfuel c (ld_content (lf_def l)) = Ok x
  /\ forall call look k e s,
     (next_is_not (nm (lf_name l)) ns (remaining s) ->
        run_fr real_ops call look k r e s = Err (FeMissingElement (nm (lf_name l)) ns))
     /\ (forall v s', run_fr real_ops call look k r e s = Ok (v, s') ->
          exists y, next_is (nm (lf_name l)) ns (remaining s) y (remaining s')
                    /\ run_sub real_ops call x y = Ok v).
Proof. exact @required_next. Qed.
Print Assumptions C11_required_next.

(** The same for a document: the members before [f] are read, [f] is not next. *)
Theorem C11_document : forall (L : Libs) gfuel c gs p n id d pre f post ns rns e vs l,
  generated gfuel c gs p -> In n gs -> type_ident n = Ok id ->
  sc_get c n = Some (RootElement d) -> ed_content d = Some (EcLeaves (pre ++ f :: post)) ->
  plain f -> single f -> required f -> ordered f -> xname c f (nm (lf_name f)) ns ->
  quote_xml_namespace c n = Some rns -> named (nm n) rns e ->
  read_leaves c gs pre e (xe_children e) (Ok (vs, l)) -> next_is_not (nm (lf_name f)) ns l ->
  eventually (fun fuel => from_xml p fuel id e = Err (FeMissingElement (nm (lf_name f)) ns)).
Proof. intros L gfuel c gs p n id d pre f post ns rns e vs l G. exact (required_document gfuel c gs p G n id d pre f post ns rns e vs l). Qed.
Print Assumptions C11_document.

Theorem C11_never_defaulted : forall (L : Libs) gfuel c gs p n id d ls f ns e fuel v,
  generated gfuel c gs p -> In n gs -> type_ident n = Ok id ->
  sc_get c n = Some (RootElement d) -> ed_content d = Some (EcLeaves ls) ->
  In f ls -> plain f -> single f -> required f -> xname c f (nm (lf_name f)) ns ->
  from_xml p fuel id e = Ok v -> exists x, In x (xe_children e) /\ named (nm (lf_name f)) ns x.
Proof. intros L gfuel c gs p n id d ls f ns e fuel v G. exact (never_defaulted gfuel c gs p G n id d ls f ns e fuel v). Qed.
Print Assumptions C11_never_defaulted.

Example C11_example :
  read_with ex_order "Order" (elq "order" [at_ "currency" "EUR"] [txtq "item" "a"; txtq "id" "7"])
    = Some (Err (FeMissingElement "id" (Some "urn:t")))
  /\ read_with ex_order "Order" (elq "order" [at_ "currency" "EUR"]
       [txtq "id" "7"; txtq "item" "a"; txtq "cash" "true"])
    = Some (Err (FeMissingElement "version" (Some "urn:t"))).
Proof. split; by_compute. Qed.

(** C12, the part that holds: all members of the xs:all are required. [ks] are
    children in any other order (with any text and comments in between). Missing
    for the full statement: optional members, see [C12_all_refuted]. *)
Theorem C12_all_partial : forall (L : Libs) gfuel c gs p n d ls id e ks fuel,
  generated gfuel c gs p -> In n gs -> type_ident n = Ok id ->
  sc_get c n = Some (RootElement d) -> ed_content d = Some (EcLeaves ls) -> Forall all_leaf ls ->
  NoDup (map kid_name (xe_children e)) -> Permutation (xe_children e) (elems_of ks) ->
  from_xml p fuel id (with_kids e ks) = from_xml p fuel id e.
Proof. exact @all_order. Qed.
Print Assumptions C12_all_partial.

Definition ex_all (opt : list attr) : xelem :=
  xschema [] [xelement [at_ "name" "p"] [xcomplex [xs "all" []
    [xelement ([at_ "name" "x"; at_ "type" "xs:int"] ++ opt) []; xtyped "y" "xs:int"; xtyped "z" "xs:int"]]]].
Example C12_example :
  read_with (ex_all []) "P" (el "p" [] [txt "x" "1"; txt "y" "2"; txt "z" "3"])
    = Some (Ok (VStruct [("x", VInt 1); ("y", VInt 2); ("z", VInt 3)]))
  /\ read_with (ex_all []) "P" (el "p" [] [txt "z" "3"; txt "x" "1"; txt "y" "2"])
    = Some (Ok (VStruct [("x", VInt 1); ("y", VInt 2); ("z", VInt 3)])).
Proof. split; by_compute. Qed.

(** C12 in full is false: an optional member that is not the first child is lost. *)
Theorem C12_all_refuted : exists doc l l' v v',
  Permutation l l' /\ NoDup (map kid_name l)
  /\ read_with doc "P" (el "p" [] l) = Some (Ok v) /\ read_with doc "P" (el "p" [] l') = Some (Ok v') /\ v <> v'.
Proof.
  exists (ex_all [at_ "minOccurs" "0"]), [txt "x" "1"; txt "y" "2"; txt "z" "3"], [txt "y" "2"; txt "x" "1"; txt "z" "3"].
  exists (VStruct [("x", VSome (VInt 1)); ("y", VInt 2); ("z", VInt 3)]), (VStruct [("x", VNone); ("y", VInt 2); ("z", VInt 3)]).
  split; [apply perm_swap|]. split; [|split; [by_compute|split; [by_compute|discriminate]]].
  repeat constructor; simpl; intuition discriminate.
Qed.
Print Assumptions C12_all_refuted.

(** C13: the code reading an optional element, and a repeated one. *)
Theorem C13_optional : forall (L : Libs) gfuel c l f r,
  leaf_from_xml gfuel c l = Ok (f, r) -> plain l -> single l -> optional l ->
  exists ns x, quote_xml_namespace c (lf_name l) = Some ns
  /\ content_from_xml gfuel c (ld_content (lf_def l)) = Ok x
  /\ forall call look k e s,
     (next_is_not (nm (lf_name l)) ns (remaining s) -> exists s',
        run_fr real_ops call look k r e s = Ok (VNone, s') /\ remaining s' = remaining s)
     /\ (forall y l', next_is (nm (lf_name l)) ns (remaining s) y l' -> exists s',
        run_fr real_ops call look k r e s = rmap (fun v => (VSome v, s')) (run_sub real_ops call x y)
        /\ remaining s' = l').
Proof. exact @optional_next. Qed.
Print Assumptions C13_optional.

Theorem C13_repeated : forall (L : Libs) gfuel c l f r,
  leaf_from_xml gfuel c l = Ok (f, r) -> plain l -> repeated l ->
  exists ns x, quote_xml_namespace c (lf_name l) = Some ns
  /\ content_from_xml gfuel c (ld_content (lf_def l)) = Ok x
  /\ forall call look k e s w s', run_fr real_ops call look k r e s = Ok (w, s') ->
     exists xs vs, longest_run (nm (lf_name l)) ns (remaining s) xs (remaining s')
       /\ Forall2 (fun y v => run_sub real_ops call x y = Ok v) xs vs
       /\ (required l -> w = VVec vs)
       /\ (optional l -> (xs = [] /\ w = VNone) \/ (xs <> [] /\ w = VSome (VVec vs))).
Proof. exact @repeated_run. Qed.
Print Assumptions C13_repeated.

Example C13_example : read_with ex_order "Order" (elq "order" [at_ "currency" "EUR"]
    [txtq "id" "7"; txtq "note" "n"; txtq "tag" "a"; txtq "tag" "b"; txtq "version" "1.0"; txtq "cash" "true"])
  = Some (Ok (VStruct [("id", VInt 7); ("note", VSome (VStr "n")); ("item", VVec []);
       ("tag", VSome (VVec [VStr "a"; VStr "b"])); ("version", VUnit);
       ("ca", VChoice "Cash" (VBool true)); ("lang", VNone); ("currency", VStr "EUR")])).
Proof. by_compute. Qed.

(** C14 is false: an element allowed two or three times is accepted once and
    four times (the bounds are only used to pick the Rust type). *)
Theorem C14_bounds_refuted : exists doc v1 v4,
  doc = xschema [] [xelement [at_ "name" "p"] [xcomplex [xsequence
          [xelement ([at_ "name" "x"; at_ "type" "xs:int"] ++ occ "2" "3") []]]]]
  /\ read_with doc "P" (el "p" [] [txt "x" "1"]) = Some (Ok v1)
  /\ read_with doc "P" (el "p" [] [txt "x" "1"; txt "x" "1"; txt "x" "1"; txt "x" "1"]) = Some (Ok v4).
Proof.
  eexists. exists (VStruct [("x", VVec [VInt 1])]), (VStruct [("x", VVec [VInt 1; VInt 1; VInt 1; VInt 1])]).
  split; [reflexivity|]. split; by_compute.
Qed.
Print Assumptions C14_bounds_refuted.

(** C15, the if/else-if chain of a choice of elements: it selects by the next
    child ... *)
Theorem C15_selects : forall (L : Libs) gfuel c call look self k e vs arms,
  mapM (variant_from_xml gfuel c) vs = Ok arms -> Forall plain vs -> forall s,
  (exists l, In l vs /\ (exists ns y l', quote_xml_namespace c (lf_name l) = Some ns
                          /\ next_is (nm (lf_name l)) ns (remaining s) y l')
             /\ exists s1, remaining s1 = remaining s
             /\ variant_reads gfuel c call l k s1 (run_arms real_ops call look k self arms e s))
  \/ ((forall l ns, In l vs -> quote_xml_namespace c (lf_name l) = Some ns ->
         next_is_not (nm (lf_name l)) ns (remaining s))
      /\ run_arms real_ops call look k self arms e s = Err (FeMissingVariant self)).
Proof. exact @choice_selects. Qed.
Print Assumptions C15_selects.

(** ... whatever the order of the variants ... *)
Theorem C15_order : forall (L : Libs) gfuel c p f k self e vs vs' arms,
  mapM (variant_from_xml gfuel c) vs = Ok arms -> Permutation vs vs' -> Forall plain vs -> NoDup (xnames c vs) ->
  exists arms', mapM (variant_from_xml gfuel c) vs' = Ok arms' /\
  forall s, seen (run_arms real_ops (run_type real_ops p f) (run_look real_ops p f) k self arms' e s)
          = seen (run_arms real_ops (run_type real_ops p f) (run_look real_ops p f) k self arms e s).
Proof. exact @choice_order. Qed.
Print Assumptions C15_order.

(** ... and the type generated for the choice returns exactly the value of the
    selected variant and leaves the other children (read_sub, read_run: the
    schema-level rules of DecSpec.v, see C49). *)
Theorem C15_choice : forall (L : Libs) gfuel c gs p n id d e s,
  generated gfuel c gs p -> In n gs -> type_ident n = Ok id -> sc_get c n = Some (RootChoice d) ->
  Forall plain (cd_variants d) -> NoDup (xnames c (cd_variants d)) ->
  (forall f i ns x l o, In f (cd_variants d) -> single f -> variant_ident (lf_name f) = Ok i ->
     xname c f (nm (lf_name f)) ns -> next_is (nm (lf_name f)) ns (remaining s) x l ->
     read_sub c gs (ld_content (lf_def f)) x o ->
     eventually (fun fuel => seen (run_type real_ops p fuel id e s) = rmap (fun w => (VChoice i w, l)) o))
  /\ (forall f i ns x l o, In f (cd_variants d) -> repeated f -> variant_ident (lf_name f) = Ok i ->
     xname c f (nm (lf_name f)) ns -> next_is (nm (lf_name f)) ns (remaining s) x l ->
     read_run c gs (nm (lf_name f)) ns (ld_content (lf_def f)) (remaining s) o ->
     eventually (fun fuel => seen (run_type real_ops p fuel id e s)
                             = rmap (with_rest (fun ws => VChoice i (VVec ws))) o))
  /\ ((forall f ns, In f (cd_variants d) -> xname c f (nm (lf_name f)) ns ->
         next_is_not (nm (lf_name f)) ns (remaining s)) ->
     eventually (fun fuel => seen (run_type real_ops p fuel id e s) = Err (FeMissingVariant id))).
Proof. intros L gfuel c gs p n id d e s G. exact (choice_reads gfuel c gs p G n id d e s). Qed.
Print Assumptions C15_choice.

Definition ex_choice (ks : list xelem) : xelem :=
  xschema [] [xelement [at_ "name" "pay"] [xcomplex [xs "choice" [] ks]]].
Example C15_example :
  let cash := xtyped "cash" "xs:int" in
  let card := xelement ([at_ "name" "card"; at_ "type" "xs:string"] ++ occ "1" "unbounded") [] in
  map (fun d => read_with (ex_choice [cash; card]) "Pay" (el "pay" [] d)) [[txt "cash" "1"]; [txt "card" "a"; txt "card" "b"]; [txt "x" "1"]; []]
  = map (fun d => read_with (ex_choice [card; cash]) "Pay" (el "pay" [] d)) [[txt "cash" "1"]; [txt "card" "a"; txt "card" "b"]; [txt "x" "1"]; []]
  /\ map (fun d => read_with (ex_choice [cash; card]) "Pay" (el "pay" [] d)) [[txt "cash" "1"]; [txt "card" "a"; txt "card" "b"]; [txt "x" "1"]; []]
  = [Some (Ok (VStruct [("pay_data", VChoice "Cash" (VInt 1))]));
     Some (Ok (VStruct [("pay_data", VChoice "Card" (VVec [VStr "a"; VStr "b"]))]));
     Some (Err (FeMissingVariant "PayData")); Some (Err (FeMissingVariant "PayData"))].
Proof. split; by_compute. Qed.

(** C17, the part that holds: elements. Missing for the full statement:
    attributes, see [C17_attributes_refuted]. *)
Theorem C17_fixed_elements_partial : forall (L : Libs) gfuel c ct s x,
  content_from_xml gfuel c ct = Ok x -> final c ct (LcFixed s) ->
  forall C (call : string -> xelem -> C -> R (value * C)) e st,
    (d_text e = Ok s -> run_rx call x e st = Ok (VUnit, st))
    /\ (forall t, d_text e = Ok t -> t <> s -> run_rx call x e st = Err (FeFixedMismatch s t))
    /\ (forall v st', run_rx call x e st = Ok (v, st') -> d_text e = Ok s /\ v = VUnit /\ st' = st).
Proof. exact @fixed_content. Qed.
Print Assumptions C17_fixed_elements_partial.

Example C17_example : read_with ex_order "Order" (elq "order" [at_ "currency" "EUR"]
    [txtq "id" "7"; txtq "item" "a"; txtq "version" "1.1"; txtq "cash" "true"])
  = Some (Err (FeFixedMismatch "1.0" "1.1")).
Proof. by_compute. Qed.

(** C17 in full is false: a fixed attribute may have any value in the document. *)
Theorem C17_attributes_refuted : exists doc v,
  doc = xschema [] [xelement [at_ "name" "p"] [xcomplex [xsequence []; xs "attribute"
          [at_ "name" "v"; at_ "type" "xs:string"; at_ "use" "required"; at_ "fixed" "1.0"] []]]]
  /\ read_with doc "P" (el "p" [at_ "v" "2.0"] []) = Some (Ok v).
Proof. eexists. eexists. split; [reflexivity|]. by_compute. Qed.
Print Assumptions C17_attributes_refuted.

(** C18: the code reading an attribute. *)
Theorem C18_attributes : forall (L : Libs) gfuel c a r,
  attr_from_xml gfuel c a = Ok r -> exists f, field_ident (a_name a) = Ok f /\
  forall p e,
    (lacks e (nm (a_name a)) -> a_optional a = false -> run_ra p r e = Err (FeMissingAttribute (nm (a_name a))))
    /\ (lacks e (nm (a_name a)) -> a_optional a = true -> run_ra p r e = Ok (f, VNone))
    /\ (forall s, carries e (nm (a_name a)) s ->
         run_ra p r e = rmap (fun v => (f, if a_optional a then VSome v else v)) (run_ax p (ra_conv r) s)).
Proof. exact @attribute_read. Qed.
Print Assumptions C18_attributes.

(** Documents that agree on the declared attributes (and otherwise as
    [similar] says) decode alike: other attributes, in particular those of
    foreign namespaces, have no influence. *)
Theorem C18_undeclared : forall (L : Libs) gfuel c gs p n id e e',
  generated gfuel c gs p -> In n gs -> type_ident n = Ok id -> similar c gs e e' -> agree p id e e'.
Proof. exact @similar_agree. Qed.
Print Assumptions C18_undeclared.

Example C18_example :
  read_with ex_order "Order" (elq "order" [at_ "lang" "de"] (xe_children ex_order_doc))
    = Some (Err (FeMissingAttribute "currency"))
  /\ read_with ex_order "Order" (elq "order" [mkAttr "lang" (Some "urn:x") "de" r0; at_ "junk" "1"; at_ "currency" "EUR"]
         (xe_children ex_order_doc)) = Some (Ok ex_order_value).
Proof. split; by_compute. Qed.

(** C20, the part that holds: [e'] is [e] with attributes added, and children of
    undeclared names appended, at any depth; but nothing is appended to an empty
    element whose text is read. That case is missing, see [C20_empty_refuted]. *)
Theorem C20_extended_partial : forall (L : Libs) gfuel c gs p n id e e',
  generated gfuel c gs p -> In n gs -> type_ident n = Ok id -> extended c gs e e' -> agree p id e e'.
Proof.
  intros L gfuel c gs p n id e e' G I Ei E. apply (similar_agree gfuel c gs p n id e e' G I Ei).
  exact (proj1 (extended_similar c gs) e e' E).
Qed.
Print Assumptions C20_extended_partial.

Example C20_example : read_with ex_order "Order"
    (elq "order" [at_ "currency" "EUR"; at_ "more" "1"] (xe_children ex_order_doc ++ [txt "more" "1"; elq "more" [] []]))
  = Some (Ok ex_order_value).
Proof. by_compute. Qed.

(** C20 in full is false: a child appended to an empty element of a text type
    turns the empty string into an error. *)
Theorem C20_empty_refuted : exists doc v x,
  read_with doc "P" (el "p" [] [el "s" [] []]) = Some (Ok v)
  /\ read_with doc "P" (el "p" [] [el "s" [] [el "unknown" [] []]]) = Some (Err x).
Proof.
  exists (xschema [] [xelement [at_ "name" "p"] [xcomplex [xsequence [xtyped "s" "xs:string"]]]]).
  eexists. eexists. split; by_compute.
Qed.
Print Assumptions C20_empty_refuted.

(** C21 *)
Theorem C21_layout : forall (L : Libs) gfuel c gs p n id e e',
  generated gfuel c gs p -> In n gs -> type_ident n = Ok id -> relaid c gs e e' -> agree p id e e'.
Proof.
  intros L gfuel c gs p n id e e' G I Ei E. apply (similar_agree gfuel c gs p n id e e' G I Ei).
  exact (proj1 (relaid_similar c gs) e e' E).
Qed.
Print Assumptions C21_layout.

Example C21_example : read_with ex_order "Order"
  (XE "order" (Some "urn:t") [at_ "currency" "EUR"] [] r0
    [KText "  "; KElem (txtq "id" "7"); KOther "c"; KElem (txtq "item" "a"); KText " "; KOther "c"; KText " ";
     KElem (txtq "item" "b"); KElem (txtq "version" "1.0"); KElem (txtq "card" "x"); KText " "])
  = Some (Ok ex_order_value).
Proof. by_compute. Qed.
