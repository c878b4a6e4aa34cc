(** * Samples: shorthand for concrete schemas and documents in examples *)
From Verif Require Import Base Libs Xml Ast XsdNode Parse Decode Writer Gen Run Harness.

Definition r0 : range := (0%N, 0%N).
Definition at_ (n v : string) : attr := mkAttr n None v r0.
(** XSD markup, instance elements (in no namespace / in namespace urn:t). *)
Definition xs (t : string) (ats : list attr) (ks : list xelem) : xelem :=
  XE t (Some NS_XSD) ats [] r0 (map KElem ks).
Definition el (t : string) (ats : list attr) (ks : list xelem) : xelem :=
  XE t None ats [] r0 (map KElem ks).
Definition txt (t s : string) : xelem := XE t None [] [] r0 [KText s].
Definition elq (t : string) (ats : list attr) (ks : list xelem) : xelem :=
  XE t (Some "urn:t") ats [] r0 (map KElem ks).
Definition txtq (t s : string) : xelem := XE t (Some "urn:t") [] [] r0 [KText s].

(** [<xs:schema xmlns:xs=".." xmlns:t="urn:t" ats>ks</xs:schema>] *)
Definition xschema (ats : list attr) (ks : list xelem) : xelem :=
  XE "schema" (Some NS_XSD) ats [(Some "xs", NS_XSD); (Some "t", "urn:t")] r0 (map KElem ks).

Definition parse_doc {L : Libs} (doc : xelem) : res schema_err schema :=
  parse_file 40 (list_fs [("m.xsd", doc)]) "m.xsd".
Definition gen_doc {L : Libs} (doc : xelem) : G program := gen_file 40 [("m.xsd", doc)] "m.xsd".

(** Decode with / encode with the code generated for a schema. *)
Definition read_with {L : Libs} (doc : xelem) (ty : string) (x : xelem) : option (res from_xml_err value) :=
  match gen_doc doc with Ok p => Some (from_xml p 40 ty x) | _ => None end.
Definition write_with {L : Libs} (doc : xelem) (ty : string) (v : value) : option (res unit (list event)) :=
  match gen_doc doc with Ok p => Some (to_xml p 40 ty v) | _ => None end.

Definition xelement (ats : list attr) (ks : list xelem) := xs "element" ats ks.
Definition xcomplex (ks : list xelem) := xs "complexType" [] ks.
Definition xsequence (ks : list xelem) := xs "sequence" [] ks.
Definition xtyped (n t : string) := xs "element" [at_ "name" n; at_ "type" t] [].

(** The schema context of a parsed schema, the names in it, the module. *)
Definition ctx_of {L : Libs} (doc : xelem) : schema_ctx :=
  match parse_doc doc with Ok s => s_context s | _ => mkSchemaCtx [] NsNone false namespaces_default end.
Definition names_of {L : Libs} (doc : xelem) : list name := map fst (sc_elements (ctx_of doc)).
Definition module_of {L : Libs} (doc : xelem) : program := match gen_doc doc with Ok p => p | _ => [] end.

Fixpoint nodupb (l : list string) : bool :=
  match l with [] => true | x :: l' => andb (negb (existsb (String.eqb x) l')) (nodupb l') end.
Lemma nodupb_NoDup l : nodupb l = true -> NoDup l.
Proof.
  induction l as [|x l IH]; simpl; intros H; constructor; apply andb_true_iff in H; destruct H as [A B]; auto.
  intros I. apply negb_true_iff in A. assert (existsb (String.eqb x) l = true); [|congruence].
  apply existsb_exists. exists x. split; [exact I|apply String.eqb_refl].
Qed.
