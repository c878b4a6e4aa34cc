(** * BodySpec: running the generated functions as Rust: side conditions and what is compared *)
From Verif Require Import Base Libs Xml Decode Writer Gen Run Rust Body RustRules.

(** Associated functions that are called by a path, [Id::f(..)]. A variant with such a name
    would be meant instead. *)
Definition function_names : list string := ["from_xml_node"; "lookahead"].
Definition variants_of (d : decl) : list string :=
  match d with DEnum vs => map fst vs | DChoice vs => map fst vs | _ => [] end.
Definition no_function_variant (p : program) : Prop := forall t w,
  In t p -> In w (variants_of (ti_decl t)) -> ~ In w function_names.
(** That PascalCase does not lead to such names is all that is needed of the library. *)
Definition pascal_law (L : Libs) : Prop := forall s, ~ In (to_pascal_case s) function_names.

Section Results.
Context {L : Libs}.
Variable p : program.

(** [id::f(args)] returns [r] whatever the state of the program is before. *)
Definition returns (id f : string) (args : list rv) (r : rv) : Prop :=
  forall s, exists s', fn_to p (module_fn p) id f args s r s'.
(** ... and has written [out]. *)
Definition writes (id f : string) (args : list rv) (out : list wevent) : Prop :=
  forall s, exists s' r, fn_to p (module_fn p) id f args s (ROk r) s' /\ s_out s' = s_out s ++ out.
(** A result of decoding as a Rust value. *)
Definition result_of (o : res from_xml_err value) (r : rv) : Prop :=
  match o with Ok v => r = ROk (D v) | Err x => r = RErr (Er x) | _ => False end.
End Results.
