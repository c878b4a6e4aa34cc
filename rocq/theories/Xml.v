(** * Xml: the roxmltree view of a parsed document

    roxmltree is not part of /repo. A parsed document is represented by its root
    element; [kid] lists the children of an element (roxmltree merges adjacent
    text and CDATA into one text node, comments and processing instructions are
    nodes of their own). *)
From Verif Require Import Base.

Definition range := (N * N)%type.

(** roxmltree::Attribute: local name, namespace URI, value, source range. *)
Record attr := mkAttr {
  at_name : string;
  at_ns : option string;
  at_value : string;
  at_range : range
}.

Inductive kid (A : Type) : Type :=
| KElem (a : A)
| KText (s : string)
| KOther (s : string).   (* comment or processing instruction *)
Arguments KElem {A} a.
Arguments KText {A} s.
Arguments KOther {A} s.

(** An element: local name, namespace, attributes, namespaces in scope (prefix,
    URI), source range, children. *)
Inductive xelem : Type :=
| XE (tag : string) (ns : option string) (attrs : list attr)
     (nss : list (option string * string)) (rng : range) (kids : list (kid xelem)).

Definition xe_tag (e : xelem) := let 'XE t _ _ _ _ _ := e in t.
Definition xe_ns (e : xelem) := let 'XE _ n _ _ _ _ := e in n.
Definition xe_attrs (e : xelem) := let 'XE _ _ a _ _ _ := e in a.
Definition xe_nss (e : xelem) := let 'XE _ _ _ s _ _ := e in s.
Definition xe_range (e : xelem) := let 'XE _ _ _ _ r _ := e in r.
Definition xe_kids (e : xelem) := let 'XE _ _ _ _ _ k := e in k.

(** [node.children().filter(|c| c.is_element())] *)
Fixpoint elems_of {A} (ks : list (kid A)) : list A :=
  match ks with
  | [] => []
  | KElem a :: ks' => a :: elems_of ks'
  | _ :: ks' => elems_of ks'
  end.
Definition xe_children (e : xelem) : list xelem := elems_of (xe_kids e).

(** Expanded-name comparison used by all cursors. *)
Definition has_name (name : string) (ns : option string) (e : xelem) : bool :=
  andb (xe_tag e =?s name) (opt_eqb String.eqb (xe_ns e) ns).

(** roxmltree [Node::attribute(&str)]: the attribute with that local name and no
    namespace. *)
Fixpoint rox_attribute (attrs : list attr) (name : string) : option string :=
  match attrs with
  | [] => None
  | a :: attrs' =>
      if andb (at_name a =?s name) (opt_eqb String.eqb (at_ns a) None) then Some (at_value a)
      else rox_attribute attrs' name
  end.

(** roxmltree [Node::default_namespace]. *)
Fixpoint nss_default (nss : list (option string * string)) : option string :=
  match nss with
  | [] => None
  | (None, uri) :: _ => Some uri
  | _ :: nss' => nss_default nss'
  end.

(** ** Induction and height *)
Fixpoint height (e : xelem) : nat :=
  let 'XE _ _ _ _ _ ks := e in
  S (list_max (map (fun k => match k with KElem x => height x | _ => 0 end) ks)).

Lemma elems_of_In {A} (ks : list (kid A)) x : In x (elems_of ks) <-> In (KElem x) ks.
Proof.
  induction ks as [|[y|s|s] ks IH]; simpl; [tauto|..].
  - rewrite IH. split; intros [E|E]; auto; left; congruence.
  - rewrite IH. split; [auto|]. intros [E|E]; [discriminate|auto].
  - rewrite IH. split; [auto|]. intros [E|E]; [discriminate|auto].
Qed.

Lemma elems_of_app {A} (a b : list (kid A)) : elems_of (a ++ b) = elems_of a ++ elems_of b.
Proof. induction a as [|[x|s|s] a IH]; simpl; congruence. Qed.

Lemma list_max_ge l n : In n l -> n <= list_max l.
Proof.
  induction l as [|m l IH]; simpl; [tauto|]. intros [->|Hin]; [lia|].
  specialize (IH Hin). lia.
Qed.

Lemma height_child e c : In c (xe_children e) -> height c < height e.
Proof.
  destruct e as [t n a s r ks]. unfold xe_children. simpl xe_kids. rewrite elems_of_In. intros Hin.
  cbn [height]. apply (in_map (fun k => match k with KElem x => height x | _ => 0 end)) in Hin.
  apply list_max_ge in Hin. lia.
Qed.

Lemma height_pos e : 0 < height e.
Proof. destruct e; simpl; lia. Qed.

Lemma has_name_spec n ns e : has_name n ns e = true <-> xe_tag e = n /\ xe_ns e = ns.
Proof.
  unfold has_name. rewrite andb_true_iff, String.eqb_eq, (opt_eqb_eq String.eqb String.eqb_eq). tauto.
Qed.

Lemma xelem_ind' (P : xelem -> Prop)
  (H : forall e, (forall c, In c (xe_children e) -> P c) -> P e) : forall e, P e.
Proof.
  intros e. remember (height e) as n eqn:En. assert (Hn : height e <= n) by lia. clear En.
  revert e Hn. induction n as [|n IH]; intros e Hn.
  - pose proof (height_pos e). lia.
  - apply H. intros c Hc. apply IH. apply height_child in Hc. lia.
Qed.
