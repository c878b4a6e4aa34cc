(** * Decode: xsd/src/decode.rs *)
From Verif Require Import Base Xml.

(** decode.rs:7-37 [FromXmlError]. The boxed library error of [ParseType] and
    the infallible case are dropped. *)
Inductive from_xml_err :=
| FeXml
| FeMissingElement (name : string) (ns : option string)
| FeMissingAttribute (name : string)
| FeTextExpected (name : string)
| FeInvalidVariant (name : string)
| FeMissingVariant (name : string)
| FeParseType (type_ value : string)
| FeFixedMismatch (expected received : string).

(** decode.rs:45-49 [Children]: the iterator (elements not yet pulled), the
    [peeked] queue and the pushed-back [next]. *)
Record children := mkChildren {
  ch_rest : list xelem;
  ch_peeked : list xelem;
  ch_next : option xelem
}.

(** decode.rs:77-86 [Node::new]. *)
Definition children_new (e : xelem) : children := mkChildren (xe_children e) [] None.

(** decode.rs:91-94, 108-109: [peeked.pop_front().or_else(|| children.next())]. *)
Definition pop_peeked_or_next (c : children) : option xelem * children :=
  match ch_peeked c with
  | x :: p => (Some x, mkChildren (ch_rest c) p (ch_next c))
  | [] => match ch_rest c with
          | x :: r => (Some x, mkChildren r [] (ch_next c))
          | [] => (None, c)
          end
  end.

(** decode.rs:88-101 [peek_child]. *)
Definition peek_child (name : string) (ns : option string) (c : children) : bool * children :=
  let c := match ch_next c with
           | Some _ => c
           | None => let '(o, c) := pop_peeked_or_next c in mkChildren (ch_rest c) (ch_peeked c) o
           end in
  (match ch_next c with Some x => has_name name ns x | None => false end, c).

(** decode.rs:103-118 [next_child]. *)
Definition next_child (name : string) (ns : option string) (c : children) : option xelem * children :=
  let '(o, c) := match ch_next c with
                 | Some x => (Some x, mkChildren (ch_rest c) (ch_peeked c) None)
                 | None => pop_peeked_or_next c
                 end in
  match o with
  | Some x => if has_name name ns x then (Some x, c)
              else (None, mkChildren (ch_rest c) (ch_peeked c) (Some x))
  | None => (None, c)
  end.

(** [VecDeque::remove(position)] of the first match, decode.rs:142-147. *)
Fixpoint remove_first (p : xelem -> bool) (l : list xelem) : option (xelem * list xelem) :=
  match l with
  | [] => None
  | x :: l' => if p x then Some (x, l')
               else match remove_first p l' with
                    | Some (y, l'') => Some (y, x :: l'')
                    | None => None
                    end
  end.

(** The [while let] loop of decode.rs:149-156: skipped children go to [peeked]. *)
Fixpoint skip_to (p : xelem -> bool) (rest peeked : list xelem) : option xelem * list xelem * list xelem :=
  match rest with
  | [] => (None, [], peeked)
  | x :: r => if p x then (Some x, r, peeked) else skip_to p r (peeked ++ [x])
  end.

(** decode.rs:132-159 [child]. *)
Definition child (name : string) (ns : option string) (c : children) : option xelem * children :=
  let p := has_name name ns in
  match ch_next c with
  | Some x =>
      if p x then (Some x, mkChildren (ch_rest c) (ch_peeked c) None)
      else match remove_first p (ch_peeked c) with
           | Some (y, pk) => (Some y, mkChildren (ch_rest c) pk (Some x))
           | None => let '(o, r, pk) := skip_to p (ch_rest c) (ch_peeked c) in
                     (o, mkChildren r pk (Some x))
           end
  | None =>
      match remove_first p (ch_peeked c) with
      | Some (y, pk) => (Some y, mkChildren (ch_rest c) pk None)
      | None => let '(o, r, pk) := skip_to p (ch_rest c) (ch_peeked c) in
                (o, mkChildren r pk None)
      end
  end.

(** decode.rs:120-130, 161-167 [try_next_child], [try_child]. The cursor is changed also
    when the answer is an error. The generated code propagates the error ([?]), so
    Run.v does not need the cursor then. *)
Definition or_missing (name : string) (ns : option string) (o : option xelem) : res from_xml_err xelem :=
  match o with
  | Some x => Ok x
  | None => Err (FeMissingElement name ns)
  end.
Definition try_next_child name ns c : res from_xml_err xelem * children :=
  let '(o, c) := next_child name ns c in (or_missing name ns o, c).
Definition try_child name ns c : res from_xml_err xelem * children :=
  let '(o, c) := child name ns c in (or_missing name ns o, c).

(** decode.rs:169-178 [attribute], [try_attribute]. *)
Definition d_attribute (e : xelem) (name : string) : option string := rox_attribute (xe_attrs e) name.
Definition d_try_attribute (e : xelem) (name : string) : res from_xml_err string :=
  match d_attribute e name with
  | Some v => Ok v
  | None => Err (FeMissingAttribute name)
  end.

(** decode.rs:180-188 [text]; roxmltree [Node::text] of an element is the text of
    its first child if that is a text node. *)
Definition d_text (e : xelem) : res from_xml_err string :=
  match xe_kids e with
  | [] => Ok ""
  | KText s :: _ => Ok s
  | _ => Err (FeTextExpected (xe_tag e))
  end.

(** decode.rs:57-73 [Document::child], [Document::try_child]. *)
Definition doc_try_child (root : xelem) (name : string) (ns : option string) : res from_xml_err xelem :=
  if has_name name ns root then Ok root else Err (FeMissingElement name ns).
