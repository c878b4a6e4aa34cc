(** * Harness: running the model on concrete inputs

    Support for Conformance.v, the examples and the refutations; nothing here
    models the repository. *)
From Verif Require Import Base Libs Xml Ast XsdNode Parse Decode Writer Gen Run.

#[global] Existing Instance ascii_libs.

(** The bits of an f32 given by its text. *)
Definition f32_code (s : string) : N := match parse_f32 s with Some n => n | None => 0%N end.

(** A file system given by a list; "./" is dropped when joining paths. *)
Definition strip_dot (s : string) : string :=
  match s with String "." (String "/" s') => s' | _ => s end.
Fixpoint dir_of (s : string) : string :=
  match s with
  | EmptyString => EmptyString
  | String c s' => match dir_of s' with
                   | EmptyString => if Ascii.eqb c "/" then String c EmptyString else
                                    if existsb (Ascii.eqb "/") (list_ascii_of_string s') then String c EmptyString
                                    else EmptyString
                   | t => String c t
                   end
  end.
Definition list_fs (files : list (string * xelem)) : fs :=
  mkFs (fun p => option_map Some (aget String.eqb p files))
       (fun base p => base +++ strip_dot p) dir_of.

Definition gen_file {L : Libs} (fuel : nat) (files : list (string * xelem)) (path : string) : G program :=
  s <- parse_file fuel (list_fs files) path ;; generate_all fuel s.

(** Drop whitespace-only text between elements, and source ranges. *)
Definition all_space (s : string) : bool := is_empty (cleanup_docs s).
Definition has_elem {A} (ks : list (kid A)) : bool := match elems_of ks with [] => false | _ => true end.
Fixpoint strip (e : xelem) : xelem :=
  let 'XE t ns ats _ _ ks := e in
  XE t ns (map (fun a => mkAttr (at_name a) (at_ns a) (at_value a) (0%N, 0%N)) ats) [] (0%N, 0%N)
    (flat_map (fun k => match k with
                        | KElem x => [KElem (strip x)]
                        | KText s => if andb (has_elem ks) (all_space s) then [] else [KText s]
                        | KOther s => [KOther s]
                        end) ks).

Definition attr_eqb (a b : attr) : bool :=
  andb (at_name a =?s at_name b)
    (andb (opt_eqb String.eqb (at_ns a) (at_ns b)) (at_value a =?s at_value b)).
Fixpoint list_eqb {A} (eqb : A -> A -> bool) (l m : list A) : bool :=
  match l, m with
  | [], [] => true
  | a :: l', b :: m' => andb (eqb a b) (list_eqb eqb l' m')
  | _, _ => false
  end.
Fixpoint tree_eqb (fuel : nat) (a b : xelem) : bool :=
  match fuel with
  | O => false
  | S fuel =>
      andb (andb (xe_tag a =?s xe_tag b) (opt_eqb String.eqb (xe_ns a) (xe_ns b)))
        (andb (list_eqb attr_eqb (xe_attrs a) (xe_attrs b))
           (list_eqb (fun k l => match k, l with
                                 | KElem x, KElem y => tree_eqb fuel x y
                                 | KText s, KText t => s =?s t
                                 | KOther s, KOther t => s =?s t
                                 | _, _ => false
                                 end) (xe_kids a) (xe_kids b)))
  end.

Fixpoint value_eqb (fuel : nat) (a b : value) : bool :=
  match fuel with
  | O => false
  | S fuel =>
      match a, b with
      | VStr s, VStr t => s =?s t
      | VBool s, VBool t => Bool.eqb s t
      | VInt s, VInt t => Z.eqb s t
      | VDec s, VDec t => andb (Bool.eqb (dec_neg s) (dec_neg t))
                            (andb (N.eqb (dec_mant s) (dec_mant t)) (N.eqb (dec_scale s) (dec_scale t)))
      | VF32 s, VF32 t => N.eqb s t
      | VUnit, VUnit | VNone, VNone => true
      | VSome v, VSome w | VTuple v, VTuple w => value_eqb fuel v w
      | VVec v, VVec w => list_eqb (value_eqb fuel) v w
      | VEnum s, VEnum t => s =?s t
      | VChoice s v, VChoice t w => andb (s =?s t) (value_eqb fuel v w)
      | VStruct f, VStruct g =>
          andb (Nat.eqb (length f) (length g))
            (forallb (fun kv => match aget String.eqb (fst kv) g with
                                | Some w => value_eqb fuel (snd kv) w
                                | None => false
                                end) f)
      | _, _ => false
      end
  end.


(** One integration test: the document decodes to the value; the value encodes
    to the document (up to indentation) when [exact]. *)
Definition conf (files : list (string * xelem)) (path ty : string) (v : value) (xml : xelem) (exact : bool) : bool :=
  let L := ascii_libs in
  match gen_file 50 files path with
  | Ok p =>
      andb (match from_xml p 50 ty xml with Ok w => value_eqb 50 w v | _ => false end)
        (match to_xml p 50 ty v with
         | Ok evs => match document evs with
                     | Some d => if exact then tree_eqb 50 (strip d) (strip xml)
                                 else match from_xml p 50 ty d with Ok w => value_eqb 50 w v | _ => false end
                     | None => false
                     end
         | _ => false
         end)
  | _ => false
  end.
