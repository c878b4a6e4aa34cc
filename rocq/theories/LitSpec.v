(** * LitSpec: texts and values of the built-in types *)
From Verif Require Import Base Libs Ast Gen Run TextSpec.

(** The values a Rust type can hold. *)
Definition in_prim (p : prim) (v : value) : Prop :=
  match p, v with
  | PString, VStr _ => True
  | PBool, VBool _ => True
  | PI64, VInt z => (-9223372036854775808 <= z <= 9223372036854775807)%Z
  | PU64, VInt z => (0 <= z <= 18446744073709551615)%Z
  | PI32, VInt z => (-2147483648 <= z <= 2147483647)%Z
  | _, _ => False
  end.

(** What each type accepts, as a relation between texts and values. *)
Definition denotes (p : prim) (s : string) (v : value) : Prop :=
  match p, v with
  | PString, VStr t => t = s
  | PBool, VBool b => s = (if b then "true" else "false")
  | PI64, VInt z | PI32, VInt z => signed_text s z
  | PU64, VInt z => unsigned_text s (Z.to_N z)
  | _, _ => False
  end.

Definition modelled_prim (p : prim) : bool :=
  match p with PDecimal | PF32 => false | _ => true end.

(** The built-in type names and what they stand for. *)
Definition builtin_names : list (string * literal) :=
  [("string", LString); ("boolean", LBoolean); ("integer", LInt64); ("long", LInt64);
   ("nonNegativeInteger", LUint64); ("positiveInteger", LUint64); ("int", LInt32);
   ("decimal", LDecimal); ("float", LFloat32); ("time", LTime); ("date", LDate);
   ("dateTime", LDateTime); ("duration", LDuration); ("base64Binary", LBase64Binary);
   ("hexBinary", LHexBinary); ("any", LAny); ("anyType", LAny)].


(** Values of the Rust type, decimals and floats included. *)
Definition prim_value (p : prim) (v : value) : Prop :=
  match p, v with
  | PDecimal, VDec _ | PF32, VF32 _ => True
  | _, _ => in_prim p v
  end.

(** The Rust type that each built-in type name is to be represented by. *)
Definition rust_types : list (string * prim) :=
  [("string", PString); ("boolean", PBool); ("integer", PI64); ("long", PI64);
   ("nonNegativeInteger", PU64); ("positiveInteger", PU64); ("int", PI32);
   ("decimal", PDecimal); ("float", PF32); ("time", PString); ("date", PString);
   ("dateTime", PString); ("duration", PString); ("base64Binary", PString);
   ("hexBinary", PString); ("any", PString); ("anyType", PString)].
