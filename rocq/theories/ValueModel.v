(** Values of the language and the comparison / hashing dispatch (src/lib/objects/objects.c, o_int.c, o_float.c, o_bool.c,
    o_none.c, o_string.c).
    Simplification: objects that are immutable and whose identity cannot be observed by a program (none, booleans,
    integers, floats, strings, type objects, the "any" type) are immediate values; every other object is a
    reference [VRef]. *)
From Coq Require Import ZArith List Lia Bool.
From Verif Require Import Base Utf8Model HashModel FloatModel StringModel.
Import ListNotations.
Open Scope Z_scope.

(** The type objects: objects.c:39 t_type and the static [t_*] of the o_*.c files and of run.c:120,291. *)
Inductive tyname :=
  TyType | TyNone | TyBool | TyInt | TyFloat | TyString | TyList | TyMap | TyFun | TyNFun | TyBuffer
| TyFile | TyDir | TyClosure | TyNullable | TySum | TyAny | TySMap.

(** objects.c:84-90 Object_GetType, comparison of type pointers. *)
Definition tyname_eqb (a b : tyname) : bool :=
  match a, b with
  | TyType, TyType | TyNone, TyNone | TyBool, TyBool | TyInt, TyInt | TyFloat, TyFloat | TyString, TyString
  | TyList, TyList | TyMap, TyMap | TyFun, TyFun | TyNFun, TyNFun | TyBuffer, TyBuffer | TyFile, TyFile
  | TyDir, TyDir | TyClosure, TyClosure | TyNullable, TyNullable | TySum, TySum | TyAny, TyAny
  | TySMap, TySMap => true
  | _, _ => false
  end.

(** objects.h:45-48, o_int.c:42-45, o_float.c:42-45, o_bool.c:34-60, o_none.c:40-54, o_string.c:38-44: A value: [VFloat] carries the 64-bit pattern, [VStr] the content bytes, [VRef] a heap location. *)
Inductive value :=
  VNone | VBool (b : bool) | VInt (z : Z) | VFloat (bits : Z) | VStr (bytes : list Z) | VType (t : tyname) | VAny
| VRef (l : nat).

(** The string object holding [bs] (o_string.c:137-171: the character count is computed at creation). *)
Definition str_of (bs : list Z) : strobj :=
  mkstr (match utf8_strlen bs (length bs) with SLen n => n | _ => 0 end) bs.

(** objects.c:84-89 Object_GetType; [rt] gives the type of heap objects. *)
Definition type_of (rt : nat -> tyname) (v : value) : tyname :=
  match v with
  | VNone => TyNone | VBool _ => TyBool | VInt _ => TyInt | VFloat _ => TyFloat | VStr _ => TyString
  | VType _ => TyType | VAny => TyAny | VRef l => rt l
  end.

(** objects.c:272-288 Object_Compare, with the op_eql of each type: o_int.c:114-127, o_float.c:74-85,
    o_bool.c:80-88, o_none.c:97-103, o_string.c:205-218, objects.c:66-69 (types). The other types have no op_eql:
    [None] = error reported. *)
Definition obj_compare (rt : nat -> tyname) (v w : value) : option bool :=
  if negb (tyname_eqb (type_of rt v) (type_of rt w)) then Some false else
  match v, w with
  | VNone, VNone => Some true
  | VBool a, VBool b => Some (Bool.eqb a b)
  | VInt a, VInt b => Some (a =? b)
  | VFloat a, VFloat b => Some (f_eq a b)
  | VStr a, VStr b => Some (str_eql (str_of a) (str_of b))
  | VType a, VType b => Some (tyname_eqb a b)
  | _, _ => None
  end.

(** objects.c:108-114 Object_Hash on immediate values: o_int.c:57-64, o_float.c:57-65, o_bool.c:61-71, o_none.c:66-71,
    o_string.c:183-191. [None]: the type has no hash function (the call goes through a NULL pointer) or the value
    is a heap object (see VmModel). *)
Definition scalar_hash (v : value) : option Z :=
  match v with
  | VNone => Some 0
  | VBool b => Some (if b then 1 else 0)
  | VInt z => Some (hash8 z)
  | VFloat b => Some (hash8 b)
  | VStr bs => str_hash (str_of bs)
  | _ => None
  end.
