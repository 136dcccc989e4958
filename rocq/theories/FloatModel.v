(** binary64 numbers as used for C [double]: a float is its 64-bit pattern; arithmetic and comparison go through
    Coq's [SpecFloat] (axiom-free executable IEEE-754 model, round to nearest even).
    Simplification: an arithmetic result that is a NaN is always the pattern 0x7FF8000000000000 (NaN payloads and signs are
    not modelled; they are not observable through comparison). *)
From Coq Require Import ZArith List Lia Bool.
From Coq Require Import Floats.SpecFloat.
From Verif Require Import Base.
Open Scope Z_scope.

(** run.c:338-493, the C type double (IEEE 754 binary64). *)
Definition prec64 : Z := 53.
(** run.c:338-493, the C type double. *)
Definition emax64 : Z := 1024.

(** o_float.c:42-45, the field [val]: Meaning of a 64-bit pattern. *)
Definition f_decode (b : Z) : spec_float :=
  let s := 2^63 <=? b in
  let e := (b / 2^52) mod 2048 in
  let m := b mod 2^52 in
  if e =? 0 then
    match m with
    | Zpos p => S754_finite s p (-1074)
    | _ => S754_zero s
    end
  else if e =? 2047 then
    if m =? 0 then S754_infinity s else S754_nan
  else
    match m + 2^52 with
    | Zpos p => S754_finite s p (e - 1075)
    | _ => S754_nan
    end.

(** o_float.c:42-45. *)
Definition sgn_bit (s : bool) : Z := if s then 2^63 else 0.

(** o_float.c:42-45: Pattern of a (canonical) float. *)
Definition f_encode (f : spec_float) : Z :=
  match f with
  | S754_zero s => sgn_bit s
  | S754_infinity s => sgn_bit s + 2047 * 2^52
  | S754_nan => 0x7FF8000000000000
  | S754_finite s m e =>
      if Zpos m <? 2^52 then sgn_bit s + Zpos m
      else sgn_bit s + (e + 1075) * 2^52 + (Zpos m - 2^52)
  end.

(** run.c:349, the operator + on double. *)
Definition f_add (a b : Z) : Z := f_encode (SFadd prec64 emax64 (f_decode a) (f_decode b)).
(** run.c:350, the operator - on double. *)
Definition f_sub (a b : Z) : Z := f_encode (SFsub prec64 emax64 (f_decode a) (f_decode b)).
(** run.c:351, the operator * on double. *)
Definition f_mul (a b : Z) : Z := f_encode (SFmul prec64 emax64 (f_decode a) (f_decode b)).
(** run.c:352-358, the operator / on double. *)
Definition f_div (a b : Z) : Z := f_encode (SFdiv prec64 emax64 (f_decode a) (f_decode b)).
(** run.c:540-575, the operator NEG: [-x] flips the sign bit. *)
Definition f_neg (a : Z) : Z := if 2^63 <=? a then a - 2^63 else a + 2^63.
(** run.c:338-423, (double) of a long long int: Conversion of an integer to double, round to nearest even. *)
Definition f_of_int (z : Z) : Z := f_encode (binary_normalize prec64 emax64 z 0 false).

(** o_float.c:74-85, the operator == on double. *)
Definition f_eq (a b : Z) : bool := SFeqb (f_decode a) (f_decode b).
(** run.c:430-438, the operator < on double. *)
Definition f_lt (a b : Z) : bool := SFltb (f_decode a) (f_decode b).
(** run.c:430-438, the operator <= on double. *)
Definition f_le (a b : Z) : bool := SFleb (f_decode a) (f_decode b).

(** o_float.c:42-45, a 64-bit pattern. *)
Definition is_bits (b : Z) : Prop := 0 <= b < 2^64.
(** o_float.c:57-65, the two patterns that compare equal to zero. *)
Definition f_zero_like (b : Z) : Prop := b = 0 \/ b = 2^63.
