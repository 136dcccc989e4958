(** Model of src/lib/utils/hash.c. *)
From Coq Require Import ZArith List Lia Bool.
From Verif Require Import Base.
Import ListNotations.
Open Scope Z_scope.

(** hash.c:39-40, one iteration: [x = (1000003UL * x) ^ *str++]: [x] is sign-extended to 64 bits, the product wraps
    modulo 2^64, the result is truncated to [int]. *)
Definition hash_step (x b : Z) : Z := wrap32 (Z.lxor (u64 (1000003 * x)) b).

(** hash.c:34-49 hashbytes. [mem] = bytes readable from [str]; [None] = the first byte cannot be read (the function reads
    [*str] even when [len] is 0) or [len] exceeds the readable bytes. *)
Definition hashbytes (mem : list Z) (len : nat) : option Z :=
  match mem with
  | [] => None
  | b0 :: _ =>
    if (length mem <? len)%nat then None else
    let x := fold_left hash_step (firstn len mem) (b0 * 128) in
    let x := Z.lxor x (Z.of_nat len) in
    Some (if x =? -1 then -2 else x)
  end.

(** The 8 bytes of a 64-bit object in memory, little endian (o_int.c:63, o_float.c:64). *)
Definition le64 (z : Z) : list Z :=
  map (fun i => (z / 2 ^ (8 * Z.of_nat i)) mod 256) (seq 0 8).

(** hash.c:34-48: [hashbytes] on an 8-byte object. *)
Definition hash8 (z : Z) : Z :=
  match hashbytes (le64 z) 8 with Some x => x | None => 0 end.
