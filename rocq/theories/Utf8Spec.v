(** Specification of UTF-8, independent of the code: arithmetic form of the encoding (RFC 3629). *)
From Coq Require Import ZArith List Lia Bool.
From Verif Require Import Base.
Import ListNotations.
Open Scope Z_scope.

(** The UTF-8 form of a code point, with division and remainder. *)
Definition enc (c : Z) : list Z :=
  if c <? 128 then [c]
  else if c <? 2048 then [192 + c / 64; 128 + c mod 64]
  else if c <? 65536 then [224 + c / 4096; 128 + c / 64 mod 64; 128 + c mod 64]
  else [240 + c / 262144; 128 + c / 4096 mod 64; 128 + c / 64 mod 64; 128 + c mod 64].

Definition code_point (c : Z) : Prop := 0 <= c <= 0x10FFFF.
(** Unicode scalar values: code points that are not surrogates. *)
Definition scalar (c : Z) : Prop := code_point c /\ ~ (0xD800 <= c <= 0xDFFF).

(** The text made of a list of code points. *)
Definition encs (cs : list Z) : list Z := concat (map enc cs).

(** Well-formed UTF-8. *)
Definition wf_utf8 (l : list Z) : Prop := exists cs, Forall scalar cs /\ l = encs cs.

(** Number of bytes announced by a lead byte, as the decoder of the interpreter reads it (a stray continuation
    byte counts as a character of its own). *)
Definition lead_len (b : Z) : nat :=
  if b <? 192 then 1 else if b <? 224 then 2 else if b <? 240 then 3 else 4.

(** What the interpreter accepts as one character: the announced number of bytes, whatever the bytes after the
    first one are, and a value in the Unicode range for the 4-byte form. *)
Definition loose_char (ch : list Z) : Prop :=
  Forall is_byte ch /\
  match ch with
  | [] => False
  | b :: r => length ch = lead_len b /\
      (240 <= b -> match r with
                   | [b1; b2; b3] => b mod 8 * 262144 + b1 mod 64 * 4096 + b2 mod 64 * 64 + b3 mod 64 <= 0x10FFFF
                   | _ => False
                   end)
  end.
