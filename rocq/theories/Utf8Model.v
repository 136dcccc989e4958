(** Model of src/lib/utils/utf8.c. Bytes are [Z] in 0..255. A pointer is the list of bytes readable from it on:
    reading beyond that list is the undefined-behaviour outcome. *)
From Coq Require Import ZArith List Lia Bool.
From Verif Require Import Base.
Import ListNotations.
Open Scope Z_scope.

(** utf8.c:60-106 utf8_sequence_from_utf32_codepoint. [None] models the return value -1; the written bytes are
    returned (their number is the return value). Operands are unsigned, so [|] and [>>] are as in C. *)
Definition utf8_encode (nbytes code : Z) : option (list Z) :=
  if code <? 128 then
    if nbytes <? 1 then None else Some [code]
  else if code <? 2048 then
    if nbytes <? 2 then None else
    Some [Z.lor 0xc0 (Z.shiftr code 6); Z.lor 0x80 (Z.land code 0x3f)]
  else if code <? 65536 then
    if nbytes <? 3 then None else
    Some [Z.lor 0xe0 (Z.shiftr code 12); Z.lor 0x80 (Z.land (Z.shiftr code 6) 0x3f);
          Z.lor 0x80 (Z.land code 0x3f)]
  else if code <=? 0x10ffff then
    if nbytes <? 4 then None else
    Some [Z.lor 0xf0 (Z.shiftr code 18); Z.lor 0x80 (Z.land (Z.shiftr code 12) 0x3f);
          Z.lor 0x80 (Z.land (Z.shiftr code 6) 0x3f); Z.lor 0x80 (Z.land code 0x3f)]
  else None.

(** utf8.c:138-247: Outcome of decoding: [DBad] is the return value -1, [DUB] is a read outside the readable bytes. *)
Inductive dec := DOk (n code : Z) | DBad | DUB.

(** utf8.c:138-222 utf8_sequence_to_utf32_codepoint. [mem] = bytes readable from [utf8_data] on. *)
Definition utf8_decode (mem : list Z) (nbytes : Z) : dec :=
  if nbytes =? 0 then DBad else
  match mem with
  | [] => DUB
  | b0 :: r =>
    if negb (Z.land b0 0x80 =? 0) then
      if 0xF0 <=? b0 then
        if nbytes <? 4 then DBad else
        match r with
        | b1 :: b2 :: b3 :: _ =>
          let temp := Z.lor (Z.lor (Z.lor (Z.shiftl (Z.land b0 0x07) 18) (Z.shiftl (Z.land b1 0x3f) 12))
                                   (Z.shiftl (Z.land b2 0x3f) 6)) (Z.land b3 0x3f) in
          if 0x10ffff <? temp then DBad else DOk 4 temp
        | _ => DUB
        end
      else if 0xE0 <=? b0 then
        if nbytes <? 3 then DBad else
        match r with
        | b1 :: b2 :: _ =>
          let temp := Z.lor (Z.lor (Z.shiftl (Z.land b0 0x0f) 12) (Z.shiftl (Z.land b1 0x3f) 6))
                            (Z.land b2 0x3f) in
          if 0x10ffff <? temp then DBad else DOk 3 temp
        | _ => DUB
        end
      else if 0xC0 <=? b0 then
        if nbytes <? 2 then DBad else
        match r with
        | b1 :: _ => DOk 2 (Z.lor (Z.shiftl (Z.land b0 0x1f) 6) (Z.land b1 0x3f))
        | _ => DUB
        end
      else DOk 1 (Z.land b0 0x3f)
    else DOk 1 b0
  end.

(** utf8.c:268-271, the inner loop of utf8_strlen: index of the first non-ASCII byte at or after [i]. [n] bounds
    the number of iterations ([nbytes - i]). *)
Fixpoint skip_ascii (mem : list Z) (i : nat) (n : nat) : option nat :=
  match n with
  | O => Some i
  | S n' => match nth_error mem i with
            | None => None
            | Some b => if Z.land b 0x80 =? 0 then skip_ascii mem (S i) n' else Some i
            end
  end.

(** utf8.c:249-290: Outcome of utf8_strlen: [SBad] is -1. *)
Inductive slen := SLen (n : Z) | SBad | SUB | STimeout.

(** utf8.c:249-293 utf8_strlen (with ASSUME_ASCII, utf8.c:37). [fuel] bounds the iterations of the outer loop. *)
Fixpoint utf8_strlen_loop (fuel : nat) (mem : list Z) (nbytes : nat) (i : nat) (len : Z) : slen :=
  match fuel with
  | O => STimeout
  | S fuel' =>
    if (i <? nbytes)%nat then
      match skip_ascii mem i (nbytes - i) with
      | None => SUB
      | Some i' =>
        let len' := len + (Z.of_nat i' - Z.of_nat i) in
        if (i' =? nbytes)%nat then SLen len' else
        match utf8_decode (skipn i' mem) (Z.of_nat nbytes - Z.of_nat i') with
        | DOk n _ => if n <? 1 then SBad
                     else utf8_strlen_loop fuel' mem nbytes (i' + Z.to_nat n)%nat (len' + 1)
        | DBad => SBad
        | DUB => SUB
        end
      end
    else SLen len
  end.

(** utf8.c:249-293. One more iteration than bytes always suffices (theorem [strlen_no_timeout]). *)
Definition utf8_strlen (mem : list Z) (nbytes : nat) : slen :=
  utf8_strlen_loop (S nbytes) mem nbytes 0 0.

(** utf8.c:360-363, loop of utf8_prev skipping continuation bytes backwards; result is the index of the head
    byte, or -1. [UB] (None) when an index is out of range. *)
Fixpoint skip_aux (mem : list Z) (idx : nat) : option Z :=
  match nth_error mem idx with
  | None => None
  | Some b =>
    if Z.land b 0xc0 =? 0x80 then
      match idx with
      | O => Some (-1)
      | S idx' => skip_aux mem idx'
      end
    else Some (Z.of_nat idx)
  end.

(** utf8.c:325-400: Outcome of utf8_prev: [PAt i code]: index of the head byte and the code stored; [PStart]: returns 0 without
    storing a code (there is no previous character); [PBad]: -1. *)
Inductive prev := PAt (i : Z) (code : Z) | PStart | PBad | PUB.

(** utf8.c:325-398 utf8_prev, idx >= 0. *)
Definition utf8_prev (mem : list Z) (idx : nat) : prev :=
  match idx with
  | O => PStart
  | S tail =>
    match nth_error mem tail with
    | None => PUB
    | Some bt =>
      if Z.land bt 0x80 =? 0 then PAt (Z.of_nat tail) bt else
      match skip_aux mem tail with
      | None => PUB
      | Some head =>
        if head =? -1 then PBad else
        let aux := Z.of_nat tail - head in
        match utf8_decode (skipn (Z.to_nat head) mem) (aux + 1) with
        | DOk n code => if n <? aux + 1 then PBad else PAt head code
        | DBad => PBad
        | DUB => PUB
        end
      end
    end
  end.

(** utf8.c:430-445 utf8_next: both decodes are given the size of the whole string instead of what is left. *)
Definition utf8_next (mem : list Z) (nbytes : Z) (idx : nat) : prev :=
  match utf8_decode (skipn idx mem) nbytes with
  | DOk n _ =>
    match utf8_decode (skipn (idx + Z.to_nat n) mem) nbytes with
    | DOk _ code => PAt (Z.of_nat idx + n) code
    | DBad => PBad
    | DUB => PUB
    end
  | DBad => PBad
  | DUB => PUB
  end.

(** utf8.c:447-455 utf8_curr. *)
Definition utf8_curr (mem : list Z) (nbytes : Z) (idx : nat) : dec :=
  utf8_decode (skipn idx mem) (nbytes - Z.of_nat idx).
