(** Model of src/lib/objects/o_string.c (string objects). *)
From Coq Require Import ZArith List Lia Bool.
From Verif Require Import Base Utf8Model HashModel.
Import ListNotations.
Open Scope Z_scope.

(** o_string.c:38-43 StringObject. [s_bytes] are the [bytes] content bytes; the body also holds a NUL after them. *)
Record strobj := mkstr { s_count : Z; s_bytes : list Z }.

(** The readable memory of the body (o_string.c:168: the NUL at [body[len]]). *)
Definition s_mem (s : strobj) : list Z := s_bytes s ++ [0].

(** o_string.c:68-246: Outcome of an object operation: a value, a reported error, or undefined behaviour. *)
Inductive res (A : Type) := ROk (a : A) | RErr | RUB.
Arguments ROk {A}. Arguments RErr {A}. Arguments RUB {A}.

(** o_string.c:137-171: C [strlen] on the readable memory; [None] = no terminator in it. *)
Fixpoint c_strlen (mem : list Z) : option nat :=
  match mem with
  | [] => None
  | b :: r => if b =? 0 then Some O else match c_strlen r with Some n => Some (S n) | None => None end
  end.

(** o_string.c:137-171 Object_FromString; heap exhaustion not modelled. *)
Definition from_string (mem : list Z) (len : Z) : res strobj :=
  let len' := if len <? 0 then c_strlen mem else Some (Z.to_nat len) in
  match len' with
  | None => RUB
  | Some n =>
    if (length mem <? n)%nat then RUB else
    match utf8_strlen mem n with
    | SLen count => ROk (mkstr count (firstn n mem))
    | SBad => RErr
    | SUB | STimeout => RUB
    end
  end.

(** utf8.c:138-247: C value of a decode call: number of bytes or -1. *)
Definition dec_ret (d : dec) : option Z :=
  match d with DOk n _ => Some n | DBad => Some (-1) | DUB => None end.

(** o_string.c:79-87, loop of char_index_to_offset. A negative pointer offset is UB. *)
Fixpoint offset_loop (s : strobj) (idx : nat) (scanned : Z) : option Z :=
  match idx with
  | O => Some scanned
  | S idx' =>
    if scanned <? 0 then None else
    match dec_ret (utf8_decode (skipn (Z.to_nat scanned) (s_mem s))
                               (Z.of_nat (length (s_bytes s)) - scanned)) with
    | Some n => offset_loop s idx' (scanned + n)
    | None => None
    end
  end.

(** o_string.c:68-90 char_index_to_offset. *)
Definition char_index_to_offset (s : strobj) (idx : Z) : option Z :=
  if s_count s =? Z.of_nat (length (s_bytes s)) then Some idx
  else offset_loop s (Z.to_nat idx) 0.

(** o_string.c:92-116 select_ for an integer key (64-bit [key], truncated to [int] at line 102). *)
Definition str_select (s : strobj) (key : Z) : res strobj :=
  let idx := wrap32 key in
  if (idx <? 0) || (s_count s <=? idx) then RErr else
  match char_index_to_offset s idx with
  | None => RUB
  | Some off =>
    if off <? 0 then RUB else
    match dec_ret (utf8_decode (skipn (Z.to_nat off) (s_mem s))
                               (Z.of_nat (length (s_bytes s)) - off)) with
    | Some n => from_string (skipn (Z.to_nat off) (s_mem s)) n
    | None => RUB
    end
  end.

(** o_string.c:173-181 count. *)
Definition str_count (s : strobj) : Z := s_count s.

(** o_string.c:183-191 hash: over the first [count] bytes. *)
Definition str_hash (s : strobj) : option Z := hashbytes (s_mem s) (Z.to_nat (s_count s)).

(** o_string.c:205-218: C [strncmp(a, b, n) == 0]: stops at the first NUL common to both. *)
Fixpoint strncmp_eq (a b : list Z) (n : nat) {struct n} : bool :=
  match n with
  | O => true
  | S n' =>
    match a, b with
    | x :: a', y :: b' => if x =? y then (if x =? 0 then true else strncmp_eq a' b' n') else false
    | _, _ => false
    end
  end.

(** o_string.c:205-218 op_eql. *)
Definition str_eql (s1 s2 : strobj) : bool :=
  (length (s_bytes s1) =? length (s_bytes s2))%nat
  && strncmp_eq (s_mem s1) (s_mem s2) (length (s_bytes s1)).
