(** Model of src/lib/objects/o_buffer.c and of the buffer builtins that create buffers and slices. *)
From Coq Require Import ZArith List Lia Bool.
From Verif Require Import Base StringModel.
Import ListNotations.
Open Scope Z_scope.

(** o_buffer.c:37-40 Payload. The allocated body has [length p_body] bytes, which is [size]. *)
Record payload := mkpl { p_refs : Z; p_body : list Z }.

(** o_buffer.c:42-46 BufferObject (a buffer or a slice): payload, offset, length (both [size_t]). *)
Record view := mkview { v_pl : nat; v_off : Z; v_len : Z }.

(** o_buffer.c:37-49 the payload and the buffer object: All payloads ([None] = passed to free) and all buffer objects ([None] = finalized). *)
Record bstate := mkbst { b_pls : list (option payload); b_views : list (option view) }.

(** o_buffer.c:91-115 Object_NewBuffer with a [size_t] size; [sizeof(Payload)] is 16. If the byte count wraps, malloc
    returns a block smaller than [size] and the memset writes past it. malloc succeeds (simplification). *)
Definition new_buffer (st : bstate) (size : Z) : res (bstate * nat) :=
  if 2 ^ 64 <=? 16 + size then RUB else
  ROk (mkbst (b_pls st ++ [Some (mkpl 1 (repeat 0 (Z.to_nat size)))])
             (b_views st ++ [Some (mkview (length (b_pls st)) 0 size)]),
       length (b_views st)).

(** builtins/buffer.c:7-27 bin_new: the 64-bit integer argument is converted to [size_t]. *)
Definition bin_new (st : bstate) (n : Z) : res (bstate * nat) := new_buffer st (u64 n).

(** o_buffer.c:165-178, the object behind a pointer: The object at index [v], if it is live. *)
Definition get_view (st : bstate) (v : nat) : option view :=
  match nth_error (b_views st) v with Some (Some w) => Some w | _ => None end.
(** o_buffer.c:42-49, the field [payload]. *)
Definition get_pl (st : bstate) (p : nat) : option payload :=
  match nth_error (b_pls st) p with Some (Some q) => Some q | _ => None end.

(** o_buffer.c:133-163 Object_SliceBuffer ([offset], [length] are [size_t]); the offset is checked and used relative to
    the payload. *)
Definition slice_buffer (st : bstate) (v : nat) (offset len : Z) : res (bstate * nat) :=
  match get_view st v with
  | None => RUB
  | Some w =>
    match get_pl st (v_pl w) with
    | None => RUB
    | Some p =>
      let size := Z.of_nat (length (p_body p)) in
      if size <=? offset then RErr else
      if size <? u64 (offset + len) then RErr else
      ROk (mkbst (upd (b_pls st) (v_pl w) (Some (mkpl (p_refs p + 1) (p_body p))))
                 (b_views st ++ [Some (mkview (v_pl w) offset len)]),
           length (b_views st))
    end
  end.

(** builtins/buffer.c:29-46 bin_sliceUp: 64-bit integer arguments converted to [size_t]. *)
Definition bin_slice_up (st : bstate) (v : nat) (offset len : Z) : res (bstate * nat) :=
  slice_buffer st v (u64 offset) (u64 len).

(** o_buffer.c:180-209 buffer_select, for an integer key; the key is converted to [int] (line 194). *)
Definition buffer_select (st : bstate) (v : nat) (key : Z) : res Z :=
  match get_view st v with
  | None => RUB
  | Some w =>
    let idx := wrap32 key in
    if (idx <? 0) || (v_len w <=? idx) then RErr else
    match get_pl st (v_pl w) with
    | None => RUB
    | Some p => match zget (p_body p) (v_off w + idx) with Some b => ROk b | None => RUB end
    end
  end.

(** o_buffer.c:211-251 buffer_insert, for integer key and value. *)
Definition buffer_insert (st : bstate) (v : nat) (key val : Z) : res bstate :=
  match get_view st v with
  | None => RUB
  | Some w =>
    let idx := wrap32 key in
    if (idx <? 0) || (v_len w <=? idx) then RErr else
    if (255 <? val) || (val <? 0) then RErr else
    match get_pl st (v_pl w) with
    | None => RUB
    | Some p =>
      if Z.of_nat (length (p_body p)) <=? v_off w + idx then RUB else
      ROk (mkbst (upd (b_pls st) (v_pl w) (Some (mkpl (p_refs p) (upd (p_body p) (Z.to_nat (v_off w + idx)) (Z.land val 255)))))
                 (b_views st))
    end
  end.

(** o_buffer.c:253-258 buffer_count: [size_t] converted to [int]. *)
Definition buffer_count (st : bstate) (v : nat) : res Z :=
  match get_view st v with None => RUB | Some w => ROk (wrap32 (v_len w)) end.

(** o_buffer.c:117-131 buffer_free, the finalizer, called by the collector when the object dies. *)
Definition buffer_free (st : bstate) (v : nat) : res bstate :=
  match get_view st v with
  | None => RUB
  | Some w =>
    match get_pl st (v_pl w) with
    | None => RUB
    | Some p =>
      let refs := p_refs p - 1 in
      ROk (mkbst (upd (b_pls st) (v_pl w) (if refs =? 0 then None else Some (mkpl refs (p_body p))))
                 (upd (b_views st) v None))
    end
  end.

(** o_buffer.c:91-253, the operations on buffers: What a program (and the collector) can do with buffers. *)
Inductive bop :=
  BNew (size : Z) | BSlice (v : nat) (off len : Z) | BSet (v : nat) (key val : Z) | BFree (v : nat).

(** o_buffer.c:91-253: One operation; a rejected operation leaves the state as it is. *)
Definition bstep (st : bstate) (op : bop) : res bstate :=
  match op with
  | BNew n => match bin_new st n with ROk (st', _) => ROk st' | RErr => ROk st | RUB => RUB end
  | BSlice v o l => match bin_slice_up st v o l with ROk (st', _) => ROk st' | RErr => ROk st | RUB => RUB end
  | BSet v k x => match buffer_insert st v k x with ROk st' => ROk st' | RErr => ROk st | RUB => RUB end
  | BFree v => buffer_free st v
  end.

(** o_buffer.c:91-253, a sequence of operations. *)
Fixpoint bsteps (st : bstate) (ops : list bop) : res bstate :=
  match ops with
  | [] => ROk st
  | op :: r => match bstep st op with ROk st' => bsteps st' r | RErr => RErr | RUB => RUB end
  end.

(** o_buffer.c:91-116, before any buffer has been made. *)
Definition empty_bstate : bstate := mkbst [] [].
