(** Model of the library functions that exchange bytes and numbers with the outside: input (builtins/basic.c),
    builtins/files.c, the transfers of builtins/net.c, builtins/math.c, builtins/random.c and the text functions of
    builtins/buffer.c.
    Simplifications: an open stream is the list of the bytes that are still to be read, or of those written so far;
    streams do not fail; malloc succeeds; the functions of libm are exact where the standard says so (floor, ceil) and
    abstract otherwise; rand answers any number of its range. *)
From Coq Require Import ZArith List Lia Bool String.
From Coq Require Import Floats.SpecFloat.
From Verif Require Import Base Utf8Model StringModel ValueModel MapModel ListModel ObjModel VmModel FloatModel BufferModel SysModel BuiltinModel.
Import ListNotations.
Open Scope Z_scope.

(** * input *)

(** basic.c:181: [char c = getc(stream)]: at the end of the stream EOF (-1) becomes the byte 255. *)
Definition getc (stream : list Z) : Z * list Z :=
  match stream with [] => (255, []) | b :: r => (b, r) end.

(** basic.c:179-206 the loop of bin_input. [maybe]: the array of 256 chars; [size]: how many are used. When 255 are used,
    realloc is called on the array, which was not allocated with malloc: undefined. *)
Fixpoint input_loop (fuel : nat) (stream maybe : list Z) (size : nat) : out (list Z * nat * list Z) :=
  match fuel with
  | O => OFuel
  | S fuel' =>
    let (c, rest) := getc stream in
    if c =? 10 then OOk (maybe, size, rest) else
    if (size =? 255)%nat then OUB else
    input_loop fuel' rest (upd maybe size c) (S size)
  end.

(** basic.c:169-217 bin_input: the value and what is left of the stream. [maybe]: what the array holds at first. *)
Definition bin_input (maybe stream : list Z) : out (value * list Z) :=
  obind (input_loop 257 stream maybe 0) (fun r =>
  let '(arr, size, rest) := r in
  obind (new_string (upd arr size 0) (Z.of_nat size)) (fun v => OOk (v, rest))).

(** basic.c:169-217: [n] calls in a row. *)
Fixpoint inputs (n : nat) (maybe stream : list Z) : out (list value * list Z) :=
  match n with
  | O => OOk ([], stream)
  | S n' =>
    obind (bin_input maybe stream) (fun r =>
    obind (inputs n' maybe (snd r)) (fun rs => OOk (fst r :: fst rs, snd rs)))
  end.

(** * Buffers: text *)

(** o_buffer.c:165-178 Object_GetBuffer: the memory from the address on ([None]: the buffer is not live). *)
Definition view_memory (st : bstate) (v : nat) : option (list Z * Z) :=
  match get_view st v with
  | None => None
  | Some w =>
    match get_pl st (v_pl w) with
    | None => None
    | Some p => Some (skipn (Z.to_nat (v_off w)) (p_body p), v_len w)
    end
  end.

(** o_buffer.c:86, files.c:139, net.c:118: writing [bytes] from the address of a buffer on; undefined when they do not fit
    into the allocated memory. *)
Definition put_view (st : bstate) (v : nat) (bytes : list Z) : res bstate :=
  match get_view st v with
  | None => RUB
  | Some w =>
    match get_pl st (v_pl w) with
    | None => RUB
    | Some p =>
      match put_bytes (p_body p) (v_off w) bytes with
      | ROk body => ROk (mkbst (upd (b_pls st) (v_pl w) (Some (mkpl (p_refs p) body))) (b_views st))
      | RErr => RErr
      | RUB => RUB
      end
    end
  end.

(** builtins/buffer.c:48-62 bin_fromString, o_buffer.c:79-89 Object_NewBufferFromString. *)
Definition bin_from_string (st : bstate) (s : list Z) : res (bstate * nat) :=
  match new_buffer st (Z.of_nat (List.length s)) with
  | ROk (st', v) => match put_view st' v s with ROk st'' => ROk (st'', v) | RErr => RErr | RUB => RUB end
  | RErr => RErr
  | RUB => RUB
  end.

(** builtins/buffer.c:81: the message. *)
Definition not_utf8 : list Z := bytes_of "Buffer doesn't contain valid UTF-8".

(** builtins/buffer.c:64-91 bin_toString: the size is converted to [int] by both calls; a negative count of bytes makes
    utf8_strlen answer 0. *)
Definition bin_to_string (st : bstate) (v : nat) : out (list value) :=
  match view_memory st v with
  | None => OUB
  | Some (memory, len) =>
    let n := wrap32 len in
    match (if n <? 0 then SLen 0 else if Z.of_nat (List.length memory) <? n then Utf8Model.SUB else utf8_strlen memory (Z.to_nat n)) with
    | SLen _ => obind (new_string memory len) (fun s => OOk [s])
    | Utf8Model.SBad => obind (vstring not_utf8) (fun s => OOk [VNone; s])
    | Utf8Model.SUB | STimeout => OUB
    end
  end.

(** * Transfers *)

(** files.c:123-131 and 158-166, net.c:109-116 and 139-146: the number of bytes to transfer. [count]: the argument, [None] for
    none; it is converted to [int]. [None]: refused. *)
Definition clamp_count (count : option Z) (len dflt : Z) : option Z :=
  match count with
  | Some z => let n := wrap32 z in if n <? 0 then None else Some (Z.min n len)
  | None => Some dflt
  end.

(** files.c:108-142 bin_read: the buffers afterwards, the answer, and what is left in the file. *)
Definition file_read (st : bstate) (v : nat) (count : option Z) (file : list Z) : res (bstate * value * list Z) :=
  match get_view st v with
  | None => RUB
  | Some w =>
    match clamp_count count (v_len w) (v_len w) with
    | None => RErr
    | Some n =>
      let got := firstn (Z.to_nat n) file in
      match put_view st v got with
      | ROk st' => ROk (st', ret_int (Z.of_nat (List.length got)), skipn (Z.to_nat n) file)
      | RErr => RErr
      | RUB => RUB
      end
    end
  end.

(** files.c:144-178 bin_write: the answer and the file afterwards. Without a count, the size is converted to [int] and then
    to [size_t]. *)
Definition file_write (st : bstate) (v : nat) (count : option Z) (file : list Z) : res (value * list Z) :=
  match view_memory st v with
  | None => RUB
  | Some (memory, len) =>
    match clamp_count count len (u64 (wrap32 len)) with
    | None => RErr
    | Some n =>
      if Z.of_nat (List.length memory) <? n then RUB else
      ROk (ret_int n, file ++ firstn (Z.to_nat n) memory)
    end
  end.

(** net.c:113: the message for a negative count. *)
Definition negative_count : list Z := bytes_of "Invalid negative count".

(** net.c:94-122 bin_recv. [arrived]: what the socket holds ([None]: recv fails with the message [err]). *)
Definition net_recv (st : bstate) (v : nat) (count : option Z) (arrived : option (list Z)) (err : list Z)
  : res (bstate * list value * list Z) :=
  match get_view st v with
  | None => RUB
  | Some w =>
    match clamp_count count (v_len w) (v_len w) with
    | None => ROk (st, [VNone; VStr negative_count], match arrived with Some d => d | None => [] end)
    | Some n =>
      match arrived with
      | None => ROk (st, [VNone; VStr err], [])
      | Some d =>
        let got := firstn (Z.to_nat n) d in
        match put_view st v got with
        | ROk st' => ROk (st', [ret_int (Z.of_nat (List.length got))], skipn (Z.to_nat n) d)
        | RErr => RErr
        | RUB => RUB
        end
      end
    end
  end.

(** net.c:124-152 bin_send. [room]: how many bytes the socket accepts now. *)
Definition net_send (st : bstate) (v : nat) (count : option Z) (room : nat) (sent : list Z) : res (list value * list Z) :=
  match view_memory st v with
  | None => RUB
  | Some (memory, len) =>
    match clamp_count count len len with
    | None => ROk ([VNone; VStr negative_count], sent)
    | Some n =>
      if Z.of_nat (List.length memory) <? n then RUB else
      let out := firstn room (firstn (Z.to_nat n) memory) in
      ROk ([ret_int (Z.of_nat (List.length out))], sent ++ out)
    end
  end.

(** files.c:41-45, the modes of a program: READ 0, WRITE 1, APPEND 2; and what fopen is asked for. *)
Inductive fmode := FRead | FWritePlus | FAppend.

(** files.c:60-86 the switch of bin_openFile: the mode is converted to [int]; for any other mode fopen is called with NULL. *)
Definition open_mode (mode : Z) : res fmode :=
  let m := wrap32 mode in
  if m =? 0 then ROk FRead else
  if m =? 1 then ROk FWritePlus else
  if (m =? 2) || (m =? 3) then ROk FAppend else RUB.

(** * Numbers *)

(** run.c:218-262: the memory in which a native function finds its arguments. Too many arguments are left where they are. *)
Definition native_argv (expected : Z) (argv : list value) : list value :=
  argv ++ repeat VNone (Z.to_nat expected - List.length argv).

(** math.c:35-54 WRAP_FUNC: [f] is the function of libm, on patterns. *)
Definition math1 (f : Z -> Z) (argv : list value) : out value :=
  match argv with
  | [] => OUB
  | VFloat a :: _ => OOk (VFloat (f a))
  | _ :: _ => OErr
  end.

(** math.c:56-81 WRAP_FUNC_2. *)
Definition math2 (f : Z -> Z -> Z) (argv : list value) : out value :=
  match argv with
  | [] => OUB
  | VFloat a :: r =>
    match r with
    | [] => OUB
    | VFloat b :: _ => OOk (VFloat (f a b))
    | _ :: _ => OErr
    end
  | _ :: _ => OErr
  end.

(** math.c:138-163, the column argc of bins_math for pow and atan2. *)
Definition argc_pow : Z := 1.
(** math.c:138-163. *)
Definition argc_atan2 : Z := 2.
(** math.c:138-163: the functions with one argument. *)
Definition argc_math1 : Z := 1.

(** math.c:83-94: a call [math.atan2(…)], [math.pow(…)] or of a function with one argument, from a program. *)
Definition call_atan2 (f : Z -> Z -> Z) (argv : list value) : out value := math2 f (native_argv argc_atan2 argv).
(** math.c:94, 159. *)
Definition call_pow (f : Z -> Z -> Z) (argv : list value) : out value := math2 f (native_argv argc_pow argv).
(** math.c:83-92. *)
Definition call_math1 (f : Z -> Z) (argv : list value) : out value := math1 f (native_argv argc_math1 argv).

(** math.c:104 and 125: conversion of a double that is an integer to [long long int]; undefined out of its range. *)
Definition to_i64 (x : option Z) : out Z :=
  match x with
  | None => OUB
  | Some z => if (i64_min <=? z) && (z <=? i64_max) then OOk z else OUB
  end.

(** math.c:104, random.c:34: the mantissa with its sign. *)
Definition signed (s : bool) (m : positive) : Z := if s then - Zpos m else Zpos m.

(** math.c:125 floor ([None]: an infinity or NaN). *)
Definition f_floor (b : Z) : option Z :=
  match f_decode b with
  | S754_zero _ => Some 0
  | S754_finite s m e => Some (if 0 <=? e then signed s m * 2 ^ e else signed s m / 2 ^ (- e))
  | _ => None
  end.

(** math.c:104 ceil. *)
Definition f_ceil (b : Z) : option Z :=
  match f_decode b with
  | S754_zero _ => Some 0
  | S754_finite s m e => Some (if 0 <=? e then signed s m * 2 ^ e else - (- signed s m / 2 ^ (- e)))
  | _ => None
  end.

(** random.c:34: conversion of a double to an integer cuts off the fraction. *)
Definition f_trunc (b : Z) : option Z :=
  match f_decode b with
  | S754_zero _ => Some 0
  | S754_finite s m e => Some (if 0 <=? e then signed s m * 2 ^ e else Z.quot (signed s m) (2 ^ (- e)))
  | _ => None
  end.

(** math.c:117-136 bin_floor. *)
Definition bin_floor (argv : list value) : out value :=
  match argv with
  | [] => OUB
  | VFloat b :: _ => obind (to_i64 (f_floor b)) (fun z => OOk (VInt z))
  | _ :: _ => OErr
  end.

(** math.c:96-115 bin_ceil. *)
Definition bin_ceil (argv : list value) : out value :=
  match argv with
  | [] => OUB
  | VFloat b :: _ => obind (to_i64 (f_ceil b)) (fun z => OOk (VInt z))
  | _ :: _ => OErr
  end.

(** random.c:34: RAND_MAX of glibc. *)
Definition RAND_MAX : Z := 2 ^ 31 - 1.

(** random.c:34: [min + (max - min) * (double) rand() / RAND_MAX], with [r] from rand; overflow of the subtraction is
    undefined. *)
Definition random_value (min max r : Z) : out Z :=
  let d := max - min in
  if (d <? i64_min) || (i64_max <? d) then OUB else
  to_i64 (f_trunc (f_add (f_of_int min) (f_div (f_mul (f_of_int d) (f_of_int r)) (f_of_int RAND_MAX)))).

(** random.c:21-36 bin_generate: none stands for 0 and for the largest 64-bit integer; the answer goes through an [int]. *)
Definition bin_generate (objs : list hobj) (r : Z) (argv : list value) : out value :=
  obind (parse_args objs (bytes_of "?i?i") argv) (fun ps =>
  match ps with
  | [a; b] =>
    let min := match a with PgInt z => z | _ => 0 end in
    let max := match b with PgInt z => z | _ => i64_max end in
    obind (random_value min max r) (fun z => OOk (ret_int z))
  | _ => OUB
  end).
