(** Models of src/lib/utils/path.c, of the import path functions of src/lib/runtime.c and src/lib/run.c, and of
    src/lib/utils/error.c. Strings are lists of bytes without NUL; a buffer is the list of its cells. *)
From Coq Require Import ZArith List Lia Bool.
From Verif Require Import Base StringModel.
Import ListNotations.
Open Scope Z_scope.

(** path.c:11-35: A write of [bytes] at [off] into a buffer; outside of it: undefined. *)
Definition put_bytes (buff : list Z) (off : Z) (bytes : list Z) : res (list Z) :=
  if (off <? 0) || (Z.of_nat (length buff) <? off + Z.of_nat (length bytes)) then RUB else
  ROk (firstn (Z.to_nat off) buff ++ bytes ++ skipn (Z.to_nat off + length bytes) buff).

(** path.c:11-35: The C string a buffer holds (up to the first NUL); [None] = no terminator. *)
Definition c_string (buff : list Z) : option (list Z) :=
  match c_strlen buff with Some n => Some (firstn n buff) | None => None end.

(** * path.c *)

(** path.c:6-9 Path_IsAbsolute. *)
Definition is_absolute (path : list Z) : bool := match path with c :: _ => c =? 47 | [] => false end.

(** POSIX getcwd as path.c:18 and runtime.c:235 use it: [cwd = None] = the system reports a failure; it also fails if the name
    and its NUL do not fit. [ROk None] = NULL. *)
Definition c_getcwd (cwd : option (list Z)) (buff : list Z) : res (option (list Z)) :=
  match cwd with
  | None => ROk None
  | Some dir =>
    if Z.of_nat (length buff) <? Z.of_nat (length dir) + 1 then ROk None else
    match put_bytes buff 0 (dir ++ [0]) with ROk b => ROk (Some b) | RErr => RErr | RUB => RUB end
  end.

(** path.c:11-35: The answer of Path_MakeAbsolute: NULL, the argument itself, or the buffer (with its new contents). *)
Inductive pathres := PNull | PSame | PBuff (buff : list Z).

(** path.c:11-36 Path_MakeAbsolute ([buff] has [buffsize] cells). *)
Definition make_absolute (cwd : option (list Z)) (path buff : list Z) : res pathres :=
  let buffsize := Z.of_nat (length buff) in
  if is_absolute path then ROk PSame else
  match c_getcwd cwd buff with
  | ROk None => ROk PNull
  | ROk (Some b1) =>
    match c_strlen b1 with
    | None => RUB
    | Some w =>
      let written := Z.of_nat w in
      if buffsize <=? written + 1 then ROk PNull else
      match put_bytes b1 written [47] with
      | ROk b2 =>
        let written := written + 1 in
        let n := Z.of_nat (length path) in
        if buffsize <=? written + n then ROk PNull else
        match put_bytes b2 written path with
        | ROk b3 => match put_bytes b3 (written + n) [0] with ROk b4 => ROk (PBuff b4) | RErr => RErr | RUB => RUB end
        | RErr => RErr | RUB => RUB
        end
      | RErr => RErr | RUB => RUB
      end
    end
  | RErr => RErr | RUB => RUB
  end.

(** * Paths of imported files *)

(** runtime.c:260-262: the number of bytes to drop from the end of [path] to end it with a slash; reading before its
    start is undefined ([None]). [rp] is the path reversed. *)
Fixpoint popped (rp : list Z) : option nat :=
  match rp with
  | [] => None
  | c :: r => if c =? 47 then Some O else match popped r with Some n => Some (S n) | None => None end
  end.

(** runtime.c:230-278 Runtime_GetCurrentScriptFolder: [path] = the absolute path of the running script, if it has one. The answer 0
    is failure; otherwise the number of bytes written (in the first case the buffer has no terminator). *)
Definition script_folder (cwd path : option (list Z)) (buff : list Z) : res (Z * list Z) :=
  let buffsize := Z.of_nat (length buff) in
  match path with
  | None =>
    match c_getcwd cwd buff with
    | ROk None => ROk (0, buff)
    | ROk (Some b1) =>
      match c_strlen b1 with
      | None => RUB
      | Some w =>
        match nth_error b1 (w - 1) with
        | Some c =>
          if (0 <? Z.of_nat w) && (c =? 47) then ROk (Z.of_nat w, b1) else
          if Z.of_nat w =? 0 then RUB else
          if buffsize <=? Z.of_nat w + 1 then ROk (0, b1) else
          match put_bytes b1 (Z.of_nat w) [47] with ROk b2 => ROk (Z.of_nat w + 1, b2) | RErr => RErr | RUB => RUB end
        | None => RUB
        end
      end
    | RErr => RErr | RUB => RUB
    end
  | Some p =>
    match popped (rev p) with
    | None => RUB
    | Some k =>
      let dir_len := Z.of_nat (length p - k) in
      if buffsize <=? dir_len then ROk (0, buff) else
      match put_bytes buff 0 (firstn (length p - k) p) with
      | ROk b1 => match put_bytes b1 dir_len [0] with ROk b2 => ROk (dir_len, b2) | RErr => RErr | RUB => RUB end
      | RErr => RErr | RUB => RUB
      end
    end
  end.

(** run.c:1242-1267 makePathRelativeToScript: [ROk None] = false, [ROk (Some b)] = true with the buffer holding [b]. *)
Definition script_path (cwd path : option (list Z)) (src buff : list Z) : res (option (list Z)) :=
  let size := Z.of_nat (length buff) in
  let n := Z.of_nat (length src) in
  if is_absolute src then
    if size <=? n then ROk None else
    match put_bytes buff 0 (src ++ [0]) with ROk b => ROk (Some b) | RErr => RErr | RUB => RUB end
  else
    match script_folder cwd path buff with
    | ROk (written, b1) =>
      if written =? 0 then ROk None else
      if size <=? written + n then ROk None else
      match put_bytes b1 written src with
      | ROk b2 => match put_bytes b2 (written + n) [0] with ROk b3 => ROk (Some b3) | RErr => RErr | RUB => RUB end
      | RErr => RErr | RUB => RUB
      end
    | RErr => RErr | RUB => RUB
    end.

(** * error.c *)

(** error.h:46-60: Where [message] points: nowhere, to [message2], or to a block of malloc. *)
Inductive msgptr := MNull | MInline | MBlock (id : nat).

(** error.h:46-58 Error; fields that only hold constants of the caller (file, func, line, type, on_report) are left out. *)
Record errst := mkerr { er_occurred : bool; er_truncated : bool; er_length : Z; er_message : msgptr; er_message2 : list Z }.

(** error.c:65-124: The blocks malloc handed out, in order: [None] = freed since. *)
Definition blocks := list (option (list Z)).

(** error.c:37-40 Error_Init (memset). *)
Definition err_init : errst := mkerr false false 0 MNull (repeat 0 512).

(** error.c:65-124: C [vsnprintf(buf, size, ...)] whose formatted text is [text], [size > 0]: the new contents of [buf]. *)
Definition c_snprintf (buf : list Z) (size : nat) (text : list Z) : list Z :=
  let out := firstn (size - 1) text ++ [0] in out ++ skipn (length out) buf.

(** error.c:65-125 _Error_Report2; [ok] = malloc succeeds. The text is shorter than 2^31-1 bytes (otherwise vsnprintf fails). *)
Definition err_report (ok : bool) (text : list Z) (e : errst) (bs : blocks) : errst * blocks :=
  let m2 := c_snprintf (er_message2 e) 512 text in
  let p := Z.of_nat (length text) in
  if 511 <? p then
    if ok then (mkerr true false p (MBlock (length bs)) m2,
                bs ++ [Some (c_snprintf (repeat 0 (length text + 1)) (length text + 1) text)])
    else (mkerr true true 511 MInline m2, bs)
  else (mkerr true false p MInline m2, bs).

(** error.c:48-53 Error_Free: freeing a block twice is undefined. *)
Definition err_free (e : errst) (bs : blocks) : res (errst * blocks) :=
  match er_message e with
  | MInline => ROk (err_init, bs)
  | MNull => ROk (err_init, bs)
  | MBlock id =>
    match nth_error bs id with
    | Some (Some _) => ROk (err_init, upd bs id None)
    | _ => RUB
    end
  end.

(** error.c:140-169 Error_Print: What a reader of [message] sees: [None] = it must not be read. *)
Definition err_text (e : errst) (bs : blocks) : option (list Z) :=
  match er_message e with
  | MNull => None
  | MInline => c_string (er_message2 e)
  | MBlock id => match nth_error bs id with Some (Some b) => c_string b | _ => None end
  end.

(** error.c:37-124: A history of uses of one Error structure. *)
Inductive errop := EReport (ok : bool) (text : list Z) | EFree.

(** error.c:37-124. *)
Fixpoint err_run (ops : list errop) (e : errst) (bs : blocks) : res (errst * blocks) :=
  match ops with
  | [] => ROk (e, bs)
  | EReport ok text :: r => let (e1, b1) := err_report ok text e bs in err_run r e1 b1
  | EFree :: r => match err_free e bs with ROk (e1, b1) => err_run r e1 b1 | RErr => RErr | RUB => RUB end
  end.
