(** Model of src/lib/utils/source.c. *)
From Coq Require Import ZArith List Lia Bool.
From Verif Require Import Base StringModel SysModel.
Import ListNotations.
Open Scope Z_scope.

(** source.c:39-45 struct xSource: the name ([None] = NULL), the cells of the allocation from [body] on ([None]: never written),
    the size, the references and whether it is a file. *)
Record source := mksource { s_name : option (list Z); s_body : list (option Z); s_size : Z; s_refs : Z; s_file : bool }.

(** source.c:39-45: sizeof(Source) on the 64-bit target. *)
Definition SIZEOF_SOURCE : Z := 32.

(** source.c:62-65 Source_GetName. *)
Definition get_name (s : source) : option (list Z) := s_name s.

(** source.c:72-75 Source_GetSize: [int] to [unsigned int]. *)
Definition get_size (s : source) : Z := s_size s mod 2 ^ 32.

(** source.c:67-75 Source_GetBody and Source_GetSize as their users read them (compile.c:9, parse.c:187-193): the first [size]
    bytes; [None]: one of them was never written or is outside of the allocation. *)
Fixpoint cells (n : nat) (body : list (option Z)) : option (list Z) :=
  match n, body with
  | O, _ => Some []
  | S n', Some c :: r => match cells n' r with Some l => Some (c :: l) | None => None end
  | S _, _ => None
  end.

(** source.c:67-75: the text of a source. *)
Definition get_text (s : source) : option (list Z) := cells (Z.to_nat (get_size s)) (s_body s).

(** source.c:67-75, parse.c:295: the byte behind the text; [None]: never written, or outside. *)
Definition get_after (s : source) : option Z := match nth_error (s_body s) (Z.to_nat (get_size s)) with Some (Some c) => Some c | _ => None end.

(** source.c:77-82 Source_GetAbsolutePath ([None] = NULL). *)
Definition get_path (s : source) : option (list Z) := if s_file s then s_name s else None.

(** source.c:84-182 Source_FromFile. [cwd]: the working directory; [fs]: the contents of the files of the system, by absolute
    name; the file is not changed meanwhile, so that as many bytes are read as were counted. [big]: the memory there is. *)
Definition from_file (cwd : option (list Z)) (fs : list Z -> option (list Z)) (big : Z) (file : list Z) : res source :=
  match file with
  | [] => RErr
  | _ =>
    match make_absolute cwd file (repeat 0 1024) with
    | ROk PNull => RErr
    | ROk r =>
      match (match r with PBuff b => c_string b | _ => Some file end) with
      | None => RUB
      | Some path =>
        match fs path with
        | None => RErr
        | Some content =>
          let size := wrap32 (Z.of_nat (length content)) in
          if size <? 0 then RErr else
          if big <? SIZEOF_SOURCE + Z.of_nat (length path) + size + 2 then RErr else
          ROk (mksource (Some path) (map Some (firstn (Z.to_nat size) content) ++ [Some 0]) size 1 true)
        end
      end
    | RErr => RErr
    | RUB => RUB
    end
  end.

(** source.c:212 strncpy: [n] bytes of the C string at the head of [mem], padded with NUL; [None]: reads outside of [mem]. *)
Fixpoint c_strncpy (n : nat) (mem : list Z) : option (list Z) :=
  match n with
  | O => Some []
  | S n' =>
    match mem with
    | [] => None
    | c :: r => if c =? 0 then Some (repeat 0 n) else match c_strncpy n' r with Some l => Some (c :: l) | None => None end
    end
  end.

(** source.c:184-214 Source_FromString. [mem]: the memory at [body]. The length is converted to [int]; the size of the allocation
    is a [size_t], so that a negative one is larger than any memory. *)
Definition from_string (big : Z) (name : option (list Z)) (mem : list Z) (size : Z) : res source :=
  match (if size <? 0 then match c_strlen mem with Some n => Some (wrap32 (Z.of_nat n)) | None => None end else Some size) with
  | None => RUB
  | Some size =>
    let namel := match name with Some n => Z.of_nat (length n) | None => 0 end in
    let total := (SIZEOF_SOURCE + namel + size + 2) mod 2 ^ 64 in
    if big <? total then RErr else
    if size <? 0 then RUB else
    match c_strncpy (Z.to_nat size) mem with
    | None => RUB
    | Some l => ROk (mksource name (map Some l ++ [None]) size 1 false)
    end
  end.

(** * References *)

(** source.c:47-60: the calls on a source that exists. *)
Inductive sop := SCopy | SFree.

(** source.c:47-60 Source_Copy and Source_Free: the references; [None]: the source is freed. A call on a freed source, and more
    references than an [int] counts, are undefined. *)
Definition ref_step (refs : option Z) (o : sop) : res (option Z) :=
  match refs with
  | None => RUB
  | Some r =>
    match o with
    | SCopy => if r =? 2 ^ 31 - 1 then RUB else ROk (Some (r + 1))
    | SFree => if r - 1 =? 0 then ROk None else ROk (Some (r - 1))
    end
  end.

(** source.c:47-60: a sequence of calls. *)
Fixpoint ref_run (refs : option Z) (ops : list sop) : res (option Z) :=
  match ops with
  | [] => ROk refs
  | o :: r => match ref_step refs o with ROk refs' => ref_run refs' r | RErr => RErr | RUB => RUB end
  end.
