(** The frames of a runtime as linked structures, the stack trace, and the life of a runtime that is asked to run several programs:
    src/lib/runtime.c with run.c:1107-1240. Simplifications: memory is always found; the executable of a frame keeps its source
    readable (each holds a reference, see SourceModel); both streams a trace is written to are the error stream (main.c:222, 243);
    numbers printed with %d fit an int. *)
From Coq Require Import ZArith String List Bool.
From Verif Require Import Base StringModel ValueModel ObjModel ExeModel AsmModel VmModel SourceModel ShowModel FrameModel.
Import ListNotations.
Open Scope list_scope.
Open Scope Z_scope.

(** runtime.c:44-72 NormalFrame (executable, its source if it has one, index of the next instruction), NativeFrame, FailedFrame
    (the number of a source and an offset). *)
Inductive rframe := RNormal (x : executable) (src : option source) (index : Z) | RNative | RFailed (sid : nat) (offset : Z).

(** runtime.c:51-90 struct xRuntime: the cells that hold frames, each with the cell of the previous frame ([None]: freed); the
    innermost frame; the depth; and the sources that failed to compile ([None]: freed). Cell 0 is the frame inside the structure
    itself (runtime.c:89 failed_frame). *)
Record rtm := mkrt { r_cells : list (option (rframe * option nat)); r_head : option nat; r_depth : Z; r_srcs : list (option source) }.

(** runtime.c:326-368 Runtime_New. *)
Definition rt_new : rtm := mkrt [Some (RNative, None)] None 0 [].

(** source.c:47-53 Source_Copy and 55-60 Source_Free, on the table of sources. *)
Definition src_step (l : list (option source)) (sid : nat) (o : sop) : res (list (option source)) :=
  match nth_error l sid with
  | Some (Some s) =>
    match ref_step (Some (s_refs s)) o with
    | ROk (Some r) => ROk (upd l sid (Some (mksource (s_name s) (s_body s) (s_size s) r (s_file s))))
    | ROk None => ROk (upd l sid None)
    | RErr => RErr | RUB => RUB
    end
  | _ => RUB
  end.

(** runtime.c:633-686 Runtime_PushNativeFrame and Runtime_PushFrame with 599-609 appendFrame: a frame in a cell of its own; [None]: the limit is
    reported. *)
Definition push_cell (r : rtm) (f : rframe) : option rtm :=
  if r_depth r =? MAX_FRAMES then None else
  Some (mkrt (r_cells r ++ [Some (f, r_head r)]) (Some (List.length (r_cells r))) (r_depth r + 1) (r_srcs r)).

(** runtime.c:611-631 Runtime_PushFailedFrame with 599-609 appendFrame: the one cell 0 is written in any case. *)
Definition push_failed (r : rtm) (sid : nat) (offset : Z) : res rtm :=
  match src_step (r_srcs r) sid SCopy with
  | ROk srcs =>
    let cells := upd (r_cells r) 0 (Some (RFailed sid (u64 offset), None)) in
    if r_depth r =? MAX_FRAMES then
      match src_step srcs sid SFree with
      | ROk srcs => ROk (mkrt cells (r_head r) (r_depth r) srcs)
      | RErr => RErr | RUB => RUB
      end
    else ROk (mkrt (upd cells 0 (Some (RFailed sid (u64 offset), r_head r))) (Some 0%nat) (r_depth r + 1) srcs)
  | RErr => RErr
  | RUB => RUB
  end.

(** runtime.c:688-716 Runtime_PopFrame: whether there was a frame. *)
Definition pop_cell (r : rtm) : res (bool * rtm) :=
  match r_head r with
  | None => ROk (false, r)
  | Some h =>
    match nth_error (r_cells r) h with
    | Some (Some (f, prev)) =>
      match f with
      | RFailed sid _ =>
        match src_step (r_srcs r) sid SFree with
        | ROk srcs => ROk (true, mkrt (r_cells r) prev (r_depth r - 1) srcs)
        | RErr => RErr | RUB => RUB
        end
      | _ => ROk (true, mkrt (upd (r_cells r) h None) prev (r_depth r - 1) (r_srcs r))
      end
    | _ => RUB
    end
  end.

(** runtime.c:370-379 Runtime_Free, the loop over the frames: the sources left. *)
Fixpoint rt_free (fuel : nat) (r : rtm) : out rtm :=
  match fuel with
  | O => OFuel
  | S fuel =>
    match r_head r with
    | None => OOk r
    | Some _ =>
      match pop_cell r with
      | ROk (_, r') => rt_free fuel r'
      | RErr => OErr
      | RUB => OUB
      end
    end
  end.

(** * The trace *)
(** executable.c:246-255 Executable_GetInstrOffset. *)
Definition instr_offset (x : executable) (src : option source) (index : Z) : Z :=
  if index <? 0 then -1 else
  match nth_error (x_body x) (Z.to_nat index), src with
  | Some bi, Some _ => bi_off bi
  | _, _ => -1
  end.

(** runtime.c:143-152 getFrameSource: [RUB]: the source is freed. *)
Definition frame_source (srcs : list (option source)) (f : rframe) : res (option source) :=
  match f with
  | RNormal _ src _ => ROk src
  | RNative => ROk None
  | RFailed sid _ => match nth_error srcs sid with Some (Some s) => ROk (Some s) | _ => RUB end
  end.
(** runtime.c:154-168 getFrameOffset; the offset of a failed frame is a size_t that is converted to an int. *)
Definition frame_offset (f : rframe) : Z :=
  match f with
  | RNormal x src index => instr_offset x src index
  | RNative => -1
  | RFailed _ offset => wrap32 offset
  end.

(** runtime.c:198-205: the line, reading [n] characters of the body. *)
Fixpoint count_lines (n : nat) (body : list (option Z)) (line : Z) : res Z :=
  match n with
  | O => ROk line
  | S n' =>
    match body with
    | Some c :: r => count_lines n' r (if c =? 10 then line + 1 else line)
    | _ => RUB
    end
  end.

(** runtime.c:170-212 printFrame. *)
Definition print_frame (srcs : list (option source)) (f : rframe) (depth : Z) : res (list Z) :=
  match frame_source srcs f with
  | ROk src =>
    let offset := frame_offset f in
    let name :=
      match src with
      | None => bytes_of "(no source)"
      | Some s => match get_name s with None => bytes_of "(unnamed)" | Some n => n end
      end in
    let start := [9; 35] ++ int_text depth ++ [32] ++ name in
    match src with
    | Some s =>
      if offset <? 0 then ROk (start ++ [10]) else
      match count_lines (Z.to_nat offset) (s_body s) 1 with
      | ROk line => ROk (if line =? 0 then start ++ [10] else start ++ [58] ++ int_text line ++ [10])
      | RErr => RErr | RUB => RUB
      end
    | None => ROk (start ++ [10])
    end
  | RErr => RErr
  | RUB => RUB
  end.

(** runtime.c:220-227, the loop of Runtime_PrintStackTrace from the frame [h] on. *)
Fixpoint print_frames (fuel : nat) (r : rtm) (h : option nat) (depth : Z) : out (list Z) :=
  match h with
  | None => OOk []
  | Some h =>
    match fuel with
    | O => OFuel
    | S fuel =>
      match nth_error (r_cells r) h with
      | Some (Some (f, prev)) =>
        match print_frame (r_srcs r) f depth with
        | ROk t => obind (print_frames fuel r prev (depth + 1)) (fun u => OOk (t ++ u))
        | RErr => OErr
        | RUB => OUB
        end
      | _ => OUB
      end
    end
  end.
(** runtime.c:214-228 Runtime_PrintStackTrace. *)
Definition print_trace (fuel : nat) (r : rtm) : out (list Z) :=
  obind (match r_head r with
         | None => OOk (bytes_of "	(No active frames)" ++ [10])
         | h => print_frames fuel r h 0
         end) (fun u => OOk (bytes_of "Stack trace:" ++ [10] ++ u)).

(** * What a run leaves *)
(** run.c:1107-1132: the frames of a program that stopped with an error are not popped. [frs]: the innermost first. They were
    pushed one in another; one that does not fit ends the run with the report of the limit. *)
Fixpoint push_all (r : rtm) (frs : list rframe) : rtm :=
  match frs with
  | [] => r
  | f :: outer => let r := push_all r outer in match push_cell r f with Some r' => r' | None => r end
  end.

(** run.c:1134-1150 runSource, 1152-1168 runBytecodeSource: how a run goes. *)
Inductive outcome := RunOk | NoExe (offset : Z) | RunErr (frs : list rframe).

(** run.c:1170-1216 runFileEx, runStringEx and the other two (1218-1240 runFile ... add nothing), for a source that could be made:
    whether the run succeeded. *)
Definition api_run (r : rtm) (s : source) (o : outcome) : res (bool * rtm) :=
  let sid := List.length (r_srcs r) in
  let r := mkrt (r_cells r) (r_head r) (r_depth r) (r_srcs r ++ [Some (mksource (s_name s) (s_body s) (s_size s) 1 (s_file s))]) in
  let release (ok : bool) (r : rtm) :=
    match src_step (r_srcs r) sid SFree with
    | ROk srcs => ROk (ok, mkrt (r_cells r) (r_head r) (r_depth r) srcs)
    | RErr => RErr | RUB => RUB
    end in
  match o with
  | RunOk => release (negb (r_depth r =? MAX_FRAMES)) r
  | RunErr frs => release false (push_all r frs)
  | NoExe offset =>
    match push_failed r sid offset with
    | ROk r => release false r
    | RErr => RErr | RUB => RUB
    end
  end.
(** run.c:1134-1240: one program after the other, whatever their outcomes. *)
Fixpoint api_runs (r : rtm) (l : list (source * outcome)) : res rtm :=
  match l with
  | [] => ROk r
  | (s, o) :: t => match api_run r s o with ROk (_, r') => api_runs r' t | RErr => RErr | RUB => RUB end
  end.

(** * The frames of a run that fails *)
(** run.c:751-808, 207-289: whether the instruction at which a run is about to fail calls a native function (its frame is not popped: run.c:283). *)
Definition calls_native (x : executable) (s : vstate) : bool :=
  match exe_fetch x (f_pc (v_cur s)), f_stack (v_cur s) with
  | ROk (Some (OP_CALL, _)), VRef l :: _ => match nth_error (m_objs (v_mem s)) l with Some (ONative _ _) => true | _ => false end
  | _, _ => false
  end.
(** run.c:508-514, 1107-1132: the frames when the next instruction of [s] reports an error; the index was advanced before. *)
Definition error_frames (x : executable) (src : source) (s : vstate) : list rframe :=
  (if calls_native x s then [RNative] else []) ++
  RNormal x (Some src) (f_pc (v_cur s) + 1) :: map (fun f => RNormal x (Some src) (f_pc f)) (v_rest s).

(** run.c:1107-1132, 751-808: the frames when the next instruction of [s] reports that a limit is reached ([size]: the capacity of the value
    stack). The frame of a function is linked before its arguments are pushed (1113-1118), and unlinked before its results are (1128, 794). *)
Definition limit_frames (size : Z) (x : executable) (src : source) (s : vstate) : list rframe :=
  let callers := map (fun f => RNormal x (Some src) (f_pc f)) (v_rest s) in
  let all := RNormal x (Some src) (f_pc (v_cur s) + 1) :: callers in
  match exe_fetch x (f_pc (v_cur s)), f_stack (v_cur s) with
  | ROk (Some (OP_RETURN, _)), _ => callers
  | ROk (Some (OP_EXIT, _)), _ => match vpush size s (f_locals (v_cur s)) with Some _ => callers | None => all end
  | ROk (Some (OP_CALL, PInt argc :: _)), VRef l :: _ =>
    match nth_error (m_objs (v_mem s)) l with
    | Some (OFun c _) =>
      match nth_error (v_codes s) c with
      | Some (entry, _) =>
        if (32 <? wrap32 argc) || (MAX_FRAMES <=? Z.of_nat (List.length (v_cur s :: v_rest s))) then all
        else RNormal x (Some src) entry :: all
      | None => all
      end
    | _ => all
    end
  | _, _ => all
  end.
