(** Model of the interpreter with several executables: src/lib/builtins/basic.c (import and the functions that tell where a script
    is) and src/lib/run.c:1107-1285 (runSource, runFileRelativeToScript) around the machine of VmModel.v.
    Simplifications: as in VmModel.v; the files do not change while a program runs. *)
From Coq Require Import ZArith String List Lia Bool.
From Verif Require Import Base StringModel ValueModel MapModel ListModel ExeModel ArithModel ObjModel FrameModel SysModel SourceModel
  LexModel ParseModel CodegenModel CompileModel BuiltinModel VmModel.
Import ListNotations.
Open Scope Z_scope.

(** runtime.c:51-72, executable.c:152-170, source.c:77-82: what a NormalFrame runs: an executable, and the absolute path of the
    source it was compiled from ([None]: not a file). *)
Record program := mkprog { p_exe : executable; p_path : option (list Z) }.

(** runtime.c:40-72: what a frame below the current one is: one that runs a program ([whole]: made by runSource, not by a call of a
    function), or the one of a native function. *)
Inductive below := BRun (u : program) (whole : bool) | BNative.

(** runtime.c:40-90, run.c:29-49: the state of VmModel.v; the program of each function (FunctionObject.exe); the program of the
    current frame, and whether it was made by runSource; the frames below, in the order of [v_rest]. *)
Record istate := mkis { i_vs : vstate; i_codes : list program; i_prog : program; i_imp : bool; i_rest : list below }.

(** run.c:1082-1105: one step: a state, or the end (as in VmModel.v). *)
Inductive ires := INext (i : istate) | IEnd (r : sres).

(** basic.c:336-350, the numbers of these functions in BuiltinModel.v. *)
Definition N_import : nat := N_other. 
(** basic.c:348-350. *)
Definition N_cwd : nat := (N_other + 2)%nat. Definition N_folder : nat := (N_other + 3)%nat. Definition N_location : nat := (N_other + 4)%nat.

(** runtime.c:640-649: the frame of a native function holds no values; [want]: how many results the CALL that made it asks for. *)
Definition native_frame (want : Z) : vframe := mkfr 0 [] VNone None want.

(** run.c:264-289 the end of native_func_call: the native frame is popped; the results go where the CALL that made it is. *)
Definition shorter (s : vstate) : vstate :=
  match v_rest s with
  | nf :: r => let f := v_cur s in mkvs (v_mem s) (v_codes s) (mkfr (f_pc f) (f_stack f) (f_locals f) (f_clo f) (f_want nf)) r
  | [] => s
  end.

(** utils.c:3-33: the format "s" of returnValues2. *)
Definition give_string (bs : list Z) (m : mem) : out (list value * mem) := obind (vstring bs) (fun v => OOk ([v], m)).

Section Imports.
Variable E : env.                                   (* the other natives *)
Variable size : Z.                                  (* capacity of the shared value stack *)
Variable cwd : option (list Z).                     (* the working directory *)
Variable fs : list Z -> option (list Z).            (* the files *)
Variable big : Z.                                   (* the memory there is *)

(** basic.c:49-62 bin_getCurrentWorkingDirectory. *)
Definition bin_cwd (m : mem) : out (list value * mem) :=
  match c_getcwd cwd (repeat 0 1024) with
  | ROk (Some b) => match c_string b with Some s => give_string s m | None => OUB end
  | ROk None => OErr | RErr => OErr | RUB => OUB
  end.

(** basic.c:64-83 bin_getCurrentScriptDirectory. *)
Definition bin_folder (path : option (list Z)) (m : mem) : out (list value * mem) :=
  match path with
  | None => OOk ([VNone], m)
  | Some p =>
    match popped (rev p) with
    | None => OUB
    | Some k => obind (new_string (p ++ [0]) (Z.of_nat (length p - k))) (fun v => OOk ([v], m))
    end
  end.

(** basic.c:85-94 bin_getCurrentScriptLocation. *)
Definition bin_location (path : option (list Z)) (m : mem) : out (list value * mem) :=
  match path with None => OOk ([VNone], m) | Some p => give_string p m end.

(** basic.c:336-350: the natives as a program sees them; import is none of them, see [do_import]. *)
Definition env_of (u : program) : env :=
  mkenv (fun id argv m =>
    if (id =? N_cwd)%nat then bin_cwd m
    else if (id =? N_folder)%nat then bin_folder (p_path u) m
    else if (id =? N_location)%nat then bin_location (p_path u) m
    else e_native E id argv m) (e_smap E) (e_fselect E) (e_finsert E) (e_builtins E).

(** run.c:1269-1285 runFileRelativeToScript, run.c:1134-1141 the first half of runSource: the program in the file, an error or
    undefined behaviour. *)
Definition load (u : program) (file : list Z) : res program :=
  match script_path cwd (p_path u) file (repeat 0 1024) with
  | ROk None => RErr
  | ROk (Some b) =>
    match c_string b with
    | None => RUB
    | Some full =>
      match from_file cwd fs big full with
      | ROk src =>
        match get_text src, get_after src with
        | Some text, Some 0 => match compile text with ROk x => ROk (mkprog x (get_path src)) | RErr => RErr | RUB => RUB end
        | _, _ => RUB
        end
      | RErr => RErr | RUB => RUB
      end
    end
  | RErr => RErr | RUB => RUB
  end.

(** run.c:264-289 native_func_call with basic.c:122-137 bin_import and run.c:1107-1150: native frame, argument, file, new frame.
    [s]: callable and arguments are popped. *)
Definition do_import (i : istate) (s : vstate) (args : list value) (want : Z) : ires :=
  if MAX_FRAMES <=? Z.of_nat (length (v_cur s :: v_rest s)) then IEnd SLimit else
  match parse_args (m_objs (v_mem s)) (bytes_of "s") args with
  | OOk (PgStr bs :: _) =>
    match c_string (bs ++ [0]) with
    | None => IEnd VmModel.SUB
    | Some file =>
      match load (i_prog i) file with
      | ROk u =>
        if MAX_FRAMES <=? 1 + Z.of_nat (length (v_cur s :: v_rest s)) then IEnd SLimit else
        let (loc, m) := alloc (v_mem s) (OMap (new_map (-1))) in
        INext (mkis (mkvs m (v_codes s) (mkfr 0 [] loc None 0) (native_frame want :: v_cur s :: v_rest s))
                    (i_codes i) u true (BNative :: BRun (i_prog i) (i_imp i) :: i_rest i))
      | RErr => IEnd SErr
      | RUB => IEnd VmModel.SUB
      end
    end
  | OOk _ => IEnd VmModel.SUB
  | OErr => IEnd SErr
  | OUB | OLoop | OFuel => IEnd VmModel.SUB
  end.

(** run.c:751-790: what a CALL calls: the function with this number, the native import with its number of arguments, something else. *)
Inductive callee_is := CFun (c : nat) | CImport (argc : Z) | COther.
(** run.c:751-790. *)
Definition called (s : vstate) : callee_is :=
  match f_stack (v_cur s) with
  | VRef l :: _ =>
    match nth_error (m_objs (v_mem s)) l with
    | Some (OFun c _) => CFun c
    | Some (ONative id argc) => if (id =? N_import)%nat then CImport argc else COther
    | _ => COther
    end
  | _ => COther
  end.

(** run.c:495-1080 runInstruction, run.c:1082-1132 and 264-289 where a run of a program ends. *)
Definition istep (i : istate) : ires :=
  let s := i_vs i in
  let u := i_prog i in
  let plain (s : vstate) (k : vstate -> istate) := match step (env_of u) size (p_exe u) s with SNext t => INext (k t) | r => IEnd r end in
  let stay t := mkis t (i_codes i) u (i_imp i) (i_rest i) in
  match exe_fetch (p_exe u) (f_pc (v_cur s)) with
  | ROk (Some (OP_CALL, [PInt argc; PInt want])) =>
    match called s with
    | CFun c =>
      match step (env_of u) size (p_exe u) s with
      | SNext t =>
        match nth_error (i_codes i) c with
        | Some u' => INext (mkis t (i_codes i) u' false (BRun u (i_imp i) :: i_rest i))
        | None => IEnd VmModel.SUB
        end
      | r => IEnd r
      end
    | CImport expected =>
      let st := List.tl (f_stack (v_cur s)) in
      let n := wrap32 argc in
      if 32 <? n then IEnd SLimit else
      if (n <? 0) || (Z.of_nat (length st) <? n) then IEnd SBad else
      do_import i (with_stack (with_pc s (f_pc (v_cur s) + 1)) (skipn (Z.to_nat n) st))
        (let a := firstn (Z.to_nat n) st in if expected <? 0 then a else adjust expected a) (wrap32 want)
    | COther => plain s stay
    end
  | ROk (Some ((OP_EXIT | OP_RETURN), _)) =>
    let s0 := if i_imp i then shorter s else s in
    let r0 := if i_imp i then List.tl (i_rest i) else i_rest i in
    match step (env_of u) size (p_exe u) s0 with
    | SNext t => match r0 with BRun u' imp :: r => INext (mkis t (i_codes i) u' imp r) | _ => IEnd VmModel.SUB end
    | r => IEnd r
    end
  | ROk (Some (OP_PUSHFUN, _)) => plain s (fun t => mkis t (i_codes i ++ [u]) u (i_imp i) (i_rest i))
  | _ => plain s stay
  end.

(** run.c:1082-1105, for at most [n] instructions, of whichever program. *)
Fixpoint isteps (n : nat) (i : istate) : ires :=
  match n with
  | O => INext i
  | S n' => match istep i with INext i' => isteps n' i' | r => r end
  end.

(** run.c:1134-1150 runSource: the first program. *)
Definition istart (u : program) (m : mem) : istate := mkis (vm_start m) [] u true [].

End Imports.
