(** The frames of a program that imports files, as they are left when it fails: TraceModel.v for the machine of ImportModel.v. *)
From Coq Require Import ZArith String List Bool.
From Verif Require Import Base StringModel ExeModel ValueModel ObjModel SysModel AsmModel BuiltinModel VmModel SourceModel TraceModel ImportModel PosModel.
Import ListNotations.
Open Scope list_scope.
Open Scope Z_scope.

(** source.c:84-182 Source_FromFile: the source of a file that was read as a whole. *)
Definition file_source (path content : list Z) : source := mksource (Some path) (map Some content ++ [Some 0]) (Z.of_nat (List.length content)) 1 true.

(** source.c:187-219 Source_FromString: the source of a string with a name. *)
Definition string_source (name text : list Z) : source := mksource (Some name) (map Some text ++ [None]) (Z.of_nat (List.length text)) 1 false.

(** runtime.c:51-57 NormalFrame, executable.c:236-255: a frame of the program [u] of ImportModel.v, with the positions of its instructions. [main]: name
    and text of the program that was not read from a file, if the first program was not (run.c:1182-1193 runStringEx). *)
Definition frame_of (fs : list Z -> option (list Z)) (main : list Z * list Z) (u : program) (pc : Z) : rframe :=
  match p_path u with
  | Some path =>
    match fs path with
    | Some content => match compile_at content with MExe x => RNormal x (Some (file_source path content)) pc | _ => RNormal (p_exe u) None pc end
    | None => RNormal (p_exe u) None pc
    end
  | None => match compile_at (snd main) with MExe x => RNormal x (Some (string_source (fst main) (snd main))) pc | _ => RNormal (p_exe u) None pc end
  end.

(** runtime.c:44-66: a frame below the current one, with the index of its next instruction. *)
Definition lower_frame (fs : list Z -> option (list Z)) (main : list Z * list Z) (p : Z * below) : rframe := match snd p with BRun u _ => frame_of fs main u (fst p) | BNative => RNative end.

(** run.c:508-514, 283, 1107-1132: the frames when the next instruction of [i] reports an error. *)
Definition trail (fs : list Z -> option (list Z)) (main : list Z * list Z) (i : istate) : list rframe :=
  (if calls_native (p_exe (i_prog i)) (i_vs i) then [RNative] else []) ++
  frame_of fs main (i_prog i) (f_pc (v_cur (i_vs i)) + 1) :: map (lower_frame fs main) (combine (map f_pc (v_rest (i_vs i))) (i_rest i)).

(** run.c:1107-1132, 751-808, 264-289: the frames when the next instruction of [i] reports that a limit is reached ([size]: the capacity of the value
    stack). The frame of a function is linked before its arguments are pushed (1113-1118); that of a program that ends, and that of the import that
    ran it, are unlinked before its results are pushed (1128, 285, 794); the frame of an import stays if there is no room for the program (1113). *)
Definition limit_trail (size : Z) (fs : list Z -> option (list Z)) (main : list Z * list Z) (i : istate) : list rframe :=
  let s := i_vs i in
  let callers := map (lower_frame fs main) (combine (map f_pc (v_rest s)) (i_rest i)) in
  let all := frame_of fs main (i_prog i) (f_pc (v_cur s) + 1) :: callers in
  let ended := if i_imp i then List.tl callers else callers in
  match exe_fetch (p_exe (i_prog i)) (f_pc (v_cur s)), f_stack (v_cur s) with
  | ROk (Some (OP_RETURN, _)), _ => ended
  | ROk (Some (OP_EXIT, _)), _ => match vpush size s (f_locals (v_cur s)) with Some _ => ended | None => all end
  | ROk (Some (OP_CALL, PInt argc :: _)), VRef l :: _ =>
    if (32 <? wrap32 argc) || (FrameModel.MAX_FRAMES <=? Z.of_nat (List.length (v_cur s :: v_rest s))) then all else
    match nth_error (m_objs (v_mem s)) l with
    | Some (OFun c _) =>
      match nth_error (v_codes s) c, nth_error (i_codes i) c with
      | Some (entry, _), Some u => frame_of fs main u entry :: all
      | _, _ => all
      end
    | Some (ONative id _) => if (id =? N_import)%nat then RNative :: all else all
    | _ => all
    end
  | _, _ => all
  end.

(** run.c:1082-1105, 1107-1132: the frames when the run is aborted in the state [i]: no instruction has been begun. *)
Definition abort_trail (fs : list Z -> option (list Z)) (main : list Z * list Z) (i : istate) : list rframe :=
  frame_of fs main (i_prog i) (f_pc (v_cur (i_vs i))) :: map (lower_frame fs main) (combine (map f_pc (v_rest (i_vs i))) (i_rest i)).

(** basic.c:122-137 bin_import, run.c:1269-1285 runFileRelativeToScript, 1134-1141: when the next instruction of [i] imports a text that is
    refused, its source and the offset. *)
Definition refused_import (cwd : option (list Z)) (fs : list Z -> option (list Z)) (big : Z) (i : istate) : option (source * Z) :=
  match exe_fetch (p_exe (i_prog i)) (f_pc (v_cur (i_vs i))), f_stack (v_cur (i_vs i)) with
  | ROk (Some (OP_CALL, [PInt argc; PInt _])), VRef l :: st =>
    match nth_error (m_objs (v_mem (i_vs i))) l with
    | Some (ONative id expected) =>
      if negb (id =? N_import)%nat then None else
      match parse_args (m_objs (v_mem (i_vs i))) (bytes_of "s") (let a := firstn (Z.to_nat (wrap32 argc)) st in if expected <? 0 then a else adjust expected a) with
      | OOk (PgStr bs :: _) =>
        match c_string (bs ++ [0]) with
        | Some file =>
          match script_path cwd (p_path (i_prog i)) file (repeat 0 1024) with
          | ROk (Some b) =>
            match c_string b with
            | Some full =>
              match from_file cwd fs big full with
              | ROk src => match get_text src with
                | Some text => match compile_at text with MErr (Some off) => Some (src, off) | _ => None end
                | None => None end
              | _ => None
              end
            | None => None
            end
          | _ => None
          end
        | None => None
        end
      | _ => None
      end
    | _ => None
    end
  | _, _ => None
  end.

(** run.c:1170-1180 runFileEx of a program that fails with the next instruction of [i]. Where a text is refused, this is the run of another
    program inside of this one (run.c:1134-1141, 1269-1285): the source of this program is there until everything else is done. *)
Definition run_failing (cwd : option (list Z)) (fs : list Z -> option (list Z)) (big : Z) (main : list Z * list Z) (r : rtm) (s : source) (i : istate) : res (bool * rtm) :=
  match refused_import cwd fs big i with
  | None => api_run r s (RunErr (trail fs main i))
  | Some (lib, off) =>
    let sid := List.length (r_srcs r) in
    let r := mkrt (r_cells r) (r_head r) (r_depth r) (r_srcs r ++ [Some (mksource (s_name s) (s_body s) (s_size s) 1 (s_file s))]) in
    match api_run (push_all r (trail fs main i)) lib (NoExe off) with
    | ROk (_, r) =>
      match src_step (r_srcs r) sid SFree with
      | ROk srcs => ROk (false, mkrt (r_cells r) (r_head r) (r_depth r) srcs)
      | RErr => RErr | RUB => RUB
      end
    | RErr => RErr | RUB => RUB
    end
  end.
