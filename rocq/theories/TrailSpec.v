(** What the trace of a program that imports files says. *)
From Coq Require Import ZArith String List Bool.
From Verif Require Import Base StringModel ExeModel ValueModel ObjModel SysModel BuiltinModel VmModel SourceModel AsmModel CompSpec CompileModel ImportModel PosModel PosSpec TraceModel TraceSpec.
Import ListNotations.
Open Scope list_scope.
Open Scope Z_scope.

(** [u] is the program in a file, or that of the text [main] with its name. *)
Definition in_file (fs : list Z -> option (list Z)) (main : list Z * list Z) (u : program) : Prop :=
  (exists path text, p_path u = Some path /\ fs path = Some text /\ compile text = ROk (p_exe u)) \/
  (p_path u = None /\ compile (snd main) = ROk (p_exe u) /\ Z.of_nat (List.length (snd main)) < 2 ^ 26).

(** A frame and its call: the file of its program, and the line of the instruction it goes on with. *)
Inductive call_in (fs : list Z -> option (list Z)) (main : list Z * list Z) : Z * below -> call -> Prop :=
| ci_native pc : call_in fs main (pc, BNative) (bytes_of "(no source)", None)
| ci_run pc u whole path text x : p_path u = Some path -> fs path = Some text -> compile_at text = MExe x -> same_code x (p_exe u) ->
    call_in fs main (pc, BRun u whole) (call_at x text path pc)
| ci_main pc u whole x : p_path u = None -> compile_at (snd main) = MExe x -> same_code x (p_exe u) ->
    call_in fs main (pc, BRun u whole) (call_at x (snd main) (fst main) pc).

(** The calls when the next instruction of [i] fails; if that calls a native function, this is one of them. *)
Definition trail_calls (fs : list Z -> option (list Z)) (main : list Z * list Z) (i : istate) (cs : list call) : Prop :=
  exists top rest, cs = top ++ rest /\
    (native_call (p_exe (i_prog i)) (i_vs i) -> top = [(bytes_of "(no source)", None)]) /\ (~ native_call (p_exe (i_prog i)) (i_vs i) -> top = []) /\
    Forall2 (call_in fs main) ((f_pc (v_cur (i_vs i)) + 1, BRun (i_prog i) (i_imp i)) :: combine (map f_pc (v_rest (i_vs i))) (i_rest i)) rest /\
    List.length rest = S (List.length (v_rest (i_vs i))).

(** The calls below the current one, the innermost first; when the current one is that of an imported program, the first of them is that of import. *)
Definition below_calls (fs : list Z -> option (list Z)) (main : list Z * list Z) (i : istate) (cs : list call) : Prop :=
  Forall2 (call_in fs main) (combine (map f_pc (v_rest (i_vs i))) (i_rest i)) cs /\ List.length cs = List.length (v_rest (i_vs i)).
(** The next instruction is a call, with at most 32 arguments while fewer than 16 calls are active: of a function in the program [u]; of import. *)
Definition enters_in (i : istate) (u : program) (entry : Z) : Prop :=
  exists argc ops l st c clo n, exe_fetch (p_exe (i_prog i)) (f_pc (v_cur (i_vs i))) = ROk (Some (OP_CALL, PInt argc :: ops)) /\
    f_stack (v_cur (i_vs i)) = VRef l :: st /\ nth_error (m_objs (v_mem (i_vs i))) l = Some (OFun c clo) /\ nth_error (v_codes (i_vs i)) c = Some (entry, n) /\
    nth_error (i_codes i) c = Some u /\ wrap32 argc <= 32 /\ (List.length (v_rest (i_vs i)) < 15)%nat.
Definition enters_import (i : istate) : Prop :=
  exists argc ops l st expected, exe_fetch (p_exe (i_prog i)) (f_pc (v_cur (i_vs i))) = ROk (Some (OP_CALL, PInt argc :: ops)) /\
    f_stack (v_cur (i_vs i)) = VRef l :: st /\ nth_error (m_objs (v_mem (i_vs i))) l = Some (ONative N_import expected) /\ wrap32 argc <= 32 /\
    (List.length (v_rest (i_vs i)) < 15)%nat.
(** The calls when the next instruction of [i] reports a limit. *)
Inductive limit_calls_in (size : Z) (fs : list Z -> option (list Z)) (main : list Z * list Z) (i : istate) : list call -> Prop :=
| li_ends cs : ends_call size (p_exe (i_prog i)) (i_vs i) -> below_calls fs main i cs -> limit_calls_in size fs main i (if i_imp i then List.tl cs else cs)
| li_enters u entry c c' cs : enters_in i u entry -> call_in fs main (entry, BRun u false) c' ->
    call_in fs main (f_pc (v_cur (i_vs i)) + 1, BRun (i_prog i) (i_imp i)) c -> below_calls fs main i cs -> limit_calls_in size fs main i (c' :: c :: cs)
| li_import c cs : enters_import i -> call_in fs main (f_pc (v_cur (i_vs i)) + 1, BRun (i_prog i) (i_imp i)) c -> below_calls fs main i cs ->
    limit_calls_in size fs main i ((bytes_of "(no source)", None) :: c :: cs)
| li_plain c cs : ~ ends_call size (p_exe (i_prog i)) (i_vs i) -> (forall u entry, ~ enters_in i u entry) -> ~ enters_import i ->
    call_in fs main (f_pc (v_cur (i_vs i)) + 1, BRun (i_prog i) (i_imp i)) c -> below_calls fs main i cs -> limit_calls_in size fs main i (c :: cs).

(** The calls that are active in the state [i] between two instructions. *)
Definition active_calls (fs : list Z -> option (list Z)) (main : list Z * list Z) (i : istate) (cs : list call) : Prop :=
  Forall2 (call_in fs main) ((f_pc (v_cur (i_vs i)), BRun (i_prog i) (i_imp i)) :: combine (map f_pc (v_rest (i_vs i))) (i_rest i)) cs /\
  List.length cs = S (List.length (v_rest (i_vs i))).

(** The next instruction of [i] imports the text of a file. *)
Definition imports_next (cwd : option (list Z)) (fs : list Z -> option (list Z)) (big : Z) (i : istate) (path text : list Z) : Prop :=
  exists argc want l expected bs st file b full src, exe_fetch (p_exe (i_prog i)) (f_pc (v_cur (i_vs i))) = ROk (Some (OP_CALL, [PInt argc; PInt want])) /\
    f_stack (v_cur (i_vs i)) = VRef l :: VStr bs :: st /\ nth_error (m_objs (v_mem (i_vs i))) l = Some (ONative N_import expected) /\ 1 <= wrap32 argc /\ expected <> 0 /\
    c_string (bs ++ [0]) = Some file /\ script_path cwd (p_path (i_prog i)) file (repeat 0 1024) = ROk (Some b) /\ c_string b = Some full /\
    from_file cwd fs big full = ROk src /\ s_name src = Some path /\ fs path = Some text.

(** The calls, and before them the place where the text of an imported file is refused, unless 16 calls are active already. *)
Inductive all_calls (cwd : option (list Z)) (fs : list Z -> option (list Z)) (big : Z) (main : list Z * list Z) (i : istate) : list call -> Prop :=
| ac_run cs : (forall path text off, imports_next cwd fs big i path text -> compile_at text <> MErr off) -> trail_calls fs main i cs -> all_calls cwd fs big main i cs
| ac_refused path text off cs : imports_next cwd fs big i path text -> compile_at text = MErr (Some off) -> trail_calls fs main i cs -> (List.length cs < 16)%nat ->
    all_calls cwd fs big main i ((path, Some (line_at text off)) :: cs)
| ac_full path text off cs : imports_next cwd fs big i path text -> compile_at text = MErr (Some off) -> trail_calls fs main i cs -> List.length cs = 16%nat ->
    all_calls cwd fs big main i cs.

(** All files are texts, and not too long. *)
Definition texts (fs : list Z -> option (list Z)) : Prop := forall path text, fs path = Some text -> text_ok text /\ Z.of_nat (List.length text) < 2 ^ 26.
