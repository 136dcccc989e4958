(** What a stack trace says, and what the programs run on one runtime leave behind. *)
From Coq Require Import ZArith String List Bool.
From Verif Require Import Base StringModel ValueModel ObjModel ExeModel AsmModel VmModel AsmSpec SourceModel ShowSpec TraceModel.
Import ListNotations.
Open Scope list_scope.
Open Scope Z_scope.

(** The number of the line on which the byte [off] of a text is. *)
Definition line_at (text : list Z) (off : Z) : Z := 1 + Z.of_nat (count_occ Z.eq_dec (firstn (Z.to_nat off) text) 10).

(** A call that is still active: the name of its program and the line. *)
Definition call : Type := list Z * option Z.

(** One line of a trace: a tab, the number of the call, the name, and the line if there is one. *)
Inductive entry_says (k : Z) : call -> list Z -> Prop :=
| es_plain name d : int_shown k d -> entry_says k (name, None) ([9; 35] ++ d ++ [32] ++ name ++ [10])
| es_line name n d e : int_shown k d -> int_shown n e -> entry_says k (name, Some n) ([9; 35] ++ d ++ [32] ++ name ++ [58] ++ e ++ [10]).
(** The lines for some calls, numbered from [k]. *)
Inductive trace_says : Z -> list call -> list Z -> Prop :=
| ts_nil k : trace_says k [] []
| ts_cons k c t cs u : entry_says k c t -> trace_says (k + 1) cs u -> trace_says k (c :: cs) (t ++ u).

(** Instruction [i] is named at its position in [text]. *)
Definition stands (text : list Z) (i : binstr) : Prop :=
  exists pre mid, text = pre ++ bytes_of (spelled (bi_op i)) ++ mid /\ bi_off i = Z.of_nat (List.length pre) /\
    bi_len i = Z.of_nat (List.length (bytes_of (spelled (bi_op i)))).
(** The instructions stand one behind the other, the last one before [stop]. *)
Fixpoint ordered (from stop : Z) (l : list binstr) : Prop :=
  match l with [] => from <= stop | i :: r => from <= bi_off i /\ ordered (bi_off i + bi_len i) stop r end.

(** The text of a source (as far as [n] bytes of it) and its name. *)
Definition readable (s : source) (n : Z) (text : list Z) : Prop :=
  n <= Z.of_nat (List.length text) /\ firstn (List.length text) (s_body s) = map Some text.
Definition named (s : source) (name : list Z) : Prop := s_name s = Some name \/ (s_name s = None /\ name = bytes_of "(unnamed)").

(** The call whose next instruction is number [pc] of a program with the given text. *)
Definition call_at (x : executable) (text name : list Z) (pc : Z) : call :=
  (name, if pc <? 0 then None else option_map (fun i => line_at text (bi_off i)) (nth_error (x_body x) (Z.to_nat pc))).

(** The instruction about to be executed is the call of a native function. *)
Definition native_call (x : executable) (s : vstate) : Prop :=
  exists ops l st id argc, exe_fetch x (f_pc (v_cur s)) = ROk (Some (OP_CALL, ops)) /\ f_stack (v_cur s) = VRef l :: st /\
    nth_error (m_objs (v_mem s)) l = Some (ONative id argc).

(** The calls that are active when the next instruction of [s] fails, the innermost first. *)
Inductive failed_calls (x : executable) (text name : list Z) (s : vstate) : list call -> Prop :=
| fc_native : native_call x s -> failed_calls x text name s ((bytes_of "(no source)", None) ::
    call_at x text name (f_pc (v_cur s) + 1) :: map (fun f => call_at x text name (f_pc f)) (v_rest s))
| fc_plain : ~ native_call x s -> failed_calls x text name s (call_at x text name (f_pc (v_cur s) + 1) :: map (fun f => call_at x text name (f_pc f)) (v_rest s)).

(** The instruction about to be executed ends the innermost call: it is a return, or an exit that has room for one more value. *)
Definition ends_call (size : Z) (x : executable) (s : vstate) : Prop :=
  (exists ops, exe_fetch x (f_pc (v_cur s)) = ROk (Some (OP_RETURN, ops))) \/
  (exists ops, exe_fetch x (f_pc (v_cur s)) = ROk (Some (OP_EXIT, ops)) /\ Z.of_nat (List.length (f_stack (v_cur s))) < 16 /\ used s < size).
(** It enters the function at [entry]: a call with at most 32 arguments, while fewer than 16 calls are active. *)
Definition enters (x : executable) (s : vstate) (entry : Z) : Prop :=
  exists argc ops l st c clo n, exe_fetch x (f_pc (v_cur s)) = ROk (Some (OP_CALL, PInt argc :: ops)) /\ f_stack (v_cur s) = VRef l :: st /\
    nth_error (m_objs (v_mem s)) l = Some (OFun c clo) /\ nth_error (v_codes s) c = Some (entry, n) /\ wrap32 argc <= 32 /\ (List.length (v_rest s) < 15)%nat.
(** The calls that are active when the next instruction of [s] reports a limit, the innermost first. *)
Inductive limited_calls (size : Z) (x : executable) (text name : list Z) (s : vstate) : list call -> Prop :=
| lc_ends : ends_call size x s -> limited_calls size x text name s (map (fun f => call_at x text name (f_pc f)) (v_rest s))
| lc_enters entry : enters x s entry -> limited_calls size x text name s (call_at x text name entry ::
    call_at x text name (f_pc (v_cur s) + 1) :: map (fun f => call_at x text name (f_pc f)) (v_rest s))
| lc_plain : ~ ends_call size x s -> (forall entry, ~ enters x s entry) ->
    limited_calls size x text name s (call_at x text name (f_pc (v_cur s) + 1) :: map (fun f => call_at x text name (f_pc f)) (v_rest s)).

(** What a frame that is left behind stands for. *)
Inductive stands_for : rframe -> call -> Prop :=
| sf_native : stands_for RNative (bytes_of "(no source)", None)
| sf_normal x src text name pc : named src name -> readable src (Z.of_nat (List.length text)) text -> Z.of_nat (List.length text) < 2 ^ 31 ->
    Forall (fun i => 0 <= bi_off i <= Z.of_nat (List.length text)) (x_body x) -> stands_for (RNormal x (Some src) pc) (call_at x text name pc)
| sf_bare x pc : stands_for (RNormal x None pc) (bytes_of "(no source)", None).
(** What the refusal of a text at an offset (-1: unknown) stands for. *)
Inductive refused_at (s : source) (off : Z) : call -> Prop :=
| ra_line text name : named s name -> readable s off text -> 0 <= off < 2 ^ 31 -> Z.of_nat (List.length text) < 2 ^ 31 -> refused_at s off (name, Some (line_at text off))
| ra_none name : named s name -> off = -1 -> refused_at s off (name, None).

Definition is_refusal (p : source * outcome) : bool := match snd p with NoExe _ => true | _ => false end.

(** The calls that are still active after some programs were run one after the other, the latest first. No two of the programs were refused. *)
Inductive leaves : list (source * outcome) -> list call -> Prop :=
| lv_nil : leaves [] []
| lv_ok h cs s : leaves h cs -> (List.length cs < 16)%nat -> leaves (h ++ [(s, RunOk)]) cs
| lv_err h cs s frs new : leaves h cs -> Forall2 stands_for frs new -> (List.length new + List.length cs <= 16)%nat -> leaves (h ++ [(s, RunErr frs)]) (new ++ cs)
| lv_no h cs s off c : leaves h cs -> existsb is_refusal h = false -> refused_at s off c -> (List.length cs < 16)%nat -> leaves (h ++ [(s, NoExe off)]) (c :: cs).

(** Nothing is held any more: no frame but the one inside the runtime itself, no source. *)
Definition all_freed (r : rtm) : Prop :=
  (forall k c, nth_error (r_cells r) (S k) = Some c -> c = None) /\ forall i s, nth_error (r_srcs r) i = Some s -> s = None.
