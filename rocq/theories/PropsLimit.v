(** The limits of the interpreter: C75. *)
From Coq Require Import ZArith String List Bool.
From Verif Require Import Base StringModel ExeModel ValueModel MapModel ObjModel VmModel VmExamples ParseExamples CompileModel AsmModel LimitSpec LimitProofs AstModel CompSpec LexModel SrcModel RunProofs CompileProofs DepthSpec DepthProofs.
Import ListNotations.
Open Scope Z_scope.

(** * C75 *)
(** Whatever the bytecode: never more than 16 frames, 16 values on a frame, or [size] values in all. *)
Theorem C75_within : forall E size x n m s, 0 <= size -> steps E size x n (vm_start m) = SNext s -> within size s.
Proof. exact reached_run. Qed.
Theorem C75_results : forall E size x n m r m', 0 <= size -> steps E size x n (vm_start m) = SDone r m' -> Z.of_nat (List.length r) <= 16.
Proof. exact reached_results. Qed.
(** An instruction that stays in its frame takes and gives the number of values in [moves] (LimitSpec.v); what lies below, the other
    frames, the variables, the closure and the number of results asked for are untouched. *)
Theorem C75_moves : forall E size x s op ops t g s', exe_fetch x (f_pc (v_cur s)) = ROk (Some (op, ops)) -> moves op ops = Some (t, g) ->
  step E size x s = SNext s' ->
  t <= Z.of_nat (List.length (f_stack (v_cur s))) /\
  (exists gs, Z.of_nat (List.length gs) = g /\ f_stack (v_cur s') = gs ++ skipn (Z.to_nat t) (f_stack (v_cur s))) /\
  v_rest s' = v_rest s /\ f_locals (v_cur s') = f_locals (v_cur s) /\ f_clo (v_cur s') = f_clo (v_cur s) /\ f_want (v_cur s') = f_want (v_cur s) /\
  (jumps op = false -> f_pc (v_cur s') = f_pc (v_cur s) + 1).
Proof. exact step_effect. Qed.
(** A limit is reported only where it is exceeded. With 256 values the whole stack never is the cause. *)
Theorem C75_reported : forall E size x s op ops t g, within size s -> 256 <= size ->
  exe_fetch x (f_pc (v_cur s)) = ROk (Some (op, ops)) -> moves op ops = Some (t, g) -> step E size x s = SLimit ->
  Z.of_nat (List.length (f_stack (v_cur s))) - t + g > 16.
Proof. exact step_limit_frame. Qed.
Theorem C75_reported_call : forall E size x s argc want callee st,
  exe_fetch x (f_pc (v_cur s)) = ROk (Some (OP_CALL, [PInt argc; PInt want])) -> f_stack (v_cur s) = callee :: st ->
  in_int argc -> in_int want -> step E size x s = SLimit ->
  argc > 32 \/ Z.of_nat (List.length (frames_of s)) >= 16 \/
  (exists l c clo entry n, callee = VRef l /\ nth_error (m_objs (v_mem s)) l = Some (OFun c clo) /\ nth_error (v_codes s) c = Some (entry, n) /\
     ~ room size (Z.max 0 n) 0 (values_of (frames_of s) - 1 - argc)) \/
  (exists l id n, callee = VRef l /\ nth_error (m_objs (v_mem s)) l = Some (ONative id n) /\
     ~ room size (Z.max 0 want) (Z.of_nat (List.length st) - argc) (values_of (frames_of s) - 1 - argc)).
Proof. exact step_call_limit. Qed.
Theorem C75_reported_return : forall E size x s n, exe_fetch x (f_pc (v_cur s)) = ROk (Some (OP_RETURN, [PInt n])) -> step E size x s = SLimit ->
  exists caller rest, v_rest s = caller :: rest /\ ~ room size (Z.max 0 (f_want (v_cur s))) (Z.of_nat (List.length (f_stack caller))) (values_of (v_rest s)).
Proof. exact step_return_limit. Qed.

(** A program whose frames never hold more than 16 values, told from its tree ([fits_stmt], DepthSpec.v), reaches no limit but that of the
    sixteen frames, and none at all if it calls nothing. *)
Theorem C75_only_depth : forall root x, compiled root x -> fits_stmt 16 root = true -> forall E cap m n, 256 <= cap ->
  steps E cap x n (vm_start m) = SLimit ->
  exists i s argc want, (i < n)%nat /\ steps E cap x i (vm_start m) = SNext s /\
    exe_fetch x (f_pc (v_cur s)) = ROk (Some (OP_CALL, [PInt argc; PInt want])) /\ Z.of_nat (List.length (frames_of s)) = 16.
Proof. exact shallow_limit. Qed.
Theorem C75_callfree : forall src ss x, text_ok src -> slen src < 2 ^ 26 -> reads src ss -> compile src = ROk x ->
  fits_stmts 16 ss = true -> callfree_stmts ss = true -> forall E cap m n, 256 <= cap ->
  steps E cap x n (vm_start m) <> SLimit /\
  match run_program E n (SComp ss) m with
  | OOk (rets, st) => exists j, steps E cap x j (vm_start m) = SDone rets (t_mem st)
  | OErr => exists j, steps E cap x j (vm_start m) = SErr
  | OUB => exists j, steps E cap x j (vm_start m) = VmModel.SUB
  | OLoop => exists j, steps E cap x j (vm_start m) = SLoop
  | OFuel => (exists j, steps E cap x j (vm_start m) = SLoop) \/ exists s, steps E cap x n (vm_start m) = SNext s
  end.
Proof.
  intros src ss x T L R C Ft Cf E cap m n Hc. destruct (compile_compiled src x T L C) as (ss' & R' & Cd). pose proof (reads_one _ _ _ R R') as <-.
  assert (N : forall j, steps E cap x j (vm_start m) <> SLimit) by (intros j; exact (callfree_no_limit _ _ Cd Ft Cf E cap m j Hc)).
  split; [apply N|]. destruct (runs E cap _ x Cd m n) as [[j H]|H]; [destruct (N j H)|exact H].
Qed.

Definition src_deep : list Z := bytes "fun f(n) return f(n + 1); return f(0);".
Definition src_nested : list Z := bytes "return 1+(1+(1+(1+(1+(1+(1+(1+(1+(1+(1+(1+(1+(1+(1+(1+1)))))))))))))));".
Definition src_sixteen : list Z := bytes "return 1+(1+(1+(1+(1+(1+(1+(1+(1+(1+(1+(1+(1+(1+(1+(1)))))))))))))));".
Definition asm_pop : list Z := bytes "PUSHINT 1; PUSHINT 2; PUSHINT 3; POP 2; RETURN 1;".
(** How the run of a text ends after [n] steps, and the sizes of the frames before the last one. *)
Inductive ending := Going | Ended (r : list value) | Limit | Otherwise.
Definition ends (r : sres) : ending := match r with SNext _ => Going | SDone vs _ => Ended vs | SLimit => Limit | _ => Otherwise end.
Definition sizes (r : sres) : list Z := match r with SNext s => map (fun f => Z.of_nat (List.length (f_stack f))) (frames_of s) | _ => [] end.
Definition last_of (c : res executable) (n : nat) : ending * list Z :=
  match c with
  | ROk x => (ends (steps env0 1024 x (S n) (vm_start mem0)), sizes (steps env0 1024 x n (vm_start mem0)))
  | _ => (Otherwise, [])
  end.
Definition assembled : res executable := match assemble true asm_pop with AOk (x, false) => ROk x | _ => RErr end.

(** The seventeenth frame is refused, and so is the seventeenth value; with one operand less the text runs. Two values are popped. *)
Example C75_example :
  last_of (compile src_deep) 111 = (Limit, [2; 0; 0; 0; 0; 0; 0; 0; 0; 0; 0; 0; 0; 0; 0; 0]) /\
  last_of (compile src_nested) 16 = (Limit, [16]) /\ last_of (compile src_sixteen) 31 = (Ended [VInt 16], [1]) /\
  last_of assembled 3 = (Going, [3]) /\ last_of assembled 4 = (Ended [VInt 1], [1]) /\
  fits_stmt 16 prog1 = true /\ fits_stmt 15 prog9 = true /\ fits_stmt 8 prog9 = false /\
  (exists ss, reads src_sum ss /\ fits_stmts 3 ss = true /\ fits_stmts 1 ss = false /\ callfree_stmts ss = true).
Proof.
  do 8 (split; [vm_compute; reflexivity|]). eexists. split; [apply reads_parse; vm_compute; reflexivity|]. vm_compute. auto.
Qed.

Print Assumptions C75_within.
Print Assumptions C75_results.
Print Assumptions C75_moves.
Print Assumptions C75_reported.
Print Assumptions C75_reported_call.
Print Assumptions C75_reported_return.
Print Assumptions C75_only_depth.
Print Assumptions C75_callfree.
