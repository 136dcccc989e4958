(** Programs that are interrupted: C98. *)
From Coq Require Import ZArith String List Bool Lia.
From Verif Require Import BuiltinModel SysProofs LookSpec ShowModel ShowSpec.
From Verif Require Import Base StringModel FloatModel AstModel LexModel ParseModel ParseExamples ExeModel ValueModel MapModel ObjModel VmModel VmExamples
  CompSpec DepthSpec CodegenModel CompileModel CompileProofs CalcSpec CalcProofs RunProofs WhileSpec WhileProofs WhileExamples DumpExamples TalkModel TalkSpec TalkProofs TalkEnd TalkExamples.
From Verif Require Import AsmModel SourceModel TraceModel TraceSpec TraceProofs PosModel PosProofs3 StopModel StopSpec StopProofs StopExamples.
Import ListNotations.
Open Scope list_scope.
Open Scope Z_scope.

(** * C98 *)
(** A run that is aborted has executed its first [n] instructions and is in the state they lead to. It was told to stop then, not before. *)
Theorem C98_aborts : forall w E size x fuel before m n fl s, launch w E size x fuel before m = EAbort n fl s ->
  steps E size x n (vm_start m) = SNext s /\ told before w n s /\
  forall i t, (i < n)%nat -> steps E size x i (vm_start m) = SNext t -> ~ told before w i t.
Proof. exact aborted. Qed.
(** A program that is told to stop after [n] instructions executes no further one. *)
Theorem C98_obeyed : forall w E size x before m n s fuel, steps E size x n (vm_start m) = SNext s -> told before w n s -> (n <= fuel)%nat ->
  exists k fl t, (k <= n)%nat /\ launch w E size x fuel before m = EAbort k fl t.
Proof. exact obeyed. Qed.
(** A loop without end, interrupted after 30 instructions; functions that call each other, 25 instructions allowed: three calls are active then. *)
Example C98_obeyed_ex :
  (exists s, launch (once 30) env0 256 (made text_ever) 40 false mem0 = EAbort 30 true s /\ v_rest s = []) /\
  (exists s, launch (allows 25) env0 256 (made text_deep) 40 false mem0 = EAbort 25 false s /\ List.length (v_rest s) = 3%nat) /\
  (forall s, told false (once 30) 30 s) /\ forall s, told false (allows 25) 25 s.
Proof.
  split; [eexists; split; vm_compute; reflexivity|]. split; [eexists; split; vm_compute; reflexivity|].
  split; intros s; [right; left; exists 30%nat; split; [apply le_n|reflexivity]|right; right; eexists; split; reflexivity].
Qed.
(** A program that is not told to stop until its last instruction is not affected. *)
Theorem C98_untouched : forall w E size x before m n s r fuel, steps E size x n (vm_start m) = SNext s -> step E size x s = r -> (forall t, r <> SNext t) ->
  (forall i t, (i <= n)%nat -> steps E size x i (vm_start m) = SNext t -> ~ told before w i t) -> (n < fuel)%nat ->
  exists fl, launch w E size x fuel before m = EOut r fl.
Proof. exact untouched. Qed.
Example C98_untouched_ex : exists m', steps env0 256 (made text_short) 5 (vm_start mem0) = SDone [VInt 3] m' /\
  launch alone env0 256 (made text_short) 10 false mem0 = EOut (SDone [VInt 3] m') false /\
  launch (once 5) env0 256 (made text_short) 10 false mem0 = EOut (SDone [VInt 3] m') false /\ (forall i s, ~ told false alone i s).
Proof.
  eexists. split; [vm_compute; reflexivity|]. split; [vm_compute; reflexivity|]. split; [vm_compute; reflexivity|].
  intros i s [H|[(j & _ & H)|(f & H & _)]]; discriminate.
Qed.

(** The trace of an aborted program names the calls that are active, the innermost first, each with the line of the instruction it would go on with. *)
Theorem C98_trace : forall w E size text x name src fuel before m n fl s, compile_at text = MExe x -> named src name ->
  readable src (Z.of_nat (List.length text)) text -> Z.of_nat (List.length text) < 2 ^ 31 -> 0 <= size ->
  launch w E size x fuel before m = EAbort n fl s ->
  exists r t, api_run rt_new src (RunErr (abort_frames x src s)) = ROk (false, r) /\
    trace_says 0 (map (fun f => call_at x text name (f_pc f)) (v_cur s :: v_rest s)) t /\
    forall fuel, (16 <= fuel)%nat -> print_trace fuel r = OOk (bytes_of "Stack trace:" ++ [10] ++ t).
Proof.
  intros w E size text x name src fuel before m n fl s A. apply abort_trace. eapply Forall_impl; [|exact (all_inside _ _ A)]. intros i I. apply I.
Qed.
Example C98_trace_ex :
  let text := bytes_of text_deep in let src := mksource None (map Some text) (Z.of_nat (List.length text)) 1 true in
  exists x s r, compile_at text = MExe x /\ launch (once 20) env0 256 x 40 false mem0 = EAbort 20 true s /\
    api_run rt_new src (RunErr (abort_frames x src s)) = ROk (false, r) /\ print_trace 16 r = OOk (bytes_of "Stack trace:
	#0 (unnamed):2
	#1 (unnamed):2
	#2 (unnamed):5
").
Proof. cbv zeta. eexists _, _, _. repeat (split; [vm_compute; reflexivity|]); vm_compute; reflexivity. Qed.

(** What an aborted program has written is what its text has written at some time (the programs of C97). *)
Theorem C98_written_partial : forall src ss X, text_ok src -> slen src < 2 ^ 26 -> reads src ss -> tcores false ss -> incl (tnames_all ss) X -> few X ->
  (forall y, In y X -> no_nul y /\ ~ exists name, In name known_names /\ y = bytes_of name) -> fits_stmts 16 ss = true ->
  exists x, compile src = ROk x /\ forall w E0 ff fb text k b cap m fuel before n fl s, (forall v, basic v -> scalar_shown ff v (text v)) -> 256 <= cap -> m_pend m = false ->
  nth_error (m_objs m) b = Some (OSMap 0) -> nth_error (m_objs m) k = Some (stream []) ->
  launch w (loud ff fb k (std_env E0 (Some (VRef b)))) cap x fuel before m = EAbort n fl s -> sometime text ss (written k (v_mem s)).
Proof.
  intros src ss X T Ln R C I Fw HX Ft. destruct (talking src ss X T Ln R C I Fw HX Ft) as (x & Cp & Cd & F). exists x. split; [exact Cp|].
  intros w E0 ff fb text k b cap m fuel before n fl s Text Hc Pe Hb Hk A. apply aborted in A. destruct A as (A & _).
  apply (written_now ss X x E0 ff fb text k b cap m Cd C F Fw HX Ft Text Hc Pe Hb Hk). exists n, s. split; [exact A|reflexivity].
Qed.

Example C98_written_ex : exists x s, compile src_count = ROk x /\ launch (once 60) (loud no_floats no_bufs 1 std0) 256 x 100 false mem_talk = EAbort 60 true s /\
  written 1 (v_mem s) = bytes "12 11 10 9 " /\ sometime (scalar_text no_floats) (countdown 12) (written 1 (v_mem s)).
Proof.
  destruct (C98_written_partial src_count (countdown 12) [v_i]) as (x & C & H).
  - apply text_checked. reflexivity.
  - vm_compute; reflexivity.
  - apply reads_parse; vm_compute; reflexivity.
  - tfine.
  - intros y. cbn. tauto.
  - split; [repeat constructor; vm_compute; try discriminate; reflexivity|left; cbn; lia].
  - apply short_names. intros y [<-|[]]. eexists. split; [reflexivity|discriminate].
  - reflexivity.
  - exists x. pose proof C as C'. vm_compute in C'. injection C' as <-. eexists. split; [exact C|]. split; [vm_compute; reflexivity|]. split; [vm_compute; reflexivity|].
    eapply (H (once 60) env0 no_floats no_bufs (scalar_text no_floats) 1%nat 0%nat 256 mem_talk 100%nat false 60%nat true); [apply scalar_texts|lia|reflexivity|reflexivity|reflexivity|].
    vm_compute. reflexivity.
Qed.

(** Nothing makes a runtime forget that it was interrupted: every program it is given afterwards is aborted before its first instruction. *)
Theorem C98_never_again : forall w E size x fuel before m n fl s, launch w E size x fuel before m = EAbort n fl s -> (exists i, (i <= n)%nat /\ w_sig w i = true) ->
  forall w' E' size' x' fuel' m', launch w' E' size' x' fuel' fl m' = EAbort 0 true (vm_start m').
Proof. intros w E size x fuel before m n fl s A T w' E' size' x' fuel' m'. rewrite (stays _ _ _ _ _ _ _ _ _ _ A (or_intror T)). apply refused. Qed.
(** So a runtime that was interrupted once cannot be used any more. *)
Theorem C98_again_refuted : exists w x y m n fl s r, launch w env0 256 x 40 false m = EAbort n fl s /\
  launch alone env0 256 y 40 false m = EOut (SDone [VInt 3] r) false /\ launch alone env0 256 y 40 fl m = EAbort 0 true (vm_start m).
Proof. exists (once 30), (made text_ever), (made text_short), mem0. eexists _, _, _, _. repeat (split; [vm_compute; reflexivity|]); vm_compute; reflexivity. Qed.
(** An instruction that does not end cannot be interrupted: not every program can be stopped. *)
Theorem C98_stuck_refuted : exists x n, compile_at (bytes_of "d=1;i=2;j=3;o=4;y=5;z=6;") = MExe x /\
  forall w E fuel, (forall i, (i <= n)%nat -> w_sig w i = false) -> w_call w = None -> (n < fuel)%nat -> exists fl, launch w E 256 x fuel false mem0 = EOut SLoop fl.
Proof.
  eexists _, 16%nat. split; [vm_compute; reflexivity|]. intros w E fuel Q C L.
  eapply (untouched w E 256 _ false mem0 16); [vm_compute; reflexivity|vm_compute; reflexivity|discriminate| |exact L].
  intros i t Hi _ [H|[(j & Hj & H)|(f & H & _)]]; [discriminate|rewrite Q in H by lia; discriminate|congruence].
Qed.

Print Assumptions C98_aborts.
Print Assumptions C98_obeyed.
Print Assumptions C98_untouched.
Print Assumptions C98_trace.
Print Assumptions C98_written_partial.
Print Assumptions C98_never_again.
Print Assumptions C98_again_refuted.
Print Assumptions C98_stuck_refuted.
