(** From a text to what it does: C71. *)
From Coq Require Import ZArith String List Bool Lia.
From Verif Require Import Base StringModel ExeModel AstModel LexModel ParseModel ParseSpec ParseExamples CodegenModel CompSpec ValueModel ObjModel VmModel SrcModel
  RunProofs VmExamples CompileModel CompileProofs.
Import ListNotations.
Open Scope Z_scope.

(** * C71 *)
(** Every program without semantic errors that the grammar reads in the text is compiled. *)
Theorem C71_compiles : forall src ss, text_ok src -> slen src < 2 ^ 26 -> reads src ss -> ok_stmts false ss = true ->
  exists x, compile src = ROk x.
Proof. intros src ss T L R O. destruct (compile_good src ss T L R O) as (x & H & _). exists x. exact H. Qed.
(** The run of what a text is compiled to is the evaluation of the one program that is written in it. *)
Theorem C71_runs : forall src x, text_ok src -> slen src < 2 ^ 26 -> compile src = ROk x ->
  exists ss, reads src ss /\ (forall ss', reads src ss' -> ss' = ss) /\ forall E cap m n,
  (exists j, steps E cap x j (vm_start m) = SLimit) \/
  match run_program E n (SComp ss) m with
  | OOk (rets, st) => exists j, steps E cap x j (vm_start m) = SDone rets (t_mem st)
  | OErr => exists j, steps E cap x j (vm_start m) = SErr
  | OUB => exists j, steps E cap x j (vm_start m) = SUB
  | OLoop => exists j, steps E cap x j (vm_start m) = SLoop
  | OFuel => (exists j, steps E cap x j (vm_start m) = SLoop) \/ exists s, steps E cap x n (vm_start m) = SNext s
  end.
Proof. exact compile_runs. Qed.
Theorem C71_evaluates : forall src ss x, text_ok src -> slen src < 2 ^ 26 -> reads src ss -> compile src = ROk x ->
  forall E cap m j r, steps E cap x j (vm_start m) = r -> (forall t, r <> SNext t) -> r <> SLimit -> r <> SLoop ->
  forall n, (j <= n)%nat ->
  match run_program E n (SComp ss) m with
  | OOk (rets, st) => r = SDone rets (t_mem st)
  | OErr => r = SErr
  | OUB => r = SUB
  | _ => False
  end.
Proof. exact compile_evaluates. Qed.
(** A text no program is written in is refused, except for the texts of C44. *)
Theorem C71_unreadable_partial : forall src, (forall ss, ~ reads src ss) -> compile src = RErr \/ (compile src = RUB /\ parse true src = PUB).
Proof. exact compile_unreadable. Qed.
(** Semantic errors: the message is written through an uninitialised pointer. *)
Theorem C71_semantic_refuted : forall src ss, reads src ss -> ok_stmts false ss = false -> compile src = RUB.
Proof. exact compile_semantic. Qed.

Example C71_example : text_ok src_sum /\ slen src_sum < 2 ^ 26 /\ (exists ss, reads src_sum ss /\ ok_stmts false ss = true) /\
  match compile src_sum with
  | ROk x => outcome (steps env0 100 x 200 (vm_start mem0)) = SDone [VInt 15; VBool true] mem0
  | _ => False
  end /\
  (forall ss, ~ reads src_wrong ss) /\ compile src_wrong = RErr /\
  (forall ss, ~ reads src_open_map ss) /\ compile src_open_map = RUB /\
  (exists ss, reads src_break ss /\ ok_stmts false ss = false) /\ compile src_break = RUB.
Proof.
  split; [repeat (constructor; [vm_compute; split; congruence|]); constructor|].
  split; [vm_compute; reflexivity|].
  split; [eexists; split; [apply reads_parse; vm_compute; reflexivity|vm_compute; reflexivity]|].
  split; [vm_compute; reflexivity|].
  split; [intros ss R; apply reads_parse in R; vm_compute in R; discriminate|].
  split; [vm_compute; reflexivity|].
  split; [intros ss R; apply reads_parse in R; vm_compute in R; discriminate|].
  split; [vm_compute; reflexivity|].
  split; [eexists; split; [apply reads_parse; vm_compute; reflexivity|vm_compute; reflexivity]|].
  vm_compute. reflexivity.
Qed.
Print Assumptions C71_compiles.
Print Assumptions C71_runs.
Print Assumptions C71_evaluates.
Print Assumptions C71_unreadable_partial.
Print Assumptions C71_semantic_refuted.
