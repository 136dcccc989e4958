(** Programs that import files and are interrupted: C98. *)
From Coq Require Import ZArith String List Lia Bool.
From Verif Require Import Base StringModel AsmModel ParseExamples ExeModel ValueModel MapModel ObjModel SysModel BuiltinModel CompSpec CompileModel VmModel VmExamples WhileExamples
  SourceModel ImportModel ImportMore ImportExamples PosModel PosSpec TraceModel TraceSpec TrailModel TrailSpec TrailProofs TrailExamples StopModel StopSpec StopExamples HaltModel HaltProofs.
Import ListNotations.
Open Scope list_scope.
Open Scope Z_scope.

(** * C98 *)
(** A run that is aborted has executed its first [n] instructions, those of the imported files among them, and is in the state they lead to. It was
    told to stop then, not before. *)
Theorem C98_imports_aborts : forall w E size cwd fs big fuel before u m n fl i, hlaunch w E size cwd fs big fuel before u m = HAbort n fl i ->
  isteps E size cwd fs big n (istart u m) = INext i /\ told before w n (i_vs i) /\
  forall k t, (k < n)%nat -> isteps E size cwd fs big k (istart u m) = INext t -> ~ told before w k (i_vs t).
Proof. exact haborted. Qed.
(** A program that is told to stop after [n] instructions executes no further one, in whichever file. *)
Theorem C98_imports_obeyed : forall w E size cwd fs big before u m n i fuel, isteps E size cwd fs big n (istart u m) = INext i -> told before w n (i_vs i) -> (n <= fuel)%nat ->
  exists k fl t, (k <= n)%nat /\ hlaunch w E size cwd fs big fuel before u m = HAbort k fl t.
Proof. exact hobeyed. Qed.
(** Interrupted before the first instruction of the imported file, inside of it, and in a function of it. *)
Example C98_imports_obeyed_ex : exists u a b c, file_prog (bytes "/t/m") = Some u /\
  hlaunch (once 6) std0 256 home on_shelf (2 ^ 20) 40 false u mem_std = HAbort 6 true a /\ f_pc (v_cur (i_vs a)) = 0 /\ List.length (i_rest a) = 2%nat /\
  hlaunch (once 12) std0 256 home on_shelf (2 ^ 20) 40 false u mem_std = HAbort 12 true b /\ List.length (i_rest b) = 2%nat /\
  hlaunch (allows 18) std0 256 home on_shelf (2 ^ 20) 40 false u mem_std = HAbort 18 false c /\ List.length (i_rest c) = 3%nat /\
  (forall s, told false (once 12) 12 s) /\ forall s, told false (allows 18) 18 s.
Proof.
  eexists _, _, _, _. repeat (split; [vm_compute; reflexivity|]).
  split; intros s; [right; left; exists 12%nat; split; [apply le_n|reflexivity]|right; right; eexists; split; reflexivity].
Qed.
(** Interrupted when the import has returned, before the result is used; and in the function that the imported file has made. *)
Example C98_imports_returned_ex : exists u a b, file_prog (bytes "/t/deep") = Some u /\
  hlaunch (once 9) std0 256 home on_shelf (2 ^ 20) 40 false u mem_std = HAbort 9 true a /\ f_pc (v_cur (i_vs a)) = 3 /\ i_rest a = [] /\ p_path (i_prog a) = Some (bytes "/t/deep") /\
  hlaunch (once 14) std0 256 home on_shelf (2 ^ 20) 40 false u mem_std = HAbort 14 true b /\ List.length (i_rest b) = 1%nat /\ p_path (i_prog b) = Some (bytes "/t/grow").
Proof. eexists _, _, _. repeat (split; [vm_compute; reflexivity|]). vm_compute. reflexivity. Qed.
(** A program that is not told to stop until its last instruction is not affected. *)
Theorem C98_imports_untouched : forall w E size cwd fs big before u m n i r fuel, isteps E size cwd fs big n (istart u m) = INext i ->
  istep E size cwd fs big i = IEnd r -> (forall k t, (k <= n)%nat -> isteps E size cwd fs big k (istart u m) = INext t -> ~ told before w k (i_vs t)) -> (n < fuel)%nat ->
  exists fl, hlaunch w E size cwd fs big fuel before u m = HOut r fl.
Proof. exact huntouched. Qed.
Example C98_imports_untouched_ex : exists u i, file_prog (bytes "/t/m") = Some u /\ isteps std0 256 home on_shelf (2 ^ 20) 20 (istart u mem_std) = INext i /\
  istep std0 256 home on_shelf (2 ^ 20) i = IEnd SErr /\ hlaunch alone std0 256 home on_shelf (2 ^ 20) 40 false u mem_std = HOut SErr false /\
  hlaunch (once 21) std0 256 home on_shelf (2 ^ 20) 40 false u mem_std = HOut SErr false /\ (forall k s, ~ told false alone k s).
Proof.
  eexists _, _. repeat (split; [vm_compute; reflexivity|]). intros k s [H|[(j & _ & H)|(f & H & _)]]; discriminate.
Qed.
(** The trace of an aborted program names the calls that are active with their files, the innermost first, each with the line of the instruction it
    would go on with. *)
Theorem C98_imports_trace : forall w E size cwd fs big main fuel before u m src n fl i, 256 <= size -> texts fs -> in_file fs main u ->
  hlaunch w E size cwd fs big fuel before u m = HAbort n fl i ->
  exists r cs t, api_run rt_new src (RunErr (abort_trail fs main i)) = ROk (false, r) /\ active_calls fs main i cs /\ trace_says 0 cs t /\
    forall fuel, (16 <= fuel)%nat -> print_trace fuel r = OOk (bytes_of "Stack trace:" ++ [10] ++ t).
Proof.
  intros w E size cwd fs big main fuel before u m src n fl i Hs T I H. apply haborted in H. destruct H as (H & _).
  apply (trail_aborted E size cwd fs big main Hs (texts_small fs T) u m src i I). exists n. exact H.
Qed.
Example C98_imports_trace_ex : exists u i r, texts on_shelf /\ in_file on_shelf no_main u /\
  hlaunch (once 12) std0 256 home on_shelf (2 ^ 20) 40 false u mem_std = HAbort 12 true i /\
  api_run rt_new (shelf_source (bytes "/t/m")) (RunErr (abort_trail on_shelf no_main i)) = ROk (false, r) /\
  print_trace 16 r = OOk (bytes_of "Stack trace:
	#0 /t/lib:4
	#1 (no source)
	#2 /t/m:2
").
Proof.
  destruct (file_prog (bytes "/t/m")) as [u|] eqn:P; [|vm_compute in P; discriminate P]. exists u. pose proof (file_prog_in _ _ P) as I. vm_compute in P. injection P as <-.
  eexists _, _. split; [exact shelf_texts|]. split; [exact I|]. repeat (split; [vm_compute; reflexivity|]). vm_compute. reflexivity.
Qed.

(** Nothing makes a runtime forget that it was interrupted inside of an imported file: every program it is given afterwards is aborted at once. *)
Theorem C98_imports_never_again : forall w E size cwd fs big fuel before u m n fl i, hlaunch w E size cwd fs big fuel before u m = HAbort n fl i ->
  (exists k, (k <= n)%nat /\ w_sig w k = true) ->
  forall w' E' size' cwd' fs' big' fuel' u' m', hlaunch w' E' size' cwd' fs' big' fuel' fl u' m' = HAbort 0 true (istart u' m').
Proof.
  intros w E size cwd fs big fuel before u m n fl i A T w' E' size' cwd' fs' big' fuel' u' m'. rewrite (hstays _ _ _ _ _ _ _ _ _ _ _ _ _ A (or_intror T)). reflexivity.
Qed.
Example C98_imports_never_again_ex : exists u v i, file_prog (bytes "/t/m") = Some u /\ file_prog (bytes "/t/many") = Some v /\
  hlaunch (once 18) std0 256 home on_shelf (2 ^ 20) 40 false u mem_std = HAbort 18 true i /\ List.length (i_rest i) = 3%nat /\
  (exists m, hlaunch alone std0 256 home on_shelf (2 ^ 20) 40 false v mem_std = HOut (SDone [VInt 1] m) false) /\
  hlaunch alone std0 256 home on_shelf (2 ^ 20) 40 true v mem_std = HAbort 0 true (istart v mem_std).
Proof. eexists _, _, _. repeat (split; [vm_compute; reflexivity|]). split; [eexists; vm_compute; reflexivity|vm_compute; reflexivity]. Qed.

Print Assumptions C98_imports_aborts.
Print Assumptions C98_imports_obeyed.
Print Assumptions C98_imports_untouched.
Print Assumptions C98_imports_trace.
Print Assumptions C98_imports_never_again.
