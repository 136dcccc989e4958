(** C99: the trace of a program that imports files. *)
From Coq Require Import ZArith String List Lia Bool.
From Verif Require Import Base StringModel AsmModel ParseExamples ExeModel ValueModel MapModel ObjModel SysModel BuiltinModel CompSpec CompileModel VmModel VmExamples WhileExamples
  SourceModel ImportModel ImportMore ImportExamples PosModel PosSpec TraceModel TraceSpec TrailModel TrailSpec TrailProofs TrailExamples.
Import ListNotations.
Open Scope list_scope.
Open Scope Z_scope.

(** * C99 *)
(** The trace of a program in a file, or in a string with a name, names all active calls with the files and the lines they go on with, those of the imported files before those
    of the files that import them with the calls of import between them, and first of all the place where an imported text is refused. *)
Theorem C99_trace : forall E size cwd fs big main u m src i, 256 <= size -> texts fs -> in_file fs main u -> reached E size cwd fs big u m i ->
  istep E size cwd fs big i = IEnd SErr ->
  exists r cs t, run_failing cwd fs big main rt_new src i = ROk (false, r) /\ all_calls cwd fs big main i cs /\ trace_says 0 cs t /\
    forall fuel, (16 <= fuel)%nat -> print_trace fuel r = OOk (bytes_of "Stack trace:" ++ [10] ++ t).
Proof. intros E size cwd fs big main u m src i A B. exact (trail_run E size cwd fs big main A (texts_small fs B) u m src i B). Qed.
Example C99_trace_ex : exists u i r, texts on_shelf /\ in_file on_shelf no_main u /\ reached std0 256 home on_shelf (2 ^ 20) u mem_std i /\
  istep std0 256 home on_shelf (2 ^ 20) i = IEnd SErr /\ run_failing home on_shelf (2 ^ 20) no_main rt_new (shelf_source (bytes "/t/m")) i = ROk (false, r) /\
  print_trace 16 r = OOk (bytes_of "Stack trace:
	#0 /t/lib:2
	#1 /t/lib:5
	#2 (no source)
	#3 /t/m:2
").
Proof.
  destruct (file_prog (bytes "/t/m")) as [u|] eqn:P; [|vm_compute in P; discriminate P]. exists u. pose proof (file_prog_in _ _ P) as I. vm_compute in P. injection P as <-.
  eexists _, _. split; [exact shelf_texts|]. split; [exact I|]. split; [exists 20%nat; vm_compute; reflexivity|]. repeat (split; [vm_compute; reflexivity|]). vm_compute. reflexivity.
Qed.
Example C99_string_ex : exists u i r, texts on_shelf /\ in_file on_shelf text_main u /\ reached std0 256 home on_shelf (2 ^ 20) u mem_std i /\
  istep std0 256 home on_shelf (2 ^ 20) i = IEnd SErr /\ run_failing home on_shelf (2 ^ 20) text_main rt_new (string_source (fst text_main) (snd text_main)) i = ROk (false, r) /\
  print_trace 16 r = OOk (bytes_of "Stack trace:
	#0 /t/lib:2
	#1 /t/lib:5
	#2 (no source)
	#3 cmd:2
").
Proof.
  destruct (main_prog text_main) as [u|] eqn:P; [|vm_compute in P; discriminate P]. exists u. pose proof (main_prog_in _ _ P ltac:(vm_compute; reflexivity)) as I. vm_compute in P. injection P as <-.
  eexists _, _. split; [exact shelf_texts|]. split; [exact I|]. split; [exists 20%nat; vm_compute; reflexivity|]. repeat (split; [vm_compute; reflexivity|]). vm_compute. reflexivity.
Qed.
Example C99_refused_ex : exists u i r, texts on_shelf /\ in_file on_shelf no_main u /\ reached std0 256 home on_shelf (2 ^ 20) u mem_std i /\
  istep std0 256 home on_shelf (2 ^ 20) i = IEnd SErr /\ run_failing home on_shelf (2 ^ 20) no_main rt_new (shelf_source (bytes "/t/n")) i = ROk (false, r) /\
  print_trace 16 r = OOk (bytes_of "Stack trace:
	#0 /t/bad:3
	#1 (no source)
	#2 /t/n:2
").
Proof.
  destruct (file_prog (bytes "/t/n")) as [u|] eqn:P; [|vm_compute in P; discriminate P]. exists u. pose proof (file_prog_in _ _ P) as I. vm_compute in P. injection P as <-.
  eexists _, _. split; [exact shelf_texts|]. split; [exact I|]. split; [exists 2%nat; vm_compute; reflexivity|]. repeat (split; [vm_compute; reflexivity|]). vm_compute. reflexivity.
Qed.

(** So does the trace of a program that reports a limit. What has ended is not among the calls, an import is if there was no room for the file. *)
Theorem C99_limit : forall E size cwd fs big main u m src i, 256 <= size -> texts fs -> in_file fs main u -> reached E size cwd fs big u m i ->
  istep E size cwd fs big i = IEnd SLimit ->
  exists r cs t, api_run rt_new src (RunErr (limit_trail size fs main i)) = ROk (false, r) /\ limit_calls_in size fs main i cs /\ trace_says 0 cs t /\
    forall fuel, (16 <= fuel)%nat -> print_trace fuel r = OOk (bytes_of "Stack trace:" ++ [10] ++ t).
Proof. intros E size cwd fs big main u m src i A B. exact (trail_limit E size cwd fs big main A (texts_small fs B) u m src i). Qed.
Example C99_limit_ex : exists u i r, texts on_shelf /\ in_file on_shelf no_main u /\ reached std0 256 home on_shelf (2 ^ 20) u mem_std i /\
  istep std0 256 home on_shelf (2 ^ 20) i = IEnd SLimit /\ api_run rt_new (shelf_source (bytes "/t/self")) (RunErr (limit_trail 256 on_shelf no_main i)) = ROk (false, r) /\
  print_trace 16 r = OOk (bytes_of "Stack trace:
	#0 (no source)
	#1 /t/self:2
	#2 (no source)
	#3 /t/self:2
	#4 (no source)
	#5 /t/self:2
	#6 (no source)
	#7 /t/self:2
	#8 (no source)
	#9 /t/self:2
	#10 (no source)
	#11 /t/self:2
	#12 (no source)
	#13 /t/self:2
	#14 (no source)
	#15 /t/self:2
").
Proof.
  destruct (file_prog (bytes "/t/self")) as [u|] eqn:P; [|vm_compute in P; discriminate P]. exists u. pose proof (file_prog_in _ _ P) as I. vm_compute in P. injection P as <-.
  eexists _, _. split; [exact shelf_texts|]. split; [exact I|]. split; [exists 47%nat; vm_compute; reflexivity|]. repeat (split; [vm_compute; reflexivity|]). vm_compute. reflexivity.
Qed.
Example C99_limit_ends_ex : exists u i r, texts on_shelf /\ in_file on_shelf no_main u /\ reached std0 256 home on_shelf (2 ^ 20) u mem_std i /\
  istep std0 256 home on_shelf (2 ^ 20) i = IEnd SLimit /\ api_run rt_new (shelf_source (bytes "/t/res")) (RunErr (limit_trail 256 on_shelf no_main i)) = ROk (false, r) /\
  print_trace 16 r = OOk (bytes_of "Stack trace:
	#0 /t/res:2
").
Proof.
  destruct (file_prog (bytes "/t/res")) as [u|] eqn:P; [|vm_compute in P; discriminate P]. exists u. pose proof (file_prog_in _ _ P) as I. vm_compute in P. injection P as <-.
  eexists _, _. split; [exact shelf_texts|]. split; [exact I|]. split; [exists 18%nat; vm_compute; reflexivity|]. repeat (split; [vm_compute; reflexivity|]). vm_compute. reflexivity.
Qed.

(** So does the trace of a program that is aborted between two instructions. *)
Theorem C99_aborted : forall E size cwd fs big main u m src i, 256 <= size -> texts fs -> in_file fs main u -> reached E size cwd fs big u m i ->
  exists r cs t, api_run rt_new src (RunErr (abort_trail fs main i)) = ROk (false, r) /\ active_calls fs main i cs /\ trace_says 0 cs t /\
    forall fuel, (16 <= fuel)%nat -> print_trace fuel r = OOk (bytes_of "Stack trace:" ++ [10] ++ t).
Proof. intros E size cwd fs big main u m src i A B. exact (trail_aborted E size cwd fs big main A (texts_small fs B) u m src i). Qed.
Example C99_aborted_ex : exists u i r, texts on_shelf /\ in_file on_shelf no_main u /\ reached std0 256 home on_shelf (2 ^ 20) u mem_std i /\
  api_run rt_new (shelf_source (bytes "/t/m")) (RunErr (abort_trail on_shelf no_main i)) = ROk (false, r) /\
  print_trace 16 r = OOk (bytes_of "Stack trace:
	#0 /t/lib:4
	#1 (no source)
	#2 /t/m:2
").
Proof.
  destruct (file_prog (bytes "/t/m")) as [u|] eqn:P; [|vm_compute in P; discriminate P]. exists u. pose proof (file_prog_in _ _ P) as I. vm_compute in P. injection P as <-.
  eexists _, _. split; [exact shelf_texts|]. split; [exact I|]. split; [exists 12%nat; vm_compute; reflexivity|]. repeat (split; [vm_compute; reflexivity|]). vm_compute. reflexivity.
Qed.

(** However such a program stops: releasing the runtime afterwards releases every frame and every source, of the files that were imported, too, and
    none of them twice. *)
Theorem C99_released : forall E size cwd fs big main u m src i ok r, 256 <= size -> texts fs -> in_file fs main u -> reached E size cwd fs big u m i ->
  (istep E size cwd fs big i = IEnd SErr /\ run_failing cwd fs big main rt_new src i = ROk (ok, r)) \/
  (istep E size cwd fs big i = IEnd SLimit /\ api_run rt_new src (RunErr (limit_trail size fs main i)) = ROk (ok, r)) \/
  api_run rt_new src (RunErr (abort_trail fs main i)) = ROk (ok, r) ->
  forall fuel, (17 <= fuel)%nat -> exists r', rt_free fuel r = OOk r' /\ all_freed r'.
Proof. intros E size cwd fs big main u m src i ok r A B. exact (trail_freed E size cwd fs big main A (texts_small fs B) u m src i ok r B). Qed.
Example C99_released_ex : exists u i r r', texts on_shelf /\ in_file on_shelf no_main u /\ reached std0 256 home on_shelf (2 ^ 20) u mem_std i /\
  istep std0 256 home on_shelf (2 ^ 20) i = IEnd SErr /\ run_failing home on_shelf (2 ^ 20) no_main rt_new (shelf_source (bytes "/t/n")) i = ROk (false, r) /\
  map (fun s => match s with Some s => s_name s | None => None end) (r_srcs r) = [None; Some (bytes "/t/bad")] /\
  rt_free 17 r = OOk r' /\ r_srcs r' = [None; None].
Proof.
  destruct (file_prog (bytes "/t/n")) as [u|] eqn:P; [|vm_compute in P; discriminate P]. exists u. pose proof (file_prog_in _ _ P) as I. vm_compute in P. injection P as <-.
  eexists _, _, _. split; [exact shelf_texts|]. split; [exact I|]. split; [exists 2%nat; vm_compute; reflexivity|]. repeat (split; [vm_compute; reflexivity|]). vm_compute. reflexivity.
Qed.

(** Refuted: the trace tells which file was refused. Behind seven imports there is no room for it. *)
Theorem C99_place_refuted : exists u i r t path text off, texts on_shelf /\ in_file on_shelf no_main u /\ reached std0 256 home on_shelf (2 ^ 20) u mem_std i /\
  istep std0 256 home on_shelf (2 ^ 20) i = IEnd SErr /\ imports_next home on_shelf (2 ^ 20) i path text /\ compile_at text = MErr (Some off) /\
  run_failing home on_shelf (2 ^ 20) no_main rt_new (shelf_source (bytes "/t/c0")) i = ROk (false, r) /\ print_trace 16 r = OOk t /\
  ~ exists a b, t = a ++ path ++ b.
Proof. exact place_lost. Qed.
Print Assumptions C99_trace.
Print Assumptions C99_place_refuted.
Print Assumptions C99_aborted.
Print Assumptions C99_limit.
Print Assumptions C99_released.
