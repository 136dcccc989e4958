(** Stack traces and runtimes that run several programs: C84, C85. *)
From Coq Require Import ZArith String List Bool.
From Verif Require Import Base StringModel ExeModel ValueModel MapModel ObjModel VmModel VmExamples AsmModel AsmSpec SourceModel ShowSpec TraceModel TraceSpec TracePos TraceProofs.
Import ListNotations.
Open Scope list_scope.
Open Scope Z_scope.

(** * C84 *)
(** Every instruction of an assembled program remembers where its name stands in the text; they stand there in order. *)
Theorem C84_positions : forall text x bad, assemble true text = AOk (x, bad) ->
  Forall (stands text) (x_body x) /\ ordered 0 (Z.of_nat (List.length text)) (x_body x).
Proof. exact (assemble_places true). Qed.
Example C84_positions_ex : exists x, assemble true (bytes_of "a: PUSHINT 12;
 JUMP a ;NOPE") = AOk (x, false) /\ map bi_off (x_body x) = [3; 16; 24] /\ map bi_len (x_body x) = [7; 4; 4].
Proof. eexists. repeat (split; [vm_compute; reflexivity|]); vm_compute; reflexivity. Qed.

(** The trace of a program that failed names all active calls, the innermost first, with the lines of the instructions they would go on
    with. (Assembled programs; natives that leave no frames of their own.) *)
Theorem C84_trace_partial : forall E size text x bad name src n m s, assemble true text = AOk (x, bad) -> named src name ->
  readable src (Z.of_nat (List.length text)) text -> Z.of_nat (List.length text) < 2 ^ 31 -> 0 <= size ->
  steps E size x n (vm_start m) = SNext s -> step E size x s = SErr ->
  exists r cs t, api_run rt_new src (RunErr (error_frames x src s)) = ROk (false, r) /\ failed_calls x text name s cs /\ trace_says 0 cs t /\
    forall fuel, (16 <= fuel)%nat -> print_trace fuel r = OOk (bytes_of "Stack trace:" ++ [10] ++ t).
Proof.
  intros E size text x bad name src n m s A B C D Z0 F G. destruct (error_calls _ _ _ _ _ _ _ _ _ _ A B C D Z0 F G) as (cs & V & L & N).
  destruct (runtime_fails _ _ _ L N) as (r & t & R & T & P). exists r, cs, t. auto.
Qed.
(** A function that fails inside another call. *)
Example C84_trace_ex :
  let text := bytes_of "PUSHFUN f, 0, ""f"";
CALL 0, 1;

EXIT;
f: PUSHINT 1;
NOT;
RETURN 1;" in
  let src := mksource (Some (bytes_of "t.nja")) (map Some text) (Z.of_nat (List.length text)) 1 true in
  exists x s r, assemble true text = AOk (x, false) /\ steps env0 256 x 3 (vm_start mem0) = SNext s /\ step env0 256 x s = SErr /\
    api_run rt_new src (RunErr (error_frames x src s)) = ROk (false, r) /\
    print_trace 16 r = OOk (bytes_of "Stack trace:
	#0 t.nja:7
	#1 t.nja:4
").
Proof. cbv zeta. eexists _, _, _. repeat (split; [vm_compute; reflexivity|]); vm_compute; reflexivity. Qed.
(** A native function that fails. *)
Example C84_trace_native_ex :
  let E := mkenv (fun _ _ _ => OErr) (fun _ _ m => let (v, m') := alloc m (ONative 0 0) in OOk (Some v, m')) (fun _ _ _ m => OOk (None, m)) (fun _ _ _ _ _ => OErr) (Some (VRef 0)) in
  let text := bytes_of "PUSHVAR ""error"";
CALL 0, 1;
EXIT;" in
  let src := mksource None (map Some text) (Z.of_nat (List.length text)) 1 true in
  exists x s r, assemble true text = AOk (x, false) /\ steps E 256 x 1 (vm_start (mkmem [OSMap 0] false)) = SNext s /\ step E 256 x s = SErr /\
    api_run rt_new src (RunErr (error_frames x src s)) = ROk (false, r) /\
    print_trace 16 r = OOk (bytes_of "Stack trace:
	#0 (no source)
	#1 (unnamed):3
").
Proof. cbv zeta. eexists _, _, _. repeat (split; [vm_compute; reflexivity|]); vm_compute; reflexivity. Qed.

(** If a limit of the interpreter is reported, the trace names the calls that are active then: the function that is entered while its arguments
    are stored is one of them, the one that has ended when its results are stored is not. *)
Theorem C84_limit : forall E size text x bad name src n m s, assemble true text = AOk (x, bad) -> named src name ->
  readable src (Z.of_nat (List.length text)) text -> Z.of_nat (List.length text) < 2 ^ 31 -> 0 <= size ->
  steps E size x n (vm_start m) = SNext s -> step E size x s = SLimit ->
  exists r cs t, api_run rt_new src (RunErr (limit_frames size x src s)) = ROk (false, r) /\ limited_calls size x text name s cs /\ trace_says 0 cs t /\
    forall fuel, (16 <= fuel)%nat -> print_trace fuel r = OOk (bytes_of "Stack trace:" ++ [10] ++ t).
Proof.
  intros E size text x bad name src n m s A. apply limit_trace. destruct (assemble_places _ _ _ _ A) as [P _]. eapply Forall_impl; [|exact P]. apply stands_within.
Qed.
(** Seventeen results are wanted, sixteen values have room. *)
Example C84_limit_ex :
  let text := bytes_of "PUSHFUN f, 0, ""f"";
CALL 0, 17;
EXIT;
f: PUSHINT 1;
RETURN 1;" in
  let src := mksource (Some (bytes_of "t.nja")) (map Some text) (Z.of_nat (List.length text)) 1 true in
  exists x s r, assemble true text = AOk (x, false) /\ steps env0 256 x 3 (vm_start mem0) = SNext s /\ step env0 256 x s = SLimit /\
    api_run rt_new src (RunErr (limit_frames 256 x src s)) = ROk (false, r) /\
    print_trace 16 r = OOk (bytes_of "Stack trace:
	#0 t.nja:3
").
Proof. cbv zeta. eexists _, _, _. repeat (split; [vm_compute; reflexivity|]); vm_compute; reflexivity. Qed.

(** The line that is named need not be the one of the instruction that failed. *)
Theorem C84_line_refuted : exists text x src s r, assemble true text = AOk (x, false) /\ readable src (Z.of_nat (List.length text)) text /\
  steps env0 256 x 1 (vm_start mem0) = SNext s /\ step env0 256 x s = SErr /\
  option_map (fun i => line_at text (bi_off i)) (nth_error (x_body x) (Z.to_nat (f_pc (v_cur s)))) = Some 2 /\
  api_run rt_new src (RunErr (error_frames x src s)) = ROk (false, r) /\
  print_trace 16 r = OOk (bytes_of "Stack trace:
	#0 (unnamed):4
").
Proof.
  set (text := bytes_of "PUSHINT 1;
JUMPIFANDPOP end;

end: EXIT;").
  exists text. eexists _, (mksource None (map Some text) 0 1 true), _, _.
  split; [vm_compute; reflexivity|]. split; [split; [vm_compute; discriminate|vm_compute; reflexivity]|].
  repeat (split; [vm_compute; reflexivity|]); vm_compute; reflexivity.
Qed.
(** If the last instruction of a program fails no line is named at all. *)
Theorem C84_last_refuted : exists text x src s r, assemble true text = AOk (x, false) /\ readable src (Z.of_nat (List.length text)) text /\
  steps env0 256 x 1 (vm_start mem0) = SNext s /\ step env0 256 x s = SErr /\
  api_run rt_new src (RunErr (error_frames x src s)) = ROk (false, r) /\
  print_trace 16 r = OOk (bytes_of "Stack trace:
	#0 (unnamed)
").
Proof.
  set (text := bytes_of "PUSHINT 1; NOT;").
  exists text. eexists _, (mksource None (map Some text) 0 1 true), _, _.
  split; [vm_compute; reflexivity|]. split; [split; [vm_compute; discriminate|vm_compute; reflexivity]|].
  repeat (split; [vm_compute; reflexivity|]); vm_compute; reflexivity.
Qed.

(** * C85 *)
(** As long as at most one program was refused: every run comes back, the trace names what was left, the runtime takes another program while
    fewer than 16 calls are left, and freeing it frees everything. *)
Theorem C85_survives_partial : forall h cs, leaves h cs -> exists r, api_runs rt_new h = ROk r /\
  (forall fuel, (16 <= fuel)%nat -> exists t, print_trace fuel r = OOk (bytes_of "Stack trace:" ++ [10] ++ t) /\
    (cs = [] -> t = bytes_of "	(No active frames)" ++ [10]) /\ (cs <> [] -> trace_says 0 cs t)) /\
  (forall s, exists r', api_run r s RunOk = ROk (List.length cs <? 16, r')%nat) /\
  (forall fuel, (17 <= fuel)%nat -> exists r', rt_free fuel r = OOk r' /\ all_freed r').
Proof. exact runtime_survives. Qed.
Example C85_survives_ex :
  let src := mksource (Some (bytes_of "a")) (map Some (bytes_of "x
y")) 3 1 false in
  let h := [(src, RunErr [RNative; RNormal (mkexe [] []) None 3]); (src, RunOk); (src, NoExe 2)] in
  leaves h [(bytes_of "a", Some 2); (bytes_of "(no source)", None); (bytes_of "(no source)", None)] /\
  exists r, api_runs rt_new h = ROk r /\ print_trace 16 r = OOk (bytes_of "Stack trace:
	#0 a:2
	#1 (no source)
	#2 (no source)
").
Proof.
  cbv zeta. split; [|eexists; split; [vm_compute; reflexivity|vm_compute; reflexivity]].
  apply (lv_no [_; _]); [|reflexivity| |cbn; repeat constructor].
  - apply (lv_ok [_]); [|cbn; repeat constructor]. apply lv_one; [repeat constructor|cbn; repeat constructor].
  - change (Some 2) with (Some (line_at (bytes_of "x
y") 2)). apply ra_line; [left; reflexivity| | |reflexivity]; [split; [discriminate|reflexivity]|split; [discriminate|reflexivity]].
Qed.

(** A second program that is refused: the trace never ends, and freeing the runtime is undefined. *)
Theorem C85_twice_refuted : forall h cs s off c, leaves h cs -> existsb is_refusal h = true -> refused_at s off c -> (List.length cs < 16)%nat ->
  exists r r', api_runs rt_new h = ROk r /\ api_run r s (NoExe off) = ROk (false, r') /\
    (forall fuel, print_trace fuel r' = OFuel) /\ forall fuel, (17 <= fuel)%nat -> rt_free fuel r' = OUB.
Proof. exact runtime_twice. Qed.
Example C85_twice_ex :
  let src := mksource (Some (bytes_of "a")) (map Some (bytes_of "x = ;")) 5 1 false in
  leaves [(src, NoExe 4)] [(bytes_of "a", Some 1)] /\ existsb is_refusal [(src, NoExe 4)] = true /\ refused_at src 4 (bytes_of "a", Some 1) /\
  exists r, api_runs rt_new [(src, NoExe 4); (src, NoExe 4)] = ROk r /\ print_trace 1000 r = OFuel /\ rt_free 1000 r = OUB.
Proof.
  cbv zeta. assert (R : refused_at (mksource (Some (bytes_of "a")) (map Some (bytes_of "x = ;")) 5 1 false) 4 (bytes_of "a", Some 1)).
  { change (Some 1) with (Some (line_at (bytes_of "x = ;") 4)). apply ra_line; [left; reflexivity| | |reflexivity]; [split; [discriminate|reflexivity]|split; [discriminate|reflexivity]]. }
  split; [apply (lv_no []); [constructor|reflexivity|exact R|cbn; repeat constructor]|]. split; [reflexivity|]. split; [exact R|].
  eexists. repeat (split; [vm_compute; reflexivity|]); vm_compute; reflexivity.
Qed.
(** If the refused program finds no room the frame left by the first one loses its source: the trace itself is undefined. *)
Theorem C85_full_refuted : forall h cs s off, leaves h cs -> existsb is_refusal h = true -> List.length cs = 16%nat ->
  exists r r', api_runs rt_new h = ROk r /\ api_run r s (NoExe off) = ROk (false, r') /\
    forall fuel, (17 <= fuel)%nat -> print_trace fuel r' = OUB /\ rt_free fuel r' = OUB.
Proof. exact runtime_full. Qed.
Example C85_full_ex :
  let src := mksource None (map Some (bytes_of "x")) 1 1 false in
  let h := [(src, NoExe (-1)); (src, RunErr (repeat RNative 15))] in
  leaves h (repeat (bytes_of "(no source)", None) 15 ++ [(bytes_of "(unnamed)", None)]) /\ existsb is_refusal h = true /\
  List.length (repeat (bytes_of "(no source)", @None Z) 15 ++ [(bytes_of "(unnamed)", None)]) = 16%nat.
Proof.
  cbv zeta. split; [|split; reflexivity]. apply (lv_err [_] [_]); [|cbn; repeat constructor|cbn; repeat constructor].
  apply (lv_no []); [constructor|reflexivity| |cbn; repeat constructor]. apply ra_none; [right; split; reflexivity|reflexivity].
Qed.
(** With 16 calls left behind no program can be run any more. *)
Theorem C85_exhausted_refuted : forall h cs s o, leaves h cs -> List.length cs = 16%nat ->
  exists r r', api_runs rt_new h = ROk r /\ api_run r s o = ROk (false, r').
Proof. exact runtime_none. Qed.
Example C85_exhausted_ex : forall s, let h := repeat (s, RunErr [RNative; RNative]) 8 in leaves h (repeat (bytes_of "(no source)", None) 16).
Proof.
  intros s h. assert (G : forall n, (n <= 8)%nat -> leaves (repeat (s, RunErr [RNative; RNative]) n) (repeat (bytes_of "(no source)", None) (n + n))).
  { induction n as [|n IH]; intros L; [constructor|].
    replace (repeat (s, RunErr [RNative; RNative]) (S n)) with (repeat (s, RunErr [RNative; RNative]) n ++ [(s, RunErr [RNative; RNative])])
      by (clear; induction n as [|n IH]; [reflexivity|]; cbn [repeat app] in *; now rewrite IH).
    replace (S n + S n)%nat with (2 + (n + n))%nat by Lia.lia. rewrite (repeat_app _ 2). apply lv_err; [apply IH; Lia.lia|repeat constructor|]. rewrite !repeat_length. Lia.lia. }
  exact (G 8%nat (le_n 8)).
Qed.

Print Assumptions C84_positions.
Print Assumptions C84_trace_partial.
Print Assumptions C84_line_refuted.
Print Assumptions C84_last_refuted.
Print Assumptions C85_survives_partial.
Print Assumptions C85_twice_refuted.
Print Assumptions C85_full_refuted.
Print Assumptions C85_exhausted_refuted.
Print Assumptions C84_limit.
