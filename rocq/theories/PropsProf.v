(** Profiling: C87. *)
From Coq Require Import ZArith String List Lia Bool.
From Verif Require Import Base StringModel ExeModel ValueModel ObjModel VmModel VmExamples AsmModel ShowSpec ProfModel ProfSpec ProfProofs.
Import ListNotations.
Open Scope list_scope.
Open Scope Z_scope.

(** A program that is profiled ends like one that is not; afterwards the profile lists the functions that were called, in the order in which they
    were made, each with the number of its calls, also those that were still active when the program failed. The references to the source that the
    table held are given back. (One executable; natives that call no functions; the times are those that were measured.) *)
Theorem C87_profile_partial : forall E size x m l r ns refs prog time, whole_run E size x m l r -> made x l ns -> 0 < refs ->
  refs + Z.of_nat (List.length ns) < 2 ^ 31 -> Z.of_nat (List.length l) < 2 ^ 63 ->
  exists t cs text, (forall n, (List.length l <= n)%nat -> prun E size x n (pstart m refs) = PEnd r t) /\
    List.length cs = List.length ns /\ (forall k c, nth_error cs k = Some c -> times (calls_function x k) l c) /\
    report (Some prog) time 0 (pt_entries t) = ROk text /\ profile_says prog time 0 (combine ns cs) text /\
    tab_free (pt_entries t) (pt_refs t) = ROk (Some refs).
Proof. exact profile_whole. Qed.
(** Two functions; one is called twice (the second time it fails inside of the call), the other one never. *)
Example C87_profile_ex : exists t,
  whole_run env0 256 prof_exe mem0 (trail prof_exe 20 (vm_start mem0)) SErr /\ made prof_exe (trail prof_exe 20 (vm_start mem0)) [bytes_of "first"; bytes_of "second"] /\
  times (calls_function prof_exe 0) (trail prof_exe 20 (vm_start mem0)) 2 /\
  prun env0 256 prof_exe 20 (pstart mem0 1) = PEnd SErr t /\
  report (Some (bytes_of "t.nja")) (fun _ => bytes_of "0.50") 0 (pt_entries t) = ROk (bytes_of "               first - t.nja - 2 calls - 0.50us
") /\ tab_free (pt_entries t) (pt_refs t) = ROk (Some 1).
Proof.
  eexists. split; [|split; [|split; [|repeat (split; [vm_compute; reflexivity|]); vm_compute; reflexivity]]].
  - eexists _, _. split; [|split].
    + repeat (eapply pa_cons; [vm_compute; reflexivity|]). apply pa_nil.
    + vm_compute. reflexivity.
    + split; [vm_compute; reflexivity|]. auto.
  - apply made_checked. vm_compute. reflexivity.
  - apply (times_checked prof_exe). vm_compute. reflexivity.
Qed.

(** A function of the text need not be listed once: every time its definition is executed another line begins. *)
Theorem C87_one_line_refuted : exists text x i vs m t, assemble true text = AOk (x, false) /\
  filter (fun i => opcode_eqb (bi_op i) OP_PUSHFUN) (x_body x) = [i] /\ prun env0 256 x 40 (pstart mem0 1) = PEnd (SDone vs m) t /\
  report (Some (bytes_of "t.nja")) (fun _ => bytes_of "0.00") 0 (pt_entries t) = ROk (bytes_of "                   f - t.nja - 1 calls - 0.00us
                   f - t.nja - 1 calls - 0.00us
").
Proof.
  exists (bytes_of "PUSHFLS; PUSHTRU; l: PUSHFUN f, 0, ""f""; CALL 0, 1; POP 1; JUMPIFANDPOP l; RETURN 0; f: PUSHINT 3; RETURN 1;").
  eexists _, _, _, _, _. repeat (split; [vm_compute; reflexivity|]); vm_compute; reflexivity.
Qed.

(** The source of a program that was given on the command line has no name; its profile is undefined if it calls a function. *)
Theorem C87_unnamed_refuted : exists text x vs m t, assemble true text = AOk (x, false) /\ prun env0 256 x 20 (pstart mem0 1) = PEnd (SDone vs m) t /\
  report None (fun _ => bytes_of "0.00") 0 (pt_entries t) = RUB.
Proof. exists (bytes_of "PUSHFUN f, 0, ""f""; CALL 0, 1; RETURN 1; f: PUSHINT 3; RETURN 1;"). eexists _, _, _, _. repeat (split; [vm_compute; reflexivity|]); vm_compute; reflexivity. Qed.
Print Assumptions C87_profile_partial.
Print Assumptions C87_one_line_refuted.
Print Assumptions C87_unnamed_refuted.
