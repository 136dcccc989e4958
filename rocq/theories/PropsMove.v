(** Property C80: collections between instructions are not noticed by the program. *)
From Coq Require Import ZArith List Lia Bool String.
From Verif Require Import Base StringModel ValueModel MapModel ListModel ObjModel ExeModel VmModel BuiltinModel ShowModel CompileModel VmExamples
  GcModel GcSpec MoveSpec MoveProofs MoveObj MoveVm MoveRun MoveExamples MoveHeap.
Import ListNotations.
Open Scope Z_scope.

(** * C80 *)
(** From any state whose reachable objects exist, a run with any number of collections between its instructions writes the same
    text and has the same end as the run without, up to where objects are. *)
Theorem C80_collections_unseen_partial : forall ff fb E size x n b s w r, blind E -> whole b s ->
  gc_run ff fb E size x n b s w r ->
  same_end (steps (with_builtins E b) size x n s) r /\ same_text (written ff fb (with_builtins E b) size x n s) w r.
Proof. exact collections_unseen. Qed.
(** In particular from the start of a program, with the builtins of the interpreter. *)
Theorem C80_programs_partial : forall ff fb E size x n m b w r, blind E ->
  (forall l o k, nth_error (m_objs m) l = Some o -> refers o k -> (k < List.length (m_objs m))%nat) ->
  (forall l, b = Some (VRef l) -> (l < List.length (m_objs m))%nat) ->
  gc_run ff fb (std_env E None) size x n b (vm_start m) w r -> r <> SLoop ->
  same_end (steps (std_env E b) size x n (vm_start m)) r /\
  Forall2 (osim eq) (written ff fb (std_env E b) size x n (vm_start m)) w.
Proof.
  intros ff fb E size x n m b w r BE C B G N.
  destruct (collections_unseen ff fb _ size x n b (vm_start m) w r (std_blind E None BE) (whole_start m b C B) G) as (A & w1 & more & D & F & H).
  split; [exact A|]. change (std_env E b) with (with_builtins (std_env E None) b). rewrite D, (H N), app_nil_r. exact F.
Qed.
(** The builtins do not depend on where objects are. *)
Theorem C80_builtins : forall E b, blind E -> blind (std_env E b).
Proof. exact std_blind. Qed.
(** What the two runs leave prints as the same text. *)
Theorem C80_results_print : forall ff fb r vs' m', same_end r (SDone vs' m') ->
  exists vs m, r = SDone vs m /\ osim (fun x y => fst x = fst y) (bin_print ff fb (m_objs m) vs) (bin_print ff fb (m_objs m') vs').
Proof. intros ff fb r vs' m' (R & vs & m & H & M & V). exists vs, m. split; [exact H|]. exact (bin_print_sim ff fb R m m' vs vs' M V). Qed.

Example C80_example : blind env0 /\ blind move_env /\ whole (Some (VRef 0)) (vm_start move_mem) /\
  collected (Some (VRef 0)) before (Some (VRef 0)) after /\ List.length (m_objs (v_mem before)) = 4%nat /\ List.length (m_objs (v_mem after)) = 3%nat /\
  (exists w mg, gc_run no_text no_buf move_env 100 move_exe 22 (Some (VRef 0)) (vm_start move_mem) w (SDone [VRef 1] mg) /\
     List.length (m_objs mg) = 4%nat /\ nth_error (m_objs mg) 2 = Some (OList (mklobj 8 2 [Some (VInt 1); Some (VInt 2); None; None; None; None; None; None])) /\
     In (OOk (bytes_of "[1, 2]5")) w) /\
  match steps (std_env env0 (Some (VRef 0))) 100 move_exe 22 (vm_start move_mem) with
  | SDone vs m => vs = [VRef 1] /\ nth_error (m_objs m) 3 = Some (OList (mklobj 8 2 [Some (VInt 1); Some (VInt 2); None; None; None; None; None; None])) | _ => False
  end.
Proof.
  split; [exact env0_blind|]. split; [exact (std_blind _ _ env0_blind)|]. split.
  - apply whole_start; [|intros l [= <-]; cbn; lia]. intros l o k H R. destruct l as [|[|l]]; try discriminate. injection H as <-. inversion R.
  - split; [exact before_collected|]. split; [reflexivity|]. split; [reflexivity|]. split; [exact move_run|]. vm_compute. split; reflexivity.
Qed.
(** The heap of heap.c holds the same state before and after a collection from its roots. *)
Theorem C80_heap_holds_state : forall sc tag dok h born log0 b s rep roots fuel h' roots' log,
  history dok h born log0 -> represents sc tag b s h rep roots ->
  collect_garbage dok fuel h roots = GOk (h', roots', true, log) ->
  exists rep', represents sc tag b s h' rep' roots'.
Proof. exact heap_keeps_state. Qed.
Example C80_heap_example : history (fun _ => true) hp [] [] /\
  represents show_sc show_tag (Some (VRef 0)) before hp hp_rep [Some 1%nat; Some 7%nat; None] /\
  match collect_garbage (fun _ => true) 20 hp [Some 1%nat; Some 7%nat; None] with
  | GOk (h', roots', ok, log) => ok = true /\ roots' = [Some 8%nat; Some 9%nat; None] /\ h_objcount hp = 7 /\ h_objcount h' = 6
  | _ => False
  end.
Proof. split; [exact (hp_history _)|]. split; [exact hp_represents|]. vm_compute. repeat split. Qed.

Print Assumptions C80_collections_unseen_partial.
Print Assumptions C80_programs_partial.
Print Assumptions C80_builtins.
Print Assumptions C80_results_print.
Print Assumptions C80_heap_holds_state.
