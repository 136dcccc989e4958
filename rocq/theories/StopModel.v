(** Programs that are interrupted: src/lib/runtime.c Runtime_Interrupt, src/lib/run.c runInstructionsUntilSomethingHappens, which calls itself
    through Object_Call (run.c:27-200) for every function of the program. The collector is left out (C80); programs that
    import others are in HaltModel.v. *)
From Coq Require Import ZArith List Bool.
From Verif Require Import Base ExeModel ValueModel ObjModel VmModel SourceModel TraceModel.
Import ListNotations.
Open Scope Z_scope.

(** What can stop a program. runtime.c:321-324 Runtime_Interrupt: [w_sig n], it is called after check [n-1] was made and before check [n] is;
    runtime.h RuntimeCallback, runtime.c:718-721 Runtime_GetCallback: [w_call], what the callback answers at check [n] ([None]: there is no callback). *)
Record watch := mkwatch { w_sig : nat -> bool; w_call : option (nat -> vstate -> bool) }.

(** run.c:1087, 1092; runtime.c:723-726 Runtime_WasInterrupted: whether to abort, and [xRuntime.interrupt] (runtime.c:75). *)
Definition check (w : watch) (flag : bool) (n : nat) (s : vstate) : bool * bool :=
  let flag := flag || w_sig w n in
  if flag then (true, flag) else
  match w_call w with
  | Some f => (negb (f n s), flag)
  | None => (false, flag)
  end.

(** How run.c:1082-1105 comes back: [EOut]: an instruction said so (the run is done, or failed); [EAbort]: "Forced abortion" was reported at
    check [n]; [EBack]: the function returned, the caller goes on; [EFuel]: not within the given number of rounds. *)
Inductive ended := EOut (r : sres) (flag : bool) | EAbort (n : nat) (flag : bool) (s : vstate) | EBack (flag : bool) (n : nat) (s : vstate) | EFuel.

(** run.c:651-686: whether [t] has more frames than [s]. *)
Definition deeper (s t : vstate) : bool := (length (v_rest s) <? length (v_rest t))%nat.

Section Stop.
Variable w : watch.
Variable E : env.
Variable size : Z.
Variable x : executable.

(** run.c:1082-1105 runInstructionsUntilSomethingHappens, from the loop on (1090); [n] checks were made. A call of a function of the program
    (run.c:751-808, 1107-1132) runs the same function for it and makes the check behind it (1092) when that has returned. *)
Fixpoint loop (fuel : nat) (flag : bool) (n : nat) (s : vstate) : ended :=
  match fuel with
  | O => EFuel
  | S f =>
    let go (flag : bool) (n : nat) (s : vstate) :=
      let (stop, flag) := check w flag n s in if stop then EAbort n flag s else loop f flag (S n) s in
    match step E size x s with
    | SNext s' =>
      if deeper s s' then match go flag n s' with EBack flag n s'' => go flag n s'' | r => r end
      else if deeper s' s then EBack flag n s'
      else go flag n s'
    | r => EOut r flag
    end
  end.

(** run.c:1107-1132 runExecutableAtIndex as runSource uses it, 1087: the first check, then the loop. [flag]: whether the runtime was
    interrupted before. *)
Definition launch (fuel : nat) (flag : bool) (m : mem) : ended :=
  let (stop, flag) := check w flag 0 (vm_start m) in
  if stop then EAbort 0 flag (vm_start m) else loop fuel flag 1 (vm_start m).
End Stop.

(** run.c:1107-1132: the frames when a run is aborted in the state [s]: no instruction has been begun. *)
Definition abort_frames (x : executable) (src : source) (s : vstate) : list rframe :=
  map (fun f => RNormal x (Some src) (f_pc f)) (v_cur s :: v_rest s).
