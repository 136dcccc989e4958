(** Interrupted programs that import files: StopModel.v for the machine of ImportModel.v. src/lib/run.c runInstructionsUntilSomethingHappens
    calls itself for the functions of a program (run.c:27-200) and for the programs it imports (src/lib/builtins/basic.c:122-137, run.c:1134-1150). *)
From Coq Require Import ZArith List Bool.
From Verif Require Import Base ExeModel ValueModel ObjModel VmModel StopModel ImportModel.
Import ListNotations.
Open Scope Z_scope.

(** How run.c:1082-1105 comes back, as [ended] in StopModel.v. *)
Inductive halted := HOut (r : sres) (flag : bool) | HAbort (n : nat) (flag : bool) (i : istate) | HBack (flag : bool) (n : nat) (i : istate) | HFuel.

(** run.c:1107-1132: the calls of run.c:1082-1105 that wait for the current one: one for each frame of a program below, none for those of natives. *)
Fixpoint waiting (l : list below) : nat :=
  match l with
  | [] => O
  | BRun _ _ :: l => S (waiting l)
  | BNative :: l => waiting l
  end.

Section Halt.
Variable w : watch.
Variable E : env.
Variable size : Z.
Variable cwd : option (list Z).
Variable fs : list Z -> option (list Z).
Variable big : Z.

(** run.c:1082-1105 runInstructionsUntilSomethingHappens, from the loop on (1090); [n] checks were made. What an instruction calls, a function
    (run.c:751-808) or a program (basic.c:122-137), makes its first check (1087) itself, and the check behind the instruction (1092) is made when
    it has returned. *)
Fixpoint hloop (fuel : nat) (flag : bool) (n : nat) (i : istate) : halted :=
  match fuel with
  | O => HFuel
  | S f =>
    let go (flag : bool) (n : nat) (i : istate) :=
      let (stop, flag) := check w flag n (i_vs i) in if stop then HAbort n flag i else hloop f flag (S n) i in
    match istep E size cwd fs big i with
    | INext i' =>
      if (waiting (i_rest i) <? waiting (i_rest i'))%nat then match go flag n i' with HBack flag n i'' => go flag n i'' | r => r end
      else if (waiting (i_rest i') <? waiting (i_rest i))%nat then HBack flag n i'
      else go flag n i'
    | IEnd r => HOut r flag
    end
  end.

(** run.c:1134-1150 runSource, 1107-1132, 1087: the first check, then the loop. [flag]: whether the runtime was interrupted before. *)
Definition hlaunch (fuel : nat) (flag : bool) (u : program) (m : mem) : halted :=
  let i := istart u m in
  let (stop, flag) := check w flag 0 (i_vs i) in
  if stop then HAbort 0 flag i else hloop fuel flag 1 i.
End Halt.
