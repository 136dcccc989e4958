(** When a program is to stop. *)
From Coq Require Import ZArith List.
From Verif Require Import Base VmModel StopModel.
Import ListNotations.

(** After [n] instructions, in the state [s]: somebody has interrupted the runtime by now, or the callback says no. *)
Definition told (before : bool) (w : watch) (n : nat) (s : vstate) : Prop :=
  before = true \/ (exists i, (i <= n)%nat /\ w_sig w i = true) \/ (exists f, w_call w = Some f /\ f n s = false).
