(** The names a program finds after start-up, and calls by name: for C79. *)
From Coq Require Import ZArith String List.
From Verif Require Import Base ValueModel ObjModel VmModel SrcModel BuiltinModel PreludeRun.
Import ListNotations.
Open Scope Z_scope.

(** The names the prelude adds to those of [known_names] (LookSpec.v). *)
Definition prelude_names : list string :=
  ["Func"; "NFunc"; "Numeric"; "Callable"; "Collection"; "makeIterator"; "toString"; "integerFromDigit"; "isCallable"; "append"; "abs"; "min"; "max"]%string.

(** A call of what is found under a built-in name, one value being expected. *)
Definition call_named (E : env) (f : nat) (name : string) (args : list value) (st : sst) : out (list value * sst) :=
  obind (get_in (UE E) (t_mem st) [e_builtins (UE E)] (VStr (bytes_of name))) (fun r =>
  match fst r with
  | Some fn => call (UE E) (run_call_n (UE E) f) fn args 1 (put_mem st (snd r))
  | None => OErr
  end).




(** References point into the memory. *)
Definition within (m : mem) (v : value) : Prop := match v with VRef l => (l < List.length (m_objs m))%nat | _ => True end.

(** A memory with new objects at its end. *)
Definition grown_from (m m' : mem) : Prop := exists new, m_objs m' = m_objs m ++ new /\ m_pend m' = m_pend m.
