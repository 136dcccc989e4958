(** The output stream of a running program (src/lib/runtime.c, src/lib/builtins/basic.c). The bytes written so far are kept in the store, in an
    object of a kind no instruction writes to, at the location [k]: so the interpreter of VmModel.v carries them along. *)
From Coq Require Import ZArith List Bool.
From Verif Require Import Base ValueModel ObjModel BuiltinModel ShowModel.
Import ListNotations.
Open Scope Z_scope.

(** runtime.c:86, 386-389 Runtime_GetOutputStream: the stream, told by what was written to it. *)
Definition stream (t : list Z) : hobj := ONullable (VStr t).

(** runtime.c:86, 386-389: what was written until now. *)
Definition written (k : nat) (m : mem) : list Z := match nth_error (m_objs m) k with Some (ONullable (VStr t)) => t | _ => [] end.

(** basic.c:111-120 bin_print: the arguments are printed to the stream, one after the other; no results. *)
Definition talk (ff : Z -> list Z) (fb : nat -> list Z) (k : nat) (argv : list value) (m : mem) : out (list value * mem) :=
  obind (bin_print ff fb (m_objs m) argv) (fun r => OOk ([], set_obj m k (stream (written k m ++ fst r)))).

(** basic.c:340, the slot of print: the environment [E] (BuiltinModel.v) in which print writes. *)
Definition loud (ff : Z -> list Z) (fb : nat -> list Z) (k : nat) (E : env) : env :=
  mkenv (fun id => if (id =? N_print)%nat then talk ff fb k else e_native E id) (e_smap E) (e_fselect E) (e_finsert E) (e_builtins E).
