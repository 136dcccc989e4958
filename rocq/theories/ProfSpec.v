(** What a profile is to say. *)
From Coq Require Import ZArith String List Bool.
From Verif Require Import Base StringModel ValueModel ObjModel ExeModel VmModel AsmModel ShowSpec.
Import ListNotations.
Open Scope list_scope.
Open Scope Z_scope.

Section Runs.
Variables (E : env) (size : Z) (x : executable).

(** The program goes through the states of the list, then it is in the last state. *)
Inductive path : vstate -> list vstate -> vstate -> Prop :=
| pa_nil s : path s [] s
| pa_cons s s1 l s' : step E size x s = SNext s1 -> path s1 l s' -> path s (s :: l) s'.

(** The program is over after state [s], with the result [r]. *)
Definition over (s : vstate) (r : sres) : Prop :=
  step E size x s = r /\ ((exists vs m, r = SDone vs m) \/ r = SErr \/ r = SLimit \/ r = SBad).

(** The program runs through the states of the list, and is then over with the result [r]. *)
Definition whole_run (m : mem) (l : list vstate) (r : sres) : Prop :=
  exists l1 s, path (vm_start m) l1 s /\ l = l1 ++ [s] /\ over s r.
End Runs.

(** In state [s] the function number [k] (functions are numbered in the order in which they are made) is called. *)
Definition calls_function (x : executable) (k : nat) (s : vstate) : Prop :=
  exists argc want l args rest clo,
    exe_fetch x (f_pc (v_cur s)) = ROk (Some (OP_CALL, [PInt argc; PInt want])) /\
    f_stack (v_cur s) = VRef l :: args ++ rest /\ wrap32 argc = Z.of_nat (List.length args) /\ (List.length args <= 32)%nat /\
    nth_error (m_objs (v_mem s)) l = Some (OFun k clo).
(** In state [s] a function with the given name is made. *)
Definition makes_function (x : executable) (s : vstate) (name : list Z) : Prop :=
  exists entry argc, exe_fetch x (f_pc (v_cur s)) = ROk (Some (OP_PUSHFUN, [PIdx entry; PInt argc; PStr name])).

(** How often something happens. *)
Inductive times (P : vstate -> Prop) : list vstate -> Z -> Prop :=
| tm_nil : times P [] 0
| tm_yes s l n : P s -> times P l n -> times P (s :: l) (n + 1)
| tm_no s l n : ~ P s -> times P l n -> times P (s :: l) n.
(** The names of the functions that are made, in order. *)
Inductive made (x : executable) : list vstate -> list (list Z) -> Prop :=
| md_nil : made x [] []
| md_yes s l name ns : makes_function x s name -> made x l ns -> made x (s :: l) (name :: ns)
| md_no s l ns : (forall name, ~ makes_function x s name) -> made x l ns -> made x (s :: l) ns.

(** One line of the profile: the name to the right of a field of twenty bytes, the program, the number of calls, the time. *)
Inductive line_says (prog : list Z) (name : list Z) (calls : Z) (time : list Z) : list Z -> Prop :=
| ls_line pad d : Forall (fun c => c = 32) pad -> List.length pad = (20 - List.length name)%nat -> int_shown calls d ->
    line_says prog name calls time (pad ++ name ++ bytes_of " - " ++ prog ++ bytes_of " - " ++ d ++ bytes_of " calls - " ++ time ++ bytes_of "us" ++ [10]).
(** The lines for functions with their numbers of calls; only those that were called are listed. *)
Inductive profile_says (prog : list Z) (time : nat -> list Z) : nat -> list (list Z * Z) -> list Z -> Prop :=
| ps_nil i : profile_says prog time i [] []
| ps_called i name n l t u : 0 < n -> line_says prog name n (time i) t -> profile_says prog time (S i) l u -> profile_says prog time i ((name, n) :: l) (t ++ u)
| ps_other i name l u : profile_says prog time (S i) l u -> profile_says prog time i ((name, 0) :: l) u.
