(** Texts and watches for the examples of PropsStop.v. *)
From Coq Require Import ZArith String List Bool.
From Verif Require Import Base ExeModel AsmModel VmModel PosModel StopModel.
Import ListNotations.
Open Scope Z_scope.

(** src/lib/compiler/compile.c compile: the program of a text. *)
Definition made (text : string) : executable := match compile_at (bytes_of text) with MExe x => x | _ => mkexe [] [] end.
(** A loop without end (run.c:1090). *)
Definition text_ever : string := "x = 0;
while true:
  x = x + 1;"%string.
(** A function that goes deeper and deeper (run.c:751-808). *)
Definition text_deep : string := "fun f(n)
  f(n + 1);

x = 0;
f(x);"%string.
(** A program that ends (run.c:1035-1044). *)
Definition text_short : string := "return 1 + 2;"%string.
(** The names of C39: the sixth assignment looks for a free slot for ever (o_map.c:270-330, grow). *)
Definition text_stuck : string := "d=1;i=2;j=3;o=4;y=5;z=6;"%string.

(** runtime.c:321-324: one interruption before check [k]; 112-123: no callback. *)
Definition once (k : nat) : watch := mkwatch (fun n => (n =? k)%nat) None.
(** runtime.c:718-721: a callback that allows [k] checks. *)
Definition allows (k : nat) : watch := mkwatch (fun _ => false) (Some (fun n _ => (n <? k)%nat)).
(** runtime.c:356, 112-123: nobody interferes. *)
Definition alone : watch := mkwatch (fun _ => false) None.
