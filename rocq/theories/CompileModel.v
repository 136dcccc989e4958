(** Model of the front end: src/lib/compiler/compile.c. *)
From Coq Require Import ZArith List.
From Verif Require Import Base StringModel ExeModel AstModel LexModel ParseModel CodegenModel.
Import ListNotations.
Open Scope Z_scope.

(** compile.c:4-43 compile, from a text that is followed by a NUL (source.c:86-171): an executable, an error, or undefined
    behaviour. *)
Definition compile (src : list Z) : res executable :=
  match parse true src with
  | POk root _ => match codegen root with Some r => r | None => RUB end
  | PErr => RErr
  | PUB | PFuel => RUB
  end.
