(** What the listing of a program is to be: a line for each instruction. *)
From Coq Require Import ZArith String List Lia Bool.
From Verif Require Import Base StringModel ExeModel AsmModel ShowSpec.
Import ListNotations.
Open Scope list_scope.
Open Scope Z_scope.

Section Listed.
(** The text of a float. *)
Variable pf : Z -> list Z.

Inductive operand_listed : operand -> list Z -> Prop :=
| ol_idx z t : int_shown z t -> operand_listed (PIdx z) t
| ol_int z t : int_shown z t -> operand_listed (PInt z) t
| ol_flt b : operand_listed (PFlt b) (pf b)
| ol_str s : operand_listed (PStr s) (91 :: s ++ [93]).

(** The operands, each with a space behind it. *)
Inductive operands_listed : list operand -> list Z -> Prop :=
| osl_none : operands_listed [] []
| osl_more o t os ts : operand_listed o t -> operands_listed os ts -> operands_listed (o :: os) (t ++ 32 :: ts).

(** Lines numbered from [i] on: number, colon, name, operands. *)
Inductive listed : Z -> list (opcode * list operand) -> list Z -> Prop :=
| l_none i : listed i [] []
| l_more i it op name os t code ts :
    int_shown i it -> In (name, op) instr_names -> operands_listed os t -> listed (i + 1) code ts ->
    listed i ((op, os) :: code) (it ++ bytes_of ": " ++ bytes_of name ++ 32 :: t ++ 10 :: ts).

(** Operands that look alike: the same, or floats with the same text. *)
Definition look_alike (a b : operand) : Prop := a = b \/ exists p q, a = PFlt p /\ b = PFlt q /\ pf p = pf q.
(** The instructions two programs have at the same place. *)
Definition same_at (x y : executable) (i : Z) : Prop :=
  match exe_fetch x i, exe_fetch y i with
  | ROk (Some (o, v)), ROk (Some (o', v')) => o = o' /\ Forall2 look_alike v v'
  | ROk None, ROk None => True
  | _, _ => False
  end.
End Listed.

(** Programs made by a history of calls of the builder (executable.c:429-665), as the compiler and the assembler make them. *)
Definition made (evs : list bevent) (x : executable) : Prop := exists b, build exeb_new evs = ROk b /\ exeb_finalize b = ROk x.
(** No string of the program has a line break in it. *)
Definition one_line (o : operand) : Prop := match o with PStr s => ~ In 10 s | _ => True end.
Definition all_one_line (x : executable) : Prop := forall i o v, 0 <= i -> exe_fetch x i = ROk (Some (o, v)) -> Forall one_line v.
