(** What it means for code to keep the frame's stack balanced: a number of values is assigned to every instruction index such
    that each instruction, started with that many values, finds its operands and leaves the number assigned to whatever
    instruction may come next. Written from the documentation of the opcodes, not from the interpreter. *)
From Coq Require Import ZArith List Bool.
From Verif Require Import Base ExeModel.
Import ListNotations.
Open Scope Z_scope.

(** Values taken and values given by the instructions that continue with the next one. *)
Definition effect (op : opcode) (ops : list operand) : option (Z * Z) :=
  match op, ops with
  | OP_NOPE, [] => Some (0, 0)
  | (OP_POS | OP_NEG | OP_NOT | OP_NLB), [] => Some (1, 1)
  | (OP_ADD | OP_SUB | OP_MUL | OP_DIV | OP_MOD | OP_EQL | OP_NQL | OP_LSS | OP_GRT | OP_LEQ | OP_GEQ | OP_STP), [] => Some (2, 1)
  | OP_ASS, [PStr _] => Some (1, 1)
  | OP_POP, [PInt n] => if (0 <=? n) && (n <? 2^31) then Some (n, 0) else None
  | OP_CHECKTYPE, [PInt _; PStr _] => Some (2, 1)
  | OP_CALL, [PInt argc; PInt want] => if (0 <=? argc) && (argc <? 2^31) && (0 <=? want) && (want <? 2^31) then Some (argc + 1, want) else None
  | OP_SELECT, [] => Some (2, 1)
  | OP_SELECT2, [] => Some (2, 2)
  | OP_INSERT, [] => Some (3, 1)
  | OP_INSERT2, [] => Some (3, 1)
  | OP_PUSHINT, [PInt _] => Some (0, 1)
  | OP_PUSHFLT, [PFlt _] => Some (0, 1)
  | OP_PUSHSTR, [PStr _] => Some (0, 1)
  | OP_PUSHVAR, [PStr _] => Some (0, 1)
  | (OP_PUSHNNE | OP_PUSHTRU | OP_PUSHFLS | OP_PUSHNNETYP), [] => Some (0, 1)
  | (OP_PUSHLST | OP_PUSHMAP), [PInt _] => Some (0, 1)
  | OP_PUSHTYP, [] => Some (1, 2)
  | _, _ => None
  end.

Definition flow (D : Z -> Z) (pc : Z) (op : opcode) (ops : list operand) : Prop :=
  match op, ops with
  | OP_RETURN, [PInt n] => D pc = n
  | OP_EXIT, [] => D pc = 0
  | OP_JUMP, [PIdx t] => 0 <= t < 2^31 /\ D t = D pc
  | (OP_JUMPIFANDPOP | OP_JUMPIFNOTANDPOP), [PIdx t] => 1 <= D pc /\ 0 <= t < 2^31 /\ D t = D pc - 1 /\ D (pc + 1) = D pc - 1
  | OP_PUSHFUN, [PIdx entry; PInt argc; PStr _] =>
    0 <= entry < 2^31 /\ 0 <= argc < 2^31 /\ D entry = argc /\ D (pc + 1) = D pc + 1
  | _, _ =>
    match effect op ops with
    | Some (takes, gives) => takes <= D pc /\ D (pc + 1) = D pc - takes + gives
    | None => False
    end
  end.
