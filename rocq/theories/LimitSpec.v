(** The limits of the interpreter and what each instruction does to the values of a frame. *)
From Coq Require Import ZArith List.
From Verif Require Import Base ValueModel ExeModel VmModel.
Import ListNotations.
Open Scope Z_scope.

(** All values of all frames. *)
Fixpoint values_of (fs : list vframe) : Z := match fs with [] => 0 | f :: r => Z.of_nat (length (f_stack f)) + values_of r end.
Definition frames_of (s : vstate) : list vframe := v_cur s :: v_rest s.

(** At most 16 frames, 16 values on each, [size] on all of them. *)
Definition within (size : Z) (s : vstate) : Prop :=
  Z.of_nat (length (frames_of s)) <= 16 /\ Forall (fun f => Z.of_nat (length (f_stack f)) <= 16) (frames_of s) /\ values_of (frames_of s) <= size.

(** How many values an instruction that stays in its frame removes and adds (those below stay as they are). *)
Definition moves (op : opcode) (ops : list operand) : option (Z * Z) :=
  match op, ops with
  | OP_NOPE, [] | OP_ASS, [PStr _] | OP_JUMP, [PIdx _] => Some (0, 0)
  | (OP_POS | OP_NEG | OP_NOT | OP_NLB), [] => Some (1, 1)
  | (OP_ADD | OP_SUB | OP_MUL | OP_DIV | OP_MOD | OP_EQL | OP_NQL | OP_LSS | OP_GRT | OP_LEQ | OP_GEQ | OP_STP), [] => Some (2, 1)
  | OP_POP, [PInt n] => Some (n mod 2 ^ 32, 0)
  | OP_CHECKTYPE, [PInt _; PStr _] | (OP_JUMPIFANDPOP | OP_JUMPIFNOTANDPOP), [PIdx _] => Some (1, 0)
  | OP_SELECT, [] => Some (2, 1)
  | OP_SELECT2, [] => Some (1, 1)
  | (OP_INSERT | OP_INSERT2), [] => Some (2, 0)
  | (OP_PUSHNNE | OP_PUSHTRU | OP_PUSHFLS | OP_PUSHNNETYP | OP_PUSHTYP), [] | (OP_PUSHINT | OP_PUSHLST | OP_PUSHMAP), [PInt _] | OP_PUSHFLT, [PFlt _]
  | (OP_PUSHSTR | OP_PUSHVAR), [PStr _] | OP_PUSHFUN, [PIdx _; PInt _; PStr _] => Some (0, 1)
  | _, _ => None
  end.

(** Room for [k] more values in a frame that now holds [l], with [u] on the whole stack. *)
Definition room (size k l u : Z) : Prop := l + k <= 16 /\ u + k <= size.

Definition jumps (op : opcode) : bool := match op with OP_JUMP | OP_JUMPIFANDPOP | OP_JUMPIFNOTANDPOP => true | _ => false end.
