(** Specification of executables: what the fetched instructions of a finished executable must be, read off the history of
    builder operations alone. *)
From Coq Require Import ZArith List Bool.
From Verif Require Import Base ExeModel.
Import ListNotations.
Open Scope Z_scope.

(** The first value given to label [p] in a history. *)
Fixpoint first_set (evs : list bevent) (p : nat) : option Z :=
  match evs with
  | [] => None
  | EvSet q v :: r => if Nat.eqb q p then Some v else first_set r p
  | _ :: r => first_set r p
  end.

(** The value delivered for an operand emitted when the labels have values [ls] and [future] is what happens afterwards:
    constants are delivered as they are; a label operand delivers the value the label has, or else the first value it is
    given later; [None]: it never gets one. *)
Definition deliver (ls : list (option Z)) (future : list bevent) (ty : optype) (o : operand) : option operand :=
  match o with
  | PProm p =>
    match (match nth_error ls p with Some (Some v) => Some v | _ => first_set future p end) with
    | Some v => Some (match ty with TIdx => PIdx v | TInt => PInt v | TFlt => PFlt (u64 v) | TStr => PStr [] end)
    | None => None
    end
  | _ => Some o
  end.

Fixpoint delivers (ls : list (option Z)) (future : list bevent) (tys : list optype) (os : list operand) : list (option operand) :=
  match tys, os with
  | ty :: tys', o :: os' => deliver ls future ty o :: delivers ls future tys' os'
  | _, _ => []
  end.

(** The instructions of a history, in order of emission. *)
Fixpoint emitted (ls : list (option Z)) (evs : list bevent) : list (opcode * list (option operand)) :=
  match evs with
  | [] => []
  | EvLabel :: r => emitted (ls ++ [None]) r
  | EvSet p v :: r => emitted (upd ls p (Some v)) r
  | EvEmit op os _ _ :: r => (op, delivers ls r (optypes op) os) :: emitted ls r
  end.

(** Operands that fit their C types: strings are C strings. *)
Definition operand_ok (o : operand) : Prop :=
  match o with
  | PIdx z | PInt z => in_i64 z
  | PFlt b => 0 <= b < 2^64
  | PStr s => Forall (fun c => 1 <= c < 256) s
  | PProm _ => True
  end.

Definition event_ok (e : bevent) : Prop :=
  match e with
  | EvLabel => True
  | EvSet _ v => in_i64 v
  | EvEmit _ os _ _ => Forall operand_ok os
  end.

(** Bytes of string data of a history: each string with its terminator. *)
Definition string_bytes (o : operand) : Z := match o with PStr s => Z.of_nat (length s) + 1 | _ => 0 end.
Fixpoint data_bytes (evs : list bevent) : Z :=
  match evs with
  | [] => 0
  | EvEmit _ os _ _ :: r => fold_right Z.add 0 (map string_bytes os) + data_bytes r
  | _ :: r => data_bytes r
  end.

(** An operand is of the type the instruction table asks for, or a label standing for a number. *)
Definition operand_typed (nlabels : nat) (ty : optype) (o : operand) : Prop :=
  match o, ty with
  | PIdx _, TIdx | PInt _, TInt | PFlt _, TFlt | PStr _, TStr => True
  | PProm p, (TIdx | TInt | TFlt) => (p < nlabels)%nat
  | _, _ => False
  end.

(** A history whose instructions are all well formed and that only mentions existing labels. *)
Fixpoint history_typed (nlabels : nat) (evs : list bevent) : Prop :=
  match evs with
  | [] => True
  | EvLabel :: r => history_typed (S nlabels) r
  | EvSet p _ :: r => (p < nlabels)%nat /\ history_typed nlabels r
  | EvEmit op os _ _ :: r => Forall2 (operand_typed nlabels) (optypes op) os /\ history_typed nlabels r
  end.
