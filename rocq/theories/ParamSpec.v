(** Parameters: the value each takes, when arguments and default values are literals. *)
From Coq Require Import ZArith List Bool.
From Verif Require Import Base ValueModel AstModel CalcSpec FunSpec.
Import ListNotations.
Open Scope Z_scope.

Definition literal (e : expr) : option value :=
  match e with
  | EInt z => Some (VInt z) | EFlt b => Some (VFloat b) | EStr s => Some (VStr s) | ENone => Some VNone | ETrue => Some (VBool true) | EFalse => Some (VBool false)
  | _ => None
  end.
Fixpoint literals (es : exprs) : option (list value) :=
  match es with
  | ENil => Some []
  | ECons e r => match literal e, literals r with Some v, Some vs => Some (v :: vs) | _, _ => None end
  end.
Definition literal_default (p : param) : Prop := match snd (snd p) with Some d => literal d <> None | None => True end.

(** A parameter that gets no argument, or none, takes its default value; if it has no default value it takes none. *)
Definition takes (p : param) (v : value) : value :=
  match v, snd (snd p) with VNone, Some d => match literal d with Some u => u | None => VNone end | _, _ => v end.
Fixpoint taken (ps : list param) (vs : list value) : list (param * value) :=
  match ps with [] => [] | p :: r => (p, takes p (hd VNone vs)) :: taken r (tl vs) end.
(** A parameter with a type refuses the other values. *)
Definition suits (pv : param * value) : bool := match fst (snd (fst pv)) with Some t => accepts t (snd pv) | None => true end.

(** A function that returns one of its parameters, called with these arguments. *)
Definition asks (f : list Z) (ps : list param) (x : list Z) : list definition := [(f, (ps, SReturn (EIdent x)))].
Definition calls_it (f : list Z) (args : exprs) : stmts := SCons (SReturn (ECall (EIdent f) args)) SNil.
