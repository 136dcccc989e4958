(** The imperative core of the language: assignments, conditionals, loops, break and return, over expressions of literals, operators
    and variables. What such programs do, told on a finite assignment of values to names: no heap, no tables, no stack, no jumps. *)
From Coq Require Import ZArith List Bool.
From Verif Require Import Base FloatModel ValueModel AstModel CalcSpec.
Import ListNotations.
Open Scope Z_scope.

Definition store := list Z -> option value.
Definition nothing : store := fun _ => None.
Definition put_in (s : store) (x : list Z) (v : value) : store := fun y => if list_eq_dec Z.eq_dec y x then Some v else s y.

(** The value of an expression; a variable without a value is an error. *)
Fixpoint says (s : store) (e : expr) : answer :=
  match e with
  | EInt z => AVal (VInt z)
  | EFlt b => AVal (VFloat b)
  | EStr s => AVal (VStr s)
  | ENone => AVal VNone
  | ETrue => bool_answer true
  | EFalse => bool_answer false
  | EIdent x => match s x with Some v => AVal v | None => AErr end
  | EUn op a => andthen (says s a) (means1 op)
  | EBin op a b => andthen (says s a) (fun v => andthen (says s b) (means2 op v))
  | EAnd a b => andthen (says s a) (fun v => truth v (andthen (says s b) (fun w => truth w (bool_answer true) (bool_answer false))) (bool_answer false))
  | EOr a b => andthen (says s a) (fun v => truth v (bool_answer true) (andthen (says s b) (fun w => truth w (bool_answer true) (bool_answer false))))
  | _ => ANone
  end.

(** How a statement ends. [Lost]: an integer that does not fit 64 bits or a remainder by zero. *)
Inductive ending := Falls (s : store) | Breaks (s : store) | Gives (vs : list value) | Fails | Lost.

Definition trouble (a : answer) : option ending := match a with AVal _ => None | ALost => Some Lost | _ => Some Fails end.

(** A condition is a boolean. *)
Inductive test := Yes | No | Bad (r : ending).
Definition tests (s : store) (c : expr) : test :=
  match says s c with AVal (VBool true) => Yes | AVal (VBool false) => No | ALost => Bad Lost | _ => Bad Fails end.

(** The values of a tuple, from the first to the last. *)
Fixpoint tells (s : store) (e : expr) : ending :=
  match e with
  | EPair a b =>
    match tells s a with
    | Gives x => match tells s b with Gives y => Gives (x ++ y) | r => r end
    | r => r
    end
  | _ => match says s e with AVal v => Gives [v] | ALost => Lost | _ => Fails end
  end.

Definition is_final (r : ending) : Prop := match r with Falls _ | Breaks _ => False | _ => True end.

Inductive does : store -> stmt -> ending -> Prop :=
| d_assign s x e v : says s e = AVal v -> does s (SExpr (EAss (EIdent x) e)) (Falls (put_in s x v))
| d_assign_bad s x e r : trouble (says s e) = Some r -> does s (SExpr (EAss (EIdent x) e)) r
| d_break s : does s SBreak (Breaks s)
| d_if_yes s c t r : tests s c = Yes -> does s t r -> does s (SIf c t) r
| d_if_no s c t : tests s c = No -> does s (SIf c t) (Falls s)
| d_if_bad s c t r : tests s c = Bad r -> does s (SIf c t) r
| d_else_yes s c t f r : tests s c = Yes -> does s t r -> does s (SIfElse c t f) r
| d_else_no s c t f r : tests s c = No -> does s f r -> does s (SIfElse c t f) r
| d_else_bad s c t f r : tests s c = Bad r -> does s (SIfElse c t f) r
| d_while_no s c b : tests s c = No -> does s (SWhile c b) (Falls s)
| d_while_bad s c b r : tests s c = Bad r -> does s (SWhile c b) r
| d_while_next s c b s1 r : tests s c = Yes -> does s b (Falls s1) -> does s1 (SWhile c b) r -> does s (SWhile c b) r
| d_while_break s c b s1 : tests s c = Yes -> does s b (Breaks s1) -> does s (SWhile c b) (Falls s1)
| d_while_final s c b r : tests s c = Yes -> does s b r -> is_final r -> does s (SWhile c b) r
| d_do_next s b c s1 r : does s b (Falls s1) -> tests s1 c = Yes -> does s1 (SDo b c) r -> does s (SDo b c) r
| d_do_no s b c s1 : does s b (Falls s1) -> tests s1 c = No -> does s (SDo b c) (Falls s1)
| d_do_bad s b c s1 r : does s b (Falls s1) -> tests s1 c = Bad r -> does s (SDo b c) r
| d_do_break s b c s1 : does s b (Breaks s1) -> does s (SDo b c) (Falls s1)
| d_do_final s b c r : does s b r -> is_final r -> does s (SDo b c) r
| d_block s ss r : does_all s ss r -> does s (SComp ss) r
| d_return s e r : tells s e = r -> does s (SReturn e) r
with does_all : store -> stmts -> ending -> Prop :=
| d_nil s : does_all s SNil (Falls s)
| d_next s t ss s1 r : does s t (Falls s1) -> does_all s1 ss r -> does_all s (SCons t ss) r
| d_leave s t ss r : does s t r -> (forall s1, r <> Falls s1) -> does_all s (SCons t ss) r.

(** Which programs these are. The break is allowed inside a loop only. *)
Fixpoint simple (e : expr) : Prop :=
  match e with
  | EInt _ | EFlt _ | ENone | ETrue | EFalse | EIdent _ => True
  | EStr s => chars s
  | EUn op a => op <> UNlb /\ simple a
  | EBin op a b => op <> BStp /\ simple a /\ simple b
  | EAnd a b | EOr a b => simple a /\ simple b
  | _ => False
  end.

Fixpoint simples (e : expr) : Prop := match e with EPair a b => simples a /\ simples b | _ => simple e end.

Fixpoint core (looping : bool) (s : stmt) : Prop :=
  match s with
  | SExpr (EAss (EIdent _) e) => simple e
  | SExpr _ | SFunc _ _ _ => False
  | SBreak => looping = true
  | SIf c t => simple c /\ core looping t
  | SIfElse c t f => simple c /\ core looping t /\ core looping f
  | SWhile c b | SDo b c => simple c /\ core true b
  | SComp ss => cores looping ss
  | SReturn e => simples e
  end
with cores (looping : bool) (ss : stmts) : Prop := match ss with SNil => True | SCons s r => core looping s /\ cores looping r end.

(** The variables a program mentions. *)
Fixpoint named (e : expr) : list (list Z) :=
  match e with
  | EIdent x => [x]
  | EUn _ a => named a
  | EBin _ a b | EAnd a b | EOr a b | EPair a b => named a ++ named b
  | EAss a b => named a ++ named b
  | _ => []
  end.
Fixpoint mentions (s : stmt) : list (list Z) :=
  match s with
  | SExpr e | SReturn e => named e
  | SIf c t => named c ++ mentions t
  | SIfElse c t f => named c ++ mentions t ++ mentions f
  | SWhile c b | SDo b c => named c ++ mentions b
  | SComp ss => mentions_all ss
  | _ => []
  end
with mentions_all (ss : stmts) : list (list Z) := match ss with SNil => [] | SCons s r => mentions s ++ mentions_all r end.
