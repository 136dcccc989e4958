(** The meaning of expressions made of literals and operators, on mathematical integers. *)
From Coq Require Import ZArith List Bool.
From Verif Require Import Base Utf8Spec FloatModel ValueModel AstModel.
Open Scope Z_scope.

(** A value, a reported error, an integer that does not fit 64 bits or a remainder by zero; [ANone]: not such an expression. *)
Inductive answer := AVal (v : value) | AErr | ALost | ANone.

Definition fits64 (z : Z) : answer := if (- 2 ^ 63 <=? z) && (z <? 2 ^ 63) then AVal (VInt z) else ALost.

(** Beside a float, an integer is converted to one. *)
Definition as_double (v : value) : option Z := match v with VInt z => Some (f_of_int z) | VFloat b => Some b | _ => None end.

Definition arith (fi : Z -> Z -> answer) (fd : Z -> Z -> answer) (v w : value) : answer :=
  match v, w with
  | VInt x, VInt y => fi x y
  | _, _ => match as_double v, as_double w with Some x, Some y => fd x y | _, _ => AErr end
  end.

Definition bool_answer (b : bool) : answer := AVal (VBool b).
Definition order (ci : Z -> Z -> bool) (cd : Z -> Z -> bool) : value -> value -> answer :=
  arith (fun x y => bool_answer (ci x y)) (fun x y => bool_answer (cd x y)).

Definition same (v w : value) : bool :=
  match v, w with
  | VNone, VNone => true
  | VBool a, VBool b => Bool.eqb a b
  | VInt a, VInt b => a =? b
  | VFloat a, VFloat b => f_eq a b
  | VStr a, VStr b => if list_eq_dec Z.eq_dec a b then true else false
  | _, _ => false
  end.

Definition means2 (op : binop) (v w : value) : answer :=
  match op with
  | BAdd => arith (fun x y => fits64 (x + y)) (fun x y => AVal (VFloat (f_add x y))) v w
  | BSub => arith (fun x y => fits64 (x - y)) (fun x y => AVal (VFloat (f_sub x y))) v w
  | BMul => arith (fun x y => fits64 (x * y)) (fun x y => AVal (VFloat (f_mul x y))) v w
  | BDiv => arith (fun x y => if y =? 0 then AErr else fits64 (Z.quot x y)) (fun x y => if f_eq y 0 then AErr else AVal (VFloat (f_div x y))) v w
  | BMod =>
    match v, w with
    | VInt x, VInt y => if (y =? 0) || ((x =? - 2 ^ 63) && (y =? - 1)) then ALost else AVal (VInt (Z.rem x y))
    | _, _ => AErr
    end
  | BEql => bool_answer (same v w)
  | BNql => bool_answer (negb (same v w))
  | BLss => order Z.ltb f_lt v w
  | BLeq => order Z.leb f_le v w
  | BGrt => order Z.gtb (fun x y => f_lt y x) v w
  | BGeq => order Z.geb (fun x y => f_le y x) v w
  | BStp => ANone
  end.

Definition means1 (op : unop) (v : value) : answer :=
  match op with
  | UPos => AVal v
  | UNeg => match v with VInt x => fits64 (- x) | VFloat x => AVal (VFloat (f_neg x)) | _ => AErr end
  | UNot => match v with VBool b => bool_answer (negb b) | _ => AErr end
  | UNlb => ANone
  end.

Definition andthen (a : answer) (k : value -> answer) : answer := match a with AVal v => k v | _ => a end.

Definition truth (v : value) (yes no : answer) : answer := match v with VBool true => yes | VBool false => no | _ => AErr end.

Fixpoint means (e : expr) : answer :=
  match e with
  | EInt z => AVal (VInt z)
  | EFlt b => AVal (VFloat b)
  | EStr s => AVal (VStr s)
  | ENone => AVal VNone
  | ETrue => bool_answer true
  | EFalse => bool_answer false
  | EUn op a => andthen (means a) (means1 op)
  | EBin op a b => andthen (means a) (fun v => andthen (means b) (means2 op v))
  | EAnd a b => andthen (means a) (fun v => truth v (andthen (means b) (fun w => truth w (bool_answer true) (bool_answer false))) (bool_answer false))
  | EOr a b => andthen (means a) (fun v => truth v (bool_answer true) (andthen (means b) (fun w => truth w (bool_answer true) (bool_answer false))))
  | _ => ANone
  end.

(** The text of a string is made of characters (what counts as one: Utf8Spec.v). *)
Definition chars (s : list Z) : Prop := exists cs, Forall loose_char cs /\ concat cs = s /\ Z.of_nat (length s) < 2 ^ 31.

(** Expressions made of literals and operators (but the two that build types). *)
Fixpoint pure (e : expr) : Prop :=
  match e with
  | EInt _ | EFlt _ | ENone | ETrue | EFalse => True
  | EStr s => chars s
  | EUn op a => op <> UNlb /\ pure a
  | EBin op a b => op <> BStp /\ pure a /\ pure b
  | EAnd a b | EOr a b => pure a /\ pure b
  | _ => False
  end.
