(** Model of the arithmetic and relational operators of the interpreter (src/lib/run.c:338-493 and the cases NEG, NOT, MOD,
    EQL, NQL of runInstruction). *)
From Coq Require Import ZArith List Lia Bool.
From Verif Require Import Base FloatModel StringModel ValueModel ExeModel.
Import ListNotations.
Open Scope Z_scope.

(** run.c:348-356, the C operators +, -, *, / on long long int: A signed 64-bit result: overflow is undefined behaviour in C. *)
Definition int_res (z : Z) : res value := if (- 2^63 <=? z) && (z <? 2^63) then ROk (VInt z) else RUB.

(** run.c:343-358, macro APPLY of do_math_op, at type [long long int]. [z = x / y] truncates toward zero. *)
Definition math_int (op : opcode) (x y : Z) : res value :=
  match op with
  | OP_ADD => int_res (x + y)
  | OP_SUB => int_res (x - y)
  | OP_MUL => int_res (x * y)
  | OP_DIV => if y =? 0 then RErr else int_res (Z.quot x y)
  | _ => RUB
  end.

(** run.c:343-423: The same macro at type [double]; [y == 0] holds of both zeros. *)
Definition math_flt (op : opcode) (x y : Z) : res value :=
  match op with
  | OP_ADD => ROk (VFloat (f_add x y))
  | OP_SUB => ROk (VFloat (f_sub x y))
  | OP_MUL => ROk (VFloat (f_mul x y))
  | OP_DIV => if f_eq y 0 then RErr else ROk (VFloat (f_div x y))
  | _ => RUB
  end.

(** run.c:338-423 do_math_op. *)
Definition math_op (op : opcode) (lop rop : value) : res value :=
  match lop with
  | VInt x =>
    match rop with
    | VInt y => math_int op x y
    | VFloat y => math_flt op (f_of_int x) y
    | _ => RErr
    end
  | VFloat x =>
    match rop with
    | VInt y => math_flt op x (f_of_int y)
    | VFloat y => math_flt op x y
    | _ => RErr
    end
  | _ => RErr
  end.

(** run.c:430-438, macro APPLY of do_relational_op, at type [long long int]. *)
Definition rel_int (op : opcode) (x y : Z) : res bool :=
  match op with
  | OP_LSS => ROk (x <? y)
  | OP_GRT => ROk (y <? x)
  | OP_LEQ => ROk (x <=? y)
  | OP_GEQ => ROk (y <=? x)
  | _ => RUB
  end.

(** run.c:430-493: The same macro at type [double]. *)
Definition rel_flt (op : opcode) (x y : Z) : res bool :=
  match op with
  | OP_LSS => ROk (f_lt x y)
  | OP_GRT => ROk (f_lt y x)
  | OP_LEQ => ROk (f_le x y)
  | OP_GEQ => ROk (f_le y x)
  | _ => RUB
  end.

(** run.c:425-493 do_relational_op. *)
Definition rel_op (op : opcode) (lop rop : value) : res bool :=
  match lop with
  | VInt x =>
    match rop with
    | VInt y => rel_int op x y
    | VFloat y => rel_flt op (f_of_int x) y
    | _ => RErr
    end
  | VFloat x =>
    match rop with
    | VInt y => rel_flt op x (f_of_int y)
    | VFloat y => rel_flt op x y
    | _ => RErr
    end
  | _ => RErr
  end.

(** run.c:630-653, the case MOD: [x % y] on [long long int]; a zero divisor and LLONG_MIN % -1 are undefined (the quotient must be
    representable). *)
Definition mod_op (lop rop : value) : res value :=
  match lop, rop with
  | VInt x, VInt y =>
    if y =? 0 then RUB else
    if (- 2^63 <=? Z.quot x y) && (Z.quot x y <? 2^63) then ROk (VInt (Z.rem x y)) else RUB
  | _, _ => RErr
  end.

(** run.c:536-563, the case NEG. *)
Definition neg_op (v : value) : res value :=
  match v with
  | VInt n => int_res (- n)
  | VFloat f => ROk (VFloat (f_neg f))
  | _ => RErr
  end.

(** run.c:565-584, the case NOT. *)
Definition not_op (v : value) : res value :=
  match v with
  | VBool b => ROk (VBool (negb b))
  | _ => RErr
  end.
