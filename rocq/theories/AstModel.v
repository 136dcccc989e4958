(** The syntax tree (src/lib/compiler/ASTi.h). Simplification: the positions of nodes in the source are not represented.
    Lists of nodes are in source order (the parser stores the arguments of a call and the parameters of a function in
    reverse, which the functions below take into account). *)
From Coq Require Import ZArith List Bool.
From Verif Require Import Base.
Import ListNotations.
Open Scope Z_scope.

(** ASTi.h:48-86 ExprKind: the unary and binary operators that codegen.c:169-195 maps to one opcode. *)
Inductive unop := UPos | UNeg | UNot | UNlb.
(** ASTi.h:48-86 ExprKind, the operators with two operands. *)
Inductive binop := BAdd | BSub | BMul | BDiv | BMod | BEql | BNql | BLss | BLeq | BGrt | BGeq | BStp.

(** ASTi.h:36-86 NodeKind and ExprKind with the node structures of lines 88-215. *)
Inductive expr :=
| EInt (z : Z) | EFlt (bits : Z) | EStr (s : list Z) | EIdent (s : list Z) | ENone | ETrue | EFalse
| EUn (op : unop) (e : expr) | EBin (op : binop) (a b : expr)
| EAnd (a b : expr) | EOr (a b : expr)
| EAss (lhs rhs : expr) | EPair (a b : expr) | EArw (set idx : expr) | ESel (set idx : expr)
| EList (items : exprs) | EMap (items : pairs)
| ECall (f : expr) (args : exprs) | EFun (ps : params) (body : stmt)
(** ASTi.h:95-100, the chains of nodes linked by [next]. *)
with exprs := ENil | ECons (e : expr) (r : exprs)
(** ASTi.h:129-134 MapExprNode, keys and items. *)
with pairs := PNil | PCons (k v : expr) (r : pairs)
(** ASTi.h:203-208 ArgumentNode. *)
with params := ANil | ACons (name : list Z) (ty df : oexpr) (r : params)
(** ASTi.h:203-208, a pointer to a node that may be NULL. *)
with oexpr := ONo | OYes (e : expr)
(** ASTi.h:36-46 NodeKind, 168-201. *)
with stmt :=
| SExpr (e : expr) | SBreak | SIf (c : expr) (t : stmt) | SIfElse (c : expr) (t f : stmt)
| SWhile (c : expr) (b : stmt) | SDo (b : stmt) (c : expr) | SComp (ss : stmts)
| SReturn (e : expr) | SFunc (name : list Z) (ps : params) (body : stmt)
(** ASTi.h:187-190 CompoundNode. *)
with stmts := SNil | SCons (s : stmt) (r : stmts).

Scheme expr_mut := Induction for expr Sort Prop
with exprs_mut := Induction for exprs Sort Prop
with pairs_mut := Induction for pairs Sort Prop
with params_mut := Induction for params Sort Prop
with oexpr_mut := Induction for oexpr Sort Prop
with stmt_mut := Induction for stmt Sort Prop
with stmts_mut := Induction for stmts Sort Prop.
Combined Scheme ast_ind from expr_mut, exprs_mut, pairs_mut, params_mut, oexpr_mut, stmt_mut, stmts_mut.

(** ASTi.h:123-127 itemc, 148-153 argc: Lengths: the counters argc and itemc of the nodes. *)
Fixpoint exprs_len (es : exprs) : Z := match es with ENil => 0 | ECons _ r => 1 + exprs_len r end.
(** ASTi.h:129-134 itemc. *)
Fixpoint pairs_len (ps : pairs) : Z := match ps with PNil => 0 | PCons _ _ r => 1 + pairs_len r end.
(** ASTi.h:161-166 argc. *)
Fixpoint params_len (ps : params) : Z := match ps with ANil => 0 | ACons _ _ _ r => 1 + params_len r end.

(** The number of expressions flattenTupleTree (codegen.c:311-329) collects. *)
Fixpoint tuple_len (e : expr) : Z := match e with EPair a b => tuple_len a + tuple_len b | _ => 1 end.
