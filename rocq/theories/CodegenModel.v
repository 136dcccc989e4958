(** Model of src/lib/compiler/codegen.c: syntax trees to operations on the executable builder (ExeModel.v). *)
From Coq Require Import ZArith List Bool.
From Verif Require Import Base StringModel ExeModel AstModel.
Import ListNotations.
Open Scope Z_scope.

(** A piece of code generation: from the number of labels made so far and the number of instructions emitted so far, the
    builder operations it performs and the new numbers. [None]: a semantic error was found; codegenctx.c:65 then stores
    the error offset through a pointer that is never initialised. Instruction positions are not modelled (0). *)
Definition gen := nat -> Z -> option (list bevent * nat * Z).

(** codegen.c:674-762, no code emitted. *)
Definition g_nil : gen := fun n p => Some ([], n, p).
(** codegen.c:674-762, one emission after another. *)
Definition g_seq (a b : gen) : gen := fun n p =>
  match a n p with
  | Some (e1, n1, p1) => match b n1 p1 with Some (e2, n2, p2) => Some (e1 ++ e2, n2, p2) | None => None end
  | None => None
  end.
(** codegenctx.c:141-147 CodegenContext_EmitInstr. *)
Definition g_emit (op : opcode) (ops : list operand) : gen := fun n p => Some ([EvEmit op ops 0 0], n, p + 1).
(** codegenctx.c:15-24 Label_New. *)
Definition g_label (k : nat -> gen) : gen := fun n p =>
  match k n (S n) p with Some (e, n', p') => Some (EvLabel :: e, n', p') | None => None end.
(** codegenctx.c:32-36 Label_SetHere. *)
Definition g_here (q : nat) : gen := fun n p => Some ([EvSet q p], n, p).
(** codegenctx.c:114-118 CodegenContext_InstrCount. *)
Definition g_count (k : Z -> gen) : gen := fun n p => k p n p.
(** codegenctx.c:57-68 CodegenContext_ReportErrorAndJump_. *)
Definition g_fail : gen := fun _ _ => None.

Declare Scope gen_scope.
Delimit Scope gen_scope with gen.
Notation "a ;; b" := (g_seq a b) (at level 61, right associativity) : gen_scope.
Open Scope gen_scope.

(** codegen.c:169-195 exprkind_to_opcode. *)
Definition unop_code (o : unop) : opcode :=
  match o with UPos => OP_POS | UNeg => OP_NEG | UNot => OP_NOT | UNlb => OP_NLB end.
(** codegen.c:169-195 exprkind_to_opcode. *)
Definition binop_code (o : binop) : opcode :=
  match o with
  | BAdd => OP_ADD | BSub => OP_SUB | BMul => OP_MUL | BDiv => OP_DIV | BMod => OP_MOD | BEql => OP_EQL | BNql => OP_NQL
  | BLss => OP_LSS | BLeq => OP_LEQ | BGrt => OP_GRT | BGeq => OP_GEQ | BStp => OP_STP
  end.

(** codegen.c:64-67 emitInstr_POP1. *)
Definition g_pop1 : gen := g_emit OP_POP [PInt 1].
(** codegen.c:69-75 emitInstr_ASS. *)
Definition g_ass (name : list Z) : gen := g_emit OP_ASS [PStr name].

(** A statement that is an expression leaves a value to be popped (the tests [kind == NODE_EXPR] of codegen.c:282, 607, ...). *)
Definition is_expr (s : stmt) : bool := match s with SExpr _ => true | _ => false end.
(** codegen.c:282, 607, 644: emitInstr_POP1 after an expression statement. *)
Definition g_pop_if (s : stmt) : gen := if is_expr s then g_pop1 else g_nil.

(** codegen.c:258-302 emitInstrForFuncExprNode, given the code of the parameters and of the body. *)
Definition g_func (name : list Z) (argc : Z) (ps : gen) (body : gen) (s : stmt) : gen :=
  g_label (fun lf => g_label (fun lj =>
    g_emit OP_PUSHFUN [PProm lf; PInt argc; PStr name] ;;
    g_emit OP_JUMP [PProm lj] ;;
    g_here lf ;; ps ;; body ;; g_pop_if s ;; g_emit OP_RETURN [PInt 0] ;; g_here lj)).

(** "???", codegen.c:567. *)
Definition anon_name : list Z := [63; 63; 63].

(** sizeof(tuple)/sizeof(tuple[0]), codegen.c:336, 722. *)
Definition MAX_TUPLE : Z := 32.

(** What the code of an expression is wanted for: its value (emitInstrForExprNode), the values of a return statement
    (codegen.c:715-730), the [n] results of a call on the right of a tuple assignment (codegen.c:345-352), or storing
    values into it (codegen.c:354-385). *)
Inductive mode := MVal | MRets | MCall (n : Z) | MTgt.

(** codegen.c:197-229, the argument [returns] of emitInstrForFuncCallNode. *)
Definition returns_of (m : mode) : Z := match m with MCall n => n | _ => 1 end.

(** codegen.c:331-386: Only a call can give several results, and only names, selections and tuples can be assigned to. *)
Definition for_value (m : mode) (g : gen) : gen := match m with MVal | MRets => g | MCall _ | MTgt => g_fail end.

(** codegen.c:388-595 emitInstrForExprNode, with 197-256 and 311-386. *)
Fixpoint cg_expr (m : mode) (e : expr) {struct e} : gen :=
  match e with
  | EInt z => for_value m (g_emit OP_PUSHINT [PInt z])                                        (* 493-499 *)
  | EFlt b => for_value m (g_emit OP_PUSHFLT [PFlt b])                                        (* 501-507 *)
  | EStr s => for_value m (g_emit OP_PUSHSTR [PStr s])                                        (* 509-515 *)
  | EIdent s =>
    match m with
    | MTgt => g_ass s                                                                         (* 360-365 *)
    | _ => for_value m (g_emit OP_PUSHVAR [PStr s])                                           (* 517-523 *)
    end
  | ENone => for_value m (g_emit OP_PUSHNNE [])                                               (* 589-591 *)
  | ETrue => for_value m (g_emit OP_PUSHTRU [])
  | EFalse => for_value m (g_emit OP_PUSHFLS [])
  | EUn op a => for_value m (cg_expr MVal a ;; g_emit (unop_code op) [])                      (* 400-415 *)
  | EBin op a b => for_value m (cg_expr MVal a ;; cg_expr MVal b ;; g_emit (binop_code op) [])
  | EPair a b =>
    match m with
    | MRets => cg_expr MRets a ;; cg_expr MRets b                                             (* 311-329, 726-727 *)
    | MTgt => cg_expr MTgt b ;; g_pop1 ;; cg_expr MTgt a                                      (* 354-385 *)
    | _ => g_fail                                                                             (* 393-398, 349-352 *)
    end
  | EArw _ _ => g_fail                                                                        (* 417-420 *)
  | EAnd a b =>                                                                               (* 422-451 *)
    for_value m (g_label (fun lend => g_label (fun lfalse =>
      cg_expr MVal a ;; g_emit OP_JUMPIFNOTANDPOP [PProm lfalse] ;;
      cg_expr MVal b ;; g_emit OP_JUMPIFNOTANDPOP [PProm lfalse] ;;
      g_emit OP_PUSHTRU [] ;; g_emit OP_JUMP [PProm lend] ;;
      g_here lfalse ;; g_emit OP_PUSHFLS [] ;; g_here lend)))
  | EOr a b =>                                                                                (* 453-483 *)
    for_value m (g_label (fun lend => g_label (fun ltrue =>
      cg_expr MVal a ;; g_emit OP_JUMPIFANDPOP [PProm ltrue] ;;
      cg_expr MVal b ;; g_emit OP_JUMPIFANDPOP [PProm ltrue] ;;
      g_emit OP_PUSHFLS [] ;; g_emit OP_JUMP [PProm lend] ;;
      g_here ltrue ;; g_emit OP_PUSHTRU [] ;; g_here lend)))
  | EAss lhs rhs =>                                                                           (* 331-386 *)
    for_value m
      (if MAX_TUPLE <? tuple_len lhs then g_fail else
       cg_expr (if tuple_len lhs =? 1 then MVal else MCall (tuple_len lhs)) rhs ;; cg_expr MTgt lhs)
  | ESel set idx =>
    match m with
    | MTgt => cg_expr MVal set ;; cg_expr MVal idx ;; g_emit OP_INSERT2 []                    (* 367-375 *)
    | _ => for_value m (cg_expr MVal set ;; cg_expr MVal idx ;; g_emit OP_SELECT [])          (* 570-577 *)
    end
  | EList es => for_value m (g_emit OP_PUSHLST [PInt (exprs_len es)] ;; cg_items 0 es)        (* 525-552 *)
  | EMap ps => for_value m (g_emit OP_PUSHMAP [PInt (pairs_len ps)] ;; cg_pairs ps)           (* 554-575 *)
  | ECall f args =>                                                                           (* 197-229, 562-564 *)
    match m with
    | MTgt => g_fail
    | _ =>
      cg_args args ;;
      match f with
      | EArw set idx =>
        cg_expr MVal set ;; cg_expr MVal idx ;; g_emit OP_SELECT2 [] ;;
        g_emit OP_CALL [PInt (exprs_len args + 1); PInt (returns_of m)]
      | _ => cg_expr MVal f ;; g_emit OP_CALL [PInt (exprs_len args); PInt (returns_of m)]
      end
    end
  | EFun ps body => for_value m (g_func anon_name (params_len ps) (cg_params 0 ps) (cg_stmt None body) body)   (* 566-568 *)
  end
(** codegen.c:200-205: the arguments, last one first. *)
with cg_args (es : exprs) : gen :=
  match es with ENil => g_nil | ECons e r => cg_args r ;; cg_expr MVal e end
(** codegen.c:539-551. *)
with cg_items (i : Z) (es : exprs) {struct es} : gen :=
  match es with
  | ENil => g_nil
  | ECons e r => g_emit OP_PUSHINT [PInt i] ;; cg_expr MVal e ;; g_emit OP_INSERT [] ;; cg_items (i + 1) r
  end
(** codegen.c:566-574. *)
with cg_pairs (ps : pairs) : gen :=
  match ps with
  | PNil => g_nil
  | PCons k v r => cg_expr MVal k ;; cg_expr MVal v ;; g_emit OP_INSERT [] ;; cg_pairs r
  end
(** codegen.c:274-280: the parameters, last one first. *)
with cg_params (i : Z) (ps : params) {struct ps} : gen :=
  match ps with
  | ANil => g_nil
  | ACons name ty df r =>                                                                     (* 234-256 *)
    cg_params (i + 1) r ;;
    (match df with
     | OYes d =>
       g_label (fun l =>
         g_emit OP_PUSHTYP [] ;; g_emit OP_PUSHNNETYP [] ;; g_emit OP_EQL [] ;; g_emit OP_JUMPIFNOTANDPOP [PProm l] ;;
         g_pop1 ;; cg_expr MVal d ;; g_here l)
     | ONo => g_nil
     end) ;;
    (match ty with
     | OYes t => cg_expr MVal t ;; g_emit OP_CHECKTYPE [PInt i; PStr name]
     | ONo => g_nil
     end) ;;
    g_ass name ;; g_pop1
  end
(** codegen.c:674-742 emitInstrForNode; [brk] is label_break (expressions receive it too but never use it, since function bodies
    are compiled with NULL). *)
with cg_stmt (brk : option nat) (s : stmt) {struct s} : gen :=
  match s with
  | SExpr e => cg_expr MVal e
  | SBreak => match brk with Some l => g_emit OP_JUMP [PProm l] | None => g_fail end          (* 684-688 *)
  | SIf c t =>                                                                                (* 618-626 *)
    cg_expr MVal c ;;
    g_label (fun ldone =>
      g_emit OP_JUMPIFNOTANDPOP [PProm ldone] ;; cg_stmt brk t ;; g_pop_if t ;; g_here ldone)
  | SIfElse c t f =>                                                                          (* 600-617 *)
    cg_expr MVal c ;;
    g_label (fun lelse => g_label (fun ldone =>
      g_emit OP_JUMPIFNOTANDPOP [PProm lelse] ;; cg_stmt brk t ;; g_pop_if t ;; g_emit OP_JUMP [PProm ldone] ;;
      g_here lelse ;; cg_stmt brk f ;; g_pop_if f ;; g_here ldone))
  | SWhile c b =>                                                                             (* 629-652 *)
    g_label (fun lstart => g_label (fun lend =>
      g_here lstart ;; cg_expr MVal c ;; g_emit OP_JUMPIFNOTANDPOP [PProm lend] ;;
      cg_stmt (Some lend) b ;; g_pop_if b ;; g_emit OP_JUMP [PProm lstart] ;; g_here lend))
  | SDo b c =>                                                                                (* 654-672 *)
    g_label (fun lend => g_count (fun start =>
      cg_stmt (Some lend) b ;; g_pop_if b ;; cg_expr MVal c ;; g_emit OP_JUMPIFANDPOP [PIdx start] ;; g_here lend))
  | SComp ss => cg_stmts brk ss                                                               (* 702-713 *)
  | SReturn e =>                                                                              (* 715-730 *)
    if MAX_TUPLE <? tuple_len e then g_fail else
    cg_expr MRets e ;; g_emit OP_RETURN [PInt (tuple_len e)]
  | SFunc name ps body =>                                                                     (* 304-309 *)
    g_func name (params_len ps) (cg_params 0 ps) (cg_stmt None body) body ;; g_ass name ;; g_pop1
  end
(** codegen.c:674-762, case NODE_COMP of emitInstrForNode. *)
with cg_stmts (brk : option nat) (ss : stmts) {struct ss} : gen :=
  match ss with
  | SNil => g_nil
  | SCons s r => cg_stmt brk s ;; g_pop_if s ;; cg_stmts brk r
  end.

(** codegen.c:764-792 codegen. *)
Definition cg_program (root : stmt) : option (list bevent) :=
  match (cg_stmt None root ;; g_emit OP_EXIT [])%gen O 0 with Some (evs, _, _) => Some evs | None => None end.

(** codegen.c:764-792: The result: [None]: undefined behaviour after a semantic error, [Some RErr]: an error was reported. *)
Definition codegen (root : stmt) : option (res executable) :=
  match cg_program root with
  | None => None
  | Some evs =>
    Some (match build exeb_new evs with ROk b => exeb_finalize b | RErr => RErr | RUB => RUB end)
  end.
