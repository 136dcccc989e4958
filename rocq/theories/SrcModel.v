(** Direct evaluation of syntax trees: the reference the bytecode is compared with (C29). It has no stack, no instruction
    index, no labels and no interpreter limits; it uses the object operations of ObjModel.v and the operators of VmModel.v.
    It corresponds to no function of /repo: it is the specification of what a program means.
    Evaluation recurses on the tree; each loop iteration and each call consumes one unit of fuel. *)
From Coq Require Import ZArith List Lia Bool.
From Verif Require Import Base StringModel ValueModel MapModel ListModel ExeModel ArithModel ObjModel AstModel CodegenModel VmModel.
Import ListNotations.
Open Scope Z_scope.

(** (specification; the code it is compared with: runtime.c:74-90): State: the store and the table of function codes: parameters and body. *)
Record sst := mkst { t_mem : mem; t_codes : list (params * stmt) }.

(** (specification; the code it is compared with: runtime.c:51-72): The scope a piece of code runs in. *)
Record scope := mksc { sc_locals : value; sc_clo : option value }.

(** (specification; the code it is compared with: codegen.c:674-762): How a statement ends. *)
Inductive sig := SigNext | SigBreak | SigRet (vs : list value).

Notation "'do' x <- a ; b" := (obind a (fun x => b)) (at level 200, x pattern, a at level 100, b at level 200).

(** (specification; the code it is compared with: run.c:495-1080). *)
Definition one (v : value) (st : sst) : out (list value * sst) := OOk ([v], st).
(** (specification; the code it is compared with: run.c:495-1080). *)
Definition put_mem (st : sst) (m : mem) : sst := mkst m (t_codes st).

Section Src.
Variable E : env.

(** (specification; the code it is compared with: codegen.c:258-302, run.c:159-194): A function object for the code (ps, body), closed over the current scope. *)
Definition new_function (sc : scope) (st : sst) (ps : params) (body : stmt) : value * sst :=
  let (c, m1) := alloc (t_mem st) (OClosure (sc_clo sc) (sc_locals sc)) in
  let (fn, m2) := alloc m1 (OFun (length (t_codes st)) c) in
  (fn, mkst m2 (t_codes st ++ [(ps, body)])).

Section Again.
(** Evaluation with less fuel: of a loop statement, and of a function body on arguments. *)
Variable again_stmt : stmt -> scope -> sst -> out (sig * sst).
Variable again_call : params -> stmt -> list value -> value -> sst -> out (list value * sst).

(** (specification; the code it is compared with: codegen.c:197-229, run.c:41-157, 207-320): Calling [callee] with [args] when [want] results are wanted. *)
Definition call (callee : value) (args : list value) (want : Z) (st : sst) : out (list value * sst) :=
  match callee with
  | VRef l =>
    match nth_error (m_objs (t_mem st)) l with
    | Some (OFun c clo) =>
      match nth_error (t_codes st) c with
      | Some (ps, body) =>
        do (rets, st1) <- again_call ps body (adjust (params_len ps) args) clo st;
        do vs <- results want rets;
        OOk (vs, st1)
      | None => OUB
      end
    | Some (ONative id argc) =>
      do (rets, m) <- e_native E id (if argc <? 0 then args else adjust argc args) (t_mem st);
      do vs <- results want rets;
      OOk (vs, put_mem st m)
    | Some _ => OErr
    | None => OUB
    end
  | _ => OErr
  end.

(** (specification; the code it is compared with: codegen.c:388-595, run.c:495-1080): Values of an expression. In mode [MVal] one value; in mode [MRets] the values of a tuple; in mode [MCall n] the [n] results
    of a call; in mode [MTgt] the values [vs] are stored into the targets and the first one is the result. *)
Fixpoint eval (m : mode) (e : expr) (vs : list value) (sc : scope) (st : sst) {struct e} : out (list value * sst) :=
  match e with
  | EInt z => one (VInt z) st
  | EFlt b => one (VFloat b) st
  | EStr s => do v <- vstring s; one v st
  | EIdent name =>
    match m with
    | MTgt =>
      match vs with
      | [v] => do mm <- set_var E (t_mem st) (sc_locals sc) name v; OOk ([v], put_mem st mm)
      | _ => OUB
      end
    | _ =>
      do (r, mm) <- get_var E (t_mem st) (sc_locals sc) (sc_clo sc) name;
      match r with Some v => one v (put_mem st mm) | None => OErr end
    end
  | ENone => one VNone st
  | ETrue => one (VBool true) st
  | EFalse => one (VBool false) st
  | EUn op a =>
    do (x, st1) <- eval MVal a [] sc st;
    match x with
    | [v] => do (r, mm) <- unary_op (unop_code op) (t_mem st1) v; one r (put_mem st1 mm)
    | _ => OUB
    end
  | EBin op a b =>
    do (x, st1) <- eval MVal a [] sc st;
    do (y, st2) <- eval MVal b [] sc st1;
    match x, y with
    | [v], [w] => do (r, mm) <- binary_op (binop_code op) (t_mem st2) v w; one r (put_mem st2 mm)
    | _, _ => OUB
    end
  | EAnd a b =>
    do (x, st1) <- eval MVal a [] sc st;
    match x with
    | [VBool false] => one (VBool false) st1
    | [VBool true] =>
      do (y, st2) <- eval MVal b [] sc st1;
      match y with [VBool r] => one (VBool r) st2 | [_] => OErr | _ => OUB end
    | [_] => OErr
    | _ => OUB
    end
  | EOr a b =>
    do (x, st1) <- eval MVal a [] sc st;
    match x with
    | [VBool true] => one (VBool true) st1
    | [VBool false] =>
      do (y, st2) <- eval MVal b [] sc st1;
      match y with [VBool r] => one (VBool r) st2 | [_] => OErr | _ => OUB end
    | [_] => OErr
    | _ => OUB
    end
  | EAss lhs rhs =>
    do (x, st1) <- eval (if tuple_len lhs =? 1 then MVal else MCall (tuple_len lhs)) rhs [] sc st;
    eval MTgt lhs x sc st1
  | EPair a b =>
    match m with
    | MTgt =>
      do (x, st1) <- eval MTgt b (skipn (Z.to_nat (tuple_len a)) vs) sc st;
      eval MTgt a (firstn (Z.to_nat (tuple_len a)) vs) sc st1
    | _ =>
      do (x, st1) <- eval MRets a [] sc st;
      do (y, st2) <- eval MRets b [] sc st1;
      OOk (x ++ y, st2)
    end
  | EArw _ _ => OUB
  | ESel set idx =>
    do (x, st1) <- eval MVal set [] sc st;
    do (y, st2) <- eval MVal idx [] sc st1;
    match x, y with
    | [col], [key] =>
      match m with
      | MTgt =>
        match vs with
        | [v] => do mm <- insert_of E (t_mem st2) col key v; OOk ([v], put_mem st2 mm)
        | _ => OUB
        end
      | _ => do (r, mm) <- select_or_none E (t_mem st2) col key; one r (put_mem st2 mm)
      end
    | _, _ => OUB
    end
  | EList es =>
    let (l, mm) := alloc (t_mem st) (OList (new_list (wrap32 (exprs_len es)))) in
    do st1 <- eval_items l 0 es sc (put_mem st mm);
    one l st1
  | EMap ps =>
    let (l, mm) := alloc (t_mem st) (OMap (new_map (wrap32 (pairs_len ps)))) in
    do st1 <- eval_pairs l ps sc (put_mem st mm);
    one l st1
  | ECall f args =>
    do (xs, st1) <- eval_args args sc st;
    match f with
    | EArw set idx =>
      do (x, st2) <- eval MVal set [] sc st1;
      do (y, st3) <- eval MVal idx [] sc st2;
      match x, y with
      | [self], [key] =>
        do (fn, mm) <- select_or_none E (t_mem st3) self key;
        call fn (self :: xs) (returns_of m) (put_mem st3 mm)
      | _, _ => OUB
      end
    | _ =>
      do (x, st2) <- eval MVal f [] sc st1;
      match x with
      | [fn] => call fn xs (returns_of m) st2
      | _ => OUB
      end
    end
  | EFun ps body => let (fn, st1) := new_function sc st ps body in one fn st1
  end
(** (specification; the code it is compared with: codegen.c:197-229): Arguments are evaluated from the last to the first. *)
with eval_args (es : exprs) (sc : scope) (st : sst) : out (list value * sst) :=
  match es with
  | ENil => OOk ([], st)
  | ECons e r =>
    do (xs, st1) <- eval_args r sc st;
    do (x, st2) <- eval MVal e [] sc st1;
    OOk (x ++ xs, st2)
  end
(** (specification; the code it is compared with: codegen.c:388-595, case EXPR_LIST). *)
with eval_items (l : value) (i : Z) (es : exprs) (sc : scope) (st : sst) {struct es} : out sst :=
  match es with
  | ENil => OOk st
  | ECons e r =>
    do (x, st1) <- eval MVal e [] sc st;
    match x with
    | [v] => do mm <- insert_of E (t_mem st1) l (VInt i) v; eval_items l (i + 1) r sc (put_mem st1 mm)
    | _ => OUB
    end
  end
(** (specification; the code it is compared with: codegen.c:388-595, case EXPR_MAP). *)
with eval_pairs (l : value) (ps : pairs) (sc : scope) (st : sst) {struct ps} : out sst :=
  match ps with
  | PNil => OOk st
  | PCons k e r =>
    do (x, st1) <- eval MVal k [] sc st;
    do (y, st2) <- eval MVal e [] sc st1;
    match x, y with
    | [key], [v] => do mm <- insert_of E (t_mem st2) l key v; eval_pairs l r sc (put_mem st2 mm)
    | _, _ => OUB
    end
  end.

(** (specification; the code it is compared with: codegen.c:234-256): Binding parameters to arguments, from the last to the first: default value for none, type test, assignment. *)
Fixpoint bind_params (ps : params) (args : list value) (sc : scope) (st : sst) {struct ps} : out sst :=
  match ps, args with
  | ANil, [] => OOk st
  | ACons name ty df r, v :: rest =>
    do st1 <- bind_params r rest sc st;
    do (v2, st2) <-
      match df with
      | ONo => OOk (v, st1)
      | OYes d =>
        do c <- compare_op (t_mem st1) false (VType (type_of (rt_of (m_objs (t_mem st1))) v)) (VType TyNone);
        match c with
        | VBool true => do (x, st2) <- eval MVal d [] sc st1; match x with [w] => OOk (w, st2) | _ => OUB end
        | _ => OOk (v, st1)
        end
      end;
    do st3 <-
      match ty with
      | ONo => OOk st2
      | OYes t =>
        do (x, st3) <- eval MVal t [] sc st2;
        match x with
        | [typ] => do (ok, mm) <- is_type (t_mem st3) typ v2; if ok : bool then OOk (put_mem st3 mm) else OErr
        | _ => OUB
        end
      end;
    do mm <- set_var E (t_mem st3) (sc_locals sc) name v2;
    OOk (put_mem st3 mm)
  | _, _ => OUB
  end.

(** (specification; the code it is compared with: codegen.c:674-762): Statements. *)
Fixpoint run_stmt (s : stmt) (sc : scope) (st : sst) {struct s} : out (sig * sst) :=
  match s with
  | SExpr e => do (_, st1) <- eval MVal e [] sc st; OOk (SigNext, st1)
  | SBreak => OOk (SigBreak, st)
  | SIf c t =>
    do (x, st1) <- eval MVal c [] sc st;
    match x with
    | [VBool true] => run_stmt t sc st1
    | [VBool false] => OOk (SigNext, st1)
    | [_] => OErr
    | _ => OUB
    end
  | SIfElse c t f =>
    do (x, st1) <- eval MVal c [] sc st;
    match x with
    | [VBool true] => run_stmt t sc st1
    | [VBool false] => run_stmt f sc st1
    | [_] => OErr
    | _ => OUB
    end
  | SWhile c b =>
    do (x, st1) <- eval MVal c [] sc st;
    match x with
    | [VBool false] => OOk (SigNext, st1)
    | [VBool true] =>
      do (g, st2) <- run_stmt b sc st1;
      match g with
      | SigNext => again_stmt s sc st2
      | SigBreak => OOk (SigNext, st2)
      | SigRet vs => OOk (SigRet vs, st2)
      end
    | [_] => OErr
    | _ => OUB
    end
  | SDo b c =>
    do (g, st1) <- run_stmt b sc st;
    match g with
    | SigNext =>
      do (x, st2) <- eval MVal c [] sc st1;
      match x with
      | [VBool true] => again_stmt s sc st2
      | [VBool false] => OOk (SigNext, st2)
      | [_] => OErr
      | _ => OUB
      end
    | SigBreak => OOk (SigNext, st1)
    | SigRet vs => OOk (SigRet vs, st1)
    end
  | SComp ss => run_stmts ss sc st
  | SReturn e => do (vs, st1) <- eval MRets e [] sc st; OOk (SigRet vs, st1)
  | SFunc name ps body =>
    let (fn, st1) := new_function sc st ps body in
    do mm <- set_var E (t_mem st1) (sc_locals sc) name fn;
    OOk (SigNext, put_mem st1 mm)
  end
(** (specification; the code it is compared with: codegen.c:674-762, case NODE_COMP). *)
with run_stmts (ss : stmts) (sc : scope) (st : sst) {struct ss} : out (sig * sst) :=
  match ss with
  | SNil => OOk (SigNext, st)
  | SCons s r =>
    do (g, st1) <- run_stmt s sc st;
    match g with
    | SigNext => run_stmts r sc st1
    | _ => OOk (g, st1)
    end
  end.

(** What a body that ended with [g] returns. An error left pending makes the call fail (run.c:1104). *)
Definition body_results (g : sig) (fallthrough : list value) (st : sst) : out (list value * sst) :=
  if m_pend (t_mem st) then OErr else
  match g with
  | SigNext => OOk (fallthrough, st)
  | SigRet vs => OOk (vs, st)
  | SigBreak => OUB
  end.

(** (specification; the code it is compared with: run.c:41-157, 1107-1132): A call: fresh variables, parameters bound, body run. *)
Definition run_call (ps : params) (body : stmt) (args : list value) (clo : value) (st : sst) : out (list value * sst) :=
  let (loc, mm) := alloc (t_mem st) (OMap (new_map (-1))) in
  let sc := mksc loc (Some clo) in
  do st1 <- bind_params ps args sc (put_mem st mm);
  do (g, st2) <- run_stmt body sc st1;
  body_results g [] st2.

End Again.

(** (specification; the code it is compared with: run.c:1082-1105): Evaluation with fuel [n]. *)
Fixpoint run_stmt_n (n : nat) (s : stmt) (sc : scope) (st : sst) {struct n} : out (sig * sst) :=
  match n with
  | O => OFuel
  | S n' => run_stmt (run_stmt_n n') (run_call_n n') s sc st
  end
(** (specification; the code it is compared with: run.c:1082-1105). *)
with run_call_n (n : nat) (ps : params) (body : stmt) (args : list value) (clo : value) (st : sst) {struct n} : out (list value * sst) :=
  match n with
  | O => OFuel
  | S n' => run_call (run_stmt_n n') (run_call_n n') ps body args clo st
  end.

(** A whole program on a store: its results are those of a top-level return, or else its variables (run.c:1032-1040 EXIT). *)
Definition run_program (n : nat) (root : stmt) (m : mem) : out (list value * sst) :=
  let (loc, mm) := alloc m (OMap (new_map (-1))) in
  do (g, st) <- run_stmt_n n root (mksc loc None) (mkst mm []);
  body_results g [loc] st.

End Src.
