(** The code of a syntax tree with absolute addresses: what the labels of CodegenModel.v are to be resolved to, and which
    trees the code generator accepts. Used as an intermediate step in the proofs; not a model of code in /repo. *)
From Coq Require Import ZArith List Bool.
From Verif Require Import Base ExeModel AstModel CodegenModel.
Import ListNotations.
Open Scope Z_scope.

Definition instr := (opcode * list operand)%type.

(** Number of instructions. *)
Definition pop_size (s : stmt) : Z := if is_expr s then 1 else 0.

Fixpoint size_expr (m : mode) (e : expr) : Z :=
  match e with
  | EInt _ | EFlt _ | EStr _ | EIdent _ | ENone | ETrue | EFalse => 1
  | EUn _ a => size_expr MVal a + 1
  | EBin _ a b => size_expr MVal a + (size_expr MVal b + 1)
  | EPair a b => match m with MTgt => size_expr MTgt b + (1 + size_expr MTgt a) | _ => size_expr MRets a + size_expr MRets b end
  | EArw _ _ => 0
  | EAnd a b | EOr a b => size_expr MVal a + (1 + (size_expr MVal b + 4))
  | EAss lhs rhs => size_expr (if tuple_len lhs =? 1 then MVal else MCall (tuple_len lhs)) rhs + size_expr MTgt lhs
  | ESel set idx => size_expr MVal set + (size_expr MVal idx + 1)
  | EList es => 1 + size_items es
  | EMap ps => 1 + size_pairs ps
  | ECall f args =>
    size_args args +
    match f with
    | EArw set idx => size_expr MVal set + (size_expr MVal idx + 2)
    | _ => size_expr MVal f + 1
    end
  | EFun ps body => 2 + (size_params ps + (size_stmt body + (pop_size body + 1)))
  end
with size_args (es : exprs) : Z := match es with ENil => 0 | ECons e r => size_args r + size_expr MVal e end
with size_items (es : exprs) : Z := match es with ENil => 0 | ECons e r => 1 + (size_expr MVal e + (1 + size_items r)) end
with size_pairs (ps : pairs) : Z :=
  match ps with PNil => 0 | PCons k v r => size_expr MVal k + (size_expr MVal v + (1 + size_pairs r)) end
with size_params (ps : params) : Z :=
  match ps with
  | ANil => 0
  | ACons _ ty df r =>
    size_params r + ((match df with OYes d => 5 + size_expr MVal d | ONo => 0 end) +
                     ((match ty with OYes t => size_expr MVal t + 1 | ONo => 0 end) + 2))
  end
with size_stmt (s : stmt) : Z :=
  match s with
  | SExpr e => size_expr MVal e
  | SBreak => 1
  | SIf c t => size_expr MVal c + (1 + (size_stmt t + pop_size t))
  | SIfElse c t f => size_expr MVal c + (1 + (size_stmt t + (pop_size t + (1 + (size_stmt f + pop_size f)))))
  | SWhile c b => size_expr MVal c + (1 + (size_stmt b + (pop_size b + 1)))
  | SDo b c => size_stmt b + (pop_size b + (size_expr MVal c + 1))
  | SComp ss => size_stmts ss
  | SReturn e => size_expr MRets e + 1
  | SFunc _ ps body => 2 + (size_params ps + (size_stmt body + (pop_size body + 1))) + 2
  end
with size_stmts (ss : stmts) : Z := match ss with SNil => 0 | SCons s r => size_stmt s + (pop_size s + size_stmts r) end.

Definition i_pop1 : instr := (OP_POP, [PInt 1]).
Definition pop_code (s : stmt) : list instr := if is_expr s then [i_pop1] else [].

(** A function body that starts at [pos]. *)
Definition body_code (ps : Z -> list instr) (sp : Z) (body : Z -> list instr) (s : stmt) (pos : Z) : list instr :=
  ps pos ++ body (pos + sp) ++ pop_code s ++ [(OP_RETURN, [PInt 0])].

Definition func_code (name : list Z) (argc sz : Z) (body : Z -> list instr) (pos : Z) : list instr :=
  [(OP_PUSHFUN, [PIdx (pos + 2); PInt argc; PStr name]); (OP_JUMP, [PIdx (pos + 2 + sz)])] ++ body (pos + 2).

Fixpoint comp_expr (m : mode) (e : expr) (pos : Z) {struct e} : list instr :=
  match e with
  | EInt z => [(OP_PUSHINT, [PInt z])]
  | EFlt b => [(OP_PUSHFLT, [PFlt b])]
  | EStr s => [(OP_PUSHSTR, [PStr s])]
  | EIdent s => match m with MTgt => [(OP_ASS, [PStr s])] | _ => [(OP_PUSHVAR, [PStr s])] end
  | ENone => [(OP_PUSHNNE, [])]
  | ETrue => [(OP_PUSHTRU, [])]
  | EFalse => [(OP_PUSHFLS, [])]
  | EUn op a => comp_expr MVal a pos ++ [(unop_code op, [])]
  | EBin op a b => comp_expr MVal a pos ++ comp_expr MVal b (pos + size_expr MVal a) ++ [(binop_code op, [])]
  | EPair a b =>
    match m with
    | MTgt => comp_expr MTgt b pos ++ [i_pop1] ++ comp_expr MTgt a (pos + size_expr MTgt b + 1)
    | _ => comp_expr MRets a pos ++ comp_expr MRets b (pos + size_expr MRets a)
    end
  | EArw _ _ => []
  | EAnd a b =>
    let l := pos + size_expr MVal a + 1 + size_expr MVal b + 3 in
    comp_expr MVal a pos ++ [(OP_JUMPIFNOTANDPOP, [PIdx l])] ++
    comp_expr MVal b (pos + size_expr MVal a + 1) ++ [(OP_JUMPIFNOTANDPOP, [PIdx l]); (OP_PUSHTRU, []); (OP_JUMP, [PIdx (l + 1)]); (OP_PUSHFLS, [])]
  | EOr a b =>
    let l := pos + size_expr MVal a + 1 + size_expr MVal b + 3 in
    comp_expr MVal a pos ++ [(OP_JUMPIFANDPOP, [PIdx l])] ++
    comp_expr MVal b (pos + size_expr MVal a + 1) ++ [(OP_JUMPIFANDPOP, [PIdx l]); (OP_PUSHFLS, []); (OP_JUMP, [PIdx (l + 1)]); (OP_PUSHTRU, [])]
  | EAss lhs rhs =>
    let mr := if tuple_len lhs =? 1 then MVal else MCall (tuple_len lhs) in
    comp_expr mr rhs pos ++ comp_expr MTgt lhs (pos + size_expr mr rhs)
  | ESel set idx =>
    comp_expr MVal set pos ++ comp_expr MVal idx (pos + size_expr MVal set) ++
    [(match m with MTgt => OP_INSERT2 | _ => OP_SELECT end, [])]
  | EList es => [(OP_PUSHLST, [PInt (exprs_len es)])] ++ comp_items 0 es (pos + 1)
  | EMap ps => [(OP_PUSHMAP, [PInt (pairs_len ps)])] ++ comp_pairs ps (pos + 1)
  | ECall f args =>
    comp_args args pos ++
    match f with
    | EArw set idx =>
      comp_expr MVal set (pos + size_args args) ++ comp_expr MVal idx (pos + size_args args + size_expr MVal set) ++
      [(OP_SELECT2, []); (OP_CALL, [PInt (exprs_len args + 1); PInt (returns_of m)])]
    | _ => comp_expr MVal f (pos + size_args args) ++ [(OP_CALL, [PInt (exprs_len args); PInt (returns_of m)])]
    end
  | EFun ps body =>
    func_code anon_name (params_len ps) (size_params ps + (size_stmt body + (pop_size body + 1)))
      (body_code (comp_params 0 ps) (size_params ps) (comp_stmt 0 body) body) pos
  end
with comp_args (es : exprs) (pos : Z) {struct es} : list instr :=
  match es with ENil => [] | ECons e r => comp_args r pos ++ comp_expr MVal e (pos + size_args r) end
with comp_items (i : Z) (es : exprs) (pos : Z) {struct es} : list instr :=
  match es with
  | ENil => []
  | ECons e r => [(OP_PUSHINT, [PInt i])] ++ comp_expr MVal e (pos + 1) ++ [(OP_INSERT, [])] ++ comp_items (i + 1) r (pos + 1 + size_expr MVal e + 1)
  end
with comp_pairs (ps : pairs) (pos : Z) {struct ps} : list instr :=
  match ps with
  | PNil => []
  | PCons k v r =>
    comp_expr MVal k pos ++ comp_expr MVal v (pos + size_expr MVal k) ++ [(OP_INSERT, [])] ++
    comp_pairs r (pos + size_expr MVal k + size_expr MVal v + 1)
  end
with comp_params (i : Z) (ps : params) (pos : Z) {struct ps} : list instr :=
  match ps with
  | ANil => []
  | ACons name ty df r =>
    let p1 := pos + size_params r in
    let p2 := p1 + match df with OYes d => 5 + size_expr MVal d | ONo => 0 end in
    comp_params (i + 1) r pos ++
    (match df with
     | OYes d =>
       [(OP_PUSHTYP, []); (OP_PUSHNNETYP, []); (OP_EQL, []); (OP_JUMPIFNOTANDPOP, [PIdx p2]); i_pop1] ++ comp_expr MVal d (p1 + 5)
     | ONo => []
     end) ++
    (match ty with
     | OYes t => comp_expr MVal t p2 ++ [(OP_CHECKTYPE, [PInt i; PStr name])]
     | ONo => []
     end) ++
    [(OP_ASS, [PStr name]); i_pop1]
  end
with comp_stmt (brk : Z) (s : stmt) (pos : Z) {struct s} : list instr :=
  match s with
  | SExpr e => comp_expr MVal e pos
  | SBreak => [(OP_JUMP, [PIdx brk])]
  | SIf c t =>
    let p1 := pos + size_expr MVal c + 1 in
    comp_expr MVal c pos ++ [(OP_JUMPIFNOTANDPOP, [PIdx (p1 + size_stmt t + pop_size t)])] ++ comp_stmt brk t p1 ++ pop_code t
  | SIfElse c t f =>
    let p1 := pos + size_expr MVal c + 1 in
    let p2 := p1 + size_stmt t + pop_size t + 1 in
    comp_expr MVal c pos ++ [(OP_JUMPIFNOTANDPOP, [PIdx p2])] ++ comp_stmt brk t p1 ++ pop_code t ++
    [(OP_JUMP, [PIdx (p2 + size_stmt f + pop_size f)])] ++ comp_stmt brk f p2 ++ pop_code f
  | SWhile c b =>
    let p1 := pos + size_expr MVal c + 1 in
    let lend := p1 + size_stmt b + pop_size b + 1 in
    comp_expr MVal c pos ++ [(OP_JUMPIFNOTANDPOP, [PIdx lend])] ++ comp_stmt lend b p1 ++ pop_code b ++ [(OP_JUMP, [PIdx pos])]
  | SDo b c =>
    let p1 := pos + size_stmt b + pop_size b in
    let lend := p1 + size_expr MVal c + 1 in
    comp_stmt lend b pos ++ pop_code b ++ comp_expr MVal c p1 ++ [(OP_JUMPIFANDPOP, [PIdx pos])]
  | SComp ss => comp_stmts brk ss pos
  | SReturn e => comp_expr MRets e pos ++ [(OP_RETURN, [PInt (tuple_len e)])]
  | SFunc name ps body =>
    func_code name (params_len ps) (size_params ps + (size_stmt body + (pop_size body + 1)))
      (body_code (comp_params 0 ps) (size_params ps) (comp_stmt 0 body) body) pos ++
    [(OP_ASS, [PStr name]); i_pop1]
  end
with comp_stmts (brk : Z) (ss : stmts) (pos : Z) {struct ss} : list instr :=
  match ss with
  | SNil => []
  | SCons s r => comp_stmt brk s pos ++ pop_code s ++ comp_stmts brk r (pos + size_stmt s + pop_size s)
  end.

Definition comp_program (root : stmt) : list instr := comp_stmt 0 root 0 ++ [(OP_EXIT, [])].

(** Trees the code generator accepts: no tuple or [->] out of place, assignments to assignable things, no more than 32 elements in
    a tuple, break only in loops ([brk]). *)
Definition value_mode (m : mode) : bool := match m with MVal | MRets => true | _ => false end.

Fixpoint ok_expr (m : mode) (e : expr) : bool :=
  match e with
  | EInt _ | EFlt _ | EStr _ | ENone | ETrue | EFalse => value_mode m
  | EIdent _ => match m with MTgt => true | _ => value_mode m end
  | EUn _ a => value_mode m && ok_expr MVal a
  | EBin _ a b | EAnd a b | EOr a b => value_mode m && (ok_expr MVal a && ok_expr MVal b)
  | EPair a b =>
    match m with
    | MRets => ok_expr MRets a && ok_expr MRets b
    | MTgt => ok_expr MTgt b && ok_expr MTgt a
    | _ => false
    end
  | EArw _ _ => false
  | EAss lhs rhs =>
    value_mode m && (negb (MAX_TUPLE <? tuple_len lhs) &&
      (ok_expr (if tuple_len lhs =? 1 then MVal else MCall (tuple_len lhs)) rhs && ok_expr MTgt lhs))
  | ESel set idx => match m with MCall _ => false | _ => ok_expr MVal set && ok_expr MVal idx end
  | EList es => value_mode m && ok_exprs es
  | EMap ps => value_mode m && ok_pairs ps
  | ECall f args =>
    match m with
    | MTgt => false
    | _ => ok_exprs args && match f with EArw set idx => ok_expr MVal set && ok_expr MVal idx | _ => ok_expr MVal f end
    end
  | EFun ps body => value_mode m && (ok_params ps && ok_stmt false body)
  end
with ok_exprs (es : exprs) : bool := match es with ENil => true | ECons e r => ok_expr MVal e && ok_exprs r end
with ok_pairs (ps : pairs) : bool := match ps with PNil => true | PCons k v r => ok_expr MVal k && (ok_expr MVal v && ok_pairs r) end
with ok_params (ps : params) : bool :=
  match ps with
  | ANil => true
  | ACons _ ty df r =>
    ok_params r && ((match df with OYes d => ok_expr MVal d | ONo => true end) && (match ty with OYes t => ok_expr MVal t | ONo => true end))
  end
with ok_stmt (brk : bool) (s : stmt) : bool :=
  match s with
  | SExpr e => ok_expr MVal e
  | SBreak => brk
  | SIf c t => ok_expr MVal c && ok_stmt brk t
  | SIfElse c t f => ok_expr MVal c && (ok_stmt brk t && ok_stmt brk f)
  | SWhile c b => ok_expr MVal c && ok_stmt true b
  | SDo b c => ok_stmt true b && ok_expr MVal c
  | SComp ss => ok_stmts brk ss
  | SReturn e => negb (MAX_TUPLE <? tuple_len e) && ok_expr MRets e
  | SFunc _ ps body => ok_params ps && ok_stmt false body
  end
with ok_stmts (brk : bool) (ss : stmts) : bool :=
  match ss with SNil => true | SCons s r => ok_stmt brk s && ok_stmts brk r end.

(** Trees whose literals fit the C types of the operands: integers of 64 bits, 64-bit float patterns, C strings. *)
Definition text_ok (s : list Z) : Prop := Forall (fun c => 1 <= c < 256) s.

Fixpoint wf_expr (e : expr) : Prop :=
  match e with
  | EInt z => in_i64 z
  | EFlt b => 0 <= b < 2 ^ 64
  | EStr s | EIdent s => text_ok s
  | ENone | ETrue | EFalse => True
  | EUn _ a => wf_expr a
  | EBin _ a b | EPair a b | EArw a b | EAnd a b | EOr a b | EAss a b | ESel a b => wf_expr a /\ wf_expr b
  | EList es => wf_exprs es
  | EMap ps => wf_pairs ps
  | ECall f args => wf_expr f /\ wf_exprs args
  | EFun ps body => wf_params ps /\ wf_stmt body
  end
with wf_exprs (es : exprs) : Prop := match es with ENil => True | ECons e r => wf_expr e /\ wf_exprs r end
with wf_pairs (ps : pairs) : Prop := match ps with PNil => True | PCons k v r => wf_expr k /\ wf_expr v /\ wf_pairs r end
with wf_params (ps : params) : Prop :=
  match ps with ANil => True | ACons n ty df r => text_ok n /\ wf_oexpr ty /\ wf_oexpr df /\ wf_params r end
with wf_oexpr (o : oexpr) : Prop := match o with ONo => True | OYes e => wf_expr e end
with wf_stmt (s : stmt) : Prop :=
  match s with
  | SExpr e | SReturn e => wf_expr e
  | SBreak => True
  | SIf c t => wf_expr c /\ wf_stmt t
  | SIfElse c t f => wf_expr c /\ wf_stmt t /\ wf_stmt f
  | SWhile c b => wf_expr c /\ wf_stmt b
  | SDo b c => wf_stmt b /\ wf_expr c
  | SComp ss => wf_stmts ss
  | SFunc name ps body => text_ok name /\ wf_params ps /\ wf_stmt body
  end
with wf_stmts (ss : stmts) : Prop := match ss with SNil => True | SCons s r => wf_stmt s /\ wf_stmts r end.
