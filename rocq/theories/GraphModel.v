(** Drawing of the syntax tree: src/lib/compiler/graphviz.c, src/lib/diagram.c and the option --diagram-ast of the command
    (src/cli/main.c). Text is a list of bytes. Simplifications: memory is always found; the counter of nodes does not overflow;
    [fg] is the text of a float under the format %g (the C library); the 64-bit numbers passed to the format %d are read by it as
    their low 32 bits, as the System V calling convention does. *)
From Coq Require Import ZArith String List Bool.
From Verif Require Import Base StringModel AstModel ParseModel BuiltinModel ShowModel.
Import ListNotations.
Open Scope list_scope.
Open Scope Z_scope.

(** graphviz.c:54-58 Buffer: the room and the part of it in use. *)
Record gbuf := mkgbuf { b_size : Z; b_used : Z }.
(** graphviz.c:90-113 Buffer_EnsureFreeSpace. *)
Definition ensure (b : gbuf) (num : Z) : gbuf :=
  if b_size b <? b_used b + num then
    let newsize := b_size b * 2 in
    mkgbuf (if newsize <? b_size b + num then b_size b + num else newsize) (b_used b)
  else b.
(** graphviz.c:115-137 Buffer_VAppendF of a text of [len] bytes: the number of bytes vsnprintf stores (line 132: with the NUL,
    no more than the room left), and the buffer after. *)
Definition vappend (b : gbuf) (len : Z) : Z * gbuf :=
  let b := ensure b (len + 1) in
  (Z.min (len + 1) (b_size b - b_used b), mkgbuf (b_size b) (b_used b + len)).

(** graphviz.c:60-63 GraphViz: the two buffers, and the counter that is passed along by address. *)
Record gv := mkgv { g_head : list Z; g_body : list Z; g_count : Z }.

(** graphviz.c:139-148 GraphViz_AppendHead. *)
Definition head (s : list Z) (g : gv) : gv := mkgv (g_head g ++ s) (g_body g) (g_count g).
(** graphviz.c:150-159 GraphViz_AppendBody. *)
Definition body (s : list Z) (g : gv) : gv := mkgv (g_head g) (g_body g ++ s) (g_count g).

(** graphviz.c:205-208 generateName: the text of the name with the number [k]. *)
Definition node_name (k : Z) : list Z := bytes_of "node_" ++ int_text k.
(** graphviz.c:205-208 generateName: the number of the new name. *)
Definition fresh (g : gv) : Z * gv := (g_count g + 1, mkgv (g_head g) (g_body g) (g_count g + 1)).

(** graphviz.c:252, 256, 264, 295 and others: the format of a node, a tab, the name, the label in quotes. *)
Definition node_line (k : Z) (label : list Z) : list Z :=
  9 :: node_name k ++ bytes_of " [label=" ++ 34 :: label ++ [34; 93; 59; 10].
(** graphviz.c:247, 257, 265: the format of an edge. *)
Definition edge_line (a b : Z) : list Z := 9 :: node_name a ++ bytes_of " -> " ++ node_name b ++ [59; 10].

(** graphviz.c:210-240 exprkind_to_label, for one operand. *)
Definition un_label (op : unop) : list Z :=
  match op with UPos => [43] | UNeg => [45] | UNot => [33] | UNlb => bytes_of "Nullable Type" end.
(** graphviz.c:210-240 exprkind_to_label, for two operands. *)
Definition bin_label (op : binop) : list Z :=
  match op with
  | BAdd => [43] | BSub => [45] | BMul => bytes_of "&times;" | BDiv => [47] | BMod => [37]
  | BEql => [61; 61] | BNql => [33; 61] | BLss => [60] | BLeq => [60; 61] | BGrt => [62] | BGeq => [62; 61]
  | BStp => bytes_of "Sum Type"
  end.

(** graphviz.c:318-339: the characters of a string, up to the first NUL, four of them with a backslash. *)
Fixpoint escaped (s : list Z) : list Z :=
  match s with
  | [] => []
  | c :: r =>
    if c =? 0 then []
    else if c =? 34 then 92 :: 34 :: escaped r
    else if c =? 92 then 92 :: 92 :: escaped r
    else if c =? 9 then 92 :: 116 :: escaped r
    else if c =? 10 then 92 :: 110 :: escaped r
    else c :: escaped r
  end.

(** graphviz.c:304: a 64-bit number under the format %d. *)
Definition low32 (z : Z) : Z := (z + 2147483648) mod 4294967296 - 2147483648.

(** graphviz.c:500: the room for the values of a return. *)
Definition RET_ROOM : Z := 32.

Section Draw.
Variable fg : Z -> list Z.

(** graphviz.c:242-248 childToGraphViz, given nodeToGraphViz for the child. *)
Definition child (draw : Z -> gv -> res gv) (parent : Z) (g : gv) : res gv :=
  let (k, g) := fresh g in
  match draw k g with
  | ROk g => ROk (body (edge_line parent k) g)
  | r => r
  end.

(** Sequencing (graphviz.c has no errors to pass on but the one of memory). *)
Definition then_ (r : res gv) (k : gv -> res gv) : res gv :=
  match r with ROk g => k g | RErr => RErr | RUB => RUB end.

(** graphviz.c:274-429 exprToGraphViz. A tuple is drawn as nothing (line 279: UNREACHABLE is empty in release). An arrow node
    is an IndexSelectionExprNode (parse.c:1434-1453, ASTi.h:155-159) read as an OperExprNode (ASTi.h:142-146): its first field,
    the index, is taken for the chain of operands. The arguments of a call and of a function are chained in reverse
    (parse.c:1552-1555, 2054-2056).
    With [tup]: flattenTupleTree (186-203) and the loop over its results (505-506), for the value of a return. *)
Fixpoint d_expr (tup : bool) (e : expr) (name : Z) (g : gv) {struct e} : res gv :=
  let draw := fun name g =>
  match e with
  | EPair _ _ => ROk g
  | EUn op a => child (d_expr false a) name (head (node_line name (un_label op)) g)
  | EBin op a b =>
    then_ (child (d_expr false a) name (head (node_line name (bin_label op)) g)) (child (d_expr false b) name)
  | EAnd a b => then_ (child (d_expr false a) name (head (node_line name (bytes_of "and")) g)) (child (d_expr false b) name)
  | EOr a b => then_ (child (d_expr false a) name (head (node_line name (bytes_of "or")) g)) (child (d_expr false b) name)
  | EAss a b => then_ (child (d_expr false a) name (head (node_line name [61]) g)) (child (d_expr false b) name)
  | EArw _ b => child (d_expr false b) name (head (node_line name [45; 62]) g)
  | EInt z => ROk (head (node_line name (int_text (low32 z))) g)
  | EFlt b => ROk (head (node_line name (fg b)) g)
  | EStr s => ROk (head (node_line name (escaped s)) g)
  | EIdent s => ROk (head (node_line name s) g)
  | EList es => d_list es name (head (node_line name (bytes_of "List")) g)
  | EMap ps => d_map ps name (head (node_line name (bytes_of "Map")) g)
  | ECall f args => then_ (child (d_expr false f) name (head (node_line name (bytes_of "Call")) g)) (d_args args name)
  | EFun ps b =>
    let g := head (node_line name (bytes_of "???")) g in
    let (k, g) := fresh g in
    let g := body (edge_line name k) (head (node_line k (bytes_of "args")) g) in
    then_ (d_params ps k g) (child (d_stmt b) name)
  | ESel a b => then_ (child (d_expr false a) name (head (node_line name (bytes_of "Select")) g)) (child (d_expr false b) name)
  | ENone => ROk (head (node_line name (bytes_of "none")) g)
  | ETrue => ROk (head (node_line name (bytes_of "true")) g)
  | EFalse => ROk (head (node_line name (bytes_of "false")) g)
  end in
  match tup, e with
  | true, EPair a b => then_ (d_expr true a name g) (d_expr true b name)
  | true, _ => child draw name g
  | false, _ => draw name g
  end
(** graphviz.c:354-355, the loop over the items of a list. *)
with d_list (es : exprs) (name : Z) (g : gv) {struct es} : res gv :=
  match es with
  | ENil => ROk g
  | ECons e r => then_ (child (d_expr false e) name g) (d_list r name)
  end
(** graphviz.c:391-396, the loop over the arguments of a call. *)
with d_args (es : exprs) (name : Z) (g : gv) {struct es} : res gv :=
  match es with
  | ENil => ROk g
  | ECons e r => then_ (d_args r name g) (child (d_expr false e) name)
  end
(** graphviz.c:365-380, the loop over the entries of a map. *)
with d_map (ps : pairs) (name : Z) (g : gv) {struct ps} : res gv :=
  match ps with
  | PNil => ROk g
  | PCons k v r =>
    let (n2, g) := fresh g in
    let g := body (edge_line name n2) (head (node_line n2 (bytes_of "Entry")) g) in
    then_ (then_ (child (d_expr false k) n2 g) (child (d_expr false v) n2)) (d_map r name)
  end
(** graphviz.c:259-269, the loop over the arguments of a function. *)
with d_params (ps : params) (name : Z) (g : gv) {struct ps} : res gv :=
  match ps with
  | ANil => ROk g
  | ACons x ty df r =>
    then_ (d_params r name g) (fun g =>
    let (n3, g) := fresh g in
    let g := body (edge_line name n3) (head (node_line n3 x) g) in
    then_ (d_opt df n3 g) (d_opt ty n3))
  end
(** graphviz.c:266-267: a node that may be missing. *)
with d_opt (o : oexpr) (name : Z) (g : gv) {struct o} : res gv :=
  match o with
  | ONo => ROk g
  | OYes e => child (d_expr false e) name g
  end
(** graphviz.c:431-522 nodeToGraphViz. *)
with d_stmt (s : stmt) (name : Z) (g : gv) {struct s} : res gv :=
  match s with
  | SExpr e => d_expr false e name g
  | SBreak => ROk (head (node_line name (bytes_of "break")) g)
  | SIf c t => then_ (child (d_expr false c) name (head (node_line name (bytes_of "if")) g)) (child (d_stmt t) name)
  | SIfElse c t f =>
    then_ (then_ (child (d_expr false c) name (head (node_line name (bytes_of "if-else")) g)) (child (d_stmt t) name)) (child (d_stmt f) name)
  | SWhile c b => then_ (child (d_expr false c) name (head (node_line name (bytes_of "while")) g)) (child (d_stmt b) name)
  | SDo b c => then_ (child (d_expr false c) name (head (node_line name (bytes_of "do-while")) g)) (child (d_stmt b) name)
  | SComp ss => d_stmts ss name (head (node_line name (bytes_of "compound")) g)
  | SReturn e => if RET_ROOM <? tuple_len e then RUB else d_expr true e name (head (node_line name (bytes_of "return")) g)
  | SFunc x ps b =>
    let g := head (node_line name x) (head (node_line name (bytes_of "func")) g) in
    let (k, g) := fresh g in
    let g := body (edge_line name k) (head (node_line k (bytes_of "args")) g) in
    then_ (d_params ps k g) (child (d_stmt b) name)
  end
(** graphviz.c:485-490, the loop over the statements of a compound. *)
with d_stmts (ss : stmts) (name : Z) (g : gv) {struct ss} : res gv :=
  match ss with
  | SNil => ROk g
  | SCons s r => then_ (child (d_stmt s) name g) (d_stmts r name)
  end.

(** graphviz.c:524-544 graphviz, 161-182 GraphViz_Complete. *)
Definition graphviz (root : stmt) : res (list Z) :=
  let (k, g) := fresh (mkgv (bytes_of "digraph G {" ++ [10]) [] 0) in
  match d_stmt root k g with
  | ROk g =>
    let g := body [125; 10] (head [10] g) in
    ROk (g_head g ++ g_body g)
  | RErr => RErr
  | RUB => RUB
  end.

(** diagram.c:8-33 diagramSourceAST and 48-58 diagramStringAST, for a text followed by a NUL; main.c:148-189 writes the result. *)
Definition diagram (src : list Z) : res (list Z) :=
  match parse true src with
  | POk root _ => graphviz root
  | PErr => RErr
  | PUB | PFuel => RUB
  end.
End Draw.
