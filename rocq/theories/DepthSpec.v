(** How many values a program holds at once on one frame, told from its tree: [fits M]: never more than [M]. *)
From Coq Require Import ZArith List Bool.
From Verif Require Import Base AstModel CodegenModel.
Import ListNotations.
Open Scope Z_scope.

(** With [a] values below it. The mode says what the expression is for: its value, the results of a function, the results of a call
    for an assignment, or the target of one ([tuple_len] values are then waiting above the [a]). *)
Fixpoint fits_expr (M : Z) (m : mode) (e : expr) (a : Z) {struct e} : bool :=
  match e with
  | EInt _ | EFlt _ | EStr _ | EIdent _ | ENone | ETrue | EFalse => a + 1 <=? M
  | EUn _ x => fits_expr M MVal x a
  | EBin _ x y => fits_expr M MVal x a && fits_expr M MVal y (a + 1)
  | EPair x y =>
    match m with
    | MTgt => fits_expr M MTgt y (a + tuple_len x) && fits_expr M MTgt x a
    | _ => fits_expr M MRets x a && fits_expr M MRets y (a + tuple_len x)
    end
  | EArw _ _ => true
  | EAnd x y | EOr x y => (a + 1 <=? M) && fits_expr M MVal x a && fits_expr M MVal y a
  | EAss lhs rhs => fits_expr M (if tuple_len lhs =? 1 then MVal else MCall (tuple_len lhs)) rhs a && fits_expr M MTgt lhs a
  | ESel set idx =>
    let a' := match m with MTgt => a + 1 | _ => a end in fits_expr M MVal set a' && fits_expr M MVal idx (a' + 1)
  | EList es => (a + 1 <=? M) && fits_items M es (a + 1)
  | EMap ps => (a + 1 <=? M) && fits_pairs M ps (a + 1)
  | ECall f args =>
    (a + exprs_len args + 1 <=? M) && (a + returns_of m <=? M) && fits_args M args a &&
    match f with
    | EArw set idx => fits_expr M MVal set (a + exprs_len args) && fits_expr M MVal idx (a + exprs_len args + 1)
    | _ => fits_expr M MVal f (a + exprs_len args)
    end
  | EFun ps body => (a + 1 <=? M) && fits_params M ps 0 && fits_stmt M body
  end
(** The last argument comes first. *)
with fits_args (M : Z) (es : exprs) (a : Z) {struct es} : bool := match es with ENil => true | ECons e r => fits_args M r a && fits_expr M MVal e (a + exprs_len r) end
(** Above the list: the index, the item. *)
with fits_items (M : Z) (es : exprs) (a : Z) {struct es} : bool := match es with ENil => true | ECons e r => (a + 1 <=? M) && fits_expr M MVal e (a + 1) && fits_items M r a end
with fits_pairs (M : Z) (ps : pairs) (a : Z) {struct ps} : bool :=
  match ps with PNil => true | PCons k v r => fits_expr M MVal k a && fits_expr M MVal v (a + 1) && fits_pairs M r a end
(** The arguments that are not bound yet; a default value replaces its argument, which is compared with none before. *)
with fits_params (M : Z) (ps : params) (a : Z) {struct ps} : bool :=
  match ps with
  | ANil => a <=? M
  | ACons _ ty df r =>
    fits_params M r (a + 1) &&
    match df with OYes d => (a + 3 <=? M) && fits_expr M MVal d a | ONo => true end &&
    match ty with OYes t => fits_expr M MVal t (a + 1) | ONo => true end
  end
(** A statement starts on an empty frame. *)
with fits_stmt (M : Z) (s : stmt) {struct s} : bool :=
  match s with
  | SExpr e => fits_expr M MVal e 0
  | SBreak => true
  | SIf c t => fits_expr M MVal c 0 && fits_stmt M t
  | SIfElse c t f => fits_expr M MVal c 0 && fits_stmt M t && fits_stmt M f
  | SWhile c b => fits_expr M MVal c 0 && fits_stmt M b
  | SDo b c => fits_stmt M b && fits_expr M MVal c 0
  | SComp ss => fits_stmts M ss
  | SReturn e => fits_expr M MRets e 0
  | SFunc _ ps body => fits_params M ps 0 && fits_stmt M body
  end
with fits_stmts (M : Z) (ss : stmts) {struct ss} : bool := match ss with SNil => true | SCons s r => fits_stmt M s && fits_stmts M r end.

(** Programs that call nothing. *)
Fixpoint callfree (e : expr) : bool :=
  match e with
  | EInt _ | EFlt _ | EStr _ | EIdent _ | ENone | ETrue | EFalse => true
  | EUn _ x => callfree x
  | EBin _ x y | EPair x y | EArw x y | EAnd x y | EOr x y | EAss x y | ESel x y => callfree x && callfree y
  | EList es => callfrees es
  | EMap ps => callfree_pairs ps
  | ECall _ _ => false
  | EFun ps body => callfree_params ps && callfree_stmt body
  end
with callfrees (es : exprs) : bool := match es with ENil => true | ECons e r => callfree e && callfrees r end
with callfree_pairs (ps : pairs) : bool := match ps with PNil => true | PCons k v r => callfree k && callfree v && callfree_pairs r end
with callfree_params (ps : params) : bool :=
  match ps with
  | ANil => true
  | ACons _ ty df r => callfree_params r && match df with OYes d => callfree d | ONo => true end && match ty with OYes t => callfree t | ONo => true end
  end
with callfree_stmt (s : stmt) : bool :=
  match s with
  | SExpr e | SReturn e => callfree e
  | SBreak => true
  | SIf c t => callfree c && callfree_stmt t
  | SIfElse c t f => callfree c && callfree_stmt t && callfree_stmt f
  | SWhile c b | SDo b c => callfree c && callfree_stmt b
  | SComp ss => callfree_stmts ss
  | SFunc _ ps body => callfree_params ps && callfree_stmt body
  end
with callfree_stmts (ss : stmts) : bool := match ss with SNil => true | SCons s r => callfree_stmt s && callfree_stmts r end.
