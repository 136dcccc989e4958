(** Model of the positions in the source: of the nodes (src/lib/compiler/parse.c), of the instructions compiled from them
    (src/lib/compiler/codegen.c) and of the syntax errors. The functions are those of ParseModel.v and CodegenModel.v once more, with the
    positions that are left out there (that they are the same functions is part of C96). Simplification: the offset stored with an error found by the
    code generator is not represented (codegenctx.c:65 stores it through a pointer that is never set: undefined behaviour). *)
From Coq Require Import ZArith List Bool.
From Verif Require Import Base StringModel ExeModel AstModel LexModel ParseModel CodegenModel.
Import ListNotations.
Open Scope Z_scope.

(** ASTi.h:95-100 Node, offset and length. *)
Definition pos := (Z * Z)%type.
(** parse.c:127-130 Token: kind and text, offset and length. *)
Definition ptok := (tok * pos)%type.
(** parse.c:127-130, the tokens without their places. *)
Definition bare (ts : list ptok) : list tok := map fst ts.

(** ASTi.h:36-86 NodeKind and ExprKind with the node structures of lines 88-215 and with the position of each node. *)
Inductive xexpr :=
| XInt (at_ : pos) (z : Z) | XFlt (at_ : pos) (bits : Z) | XStr (at_ : pos) (s : list Z) | XIdent (at_ : pos) (s : list Z)
| XNone (at_ : pos) | XTrue (at_ : pos) | XFalse (at_ : pos)
| XUn (at_ : pos) (op : unop) (e : xexpr) | XBin (at_ : pos) (op : binop) (a b : xexpr)
| XAnd (at_ : pos) (a b : xexpr) | XOr (at_ : pos) (a b : xexpr)
| XAss (at_ : pos) (lhs rhs : xexpr) | XPair (at_ : pos) (a b : xexpr)
| XArw (at_ : pos) (set idx : xexpr) | XSel (at_ : pos) (set idx : xexpr)
| XList (at_ : pos) (items : xexprs) | XMap (at_ : pos) (items : xpairs)
| XCall (at_ : pos) (f : xexpr) (args : xexprs) | XFun (at_ : pos) (ps : xparams) (body : xstmt)
(** ASTi.h:95-100, the chains of nodes linked by [next]. *)
with xexprs := XNil | XCons (e : xexpr) (r : xexprs)
(** ASTi.h:129-134 MapExprNode. *)
with xpairs := XPNil | XPCons (k v : xexpr) (r : xpairs)
(** ASTi.h:203-208 ArgumentNode. *)
with xparams := XANil | XACons (at_ : pos) (name : list Z) (ty df : xoexpr) (r : xparams)
(** ASTi.h:203-208, a pointer to a node that may be NULL. *)
with xoexpr := XNo | XYes (e : xexpr)
(** ASTi.h:36-46 NodeKind, 168-201. *)
with xstmt :=
| XSExpr (e : xexpr) | XBreak (at_ : pos) | XIf (at_ : pos) (c : xexpr) (t : xstmt) | XIfElse (at_ : pos) (c : xexpr) (t f : xstmt)
| XWhile (at_ : pos) (c : xexpr) (b : xstmt) | XDo (at_ : pos) (b : xstmt) (c : xexpr) | XComp (at_ : pos) (ss : xstmts)
| XReturn (at_ : pos) (e : xexpr) | XFunc (at_ : pos) (name : list Z) (ps : xparams) (body : xstmt)
(** ASTi.h:187-190 CompoundNode. *)
with xstmts := XSNil | XSCons (s : xstmt) (r : xstmts).

Scheme xexpr_mut := Induction for xexpr Sort Prop
with xexprs_mut := Induction for xexprs Sort Prop
with xpairs_mut := Induction for xpairs Sort Prop
with xparams_mut := Induction for xparams Sort Prop
with xoexpr_mut := Induction for xoexpr Sort Prop
with xstmt_mut := Induction for xstmt Sort Prop
with xstmts_mut := Induction for xstmts Sort Prop.
Combined Scheme xast_ind from xexpr_mut, xexprs_mut, xpairs_mut, xparams_mut, xoexpr_mut, xstmt_mut, xstmts_mut.

(** ASTi.h:88-215: the tree without the positions. *)
Fixpoint er_expr (e : xexpr) : expr :=
  match e with
  | XInt _ z => EInt z | XFlt _ b => EFlt b | XStr _ s => EStr s | XIdent _ s => EIdent s
  | XNone _ => ENone | XTrue _ => ETrue | XFalse _ => EFalse
  | XUn _ op e => EUn op (er_expr e) | XBin _ op a b => EBin op (er_expr a) (er_expr b)
  | XAnd _ a b => EAnd (er_expr a) (er_expr b) | XOr _ a b => EOr (er_expr a) (er_expr b)
  | XAss _ a b => EAss (er_expr a) (er_expr b) | XPair _ a b => EPair (er_expr a) (er_expr b)
  | XArw _ a b => EArw (er_expr a) (er_expr b) | XSel _ a b => ESel (er_expr a) (er_expr b)
  | XList _ es => EList (er_exprs es) | XMap _ ps => EMap (er_pairs ps)
  | XCall _ f es => ECall (er_expr f) (er_exprs es) | XFun _ ps b => EFun (er_params ps) (er_stmt b)
  end
(** ASTi.h:95-100. *)
with er_exprs (es : xexprs) : exprs := match es with XNil => ENil | XCons e r => ECons (er_expr e) (er_exprs r) end
(** ASTi.h:129-134. *)
with er_pairs (ps : xpairs) : pairs := match ps with XPNil => PNil | XPCons k v r => PCons (er_expr k) (er_expr v) (er_pairs r) end
(** ASTi.h:203-208. *)
with er_params (ps : xparams) : params :=
  match ps with XANil => ANil | XACons _ name ty df r => ACons name (er_oexpr ty) (er_oexpr df) (er_params r) end
(** ASTi.h:203-208. *)
with er_oexpr (o : xoexpr) : oexpr := match o with XNo => ONo | XYes e => OYes (er_expr e) end
(** ASTi.h:168-201. *)
with er_stmt (s : xstmt) : stmt :=
  match s with
  | XSExpr e => SExpr (er_expr e) | XBreak _ => SBreak | XIf _ c t => SIf (er_expr c) (er_stmt t)
  | XIfElse _ c t f => SIfElse (er_expr c) (er_stmt t) (er_stmt f) | XWhile _ c b => SWhile (er_expr c) (er_stmt b)
  | XDo _ b c => SDo (er_stmt b) (er_expr c) | XComp _ ss => SComp (er_stmts ss)
  | XReturn _ e => SReturn (er_expr e) | XFunc _ name ps b => SFunc name (er_params ps) (er_stmt b)
  end
(** ASTi.h:187-190. *)
with er_stmts (ss : xstmts) : stmts := match ss with XSNil => SNil | XSCons s r => SCons (er_stmt s) (er_stmts r) end.

(** ASTi.h:95-100 offset and length. *)
Definition epos (e : xexpr) : pos :=
  match e with
  | XInt p _ | XFlt p _ | XStr p _ | XIdent p _ | XNone p | XTrue p | XFalse p | XUn p _ _ | XBin p _ _ _ | XAnd p _ _ | XOr p _ _
  | XAss p _ _ | XPair p _ _ | XArw p _ _ | XSel p _ _ | XList p _ | XMap p _ | XCall p _ _ | XFun p _ _ => p
  end.
(** ASTi.h:95-100 offset and length. *)
Definition spos (s : xstmt) : pos :=
  match s with
  | XSExpr e => epos e
  | XBreak p | XIf p _ _ | XIfElse p _ _ _ | XWhile p _ _ | XDo p _ _ | XComp p _ | XReturn p _ | XFunc p _ _ _ => p
  end.
(** parse.c:1785 (and the like): where something ends. *)
Definition pend (p : pos) : Z := fst p + snd p.
(** parse.c:1784-1785: from an offset up to an end. *)
Definition upto (off stop : Z) : pos := (off, stop - off).

(** parse.c:567-2357: Outcome of a parsing function; an error is reported with an offset. *)
Inductive qres (A : Type) := QOk (a : A) (ts : list ptok) | QErr (off : Z) | QUB | QFuel.
Arguments QOk {A} a ts. Arguments QErr {A} off. Arguments QUB {A}. Arguments QFuel {A}.
(** parse.c:567-2357: The [if(x == NULL) return NULL;] after each call. *)
Definition qbind {A B} (x : qres A) (f : A -> list ptok -> qres B) : qres B :=
  match x with QOk a ts => f a ts | QErr o => QErr o | QUB => QUB | QFuel => QFuel end.
(** parse.c:542-549 next. *)
Definition qnext {A} (ts : list ptok) (f : list ptok -> qres A) : qres A :=
  match ts with _ :: (t :: r) => f (t :: r) | _ => QUB end.
(** parse.c:481-486: offset and length of the current token. *)
Definition tpos (ts : list ptok) : pos := match ts with (_, p) :: _ => p | [] => (0, 0) end.
(** parse.c:481-486: ctx->token->offset. *)
Definition here (ts : list ptok) : Z := fst (tpos ts).

(** parse.c:1784-1808: the node for an operator. *)
Definition x_binary (k : kind) (l r : xexpr) : xexpr :=
  let p := upto (fst (epos l)) (pend (epos r)) in
  match k with
  | KC c =>
    if c =? 43 then XBin p BAdd l r else if c =? 45 then XBin p BSub l r else if c =? 42 then XBin p BMul l r
    else if c =? 47 then XBin p BDiv l r else if c =? 37 then XBin p BMod l r else if c =? 60 then XBin p BLss l r
    else if c =? 62 then XBin p BGrt l r else if c =? 61 then XAss p l r else if c =? 124 then XBin p BStp l r
    else XPair p l r
  | KLeq => XBin p BLeq l r | KGeq => XBin p BGeq l r | KEql => XBin p BEql l r | KNql => XBin p BNql l r
  | KAnd => XAnd p l r
  | _ => XOr p l r
  end.
(** parse.c:1434-1453 and 1507-1532; [at_]: the place of the brackets. *)
Definition x_index (set : xexpr) (at_ : pos) (items : xexprs) : option xexpr :=
  let p := upto (fst (epos set)) (pend at_) in
  match items with
  | XNil => None
  | XCons i XNil => Some (XSel p set i)
  | _ => Some (XSel p set (XList at_ items))
  end.
(** parse.c:1919-1966: where the last statement ends. *)
Fixpoint last_end (stop : Z) (ss : xstmts) : Z := match ss with XSNil => stop | XSCons s r => last_end (pend (spos s)) r end.
(** parse.c:1960-1961: the place of a compound statement: 0 if it has no statements. *)
Definition comp_pos (ss : xstmts) : pos := match ss with XSNil => (0, 0) | XSCons s r => upto (fst (spos s)) (last_end 0 ss) end.

(** parse.c:1614-1674 parse_prefix_expression. *)
Fixpoint q_prefix (n : nat) (ts : list ptok) {struct n} : qres xexpr :=
  match n with
  | O => QFuel
  | S n =>
    if is_k (bare ts) KDone then QErr (here ts) else
    match prefix_op (cur (bare ts)) with
    | Some u => let off := here ts in qnext ts (fun ts => qbind (q_prefix n ts) (fun e ts => QOk (XUn (upto off (pend (epos e))) u e) ts))
    | None => qbind (q_primary n ts) (fun e ts => q_post n e ts)
    end
  end
(* parse.c:1455-1612: 1464-1608 *)
with q_post (n : nat) (node : xexpr) (ts : list ptok) {struct n} : qres xexpr :=
  match n with
  | O => QFuel
  | S n =>
    if ch (bare ts) 46 || is_k (bare ts) KArw then
      let arrow := is_k (bare ts) KArw in
      qnext ts (fun ts =>
      if negb (is_k (bare ts) KIdent) then QErr (here ts) else
      let idx := XStr (tpos ts) (txt (bare ts)) in
      let p := upto (fst (epos node)) (pend (tpos ts)) in
      let sel := if arrow then XArw p node idx else XSel p node idx in
      qnext ts (fun ts => q_post n sel ts))
    else if ch (bare ts) 91 then
      let off := here ts in
      qnext ts (fun ts =>
      qbind (if ch (bare ts) 93 then QOk XNil ts else q_seq n 93 ts) (fun items ts =>
      let at_ := upto off (pend (tpos ts)) in
      qnext ts (fun ts =>
      match x_index node at_ items with
      | Some sel => q_post n sel ts
      | None => QErr (here ts)
      end)))
    else if ch (bare ts) 40 then
      let off := here ts in
      qnext ts (fun ts =>
      qbind (if ch (bare ts) 41 then QOk XNil ts else q_seq n 41 ts) (fun args ts =>
      let p := upto off (pend (tpos ts)) in
      qnext ts (fun ts => q_post n (XCall p node args) ts)))
    else QOk node ts
  end
(* parse.c:863-955 and 1544-1573: 892-924 and 1544-1573 *)
with q_seq (n : nat) (close : Z) (ts : list ptok) {struct n} : qres xexprs :=
  match n with
  | O => QFuel
  | S n =>
    qbind (q_expr n false true ts) (fun e ts =>
    if ch (bare ts) close then QOk (XCons e XNil) ts
    else if negb (ch (bare ts) 44) then QErr (here ts)
    else qnext ts (fun ts => qbind (q_seq n close ts) (fun r ts => QOk (XCons e r) ts)))
  end
(* parse.c:957-1133: 997-1101 *)
with q_pairs (n : nat) (ts : list ptok) {struct n} : qres xpairs :=
  match n with
  | O => QFuel
  | S n =>
    if is_k (bare ts) KFun then
      qbind (q_fundef n ts) (fun f ts =>
      let '(at_, npos, name, ps, body) := f in
      if ch (bare ts) 125 then QOk (XPCons (XStr npos name) (XFun at_ ps body) XPNil) ts
      else qbind (q_pairs n ts) (fun r ts => QOk (XPCons (XStr npos name) (XFun at_ ps body) r) ts))
    else
      qnext ts (fun ts1 =>
      let single := is_k (bare ts) KIdent && (is_k (bare ts1) KDone || ch (bare ts1) 58) in
      qbind (if single then QOk (XStr (tpos ts) (txt (bare ts))) ts1 else q_expr n false true ts) (fun k ts =>
      if negb (ch (bare ts) 58) then QErr (here ts) else
      qnext ts (fun ts =>
      qbind (q_expr n false true ts) (fun v ts =>
      if ch (bare ts) 125 then QOk (XPCons k v XPNil) ts
      else if negb (ch (bare ts) 44) then QErr (here ts)
      else qnext ts (fun ts => qbind (q_pairs n ts) (fun r ts => QOk (XPCons k v r) ts))))))
  end
(** parse.c:1184-1432 parse_primary_expresion: the node of a string, of none, true and false is made after the token was left (857-859,
    1333-1403), so it gets the place of the next one. *)
with q_primary (n : nat) (ts : list ptok) {struct n} : qres xexpr :=
  match n with
  | O => QFuel
  | S n =>
    match cur (bare ts) with
    | KC c =>
      if c =? 91 then
        let off := here ts in
        qnext ts (fun ts =>
        qbind (if ch (bare ts) 93 then QOk XNil ts else q_seq n 93 ts) (fun items ts =>
        let p := upto off (pend (tpos ts)) in
        qnext ts (fun ts => QOk (XList p items) ts)))
      else if c =? 123 then
        let off := here ts in
        qnext ts (fun ts =>
        if is_k (bare ts) KDone then QErr (here ts) else
        qbind (if ch (bare ts) 125 then QOk XPNil ts else q_pairs n ts) (fun items ts =>
        let p := upto off (pend (tpos ts)) in
        qnext ts (fun ts => QOk (XMap p items) ts)))
      else if c =? 40 then
        qnext ts (fun ts =>
        qbind (q_expr n true true ts) (fun e ts =>
        if negb (ch (bare ts) 41) then QErr (here ts) else
        qnext ts (fun ts => QOk e ts)))
      else QErr (here ts)
    | KInt =>
      if NUM_MAX <=? Z.of_nat (length (txt (bare ts))) then QErr (here ts) else
      let v := dec_value 0 (txt (bare ts)) in
      if 2^63 <=? v then QErr (here ts) else let p := tpos ts in qnext ts (fun ts => QOk (XInt p v) ts)
    | KFloat =>
      if NUM_MAX <=? Z.of_nat (length (txt (bare ts))) then QErr (here ts) else
      let v := flt_value (txt (bare ts)) in let p := tpos ts in qnext ts (fun ts => QOk (XFlt p v) ts)
    | KString =>
      match string_value (txt (bare ts)) with
      | Some v => qnext ts (fun ts => QOk (XStr (tpos ts) v) ts)
      | None => QErr (here ts)
      end
    | KNone => qnext ts (fun ts => QOk (XNone (tpos ts)) ts)
    | KTrue => qnext ts (fun ts => QOk (XTrue (tpos ts)) ts)
    | KFalse => qnext ts (fun ts => QOk (XFalse (tpos ts)) ts)
    | KIdent => let v := txt (bare ts) in let p := tpos ts in qnext ts (fun ts => QOk (XIdent p v) ts)
    | _ => QErr (here ts)
    end
  end
(** parse.c:1822-1833 parse_expression. *)
with q_expr (n : nat) (tup ass : bool) (ts : list ptok) {struct n} : qres xexpr :=
  match n with
  | O => QFuel
  | S n =>
    qbind (q_prefix n ts) (fun l ts =>
    if is_k (bare ts) KDone then QOk l ts else q_expr2 n l (-1000000000) tup ass ts)
  end
(** parse.c:1743-1820 parse_expression_2. *)
with q_expr2 (n : nat) (left : xexpr) (min : Z) (tup ass : bool) (ts : list ptok) {struct n} : qres xexpr :=
  match n with
  | O => QFuel
  | S n =>
    match goes_on (bare ts) min tup ass with
    | None => QOk left ts
    | Some p =>
      let op := cur (bare ts) in
      qnext ts (fun ts =>
      qbind (q_prefix n ts) (fun r ts =>
      qbind (q_inner n p r tup ass ts) (fun r ts =>
      q_expr2 n (x_binary op left r) min tup ass ts)))
    end
  end
(* parse.c:1743-1820: 1759-1770; [p]: the precedence of op *)
with q_inner (n : nat) (p : Z) (right : xexpr) (tup ass : bool) (ts : list ptok) {struct n} : qres xexpr :=
  match n with
  | O => QFuel
  | S n =>
    match precedence (cur (bare ts)) with
    | Some q =>
      if (p <? q) || ((p =? q) && right_assoc (cur (bare ts))) then
        qbind (q_expr2 n right (p + (if p <? q then 1 else 0)) tup ass ts) (fun r ts =>
        if ch (bare ts) 44 && negb tup then QOk r ts else q_inner n p r tup ass ts)
      else QOk right ts
    | None => QOk right ts
    end
  end
(** parse.c:567-690 parse_statement, 692-717 parse_expression_statement, 1835-1917 parse_ifelse_statement (the end is that of the token that
    follows: 1910), 2202-2357 parse_while_statement and parse_dowhile_statement (likewise: 2265, 2352). The missing semicolon of a break is
    reported at the keyword (parse.c:612-617). *)
with q_stmt (n : nat) (ts : list ptok) {struct n} : qres xstmt :=
  match n with
  | O => QFuel
  | S n =>
    let off := here ts in
    if starts_expr (cur (bare ts)) then
      qbind (q_expr n true true ts) (fun e ts =>
      if negb (ch (bare ts) 59) then QErr (here ts) else qnext ts (fun ts => QOk (XSExpr e) ts))
    else
    match cur (bare ts) with
    | KC c =>
      if c =? 123 then
        qnext ts (fun ts =>
        qbind (q_compound n (KC 125) ts) (fun ss ts => qnext ts (fun ts => QOk (XComp (comp_pos ss) ss) ts)))
      else QErr off
    | KIf =>
      qnext ts (fun ts =>
      qbind (q_expr n true true ts) (fun c ts =>
      if negb (ch (bare ts) 58) then QErr (here ts) else
      qnext ts (fun ts =>
      qbind (q_stmt n ts) (fun t ts =>
      if is_k (bare ts) KElse then
        qnext ts (fun ts => qbind (q_stmt n ts) (fun f ts => QOk (XIfElse (upto off (pend (tpos ts))) c t f) ts))
      else QOk (XIf (upto off (pend (tpos ts))) c t) ts))))
    | KBreak =>
      let p := tpos ts in
      qnext ts (fun ts => if negb (ch (bare ts) 59) then QErr off else qnext ts (fun ts => QOk (XBreak p) ts))
    | KReturn =>
      qnext ts (fun ts =>
      qbind (q_expr n true true ts) (fun e ts =>
      if negb (ch (bare ts) 59) then QErr (here ts) else qnext ts (fun ts => QOk (XReturn (upto off (pend (epos e))) e) ts)))
    | KFun =>
      qbind (q_fundef n ts) (fun f ts => let '(at_, npos, name, ps, body) := f in QOk (XFunc at_ name ps body) ts)
    | KWhile =>
      qnext ts (fun ts =>
      qbind (q_expr n true true ts) (fun c ts =>
      if negb (ch (bare ts) 58) then QErr (here ts) else
      qnext ts (fun ts =>
      qbind (q_stmt n ts) (fun b ts => QOk (XWhile (upto off (pend (tpos ts))) c b) ts))))
    | KDo =>
      qnext ts (fun ts =>
      qbind (q_stmt n ts) (fun b ts =>
      if negb (is_k (bare ts) KWhile) then QErr (here ts) else
      qnext ts (fun ts =>
      qbind (q_expr n true true ts) (fun c ts =>
      if negb (ch (bare ts) 59) then QErr (here ts) else qnext ts (fun ts => QOk (XDo (upto off (pend (tpos ts))) b c) ts)))))
    | _ => QErr off
    end
  end
(** parse.c:1919-1966 parse_compound_statement. *)
with q_compound (n : nat) (close : kind) (ts : list ptok) {struct n} : qres xstmts :=
  match n with
  | O => QFuel
  | S n =>
    if is_k (bare ts) close then QOk XSNil ts
    else if is_k (bare ts) KDone then QErr (here ts)
    else qbind (q_stmt n ts) (fun s ts => qbind (q_compound n close ts) (fun r ts => QOk (XSCons s r) ts))
  end
(** parse.c:2089-2200 parse_function_definition: the place of the definition and of the name. *)
with q_fundef (n : nat) (ts : list ptok) {struct n} : qres (pos * pos * list Z * xparams * xstmt) :=
  match n with
  | O => QFuel
  | S n =>
    let off := here ts in
    qnext ts (fun ts =>
    if negb (is_k (bare ts) KIdent) then QErr (here ts) else
    let name := txt (bare ts) in
    let npos := tpos ts in
    qnext ts (fun ts =>
    if negb (ch (bare ts) 40) then QErr (here ts) else
    qnext ts (fun ts =>
    qbind (if ch (bare ts) 41 then QOk XANil ts else q_params n ts) (fun ps ts =>
    qnext ts (fun ts =>
    if is_k (bare ts) KDone then QErr (here ts) else
    qbind (q_stmt n ts) (fun b ts => QOk (upto off (pend (spos b)), npos, name, ps, b) ts))))))
  end
(* parse.c:1968-2087: 1989-2079; the node is made when the token behind it is the current one (2046-2047) *)
with q_params (n : nat) (ts : list ptok) {struct n} : qres xparams :=
  match n with
  | O => QFuel
  | S n =>
    if negb (is_k (bare ts) KIdent) then QErr (here ts) else
    let name := txt (bare ts) in
    qnext ts (fun ts =>
    qbind (if ch (bare ts) 58 then qnext ts (fun ts => qbind (q_expr n false false ts) (fun t ts => QOk (XYes t) ts)) else QOk XNo ts) (fun ty ts =>
    qbind (if ch (bare ts) 61 then qnext ts (fun ts => qbind (q_expr n false true ts) (fun d ts => QOk (XYes d) ts)) else QOk XNo ts) (fun df ts =>
    let p := tpos ts in
    if ch (bare ts) 41 then QOk (XACons p name ty df XANil) ts
    else if negb (ch (bare ts) 44) then QErr (here ts)
    else qnext ts (fun ts => qbind (q_params n ts) (fun r ts => QOk (XACons p name ty df r) ts)))))
  end.

(** parse.c:440-479 parse. *)
Definition q_tokens (ts : list ptok) : qres xstmt :=
  qbind (q_compound (parse_fuel (bare ts)) KDone ts) (fun ss ts => QOk (XComp (comp_pos ss) ss) ts).
(** parse.c:456-467: the tokens handed to parse_compound_statement. *)
Definition with_pos (src : list Z) (l : list token) : list ptok := map (fun t => (t_kind t, text_of src t, (t_off t, t_len t))) l.
(** parse.c:440-479 parse; the only error of the tokenizer, a string that does not end, is reported at the end of the text (parse.c:304-309). *)
Definition parse_at (nul : bool) (src : list Z) : qres xstmt :=
  match tokenize nul src with
  | LOk l => q_tokens (with_pos src l)
  | LErr => QErr (Z.of_nat (length src))
  | LUB => QUB
  | LFuel => QFuel
  end.

(** * Instructions *)
(** codegenctx.c:141-147 CodegenContext_EmitInstr. *)
Definition h_emit (p : pos) (op : opcode) (ops : list operand) : gen := fun n i => Some ([EvEmit op ops (fst p) (snd p)], n, i + 1).
(** codegen.c:64-67 emitInstr_POP1. *)
Definition h_pop1 (p : pos) : gen := h_emit p OP_POP [PInt 1].
(** codegen.c:69-75 emitInstr_ASS. *)
Definition h_ass (p : pos) (name : list Z) : gen := h_emit p OP_ASS [PStr name].
(** codegen.c:282, 607, 644: emitInstr_POP1 after an expression statement. *)
Definition h_pop_if (p : pos) (s : xstmt) : gen := if is_expr (er_stmt s) then h_pop1 p else g_nil.

(** codegen.c:258-302 emitInstrForFuncExprNode, given the code of the parameters and of the body. *)
Definition h_func (p : pos) (name : list Z) (argc : Z) (ps : gen) (body : gen) (s : xstmt) : gen :=
  g_label (fun lf => g_label (fun lj =>
    h_emit p OP_PUSHFUN [PProm lf; PInt argc; PStr name] ;;
    h_emit p OP_JUMP [PProm lj] ;;
    g_here lf ;; ps ;; body ;; h_pop_if (pend (spos s), 0) s ;; h_emit (fst (spos s), 0) OP_RETURN [PInt 0] ;; g_here lj))%gen.

(** codegen.c:331-386, 715-730: what the code of an expression is wanted for; the offset of the assignment is used between its targets (383). *)
Inductive hmode := HVal | HRets | HCall (n : Z) | HTgt (off : Z).
(** codegen.c:331-386, 715-730, without the offset. *)
Definition er_mode (m : hmode) : mode := match m with HVal => MVal | HRets => MRets | HCall n => MCall n | HTgt _ => MTgt end.

(** codegen.c:388-595 emitInstrForExprNode, with 197-256 and 311-386. *)
Fixpoint h_expr (m : hmode) (e : xexpr) {struct e} : gen :=
  match e with
  | XInt p z => for_value (er_mode m) (h_emit p OP_PUSHINT [PInt z])                          (* 493-499 *)
  | XFlt p b => for_value (er_mode m) (h_emit p OP_PUSHFLT [PFlt b])                          (* 501-507 *)
  | XStr p s => for_value (er_mode m) (h_emit p OP_PUSHSTR [PStr s])                          (* 509-515 *)
  | XIdent p s =>
    match m with
    | HTgt _ => h_ass p s                                                                     (* 360-365 *)
    | _ => for_value (er_mode m) (h_emit p OP_PUSHVAR [PStr s])                               (* 517-523 *)
    end
  | XNone p => for_value (er_mode m) (h_emit p OP_PUSHNNE [])                                 (* 589-591 *)
  | XTrue p => for_value (er_mode m) (h_emit p OP_PUSHTRU [])
  | XFalse p => for_value (er_mode m) (h_emit p OP_PUSHFLS [])
  | XUn p op a => for_value (er_mode m) (h_expr HVal a ;; h_emit p (unop_code op) [])         (* 400-415 *)
  | XBin p op a b => for_value (er_mode m) (h_expr HVal a ;; h_expr HVal b ;; h_emit p (binop_code op) [])
  | XPair p a b =>
    match m with
    | HRets => h_expr HRets a ;; h_expr HRets b                                               (* 311-329, 726-727 *)
    | HTgt off => h_expr m b ;; h_pop1 (off, 0) ;; h_expr m a                                 (* 354-385 *)
    | _ => g_fail                                                                             (* 393-398, 349-352 *)
    end
  | XArw _ _ _ => g_fail                                                                      (* 417-420 *)
  | XAnd p a b =>                                                                             (* 422-451 *)
    for_value (er_mode m) (g_label (fun lend => g_label (fun lfalse =>
      h_expr HVal a ;; h_emit p OP_JUMPIFNOTANDPOP [PProm lfalse] ;;
      h_expr HVal b ;; h_emit p OP_JUMPIFNOTANDPOP [PProm lfalse] ;;
      h_emit p OP_PUSHTRU [] ;; h_emit p OP_JUMP [PProm lend] ;;
      g_here lfalse ;; h_emit p OP_PUSHFLS [] ;; g_here lend)))
  | XOr p a b =>                                                                              (* 453-483 *)
    for_value (er_mode m) (g_label (fun lend => g_label (fun ltrue =>
      h_expr HVal a ;; h_emit p OP_JUMPIFANDPOP [PProm ltrue] ;;
      h_expr HVal b ;; h_emit p OP_JUMPIFANDPOP [PProm ltrue] ;;
      h_emit p OP_PUSHFLS [] ;; h_emit p OP_JUMP [PProm lend] ;;
      g_here ltrue ;; h_emit p OP_PUSHTRU [] ;; g_here lend)))
  | XAss p lhs rhs =>                                                                         (* 331-386 *)
    for_value (er_mode m)
      (if MAX_TUPLE <? tuple_len (er_expr lhs) then g_fail else
       h_expr (if tuple_len (er_expr lhs) =? 1 then HVal else HCall (tuple_len (er_expr lhs))) rhs ;; h_expr (HTgt (fst p)) lhs)
  | XSel p set idx =>
    match m with
    | HTgt _ => h_expr HVal set ;; h_expr HVal idx ;; h_emit p OP_INSERT2 []                  (* 367-375 *)
    | _ => for_value (er_mode m) (h_expr HVal set ;; h_expr HVal idx ;; h_emit p OP_SELECT [])  (* 570-577 *)
    end
  | XList p es => for_value (er_mode m) (h_emit p OP_PUSHLST [PInt (exprs_len (er_exprs es))] ;; h_items 0 es)   (* 525-552 *)
  | XMap p ps => for_value (er_mode m) (h_emit p OP_PUSHMAP [PInt (pairs_len (er_pairs ps))] ;; h_pairs ps)      (* 554-575 *)
  | XCall p f args =>                                                                         (* 197-229, 562-564 *)
    match m with
    | HTgt _ => g_fail
    | _ =>
      h_args args ;;
      match f with
      | XArw q set idx =>
        h_expr HVal set ;; h_expr HVal idx ;; h_emit q OP_SELECT2 [] ;;
        h_emit p OP_CALL [PInt (exprs_len (er_exprs args) + 1); PInt (returns_of (er_mode m))]
      | _ => h_expr HVal f ;; h_emit p OP_CALL [PInt (exprs_len (er_exprs args)); PInt (returns_of (er_mode m))]
      end
    end
  | XFun p ps body =>                                                                         (* 566-568 *)
    for_value (er_mode m) (h_func p anon_name (params_len (er_params ps)) (h_params 0 ps) (h_stmt None body) body)
  end
(** codegen.c:200-205: the arguments, last one first. *)
with h_args (es : xexprs) : gen :=
  match es with XNil => g_nil | XCons e r => h_args r ;; h_expr HVal e end
(** codegen.c:539-551. *)
with h_items (i : Z) (es : xexprs) {struct es} : gen :=
  match es with
  | XNil => g_nil
  | XCons e r => h_emit (epos e) OP_PUSHINT [PInt i] ;; h_expr HVal e ;; h_emit (epos e) OP_INSERT [] ;; h_items (i + 1) r
  end
(** codegen.c:566-574. *)
with h_pairs (ps : xpairs) : gen :=
  match ps with
  | XPNil => g_nil
  | XPCons k v r => h_expr HVal k ;; h_expr HVal v ;; h_emit (epos v) OP_INSERT [] ;; h_pairs r
  end
(** codegen.c:274-280: the parameters, last one first. *)
with h_params (i : Z) (ps : xparams) {struct ps} : gen :=
  match ps with
  | XANil => g_nil
  | XACons p name ty df r =>                                                                  (* 234-256 *)
    h_params (i + 1) r ;;
    (match df with
     | XYes d =>
       g_label (fun l =>
         h_emit (epos d) OP_PUSHTYP [] ;; h_emit (epos d) OP_PUSHNNETYP [] ;; h_emit (epos d) OP_EQL [] ;; h_emit (epos d) OP_JUMPIFNOTANDPOP [PProm l] ;;
         h_pop1 (epos d) ;; h_expr HVal d ;; g_here l)
     | XNo => g_nil
     end) ;;
    (match ty with
     | XYes t => h_expr HVal t ;; h_emit (epos t) OP_CHECKTYPE [PInt i; PStr name]
     | XNo => g_nil
     end) ;;
    h_ass p name ;; h_pop1 p
  end
(** codegen.c:674-742 emitInstrForNode. *)
with h_stmt (brk : option nat) (s : xstmt) {struct s} : gen :=
  match s with
  | XSExpr e => h_expr HVal e
  | XBreak p => match brk with Some l => h_emit p OP_JUMP [PProm l] | None => g_fail end      (* 684-688 *)
  | XIf p c t =>                                                                              (* 618-626 *)
    h_expr HVal c ;;
    g_label (fun ldone =>
      h_emit (epos c) OP_JUMPIFNOTANDPOP [PProm ldone] ;; h_stmt brk t ;; h_pop_if (fst (spos t), 0) t ;; g_here ldone)
  | XIfElse p c t f =>                                                                        (* 600-617 *)
    h_expr HVal c ;;
    g_label (fun lelse => g_label (fun ldone =>
      h_emit (epos c) OP_JUMPIFNOTANDPOP [PProm lelse] ;; h_stmt brk t ;; h_pop_if (fst (spos t), 0) t ;; h_emit p OP_JUMP [PProm ldone] ;;
      g_here lelse ;; h_stmt brk f ;; h_pop_if (fst (spos f), 0) f ;; g_here ldone))
  | XWhile p c b =>                                                                           (* 629-652 *)
    g_label (fun lstart => g_label (fun lend =>
      g_here lstart ;; h_expr HVal c ;; h_emit (epos c) OP_JUMPIFNOTANDPOP [PProm lend] ;;
      h_stmt (Some lend) b ;; h_pop_if (fst (spos b), 0) b ;; h_emit p OP_JUMP [PProm lstart] ;; g_here lend))
  | XDo p b c =>                                                                              (* 654-672 *)
    g_label (fun lend => g_count (fun start =>
      h_stmt (Some lend) b ;; h_pop_if (fst (spos b), 0) b ;; h_expr HVal c ;; h_emit (epos c) OP_JUMPIFANDPOP [PIdx start] ;; g_here lend))
  | XComp p ss => h_stmts brk ss                                                              (* 702-713 *)
  | XReturn p e =>                                                                            (* 715-730 *)
    if MAX_TUPLE <? tuple_len (er_expr e) then g_fail else
    h_expr HRets e ;; h_emit p OP_RETURN [PInt (tuple_len (er_expr e))]
  | XFunc p name ps body =>                                                                   (* 304-309 *)
    h_func p name (params_len (er_params ps)) (h_params 0 ps) (h_stmt None body) body ;; h_ass p name ;; h_pop1 p
  end
(** codegen.c:674-762, case NODE_COMP of emitInstrForNode. *)
with h_stmts (brk : option nat) (ss : xstmts) {struct ss} : gen :=
  match ss with
  | XSNil => g_nil
  | XSCons s r => h_stmt brk s ;; h_pop_if (fst (spos s), 0) s ;; h_stmts brk r
  end.

(** codegen.c:764-792 codegen; [size]: of the text. *)
Definition h_program (size : Z) (root : xstmt) : option (list bevent) :=
  match (h_stmt None root ;; h_emit (size, 0) OP_EXIT [])%gen O 0 with Some (evs, _, _) => Some evs | None => None end.

(** compile.c:4-43: what comes of a text: an executable; an error and its offset ([None]: one found when the executable was built); undefined behaviour. *)
Inductive made_of := MExe (x : executable) | MErr (off : option Z) | MUB.
(** compile.c:4-43 compile. *)
Definition compile_at (src : list Z) : made_of :=
  match parse_at true src with
  | QOk root _ =>
    match h_program (Z.of_nat (length src)) root with
    | Some evs =>
      match build exeb_new evs with
      | ROk b => match exeb_finalize b with ROk x => MExe x | RErr => MErr None | RUB => MUB end
      | RErr => MErr None
      | RUB => MUB
      end
    | None => MUB
    end
  | QErr off => MErr (Some off)
  | QUB | QFuel => MUB
  end.
