(** Model of the parser (src/lib/compiler/parse.c:440-2357). The tokens are a list of kinds with their texts, the end token
    included. Simplifications: allocation never fails; token offsets and lengths fit an int; node positions are not represented (AstModel.v); the C recursion is
    bounded by fuel ([PFuel]: never reached, see C44). *)
From Coq Require Import ZArith List Bool.
From Coq Require Import Floats.SpecFloat.
From Verif Require Import Base FloatModel AstModel LexModel.
Import ListNotations.
Open Scope Z_scope.

(** parse.c:125-130 Token, with the text it covers in place of offset and length. *)
Definition tok := (kind * list Z)%type.

(** parse.c:567-2357: Outcome of a parsing function: a node and the remaining tokens; an error reported; [PUB]: the token after the end token is
    used (a NULL pointer is dereferenced). *)
Inductive pres (A : Type) := POk (a : A) (ts : list tok) | PErr | PUB | PFuel.
Arguments POk {A} a ts. Arguments PErr {A}. Arguments PUB {A}. Arguments PFuel {A}.

(** parse.c:567-2357: The [if(x == NULL) return NULL;] after each call. *)
Definition pbind {A B} (x : pres A) (f : A -> list tok -> pres B) : pres B :=
  match x with POk a ts => f a ts | PErr => PErr | PUB => PUB | PFuel => PFuel end.

(** parse.c:481-492 current_token and current. *)
Definition cur (ts : list tok) : kind := match ts with (k, _) :: _ => k | [] => KDone end.
(** parse.c:481-486: The text of the current token (ctx->src + ctx->token->offset). *)
Definition txt (ts : list tok) : list Z := match ts with (_, s) :: _ => s | [] => [] end.
(** parse.c:542-549 next. *)
Definition next {A} (ts : list tok) (f : list tok -> pres A) : pres A :=
  match ts with _ :: (t :: r) => f (t :: r) | _ => PUB end.

(** Tests of the current token, as in current(ctx) == ... (parse.c:562-565 for TDONE). *)
Definition is_k (ts : list tok) (k : kind) : bool := kind_eqb (cur ts) k.
(** parse.c:488-493, current(ctx) compared with a character. *)
Definition ch (ts : list tok) (c : Z) : bool := kind_eqb (cur ts) (KC c).

(** strtoll on a token of digits (parse.c:1246). *)
Fixpoint dec_value (acc : Z) (s : list Z) : Z :=
  match s with c :: r => dec_value (acc * 10 + (c - 48)) r | [] => acc end.

(** strtod on a token digits.digits (parse.c:1296), correctly rounded. The literals are shorter than 64 characters, so neither
    overflow nor underflow occurs. *)
Definition flt_value (s : list Z) : Z :=
  let n := span isdigit s in
  let frac := skipn (n + 1) s in
  match dec_value 0 (firstn n s ++ frac) with
  | Zpos p => f_encode (SFdiv prec64 emax64 (S754_finite false p 0) (S754_finite false (Z.to_pos (10 ^ Z.of_nat (length frac))) 0))
  | _ => 0
  end.

(** parse.c:1232-1239 and 1282-1289, the limit on number tokens: char buffer[64]. *)
Definition NUM_MAX : Z := 64.

(** parse.c:795-852, the loop that renders a literal: [s] is the text between the quotes, [used] the bytes rendered so far. *)
Definition escape (c : Z) : option Z :=
  if c =? 34 then Some 34 else if c =? 110 then Some 10 else if c =? 116 then Some 9 else if c =? 114 then Some 13
  else if c =? 92 then Some 92 else if c =? 39 then Some 39 else None.
(** parse.c:795-852. *)
Fixpoint render (s : list Z) (used : Z) : option (list Z) :=
  match s with
  | [] => Some []
  | c :: r =>
    if 4096 <=? used + 1 then None else
    if c =? 92 then
      match r with
      | [] => Some [92]
      | d :: r' =>
        match escape d with
        | Some e => option_map (cons e) (render r' (used + 1))
        | None => None
        end
      end
    else option_map (cons c) (render r (used + 1))
  end.
(** parse.c:767-861 parse_string_primary_expression on the token text. *)
Definition string_value (t : list Z) : option (list Z) := render (firstn (length t - 2) (skipn 1 t)) 0.

(** parse.c:1676-1741 isbinop, isrightassoc, precedenceof. *)
Definition precedence (k : kind) : option Z :=
  match k with
  | KC c =>
    if c =? 61 then Some 0 else if c =? 124 then Some 1 else if (c =? 60) || (c =? 62) then Some 4
    else if (c =? 43) || (c =? 45) then Some 5 else if (c =? 42) || (c =? 47) || (c =? 37) then Some 6
    else if c =? 44 then Some 7 else None
  | KOr => Some 2 | KAnd => Some 3
  | KLeq | KGeq | KEql | KNql => Some 4
  | _ => None
  end.
(** parse.c:1690-1695 isrightassoc. *)
Definition right_assoc (k : kind) : bool := kind_eqb k (KC 61).

(** parse.c:1787-1808: the node for an operator. *)
Definition binary_node (k : kind) (l r : expr) : expr :=
  match k with
  | KC c =>
    if c =? 43 then EBin BAdd l r else if c =? 45 then EBin BSub l r else if c =? 42 then EBin BMul l r
    else if c =? 47 then EBin BDiv l r else if c =? 37 then EBin BMod l r else if c =? 60 then EBin BLss l r
    else if c =? 62 then EBin BGrt l r else if c =? 61 then EAss l r else if c =? 124 then EBin BStp l r
    else EPair l r
  | KLeq => EBin BLeq l r | KGeq => EBin BGeq l r | KEql => EBin BEql l r | KNql => EBin BNql l r
  | KAnd => EAnd l r
  | _ => EOr l r
  end.

(** parse.c:1745-1750: whether the loop of parse_expression_2 goes on with the current token. *)
Definition goes_on (ts : list tok) (min : Z) (tup ass : bool) : option Z :=
  match precedence (cur ts) with
  | Some p =>
    if (min <=? p) && negb ((ch ts 44 && negb tup) || (ch ts 61 && negb ass)) then Some p else None
  | None => None
  end.

(** parse.c:1630-1663: unary operators. *)
Definition prefix_op (k : kind) : option unop :=
  match k with
  | KC c => if c =? 43 then Some UPos else if c =? 45 then Some UNeg else if c =? 63 then Some UNlb else None
  | KNot => Some UNot
  | _ => None
  end.

(** parse.c:576-589: tokens that start an expression statement. *)
Definition starts_expr (k : kind) : bool :=
  match k with
  | KC c => (c =? 40) || (c =? 91) || (c =? 43) || (c =? 45) || (c =? 63)
  | KInt | KFloat | KString | KIdent | KNot | KNone | KTrue | KFalse => true
  | _ => false
  end.

(** parse.c:1434-1453 and 1514-1530: the index of a selection [a[i, ...]]. *)
Definition index_node (set : expr) (items : exprs) : option expr :=
  match items with
  | ENil => None
  | ECons i ENil => Some (ESel set i)
  | _ => Some (ESel set (EList items))
  end.

(** parse.c:1614-1674: 1614-1674 parse_prefix_expression, 1455-1612 parse_postfix_expression (and its loop), 1184-1432 parse_primary_expresion,
    863-955 parse_list_primary_expression, 957-1133 parse_map_primary_expression, 1743-1833 parse_expression_2 (its outer loop
    is [p_expr2], its inner loop [p_inner]) and parse_expression, 567-717 parse_statement and parse_expression_statement, 1835-1966
    parse_ifelse_statement and parse_compound_statement, 1968-2200 parse_function_arguments and parse_function_definition,
    2202-2357 parse_while_statement and parse_dowhile_statement. *)
Fixpoint p_prefix (n : nat) (ts : list tok) {struct n} : pres expr :=
  match n with
  | O => PFuel
  | S n =>
    if is_k ts KDone then PErr else
    match prefix_op (cur ts) with
    | Some u => next ts (fun ts => pbind (p_prefix n ts) (fun e ts => POk (EUn u e) ts))
    | None => pbind (p_primary n ts) (fun e ts => p_post n e ts)
    end
  end
(* parse.c:1455-1612: 1464-1608 *)
with p_post (n : nat) (node : expr) (ts : list tok) {struct n} : pres expr :=
  match n with
  | O => PFuel
  | S n =>
    if ch ts 46 || is_k ts KArw then
      let arrow := is_k ts KArw in
      next ts (fun ts =>
      if negb (is_k ts KIdent) then PErr else
      let sel := if arrow then EArw node (EStr (txt ts)) else ESel node (EStr (txt ts)) in
      next ts (fun ts => p_post n sel ts))
    else if ch ts 91 then
      next ts (fun ts =>
      pbind (if ch ts 93 then POk ENil ts else p_seq n 93 ts) (fun items ts =>
      next ts (fun ts =>
      match index_node node items with
      | Some sel => p_post n sel ts
      | None => PErr
      end)))
    else if ch ts 40 then
      next ts (fun ts =>
      pbind (if ch ts 41 then POk ENil ts else p_seq n 41 ts) (fun args ts =>
      next ts (fun ts => p_post n (ECall node args) ts)))
    else POk node ts
  end
(* parse.c:863-955 and 1544-1573: 892-924 and 1544-1573: expressions separated by commas up to the closing token *)
with p_seq (n : nat) (close : Z) (ts : list tok) {struct n} : pres exprs :=
  match n with
  | O => PFuel
  | S n =>
    pbind (p_expr n false true ts) (fun e ts =>
    if ch ts close then POk (ECons e ENil) ts
    else if negb (ch ts 44) then PErr
    else next ts (fun ts => pbind (p_seq n close ts) (fun r ts => POk (ECons e r) ts)))
  end
(* parse.c:957-1133: 997-1101: the items of a map literal *)
with p_pairs (n : nat) (ts : list tok) {struct n} : pres pairs :=
  match n with
  | O => PFuel
  | S n =>
    if is_k ts KFun then
      pbind (p_fundef n ts) (fun f ts =>
      let '(name, ps, body) := f in
      if ch ts 125 then POk (PCons (EStr name) (EFun ps body) PNil) ts
      else pbind (p_pairs n ts) (fun r ts => POk (PCons (EStr name) (EFun ps body) r) ts))
    else
      (* 1014-1023: next and prev *)
      next ts (fun ts1 =>
      let single := is_k ts KIdent && (is_k ts1 KDone || ch ts1 58) in
      pbind (if single then POk (EStr (txt ts)) ts1 else p_expr n false true ts) (fun k ts =>
      if negb (ch ts 58) then PErr else
      next ts (fun ts =>
      pbind (p_expr n false true ts) (fun v ts =>
      if ch ts 125 then POk (PCons k v PNil) ts
      else if negb (ch ts 44) then PErr
      else next ts (fun ts => pbind (p_pairs n ts) (fun r ts => POk (PCons k v r) ts))))))
  end
(** parse.c:1184-1432 parse_primary_expresion. *)
with p_primary (n : nat) (ts : list tok) {struct n} : pres expr :=
  match n with
  | O => PFuel
  | S n =>
    match cur ts with
    | KC c =>
      if c =? 91 then
        next ts (fun ts =>
        pbind (if ch ts 93 then POk ENil ts else p_seq n 93 ts) (fun items ts =>
        next ts (fun ts => POk (EList items) ts)))
      else if c =? 123 then
        next ts (fun ts =>
        if is_k ts KDone then PErr else
        pbind (if ch ts 125 then POk PNil ts else p_pairs n ts) (fun items ts =>
        next ts (fun ts => POk (EMap items) ts)))
      else if c =? 40 then
        next ts (fun ts =>
        pbind (p_expr n true true ts) (fun e ts =>
        if negb (ch ts 41) then PErr else
        next ts (fun ts => POk e ts)))
      else PErr
    | KInt =>
      if NUM_MAX <=? Z.of_nat (length (txt ts)) then PErr else
      let v := dec_value 0 (txt ts) in
      if 2^63 <=? v then PErr else next ts (fun ts => POk (EInt v) ts)
    | KFloat =>
      if NUM_MAX <=? Z.of_nat (length (txt ts)) then PErr else
      let v := flt_value (txt ts) in next ts (fun ts => POk (EFlt v) ts)
    | KString =>
      match string_value (txt ts) with
      | Some v => next ts (fun ts => POk (EStr v) ts)
      | None => PErr
      end
    | KNone => next ts (fun ts => POk ENone ts)
    | KTrue => next ts (fun ts => POk ETrue ts)
    | KFalse => next ts (fun ts => POk EFalse ts)
    | KIdent => let v := txt ts in next ts (fun ts => POk (EIdent v) ts)
    | _ => PErr
    end
  end
(** parse.c:1822-1833 parse_expression. *)
with p_expr (n : nat) (tup ass : bool) (ts : list tok) {struct n} : pres expr :=
  match n with
  | O => PFuel
  | S n =>
    pbind (p_prefix n ts) (fun l ts =>
    if is_k ts KDone then POk l ts else p_expr2 n l (-1000000000) tup ass ts)
  end
(** parse.c:1743-1820 parse_expression_2. *)
with p_expr2 (n : nat) (left : expr) (min : Z) (tup ass : bool) (ts : list tok) {struct n} : pres expr :=
  match n with
  | O => PFuel
  | S n =>
    match goes_on ts min tup ass with
    | None => POk left ts
    | Some p =>
      let op := cur ts in
      next ts (fun ts =>
      pbind (p_prefix n ts) (fun r ts =>
      pbind (p_inner n p r tup ass ts) (fun r ts =>
      p_expr2 n (binary_node op left r) min tup ass ts)))
    end
  end
(* parse.c:1743-1820: 1759-1770; [p]: the precedence of op *)
with p_inner (n : nat) (p : Z) (right : expr) (tup ass : bool) (ts : list tok) {struct n} : pres expr :=
  match n with
  | O => PFuel
  | S n =>
    match precedence (cur ts) with
    | Some q =>
      if (p <? q) || ((p =? q) && right_assoc (cur ts)) then
        pbind (p_expr2 n right (p + (if p <? q then 1 else 0)) tup ass ts) (fun r ts =>
        if ch ts 44 && negb tup then POk r ts else p_inner n p r tup ass ts)
      else POk right ts
    | None => POk right ts
    end
  end
(** parse.c:567-690 parse_statement. *)
with p_stmt (n : nat) (ts : list tok) {struct n} : pres stmt :=
  match n with
  | O => PFuel
  | S n =>
    if starts_expr (cur ts) then
      pbind (p_expr n true true ts) (fun e ts =>
      if negb (ch ts 59) then PErr else next ts (fun ts => POk (SExpr e) ts))
    else
    match cur ts with
    | KC c =>
      if c =? 123 then
        next ts (fun ts =>
        pbind (p_compound n (KC 125) ts) (fun ss ts => next ts (fun ts => POk (SComp ss) ts)))
      else PErr
    | KIf =>
      next ts (fun ts =>
      pbind (p_expr n true true ts) (fun c ts =>
      if negb (ch ts 58) then PErr else
      next ts (fun ts =>
      pbind (p_stmt n ts) (fun t ts =>
      if is_k ts KElse then
        next ts (fun ts => pbind (p_stmt n ts) (fun f ts => POk (SIfElse c t f) ts))
      else POk (SIf c t) ts))))
    | KBreak =>
      next ts (fun ts => if negb (ch ts 59) then PErr else next ts (fun ts => POk SBreak ts))
    | KReturn =>
      next ts (fun ts =>
      pbind (p_expr n true true ts) (fun e ts =>
      if negb (ch ts 59) then PErr else next ts (fun ts => POk (SReturn e) ts)))
    | KFun =>
      pbind (p_fundef n ts) (fun f ts => let '(name, ps, body) := f in POk (SFunc name ps body) ts)
    | KWhile =>
      next ts (fun ts =>
      pbind (p_expr n true true ts) (fun c ts =>
      if negb (ch ts 58) then PErr else
      next ts (fun ts =>
      pbind (p_stmt n ts) (fun b ts => POk (SWhile c b) ts))))
    | KDo =>
      next ts (fun ts =>
      pbind (p_stmt n ts) (fun b ts =>
      if negb (is_k ts KWhile) then PErr else
      next ts (fun ts =>
      pbind (p_expr n true true ts) (fun c ts =>
      if negb (ch ts 59) then PErr else next ts (fun ts => POk (SDo b c) ts)))))
    | _ => PErr
    end
  end
(** parse.c:1919-1966 parse_compound_statement. *)
with p_compound (n : nat) (close : kind) (ts : list tok) {struct n} : pres stmts :=
  match n with
  | O => PFuel
  | S n =>
    if is_k ts close then POk SNil ts
    else if is_k ts KDone then PErr
    else pbind (p_stmt n ts) (fun s ts => pbind (p_compound n close ts) (fun r ts => POk (SCons s r) ts))
  end
(** parse.c:2089-2200 parse_function_definition. *)
with p_fundef (n : nat) (ts : list tok) {struct n} : pres (list Z * params * stmt) :=
  match n with
  | O => PFuel
  | S n =>
    next ts (fun ts =>
    if negb (is_k ts KIdent) then PErr else
    let name := txt ts in
    next ts (fun ts =>
    if negb (ch ts 40) then PErr else
    next ts (fun ts =>
    pbind (if ch ts 41 then POk ANil ts else p_params n ts) (fun ps ts =>
    next ts (fun ts =>
    if is_k ts KDone then PErr else
    pbind (p_stmt n ts) (fun b ts => POk (name, ps, b) ts))))))
  end
(* parse.c:1968-2087: 1989-2079 *)
with p_params (n : nat) (ts : list tok) {struct n} : pres params :=
  match n with
  | O => PFuel
  | S n =>
    if negb (is_k ts KIdent) then PErr else
    let name := txt ts in
    next ts (fun ts =>
    pbind (if ch ts 58 then next ts (fun ts => pbind (p_expr n false false ts) (fun t ts => POk (OYes t) ts)) else POk ONo ts) (fun ty ts =>
    pbind (if ch ts 61 then next ts (fun ts => pbind (p_expr n false true ts) (fun d ts => POk (OYes d) ts)) else POk ONo ts) (fun df ts =>
    if ch ts 41 then POk (ACons name ty df ANil) ts
    else if negb (ch ts 44) then PErr
    else next ts (fun ts => pbind (p_params n ts) (fun r ts => POk (ACons name ty df r) ts)))))
  end.

(** parse.c:440-479 parse, with enough fuel for every source (C44). *)
Definition parse_fuel (ts : list tok) : nat := 8 * length ts + 8.
(** parse.c:440-479 parse. *)
Definition parse_tokens (ts : list tok) : pres stmt :=
  pbind (p_compound (parse_fuel ts) KDone ts) (fun ss ts => POk (SComp ss) ts).

(** parse.c:456-467: the tokens handed to parse_compound_statement. *)
Definition with_text (src : list Z) (l : list token) : list tok := map (fun t => (t_kind t, text_of src t)) l.
(** parse.c:440-479 parse, from the text; [nul]: whether a NUL follows the text (source.c:86-218). *)
Definition parse (nul : bool) (src : list Z) : pres stmt :=
  match tokenize nul src with
  | LOk l => parse_tokens (with_text src l)
  | LErr => PErr
  | LUB => PUB
  | LFuel => PFuel
  end.
