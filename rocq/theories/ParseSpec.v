(** The grammar: which words spell which syntax tree, and how operator chains are to be grouped. Stated on texts, words and trees;
    no model of code in /repo here (the kinds of words are those of LexModel.v). *)
From Coq Require Import ZArith List Bool.
From Coq Require Import Floats.SpecFloat.
From Verif Require Import Base FloatModel AstModel LexModel LexSpec.
Import ListNotations.
Open Scope Z_scope.

Definition word := (kind * list Z)%type.

(** * Words *)
Definition digit (c : Z) : Prop := 48 <= c <= 57.
Definition letter (c : Z) : Prop := 65 <= c <= 90 \/ 97 <= c <= 122 \/ c = 95.
Definition reserved : list word :=
  [(KIf, [105;102]); (KFun, [102;117;110]); (KNot, [110;111;116]); (KAnd, [97;110;100]); (KOr, [111;114]);
   (KElse, [101;108;115;101]); (KNone, [110;111;110;101]); (KTrue, [116;114;117;101]); (KFalse, [102;97;108;115;101]);
   (KReturn, [114;101;116;117;114;110]); (KWhile, [119;104;105;108;101]); (KBreak, [98;114;101;97;107]); (KDo, [100;111])].

(** A name: a letter or underscore, then letters, digits and underscores; not a reserved word. *)
Definition name (s : list Z) : Prop :=
  match s with c :: r => letter c /\ Forall (fun x => letter x \/ digit x) r | [] => False end /\ ~ In s (map snd reserved).

(** The number written by decimal digits. *)
Definition decimal (s : list Z) : Z := fold_left (fun a c => a * 10 + (c - 48)) s 0.

(** A string literal between quotes [q]: plain characters stand for themselves, and there are six escapes. *)
Definition escapes : list (Z * Z) := [(34, 34); (39, 39); (92, 92); (110, 10); (116, 9); (114, 13)].
Inductive spells (q : Z) : list Z -> list Z -> Prop :=
| sp_nil : spells q [] []
| sp_plain c b t : c <> 92 -> c <> q -> spells q b t -> spells q (c :: b) (c :: t)
| sp_escape d e b t : In (d, e) escapes -> spells q b t -> spells q (92 :: d :: b) (e :: t).
Definition quote_char (q : Z) : Prop := q = 34 \/ q = 39.

(** One way to write a text: escapes where they are needed. *)
Fixpoint quoted (q : Z) (t : list Z) : list Z :=
  match t with
  | [] => []
  | c :: r => (if (c =? q) || (c =? 92) then [92; c] else if c =? 10 then [92; 110] else [c]) ++ quoted q r
  end.

(** The words of the language. *)
Inductive lexeme : word -> Prop :=
| lx_name s : name s -> lexeme (KIdent, s)
| lx_reserved w : In w reserved -> lexeme w
| lx_int ds : ds <> [] -> Forall digit ds -> lexeme (KInt, ds)
| lx_float ds fs : ds <> [] -> fs <> [] -> Forall digit ds -> Forall digit fs -> lexeme (KFloat, ds ++ 46 :: fs)
| lx_string q b t : quote_char q -> spells q b t -> lexeme (KString, q :: b ++ [q])
| lx_operator s k : op_kind s k -> lexeme (k, s)
| lx_char c : ~ letter c -> ~ digit c -> ~ quote_char c -> ~ op_char c -> ~ white c -> c <> 35 -> lexeme (KC c, [c]).

(** Whether the text [s] may follow the word [w] directly: it must not continue a name, a number or an operator. *)
Definition apart (w s : list Z) : Prop :=
  match w, s with
  | a :: _, c :: _ => (letter a -> ~ letter c /\ ~ digit c) /\ (digit a -> ~ digit c /\ c <> 46) /\ (op_char a -> ~ op_char c)
  | _, _ => True
  end.

(** [layout ws text]: the text is these words in this order, with whitespace and comments between them. *)
Inductive layout : list word -> list Z -> Prop :=
| lay_end g : last_gap g -> layout [] g
| lay_word g k w ws s : gap g -> lexeme (k, w) -> apart w s -> layout ws s -> layout ((k, w) :: ws) (g ++ w ++ s).

(** * Operators *)
Inductive infix := IAss | IStp | IOr | IAnd | ILss | IGrt | ILeq | IGeq | IEql | INql | IAdd | ISub | IMul | IDiv | IMod | IPair.
Definition infix_word (o : infix) : word :=
  match o with
  | IAss => (KC 61, [61]) | IStp => (KC 124, [124]) | IOr => (KOr, [111;114]) | IAnd => (KAnd, [97;110;100])
  | ILss => (KC 60, [60]) | IGrt => (KC 62, [62]) | ILeq => (KLeq, [60;61]) | IGeq => (KGeq, [62;61])
  | IEql => (KEql, [61;61]) | INql => (KNql, [33;61]) | IAdd => (KC 43, [43]) | ISub => (KC 45, [45])
  | IMul => (KC 42, [42]) | IDiv => (KC 47, [47]) | IMod => (KC 37, [37]) | IPair => (KC 44, [44])
  end.
(** Weakest first. *)
Definition level (o : infix) : Z :=
  match o with
  | IAss => 0 | IStp => 1 | IOr => 2 | IAnd => 3 | ILss | IGrt | ILeq | IGeq | IEql | INql => 4
  | IAdd | ISub => 5 | IMul | IDiv | IMod => 6 | IPair => 7
  end.
Definition infix_node (o : infix) (a b : expr) : expr :=
  match o with
  | IAss => EAss a b | IStp => EBin BStp a b | IOr => EOr a b | IAnd => EAnd a b
  | ILss => EBin BLss a b | IGrt => EBin BGrt a b | ILeq => EBin BLeq a b | IGeq => EBin BGeq a b
  | IEql => EBin BEql a b | INql => EBin BNql a b | IAdd => EBin BAdd a b | ISub => EBin BSub a b
  | IMul => EBin BMul a b | IDiv => EBin BDiv a b | IMod => EBin BMod a b | IPair => EPair a b
  end.
Definition prefix_word (u : unop) : word :=
  match u with UPos => (KC 43, [43]) | UNeg => (KC 45, [45]) | UNlb => (KC 63, [63]) | UNot => (KNot, [110;111;116]) end.

(** * More words *)
Definition p (c : Z) : word := (KC c, [c]).
Definition w_arrow : word := (KArw, [45;62]).
Definition w_if : word := (KIf, [105;102]).
Definition w_else : word := (KElse, [101;108;115;101]).
Definition w_fun : word := (KFun, [102;117;110]).
Definition w_while : word := (KWhile, [119;104;105;108;101]).
Definition w_do : word := (KDo, [100;111]).
Definition w_break : word := (KBreak, [98;114;101;97;107]).
Definition w_return : word := (KReturn, [114;101;116;117;114;110]).

(** A statement that an else could be attached to. *)
Fixpoint open_if (s : stmt) : bool :=
  match s with
  | SIf _ _ => true
  | SIfElse _ _ f => open_if f
  | SWhile _ b => open_if b
  | SFunc _ _ b => open_if b
  | _ => false
  end.

(** The value of a float literal: the quotient of two integers, rounded to nearest even. *)
Definition rounded (n : Z) (d : positive) : Z :=
  match n with Zpos m => f_encode (SFdiv prec64 emax64 (S754_finite false m 0) (S754_finite false d 0)) | _ => 0 end.

(** * Operator chains *)
(** A grouping of a chain of operands. *)
Inductive group := Operand (e : expr) | Group (o : infix) (l r : group).
Fixpoint group_expr (g : group) : expr :=
  match g with Operand e => e | Group o l r => infix_node o (group_expr l) (group_expr r) end.
(** The chain, from left to right: the first operand and then operators with their right operands. *)
Fixpoint first_operand (g : group) : expr := match g with Operand e => e | Group _ l _ => first_operand l end.
Fixpoint others (g : group) : list (infix * expr) :=
  match g with Operand _ => [] | Group o l r => others l ++ (o, first_operand r) :: others r end.
(** Stronger operators group first; of equal ones the left, assignments the right. *)
Definition groups_left (g : group) (o : infix) : Prop :=
  match g with Operand _ => True | Group o' _ _ => level o < level o' \/ (level o = level o' /\ o <> IAss) end.
Definition groups_right (o : infix) (g : group) : Prop :=
  match g with Operand _ => True | Group o' _ _ => level o < level o' \/ (level o = level o' /\ o = IAss) end.
Fixpoint well_grouped (g : group) : Prop :=
  match g with
  | Operand _ => True
  | Group o l r => groups_left l o /\ groups_right o r /\ well_grouped l /\ well_grouped r
  end.

(** * The grammar *)
(** Primary expressions. *)
Inductive wr_expr : expr -> list word -> Prop :=
| wr_int s z : s <> [] -> Forall digit s -> Z.of_nat (length s) < 64 -> decimal s = z -> z < 2^63 -> wr_expr (EInt z) [(KInt, s)]
| wr_flt ds fs : ds <> [] -> fs <> [] -> Forall digit ds -> Forall digit fs -> Z.of_nat (length (ds ++ 46 :: fs)) < 64 ->
    wr_expr (EFlt (rounded (decimal (ds ++ fs)) (Z.to_pos (10 ^ Z.of_nat (length fs))))) [(KFloat, ds ++ 46 :: fs)]
| wr_str q b t : quote_char q -> spells q b t -> Z.of_nat (length t) < 4096 -> wr_expr (EStr t) [(KString, q :: b ++ [q])]
| wr_ident s : name s -> wr_expr (EIdent s) [(KIdent, s)]
| wr_none : wr_expr ENone [(KNone, [110;111;110;101])]
| wr_true : wr_expr ETrue [(KTrue, [116;114;117;101])]
| wr_false : wr_expr EFalse [(KFalse, [102;97;108;115;101])]
| wr_paren e ws : wr_top true true e ws -> wr_expr e (p 40 :: ws ++ [p 41])
| wr_list0 : wr_expr (EList ENil) [p 91; p 93]
| wr_list es ws : wr_items es ws -> wr_expr (EList es) (p 91 :: ws ++ [p 93])
| wr_map0 : wr_expr (EMap PNil) [p 123; p 125]
| wr_map ps ws : wr_pairs ps ws -> wr_expr (EMap ps) (p 123 :: ws ++ [p 125])
(** with selections and calls behind *)
with wr_post : expr -> list word -> Prop :=
| po_primary e ws : wr_expr e ws -> wr_post e ws
| po_arw a s wa : wr_post a wa -> name s -> wr_post (EArw a (EStr s)) (wa ++ [w_arrow; (KIdent, s)])
| po_dot a s wa : wr_post a wa -> name s -> wr_post (ESel a (EStr s)) (wa ++ [p 46; (KIdent, s)])
| po_sel a i wa wi : wr_post a wa -> wr_top false true i wi -> wr_post (ESel a i) (wa ++ p 91 :: wi ++ [p 93])
| po_sels a i j r wa wi : wr_post a wa -> wr_items (ECons i (ECons j r)) wi ->
    wr_post (ESel a (EList (ECons i (ECons j r)))) (wa ++ p 91 :: wi ++ [p 93])
| po_call0 f wf : wr_post f wf -> wr_post (ECall f ENil) (wf ++ [p 40; p 41])
| po_call f es wf ws : wr_post f wf -> wr_items es ws -> wr_post (ECall f es) (wf ++ p 40 :: ws ++ [p 41])
(** with unary operators in front *)
with wr_pre : expr -> list word -> Prop :=
| pr_post e ws : wr_post e ws -> wr_pre e ws
| pr_un u e ws : wr_pre e ws -> wr_pre (EUn u e) (prefix_word u :: ws)
(** A whole expression: a chain of operands, grouped by the strength of the operators; [t]: commas may occur, [a]: assignments. *)
with wr_top : bool -> bool -> expr -> list word -> Prop :=
| wt_chain t a g w0 w : well_grouped g -> wr_pre (first_operand g) w0 -> wr_chain t a (others g) w -> wr_top t a (group_expr g) (w0 ++ w)
with wr_chain : bool -> bool -> list (infix * expr) -> list word -> Prop :=
| wc_nil t a : wr_chain t a [] []
| wc_cons t a o e r ws wr : (o = IPair -> t = true) -> (o = IAss -> a = true) -> wr_pre e ws -> wr_chain t a r wr ->
    wr_chain t a ((o, e) :: r) (infix_word o :: ws ++ wr)
(** one or more expressions with commas between them *)
with wr_items : exprs -> list word -> Prop :=
| wi_one e ws : wr_top false true e ws -> wr_items (ECons e ENil) ws
| wi_more e r ws wr : wr_top false true e ws -> wr_items r wr -> wr_items (ECons e r) (ws ++ p 44 :: wr)
(** one or more entries; a comma follows one that is not a function *)
with wr_pairs : pairs -> list word -> Prop :=
| wp_last k v b ws : wr_entry k v b ws -> wr_pairs (PCons k v PNil) ws
| wp_more k v b r ws wr : wr_entry k v b ws -> wr_pairs r wr -> wr_pairs (PCons k v r) (ws ++ (if b then p 44 :: wr else wr))
(** a name as a key stands for the text of the name *)
with wr_entry : expr -> expr -> bool -> list word -> Prop :=
| we_key k v wk wv : wr_top false true k wk -> (forall s, wk <> [(KIdent, s)]) -> wr_top false true v wv -> wr_entry k v true (wk ++ p 58 :: wv)
| we_name s v wv : name s -> wr_top false true v wv -> wr_entry (EStr s) v true ((KIdent, s) :: p 58 :: wv)
| we_fun s ps body ws : wr_fun s ps body ws -> wr_entry (EStr s) (EFun ps body) false ws
with wr_fun : list Z -> params -> stmt -> list word -> Prop :=
| wf_none s body wb : name s -> wr_stmt body wb -> wr_fun s ANil body (w_fun :: (KIdent, s) :: p 40 :: p 41 :: wb)
| wf_some s ps body wps wb : name s -> wr_params ps wps -> wr_stmt body wb ->
    wr_fun s ps body (w_fun :: (KIdent, s) :: p 40 :: wps ++ p 41 :: wb)
with wr_params : params -> list word -> Prop :=
| wa_last s ty df wt wd : name s -> wr_opt 58 false ty wt -> wr_opt 61 true df wd -> wr_params (ACons s ty df ANil) ((KIdent, s) :: wt ++ wd)
| wa_more s ty df r wt wd wr : name s -> wr_opt 58 false ty wt -> wr_opt 61 true df wd -> wr_params r wr ->
    wr_params (ACons s ty df r) ((KIdent, s) :: wt ++ wd ++ p 44 :: wr)
with wr_opt : Z -> bool -> oexpr -> list word -> Prop :=
| wo_no c a : wr_opt c a ONo []
| wo_yes c a e ws : wr_top false a e ws -> wr_opt c a (OYes e) (p c :: ws)
with wr_stmt : stmt -> list word -> Prop :=
| ws_expr e ws : wr_top true true e ws -> (forall r, ws <> p 123 :: r) -> wr_stmt (SExpr e) (ws ++ [p 59])
| ws_break : wr_stmt SBreak [w_break; p 59]
| ws_if c t wc wt : wr_top true true c wc -> wr_stmt t wt -> wr_stmt (SIf c t) (w_if :: wc ++ p 58 :: wt)
| ws_ifelse c t f wc wt wf : wr_top true true c wc -> wr_stmt t wt -> open_if t = false -> wr_stmt f wf ->
    wr_stmt (SIfElse c t f) (w_if :: wc ++ p 58 :: wt ++ w_else :: wf)
| ws_while c b wc wb : wr_top true true c wc -> wr_stmt b wb -> wr_stmt (SWhile c b) (w_while :: wc ++ p 58 :: wb)
| ws_do c b wc wb : wr_stmt b wb -> wr_top true true c wc -> wr_stmt (SDo b c) (w_do :: wb ++ w_while :: wc ++ [p 59])
| ws_comp ss ws : wr_stmts ss ws -> wr_stmt (SComp ss) (p 123 :: ws ++ [p 125])
| ws_return e ws : wr_top true true e ws -> wr_stmt (SReturn e) (w_return :: ws ++ [p 59])
| ws_fun s ps body ws : wr_fun s ps body ws -> wr_stmt (SFunc s ps body) ws
with wr_stmts : stmts -> list word -> Prop :=
| wss_nil : wr_stmts SNil []
| wss_cons s r ws wr : wr_stmt s ws -> wr_stmts r wr -> wr_stmts (SCons s r) (ws ++ wr).

Scheme wr_expr_m := Minimality for wr_expr Sort Prop
with wr_post_m := Minimality for wr_post Sort Prop
with wr_pre_m := Minimality for wr_pre Sort Prop
with wr_top_m := Minimality for wr_top Sort Prop
with wr_chain_m := Minimality for wr_chain Sort Prop
with wr_items_m := Minimality for wr_items Sort Prop
with wr_pairs_m := Minimality for wr_pairs Sort Prop
with wr_entry_m := Minimality for wr_entry Sort Prop
with wr_fun_m := Minimality for wr_fun Sort Prop
with wr_params_m := Minimality for wr_params Sort Prop
with wr_opt_m := Minimality for wr_opt Sort Prop
with wr_stmt_m := Minimality for wr_stmt Sort Prop
with wr_stmts_m := Minimality for wr_stmts Sort Prop.
Combined Scheme wr_ind from wr_expr_m, wr_post_m, wr_pre_m, wr_top_m, wr_chain_m, wr_items_m, wr_pairs_m, wr_entry_m, wr_fun_m,
  wr_params_m, wr_opt_m, wr_stmt_m, wr_stmts_m.

(** The words with one blank after each. *)
Definition spaced (ws : list word) : list Z := concat (map (fun w => snd w ++ [32]) ws).

(** The trees that can be written: no negative numbers (they are written with an operator), floats that have a decimal writing of
    less than 64 characters, texts below the limit (in a[b] and as keys of maps also longer names), names that are names, functions only as statements and as entries of maps
    under their names, fields of a.b and a->b that are names, and no else that would belong to another if. *)
Fixpoint writable (e : expr) : Prop :=
  match e with
  | EInt z => 0 <= z < 2^63
  | EFlt v => exists ds fs, ds <> [] /\ fs <> [] /\ Forall digit ds /\ Forall digit fs /\ Z.of_nat (length (ds ++ 46 :: fs)) < 64 /\
      v = rounded (decimal (ds ++ fs)) (Z.to_pos (10 ^ Z.of_nat (length fs)))
  | EStr t => Z.of_nat (length t) < 4096
  | EIdent s => name s
  | ENone | ETrue | EFalse => True
  | EUn _ e => writable e
  | EBin _ a b | EAnd a b | EOr a b | EAss a b | EPair a b => writable a /\ writable b
  | ESel a (EStr s) => writable a /\ (Z.of_nat (length s) < 4096 \/ name s)
  | ESel a b => writable a /\ writable b
  | EArw a (EStr s) => writable a /\ name s
  | EArw _ _ => False
  | EList es => writable_items es
  | EMap ps => writable_pairs ps
  | ECall f es => writable f /\ writable_items es
  | EFun _ _ => False
  end
with writable_items (es : exprs) : Prop :=
  match es with ENil => True | ECons e r => writable e /\ writable_items r end
with writable_pairs (ps : pairs) : Prop :=
  match ps with
  | PNil => True
  | PCons k v r =>
    match k, v with
    | EStr s, EFun qs body => name s /\ writable_params qs /\ writable_stmt body
    | EStr s, _ => (Z.of_nat (length s) < 4096 \/ name s) /\ writable v
    | _, _ => writable k /\ writable v
    end /\ writable_pairs r
  end
with writable_params (ps : params) : Prop :=
  match ps with ANil => True | ACons s ty df r => name s /\ writable_opt ty /\ writable_opt df /\ writable_params r end
with writable_opt (o : oexpr) : Prop := match o with ONo => True | OYes e => writable e end
with writable_stmt (s : stmt) : Prop :=
  match s with
  | SExpr e | SReturn e => writable e
  | SBreak => True
  | SIf c t => writable c /\ writable_stmt t
  | SIfElse c t f => writable c /\ writable_stmt t /\ writable_stmt f /\ open_if t = false
  | SWhile c b | SDo b c => writable c /\ writable_stmt b
  | SComp ss => writable_stmts ss
  | SFunc s ps body => name s /\ writable_params ps /\ writable_stmt body
  end
with writable_stmts (ss : stmts) : Prop :=
  match ss with SNil => True | SCons s r => writable_stmt s /\ writable_stmts r end.
