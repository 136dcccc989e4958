(** What the drawing of a program should be (C81): a tree of labelled points, numbered in the order of their lines, and the
    text that describes it. *)
From Coq Require Import ZArith String List Bool Permutation.
From Verif Require Import Base AstModel BuiltinModel ShowModel ShowSpec GraphModel.
Import ListNotations.
Open Scope list_scope.
Open Scope Z_scope.

(** A drawing: the labels written for its point (one, or two for a declared function, or none) and the drawings below it. *)
Inductive drawing := Dw (labels : list (list Z)) (subs : list drawing).
Definition labels (d : drawing) : list (list Z) := match d with Dw l _ => l end.
Definition subs (d : drawing) : list drawing := match d with Dw _ s => s end.

(** The number of points. *)
Fixpoint dsize (d : drawing) : Z :=
  match d with Dw _ ds => 1 + (fix go ds := match ds with [] => 0 | d :: r => dsize d + go r end) ds end.
Fixpoint fsize (ds : list drawing) : Z := match ds with [] => 0 | d :: r => dsize d + fsize r end.

(** The labelled points of a drawing whose point is [k] and whose other points are numbered from [j] on. *)
Fixpoint dnodes (k j : Z) (d : drawing) : list (Z * list Z) :=
  match d with
  | Dw ls ds =>
    map (pair k) ls ++
    (fix go j ds := match ds with [] => [] | d :: r => dnodes j (j + 1) d ++ go (j + dsize d) r end) j ds
  end.
Fixpoint fnodes (j : Z) (ds : list drawing) : list (Z * list Z) :=
  match ds with [] => [] | d :: r => dnodes j (j + 1) d ++ fnodes (j + dsize d) r end.
(** Its edges. *)
Fixpoint dedges (k j : Z) (d : drawing) : list (Z * Z) :=
  match d with
  | Dw _ ds =>
    (fix go j ds := match ds with [] => [] | d :: r => (k, j) :: dedges j (j + 1) d ++ go (j + dsize d) r end) j ds
  end.
Fixpoint fedges (k j : Z) (ds : list drawing) : list (Z * Z) :=
  match ds with [] => [] | d :: r => (k, j) :: dedges j (j + 1) d ++ fedges k (j + dsize d) r end.

(** The text for points and edges. *)
Definition node_text (l : list (Z * list Z)) : list Z := flat_map (fun p => node_line (fst p) (snd p)) l.
Definition edge_text (l : list (Z * Z)) : list Z := flat_map (fun p => edge_line (fst p) (snd p)) l.
Definition dot_text (ns : list (Z * list Z)) (es : list (Z * Z)) : list Z :=
  bytes_of "digraph G {" ++ [10] ++ node_text ns ++ [10] ++ edge_text es ++ [125; 10].

(** What the lines for a point and for an edge say. *)
Inductive point_says : Z * list Z -> list Z -> Prop :=
| ps_intro k label d : int_shown k d -> point_says (k, label) (9 :: bytes_of "node_" ++ d ++ bytes_of " [label=""" ++ label ++ bytes_of """];" ++ [10]).
Inductive edge_says : Z * Z -> list Z -> Prop :=
| es_intro a b d e : int_shown a d -> int_shown b e -> edge_says (a, b) (9 :: bytes_of "node_" ++ d ++ bytes_of " -> node_" ++ e ++ bytes_of ";" ++ [10]).

(** The signs of the operators. *)
Definition un_sign (op : unop) : string := match op with UPos => "+" | UNeg => "-" | UNot => "!" | UNlb => "Nullable Type" end.
Definition bin_sign (op : binop) : string :=
  match op with
  | BAdd => "+" | BSub => "-" | BMul => "&times;" | BDiv => "/" | BMod => "%" | BEql => "==" | BNql => "!=" | BLss => "<" | BLeq => "<=" | BGrt => ">" | BGeq => ">="
  | BStp => "Sum Type"
  end.

(** An expression that stands for one value is drawn as its drawing, a tuple as a point without label. *)
Definition one (l : list drawing) : drawing := match l with [d] => d | _ => Dw [] [] end.

Section Pic.
Variable fg : Z -> list Z.
(** The drawings of the elements of a tuple; of one expression if it is not one. *)
Fixpoint elems (e : expr) : list drawing :=
  match e with
  | EPair a b => elems a ++ elems b
  | EUn op a => [Dw [bytes_of (un_sign op)] [one (elems a)]]
  | EBin op a b => [Dw [bytes_of (bin_sign op)] [one (elems a); one (elems b)]]
  | EAnd a b => [Dw [bytes_of "and"] [one (elems a); one (elems b)]]
  | EOr a b => [Dw [bytes_of "or"] [one (elems a); one (elems b)]]
  | EAss a b => [Dw [bytes_of "="] [one (elems a); one (elems b)]]
  | EArw _ b => [Dw [bytes_of "->"] [one (elems b)]]
  | ESel a b => [Dw [bytes_of "Select"] [one (elems a); one (elems b)]]
  | EInt z => [Dw [int_text (low32 z)] []]
  | EFlt b => [Dw [fg b] []]
  | EStr s => [Dw [escaped s] []]
  | EIdent s => [Dw [s] []]
  | ENone => [Dw [bytes_of "none"] []]
  | ETrue => [Dw [bytes_of "true"] []]
  | EFalse => [Dw [bytes_of "false"] []]
  | EList es => [Dw [bytes_of "List"] (items es)]
  | EMap ps => [Dw [bytes_of "Map"] (entries ps)]
  | ECall f args => [Dw [bytes_of "Call"] (one (elems f) :: rev (items args))]
  | EFun ps b => [Dw [bytes_of "???"] [Dw [bytes_of "args"] (rev (parms ps)); spic b]]
  end
with items (es : exprs) : list drawing := match es with ENil => [] | ECons e r => one (elems e) :: items r end
with entries (ps : pairs) : list drawing :=
  match ps with PNil => [] | PCons k v r => Dw [bytes_of "Entry"] [one (elems k); one (elems v)] :: entries r end
with parms (ps : params) : list drawing :=
  match ps with ANil => [] | ACons x ty df r => Dw [x] (opt df ++ opt ty) :: parms r end
with opt (o : oexpr) : list drawing := match o with ONo => [] | OYes e => [one (elems e)] end
with spic (s : stmt) : drawing :=
  match s with
  | SExpr e => one (elems e)
  | SBreak => Dw [bytes_of "break"] []
  | SIf c t => Dw [bytes_of "if"] [one (elems c); spic t]
  | SIfElse c t f => Dw [bytes_of "if-else"] [one (elems c); spic t; spic f]
  | SWhile c b => Dw [bytes_of "while"] [one (elems c); spic b]
  | SDo b c => Dw [bytes_of "do-while"] [one (elems c); spic b]
  | SComp ss => Dw [bytes_of "compound"] (spics ss)
  | SReturn e => Dw [bytes_of "return"] (elems e)
  | SFunc x ps b => Dw [bytes_of "func"; x] [Dw [bytes_of "args"] (rev (parms ps)); spic b]
  end
with spics (ss : stmts) : list drawing := match ss with SNil => [] | SCons s r => spic s :: spics r end.
End Pic.

(** Every return gives at most 32 values. *)
Fixpoint fits_e (e : expr) : Prop :=
  match e with
  | EPair a b | EBin _ a b | EAnd a b | EOr a b | EAss a b | EArw a b | ESel a b => fits_e a /\ fits_e b
  | EUn _ a => fits_e a
  | EList es => fits_es es
  | EMap ps => fits_m ps
  | ECall f args => fits_e f /\ fits_es args
  | EFun ps b => fits_p ps /\ fits b
  | _ => True
  end
with fits_es (es : exprs) : Prop := match es with ENil => True | ECons e r => fits_e e /\ fits_es r end
with fits_m (ps : pairs) : Prop := match ps with PNil => True | PCons k v r => fits_e k /\ fits_e v /\ fits_m r end
with fits_p (ps : params) : Prop := match ps with ANil => True | ACons _ ty df r => fits_o ty /\ fits_o df /\ fits_p r end
with fits_o (o : oexpr) : Prop := match o with ONo => True | OYes e => fits_e e end
with fits (s : stmt) : Prop :=
  match s with
  | SExpr e => fits_e e
  | SBreak => True
  | SIf c t => fits_e c /\ fits t
  | SIfElse c t f => fits_e c /\ fits t /\ fits f
  | SWhile c b | SDo b c => fits_e c /\ fits b
  | SComp ss => fits_ss ss
  | SReturn e => tuple_len e <= 32 /\ fits_e e
  | SFunc _ ps b => fits_p ps /\ fits b
  end
with fits_ss (ss : stmts) : Prop := match ss with SNil => True | SCons s r => fits s /\ fits_ss r end.

(** No tuple but as the value of a return, and no arrow; [tup]: a tuple may stand here. *)
Fixpoint simple_e (tup : bool) (e : expr) : Prop :=
  match e with
  | EPair a b => if tup then simple_e true a /\ simple_e true b else False
  | EArw _ _ => False
  | EBin _ a b | EAnd a b | EOr a b | EAss a b | ESel a b => simple_e false a /\ simple_e false b
  | EUn _ a => simple_e false a
  | EList es => simple_es es
  | EMap ps => simple_m ps
  | ECall f args => simple_e false f /\ simple_es args
  | EFun ps b => simple_p ps /\ simple b
  | _ => True
  end
with simple_es (es : exprs) : Prop := match es with ENil => True | ECons e r => simple_e false e /\ simple_es r end
with simple_m (ps : pairs) : Prop := match ps with PNil => True | PCons k v r => simple_e false k /\ simple_e false v /\ simple_m r end
with simple_p (ps : params) : Prop := match ps with ANil => True | ACons _ ty df r => simple_o ty /\ simple_o df /\ simple_p r end
with simple_o (o : oexpr) : Prop := match o with ONo => True | OYes e => simple_e false e end
with simple (s : stmt) : Prop :=
  match s with
  | SExpr e => simple_e false e
  | SReturn e => simple_e true e
  | SBreak => True
  | SIf c t => simple_e false c /\ simple t
  | SIfElse c t f => simple_e false c /\ simple t /\ simple f
  | SWhile c b | SDo b c => simple_e false c /\ simple b
  | SComp ss => simple_ss ss
  | SFunc _ ps b => simple_p ps /\ simple b
  end
with simple_ss (ss : stmts) : Prop := match ss with SNil => True | SCons s r => simple s /\ simple_ss r end.

(** The names a program mentions. *)
Fixpoint names_e (e : expr) : list (list Z) :=
  match e with
  | EIdent x => [x]
  | EPair a b | EBin _ a b | EAnd a b | EOr a b | EAss a b | EArw a b | ESel a b => names_e a ++ names_e b
  | EUn _ a => names_e a
  | EList es => names_es es
  | EMap ps => names_m ps
  | ECall f args => names_e f ++ names_es args
  | EFun ps b => names_p ps ++ names b
  | _ => []
  end
with names_es (es : exprs) : list (list Z) := match es with ENil => [] | ECons e r => names_e e ++ names_es r end
with names_m (ps : pairs) : list (list Z) := match ps with PNil => [] | PCons k v r => names_e k ++ names_e v ++ names_m r end
with names_p (ps : params) : list (list Z) := match ps with ANil => [] | ACons x ty df r => x :: names_o ty ++ names_o df ++ names_p r end
with names_o (o : oexpr) : list (list Z) := match o with ONo => [] | OYes e => names_e e end
with names (s : stmt) : list (list Z) :=
  match s with
  | SExpr e | SReturn e => names_e e
  | SBreak => []
  | SIf c t => names_e c ++ names t
  | SIfElse c t f => names_e c ++ names t ++ names f
  | SWhile c b | SDo b c => names_e c ++ names b
  | SComp ss => names_ss ss
  | SFunc x ps b => x :: names_p ps ++ names b
  end
with names_ss (ss : stmts) : list (list Z) := match ss with SNil => [] | SCons s r => names s ++ names_ss r end.

(** A text that says the same between quotes as it is: no quote, backslash, tab, newline or NUL. *)
Definition plain (s : list Z) : Prop := Forall (fun c => c <> 0 /\ c <> 9 /\ c <> 10 /\ c <> 34 /\ c <> 92) s.
