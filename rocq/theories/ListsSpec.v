(** Programs with lists: assignments, conditionals, loops, break and return over literals, operators, variables, lists and selections.
    What such programs do, told on a finite assignment of values to names and a numbered collection of sequences: the value [VRef k] is the
    list number [k]. Assigning a list to a variable or storing it in a list does not copy it. No tables, no cells, no capacities, no jumps. *)
From Coq Require Import ZArith List Bool.
From Verif Require Import Base Utf8Spec SeqSpec ValueModel AstModel CalcSpec WhileSpec FunSpec.
Import ListNotations.
Open Scope Z_scope.

Definition lists := list (list value).

(** The operators of C74; two lists cannot be compared. *)
Definition lmeans2 (op : binop) (v w : value) : answer :=
  match op, v, w with
  | BEql, VRef _, VRef _ | BNql, VRef _, VRef _ => AErr
  | _, _, _ => means2 op v w
  end.

(** The characters of a string. *)
Fixpoint characters_n (n : nat) (s : list Z) : list (list Z) :=
  match n, s with
  | S n, b :: r => firstn (lead_len b) s :: characters_n n (skipn (lead_len b) s)
  | _, _ => []
  end.
Definition characters (s : list Z) : list (list Z) := characters_n (length s) s.

(** Indices beyond 32 bits, and lists of 2^30 items and more, are not told about: [Deep]. *)
Definition near (i : Z) : bool := (- 2 ^ 31 <=? i) && (i <? 2 ^ 31).
Definition short (xs : list value) : bool := Z.of_nat (length xs) <? 2 ^ 30.

(** What [col[key]] is: the item, the character, or else none. *)
Definition picked (h : lists) (col key : value) : told value :=
  match col, key with
  | VRef k, VInt i =>
    if near i then
      match nth_error h k with
      | Some xs => Told (match seq_get xs i with Some v => v | None => VNone end)
      | None => Wrong
      end
    else Deep
  | VStr s, VInt i => if near i then Told (match seq_get (characters s) i with Some c => VStr c | None => VNone end) else Deep
  | _, _ => Told VNone
  end.

(** What [col[key] = v] makes of the lists: the item is replaced, or appended if the key is the length of the list. *)
Definition placed (h : lists) (col key v : value) : told lists :=
  match col, key with
  | VRef k, VInt i =>
    match nth_error h k with
    | Some xs =>
      if near i && short xs then match seq_set xs i v with Some ys => Told (upd h k ys) | None => Wrong end else Deep
    | None => Wrong
    end
  | _, _ => Wrong
  end.

(** The value of an expression, and the lists afterwards. A list is made first, then its items are computed and appended one by one. *)
Fixpoint lsays (s : store) (h : lists) (e : expr) {struct e} : told (value * lists) :=
  match e with
  | EInt z => Told (VInt z, h)
  | EFlt b => Told (VFloat b, h)
  | EStr t => Told (VStr t, h)
  | ENone => Told (VNone, h)
  | ETrue => Told (VBool true, h)
  | EFalse => Told (VBool false, h)
  | EIdent x => match s x with Some v => Told (v, h) | None => Wrong end
  | EUn op a => tbind (lsays s h a) (fun p => tbind (tell (means1 op (fst p))) (fun v => Told (v, snd p)))
  | EBin op a b =>
    tbind (lsays s h a) (fun p => tbind (lsays s (snd p) b) (fun q => tbind (tell (lmeans2 op (fst p) (fst q))) (fun v => Told (v, snd q))))
  | EAnd a b =>
    tbind (lsays s h a) (fun p => match fst p with
    | VBool false => Told (VBool false, snd p)
    | VBool true => tbind (lsays s (snd p) b) (fun q => match fst q with VBool r => Told (VBool r, snd q) | _ => Wrong end)
    | _ => Wrong end)
  | EOr a b =>
    tbind (lsays s h a) (fun p => match fst p with
    | VBool true => Told (VBool true, snd p)
    | VBool false => tbind (lsays s (snd p) b) (fun q => match fst q with VBool r => Told (VBool r, snd q) | _ => Wrong end)
    | _ => Wrong end)
  | EList es => tbind (litems s (length h) (h ++ [[]]) es) (fun h1 => Told (VRef (length h), h1))
  | ESel a i =>
    tbind (lsays s h a) (fun p => tbind (lsays s (snd p) i) (fun q => tbind (picked (snd q) (fst p) (fst q)) (fun v => Told (v, snd q))))
  | _ => Wrong
  end
with litems (s : store) (k : nat) (h : lists) (es : exprs) {struct es} : told lists :=
  match es with
  | ENil => Told h
  | ECons e r =>
    tbind (lsays s h e) (fun p =>
    let xs := nth k (snd p) [] in
    if short xs then litems s k (upd (snd p) k (xs ++ [fst p])) r else Deep)
  end.

(** How a statement ends. *)
Inductive lfate := LFell (s : store) (h : lists) | LBroke (s : store) (h : lists) | LGave (vs : list value) (h : lists).

Definition ltest (s : store) (h : lists) (c : expr) : told (bool * lists) :=
  tbind (lsays s h c) (fun p => match fst p with VBool b => Told (b, snd p) | _ => Wrong end).

Fixpoint ltells (s : store) (h : lists) (e : expr) : told (list value * lists) :=
  match e with
  | EPair a b => tbind (ltells s h a) (fun p => tbind (ltells s (snd p) b) (fun q => Told (fst p ++ fst q, snd q)))
  | _ => tbind (lsays s h e) (fun p => Told ([fst p], snd p))
  end.

Section Telling.
Variable again : store -> lists -> stmt -> told lfate.

Fixpoint ldoes (s : store) (h : lists) (t : stmt) : told lfate :=
  match t with
  | SExpr (EAss (EIdent x) r) => tbind (lsays s h r) (fun p => Told (LFell (put_in s x (fst p)) (snd p)))
  (** The value comes first, then the list, then the index. *)
  | SExpr (EAss (ESel a i) r) =>
    tbind (lsays s h r) (fun p => tbind (lsays s (snd p) a) (fun q => tbind (lsays s (snd q) i) (fun u =>
    tbind (placed (snd u) (fst q) (fst u) (fst p)) (fun h1 => Told (LFell s h1)))))
  | SExpr e => tbind (lsays s h e) (fun p => Told (LFell s (snd p)))
  | SBreak => Told (LBroke s h)
  | SIf c a => tbind (ltest s h c) (fun p => if fst p : bool then ldoes s (snd p) a else Told (LFell s (snd p)))
  | SIfElse c a d => tbind (ltest s h c) (fun p => if fst p : bool then ldoes s (snd p) a else ldoes s (snd p) d)
  | SWhile c a =>
    tbind (ltest s h c) (fun p => if fst p : bool
      then tbind (ldoes s (snd p) a) (fun r => match r with LFell s1 h1 => again s1 h1 t | LBroke s1 h1 => Told (LFell s1 h1) | LGave vs h1 => Told (LGave vs h1) end)
      else Told (LFell s (snd p)))
  | SDo a c =>
    tbind (ldoes s h a) (fun r => match r with
      | LFell s1 h1 => tbind (ltest s1 h1 c) (fun p => if fst p : bool then again s1 (snd p) t else Told (LFell s1 (snd p)))
      | LBroke s1 h1 => Told (LFell s1 h1)
      | LGave vs h1 => Told (LGave vs h1)
      end)
  | SComp ss => ldoes_all s h ss
  | SReturn e => tbind (ltells s h e) (fun p => Told (LGave (fst p) (snd p)))
  | SFunc _ _ _ => Wrong
  end
with ldoes_all (s : store) (h : lists) (ss : stmts) : told lfate :=
  match ss with
  | SNil => Told (LFell s h)
  | SCons t r => tbind (ldoes s h t) (fun q => match q with LFell s1 h1 => ldoes_all s1 h1 r | _ => Told q end)
  end.
End Telling.

(** The telling is cut short after [n] nested rounds. *)
Fixpoint lstmt (n : nat) (s : store) (h : lists) (t : stmt) {struct n} : told lfate :=
  match n with
  | O => Unfinished
  | S n => ldoes (lstmt n) s h t
  end.
Definition ltold (ss : stmts) (n : nat) : told lfate := lstmt n nothing [] (SComp ss).

(** Which programs these are. *)
Fixpoint lsimple (e : expr) : Prop :=
  match e with
  | EInt _ | EFlt _ | EIdent _ | ENone | ETrue | EFalse => True
  | EStr t => chars t
  | EUn op a => op <> UNlb /\ lsimple a
  | EBin op a b => op <> BStp /\ lsimple a /\ lsimple b
  | EAnd a b | EOr a b | ESel a b => lsimple a /\ lsimple b
  | EList es => lsimples es
  | _ => False
  end
with lsimples (es : exprs) : Prop := match es with ENil => True | ECons e r => lsimple e /\ lsimples r end.
Fixpoint ltuple (e : expr) : Prop := match e with EPair a b => ltuple a /\ ltuple b | _ => lsimple e end.
Fixpoint lcore (looping : bool) (t : stmt) : Prop :=
  match t with
  | SExpr (EAss (EIdent _) r) => lsimple r
  | SExpr (EAss (ESel a i) r) => lsimple a /\ lsimple i /\ lsimple r
  | SExpr e => lsimple e
  | SBreak => looping = true
  | SIf c a => lsimple c /\ lcore looping a
  | SIfElse c a d => lsimple c /\ lcore looping a /\ lcore looping d
  | SWhile c b | SDo b c => lsimple c /\ lcore true b
  | SComp ss => lcores looping ss
  | SReturn e => ltuple e
  | SFunc _ _ _ => False
  end
with lcores (looping : bool) (ss : stmts) : Prop := match ss with SNil => True | SCons s r => lcore looping s /\ lcores looping r end.

(** Values in a heap where the lists start at [b]. *)
Definition moved (b : nat) (v : value) : value := match v with VRef k => VRef (b + k) | _ => v end.

(** The variables a program mentions. *)
Fixpoint lnamed (e : expr) : list (list Z) :=
  match e with
  | EIdent x => [x]
  | EUn _ a => lnamed a
  | EBin _ a b | EAnd a b | EOr a b | EPair a b | EAss a b | ESel a b => lnamed a ++ lnamed b
  | EList es => lnameds es
  | _ => []
  end
with lnameds (es : exprs) : list (list Z) := match es with ENil => [] | ECons e r => lnamed e ++ lnameds r end.
Fixpoint lmentions (t : stmt) : list (list Z) :=
  match t with
  | SExpr e | SReturn e => lnamed e
  | SIf c a => lnamed c ++ lmentions a
  | SIfElse c a d => lnamed c ++ lmentions a ++ lmentions d
  | SWhile c b | SDo b c => lnamed c ++ lmentions b
  | SComp ss => lmentions_all ss
  | _ => []
  end
with lmentions_all (ss : stmts) : list (list Z) := match ss with SNil => [] | SCons s r => lmentions s ++ lmentions_all r end.
