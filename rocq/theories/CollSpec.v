(** Programs made of functions, with lists and maps: definitions of functions, then statements; the expressions may call the functions,
    make lists and maps, and select from them.
    What such programs do, told on finite assignments of values to names (one for the program, and one for each call under way) and a numbered
    series of lists and maps: the value [VRef k] is the list or map number [k]. Lists and maps are shared: assigning one, storing it in another,
    giving it to a function or returning it does not copy it.
    No heap, no tables, no capacities, no closures, no stack, no jumps. *)
From Coq Require Import ZArith String Ascii List Bool.
From Verif Require Import Base SeqSpec MapSpec FloatModel ValueModel AstModel CalcSpec WhileSpec FunSpec ListsSpec.
Import ListNotations.
Open Scope Z_scope.

(** What is told of a computation. [Spills]: an integer that does not fit 64 bits or a remainder by zero. [TooDeep]: more calls are under way
    than there may be. [Cut]: the telling was cut short. [Silent]: nothing is told (see below). *)
Inductive tale (A : Type) := Tale (a : A) | Errs | Spills | TooDeep | Cut | Silent.
Arguments Tale {A} a.
Arguments Errs {A}.
Arguments Spills {A}.
Arguments TooDeep {A}.
Arguments Cut {A}.
Arguments Silent {A}.

Definition and_then {A B} (t : tale A) (f : A -> tale B) : tale B :=
  match t with Tale a => f a | Errs => Errs | Spills => Spills | TooDeep => TooDeep | Cut => Cut | Silent => Silent end.
Definition answered (a : answer) : tale value := match a with AVal v => Tale v | ALost => Spills | _ => Errs end.

(** A map: its keys in the order of their first stores, with the values. *)
Inductive coll := CList (xs : list value) | CMap (kvs : list (value * value)).
Definition colls := list coll.
Definition is_list (h : colls) (k : nat) : bool := match nth_error h k with Some (CList _) => true | _ => false end.

(** The operators of C74; two lists, or two maps, cannot be compared. *)
Definition cmeans2 (h : colls) (op : binop) (v w : value) : answer :=
  match op, v, w with
  | BEql, VRef a, VRef b => if Bool.eqb (is_list h a) (is_list h b) then AErr else AVal (VBool false)
  | BNql, VRef a, VRef b => if Bool.eqb (is_list h a) (is_list h b) then AErr else AVal (VBool true)
  | _, _, _ => means2 op v w
  end.

(** The keys told about: none, booleans, integers and strings. *)
Definition usable (k : value) : bool :=
  match k with VNone | VBool _ | VInt _ | VStr _ => true | _ => false end.
(** A map can be stored into when it has less than five keys, or when the hashes of its keys are not negative (see C01). *)
Definition roomy (kvs : list (value * value)) : bool :=
  (Z.of_nat (length kvs) <? 5) ||
  ((Z.of_nat (length kvs) <? 2 ^ 26) && forallb (fun kv => match scalar_hash (fst kv) with Some z => 0 <=? z | None => false end) kvs).
Definition brief (xs : list value) : bool := Z.of_nat (length xs) <? 2 ^ 30.

(** What [col[key]] is. Indices beyond 32 bits and unusable keys are not told about. *)
Definition found (h : colls) (col key : value) : tale value :=
  match col with
  | VRef k =>
    match nth_error h k with
    | Some (CList xs) =>
      match key with
      | VInt i => if near i then Tale (match seq_get xs i with Some v => v | None => VNone end) else Silent
      | _ => Tale VNone
      end
    | Some (CMap kvs) => if usable key then Tale (match a_read same kvs key with Some v => v | None => VNone end) else Silent
    | None => Errs
    end
  | VStr s =>
    match key with
    | VInt i => if near i then Tale (match seq_get (characters s) i with Some c => VStr c | None => VNone end) else Silent
    | _ => Tale VNone
    end
  | _ => Tale VNone
  end.

(** What [col[key] = v] makes of the lists and maps. *)
Definition stored (h : colls) (col key v : value) : tale colls :=
  match col with
  | VRef k =>
    match nth_error h k with
    | Some (CList xs) =>
      match key with
      | VInt i => if near i && brief xs then match seq_set xs i v with Some ys => Tale (upd h k (CList ys)) | None => Errs end else Silent
      | _ => Errs
      end
    | Some (CMap kvs) => if usable key && roomy kvs then Tale (upd h k (CMap (a_store same kvs key v))) else Silent
    | None => Errs
    end
  | _ => Errs
  end.

(** How a statement ends. *)
Inductive cfate := CFell (s : store) (h : colls) | CBroke (s : store) (h : colls) | CGave (vs : list value) (h : colls).

(** The types of values. *)
Definition cbelongs (h : colls) (v : value) (t : tyname) : bool :=
  match v with
  | VRef k => match nth_error h k, t with Some (CList _), TyList | Some (CMap _), TyMap => true | _, _ => false end
  | _ => belongs v t
  end.
Fixpoint caccepts (h : colls) (t : expr) (v : value) : bool :=
  match t with
  | EIdent x => match kind_of x with Some Anything => true | Some (Of k) => cbelongs h v k | None => false end
  | EUn UNlb a => match v with VNone => true | _ => caccepts h a v end
  | EBin BStp a b => caccepts h a v || caccepts h b v
  | _ => false
  end.

Section Telling.
(** What is told of the further rounds of a loop, and of a call: the function, the variables of the program, the arguments. *)
Variable again : option store -> store -> colls -> stmt -> tale cfate.
Variable calls : list Z -> store -> colls -> list value -> tale (list value * colls).

Fixpoint csays (w : option store) (s : store) (h : colls) (e : expr) {struct e} : tale (value * colls) :=
  match e with
  | EInt z => Tale (VInt z, h)
  | EFlt b => Tale (VFloat b, h)
  | EStr t => Tale (VStr t, h)
  | ENone => Tale (VNone, h)
  | ETrue => Tale (VBool true, h)
  | EFalse => Tale (VBool false, h)
  | EIdent x => match see w s x with Some v => Tale (v, h) | None => Errs end
  | EUn op a => and_then (csays w s h a) (fun p => and_then (answered (means1 op (fst p))) (fun v => Tale (v, snd p)))
  | EBin op a b =>
    and_then (csays w s h a) (fun p => and_then (csays w s (snd p) b) (fun q =>
    and_then (answered (cmeans2 (snd q) op (fst p) (fst q))) (fun v => Tale (v, snd q))))
  | EAnd a b =>
    and_then (csays w s h a) (fun p => match fst p with
    | VBool false => Tale (VBool false, snd p)
    | VBool true => and_then (csays w s (snd p) b) (fun q => match fst q with VBool r => Tale (VBool r, snd q) | _ => Errs end)
    | _ => Errs end)
  | EOr a b =>
    and_then (csays w s h a) (fun p => match fst p with
    | VBool true => Tale (VBool true, snd p)
    | VBool false => and_then (csays w s (snd p) b) (fun q => match fst q with VBool r => Tale (VBool r, snd q) | _ => Errs end)
    | _ => Errs end)
  (** A list is made first, then its items are computed and appended one by one; so is a map. *)
  | EList es => and_then (citems w s (length h) 0 (h ++ [CList []]) es) (fun h1 => Tale (VRef (length h), h1))
  | EMap ps => and_then (cpairs w s (length h) (h ++ [CMap []]) ps) (fun h1 => Tale (VRef (length h), h1))
  | ESel a i =>
    and_then (csays w s h a) (fun p => and_then (csays w s (snd p) i) (fun q => and_then (found (snd q) (fst p) (fst q)) (fun v => Tale (v, snd q))))
  (** Of the results the first is taken. *)
  | ECall (EIdent f) args =>
    and_then (cargs w s h args) (fun p => and_then (calls f (outer w s) (snd p) (fst p)) (fun q => Tale (hd VNone (fst q), snd q)))
  | _ => Errs
  end
(** The last argument comes first. *)
with cargs (w : option store) (s : store) (h : colls) (es : exprs) {struct es} : tale (list value * colls) :=
  match es with
  | ENil => Tale ([], h)
  | ECons e r => and_then (cargs w s h r) (fun p => and_then (csays w s (snd p) e) (fun q => Tale (fst q :: fst p, snd q)))
  end
with citems (w : option store) (s : store) (k : nat) (i : Z) (h : colls) (es : exprs) {struct es} : tale colls :=
  match es with
  | ENil => Tale h
  | ECons e r =>
    and_then (csays w s h e) (fun p => and_then (stored (snd p) (VRef k) (VInt i) (fst p)) (fun h1 => citems w s k (i + 1) h1 r))
  end
with cpairs (w : option store) (s : store) (k : nat) (h : colls) (ps : pairs) {struct ps} : tale colls :=
  match ps with
  | PNil => Tale h
  | PCons a e r =>
    and_then (csays w s h a) (fun p => and_then (csays w s (snd p) e) (fun q =>
    and_then (stored (snd q) (VRef k) (fst p) (fst q)) (fun h1 => cpairs w s k h1 r)))
  end.

(** The parameters get the arguments (see FunSpec.v). *)
Fixpoint creceive (w : option store) (s : store) (h : colls) (ps : list param) (vs : list value) : tale (store * colls) :=
  match ps with
  | [] => Tale (s, h)
  | (x, (ty, df)) :: r =>
    and_then (creceive w s h r (tl vs)) (fun p =>
    and_then (match df, hd VNone vs with Some d, VNone => csays w (fst p) (snd p) d | _, v => Tale (v, snd p) end) (fun q =>
    match ty with
    | Some t => if caccepts (snd q) t (fst q) then Tale (put_in (fst p) x (fst q), snd q) else Errs
    | None => Tale (put_in (fst p) x (fst q), snd q)
    end))
  end.

Definition ctest (w : option store) (s : store) (h : colls) (c : expr) : tale (bool * colls) :=
  and_then (csays w s h c) (fun p => match fst p with VBool b => Tale (b, snd p) | _ => Errs end).

(** The values of a tuple, from the first to the last. *)
Fixpoint ctells (w : option store) (s : store) (h : colls) (e : expr) : tale (list value * colls) :=
  match e with
  | EPair a b => and_then (ctells w s h a) (fun p => and_then (ctells w s (snd p) b) (fun q => Tale (fst p ++ fst q, snd q)))
  | _ => and_then (csays w s h e) (fun p => Tale ([fst p], snd p))
  end.

Fixpoint cdoes (w : option store) (s : store) (h : colls) (t : stmt) : tale cfate :=
  match t with
  | SExpr (EAss (EIdent x) r) => and_then (csays w s h r) (fun p => Tale (CFell (put_in s x (fst p)) (snd p)))
  (** The value comes first, then the list or map, then the key. *)
  | SExpr (EAss (ESel a i) r) =>
    and_then (csays w s h r) (fun p => and_then (csays w s (snd p) a) (fun q => and_then (csays w s (snd q) i) (fun u =>
    and_then (stored (snd u) (fst q) (fst u) (fst p)) (fun h1 => Tale (CFell s h1)))))
  | SExpr (EAss a (ECall (EIdent f) args)) =>
    and_then (cargs w s h args) (fun p => and_then (calls f (outer w s) (snd p) (fst p)) (fun q => Tale (CFell (put_all s (targets a) (fst q)) (snd q))))
  | SExpr e => and_then (csays w s h e) (fun p => Tale (CFell s (snd p)))
  | SBreak => Tale (CBroke s h)
  | SIf c a => and_then (ctest w s h c) (fun p => if fst p : bool then cdoes w s (snd p) a else Tale (CFell s (snd p)))
  | SIfElse c a d => and_then (ctest w s h c) (fun p => if fst p : bool then cdoes w s (snd p) a else cdoes w s (snd p) d)
  | SWhile c a =>
    and_then (ctest w s h c) (fun p => if fst p : bool
      then and_then (cdoes w s (snd p) a) (fun r => match r with CFell s1 h1 => again w s1 h1 t | CBroke s1 h1 => Tale (CFell s1 h1) | CGave vs h1 => Tale (CGave vs h1) end)
      else Tale (CFell s (snd p)))
  | SDo a c =>
    and_then (cdoes w s h a) (fun r => match r with
      | CFell s1 h1 => and_then (ctest w s1 h1 c) (fun p => if fst p : bool then again w s1 (snd p) t else Tale (CFell s1 (snd p)))
      | CBroke s1 h1 => Tale (CFell s1 h1)
      | CGave vs h1 => Tale (CGave vs h1)
      end)
  | SComp ss => cdoes_all w s h ss
  | SReturn e => and_then (ctells w s h e) (fun p => Tale (CGave (fst p) (snd p)))
  | SFunc _ _ _ => Errs
  end
with cdoes_all (w : option store) (s : store) (h : colls) (ss : stmts) : tale cfate :=
  match ss with
  | SNil => Tale (CFell s h)
  | SCons t r => and_then (cdoes w s h t) (fun q => match q with CFell s1 h1 => cdoes_all w s1 h1 r | _ => Tale q end)
  end.
End Telling.

Section Defined.
Variable T : list Z -> option (list param * stmt).

(** The telling is cut short after [n] nested rounds and calls. [d]: how many more calls may be under way, if that is bounded. *)
Fixpoint cstmt (n : nat) (d : option nat) (w : option store) (s : store) (h : colls) (t : stmt) {struct n} : tale cfate :=
  match n with
  | O => Cut
  | S n => cdoes (cstmt n d) (ccall n d) w s h t
  end
with ccall (n : nat) (d : option nat) (f : list Z) (g : store) (h : colls) (vs : list value) {struct n} : tale (list value * colls) :=
  match d with
  | Some O => TooDeep
  | _ =>
    match n with
    | O => Cut
    | S n =>
      match T f with
      | Some (ps, body) =>
        and_then (creceive (ccall n (option_map pred d)) (Some g) nothing h ps vs) (fun p =>
        and_then (cdoes (cstmt n (option_map pred d)) (ccall n (option_map pred d)) (Some g) (fst p) (snd p) body) (fun r =>
          match r with CGave rs h1 => Tale (rs, h1) | CFell _ h1 => Tale ([], h1) | CBroke _ _ => Errs end))
      | None => Errs
      end
    end
  end.

(** Which programs these are: the names of functions are called, and variables are not. *)
Fixpoint csimple (e : expr) : Prop :=
  match e with
  | EInt _ | EFlt _ | ENone | ETrue | EFalse => True
  | EStr s => chars s
  | EIdent x => T x = None
  | EUn op a => op <> UNlb /\ csimple a
  | EBin op a b => op <> BStp /\ csimple a /\ csimple b
  | EAnd a b | EOr a b | ESel a b => csimple a /\ csimple b
  | EList es => csimple_all es
  | EMap ps => pairs_len ps < 2 ^ 26 /\ csimple_pairs ps
  | ECall (EIdent f) args => T f <> None /\ csimple_all args
  | _ => False
  end
with csimple_all (es : exprs) : Prop := match es with ENil => True | ECons e r => csimple e /\ csimple_all r end
with csimple_pairs (ps : pairs) : Prop := match ps with PNil => True | PCons k e r => csimple k /\ csimple e /\ csimple_pairs r end.

Fixpoint ctuple (e : expr) : Prop := match e with EPair a b => ctuple a /\ ctuple b | _ => csimple e end.

(** Up to eight results are taken from a call. *)
Fixpoint ccore (looping : bool) (t : stmt) : Prop :=
  match t with
  | SExpr (EAss (EIdent x) r) => T x = None /\ csimple r
  | SExpr (EAss (ESel a i) r) => csimple a /\ csimple i /\ csimple r
  | SExpr (EAss (EPair a b) (ECall (EIdent f) args)) => ftarget T a /\ ftarget T b /\ tuple_len (EPair a b) <= 8 /\ T f <> None /\ csimple_all args
  | SExpr e => csimple e
  | SBreak => looping = true
  | SIf c a => csimple c /\ ccore looping a
  | SIfElse c a d => csimple c /\ ccore looping a /\ ccore looping d
  | SWhile c b | SDo b c => csimple c /\ ccore true b
  | SComp ss => ccores looping ss
  | SReturn e => ctuple e
  | SFunc _ _ _ => False
  end
with ccores (looping : bool) (ss : stmts) : Prop := match ss with SNil => True | SCons s r => ccore looping s /\ ccores looping r end.

Definition cparam (p : param) : Prop :=
  match fst (snd p) with Some t => ftype t | None => True end /\ match snd (snd p) with Some d => csimple d | None => True end.
End Defined.

(** The variables a program mentions. *)
Fixpoint cnamed (e : expr) : list (list Z) :=
  match e with
  | EIdent x => [x]
  | EUn _ a => cnamed a
  | EBin _ a b | EAnd a b | EOr a b | EPair a b | EAss a b | ESel a b => cnamed a ++ cnamed b
  | EList es => cnamed_all es
  | EMap ps => cnamed_pairs ps
  | ECall (EIdent _) args => cnamed_all args
  | _ => []
  end
with cnamed_all (es : exprs) : list (list Z) := match es with ENil => [] | ECons e r => cnamed e ++ cnamed_all r end
with cnamed_pairs (ps : pairs) : list (list Z) := match ps with PNil => [] | PCons k e r => cnamed k ++ cnamed e ++ cnamed_pairs r end.
Fixpoint cmentions (t : stmt) : list (list Z) :=
  match t with
  | SExpr e | SReturn e => cnamed e
  | SIf c a => cnamed c ++ cmentions a
  | SIfElse c a d => cnamed c ++ cmentions a ++ cmentions d
  | SWhile c b | SDo b c => cnamed c ++ cmentions b
  | SComp ss => cmentions_all ss
  | _ => []
  end
with cmentions_all (ss : stmts) : list (list Z) := match ss with SNil => [] | SCons s r => cmentions s ++ cmentions_all r end.
Definition cdefault_names (ps : list param) : list (list Z) := flat_map (fun p => match snd (snd p) with Some d => cnamed d | None => [] end) ps.

(** What the program does, after [n] nested rounds and calls, when [d] calls may be under way. *)
Definition ctold (ds : list definition) (ss : stmts) (n : nat) (d : option nat) : tale cfate :=
  cstmt (defined ds) n d None nothing [] (SComp ss).

(** Where the lists and maps are: number [k] is at [nth k loc]. *)
Definition at_ (loc : list nat) (v : value) : value := match v with VRef k => VRef (nth k loc O) | _ => v end.
