(** Programs made of functions: definitions of functions, then statements; the expressions may call the functions.
    What such programs do, told on finite assignments of values to names: one for the program, and one for each call under way.
    No heap, no tables, no closures, no stack, no jumps.
    The functions are not values here: their names are only called. *)
From Coq Require Import ZArith String Ascii List Bool.
From Verif Require Import Base FloatModel ValueModel AstModel CalcSpec WhileSpec.
Import ListNotations.
Open Scope Z_scope.

(** What is told of a computation. [Overflows]: an integer that does not fit 64 bits or a remainder by zero. [Deep]: more calls are under
    way than there may be. [Unfinished]: the telling was cut short. *)
Inductive told (A : Type) := Told (a : A) | Wrong | Overflows | Deep | Unfinished.
Arguments Told {A} a.
Arguments Wrong {A}.
Arguments Overflows {A}.
Arguments Deep {A}.
Arguments Unfinished {A}.

Definition tbind {A B} (t : told A) (f : A -> told B) : told B :=
  match t with Told a => f a | Wrong => Wrong | Overflows => Overflows | Deep => Deep | Unfinished => Unfinished end.

Definition tell (a : answer) : told value := match a with AVal v => Told v | ALost => Overflows | _ => Wrong end.

(** How a statement ends. *)
Inductive fate := Fell (s : store) | Broke (s : store) | Gave (vs : list value).

(** A parameter: its name, its type if it has one, its default value if it has one. *)
Definition param : Type := list Z * (option expr * option expr).
(** A definition: the name of the function, its parameters, its body. *)
Definition definition : Type := list Z * (list param * stmt).
Definition defined (ds : list definition) (f : list Z) : option (list param * stmt) :=
  match find (fun d => if list_eq_dec Z.eq_dec (fst d) f then true else false) ds with Some d => Some (snd d) | None => None end.

(** The names get the values; a name without a value gets none, and a value without a name is dropped. The first name comes last. *)
Fixpoint put_all (s : store) (xs : list (list Z)) (vs : list value) : store :=
  match xs with
  | [] => s
  | x :: xr => put_in (put_all s xr (tl vs)) x (hd VNone vs)
  end.

(** The names of types, and what they are names of. *)
Inductive kind := Anything | Of (t : tyname).
Definition letters (s : string) : list Z := List.map (fun c => Z.of_nat (nat_of_ascii c)) (list_ascii_of_string s).
Definition kinds : list (string * kind) :=
  [("any", Anything); ("None", Of TyNone); ("bool", Of TyBool); ("int", Of TyInt); ("float", Of TyFloat); ("String", Of TyString); ("Type", Of TyType);
   ("List", Of TyList); ("Map", Of TyMap); ("Buffer", Of TyBuffer); ("File", Of TyFile); ("Directory", Of TyDir)]%string.
Definition kind_of (x : list Z) : option kind :=
  match find (fun k => if list_eq_dec Z.eq_dec (letters (fst k)) x then true else false) kinds with Some k => Some (snd k) | None => None end.

(** The values there are here belong to one type each. *)
Definition belongs (v : value) (t : tyname) : bool :=
  match v, t with
  | VNone, TyNone | VBool _, TyBool | VInt _, TyInt | VFloat _, TyFloat | VStr _, TyString => true
  | _, _ => false
  end.

(** A type is a name, or [?] and a type, or two types with a bar between. *)
Fixpoint accepts (t : expr) (v : value) : bool :=
  match t with
  | EIdent x => match kind_of x with Some Anything => true | Some (Of k) => belongs v k | None => false end
  | EUn UNlb a => match v with VNone => true | _ => accepts a v end
  | EBin BStp a b => accepts a v || accepts b v
  | _ => false
  end.
Fixpoint ftype (t : expr) : Prop :=
  match t with
  | EIdent x => kind_of x <> None
  | EUn UNlb a => ftype a
  | EBin BStp a b => ftype a /\ ftype b
  | _ => False
  end.
Fixpoint type_names (t : expr) : list (list Z) :=
  match t with
  | EIdent x => [x]
  | EUn UNlb a => type_names a
  | EBin BStp a b => type_names a ++ type_names b
  | _ => []
  end.

(** The names on the left of an assignment. *)
Fixpoint targets (e : expr) : list (list Z) :=
  match e with EPair a b => targets a ++ targets b | EIdent x => [x] | _ => [] end.

(** A statement is performed by the program itself ([None]), or inside a function: then the variables of the program can be read too. *)
Definition see (w : option store) (s : store) (x : list Z) : option value :=
  match s x with
  | Some v => Some v
  | None => match w with Some g => g x | None => None end
  end.
Definition outer (w : option store) (s : store) : store := match w with Some g => g | None => s end.

Section Telling.
(** What is told of the further rounds of a loop, and of a call: the function, the variables of the program, the arguments. *)
Variable again : option store -> store -> stmt -> told fate.
Variable calls : list Z -> store -> list value -> told (list value).

Fixpoint fsays (w : option store) (s : store) (e : expr) : told value :=
  match e with
  | EInt z => Told (VInt z)
  | EFlt b => Told (VFloat b)
  | EStr s => Told (VStr s)
  | ENone => Told VNone
  | ETrue => Told (VBool true)
  | EFalse => Told (VBool false)
  | EIdent x => match see w s x with Some v => Told v | None => Wrong end
  | EUn op a => tbind (fsays w s a) (fun v => tell (means1 op v))
  | EBin op a b => tbind (fsays w s a) (fun v => tbind (fsays w s b) (fun u => tell (means2 op v u)))
  | EAnd a b =>
    tbind (fsays w s a) (fun v => match v with
    | VBool false => Told (VBool false)
    | VBool true => tbind (fsays w s b) (fun u => match u with VBool r => Told (VBool r) | _ => Wrong end)
    | _ => Wrong end)
  | EOr a b =>
    tbind (fsays w s a) (fun v => match v with
    | VBool true => Told (VBool true)
    | VBool false => tbind (fsays w s b) (fun u => match u with VBool r => Told (VBool r) | _ => Wrong end)
    | _ => Wrong end)
  (** Of the results the first is taken. *)
  | ECall (EIdent f) args => tbind (fargs w s args) (fun vs => tbind (calls f (outer w s) vs) (fun rs => Told (hd VNone rs)))
  | _ => Wrong
  end
(** The last argument comes first. *)
with fargs (w : option store) (s : store) (es : exprs) : told (list value) :=
  match es with
  | ENil => Told []
  | ECons e r => tbind (fargs w s r) (fun vs => tbind (fsays w s e) (fun v => Told (v :: vs)))
  end.

(** The parameters get the arguments. One that gets none gets the value of its default instead, if it has one; then the type has a look at
    the value. The first parameter comes last: only the parameters behind it have their values by then. *)
Fixpoint receive (w : option store) (s : store) (ps : list param) (vs : list value) : told store :=
  match ps with
  | [] => Told s
  | (x, (ty, df)) :: r =>
    tbind (receive w s r (tl vs)) (fun s1 =>
    tbind (match df, hd VNone vs with Some d, VNone => fsays w s1 d | _, v => Told v end) (fun v =>
    match ty with
    | Some t => if accepts t v then Told (put_in s1 x v) else Wrong
    | None => Told (put_in s1 x v)
    end))
  end.

Definition ftest (w : option store) (s : store) (c : expr) : told bool :=
  tbind (fsays w s c) (fun v => match v with VBool b => Told b | _ => Wrong end).

(** The values of a tuple, from the first to the last. *)
Fixpoint ftells (w : option store) (s : store) (e : expr) : told (list value) :=
  match e with
  | EPair a b => tbind (ftells w s a) (fun x => tbind (ftells w s b) (fun y => Told (x ++ y)))
  | _ => tbind (fsays w s e) (fun v => Told [v])
  end.

Fixpoint fdoes (w : option store) (s : store) (t : stmt) : told fate :=
  match t with
  | SExpr (EAss (EIdent x) r) => tbind (fsays w s r) (fun v => Told (Fell (put_in s x v)))
  | SExpr (EAss a (ECall (EIdent f) args)) =>
    tbind (fargs w s args) (fun vs => tbind (calls f (outer w s) vs) (fun rs => Told (Fell (put_all s (targets a) rs))))
  | SExpr e => tbind (fsays w s e) (fun _ => Told (Fell s))
  | SBreak => Told (Broke s)
  | SIf c a => tbind (ftest w s c) (fun b => if b : bool then fdoes w s a else Told (Fell s))
  | SIfElse c a d => tbind (ftest w s c) (fun b => if b : bool then fdoes w s a else fdoes w s d)
  | SWhile c a =>
    tbind (ftest w s c) (fun b => if b : bool
      then tbind (fdoes w s a) (fun r => match r with Fell s1 => again w s1 t | Broke s1 => Told (Fell s1) | Gave vs => Told (Gave vs) end)
      else Told (Fell s))
  | SDo a c =>
    tbind (fdoes w s a) (fun r => match r with
      | Fell s1 => tbind (ftest w s1 c) (fun b => if b : bool then again w s1 t else Told (Fell s1))
      | Broke s1 => Told (Fell s1)
      | Gave vs => Told (Gave vs)
      end)
  | SComp ss => fdoes_all w s ss
  | SReturn e => tbind (ftells w s e) (fun vs => Told (Gave vs))
  | SFunc _ _ _ => Wrong
  end
with fdoes_all (w : option store) (s : store) (ss : stmts) : told fate :=
  match ss with
  | SNil => Told (Fell s)
  | SCons t r => tbind (fdoes w s t) (fun q => match q with Fell s1 => fdoes_all w s1 r | _ => Told q end)
  end.

End Telling.

Section Defined.
Variable T : list Z -> option (list param * stmt).

(** The telling is cut short after [n] nested rounds and calls. [d]: how many more calls may be under way, if that is bounded.
    A call: the parameters receive the arguments, and the body is performed; without a return there are no results. *)
Fixpoint fstmt (n : nat) (d : option nat) (w : option store) (s : store) (t : stmt) {struct n} : told fate :=
  match n with
  | O => Unfinished
  | S n => fdoes (fstmt n d) (fcall n d) w s t
  end
with fcall (n : nat) (d : option nat) (f : list Z) (g : store) (vs : list value) {struct n} : told (list value) :=
  match d with
  | Some O => Deep
  | _ =>
    match n with
    | O => Unfinished
    | S n =>
      match T f with
      | Some (ps, body) =>
        tbind (receive (fcall n (option_map pred d)) (Some g) nothing ps vs) (fun s =>
        tbind (fdoes (fstmt n (option_map pred d)) (fcall n (option_map pred d)) (Some g) s body) (fun r =>
          match r with Gave rs => Told rs | Fell _ => Told [] | Broke _ => Wrong end))
      | None => Wrong
      end
    end
  end.

(** Which programs these are: the names of functions are called, and variables are not. *)
Fixpoint fsimple (e : expr) : Prop :=
  match e with
  | EInt _ | EFlt _ | ENone | ETrue | EFalse => True
  | EStr s => chars s
  | EIdent x => T x = None
  | EUn op a => op <> UNlb /\ fsimple a
  | EBin op a b => op <> BStp /\ fsimple a /\ fsimple b
  | EAnd a b | EOr a b => fsimple a /\ fsimple b
  | ECall (EIdent f) args => T f <> None /\ fsimple_all args
  | _ => False
  end
with fsimple_all (es : exprs) : Prop := match es with ENil => True | ECons e r => fsimple e /\ fsimple_all r end.

Fixpoint ftuple (e : expr) : Prop := match e with EPair a b => ftuple a /\ ftuple b | _ => fsimple e end.
Fixpoint ftarget (e : expr) : Prop := match e with EPair a b => ftarget a /\ ftarget b | EIdent x => T x = None | _ => False end.

(** Up to eight results are taken from a call. *)
Fixpoint fcore (looping : bool) (t : stmt) : Prop :=
  match t with
  | SExpr (EAss (EIdent x) r) => T x = None /\ fsimple r
  | SExpr (EAss (EPair a b) (ECall (EIdent f) args)) => ftarget a /\ ftarget b /\ tuple_len (EPair a b) <= 8 /\ T f <> None /\ fsimple_all args
  | SExpr e => fsimple e
  | SBreak => looping = true
  | SIf c a => fsimple c /\ fcore looping a
  | SIfElse c a d => fsimple c /\ fcore looping a /\ fcore looping d
  | SWhile c b | SDo b c => fsimple c /\ fcore true b
  | SComp ss => fcores looping ss
  | SReturn e => ftuple e
  | SFunc _ _ _ => False
  end
with fcores (looping : bool) (ss : stmts) : Prop := match ss with SNil => True | SCons s r => fcore looping s /\ fcores looping r end.

(** Types and default values of parameters. *)
Definition fparam (p : param) : Prop :=
  match fst (snd p) with Some t => ftype t | None => True end /\ match snd (snd p) with Some d => fsimple d | None => True end.
End Defined.

(** The variables a program mentions. *)
Fixpoint fnamed (e : expr) : list (list Z) :=
  match e with
  | EIdent x => [x]
  | EUn _ a => fnamed a
  | EBin _ a b | EAnd a b | EOr a b | EPair a b | EAss a b => fnamed a ++ fnamed b
  | ECall (EIdent _) args => fnamed_all args
  | _ => []
  end
with fnamed_all (es : exprs) : list (list Z) := match es with ENil => [] | ECons e r => fnamed e ++ fnamed_all r end.
Fixpoint fmentions (t : stmt) : list (list Z) :=
  match t with
  | SExpr e | SReturn e => fnamed e
  | SIf c a => fnamed c ++ fmentions a
  | SIfElse c a d => fnamed c ++ fmentions a ++ fmentions d
  | SWhile c b | SDo b c => fnamed c ++ fmentions b
  | SComp ss => fmentions_all ss
  | _ => []
  end
with fmentions_all (ss : stmts) : list (list Z) := match ss with SNil => [] | SCons s r => fmentions s ++ fmentions_all r end.

(** The names, each once. *)
Definition once (xs : list (list Z)) : list (list Z) := nodup (list_eq_dec Z.eq_dec) xs.

(** The variables mentioned by the default values of the parameters; the names of types mentioned by their types. *)
Definition default_names (ps : list param) : list (list Z) := flat_map (fun p => match snd (snd p) with Some d => fnamed d | None => [] end) ps.
Definition kind_names (ps : list param) : list (list Z) := flat_map (fun p => match fst (snd p) with Some t => type_names t | None => [] end) ps.

(** The text of a program: its definitions, then its statements. *)
Definition maybe (o : option expr) : oexpr := match o with Some e => OYes e | None => ONo end.
Fixpoint plain (ps : list param) : params := match ps with [] => ANil | (x, (ty, df)) :: r => ACons x (maybe ty) (maybe df) (plain r) end.
Fixpoint program (ds : list definition) (ss : stmts) : stmts :=
  match ds with
  | [] => ss
  | (f, (ps, body)) :: r => SCons (SFunc f (plain ps) body) (program r ss)
  end.

(** What the program does, after [n] nested rounds and calls, when [d] calls may be under way. *)
Definition ftold (ds : list definition) (ss : stmts) (n : nat) (d : option nat) : told fate :=
  fstmt (defined ds) n d None nothing (SComp ss).
