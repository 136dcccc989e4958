(** What a program writes while it runs: the imperative core of WhileSpec.v with calls of print. *)
From Coq Require Import ZArith List Bool.
From Verif Require Import Base FloatModel ValueModel AstModel CalcSpec WhileSpec.
Import ListNotations.
Open Scope Z_scope.

Definition the_print : list Z := [112; 114; 105; 110; 116].

(** The values of arguments; the last one is computed first. *)
Fixpoint given (s : store) (es : exprs) : ending :=
  match es with
  | ENil => Gives []
  | ECons e r =>
    match given s r with
    | Gives vs => match says s e with AVal v => Gives (v :: vs) | ALost => Lost | _ => Fails end
    | x => x
    end
  end.

(** The texts written, each by one call of print, and how it ended; [None]: it did not, within the number of rounds. *)
Definition deed : Type := list (list Z) * option ending.
Definition ends (r : ending) : deed := ([], Some r).
Definition andso (d : deed) (f : ending -> deed) : deed :=
  match snd d with Some r => (fst d ++ fst (f r), snd (f r)) | None => d end.

Section Acts.
Variable text : value -> list Z.
Variable again : store -> stmt -> deed.

Fixpoint acts (s : store) (t : stmt) : deed :=
  match t with
  | SExpr (EAss (EIdent x) e) => match says s e with AVal v => ends (Falls (put_in s x v)) | ALost => ends Lost | _ => ends Fails end
  | SExpr (ECall _ args) => match given s args with Gives vs => ([concat (map text vs)], Some (Falls s)) | r => ends r end
  | SExpr _ | SFunc _ _ _ => ends Fails
  | SBreak => ends (Breaks s)
  | SIf c t => match tests s c with Yes => acts s t | No => ends (Falls s) | Bad r => ends r end
  | SIfElse c t f => match tests s c with Yes => acts s t | No => acts s f | Bad r => ends r end
  | SWhile c b =>
    match tests s c with
    | Yes => andso (acts s b) (fun r => match r with Falls s1 => again s1 (SWhile c b) | Breaks s1 => ends (Falls s1) | _ => ends r end)
    | No => ends (Falls s)
    | Bad r => ends r
    end
  | SDo b c =>
    andso (acts s b) (fun r =>
    match r with
    | Falls s1 => match tests s1 c with Yes => again s1 (SDo b c) | No => ends (Falls s1) | Bad q => ends q end
    | Breaks s1 => ends (Falls s1)
    | _ => ends r
    end)
  | SComp ss => acts_all s ss
  | SReturn e => ends (tells s e)
  end
with acts_all (s : store) (ss : stmts) : deed :=
  match ss with
  | SNil => ends (Falls s)
  | SCons t r => andso (acts s t) (fun q => match q with Falls s1 => acts_all s1 r | _ => ends q end)
  end.
End Acts.

(** With [n] rounds of loops. *)
Fixpoint act (text : value -> list Z) (n : nat) (s : store) (t : stmt) : deed :=
  match n with
  | O => ([], None)
  | S n' => acts text (act text n') s t
  end.
Definition acting (text : value -> list Z) (ss : stmts) (n : nat) : deed := act text n nothing (SComp ss).

(** [t] has been written at some time. *)
Definition sometime (text : value -> list Z) (ss : stmts) (t : list Z) : Prop :=
  exists n ws rest, fst (acting text ss n) = ws ++ rest /\ t = concat ws.

(** Which programs these are. *)
Fixpoint simple_all (es : exprs) : Prop := match es with ENil => True | ECons e r => simple e /\ simple_all r end.
Fixpoint tcore (looping : bool) (s : stmt) : Prop :=
  match s with
  | SExpr (EAss (EIdent _) e) => simple e
  | SExpr (ECall (EIdent f) args) => f = the_print /\ simple_all args
  | SExpr _ | SFunc _ _ _ => False
  | SBreak => looping = true
  | SIf c t => simple c /\ tcore looping t
  | SIfElse c t f => simple c /\ tcore looping t /\ tcore looping f
  | SWhile c b | SDo b c => simple c /\ tcore true b
  | SComp ss => tcores looping ss
  | SReturn e => simples e
  end
with tcores (looping : bool) (ss : stmts) : Prop := match ss with SNil => True | SCons s r => tcore looping s /\ tcores looping r end.

(** The variables a program mentions. *)
Fixpoint tnamed_all (es : exprs) : list (list Z) := match es with ENil => [] | ECons e r => named e ++ tnamed_all r end.
Fixpoint tnames (s : stmt) : list (list Z) :=
  match s with
  | SExpr (ECall _ args) => tnamed_all args
  | SExpr e | SReturn e => named e
  | SIf c t => named c ++ tnames t
  | SIfElse c t f => named c ++ tnames t ++ tnames f
  | SWhile c b | SDo b c => named c ++ tnames b
  | SComp ss => tnames_all ss
  | _ => []
  end
with tnames_all (ss : stmts) : list (list Z) := match ss with SNil => [] | SCons s r => tnames s ++ tnames_all r end.
