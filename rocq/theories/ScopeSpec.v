(** Variables as the language describes them (C31, C39): a scope is a history of assignments; a name means the last value
    assigned to it in the innermost scope that assigned it. *)
From Coq Require Import ZArith List Bool.
From Verif Require Import Base ValueModel MapSpec.
Import ListNotations.
Open Scope Z_scope.

Definition scope_history := list (list Z * value).

Definition name_eqb (a b : list Z) : bool := if list_eq_dec Z.eq_dec a b then true else false.

(** The value of [name] after the assignments [h]. *)
Definition assigned (h : scope_history) (name : list Z) : option value := last_stored name_eqb h name.

(** The value of [name] where the scopes [hs] are visible, innermost first. *)
Fixpoint visible (hs : list scope_history) (name : list Z) : option value :=
  match hs with
  | [] => None
  | h :: r => match assigned h name with Some v => Some v | None => visible r name end
  end.
