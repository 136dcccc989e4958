(** Specification of growable sequences. *)
From Coq Require Import ZArith List Bool.
From Verif Require Import Base.
Import ListNotations.
Open Scope Z_scope.

Section Seq.
Context {A : Type}.

(** The [i]-th element. *)
Definition seq_get (s : list A) (i : Z) : option A := zget s i.

(** Store at [i]: replace, append at the end, or reject. *)
Definition seq_set (s : list A) (i : Z) (v : A) : option (list A) :=
  let n := Z.of_nat (length s) in
  if i =? n then Some (s ++ [v])
  else if (0 <=? i) && (i <? n) then Some (firstn (Z.to_nat i) s ++ v :: skipn (S (Z.to_nat i)) s)
  else None.

(** A history of stores with the verdict of each. *)
Fixpoint seq_run (s : list A) (ops : list (Z * A)) : list A * list bool :=
  match ops with
  | [] => (s, [])
  | (i, v) :: r =>
    match seq_set s i v with
    | Some s' => let (s2, bs) := seq_run s' r in (s2, true :: bs)
    | None => let (s2, bs) := seq_run s r in (s2, false :: bs)
    end
  end.
End Seq.
