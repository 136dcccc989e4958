(** Specification of maps: association lists in order of first insertion, up to a key equality. *)
From Coq Require Import List.
Import ListNotations.

Section Spec.
Context {K V : Type}.
Variable eqb : K -> K -> bool.

Fixpoint a_read (l : list (K * V)) (k : K) : option V :=
  match l with
  | [] => None
  | (k', v) :: r => if eqb k k' then Some v else a_read r k
  end.

Fixpoint a_store (l : list (K * V)) (k : K) (v : V) : list (K * V) :=
  match l with
  | [] => [(k, v)]
  | (k', v') :: r => if eqb k k' then (k', v) :: r else (k', v') :: a_store r k v
  end.

Definition a_stores (h : list (K * V)) : list (K * V) :=
  fold_left (fun l kv => a_store l (fst kv) (snd kv)) h [].

(** The last value stored under a key in a history, directly. *)
Definition last_stored (h : list (K * V)) (k : K) : option V :=
  fold_left (fun acc kv => if eqb k (fst kv) then Some (snd kv) else acc) h None.

(** The keys of a history, each kept where it first occurs. *)
Definition firsts (ks : list K) : list K :=
  fold_left (fun acc k => if existsb (eqb k) acc then acc else acc ++ [k]) ks [].

(** How many different keys a history stores under. *)
Definition distinct (h : list (K * V)) : nat := length (firsts (map fst h)).

End Spec.
