(** What it means for a text to be the decimal representation of a number. *)
From Coq Require Import ZArith List.
Import ListNotations.
Open Scope Z_scope.

(** One digit, or the representation of a positive number followed by one more digit (48 is the character 0). *)
Inductive decimal : Z -> list Z -> Prop :=
| dec_digit d : 0 <= d <= 9 -> decimal d [48 + d]
| dec_more q s d : 0 < q -> decimal q s -> 0 <= d <= 9 -> decimal (10 * q + d) (s ++ [48 + d]).
