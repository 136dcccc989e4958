(** What tokenizing should give, stated on the text alone (no model of code in /repo here). *)
From Coq Require Import ZArith List Bool.
From Verif Require Import Base LexModel.
Import ListNotations.
Open Scope Z_scope.

(** A space, tab, newline, vertical tab, form feed or carriage return. *)
Definition white (c : Z) : Prop := c = 32 \/ 9 <= c <= 13.

(** Text with nothing but whitespace and comments; a comment runs from # to the end of its line. *)
Inductive gap : list Z -> Prop :=
| gap_nil : gap []
| gap_white c r : white c -> gap r -> gap (c :: r)
| gap_comment body r : ~ In 10 body -> gap r -> gap (35 :: body ++ 10 :: r).

(** The same where the text ends: the last comment need not end with a newline. *)
Inductive last_gap : list Z -> Prop :=
| last_plain g : gap g -> last_gap g
| last_comment g body : gap g -> ~ In 10 body -> last_gap (g ++ 35 :: body).

(** The bytes of [src] from offset [a] up to, not including, offset [b]. *)
Definition slice (src : list Z) (a b : Z) : list Z := firstn (Z.to_nat (b - a)) (skipn (Z.to_nat a) src).

(** [l] covers [src] from offset [from]: between tokens there are only gaps, the tokens are not empty and lie inside the text,
    and one end token, at the end of the text, closes the list. *)
Fixpoint tiles (src : list Z) (from : Z) (l : list token) : Prop :=
  match l with
  | [] => False
  | t :: r =>
    from <= t_off t /\
    match r with
    | [] => t_kind t = KDone /\ t_len t = 0 /\ t_off t = Z.of_nat (length src) /\ last_gap (slice src from (t_off t))
    | _ => t_kind t <> KDone /\ 0 < t_len t /\ t_off t + t_len t <= Z.of_nat (length src) /\
           gap (slice src from (t_off t)) /\ tiles src (t_off t + t_len t) r
    end
  end.

(** The operator characters and the operators of the language. *)
Definition op_char (c : Z) : Prop := In c [43; 45; 42; 47; 60; 62; 33; 61; 44; 124; 37].
Definition op_kind (w : list Z) (k : kind) : Prop :=
  In (w, k) [([43], KC 43); ([45], KC 45); ([42], KC 42); ([47], KC 47); ([61;61], KEql); ([33;61], KNql); ([60], KC 60);
             ([60;61], KLeq); ([62], KC 62); ([62;61], KGeq); ([61], KC 61); ([44], KC 44); ([124], KC 124); ([37], KC 37);
             ([45;62], KArw)].

(** The tokens of a run of operator characters, as pairs of kind and length: an operator if the run is exactly one, otherwise
    its first character alone and then the rest. *)
Inductive run_tokens : list Z -> list (kind * Z) -> Prop :=
| run_nil : run_tokens [] []
| run_op w k : op_kind w k -> run_tokens w [(k, Z.of_nat (length w))]
| run_split c r l : (forall k, ~ op_kind (c :: r) k) -> run_tokens r l -> run_tokens (c :: r) ((KC c, 1) :: l).
