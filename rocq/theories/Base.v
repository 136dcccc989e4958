(** Shared helpers: machine integers, list update, and generic lemmas.
    Nothing here models a specific function of /repo. *)
From Coq Require Import ZArith List Lia Bool.
Import ListNotations.
Open Scope Z_scope.

(** Conversion to a 32-bit unsigned int (C: implicit conversion to [unsigned int]). *)
Definition u32 (x : Z) : Z := x mod 2^32.
(** Conversion to a 32-bit signed int (C: implicit conversion to [int], gcc semantics). *)
Definition wrap32 (x : Z) : Z := (x + 2^31) mod 2^32 - 2^31.
(** Conversion to a 64-bit unsigned integer. *)
Definition u64 (x : Z) : Z := x mod 2^64.
(** Conversion to a 64-bit signed integer. *)
Definition wrap64 (x : Z) : Z := (x + 2^63) mod 2^64 - 2^63.

Definition int_min : Z := - 2^31.
Definition int_max : Z := 2^31 - 1.
Definition i64_min : Z := - 2^63.
Definition i64_max : Z := 2^63 - 1.
Definition in_int (x : Z) : Prop := - 2^31 <= x < 2^31.
Definition in_i64 (x : Z) : Prop := - 2^63 <= x < 2^63.
Definition is_byte (b : Z) : Prop := 0 <= b < 256.

Lemma wrap32_id x : in_int x -> wrap32 x = x.
Proof.
  unfold in_int, wrap32. intros H.
  rewrite Z.mod_small; lia.
Qed.

Lemma wrap32_range x : in_int (wrap32 x).
Proof.
  unfold in_int, wrap32.
  pose proof (Z.mod_pos_bound (x + 2^31) (2^32) ltac:(lia)). lia.
Qed.

Lemma wrap64_id x : in_i64 x -> wrap64 x = x.
Proof.
  unfold in_i64, wrap64. intros H.
  rewrite Z.mod_small; lia.
Qed.

Lemma wrap64_range x : in_i64 (wrap64 x).
Proof.
  unfold in_i64, wrap64.
  pose proof (Z.mod_pos_bound (x + 2^63) (2^64) ltac:(lia)). lia.
Qed.

Lemma u32_range x : 0 <= u32 x < 2^32.
Proof. unfold u32. apply Z.mod_pos_bound. lia. Qed.

Lemma u32_id x : 0 <= x < 2^32 -> u32 x = x.
Proof. unfold u32. intros. apply Z.mod_small. lia. Qed.

(** Array write; no effect out of bounds (callers check bounds and report UB). *)
Fixpoint upd {A} (l : list A) (i : nat) (x : A) : list A :=
  match l, i with
  | [], _ => []
  | _ :: t, O => x :: t
  | h :: t, S i' => h :: upd t i' x
  end.

Lemma upd_length {A} (l : list A) i x : length (upd l i x) = length l.
Proof. revert i; induction l; destruct i; simpl; auto. Qed.

Lemma nth_error_upd_same {A} (l : list A) i x :
  (i < length l)%nat -> nth_error (upd l i x) i = Some x.
Proof.
  revert i; induction l; destruct i; simpl; intros; try lia; auto.
  apply IHl. lia.
Qed.

Lemma nth_error_upd_other {A} (l : list A) i j x :
  i <> j -> nth_error (upd l i x) j = nth_error l j.
Proof.
  revert i j; induction l; destruct i, j; simpl; intros; try congruence; auto.
Qed.

Lemma nth_upd_same {A} (l : list A) i x d :
  (i < length l)%nat -> nth i (upd l i x) d = x.
Proof.
  revert i; induction l; destruct i; simpl; intros; try lia; auto.
  apply IHl. lia.
Qed.

Lemma nth_upd_other {A} (l : list A) i j x d :
  i <> j -> nth j (upd l i x) d = nth j l d.
Proof.
  revert i j; induction l; destruct i, j; simpl; intros; try congruence; auto.
Qed.

Lemma nth_error_nth_eq {A} (l : list A) i d x :
  nth_error l i = Some x -> nth i l d = x.
Proof. apply nth_error_nth. Qed.

Lemma nth_error_Some_lt {A} (l : list A) i x :
  nth_error l i = Some x -> (i < length l)%nat.
Proof. intros H. apply nth_error_Some. congruence. Qed.

(** [Z]-indexed array read: [None] means the access is out of bounds. *)
Definition zget {A} (l : list A) (i : Z) : option A :=
  if i <? 0 then None else nth_error l (Z.to_nat i).

Lemma zget_Some {A} (l : list A) i x :
  zget l i = Some x <-> 0 <= i /\ nth_error l (Z.to_nat i) = Some x.
Proof.
  unfold zget. destruct (Z.ltb_spec i 0); split; intros; try easy; try lia.
Qed.

Lemma zget_in_range {A} (l : list A) i :
  0 <= i < Z.of_nat (length l) -> exists x, zget l i = Some x.
Proof.
  intros H. unfold zget. destruct (Z.ltb_spec i 0); [lia|].
  destruct (nth_error l (Z.to_nat i)) eqn:E; eauto.
  apply nth_error_None in E. lia.
Qed.

Lemma zget_lt {A} (l : list A) i x :
  zget l i = Some x -> 0 <= i < Z.of_nat (length l).
Proof.
  intros H. apply zget_Some in H. destruct H as [H1 H2].
  apply nth_error_Some_lt in H2. lia.
Qed.

(** Case analysis on the first boolean comparison in the goal. *)
Ltac bcase :=
  match goal with
  | |- context [Z.ltb ?a ?b] => destruct (Z.ltb_spec a b)
  | |- context [Z.leb ?a ?b] => destruct (Z.leb_spec a b)
  | |- context [Z.eqb ?a ?b] => destruct (Z.eqb_spec a b)
  | |- context [Nat.ltb ?a ?b] => destruct (Nat.ltb_spec a b)
  | |- context [Nat.leb ?a ?b] => destruct (Nat.leb_spec a b)
  | |- context [Nat.eqb ?a ?b] => destruct (Nat.eqb_spec a b)
  end.
