(** Lemmas about arithmetic and comparison operators. *)
From Coq Require Import ZArith List Lia Bool.
From Coq Require Import Floats.SpecFloat.
From Verif Require Import Base FloatModel StringModel ValueModel ExeModel ArithModel TextProofs.
Import ListNotations.
Open Scope Z_scope.

Lemma int_res_in z : in_i64 z -> int_res z = ROk (VInt z).
Proof. unfold in_i64, int_res. intros [H1 H2]. destruct (Z.leb_spec (-2^63) z); [|lia]. destruct (Z.ltb_spec z (2^63)); [reflexivity|lia]. Qed.

Lemma int_res_out z : ~ in_i64 z -> int_res z = RUB.
Proof.
  unfold in_i64, int_res. intros H. destruct (Z.leb_spec (-2^63) z); [|reflexivity].
  destruct (Z.ltb_spec z (2^63)); [exfalso; apply H; lia|reflexivity].
Qed.

(** SFcompare is a total preorder on floats other than NaN. *)
Lemma sfc_antisym a b : SFcompare b a = match SFcompare a b with Some c => Some (CompOpp c) | None => None end.
Proof.
  destruct a as [[]|[]| |[] ma ea], b as [[]|[]| |[] mb eb]; cbn; try reflexivity;
  rewrite (Z.compare_antisym ea eb); destruct (ea ?= eb); cbn; try reflexivity;
  change (Pos.compare_cont Eq mb ma) with (mb ?= ma)%positive; change (Pos.compare_cont Eq ma mb) with (ma ?= mb)%positive;
  rewrite (Pos.compare_antisym ma mb); destruct (ma ?= mb)%positive; reflexivity.
Qed.

Lemma sfc_defined a b : a <> S754_nan -> b <> S754_nan -> exists c, SFcompare a b = Some c.
Proof.
  destruct a as [[]|[]| |[] ma ea], b as [[]|[]| |[] mb eb]; intros H1 H2; try congruence; cbn; try (eexists; reflexivity);
  destruct (ea ?= eb); eexists; reflexivity.
Qed.

Lemma sfc_lt_trans a b c : SFcompare a b = Some Lt -> SFcompare b c = Some Lt -> SFcompare a c = Some Lt.
Proof.
  destruct a as [[]|[]| |[] ma ea], b as [[]|[]| |[] mb eb], c as [[]|[]| |[] mc ec]; cbn; intros H1 H2; try discriminate; try reflexivity.
  - destruct (Z.compare_spec ea eb), (Z.compare_spec eb ec), (Z.compare_spec ea ec); try discriminate; try lia; try reflexivity;
    change (Pos.compare_cont Eq) with Pos.compare in *; injection H1 as H1; injection H2 as H2;
    destruct (Pos.compare_spec ma mb), (Pos.compare_spec mb mc), (Pos.compare_spec ma mc); try discriminate; try lia; reflexivity.
  - destruct (Z.compare_spec ea eb), (Z.compare_spec eb ec), (Z.compare_spec ea ec); try discriminate; try lia; try reflexivity;
    change (Pos.compare_cont Eq) with Pos.compare in *; injection H1 as H1; injection H2 as H2;
    destruct (Pos.compare_spec ma mb), (Pos.compare_spec mb mc), (Pos.compare_spec ma mc); try discriminate; try lia; reflexivity.
Qed.

(** The operators seen through [SFcompare]. *)
Lemma f_lt_cmp a b : f_lt a b = match SFcompare (f_decode a) (f_decode b) with Some Lt => true | _ => false end.
Proof. unfold f_lt, SFltb. destruct (SFcompare _ _) as [[]|]; reflexivity. Qed.
Lemma f_le_cmp a b : f_le a b = match SFcompare (f_decode a) (f_decode b) with Some (Lt | Eq) => true | _ => false end.
Proof. unfold f_le, SFleb. destruct (SFcompare _ _) as [[]|]; reflexivity. Qed.
Lemma f_eq_cmp a b : f_eq a b = match SFcompare (f_decode a) (f_decode b) with Some Eq => true | _ => false end.
Proof. unfold f_eq, SFeqb. destruct (SFcompare _ _) as [[]|]; reflexivity. Qed.

(** The answers of the four relational operators and of equality on two values of the same kind. *)
Definition answers (rt : nat -> tyname) (a b : value) (lt eq gt : bool) : Prop :=
  rel_op OP_LSS a b = ROk lt /\ obj_compare rt a b = Some eq /\ rel_op OP_GRT a b = ROk gt /\
  rel_op OP_LEQ a b = ROk (lt || eq) /\ rel_op OP_GEQ a b = ROk (gt || eq).

Definition exactly_one (a b c : bool) : Prop :=
  (a = true /\ b = false /\ c = false) \/ (a = false /\ b = true /\ c = false) \/ (a = false /\ b = false /\ c = true).

Lemma int_answers rt x y : exists lt eq gt, answers rt (VInt x) (VInt y) lt eq gt /\ exactly_one lt eq gt.
Proof.
  exists (x <? y), (x =? y), (y <? x). unfold answers, exactly_one. cbn.
  destruct (Z.ltb_spec x y), (Z.eqb_spec x y), (Z.ltb_spec y x), (Z.leb_spec x y), (Z.leb_spec y x); cbn; try lia; auto 10.
Qed.

Lemma flt_answers rt x y : f_decode x <> S754_nan -> f_decode y <> S754_nan ->
  exists lt eq gt, answers rt (VFloat x) (VFloat y) lt eq gt /\ exactly_one lt eq gt.
Proof.
  intros Hx Hy. exists (f_lt x y), (f_eq x y), (f_lt y x). unfold answers, exactly_one. cbn.
  rewrite !f_lt_cmp, !f_le_cmp, !f_eq_cmp, (sfc_antisym (f_decode x) (f_decode y)).
  destruct (sfc_defined _ _ Hx Hy) as [[] E]; rewrite E; cbn; auto 20.
Qed.

Lemma int_lt_trans a b c : rel_op OP_LSS (VInt a) (VInt b) = ROk true -> rel_op OP_LSS (VInt b) (VInt c) = ROk true ->
  rel_op OP_LSS (VInt a) (VInt c) = ROk true.
Proof.
  cbn. intros H1 H2. injection H1 as H1. injection H2 as H2. apply Z.ltb_lt in H1, H2. f_equal. apply Z.ltb_lt. lia.
Qed.

Lemma flt_lt_trans a b c : rel_op OP_LSS (VFloat a) (VFloat b) = ROk true -> rel_op OP_LSS (VFloat b) (VFloat c) = ROk true ->
  rel_op OP_LSS (VFloat a) (VFloat c) = ROk true.
Proof.
  cbn. rewrite !f_lt_cmp.
  destruct (SFcompare (f_decode a) (f_decode b)) as [[]|] eqn:E1; try discriminate.
  destruct (SFcompare (f_decode b) (f_decode c)) as [[]|] eqn:E2; try discriminate.
  rewrite (sfc_lt_trans _ _ _ E1 E2). reflexivity.
Qed.

Lemma division_law a b : in_i64 a -> in_i64 b -> b <> 0 -> ~ (a = - 2^63 /\ b = -1) ->
  exists q r, math_op OP_DIV (VInt a) (VInt b) = ROk (VInt q) /\ mod_op (VInt a) (VInt b) = ROk (VInt r) /\
    a = q * b + r /\ Z.abs r < Z.abs b /\ 0 <= r * a.
Proof.
  intros Ha Hb Hb0 Hn. exists (Z.quot a b), (Z.rem a b).
  assert (Hq : in_i64 (Z.quot a b)).
  { unfold in_i64 in *. destruct (Z.eq_dec b (-1)) as [->|H1].
    - assert (a <> - 2^63) by tauto. replace (Z.quot a (-1)) with (- a) by (change (-1) with (- (1)); rewrite Z.quot_opp_r, Z.quot_1_r by lia; reflexivity). lia.
    - destruct (Z.eq_dec b 1) as [->|H2]; [rewrite Z.quot_1_r; lia|].
      assert (Z.abs (Z.quot a b) * 2 <= Z.abs a); [|lia].
      rewrite <- Z.quot_abs by lia. assert (2 <= Z.abs b) by lia.
      rewrite Z.quot_div_nonneg by lia.
      pose proof (Z.mul_div_le (Z.abs a) (Z.abs b) ltac:(lia)). nia. }
  unfold math_op, math_int, mod_op. destruct (Z.eqb_spec b 0); [contradiction|].
  split; [apply int_res_in; exact Hq|]. split.
  - unfold in_i64 in Hq. destruct (Z.leb_spec (-2^63) (Z.quot a b)); [|lia]. destruct (Z.ltb_spec (Z.quot a b) (2^63)); [reflexivity|lia].
  - split; [pose proof (Z.quot_rem a b Hb0); lia|]. split; [apply Z.rem_bound_abs; exact Hb0|apply Z.rem_sign_mul; exact Hb0].
Qed.
