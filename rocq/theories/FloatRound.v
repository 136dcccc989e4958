(** Rounding to double never crosses an integer below 2^53; integers of that size are represented exactly. *)
From Coq Require Import ZArith Lia Bool.
From Coq Require Import Floats.SpecFloat.
From Verif Require Import Base FloatModel FloatProofs.
Open Scope Z_scope.

(** The number [m], [l] above it, is at most [k]. *)
Definition ub (k m : Z) (l : location) : Prop := match l with loc_Exact => m <= k | loc_Inexact _ => m < k end.

Lemma shr_1_ub r k : 0 <= shr_m r -> ub (2 * k) (shr_m r) (loc_of_shr_record r) -> ub k (shr_m (shr_1 r)) (loc_of_shr_record (shr_1 r)).
Proof.
  destruct r as [m a b]. intros H. cbn [shr_m] in *. set (j := 2 * k). assert (J : j = 2 * k) by reflexivity. clearbody j.
  destruct m as [|[p|p|]|p]; try lia; destruct a, b; cbn; lia.
Qed.

Lemma shr_1_nonneg r : 0 <= shr_m r -> 0 <= shr_m (shr_1 r).
Proof. intros H. rewrite shr_1_m by auto. apply Z.div_pos; lia. Qed.

Lemma shr_iter_nonneg p r : 0 <= shr_m r -> 0 <= shr_m (iter_pos shr_1 p r).
Proof. intros H. rewrite shr_iter_m by auto. apply Z.div_pos; lia. Qed.

Lemma shr_iter_ub p : forall r k, 0 <= shr_m r -> ub (k * 2 ^ Zpos p) (shr_m r) (loc_of_shr_record r) ->
  ub k (shr_m (iter_pos shr_1 p r)) (loc_of_shr_record (iter_pos shr_1 p r)).
Proof.
  induction p as [p IH|p IH|]; intros r k H U; cbn [iter_pos].
  - apply IH; [apply shr_iter_nonneg, shr_1_nonneg; auto|].
    apply IH; [apply shr_1_nonneg; auto|]. apply shr_1_ub; [auto|].
    replace (Zpos p~1) with (1 + (Zpos p + Zpos p)) in U by lia. rewrite !Z.pow_add_r in U by lia.
    replace (2 * (k * 2 ^ Zpos p * 2 ^ Zpos p)) with (k * (2 ^ 1 * (2 ^ Zpos p * 2 ^ Zpos p))) by lia. exact U.
  - apply IH; [apply shr_iter_nonneg; auto|]. apply IH; [auto|].
    replace (Zpos p~0) with (Zpos p + Zpos p) in U by lia. rewrite Z.pow_add_r in U by lia.
    rewrite <- Z.mul_assoc. exact U.
  - apply shr_1_ub; [auto|]. rewrite Z.mul_comm. exact U.
Qed.

Lemma Zdigits_pos m : 0 < m -> 2 ^ (Zdigits2 m - 1) <= m < 2 ^ Zdigits2 m.
Proof. destruct m as [|p|p]; try lia. intros _. apply digits_bounds. Qed.

Lemma Zdigits_le m k : 0 <= m < 2 ^ k -> 0 <= k -> Zdigits2 m <= k.
Proof.
  intros [H0 H] Hk. destruct (Z.eq_dec m 0) as [->|N]; [cbn; lia|].
  pose proof (Zdigits_pos m ltac:(lia)) as [L _]. destruct (Z.le_gt_cases (Zdigits2 m) k); [auto|].
  assert (2 ^ k <= 2 ^ (Zdigits2 m - 1)) by (apply Z.pow_le_mono_r; lia). lia.
Qed.

Lemma Zdigits_ge m k : 2 ^ k <= m -> 0 <= k -> k < Zdigits2 m.
Proof.
  intros H Hk. assert (0 < 2 ^ k) by (apply Z.pow_pos_nonneg; lia). pose proof (Zdigits_pos m ltac:(lia)) as [_ U].
  destruct (Z.lt_ge_cases k (Zdigits2 m)); [auto|].
  assert (2 ^ Zdigits2 m <= 2 ^ k) by (apply Z.pow_le_mono_r; lia). lia.
Qed.

Lemma pow_split e e' : e <= e' <= 0 -> 2 ^ (- e) = 2 ^ (- e') * 2 ^ (e' - e).
Proof. intros H. rewrite <- Z.pow_add_r by lia. f_equal. lia. Qed.

Definition normal (m e : Z) : Prop := 0 <= m < 2 ^ 53 /\ -1074 <= e /\ (2 ^ 52 <= m \/ e = -1074).

Lemma shr_fexp_between m e l lo hi : 0 <= m -> e <= 0 -> 0 <= lo -> hi < 2 ^ 53 ->
  lo * 2 ^ (- e) <= m -> ub (hi * 2 ^ (- e)) m l -> e <= fexp prec64 emax64 (Zdigits2 m + e) ->
  let '(r, e') := shr_fexp prec64 emax64 m e l in
  e <= e' <= 0 /\ normal (shr_m r) e' /\ lo * 2 ^ (- e') <= shr_m r /\ ub (hi * 2 ^ (- e')) (shr_m r) (loc_of_shr_record r).
Proof.
  intros Hm He Hlo Hhi L U C. pose proof (shr_fexp_range m e l Hm) as R.
  unfold shr_fexp, shr in *. set (d := fexp prec64 emax64 (Zdigits2 m + e)) in *.
  assert (Hd : d = Z.max (Zdigits2 m + e - 53) (-1074)) by reflexivity.
  assert (Hs : shr_m (shr_record_of_loc m l) = m) by (destruct l as [|[]]; reflexivity).
  assert (Hl : loc_of_shr_record (shr_record_of_loc m l) = l) by (destruct l as [|[]]; reflexivity).
  assert (Hm2 : m < 2 ^ (53 - e)).
  { assert (m <= hi * 2 ^ (- e)) by (destruct l; cbn in U; lia).
    replace (53 - e) with (53 + - e) by lia. rewrite Z.pow_add_r by lia.
    assert (0 < 2 ^ (- e)) by (apply Z.pow_pos_nonneg; lia). nia. }
  pose proof (Zdigits_le m (53 - e) ltac:(lia) ltac:(lia)) as Hdig.
  assert (Hd0 : d <= 0) by lia. clearbody d.
  destruct (d - e) as [|p|p] eqn:En.
  - assert (d = e) by lia. subst e. rewrite Hs, Hl in *. destruct R as [R1 R2].
    split; [lia|]. split; [|auto]. split; [auto|]. split; [auto|].
    destruct (Z.eq_dec d (-1074)); [auto|left]. assert (Zdigits2 m = 53) by lia.
    assert (0 < m) by (destruct m; cbn in *; lia).
    pose proof (Zdigits_pos m ltac:(auto)) as [A _]. rewrite H in A. exact A.
  - assert (Ed : e + Zpos p = d) by lia. rewrite Ed in *. destruct R as [R1 R2].
    pose proof (pow_split e d ltac:(lia)) as P. replace (d - e) with (Zpos p) in P by lia. rewrite P in L, U.
    split; [lia|]. split; [|split].
    + split; [auto|]. split; [auto|]. destruct (Z.eq_dec d (-1074)); [auto|left].
      rewrite shr_iter_m by (rewrite Hs; auto). rewrite Hs. apply Z.div_le_lower_bound; [lia|].
      assert (E : Zpos p = Zdigits2 m - 53) by lia. rewrite E, <- Z.pow_add_r by lia.
      assert (0 < m) by (destruct m; cbn in *; lia).
      pose proof (Zdigits_pos m ltac:(auto)) as [A _]. replace (Zdigits2 m - 53 + 52) with (Zdigits2 m - 1) by lia. exact A.
    + rewrite shr_iter_m by (rewrite Hs; auto). rewrite Hs. apply Z.div_le_lower_bound; [lia|]. lia.
    + apply shr_iter_ub; [rewrite Hs; auto|]. rewrite Hs, Hl. rewrite <- Z.mul_assoc. exact U.
  - lia.
Qed.

(** The result of rounding lies between the integers the number lies between. *)
Definition fin_between (s : bool) (lo hi : Z) (x : spec_float) : Prop :=
  (x = S754_zero s /\ lo = 0) \/
  exists m e, x = S754_finite s m e /\ normal (Zpos m) e /\ e <= 0 /\ lo * 2 ^ (- e) <= Zpos m <= hi * 2 ^ (- e).

Lemma round_between s m e l lo hi : 0 <= m -> e <= 0 -> 0 <= lo -> hi < 2 ^ 53 ->
  lo * 2 ^ (- e) <= m -> ub (hi * 2 ^ (- e)) m l -> e <= fexp prec64 emax64 (Zdigits2 m + e) ->
  fin_between s lo hi (binary_round_aux prec64 emax64 s m e l).
Proof.
  intros Hm He Hlo Hhi L U C. unfold binary_round_aux.
  pose proof (shr_fexp_between m e l lo hi Hm He Hlo Hhi L U C) as A.
  destruct (shr_fexp prec64 emax64 m e l) as [r1 e1]. destruct A as (A1 & A2 & A3 & A4).
  set (m2 := round_nearest_even (shr_m r1) (loc_of_shr_record r1)).
  assert (B : shr_m r1 <= m2 <= hi * 2 ^ (- e1)).
  { unfold m2, round_nearest_even. destruct (loc_of_shr_record r1) as [|[]]; cbn [ub] in A4; try lia.
    destruct (Z.even (shr_m r1)); lia. }
  destruct A2 as (N1 & N2 & N3).
  assert (C2 : e1 <= fexp prec64 emax64 (Zdigits2 m2 + e1)).
  { change (e1 <= Z.max (Zdigits2 m2 + e1 - 53) (-1074)). destruct N3 as [N3|N3]; [|lia].
    pose proof (Zdigits_ge m2 52 ltac:(lia) ltac:(lia)). lia. }
  pose proof (shr_fexp_between m2 e1 loc_Exact lo hi ltac:(lia) ltac:(lia) Hlo Hhi ltac:(lia) ltac:(cbn; lia) C2) as D.
  destruct (shr_fexp prec64 emax64 m2 e1 loc_Exact) as [r3 e3]. destruct D as (D1 & D2 & D3 & D4).
  assert (D5 : shr_m r3 <= hi * 2 ^ (- e3)) by (destruct (loc_of_shr_record r3); cbn in D4; lia).
  destruct D2 as (M1 & M2 & M3). assert (P3 : 0 < 2 ^ (- e3)) by (apply Z.pow_pos_nonneg; lia).
  destruct (shr_m r3) as [|p|p]; [left; split; [reflexivity|nia]| |lia].
  right. exists p, e3. destruct (Z.leb_spec e3 (emax64 - prec64)) as [_|X]; [|unfold emax64, prec64 in X; lia].
  split; [reflexivity|]. split; [split; auto|]. split; lia.
Qed.

(** ** Patterns *)

Lemma decode_encode_fin s m e : normal (Zpos m) e -> e <= 971 -> f_decode (f_encode (S754_finite s m e)) = S754_finite s m e.
Proof.
  intros (A & B & C) He. unfold f_encode. set (k := sgn_bit s).
  assert (Hk : (s = false /\ k = 0) \/ (s = true /\ k = 2 ^ 63)) by (unfold k, sgn_bit; destruct s; auto). clearbody k.
  destruct (Z.ltb_spec (Zpos m) (2 ^ 52)) as [L|L].
  - assert (e = -1074) by lia. subst e. unfold f_decode.
    assert (Ek : Zpos m + k / 2 ^ 52 * 2 ^ 52 = k + Zpos m).
    { destruct Hk as [[_ ->]|[_ ->]].
      - change (0 / 2 ^ 52) with 0. lia.
      - change (2 ^ 63 / 2 ^ 52) with 2048. change (2 ^ 63) with (2048 * 2 ^ 52). lia. }
    assert (E1 : (2 ^ 63 <=? k + Zpos m) = s) by (destruct Hk as [[-> ->]|[-> ->]]; [apply Z.leb_gt|apply Z.leb_le]; lia).
    assert (E2 : (k + Zpos m) / 2 ^ 52 mod 2048 = 0).
    { rewrite <- Ek.
      rewrite Z.div_add by lia. rewrite (Z.div_small (Zpos m)) by lia. destruct Hk as [[_ ->]|[_ ->]]; reflexivity. }
    assert (E3 : (k + Zpos m) mod 2 ^ 52 = Zpos m).
    { rewrite <- Ek.
      rewrite Z.mod_add by lia. apply Z.mod_small. lia. }
    rewrite E1, E2, E3. reflexivity.
  - set (x := k + (e + 1075) * 2 ^ 52 + (Zpos m - 2 ^ 52)).
    assert (Hf : 0 <= Zpos m - 2 ^ 52 < 2 ^ 52) by lia.
    assert (Ex : x = (Zpos m - 2 ^ 52) + (k / 2 ^ 52 + (e + 1075)) * 2 ^ 52).
    { unfold x. destruct Hk as [[_ ->]|[_ ->]].
      - change (0 / 2 ^ 52) with 0. lia.
      - change (2 ^ 63 / 2 ^ 52) with 2048. change (2 ^ 63) with (2048 * 2 ^ 52). lia. }
    assert (E1 : (2 ^ 63 <=? x) = s).
    { unfold x. destruct Hk as [[-> ->]|[-> ->]]; [apply Z.leb_gt|apply Z.leb_le]; lia. }
    assert (E2 : x / 2 ^ 52 mod 2048 = e + 1075).
    { rewrite Ex, Z.div_add by lia. rewrite (Z.div_small (Zpos m - 2 ^ 52)) by lia. rewrite Z.add_0_l.
      destruct Hk as [[_ ->]|[_ ->]].
      - change (0 / 2 ^ 52) with 0. apply Z.mod_small. lia.
      - change (2 ^ 63 / 2 ^ 52) with (1 * 2048). rewrite Z.add_comm, Z.mod_add by lia. apply Z.mod_small. lia. }
    assert (E3 : x mod 2 ^ 52 = Zpos m - 2 ^ 52).
    { rewrite Ex, Z.mod_add by lia. apply Z.mod_small. lia. }
    unfold f_decode. rewrite E1, E2, E3. destruct (Z.eqb_spec (e + 1075) 0); [lia|]. destruct (Z.eqb_spec (e + 1075) 2047); [lia|].
    replace (Zpos m - 2 ^ 52 + 2 ^ 52) with (Zpos m) by lia. f_equal. lia.
Qed.

Lemma decode_between s lo hi x : fin_between s lo hi x -> f_decode (f_encode x) = x.
Proof.
  intros [[-> _]|(m & e & -> & N & He & _)]; [destruct s; reflexivity|]. apply decode_encode_fin; [auto|lia].
Qed.

(** ** Integers *)

Lemma shift_pos_mul d m : Zpos (shift_pos d m) = Zpos m * 2 ^ Zpos d.
Proof. rewrite Zpower.shift_pos_correct. change (Z.pow_pos 2 d) with (2 ^ Zpos d). lia. Qed.

Lemma digits_shift d m : Zpos (digits2_pos (shift_pos d m)) = Zpos (digits2_pos m) + Zpos d.
Proof.
  pose proof (digits_bounds m) as [A B]. pose proof (digits_bounds (shift_pos d m)) as [C D]. rewrite shift_pos_mul in C, D.
  set (a := Zpos (digits2_pos m)) in *. set (b := Zpos (digits2_pos (shift_pos d m))) in *.
  assert (Ha : 0 < a) by (unfold a; lia). assert (Hb : 0 < b) by (unfold b; lia). clearbody a b.
  assert (P : 0 < 2 ^ Zpos d) by (apply Z.pow_pos_nonneg; lia).
  assert (L : b - 1 < a + Zpos d).
  { apply (Z.pow_lt_mono_r_iff 2); [lia|lia|]. rewrite Z.pow_add_r by lia. nia. }
  assert (U : a - 1 + Zpos d < b).
  { apply (Z.pow_lt_mono_r_iff 2); [lia|lia|]. rewrite Z.pow_add_r by lia. nia. }
  lia.
Qed.

Lemma binary_round_between s p e lo hi : e <= 0 -> 0 <= lo -> hi < 2 ^ 53 -> lo * 2 ^ (- e) <= Zpos p <= hi * 2 ^ (- e) ->
  fin_between s lo hi (binary_round prec64 emax64 s p e).
Proof.
  intros He Hlo Hhi [L U]. unfold binary_round, shl_align. set (f := fexp prec64 emax64 (Zpos (digits2_pos p) + e)).
  assert (Hf : f = fexp prec64 emax64 (Zpos (digits2_pos p) + e)) by reflexivity. clearbody f.
  destruct (f - e) as [|d|d] eqn:Ed.
  - apply round_between; auto; try lia. cbn [Zdigits2]. rewrite <- Hf. lia.
  - apply round_between; auto; try lia. cbn [Zdigits2]. rewrite <- Hf. lia.
  - pose proof (pow_split f e ltac:(lia)) as P. replace (e - f) with (Zpos d) in P by lia.
    assert (0 < 2 ^ Zpos d) by (apply Z.pow_pos_nonneg; lia).
    apply round_between; auto; try lia.
    + rewrite shift_pos_mul, P, Z.mul_assoc. apply Z.mul_le_mono_nonneg_r; lia.
    + cbn [ub]. rewrite shift_pos_mul, P, Z.mul_assoc. apply Z.mul_le_mono_nonneg_r; lia.
    + cbn [Zdigits2]. rewrite digits_shift. replace (Zpos (digits2_pos p) + Zpos d + f) with (Zpos (digits2_pos p) + e) by lia.
      rewrite <- Hf. lia.
Qed.


Lemma of_int_between z : - 2 ^ 53 < z < 2 ^ 53 ->
  exists s, fin_between s (Z.abs z) (Z.abs z) (f_decode (f_of_int z)) /\ (z < 0 -> s = true) /\ (0 <= z -> s = false).
Proof.
  intros H. unfold f_of_int, binary_normalize. destruct z as [|p|p].
  - exists false. split; [|split; auto; lia]. left. split; reflexivity.
  - exists false. split; [|split; auto; lia].
    assert (F : fin_between false (Zpos p) (Zpos p) (binary_round prec64 emax64 false p 0)) by (apply binary_round_between; cbn; lia).
    rewrite (decode_between _ _ _ _ F). exact F.
  - exists true. split; [|split; auto; lia].
    assert (F : fin_between true (Zpos p) (Zpos p) (binary_round prec64 emax64 true p 0)) by (apply binary_round_between; cbn; lia).
    rewrite (decode_between _ _ _ _ F). exact F.
Qed.

(** ** Operations *)

(** An exactly represented integer has a full mantissa. *)
Lemma exact_full s a m e : fin_between s a a (S754_finite s m e) -> 0 <= a ->
  0 < a /\ Zpos m = a * 2 ^ (- e) /\ 2 ^ 52 <= Zpos m < 2 ^ 53 /\ -52 <= e <= 0.
Proof.
  intros [[H _]|(m' & e' & H & (N1 & N2 & N3) & He & B)] Ha; [discriminate|]. injection H as <- <-.
  assert (P : 0 < 2 ^ (- e)) by (apply Z.pow_pos_nonneg; lia).
  assert (E : Zpos m = a * 2 ^ (- e)) by lia. assert (A : 0 < a) by nia.
  assert (U : - e < 53).
  { apply (Z.pow_lt_mono_r_iff 2); [lia|lia|]. nia. }
  split; [auto|]. split; [auto|]. split; [|lia]. destruct N3 as [N3|N3]; lia.
Qed.

Lemma fin_case s lo hi x : fin_between s lo hi x -> x = S754_zero s \/ exists m e, x = S754_finite s m e.
Proof. intros [[-> _]|(m & e & -> & _)]; eauto. Qed.

Lemma mul_exact a b x y : 0 <= a -> 0 <= b -> a * b < 2 ^ 53 -> fin_between false a a x -> fin_between false b b y ->
  fin_between false (a * b) (a * b) (SFmul prec64 emax64 x y).
Proof.
  intros Ha Hb Hab X Y. destruct (fin_case _ _ _ _ X) as [->|(m1 & e1 & ->)].
  { destruct X as [[_ ->]|(? & ? & ? & _)]; [|discriminate].
    destruct (fin_case _ _ _ _ Y) as [->|(m2 & e2 & ->)]; left; split; try reflexivity; lia. }
  destruct (fin_case _ _ _ _ Y) as [->|(m2 & e2 & ->)].
  { destruct Y as [[_ ->]|(? & ? & ? & _)]; [|discriminate]. left. split; [reflexivity|lia]. }
  destruct (exact_full _ _ _ _ X Ha) as (A & M1 & B1 & E1). destruct (exact_full _ _ _ _ Y Hb) as (B & M2 & B2 & E2).
  cbn [SFmul xorb].
  assert (M : Zpos (m1 * m2) = a * b * 2 ^ (- (e1 + e2))).
  { rewrite Pos2Z.inj_mul, M1, M2. replace (- (e1 + e2)) with (- e1 + - e2) by lia. rewrite Z.pow_add_r by lia. lia. }
  apply round_between; try lia.
  - cbn [ub]. lia.
  - change (e1 + e2 <= Z.max (Zdigits2 (Zpos (m1 * m2)) + (e1 + e2) - 53) (-1074)).
    assert (2 ^ 104 <= Zpos (m1 * m2)) by (rewrite Pos2Z.inj_mul; change (2 ^ 104) with (2 ^ 52 * 2 ^ 52); nia).
    pose proof (Zdigits_ge _ 104 H ltac:(lia)). lia.
Qed.

Lemma full_digits m : 2 ^ 52 <= m < 2 ^ 53 -> Zdigits2 m = 53.
Proof.
  intros H. pose proof (Zdigits_ge m 52 ltac:(lia) ltac:(lia)). pose proof (Zdigits_le m 53 ltac:(lia) ltac:(lia)). lia.
Qed.

Lemma div_between p r d x y : 0 <= p -> 0 < r -> 0 <= d < 2 ^ 53 -> p <= d * r -> fin_between false p p x -> fin_between false r r y ->
  fin_between false 0 d (SFdiv prec64 emax64 x y).
Proof.
  intros Hp Hr Hd Hle X Y. destruct (fin_case _ _ _ _ Y) as [->|(m2 & e2 & ->)].
  { destruct Y as [[_ ->]|(? & ? & ? & _)]; [lia|discriminate]. }
  destruct (fin_case _ _ _ _ X) as [->|(m1 & e1 & ->)]; [left; split; reflexivity|].
  destruct (exact_full _ _ _ _ X Hp) as (A & M1 & B1 & E1). destruct (exact_full _ _ _ _ Y ltac:(lia)) as (B & M2 & B2 & E2).
  cbn [SFdiv xorb]. unfold SFdiv_core_binary. rewrite !full_digits by assumption.
  replace (Z.min (fexp prec64 emax64 (53 + e1 - (53 + e2))) (e1 - e2)) with (e1 - e2 - 53)
    by (change (fexp prec64 emax64 (53 + e1 - (53 + e2))) with (Z.max (53 + e1 - (53 + e2) - 53) (-1074)); lia).
  replace (e1 - e2 - (e1 - e2 - 53)) with 53 by lia. rewrite Z.shiftl_mul_pow2 by lia.
  set (m' := Zpos m1 * 2 ^ 53).
  destruct (Z.div_eucl m' (Zpos m2)) as [q rem] eqn:D.
  pose proof (Z_div_mod m' (Zpos m2) ltac:(lia)) as DM. rewrite D in DM. destruct DM as [DM R].
  set (e' := e1 - e2 - 53). assert (P' : 0 < 2 ^ (- e')) by (apply Z.pow_pos_nonneg; lia).
  assert (Q : 2 ^ 52 <= q).
  { assert (2 ^ 52 * 2 ^ 53 <= m') by (unfold m'; nia). nia. }
  assert (K : m' <= d * 2 ^ (- e') * Zpos m2).
  { unfold m'. rewrite M1, M2.
    replace (p * 2 ^ (- e1) * 2 ^ 53) with (p * 2 ^ (- e' - e2)) by (rewrite <- Z.mul_assoc, <- Z.pow_add_r by lia; f_equal; f_equal; lia).
    replace (d * 2 ^ (- e') * (r * 2 ^ (- e2))) with (d * r * 2 ^ (- e' - e2))
      by (replace (- e' - e2) with (- e' + - e2) by lia; rewrite Z.pow_add_r by lia; lia).
    apply Z.mul_le_mono_nonneg_r; [apply Z.pow_nonneg; lia|lia]. }
  apply round_between; try lia.
  - cut (rem = 0 /\ new_location (Zpos m2) rem = loc_Exact \/ 0 < rem /\ exists c, new_location (Zpos m2) rem = loc_Inexact c).
    + intros [[R0 ->]|[R0 (c & ->)]]; cbn [ub].
      * subst rem. nia.
      * nia.
    + unfold new_location. destruct (Z.even (Zpos m2)); unfold new_location_even, new_location_odd; destruct (Zeq_bool rem 0) eqn:EZ;
      (apply Zeq_bool_eq in EZ || apply Zeq_bool_neq in EZ); [left; auto|right; split; [lia|eauto]|left; auto|right; split; [lia|eauto]].
  - change (e' <= Z.max (Zdigits2 q + e' - 53) (-1074)). pose proof (Zdigits_ge q 52 ltac:(lia) ltac:(lia)). lia.
Qed.

(** A number between two integers, with its sign. *)
Definition sfin (lo hi : Z) (x : spec_float) : Prop :=
  exists s l h, fin_between s l h x /\ 0 <= l <= h /\
    (s = false -> lo <= l /\ h <= hi) /\ (s = true -> lo <= - h /\ - l <= hi).

Lemma sfin_decode lo hi x : sfin lo hi x -> f_decode (f_encode x) = x.
Proof. intros (s & l & h & F & _). apply (decode_between _ _ _ _ F). Qed.

Lemma fin_le s lo hi x : 0 <= lo -> 0 <= hi -> fin_between s lo hi x -> lo <= hi.
Proof.
  intros A B [[_ H]|(m & e & _ & _ & He & L)]; [lia|]. assert (0 < 2 ^ (- e)) by (apply Z.pow_pos_nonneg; lia). nia.
Qed.

Lemma align_value m e ez : ez <= e -> Zpos (fst (shl_align m e ez)) = Zpos m * 2 ^ (e - ez).
Proof.
  intros H. unfold shl_align. destruct (ez - e) as [|d|d] eqn:E; cbn [fst].
  - replace (e - ez) with 0 by lia. cbn. lia.
  - lia.
  - rewrite shift_pos_mul. f_equal. f_equal. lia.
Qed.

Lemma add_between z d x y s : - 2 ^ 53 < z -> z + d < 2 ^ 53 -> z < 2 ^ 53 -> 0 <= d ->
  fin_between s (Z.abs z) (Z.abs z) x -> (z < 0 -> s = true) -> (0 <= z -> s = false) -> fin_between false 0 d y ->
  sfin z (z + d) (SFadd prec64 emax64 x y).
Proof.
  intros Hz Hzd Hz2 Hd X S1 S2 Y.
  destruct (fin_case _ _ _ _ X) as [->|(m1 & e1 & ->)].
  { assert (z = 0) by (destruct X as [[_ ?]|(? & ? & ? & _)]; [lia|discriminate]). subst z. rewrite (S2 ltac:(lia)) in *.
    exists false, 0, d. split; [|repeat split; intros; try lia; discriminate].
    destruct (fin_case _ _ _ _ Y) as [->|(m2 & e2 & ->)]; exact Y. }
  destruct (exact_full _ _ _ _ X ltac:(lia)) as (A & M1 & B1 & E1).
  destruct (fin_case _ _ _ _ Y) as [->|(m2 & e2 & ->)].
  { cbn [SFadd]. exists s, (Z.abs z), (Z.abs z). split; [exact X|]. split; [lia|].
    destruct (Z.lt_ge_cases z 0) as [Q|Q]; [rewrite (S1 Q)|rewrite (S2 Q)]; split; intros; try discriminate; lia. }
  destruct Y as [[? _]|(m2' & e2' & Q & N2 & E2 & L2)]; [discriminate|]. injection Q as <- <-.
  cbn [SFadd]. set (ez := Z.min e1 e2).
  rewrite !align_value by lia. cbn [cond_Zopp].
  assert (P1 : Zpos m1 * 2 ^ (e1 - ez) = Z.abs z * 2 ^ (- ez)).
  { rewrite M1, <- Z.mul_assoc, <- Z.pow_add_r by lia. f_equal. f_equal. lia. }
  assert (V1 : cond_Zopp s (Zpos m1 * 2 ^ (e1 - ez)) = z * 2 ^ (- ez)).
  { rewrite P1. destruct (Z.lt_ge_cases z 0) as [Q|Q]; [rewrite (S1 Q)|rewrite (S2 Q)]; cbn [cond_Zopp]; nia. }
  assert (V2 : 0 <= Zpos m2 * 2 ^ (e2 - ez) <= d * 2 ^ (- ez)).
  { assert (0 < 2 ^ (e2 - ez)) by (apply Z.pow_pos_nonneg; lia). split; [lia|].
    rewrite (pow_split ez e2) by lia. rewrite Z.mul_assoc. apply Z.mul_le_mono_nonneg_r; lia. }
  rewrite V1. set (B := Zpos m2 * 2 ^ (e2 - ez)) in *. clearbody B.
  assert (P : 0 < 2 ^ (- ez)) by (apply Z.pow_pos_nonneg; lia). set (u := 2 ^ (- ez)) in *.
  destruct (z * u + B) as [|p|p] eqn:ES; cbn [binary_normalize].
  - exists false, 0, 0. split; [left; auto|]. repeat split; intros; try lia; try discriminate; nia.
  - exists false, (Z.max z 0), (z + d).
    assert (F : fin_between false (Z.max z 0) (z + d) (binary_round prec64 emax64 false p ez)).
    { apply binary_round_between; fold u; first [lia | nia]. }
    split; [exact F|]. split; [|split; intros; try discriminate; lia].
    assert (0 <= z + d) by nia. lia.
  - exists true, (Z.max (- (z + d)) 0), (- z).
    assert (F : fin_between true (Z.max (- (z + d)) 0) (- z) (binary_round prec64 emax64 true p ez)).
    { apply binary_round_between; fold u; first [lia | nia]. }
    split; [exact F|]. assert (z < 0) by nia. split; [lia|]. split; intros; try discriminate; lia.
Qed.
