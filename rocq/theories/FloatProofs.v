(** Results of floating point rounding are 64-bit patterns. *)
From Coq Require Import ZArith Lia Bool.
From Coq Require Import Floats.SpecFloat.
From Verif Require Import Base FloatModel.
Open Scope Z_scope.

Lemma digits_bounds p : 2 ^ (Zpos (digits2_pos p) - 1) <= Zpos p < 2 ^ Zpos (digits2_pos p).
Proof.
  induction p as [p IH|p IH|]; cbn [digits2_pos]; rewrite ?Pos2Z.inj_succ.
  - replace (Z.succ (Zpos (digits2_pos p)) - 1) with (Z.succ (Zpos (digits2_pos p) - 1)) by lia.
    rewrite !Z.pow_succ_r by lia. lia.
  - replace (Z.succ (Zpos (digits2_pos p)) - 1) with (Z.succ (Zpos (digits2_pos p) - 1)) by lia.
    rewrite !Z.pow_succ_r by lia. lia.
  - cbn. lia.
Qed.

Lemma shr_1_m r : 0 <= shr_m r -> shr_m (shr_1 r) = shr_m r / 2.
Proof.
  destruct r as [m a b]; cbn. intros H. destruct m as [|[p|p|]|p]; cbn; auto; try lia.
  - rewrite Pos2Z.inj_xI. apply Z.div_unique with 1; lia.
  - rewrite Pos2Z.inj_xO. apply Z.div_unique with 0; lia.
Qed.

Lemma shr_iter_m p : forall r, 0 <= shr_m r -> shr_m (iter_pos shr_1 p r) = shr_m r / 2 ^ Zpos p.
Proof.
  assert (Hnn : forall q r, 0 <= shr_m r -> shr_m (iter_pos shr_1 q r) = shr_m r / 2 ^ Zpos q ->
            0 <= shr_m (iter_pos shr_1 q r)).
  { intros q r Hr ->. apply Z.div_pos; lia. }
  induction p as [p IH|p IH|]; intros r Hr; cbn [iter_pos].
  - assert (H0 : 0 <= shr_m (shr_1 r)) by (rewrite shr_1_m by auto; apply Z.div_pos; lia).
    rewrite IH by (apply Hnn; auto). rewrite IH by auto. rewrite shr_1_m by auto.
    rewrite !Z.div_div by (try apply Z.pow_nonzero; lia). f_equal.
    replace (Zpos p~1) with (1 + (Zpos p + Zpos p)) by lia. rewrite !Z.pow_add_r by lia. lia.
  - rewrite IH by (apply Hnn; auto). rewrite IH by auto.
    rewrite Z.div_div by (try apply Z.pow_nonzero; lia). f_equal.
    replace (Zpos p~0) with (Zpos p + Zpos p) by lia. rewrite Z.pow_add_r by lia. lia.
  - rewrite shr_1_m by auto. reflexivity.
Qed.

Lemma shr_fexp_range m e l : 0 <= m ->
  let '(r, e') := shr_fexp prec64 emax64 m e l in 0 <= shr_m r < 2 ^ 53 /\ -1074 <= e'.
Proof.
  intros Hm. unfold shr_fexp, shr.
  set (n := fexp prec64 emax64 (Zdigits2 m + e) - e).
  assert (Hd : m < 2 ^ Zdigits2 m).
  { destruct m as [|p|p]; cbn [Zdigits2]; [cbn; lia|apply digits_bounds|lia]. }
  assert (Hd0 : 0 <= Zdigits2 m) by (destruct m; cbn; lia).
  assert (Hs : shr_m (shr_record_of_loc m l) = m) by (destruct l as [|[]]; reflexivity).
  assert (Hn : n = Z.max (Zdigits2 m - 53) (-1074 - e)).
  { unfold n, fexp, SpecFloat.emin, prec64, emax64. lia. }
  clearbody n.
  destruct n as [|p|p] eqn:En.
  - rewrite Hs. split; [split; [auto|]|lia].
    eapply Z.lt_le_trans; [exact Hd|]. apply Z.pow_le_mono_r; lia.
  - rewrite shr_iter_m by (rewrite Hs; auto). rewrite Hs. split; [|lia].
    split; [apply Z.div_pos; lia|]. apply Z.div_lt_upper_bound; [lia|].
    rewrite <- Z.pow_add_r by lia. eapply Z.lt_le_trans; [exact Hd|]. apply Z.pow_le_mono_r; lia.
  - rewrite Hs. split; [split; [auto|]|lia].
    eapply Z.lt_le_trans; [exact Hd|]. apply Z.pow_le_mono_r; lia.
Qed.

Theorem round_aux_bits sx mx ex lx : 0 <= mx -> is_bits (f_encode (binary_round_aux prec64 emax64 sx mx ex lx)).
Proof.
  intros Hm. unfold binary_round_aux.
  pose proof (shr_fexp_range mx ex lx Hm) as H1. destruct (shr_fexp prec64 emax64 mx ex lx) as [r1 e1].
  destruct H1 as [H1 _].
  set (m2 := choice_mode sx (shr_m r1) (loc_of_shr_record r1)) || set (m2 := round_nearest_even (shr_m r1) (loc_of_shr_record r1)).
  assert (H2 : 0 <= m2).
  { unfold m2, round_nearest_even. destruct (loc_of_shr_record r1) as [|[]]; try lia.
    destruct (Z.even (shr_m r1)); lia. }
  pose proof (shr_fexp_range m2 e1 loc_Exact H2) as H3. destruct (shr_fexp prec64 emax64 m2 e1 loc_Exact) as [r3 e3].
  destruct H3 as [H3 He3].
  unfold is_bits. change (2 ^ 64) with 18446744073709551616. change (2 ^ 53) with 9007199254740992 in H3.
  destruct (shr_m r3) as [|p|p]; cbn [f_encode]; unfold sgn_bit.
  - destruct sx; cbn; lia.
  - destruct (e3 <=? emax64 - prec64) eqn:E; cbn [f_encode]; unfold sgn_bit.
    + apply Z.leb_le in E. unfold emax64, prec64 in E. change (2 ^ 52) with 4503599627370496. change (2 ^ 63) with 9223372036854775808.
      destruct (Zpos p <? 4503599627370496) eqn:E2; [apply Z.ltb_lt in E2|apply Z.ltb_ge in E2]; destruct sx; lia.
    + destruct sx; cbn; lia.
  - cbn. lia.
Qed.

Lemma div_bits p q : is_bits (f_encode (SFdiv prec64 emax64 (S754_finite false p 0) (S754_finite false q 0))).
Proof.
  unfold SFdiv. destruct (SFdiv_core_binary prec64 emax64 (Zpos p) 0 (Zpos q) 0) as [[m e] l] eqn:E.
  apply round_aux_bits. unfold SFdiv_core_binary in E.
  match type of E with context [Z.div_eucl ?a ?b] => pose proof (Z.div_eucl_eq a b ltac:(lia)) as H; destruct (Z.div_eucl a b) as [qq rr] eqn:Ed end.
  injection E as <- _ _. 
  match type of Ed with Z.div_eucl ?a ?b = _ => assert (H' : a / b = qq) by (unfold Z.div; rewrite Ed; reflexivity); rewrite <- H' end.
  apply Z.div_pos; [|lia].
  match goal with |- 0 <= match ?x with _ => _ end => destruct x; try lia end. apply Z.shiftl_nonneg || idtac. all: try (rewrite Z.shiftl_nonneg; lia); lia.
Qed.
