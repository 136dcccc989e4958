(** The probe sequence of the hash map visits every slot (number theory). *)
From Coq Require Import ZArith List Lia Bool Znumtheory Zpow_facts.
From Verif Require Import Base MapModel.
Import ListNotations.
Open Scope Z_scope.

(** S_n = 1 + 5 + ... + 5^(n-1). *)
Fixpoint S5 (n : nat) : Z := match n with O => 0 | S m => 5 * S5 m + 1 end.

Lemma S5_pow n : 4 * S5 n + 1 = 5 ^ Z.of_nat n.
Proof.
  induction n; [reflexivity|]. cbn [S5]. rewrite Nat2Z.inj_succ, Z.pow_succ_r by lia. lia.
Qed.

Lemma S5_double m : S5 (2 * m) = 2 * (S5 m * (2 * S5 m + 1)).
Proof.
  pose proof (S5_pow (2 * m)) as H1. pose proof (S5_pow m) as H2.
  replace (Z.of_nat (2 * m)) with (Z.of_nat m + Z.of_nat m) in H1 by lia.
  rewrite Z.pow_add_r in H1 by lia. rewrite <- H2 in H1. nia.
Qed.

Lemma S5_parity n : (S5 n) mod 2 = Z.of_nat n mod 2.
Proof.
  induction n; [reflexivity|]. cbn [S5]. rewrite Nat2Z.inj_succ. unfold Z.succ.
  replace (5 * S5 n + 1) with ((S5 n + 1) + (2 * S5 n) * 2) by lia. rewrite Z.mod_add by lia.
  rewrite Z.add_mod, IHn, <- Z.add_mod by lia. reflexivity.
Qed.

Lemma odd_rel_prime_pow2 k a : a mod 2 = 1 -> rel_prime (2 ^ Z.of_nat k) a.
Proof.
  intros Ha. apply rel_prime_sym, rel_prime_Zpower_r; [lia|].
  apply rel_prime_sym, prime_rel_prime; [apply prime_2|].
  intros H. apply Zdivide_mod in H. lia.
Qed.

Lemma S5_divide k : forall d, (2 ^ Z.of_nat k | S5 d) -> (2 ^ Z.of_nat k | Z.of_nat d).
Proof.
  induction k; intros d H; [exists (Z.of_nat d); cbn; lia|].
  assert (Hs : 2 ^ Z.of_nat (S k) = 2 * 2 ^ Z.of_nat k) by (rewrite Nat2Z.inj_succ, Z.pow_succ_r; lia).
  rewrite Hs in *.
  assert (He : Z.of_nat d mod 2 = 0).
  { rewrite <- S5_parity. destruct H as [q Hq]. rewrite Hq.
    replace (q * (2 * 2 ^ Z.of_nat k)) with ((q * 2 ^ Z.of_nat k) * 2) by lia. apply Z.mod_mul. lia. }
  assert (exists m, d = (2 * m)%nat) as [m ->].
  { destruct (Nat.Even_or_Odd d) as [[q Hq]|[q Hq]]; [exists q; assumption|].
    exfalso. subst d. replace (Z.of_nat (2 * q + 1)) with (1 + Z.of_nat q * 2) in He by lia.
    rewrite Z.mod_add in He by lia. discriminate. }
  rewrite S5_double in H.
  assert (Hm : (2 ^ Z.of_nat k | S5 m)).
  { assert (H' : (2 ^ Z.of_nat k | (2 * S5 m + 1) * S5 m)).
    { destruct H as [q Hq]. exists q. nia. }
    apply Gauss in H'; [assumption|]. apply odd_rel_prime_pow2.
    replace (2 * S5 m + 1) with (1 + S5 m * 2) by lia. rewrite Z.mod_add by lia. reflexivity. }
  apply IHk in Hm. destruct Hm as [q Hq]. exists q. lia.
Qed.

(** The affine map and its iterates. *)
Definition aff (M x : Z) : Z := (5 * x + 1) mod M.

Lemma iter_aff M s n : 0 < M ->
  Nat.iter n (aff M) s mod M = (5 ^ Z.of_nat n * s + S5 n) mod M.
Proof.
  intros HM. induction n.
  - cbn [Nat.iter nat_rect S5]. change (Z.of_nat 0) with 0. rewrite Z.pow_0_r. f_equal. lia.
  - cbn [Nat.iter nat_rect S5]. fold (Nat.iter n (aff M) s). unfold aff at 1. rewrite Z.mod_mod by lia.
    rewrite Nat2Z.inj_succ, Z.pow_succ_r by lia.
    rewrite <- Z.add_mod_idemp_l, <- Z.mul_mod_idemp_r, IHn by lia.
    rewrite Z.mul_mod_idemp_r, Z.add_mod_idemp_l by lia. f_equal. lia.
Qed.

Lemma iter_aff_range M s n : 0 < M -> 0 <= s < M -> 0 <= Nat.iter n (aff M) s < M.
Proof.
  intros HM Hs. destruct n; [assumption|]. cbn [Nat.iter nat_rect]. apply Z.mod_pos_bound. assumption.
Qed.

Lemma aff_inj k s n m : let M := 2 ^ Z.of_nat k in 0 <= s < M ->
  (n < m)%nat -> Z.of_nat m < M -> Nat.iter n (aff M) s <> Nat.iter m (aff M) s.
Proof.
  intros M Hs Hnm Hm E. assert (HM : 0 < M) by (apply Z.pow_pos_nonneg; lia).
  assert (E' : Nat.iter n (aff M) s mod M = Nat.iter m (aff M) s mod M) by congruence.
  rewrite !iter_aff in E' by assumption.
  set (d := (m - n)%nat).
  assert (Hd : m = (n + d)%nat) by lia.
  assert (Ed : 5 ^ Z.of_nat m * s + S5 m - (5 ^ Z.of_nat n * s + S5 n) =
               5 ^ Z.of_nat n * (S5 d * (4 * s + 1))).
  { pose proof (S5_pow m) as A. pose proof (S5_pow n) as B. pose proof (S5_pow d) as C.
    rewrite Hd in *. rewrite Nat2Z.inj_add, Z.pow_add_r in * by lia.
    rewrite <- B, <- C in *. nia. }
  assert (D : (M | 5 ^ Z.of_nat n * (S5 d * (4 * s + 1)))).
  { rewrite <- Ed. apply Z.mod_divide; [lia|]. rewrite Zminus_mod, E', Z.sub_diag. reflexivity. }
  apply Gauss in D.
  2:{ apply odd_rel_prime_pow2.
      clear. induction n as [|n IH]; [reflexivity|].
      rewrite Nat2Z.inj_succ, Z.pow_succ_r by lia.
      rewrite Z.mul_mod, IH by lia. reflexivity. }
  rewrite Z.mul_comm in D. apply Gauss in D.
  2:{ apply odd_rel_prime_pow2. replace (4 * s + 1) with (1 + (2 * s) * 2) by lia.
      rewrite Z.mod_add by lia. reflexivity. }
  apply S5_divide in D. apply Z.divide_pos_le in D; [|lia]. fold M in D. lia.
Qed.

Lemma aff_covers k s t : let M := 2 ^ Z.of_nat k in 0 <= s < M -> 0 <= t < M ->
  exists n, Z.of_nat n < M /\ Nat.iter n (aff M) s = t.
Proof.
  intros M Hs Ht. assert (HM : 0 < M) by (apply Z.pow_pos_nonneg; lia).
  set (N := Z.to_nat M).
  set (l := map (fun n => Nat.iter n (aff M) s) (seq 0 N)).
  set (r := map Z.of_nat (seq 0 N)).
  assert (ND : NoDup l).
  { apply NoDup_nth with (d := 0). unfold l. rewrite map_length, seq_length. intros i j Hi Hj E.
    rewrite (nth_indep _ 0 (Nat.iter 0 (aff M) s)) in E by (rewrite map_length, seq_length; assumption).
    rewrite (nth_indep _ 0 (Nat.iter 0 (aff M) s)) in E by (rewrite map_length, seq_length; assumption).
    rewrite !(map_nth (fun n => Nat.iter n (aff M) s)) in E. rewrite !seq_nth in E by assumption.
    cbn [Nat.add] in E. destruct (Nat.lt_trichotomy i j) as [Hij|[Hij|Hij]]; [|assumption|]; exfalso.
    - apply (aff_inj k s i j) in E; auto. fold M. lia.
    - symmetry in E. apply (aff_inj k s j i) in E; auto. fold M. lia. }
  assert (I : incl l r).
  { intros x Hx. unfold l in Hx. apply in_map_iff in Hx. destruct Hx as (n & <- & Hn).
    pose proof (iter_aff_range M s n HM Hs). unfold r. apply in_map_iff.
    exists (Z.to_nat (Nat.iter n (aff M) s)). split; [lia|]. apply in_seq. lia. }
  assert (I' : incl r l).
  { apply NoDup_length_incl; auto. unfold l, r. rewrite !map_length. lia. }
  assert (In t r) as Hin.
  { unfold r. apply in_map_iff. exists (Z.to_nat t). split; [lia|]. apply in_seq. lia. }
  apply I' in Hin. unfold l in Hin. apply in_map_iff in Hin. destruct Hin as (n & Hn & Hi).
  apply in_seq in Hi. exists n. split; [lia|assumption].
Qed.

(** Probes. *)
Definition probes (mask : Z) (h : Z) (n : nat) : Z * Z :=
  Nat.iter n (probe_u mask) (Z.land (u32 h) mask, u32 h).

Definition path (mask h : Z) (n : nat) : Z := fst (probes mask h n).

Lemma probes_S mask h n : probes mask h (S n) = probe_u mask (probes mask h n).
Proof. reflexivity. Qed.

Lemma land_mask x k : Z.land x (2 ^ Z.of_nat k - 1) = x mod 2 ^ Z.of_nat k.
Proof.
  replace (2 ^ Z.of_nat k - 1) with (Z.ones (Z.of_nat k)).
  - apply Z.land_ones. lia.
  - rewrite Z.ones_equiv. lia.
Qed.

Lemma path_range k h n : 0 <= path (2 ^ Z.of_nat k - 1) h n < 2 ^ Z.of_nat k.
Proof.
  assert (0 < 2 ^ Z.of_nat k) by (apply Z.pow_pos_nonneg; lia).
  unfold path. destruct n.
  - unfold probes. cbn [Nat.iter nat_rect fst]. rewrite land_mask. apply Z.mod_pos_bound. assumption.
  - rewrite probes_S. unfold probe_u. destruct (probes _ h n). cbn [fst]. rewrite land_mask.
    apply Z.mod_pos_bound. assumption.
Qed.

Lemma pert_after mask h n : snd (probes mask h n) = Z.shiftr (u32 h) (5 * Z.of_nat n).
Proof.
  induction n.
  - unfold probes. cbn [Nat.iter nat_rect snd]. change (5 * Z.of_nat 0) with 0. rewrite Z.shiftr_0_r. reflexivity.
  - rewrite probes_S. unfold probe_u. destruct (probes mask h n) as [i p]. cbn [snd] in *. subst p.
    rewrite Z.shiftr_shiftr by lia. f_equal. lia.
Qed.

Lemma pert_zero mask h n : (7 <= n)%nat -> snd (probes mask h n) = 0.
Proof.
  intros Hn. rewrite pert_after. pose proof (u32_range h).
  rewrite Z.shiftr_div_pow2 by lia. apply Z.div_small. split; [lia|].
  apply Z.lt_le_trans with (2 ^ 32); [lia|]. apply Z.pow_le_mono_r; lia.
Qed.

Lemma mod_mod_pow2 x k : (k <= 32)%nat -> (x mod 2 ^ 32) mod 2 ^ Z.of_nat k = x mod 2 ^ Z.of_nat k.
Proof.
  intros Hk. assert (0 < 2 ^ Z.of_nat k) by (apply Z.pow_pos_nonneg; lia).
  symmetry. apply Znumtheory.Zmod_div_mod; [lia|lia|].
  exists (2 ^ (32 - Z.of_nat k)). rewrite <- Z.pow_add_r by lia. f_equal. lia.
Qed.

Lemma path_step k h n : (k <= 32)%nat -> (7 <= n)%nat ->
  path (2 ^ Z.of_nat k - 1) h (S n) = aff (2 ^ Z.of_nat k) (path (2 ^ Z.of_nat k - 1) h n).
Proof.
  intros Hk Hn. unfold path. rewrite probes_S.
  pose proof (pert_zero (2 ^ Z.of_nat k - 1) h n Hn) as Hp.
  unfold probe_u. destruct (probes _ h n) as [i p]. cbn [fst snd] in *. subst p.
  rewrite land_mask. unfold u32. rewrite mod_mod_pow2 by assumption.
  rewrite Z.shiftr_0_l. unfold aff. f_equal. lia.
Qed.

Lemma path_iter k h d : (k <= 32)%nat ->
  path (2 ^ Z.of_nat k - 1) h (7 + d) = Nat.iter d (aff (2 ^ Z.of_nat k)) (path (2 ^ Z.of_nat k - 1) h 7).
Proof.
  intros Hk. induction d.
  - rewrite Nat.add_0_r. cbn [Nat.iter nat_rect]. reflexivity.
  - replace (7 + S d)%nat with (S (7 + d)) by lia. rewrite path_step by lia. rewrite IHd.
    cbn [Nat.iter nat_rect]. reflexivity.
Qed.

(** Every slot is reached, within [2^k + 7] probes. *)
Lemma path_covers k h t : (k <= 32)%nat -> 0 <= t < 2 ^ Z.of_nat k ->
  exists n, Z.of_nat n < 2 ^ Z.of_nat k + 7 /\ path (2 ^ Z.of_nat k - 1) h n = t.
Proof.
  intros Hk Ht.
  destruct (aff_covers k (path (2 ^ Z.of_nat k - 1) h 7) t (path_range k h 7) Ht) as (d & Hd & E).
  exists (7 + d)%nat. split; [lia|]. rewrite path_iter by assumption. exact E.
Qed.
