From Coq Require Import ZArith List Lia Bool.
From Verif Require Import Base MapModel MapSpec ProbeProofs.
Import ListNotations.
Open Scope Z_scope.

Ltac Zify.zify_post_hook ::= Z.div_mod_to_equations.

(** ** Generic helpers *)
Lemma zget_upd_same {A} (l : list A) i x : 0 <= i < Z.of_nat (length l) -> zget (upd l (Z.to_nat i) x) i = Some x.
Proof.
  intros H. unfold zget. destruct (Z.ltb_spec i 0); [lia|]. apply nth_error_upd_same. lia.
Qed.

Lemma zget_upd_other {A} (l : list A) i j x : 0 <= i -> i <> j -> zget (upd l (Z.to_nat i) x) j = zget l j.
Proof.
  intros Hi H. unfold zget. destruct (Z.ltb_spec j 0); [reflexivity|]. apply nth_error_upd_other. lia.
Qed.

Lemma zget_repeat (x : Z) n p q : zget (repeat x n) p = Some q -> q = x.
Proof.
  intros H. apply zget_Some in H. destruct H as [_ H]. apply nth_error_In in H. apply repeat_spec in H. assumption.
Qed.

Lemma least_below (P : nat -> bool) n :
  (exists m, (m < n)%nat /\ P m = true /\ forall m', (m' < m)%nat -> P m' = false) \/
  (forall m, (m < n)%nat -> P m = false).
Proof.
  induction n as [|n IH]; [right; intros; lia|].
  destruct IH as [(m & A & B & C)|IH]; [left; exists m; repeat split; auto|].
  destruct (P n) eqn:E.
  - left. exists n. repeat split; auto.
  - right. intros m Hm. destruct (Nat.eq_dec m n) as [->|]; [assumption|]. apply IH. lia.
Qed.

Lemma least (P : nat -> bool) n : P n = true ->
  exists m, (m <= n)%nat /\ P m = true /\ forall m', (m' < m)%nat -> P m' = false.
Proof.
  intros H. destruct (least_below P (S n)) as [(m & A & B & C)|N].
  - exists m. repeat split; auto. lia.
  - rewrite (N n) in H by lia. discriminate.
Qed.

Lemma zget_nth {A} (l : list A) i : zget l (Z.of_nat i) = nth_error l i.
Proof. unfold zget. destruct (Z.ltb_spec (Z.of_nat i) 0); [lia|]. rewrite Nat2Z.id. reflexivity. Qed.

(** ** The number of different keys *)
Section Distinct.
Context {K V : Type}.
Variable eqb : K -> K -> bool.

Lemma a_stores_fst (h : list (K * V)) : map fst (a_stores eqb h) = firsts eqb (map fst h).
Proof.
  unfold a_stores, firsts.
  assert (H : forall (h : list (K * V)) l ks, map fst l = ks ->
    map fst (fold_left (fun l kv => a_store eqb l (fst kv) (snd kv)) h l) =
    fold_left (fun acc k => if existsb (eqb k) acc then acc else acc ++ [k]) (map fst h) ks).
  { clear h. induction h as [|[k v] h IH]; intros l ks E; [exact E|]. cbn [map fold_left fst snd].
    apply IH. rewrite <- E. clear. induction l as [|[k' v'] l IH]; [reflexivity|].
    cbn [map fst existsb a_store]. destruct (eqb k k') eqn:X; [reflexivity|]. cbn [map fst].
    rewrite IH. cbn [orb]. destruct (existsb (eqb k) (map fst l)); reflexivity. }
  apply H. reflexivity.
Qed.

Lemma a_stores_length (h : list (K * V)) : length (a_stores eqb h) = distinct eqb h.
Proof. unfold distinct. rewrite <- a_stores_fst, map_length. reflexivity. Qed.

Lemma a_stores_snoc (h : list (K * V)) k v : a_stores eqb (h ++ [(k, v)]) = a_store eqb (a_stores eqb h) k v.
Proof. unfold a_stores. rewrite fold_left_app. reflexivity. Qed.

Lemma a_store_length (l : list (K * V)) k v : (length l <= length (a_store eqb l k v))%nat.
Proof. induction l as [|[k' v'] l IH]; cbn [a_store length]; [lia|]. destruct (eqb k k'); cbn [length]; lia. Qed.

Lemma distinct_snoc (h : list (K * V)) x : (distinct eqb h <= distinct eqb (h ++ [x]))%nat.
Proof. rewrite <- !a_stores_length. destruct x as [k v]. rewrite a_stores_snoc. apply a_store_length. Qed.

Lemma distinct_last (h : list (K * V)) : (distinct eqb (removelast h) <= distinct eqb h)%nat.
Proof. destruct h as [|y h _] using rev_ind; [cbn; lia|]. rewrite removelast_last. apply distinct_snoc. Qed.

Lemma distinct_at_most (h : list (K * V)) : (distinct eqb h <= S (distinct eqb (removelast h)))%nat.
Proof.
  destruct h as [|[k v] h _] using rev_ind; [cbn; lia|]. rewrite removelast_last, <- !a_stores_length, a_stores_snoc.
  induction (a_stores eqb h) as [|[k' v'] l IH]; cbn [a_store length]; [lia|]. destruct (eqb k k'); cbn [length]; lia.
Qed.

Lemma distinct_length (h : list (K * V)) : (distinct eqb h <= length h)%nat.
Proof.
  rewrite <- a_stores_length. induction h as [|[k v] h IH] using rev_ind; [cbn; lia|]. rewrite a_stores_snoc, app_length. cbn [length].
  enough (X : forall l : list (K * V), (length (a_store eqb l k v) <= S (length l))%nat) by (specialize (X (a_stores eqb h)); lia).
  induction l as [|[k' v'] l IHl]; cbn [a_store length]; [lia|]. destruct (eqb k k'); cbn [length]; lia.
Qed.

Lemma removelast_length {A} (l : list A) : length (removelast l) = pred (length l).
Proof. destruct l as [|x l _] using rev_ind; [reflexivity|]. rewrite removelast_last, app_length. cbn [length]. lia. Qed.

End Distinct.

Section Proofs.
Context {K V : Type}.
Variable hash : K -> Z.
Variable cmp : K -> K -> option bool.
Variable eqb : K -> K -> bool.
(** Keys on which comparison is a decidable equivalence compatible with hashing. *)
Variable good : K -> Prop.
Hypothesis cmp_eqb : forall a b, good a -> good b -> cmp a b = Some (eqb a b).
Hypothesis eqb_refl : forall a, good a -> eqb a a = true.
Hypothesis eqb_sym : forall a b, good a -> good b -> eqb a b = eqb b a.
Hypothesis eqb_trans : forall a b c, good a -> good b -> good c -> eqb a b = true -> eqb b c = true -> eqb a c = true.
Hypothesis eqb_hash : forall a b, good a -> good b -> eqb a b = true -> hash a = hash b.
Hypothesis hash_int : forall a, good a -> in_int (hash a).

Notation hmap := (hmap K V).

Definition mask_of (mapper : list Z) : Z := Z.of_nat (length mapper) - 1.
Definition occupied (mapper : list Z) (p : Z) : Prop := exists q, zget mapper p = Some q /\ q <> -1.

Record core (mapper : list Z) (keys : list K) : Prop := {
  c_size : exists k, (3 <= k <= 28)%nat /\ Z.of_nat (length mapper) = 2 ^ Z.of_nat k;
  c_few : (length keys < length mapper)%nat;
  c_rng : forall p q, zget mapper p = Some q -> q = -1 \/ 0 <= q < Z.of_nat (length keys);
  c_inj : forall p p' q, q <> -1 -> zget mapper p = Some q -> zget mapper p' = Some q -> p = p';
  c_path : forall q key, nth_error keys q = Some key -> exists t,
      zget mapper (path (mask_of mapper) (hash key) t) = Some (Z.of_nat q) /\
      forall t', (t' < t)%nat -> occupied mapper (path (mask_of mapper) (hash key) t');
  c_dist : forall i j a b, i <> j -> nth_error keys i = Some a -> nth_error keys j = Some b -> eqb a b = false;
  c_good : Forall good keys
}.

Lemma core_path_valid mapper keys h t : core mapper keys ->
  0 <= path (mask_of mapper) h t < Z.of_nat (length mapper).
Proof.
  intros C. destruct (c_size _ _ C) as (k & Hk & E). unfold mask_of. rewrite E. apply path_range.
Qed.

Lemma core_get mapper keys h t : core mapper keys -> exists q, zget mapper (path (mask_of mapper) h t) = Some q.
Proof. intros C. apply zget_in_range. eapply core_path_valid. eassumption. Qed.

Lemma core_free mapper keys : core mapper keys -> exists p, zget mapper p = Some (-1).
Proof.
  intros C. destruct (in_dec Z.eq_dec (-1) mapper) as [Hin|Hn].
  - apply In_nth_error in Hin. destruct Hin as [i Hi]. exists (Z.of_nat i). rewrite zget_nth. assumption.
  - exfalso. assert (ND : NoDup mapper).
    { apply NoDup_nth_error. intros i j Hi E. rewrite <- !zget_nth in E.
      destruct (zget mapper (Z.of_nat i)) as [q|] eqn:Eq.
      2:{ rewrite zget_nth in Eq. apply nth_error_None in Eq. lia. }
      symmetry in E. assert (q <> -1).
      { intros ->. apply Hn. rewrite zget_nth in Eq. eapply nth_error_In. eassumption. }
      pose proof (c_inj _ _ C _ _ _ H Eq E). lia. }
    pose proof (NoDup_incl_length (l' := map Z.of_nat (seq 0 (length keys))) ND) as L.
    rewrite map_length, seq_length in L. pose proof (c_few _ _ C).
    assert (incl mapper (map Z.of_nat (seq 0 (length keys)))) as I.
    { intros q Hq. apply In_nth_error in Hq. destruct Hq as [i Hi]. rewrite <- zget_nth in Hi.
      destruct (c_rng _ _ C _ _ Hi) as [->|Hr].
      - exfalso. apply Hn. rewrite zget_nth in Hi. eapply nth_error_In. eassumption.
      - apply in_map_iff. exists (Z.to_nat q). split; [lia|]. apply in_seq. lia. }
    apply L in I. lia.
Qed.

Definition is_free (mapper : list Z) (p : Z) : bool :=
  match zget mapper p with Some q => q =? -1 | None => false end.

Lemma is_free_true mapper p : is_free mapper p = true <-> zget mapper p = Some (-1).
Proof.
  unfold is_free. destruct (zget mapper p) as [q|]; [|split; discriminate].
  rewrite Z.eqb_eq. split; congruence.
Qed.

(** The first free slot on a probe path. *)
Lemma core_first_free mapper keys h : core mapper keys -> exists t,
  (t < length mapper + 7)%nat /\
  zget mapper (path (mask_of mapper) h t) = Some (-1) /\
  forall t', (t' < t)%nat -> occupied mapper (path (mask_of mapper) h t').
Proof.
  intros C. destruct (core_free _ _ C) as [p Hp]. destruct (c_size _ _ C) as (k & Hk & E).
  pose proof (zget_lt _ _ _ Hp) as Hr. rewrite E in Hr.
  destruct (path_covers k h p ltac:(lia) Hr) as (n & Hn & Hpn).
  assert (Em : 2 ^ Z.of_nat k - 1 = mask_of mapper) by (unfold mask_of; lia). rewrite Em in Hpn.
  destruct (least (fun t => is_free mapper (path (mask_of mapper) h t)) n) as (t & Ht & Ft & Bt).
  { apply is_free_true. rewrite Hpn. assumption. }
  exists t. split; [lia|]. split; [apply is_free_true; assumption|].
  intros t' Ht'. specialize (Bt t' Ht').
  destruct (core_get _ _ h t' C) as [q Hq]. exists q. split; [assumption|]. intros ->.
  apply is_free_true in Hq. congruence.
Qed.

(** ** Lookup *)
Lemma find_loop_run (m : hmap) key h : forall n t0 f,
  (forall t, (t0 <= t < t0 + n)%nat -> exists q key',
     zget (m_mapper m) (path (mask_of (m_mapper m)) h t) = Some q /\ q <> -1 /\
     zget (m_keys m) q = Some key' /\ cmp key key' = Some false) ->
  find_loop cmp (n + f) m key (probes (mask_of (m_mapper m)) h t0) =
  find_loop cmp f m key (probes (mask_of (m_mapper m)) h (t0 + n)).
Proof.
  induction n; intros t0 f H.
  - rewrite Nat.add_0_r. reflexivity.
  - cbn [Nat.add find_loop].
    destruct (H t0 ltac:(lia)) as (q & key' & A & B & C & D).
    unfold path in A. rewrite A. destruct (Z.eqb_spec q (-1)); [contradiction|]. rewrite C, D.
    change (msize m - 1) with (mask_of (m_mapper m)). rewrite <- probes_S.
    rewrite IHn; [f_equal; f_equal; lia|]. intros t Ht. apply H. lia.
Qed.

Lemma find_spec (m : hmap) key : core (m_mapper m) (m_keys m) -> good key ->
  (exists q k', find_slot hash cmp m key = Found q /\ nth_error (m_keys m) q = Some k' /\ eqb key k' = true) \/
  (exists t, find_slot hash cmp m key = Free (Z.to_nat (path (mask_of (m_mapper m)) (hash key) t)) /\
     zget (m_mapper m) (path (mask_of (m_mapper m)) (hash key) t) = Some (-1) /\
     (forall t', (t' < t)%nat -> occupied (m_mapper m) (path (mask_of (m_mapper m)) (hash key) t')) /\
     (forall q k', nth_error (m_keys m) q = Some k' -> eqb key k' = false)).
Proof.
  intros C G. set (mapper := m_mapper m) in *. set (keys := m_keys m) in *. set (h := hash key).
  destruct (core_first_free _ _ h C) as (T & HT & FT & BT).
  pose proof (c_good _ _ C) as GK. rewrite Forall_forall in GK.
  set (hit := fun t => match zget mapper (path (mask_of mapper) h t) with
                       | Some q => match zget keys q with Some k' => eqb key k' | None => false end
                       | None => false end).
  assert (Slot : forall t, (t < T)%nat -> exists q k',
     zget mapper (path (mask_of mapper) h t) = Some q /\ q <> -1 /\ zget keys q = Some k' /\
     cmp key k' = Some (hit t) /\ good k').
  { intros t Ht. destruct (BT t Ht) as (q & A & B). destruct (c_rng _ _ C _ _ A) as [->|R]; [contradiction|].
    destruct (zget_in_range keys q R) as [k' Hk']. exists q, k'. split; [assumption|]. split; [assumption|].
    split; [assumption|]. assert (good k') as Gk'.
    { apply GK. apply zget_Some in Hk'. destruct Hk' as [_ Hk']. eapply nth_error_In. eassumption. }
    split; [|assumption]. unfold hit. rewrite A, Hk'. apply cmp_eqb; assumption. }
  unfold find_slot, probe_fuel, start_u.
  fold mapper. change (msize m - 1) with (mask_of mapper).
  change (Z.land (u32 (hash key)) (mask_of mapper), u32 (hash key)) with (probes (mask_of mapper) h 0).
  destruct (least_below hit T) as [(t & Ht & Hh & Hl)|Hno].
  - left. destruct (Slot t Ht) as (q & k' & A & B & D & E & F).
    assert (0 <= q) by (apply zget_lt in D; lia).
    exists (Z.to_nat q), k'.
    split; [|split].
    + replace (length mapper + 8)%nat with (t + S (length mapper + 7 - t))%nat by lia.
      unfold mapper at 2. rewrite find_loop_run.
      2:{ fold mapper. fold keys. intros t' Ht'. destruct (Slot t' ltac:(lia)) as (q' & k'' & A' & B' & D' & E' & F').
          exists q', k''. rewrite (Hl t') in E' by lia. auto. }
      cbn [Nat.add find_loop]. fold mapper. fold keys. unfold path in A. rewrite A.
      destruct (Z.eqb_spec q (-1)); [contradiction|]. rewrite D, E, Hh. reflexivity.
    + apply zget_Some in D. apply D.
    + rewrite cmp_eqb in E by assumption. congruence.
  - right. exists T. split; [|split; [assumption|split; [assumption|]]].
    + replace (length mapper + 8)%nat with (T + S (length mapper + 7 - T))%nat by lia.
      unfold mapper at 2. rewrite find_loop_run.
      2:{ fold mapper. fold keys. intros t' Ht'. destruct (Slot t' ltac:(lia)) as (q' & k'' & A' & B' & D' & E' & F').
          exists q', k''. rewrite (Hno t') in E' by lia. auto. }
      cbn [Nat.add find_loop]. fold mapper. pose proof FT as FT'. unfold path in FT'. rewrite FT'.
      destruct (Z.eqb_spec (-1) (-1)); [|lia]. reflexivity.
    + intros q k' Hq. destruct (eqb key k') eqn:E; [exfalso|reflexivity].
      assert (Gk' : good k') by (apply GK; eapply nth_error_In; eassumption).
      destruct (c_path _ _ C q k' Hq) as (tq & A & B).
      rewrite <- (eqb_hash key k' G Gk' E) in A, B. fold h in A, B.
      destruct (Nat.lt_trichotomy tq T) as [Hlt|[->|Hgt]].
      * specialize (Hno tq Hlt). unfold hit in Hno. rewrite A, zget_nth, Hq in Hno. congruence.
      * rewrite A in FT. injection FT as FT. lia.
      * destruct (B T Hgt) as (q' & A' & B'). rewrite FT in A'. congruence.
Qed.

Lemma find_no_timeout (m : hmap) key : core (m_mapper m) (m_keys m) -> good key ->
  find_slot hash cmp m key <> SlotTimeout.
Proof.
  intros C G. destruct (find_spec m key C G) as [(q & k' & E & _)|(t & E & _)]; rewrite E; discriminate.
Qed.

(** ** Adding a key at the first free slot of its path *)
Lemma core_add mapper keys key t : core mapper keys -> good key ->
  (S (length keys) < length mapper)%nat ->
  zget mapper (path (mask_of mapper) (hash key) t) = Some (-1) ->
  (forall t', (t' < t)%nat -> occupied mapper (path (mask_of mapper) (hash key) t')) ->
  (forall q k', nth_error keys q = Some k' -> eqb key k' = false) ->
  core (upd mapper (Z.to_nat (path (mask_of mapper) (hash key) t)) (Z.of_nat (length keys))) (keys ++ [key]).
Proof.
  intros C G Hf HF HB HN. set (p := path (mask_of mapper) (hash key) t) in *.
  pose proof (zget_lt _ _ _ HF) as Hp.
  pose proof (c_good _ _ C) as GK.
  assert (EM : mask_of (upd mapper (Z.to_nat p) (Z.of_nat (length keys))) = mask_of mapper).
  { unfold mask_of. rewrite upd_length. reflexivity. }
  assert (Occ : forall p', occupied mapper p' -> p' <> p /\ occupied (upd mapper (Z.to_nat p) (Z.of_nat (length keys))) p').
  { intros p' (q & A & B). assert (p' <> p) by (intros ->; congruence). split; [assumption|].
    exists q. rewrite zget_upd_other by (auto; lia). auto. }
  constructor.
  - rewrite upd_length. apply (c_size _ _ C).
  - rewrite upd_length, app_length. cbn [length]. lia.
  - intros p' q H. rewrite app_length. cbn [length]. destruct (Z.eq_dec p p') as [<-|N].
    + rewrite zget_upd_same in H by lia. injection H as <-. lia.
    + rewrite zget_upd_other in H by (auto; lia). destruct (c_rng _ _ C _ _ H); lia.
  - intros p1 p2 q Hq H1 H2.
    destruct (Z.eq_dec p p1) as [<-|N1], (Z.eq_dec p p2) as [<-|N2]; auto.
    + rewrite zget_upd_same in H1 by lia. injection H1 as <-.
      rewrite zget_upd_other in H2 by (auto; lia). destruct (c_rng _ _ C _ _ H2); lia.
    + rewrite zget_upd_same in H2 by lia. injection H2 as <-.
      rewrite zget_upd_other in H1 by (auto; lia). destruct (c_rng _ _ C _ _ H1); lia.
    + rewrite zget_upd_other in H1, H2 by (auto; lia). eapply c_inj; eassumption.
  - intros q k' Hq. rewrite EM. destruct (Nat.lt_ge_cases q (length keys)) as [L|L].
    + rewrite nth_error_app1 in Hq by assumption.
      destruct (c_path _ _ C q k' Hq) as (tq & A & B). exists tq. split.
      * assert (path (mask_of mapper) (hash k') tq <> p).
        { intros E. rewrite E, HF in A. injection A as A. lia. }
        rewrite zget_upd_other by (auto; lia). assumption.
      * intros t' Ht'. apply Occ. apply B. assumption.
    + rewrite nth_error_app2 in Hq by assumption.
      destruct (q - length keys)%nat as [|d] eqn:Ed.
      2:{ destruct d; discriminate. }
      injection Hq as <-. assert (q = length keys) by lia. subst q. exists t. fold p. split.
      * apply zget_upd_same. lia.
      * intros t' Ht'. apply Occ. apply HB. assumption.
  - intros i j a b Hij Ha Hb.
    assert (Cases : forall i a, nth_error (keys ++ [key]) i = Some a ->
               (nth_error keys i = Some a) \/ (i = length keys /\ a = key)).
    { intros i' a' H. destruct (Nat.lt_ge_cases i' (length keys)) as [L|L].
      - left. rewrite nth_error_app1 in H; assumption.
      - right. rewrite nth_error_app2 in H by assumption. destruct (i' - length keys)%nat as [|d] eqn:Ed.
        + injection H as <-. split; [lia|reflexivity].
        + destruct d; discriminate. }
    rewrite Forall_forall in GK.
    destruct (Cases i a Ha) as [Ha'|[-> ->]], (Cases j b Hb) as [Hb'|[-> ->]].
    + eapply c_dist; eauto.
    + rewrite eqb_sym; [eapply HN; eauto| |assumption]. apply GK. eapply nth_error_In. eassumption.
    + eapply HN; eauto.
    + contradiction.
  - apply Forall_app. split; [assumption|]. constructor; [assumption|constructor].
Qed.

Lemma core_empty k n : (3 <= k <= 28)%nat -> Z.of_nat n = 2 ^ Z.of_nat k -> core (repeat (-1) n) [].
Proof.
  intros Hk Hn. constructor.
  - exists k. rewrite repeat_length. auto.
  - rewrite repeat_length. cbn [length].
    assert (0 < 2 ^ Z.of_nat k) by (apply Z.pow_pos_nonneg; lia). lia.
  - intros p q H. left. apply zget_repeat in H. assumption.
  - intros p p' q Hq H. apply zget_repeat in H. contradiction.
  - intros q key H. destruct q; discriminate.
  - intros i j a b _ H. destruct i; discriminate.
  - constructor.
Qed.

(** ** Growth, for keys with non-negative hashes *)
Lemma probe_s_u k st : (3 <= k <= 28)%nat -> 0 <= fst st < 2 ^ Z.of_nat k -> 0 <= snd st < 2 ^ 31 ->
  probe_s (2 ^ Z.of_nat k - 1) st = probe_u (2 ^ Z.of_nat k - 1) st.
Proof.
  destruct st as [j p]. cbn [fst snd]. intros Hk Hj Hp.
  assert (2 ^ Z.of_nat k <= 2 ^ 28) by (apply Z.pow_le_mono_r; lia).
  unfold probe_s, probe_u. rewrite Z.shiftr_div_pow2 by lia. change (2 ^ 5) with 32.
  assert (0 <= p / 32 < 2 ^ 26) by lia.
  rewrite wrap32_id by (unfold in_int; lia). rewrite u32_id by lia. reflexivity.
Qed.

Lemma probes_snd_range mask h n : 0 <= h < 2 ^ 31 -> 0 <= snd (probes mask h n) < 2 ^ 31.
Proof.
  intros Hh. rewrite pert_after. rewrite u32_id by lia. rewrite Z.shiftr_div_pow2 by lia.
  assert (1 <= 2 ^ (5 * Z.of_nat n)) by (apply Z.pow_le_mono_r with (b := 0) (c := 5 * Z.of_nat n) (a := 2); lia).
  split; [apply Z.div_pos; lia|]. apply Z.div_lt_upper_bound; [lia|]. nia.
Qed.

Lemma rehash_loop_run mapper k h : (3 <= k <= 28)%nat -> Z.of_nat (length mapper) = 2 ^ Z.of_nat k ->
  0 <= h < 2 ^ 31 -> forall n t0 f,
  (forall t, (t0 <= t < t0 + n)%nat -> occupied mapper (path (mask_of mapper) h t)) ->
  rehash_loop (n + f) mapper (mask_of mapper) (probes (mask_of mapper) h t0) =
  rehash_loop f mapper (mask_of mapper) (probes (mask_of mapper) h (t0 + n)).
Proof.
  intros Hk Hl Hh. induction n; intros t0 f H.
  - rewrite Nat.add_0_r. reflexivity.
  - cbn [Nat.add rehash_loop]. destruct (H t0 ltac:(lia)) as (q & A & B).
    unfold path in A. rewrite A. destruct (Z.eqb_spec q (-1)); [contradiction|].
    assert (E : mask_of mapper = 2 ^ Z.of_nat k - 1) by (unfold mask_of; lia).
    rewrite E. rewrite probe_s_u; [|assumption| |].
    + rewrite <- E, <- probes_S. rewrite IHn; [do 2 f_equal; lia|]. intros t Ht. apply H. lia.
    + apply (path_range k h t0).
    + apply probes_snd_range. assumption.
Qed.

Lemma rehash_all_spec fuel : forall rest mapper keys0,
  core mapper keys0 -> (length mapper + 8 <= fuel)%nat ->
  (length (keys0 ++ rest) < length mapper)%nat ->
  Forall good rest -> Forall (fun k => 0 <= hash k) rest ->
  (forall i j a b, i <> j -> nth_error (keys0 ++ rest) i = Some a -> nth_error (keys0 ++ rest) j = Some b -> eqb a b = false) ->
  exists mapper', rehash_all hash fuel mapper (mask_of mapper) (length keys0) rest = inl (Some mapper') /\
    core mapper' (keys0 ++ rest) /\ length mapper' = length mapper.
Proof.
  induction rest as [|key rest IH]; intros mapper keys0 C Hfuel Hlen HG HP HD.
  - exists mapper. rewrite app_nil_r. auto.
  - inversion HG as [|? ? G HG']; subst. inversion HP as [|? ? P HP']; subst.
    cbn [rehash_all].
    destruct (core_first_free _ _ (hash key) C) as (t & Ht & FT & BT).
    destruct (c_size _ _ C) as (k & Hk & E).
    assert (Hh : 0 <= hash key < 2 ^ 31) by (pose proof (hash_int key G) as X; unfold in_int in X; lia).
    assert (ES : (Z.land (hash key) (mask_of mapper), hash key) = probes (mask_of mapper) (hash key) 0).
    { unfold probes. cbn [Nat.iter nat_rect]. rewrite u32_id by lia. reflexivity. }
    rewrite ES.
    assert (ER : rehash_loop fuel mapper (mask_of mapper) (probes (mask_of mapper) (hash key) 0) =
                 Free (Z.to_nat (path (mask_of mapper) (hash key) t))).
    { replace fuel with (t + S (fuel - t - 1))%nat by lia.
      rewrite (rehash_loop_run mapper k (hash key) Hk E Hh t 0 (S (fuel - t - 1))).
      2:{ intros t' Ht'. apply BT. lia. }
      cbn [Nat.add rehash_loop]. pose proof FT as FT'. unfold path in FT'. rewrite FT'.
      destruct (Z.eqb_spec (-1) (-1)); [|lia]. reflexivity. }
    rewrite ER.
    assert (C' : core (upd mapper (Z.to_nat (path (mask_of mapper) (hash key) t)) (Z.of_nat (length keys0))) (keys0 ++ [key])).
    { apply core_add; auto.
      - rewrite app_length in Hlen. cbn [length] in Hlen. lia.
      - intros q k' Hq. rewrite eqb_sym; [|assumption|].
        + apply (HD q (length keys0) k' key).
          * apply nth_error_Some_lt in Hq. lia.
          * rewrite nth_error_app1 by (eapply nth_error_Some_lt; eassumption). assumption.
          * rewrite nth_error_app2 by lia. rewrite Nat.sub_diag. reflexivity.
        + pose proof (c_good _ _ C) as GK. rewrite Forall_forall in GK. apply GK. eapply nth_error_In. eassumption. }
    assert (EM : mask_of (upd mapper (Z.to_nat (path (mask_of mapper) (hash key) t)) (Z.of_nat (length keys0))) = mask_of mapper)
      by (unfold mask_of; rewrite upd_length; reflexivity).
    specialize (IH _ _ C').
    rewrite <- app_assoc in IH. cbn [app] in IH. rewrite upd_length, EM in IH.
    replace (length (keys0 ++ [key])) with (S (length keys0)) in IH by (rewrite app_length; cbn [length]; lia). apply IH; auto.
Qed.

Lemma grow_spec (m : hmap) : core (m_mapper m) (m_keys m) ->
  Z.of_nat (length (m_mapper m)) <= 2 ^ 27 ->
  Forall (fun k => 0 <= hash k) (m_keys m) ->
  exists mapper', grow hash m = InsOk (mkmap mapper' (m_keys m) (m_vals m)) /\
    core mapper' (m_keys m) /\ length mapper' = (2 * length (m_mapper m))%nat.
Proof.
  intros C Hs HP. unfold grow, grow_fuel.
  destruct (c_size _ _ C) as (k & Hk & E).
  assert (Hk' : (k <= 27)%nat).
  { assert (2 ^ Z.of_nat k <= 2 ^ 27) by lia. apply Z.pow_le_mono_r_iff in H; lia. }
  assert (E2 : Z.of_nat (2 * length (m_mapper m)) = 2 ^ Z.of_nat (S k)).
  { rewrite Nat2Z.inj_succ, Z.pow_succ_r by lia. lia. }
  pose proof (core_empty (S k) (2 * length (m_mapper m)) ltac:(lia) E2) as C0.
  pose proof (rehash_all_spec (2 * length (m_mapper m) + 8) (m_keys m) _ _ C0) as R.
  cbn [app length] in R. rewrite repeat_length in R.
  assert (EM : mask_of (repeat (-1) (2 * length (m_mapper m))) = Z.of_nat (2 * length (m_mapper m)) - 1)
    by (unfold mask_of; rewrite repeat_length; reflexivity).
  rewrite EM in R. pose proof (c_few _ _ C).
  destruct R as (mapper' & R1 & R2 & R3); auto; try lia.
  - apply (c_good _ _ C).
  - intros i j a b. apply (c_dist _ _ C).
  - rewrite R1. exists mapper'. auto.
Qed.

(** ** Refinement to association lists *)
Definition wf (m : hmap) : Prop :=
  core (m_mapper m) (m_keys m) /\ length (m_vals m) = length (m_keys m) /\
  Z.of_nat (length (m_keys m)) <= calc_capacity (msize m).

Definition abs (m : hmap) : list (K * V) := combine (m_keys m) (m_vals m).

Lemma a_read_combine keys (vals : list V) key : length vals = length keys ->
  (forall q k', nth_error keys q = Some k' -> eqb key k' = false) ->
  a_read eqb (combine keys vals) key = None.
Proof.
  revert vals; induction keys as [|k keys IH]; intros vals Hl H; [reflexivity|].
  destruct vals as [|v vals]; [discriminate|]. cbn [combine a_read].
  rewrite (H 0%nat k eq_refl). apply IH; [cbn in Hl; lia|]. intros q k' Hq. apply (H (S q)). assumption.
Qed.

Lemma a_read_combine_found keys : forall (vals : list V) key q k', length vals = length keys ->
  nth_error keys q = Some k' -> eqb key k' = true ->
  (forall q2 k2, (q2 < q)%nat -> nth_error keys q2 = Some k2 -> eqb key k2 = false) ->
  a_read eqb (combine keys vals) key = nth_error vals q.
Proof.
  induction keys as [|k keys IH]; intros vals key q k' Hl Hq He Hn; [destruct q; discriminate|].
  destruct vals as [|v vals]; [discriminate|]. cbn [combine a_read].
  destruct q as [|q]; cbn [nth_error] in *.
  - injection Hq as ->. rewrite He. reflexivity.
  - rewrite (Hn 0%nat k ltac:(lia) eq_refl). apply IH with (q := q) (k' := k'); [cbn in Hl; lia|assumption|assumption|].
    intros q2 k2 H2 H2'. apply (Hn (S q2)); [lia|assumption].
Qed.

Lemma a_store_combine_found keys : forall (vals : list V) key q k' v, length vals = length keys ->
  nth_error keys q = Some k' -> eqb key k' = true ->
  (forall q2 k2, (q2 < q)%nat -> nth_error keys q2 = Some k2 -> eqb key k2 = false) ->
  a_store eqb (combine keys vals) key v = combine keys (upd vals q v).
Proof.
  induction keys as [|k keys IH]; intros vals key q k' v Hl Hq He Hn; [destruct q; discriminate|].
  destruct vals as [|v0 vals]; [discriminate|]. cbn [combine a_store].
  destruct q as [|q]; cbn [nth_error] in *.
  - injection Hq as ->. rewrite He. reflexivity.
  - rewrite (Hn 0%nat k ltac:(lia) eq_refl). cbn [upd combine]. f_equal. apply IH with (q := q) (k' := k'); [cbn in Hl; lia|assumption|assumption|].
    intros q2 k2 H2 H2'. apply (Hn (S q2)); [lia|assumption].
Qed.

Lemma a_store_combine_new keys : forall (vals : list V) key v, length vals = length keys ->
  (forall q k', nth_error keys q = Some k' -> eqb key k' = false) ->
  a_store eqb (combine keys vals) key v = combine (keys ++ [key]) (vals ++ [v]).
Proof.
  induction keys as [|k keys IH]; intros vals key v Hl Hn.
  - destruct vals; [reflexivity|discriminate].
  - destruct vals as [|v0 vals]; [discriminate|]. cbn [combine a_store app].
    rewrite (Hn 0%nat k eq_refl). f_equal. apply IH; [cbn in Hl; lia|].
    intros q k' Hq. apply (Hn (S q)). assumption.
Qed.

Lemma found_unique (m : hmap) key q k' : core (m_mapper m) (m_keys m) -> good key ->
  nth_error (m_keys m) q = Some k' -> eqb key k' = true ->
  forall q2 k2, (q2 < q)%nat -> nth_error (m_keys m) q2 = Some k2 -> eqb key k2 = false.
Proof.
  intros C G Hq He q2 k2 Hlt H2. destruct (eqb key k2) eqn:E2; [exfalso|reflexivity].
  pose proof (c_good _ _ C) as GK. rewrite Forall_forall in GK.
  assert (good k') by (apply GK; eapply nth_error_In; eassumption).
  assert (good k2) by (apply GK; eapply nth_error_In; eassumption).
  assert (eqb k2 k' = true).
  { apply (eqb_trans k2 key k'); auto. rewrite eqb_sym; auto. }
  pose proof (c_dist _ _ C q2 q k2 k' ltac:(lia) H2 Hq). congruence.
Qed.

Lemma select_refines (m : hmap) key : wf m -> good key ->
  map_select hash cmp m key = match a_read eqb (abs m) key with Some v => SelVal v | None => SelNone end.
Proof.
  intros (C & Hl & Hc) G. unfold map_select, abs.
  destruct (find_spec m key C G) as [(q & k' & E & Hq & He)|(t & E & _ & _ & Hn)]; rewrite E.
  - rewrite (a_read_combine_found (m_keys m) (m_vals m) key q k' Hl Hq He).
    + destruct (nth_error (m_vals m) q) eqn:X; [reflexivity|].
      apply nth_error_None in X. apply nth_error_Some_lt in Hq. lia.
    + eapply found_unique; eassumption.
  - rewrite a_read_combine; auto.
Qed.

Lemma put_refines (m : hmap) key v : core (m_mapper m) (m_keys m) -> length (m_vals m) = length (m_keys m) ->
  Z.of_nat (length (m_keys m)) < calc_capacity (msize m) -> good key ->
  exists m', put hash cmp m key key v = InsOk m' /\ wf m' /\ abs m' = a_store eqb (abs m) key v /\
    length (m_mapper m') = length (m_mapper m) /\ (length (m_keys m') <= S (length (m_keys m)))%nat /\
    (m_keys m' = m_keys m \/ m_keys m' = m_keys m ++ [key]).
Proof.
  intros C Hl Hc G. unfold put.
  destruct (find_spec m key C G) as [(q & k' & E & Hq & He)|(t & E & Hf & Ho & Hn)]; rewrite E.
  - eexists. split; [reflexivity|]. cbn [m_keys m_mapper m_vals]. unfold wf, abs, msize. cbn [m_keys m_mapper m_vals].
    rewrite upd_length. split; [split; [assumption|split; [assumption|unfold msize in Hc; lia]]|].
    split; [|split; [reflexivity|split; [lia|left; reflexivity]]].
    symmetry. eapply a_store_combine_found; eauto. eapply found_unique; eassumption.
  - eexists. split; [reflexivity|]. unfold wf, abs, msize. cbn [m_keys m_mapper m_vals].
    rewrite upd_length, !app_length. cbn [length].
    split; [split; [|split; [lia|unfold msize in Hc; lia]]|].
    + apply core_add; auto. unfold msize in Hc. unfold calc_capacity in Hc.
      pose proof (c_few _ _ C). destruct (c_size _ _ C) as (k & Hk & Ek).
      assert (2 ^ 3 <= 2 ^ Z.of_nat k) by (apply Z.pow_le_mono_r; lia). lia.
    + split; [|split; [reflexivity|split; [lia|right; reflexivity]]].
      symmetry. apply a_store_combine_new; auto.
Qed.

Lemma insert_refines (m : hmap) key v : wf m -> good key ->
  Z.of_nat (length (m_keys m)) < 2 ^ 26 ->
  (Forall (fun k => 0 <= hash k) (m_keys m) \/ Z.of_nat (length (m_keys m)) < calc_capacity (msize m)) ->
  exists m', map_insert hash cmp m key v = InsOk m' /\ wf m' /\ abs m' = a_store eqb (abs m) key v /\
    (length (m_keys m') <= S (length (m_keys m)))%nat /\
    (length (m_mapper m) <= length (m_mapper m'))%nat /\
    (m_keys m' = m_keys m \/ m_keys m' = m_keys m ++ [key]).
Proof.
  intros (C & Hl & Hc) G Hsmall Hg. unfold map_insert.
  destruct (Z.eqb_spec (Z.of_nat (length (m_keys m))) (calc_capacity (msize m))) as [E|N].
  - destruct Hg as [Hg|Hg]; [|lia].
    assert (Hsz : Z.of_nat (length (m_mapper m)) <= 2 ^ 27).
    { unfold calc_capacity, msize in E. lia. }
    destruct (grow_spec m C Hsz Hg) as (mapper' & Eg & C' & L'). rewrite Eg.
    destruct (put_refines (mkmap mapper' (m_keys m) (m_vals m)) key v) as (m' & P1 & P2 & P3 & P4 & P5 & P6); auto.
    + unfold msize, calc_capacity in *. cbn [m_mapper m_keys].
      rewrite L'. destruct (c_size _ _ C) as (k & Hk & Ek).
      assert (2 ^ 3 <= 2 ^ Z.of_nat k) by (apply Z.pow_le_mono_r; lia). lia.
    + exists m'. cbn [m_mapper m_keys] in *. repeat split; auto; try apply P2. lia.
  - destruct (put_refines m key v C Hl ltac:(lia) G) as (m' & P1 & P2 & P3 & P4 & P5 & P6).
    exists m'. repeat split; auto; try apply P2. lia.
Qed.

Lemma new_mapper_size_spec : forall fuel s num, (3 <= s)%nat ->
  exists k, (3 <= k)%nat /\ new_mapper_size fuel (2 ^ Z.of_nat s) num = 2 ^ Z.of_nat k /\
    (k = s \/ calc_capacity (2 ^ (Z.of_nat k - 1)) < num).
Proof.
  induction fuel; intros s num Hs; cbn [new_mapper_size].
  - exists s. auto.
  - destruct (Z.ltb_spec (calc_capacity (2 ^ Z.of_nat s)) num).
    + replace (2 ^ Z.of_nat s * 2) with (2 ^ Z.of_nat (S s)).
      2:{ rewrite Nat2Z.inj_succ, Z.pow_succ_r by lia. lia. }
      destruct (IHfuel (S s) num ltac:(lia)) as (k & A & B & D). exists k. split; [lia|]. split; [assumption|].
      right. destruct D as [->|D]; [|assumption]. replace (Z.of_nat (S s) - 1) with (Z.of_nat s) by lia. assumption.
    + exists s. auto.
Qed.

Lemma new_map_wf num : num < 2 ^ 26 -> wf (new_map num) /\ abs (new_map num) = [].
Proof.
  intros Hn. unfold new_map. set (num' := if num <? 0 then 0 else num).
  assert (Hn' : num' < 2 ^ 26) by (unfold num'; destruct (num <? 0); lia).
  destruct (new_mapper_size_spec 30 3 num' ltac:(lia)) as (k & A & B & D).
  change (2 ^ Z.of_nat 3) with 8 in B. rewrite B.
  assert (Hk : (k <= 28)%nat).
  { destruct D as [->|D]; [lia|].
    assert (2 ^ (Z.of_nat k - 1) < 2 ^ 27).
    { unfold calc_capacity in D. lia. }
    apply Z.pow_lt_mono_r_iff in H; lia. }
  assert (0 < 2 ^ Z.of_nat k) by (apply Z.pow_pos_nonneg; lia).
  split; [|reflexivity]. unfold wf, msize. cbn [m_mapper m_keys m_vals length].
  split; [apply core_empty with (k := k); lia|]. split; [reflexivity|].
  unfold calc_capacity. rewrite repeat_length. change (Z.of_nat 0) with 0. lia.
Qed.

(** ** Facts about the specification itself *)
Definition all_good (l : list (K * V)) : Prop := Forall (fun kv => good (fst kv)) l.

Lemma a_store_good l k v : all_good l -> good k -> all_good (a_store eqb l k v).
Proof.
  induction 1 as [|[k' v'] l H HF IH]; intros G; cbn [a_store].
  - constructor; [exact G|constructor].
  - cbn [fst] in H. destruct (eqb k k'); constructor; auto. apply IH. assumption.
Qed.

Lemma a_read_store l k v k' : all_good l -> good k -> good k' ->
  a_read eqb (a_store eqb l k v) k' = if eqb k' k then Some v else a_read eqb l k'.
Proof.
  induction 1 as [|[k0 v0] l H HF IH]; intros G G'; cbn [a_store a_read].
  - reflexivity.
  - cbn [fst] in H. destruct (eqb k k0) eqn:E; cbn [a_read].
    + destruct (eqb k' k0) eqn:E1, (eqb k' k) eqn:E2; auto.
      * assert (eqb k' k = true) by (apply (eqb_trans k' k0 k); auto; rewrite eqb_sym; auto). congruence.
      * assert (eqb k' k0 = true) by (apply (eqb_trans k' k k0); auto). congruence.
    + destruct (eqb k' k0) eqn:E1.
      * destruct (eqb k' k) eqn:E2; [|reflexivity].
        assert (eqb k k0 = true) by (apply (eqb_trans k k' k0); auto; rewrite eqb_sym; auto). congruence.
      * apply IH; assumption.
Qed.

Lemma a_read_stores_gen (h : list (K * V)) : forall l k, all_good l -> Forall (fun kv => good (fst kv)) h -> good k ->
  a_read eqb (fold_left (fun l kv => a_store eqb l (fst kv) (snd kv)) h l) k =
  fold_left (fun acc kv => if eqb k (fst kv) then Some (snd kv) else acc) h (a_read eqb l k).
Proof.
  induction h as [|[k0 v0] h IH]; intros l k HL HG G; [reflexivity|].
  inversion HG; subst. cbn [fst snd fold_left] in *. rewrite IH; auto.
  - rewrite a_read_store by auto. reflexivity.
  - apply a_store_good; auto.
Qed.

Lemma a_read_stores (h : list (K * V)) k : Forall (fun kv => good (fst kv)) h -> good k ->
  a_read eqb (a_stores eqb h) k = last_stored eqb h k.
Proof. intros. unfold a_stores, last_stored. rewrite a_read_stores_gen; auto. constructor. Qed.

Lemma inserts_snoc (h : list (K * V)) : forall (m : hmap) k v,
  map_inserts hash cmp m (h ++ [(k, v)]) = match map_inserts hash cmp m h with InsOk m' => map_insert hash cmp m' k v | r => r end.
Proof.
  induction h as [|[k0 v0] h IH]; intros m k v; cbn [map_inserts app].
  - destruct (map_insert hash cmp m k v); reflexivity.
  - destruct (map_insert hash cmp m k0 v0); auto.
Qed.

(** ** Main statements *)
Definition small_history (num : Z) (h : list (K * V)) : Prop :=
  num < 2 ^ 26 /\ Z.of_nat (distinct eqb (removelast h)) < 2 ^ 26.

(** Growth happens at a store that finds the table full: before the last store, the keys are fewer than the table holds. *)
Definition tame (num : Z) (h : list (K * V)) : Prop :=
  Forall (fun kv => 0 <= hash (fst kv)) h \/
  Z.of_nat (distinct eqb (removelast h)) < calc_capacity (msize (new_map (K := K) (V := V) num)).

Lemma tame_snoc num h x : tame num (h ++ [x]) -> tame num h.
Proof.
  intros [H|H]; [left; apply Forall_app in H; apply H|right]. rewrite removelast_last in H.
  pose proof (distinct_last eqb h). lia.
Qed.

Lemma inserts_refine num h : small_history num h -> tame num h -> Forall (fun kv => good (fst kv)) h ->
  exists m', map_inserts hash cmp (new_map num) h = InsOk m' /\ wf m' /\ abs m' = a_stores eqb h /\
    (length (m_mapper (new_map (K := K) (V := V) num)) <= length (m_mapper m'))%nat /\
    (Forall (fun kv => 0 <= hash (fst kv)) h -> Forall (fun k => 0 <= hash k) (m_keys m')).
Proof.
  intros [Hn Hs]. destruct (new_map_wf num Hn) as [W A]. induction h as [|[k v] h IH] using rev_ind; intros Ht HG.
  - exists (new_map num). split; [reflexivity|]. split; [exact W|]. split; [exact A|]. split; [lia|]. intros _. constructor.
  - apply Forall_app in HG. destruct HG as [HG G]. inversion G as [|? ? Gk _]; subst. cbn [fst] in Gk.
    rewrite removelast_last in Hs. pose proof (distinct_last eqb h) as Hd. destruct IH as (m & Ei & Wm & Am & Lm & Nm); [lia|eapply tame_snoc; exact Ht|exact HG|].
    assert (Hk : Z.of_nat (length (m_keys m)) = Z.of_nat (distinct eqb h)).
    { rewrite <- a_stores_length, <- Am. unfold abs. rewrite combine_length. destruct Wm as (_ & X & _). lia. }
    rewrite inserts_snoc, Ei.
    assert (Hg : Forall (fun k => 0 <= hash k) (m_keys m) \/ Z.of_nat (length (m_keys m)) < calc_capacity (msize m)).
    { destruct Ht as [Ht|Ht]; [left; apply Nm; apply Forall_app in Ht; apply Ht|right]. rewrite removelast_last in Ht.
      unfold calc_capacity, msize in *. lia. }
    destruct (insert_refines m k v Wm Gk) as (m' & E & W' & Ea & Hl & Hm & Hks); [lia|exact Hg|].
    + exists m'. split; [exact E|]. split; [exact W'|]. split; [rewrite Ea, Am, a_stores_snoc; reflexivity|]. split; [lia|].
      intros F. apply Forall_app in F. destruct F as [F1 F2]. inversion F2 as [|? ? Hk0 _]; subst. cbn [fst] in Hk0.
      destruct Hks as [->| ->]; [auto|]. apply Forall_app. split; [auto|]. constructor; auto.
Qed.

Theorem map_history num h : small_history num h -> tame num h ->
  Forall (fun kv => good (fst kv)) h ->
  exists m, map_inserts hash cmp (new_map num) h = InsOk m /\
    (forall k, good k -> map_select hash cmp m k =
       match last_stored eqb h k with Some v => SelVal v | None => SelNone end) /\
    combine (map_keys m) (m_vals m) = a_stores eqb h /\
    map_keys m = map fst (a_stores eqb h) /\
    map_count m = Z.of_nat (length (a_stores eqb h)) /\ wf m.
Proof.
  intros Hs Ht HG. destruct (inserts_refine num h Hs Ht HG) as (m & E & W' & Ea & _).
  exists m. split; [assumption|].
  assert (Hlen : length (m_keys m) = length (m_vals m)) by (destruct W' as (_ & X & _); lia).
  split; [|split; [exact Ea|split; [|split; [|assumption]]]].
  + intros k G. rewrite select_refines by assumption. rewrite Ea. rewrite a_read_stores by assumption. reflexivity.
  + rewrite <- Ea. unfold abs, map_keys. clear - Hlen. revert Hlen. generalize (m_vals m). induction (m_keys m); intros l0 H.
    * reflexivity.
    * destruct l0; [discriminate|]. cbn. f_equal. apply IHl. cbn in H. lia.
  + rewrite <- Ea. unfold abs, map_count. rewrite combine_length. f_equal. lia.
Qed.

End Proofs.
