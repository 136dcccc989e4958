(** Termination for every reachable map, instantiation to the values of the language, and counterexamples. *)
From Coq Require Import ZArith List Lia Bool.
From Verif Require Import Base Utf8Model Utf8Spec Utf8Proofs HashModel FloatModel StringModel ValueModel TextProofs
  MapModel MapSpec ProbeProofs MapProofs.
Import ListNotations.
Open Scope Z_scope.

(** ** A weaker invariant that every history of stores maintains, whatever the keys *)
Section Weak.
Context {K V : Type}.
Variable hash : K -> Z.
Variable cmp : K -> K -> option bool.
Notation hmap := (hmap K V).

Record wcore (mapper : list Z) (n : nat) : Prop := {
  w_size : exists k, (3 <= k <= 28)%nat /\ Z.of_nat (length mapper) = 2 ^ Z.of_nat k;
  w_few : (n < length mapper)%nat;
  w_rng : forall p q, zget mapper p = Some q -> q = -1 \/ 0 <= q < Z.of_nat n;
  w_inj : forall p p' q, q <> -1 -> zget mapper p = Some q -> zget mapper p' = Some q -> p = p'
}.

Lemma wcore_free mapper n : wcore mapper n -> exists p, zget mapper p = Some (-1).
Proof.
  intros C. destruct (in_dec Z.eq_dec (-1) mapper) as [Hin|Hn].
  - apply In_nth_error in Hin. destruct Hin as [i Hi]. exists (Z.of_nat i). rewrite zget_nth. assumption.
  - exfalso. assert (ND : NoDup mapper).
    { apply NoDup_nth_error. intros i j Hi E. rewrite <- !zget_nth in E.
      destruct (zget mapper (Z.of_nat i)) as [q|] eqn:Eq.
      2:{ rewrite zget_nth in Eq. apply nth_error_None in Eq. lia. }
      symmetry in E. assert (q <> -1).
      { intros ->. apply Hn. rewrite zget_nth in Eq. eapply nth_error_In. eassumption. }
      pose proof (w_inj _ _ C _ _ _ H Eq E). lia. }
    pose proof (NoDup_incl_length (l' := map Z.of_nat (seq 0 n)) ND) as L.
    rewrite map_length, seq_length in L. pose proof (w_few _ _ C).
    assert (incl mapper (map Z.of_nat (seq 0 n))) as I.
    { intros q Hq. apply In_nth_error in Hq. destruct Hq as [i Hi]. rewrite <- zget_nth in Hi.
      destruct (w_rng _ _ C _ _ Hi) as [->|Hr].
      - exfalso. apply Hn. rewrite zget_nth in Hi. eapply nth_error_In. eassumption.
      - apply in_map_iff. exists (Z.to_nat q). split; [lia|]. apply in_seq. lia. }
    apply L in I. lia.
Qed.

Lemma wcore_empty k n : (3 <= k <= 28)%nat -> Z.of_nat n = 2 ^ Z.of_nat k -> wcore (repeat (-1) n) 0.
Proof.
  intros Hk Hn. constructor.
  - exists k. rewrite repeat_length. auto.
  - rewrite repeat_length. assert (0 < 2 ^ Z.of_nat k) by (apply Z.pow_pos_nonneg; lia). lia.
  - intros p q H. left. apply zget_repeat in H. assumption.
  - intros p p' q Hq H. apply zget_repeat in H. contradiction.
Qed.

Lemma wcore_add mapper n p : wcore mapper n -> (S n < length mapper)%nat -> zget mapper p = Some (-1) ->
  wcore (upd mapper (Z.to_nat p) (Z.of_nat n)) (S n).
Proof.
  intros C Hf HF. pose proof (zget_lt _ _ _ HF) as Hp. constructor.
  - rewrite upd_length. apply (w_size _ _ C).
  - rewrite upd_length. lia.
  - intros p' q H. destruct (Z.eq_dec p p') as [<-|N].
    + rewrite zget_upd_same in H by lia. injection H as <-. lia.
    + rewrite zget_upd_other in H by (auto; lia). destruct (w_rng _ _ C _ _ H); lia.
  - intros p1 p2 q Hq H1 H2.
    destruct (Z.eq_dec p p1) as [<-|N1], (Z.eq_dec p p2) as [<-|N2]; auto.
    + rewrite zget_upd_same in H1 by lia. injection H1 as <-.
      rewrite zget_upd_other in H2 by (auto; lia). destruct (w_rng _ _ C _ _ H2); lia.
    + rewrite zget_upd_same in H2 by lia. injection H2 as <-.
      rewrite zget_upd_other in H1 by (auto; lia). destruct (w_rng _ _ C _ _ H1); lia.
    + rewrite zget_upd_other in H1, H2 by (auto; lia). eapply w_inj; eassumption.
Qed.

Lemma find_loop_ends (m : hmap) key h : wcore (m_mapper m) (length (m_keys m)) ->
  forall d t f, (d < f)%nat ->
  zget (m_mapper m) (path (mask_of (m_mapper m)) h (t + d)) = Some (-1) ->
  match find_loop cmp f m key (probes (mask_of (m_mapper m)) h t) with
  | SlotTimeout | SlotUB => False
  | Found q => (q < length (m_keys m))%nat
  | Free i => zget (m_mapper m) (Z.of_nat i) = Some (-1)
  | SlotErr => True
  end.
Proof.
  intros C. destruct (w_size _ _ C) as (k & Hk & E).
  induction d; intros t f Hf HF; (destruct f as [|f]; [lia|]); cbn [find_loop].
  - rewrite Nat.add_0_r in HF. pose proof HF as HF'. unfold path in HF'. rewrite HF'.
    destruct (Z.eqb_spec (-1) (-1)); [|lia]. pose proof (zget_lt _ _ _ HF'). rewrite Z2Nat.id by lia. assumption.
  - assert (R : 0 <= path (mask_of (m_mapper m)) h t < Z.of_nat (length (m_mapper m))).
    { unfold mask_of. rewrite E. apply path_range. }
    destruct (zget_in_range _ _ R) as [q Hq]. pose proof Hq as Hq'. unfold path in Hq'. rewrite Hq'.
    destruct (Z.eqb_spec q (-1)) as [->|N].
    + pose proof (zget_lt _ _ _ Hq'). rewrite Z2Nat.id by lia. assumption.
    + destruct (w_rng _ _ C _ _ Hq) as [->|Rq]; [contradiction|].
      destruct (zget_in_range _ _ Rq) as [k' Hk']. rewrite Hk'.
      destruct (cmp key k') as [[|]|]; [lia| |exact I].
      change (msize m - 1) with (mask_of (m_mapper m)). rewrite <- probes_S. apply IHd; [lia|].
      rewrite <- HF. f_equal. f_equal. lia.
Qed.

Lemma find_slot_ends (m : hmap) key : wcore (m_mapper m) (length (m_keys m)) ->
  match find_slot hash cmp m key with
  | SlotTimeout | SlotUB => False
  | Found q => (q < length (m_keys m))%nat
  | Free i => zget (m_mapper m) (Z.of_nat i) = Some (-1)
  | SlotErr => True
  end.
Proof.
  intros C. destruct (wcore_free _ _ C) as [p Hp]. destruct (w_size _ _ C) as (k & Hk & E).
  pose proof (zget_lt _ _ _ Hp) as Hr. rewrite E in Hr.
  destruct (path_covers k (hash key) p ltac:(lia) Hr) as (n & Hn & Hpn).
  assert (Em : 2 ^ Z.of_nat k - 1 = mask_of (m_mapper m)) by (unfold mask_of; lia). rewrite Em in Hpn.
  unfold find_slot. change (start_u m (hash key)) with (probes (mask_of (m_mapper m)) (hash key) 0).
  apply (find_loop_ends m key (hash key) C n 0); [unfold probe_fuel; lia|].
  rewrite Nat.add_0_l, Hpn. assumption.
Qed.

Lemma rehash_loop_free fuel : forall mapper mask st j, rehash_loop fuel mapper mask st = Free j ->
  zget mapper (Z.of_nat j) = Some (-1).
Proof.
  induction fuel; intros mapper mask st j; cbn [rehash_loop]; [discriminate|].
  destruct (zget mapper (fst st)) as [q|] eqn:E; [|discriminate].
  destruct (Z.eqb_spec q (-1)) as [->|].
  - intros [= <-]. pose proof (zget_lt _ _ _ E). rewrite Z2Nat.id by lia. assumption.
  - apply IHfuel.
Qed.

Lemma rehash_all_weak fuel : forall rest mapper mask i mapper',
  wcore mapper i -> (i + length rest < length mapper)%nat ->
  rehash_all hash fuel mapper mask i rest = inl (Some mapper') ->
  wcore mapper' (i + length rest) /\ length mapper' = length mapper.
Proof.
  induction rest as [|key rest IH]; intros mapper mask i mapper' C Hl; cbn [rehash_all length].
  - intros [= <-]. rewrite Nat.add_0_r. auto.
  - cbn [length] in Hl.
    destruct (rehash_loop fuel mapper mask _) as [?|j| | |] eqn:E; try discriminate.
    apply rehash_loop_free in E. intros H.
    pose proof (wcore_add mapper i _ C ltac:(lia) E) as C'. rewrite Nat2Z.id in C'.
    apply IH in H; [|assumption|rewrite upd_length; lia]. rewrite upd_length in H.
    rewrite Nat.add_succ_r. exact H.
Qed.

Definition wmap (m : hmap) : Prop :=
  wcore (m_mapper m) (length (m_keys m)) /\ length (m_vals m) = length (m_keys m) /\
  Z.of_nat (length (m_keys m)) <= calc_capacity (msize m).

Lemma put_weak (m : hmap) key v : wcore (m_mapper m) (length (m_keys m)) -> length (m_vals m) = length (m_keys m) ->
  Z.of_nat (length (m_keys m)) < calc_capacity (msize m) ->
  match put hash cmp m key key v with
  | InsOk m' => wmap m' /\ (length (m_keys m') <= S (length (m_keys m)))%nat /\ length (m_mapper m') = length (m_mapper m)
  | InsErr => True
  | InsUB | InsTimeout => False
  end.
Proof.
  intros C Hl Hc. unfold put. pose proof (find_slot_ends m key C) as F.
  destruct (find_slot hash cmp m key); auto; unfold wmap, msize; cbn [m_mapper m_keys m_vals].
  - rewrite upd_length. repeat split; auto; try apply C. unfold msize in Hc. lia.
  - rewrite upd_length, !app_length. cbn [length]. rewrite !Nat.add_1_r. unfold msize in Hc.
    split; [split; [|split; lia]|split; lia].
    rewrite <- (Nat2Z.id i). apply wcore_add; auto.
    unfold calc_capacity in Hc. lia.
Qed.

Lemma grow_weak (m m' : hmap) : wmap m -> Z.of_nat (length (m_mapper m)) <= 2 ^ 27 -> grow hash m = InsOk m' ->
  wcore (m_mapper m') (length (m_keys m')) /\ m_keys m' = m_keys m /\ m_vals m' = m_vals m /\
  length (m_mapper m') = (2 * length (m_mapper m))%nat.
Proof.
  intros (C & Hl & Hc) Hs. unfold grow, grow_fuel.
  destruct (w_size _ _ C) as (k & Hk & E).
  assert (Hk' : (k <= 27)%nat).
  { assert (2 ^ Z.of_nat k <= 2 ^ 27) by lia. apply Z.pow_le_mono_r_iff in H; lia. }
  assert (E2 : Z.of_nat (2 * length (m_mapper m)) = 2 ^ Z.of_nat (S k)).
  { rewrite Nat2Z.inj_succ, Z.pow_succ_r by lia. lia. }
  destruct (rehash_all _ _ _ _ _ _) as [[mapper'|]|] eqn:R; try discriminate. intros [= <-].
  apply rehash_all_weak in R.
  - rewrite repeat_length in R. cbn [Nat.add] in R. cbn [m_mapper m_keys m_vals]. repeat split; auto; apply R.
  - apply wcore_empty with (k := S k); [lia|assumption].
  - rewrite repeat_length. pose proof (w_few _ _ C). lia.
Qed.

Lemma insert_weak (m : hmap) key v : wmap m -> Z.of_nat (length (m_keys m)) < 2 ^ 26 ->
  match map_insert hash cmp m key v with
  | InsOk m' => wmap m' /\ (length (m_keys m') <= S (length (m_keys m)))%nat
  | _ => True
  end.
Proof.
  intros W Hs. pose proof W as (C & Hl & Hc). unfold map_insert.
  destruct (Z.eqb_spec (Z.of_nat (length (m_keys m))) (calc_capacity (msize m))) as [E|N].
  - assert (Hsz : Z.of_nat (length (m_mapper m)) <= 2 ^ 27).
    { unfold calc_capacity, msize in E. lia. }
    destruct (grow hash m) as [m1| | |] eqn:Eg; auto.
    apply grow_weak in Eg; auto. destruct Eg as (C1 & Ek & Ev & El).
    pose proof (put_weak m1 key v C1) as P. rewrite Ek, Ev in P. specialize (P Hl).
    destruct (w_size _ _ C) as (k & Hk & E8).
    assert (2 ^ 3 <= 2 ^ Z.of_nat k) by (apply Z.pow_le_mono_r; lia).
    assert (Hc1 : Z.of_nat (length (m_keys m)) < calc_capacity (msize m1)).
    { unfold calc_capacity, msize in *. rewrite El. lia. }
    specialize (P Hc1). destruct (put hash cmp m1 key key v); auto. destruct P as (P1 & P2 & P3). split; auto.
  - pose proof (put_weak m key v C Hl ltac:(lia)) as P.
    destruct (put hash cmp m key key v); auto. destruct P as (P1 & P2 & P3). split; auto.
Qed.

Lemma inserts_weak : forall h (m m' : hmap), wmap m ->
  Z.of_nat (length (m_keys m)) + Z.of_nat (length h) <= 2 ^ 26 ->
  map_inserts hash cmp m h = InsOk m' -> wmap m' /\ (length (m_keys m') <= length (m_keys m) + length h)%nat.
Proof.
  induction h as [|[k v] h IH]; intros m m' W Hl; cbn [map_inserts length].
  - intros [= <-]. split; [assumption|lia].
  - cbn [length] in Hl. pose proof (insert_weak m k v W ltac:(lia)) as P.
    destruct (map_insert hash cmp m k v) as [m1| | |]; try discriminate.
    destruct P as [W1 L1]. intros H. apply IH in H; [|assumption|lia]. split; [apply H|lia].
Qed.

Lemma new_map_weak num : num < 2 ^ 26 -> wmap (new_map num).
Proof.
  intros Hn. unfold new_map. set (num' := if num <? 0 then 0 else num).
  assert (Hn' : num' < 2 ^ 26) by (unfold num'; destruct (num <? 0); lia).
  destruct (new_mapper_size_spec 30 3 num' ltac:(lia)) as (k & A & B & D).
  change (2 ^ Z.of_nat 3) with 8 in B. rewrite B.
  assert (Hk : (k <= 28)%nat).
  { destruct D as [->|D]; [lia|].
    assert (2 ^ (Z.of_nat k - 1) < 2 ^ 27).
    { unfold calc_capacity in D. lia. }
    apply Z.pow_lt_mono_r_iff in H; lia. }
  assert (0 < 2 ^ Z.of_nat k) by (apply Z.pow_pos_nonneg; lia).
  unfold wmap, msize. cbn [m_mapper m_keys m_vals length].
  split; [apply wcore_empty with (k := k); lia|]. split; [reflexivity|].
  unfold calc_capacity. rewrite repeat_length. change (Z.of_nat 0) with 0. lia.
Qed.

(** Every lookup terminates, in every state reached by stores. *)
Lemma reachable_lookup_ends num h (m : hmap) key : num < 2 ^ 26 -> Z.of_nat (length h) <= 2 ^ 26 ->
  map_inserts hash cmp (new_map num) h = InsOk m ->
  map_select hash cmp m key <> SelTimeout /\ map_select hash cmp m key <> SelUB.
Proof.
  intros Hn Hl H. apply inserts_weak in H; [|apply new_map_weak; assumption|cbn [m_keys new_map length]; lia].
  destruct H as [(C & Hv & _) _]. pose proof (find_slot_ends m key C) as F. unfold map_select.
  destruct (find_slot hash cmp m key) as [q| | | |]; try contradiction; try (split; discriminate).
  destruct (nth_error (m_vals m) q) eqn:E; [split; discriminate|].
  apply nth_error_None in E. lia.
Qed.

(** A store that does not need to enlarge the table terminates, in every state reached by stores. *)
Lemma reachable_store_ends num h (m : hmap) key v : num < 2 ^ 26 -> Z.of_nat (length h) <= 2 ^ 26 ->
  map_inserts hash cmp (new_map num) h = InsOk m -> Z.of_nat (length (m_keys m)) <> calc_capacity (msize m) ->
  map_insert hash cmp m key v <> InsTimeout /\ map_insert hash cmp m key v <> InsUB.
Proof.
  intros Hn Hl H Hc. apply inserts_weak in H; [|apply new_map_weak; assumption|cbn [m_keys new_map length]; lia].
  destruct H as [(C & Hv & Hcap) _]. unfold map_insert. apply Z.eqb_neq in Hc. rewrite Hc. apply Z.eqb_neq in Hc.
  pose proof (put_weak m key v C Hv ltac:(lia)) as P.
  destruct (put hash cmp m key key v); try contradiction; split; discriminate.
Qed.
End Weak.

(** ** The values of the language as keys *)
(** Object_Hash as used by o_map.c on values that have a hash function. *)
Definition vhash (v : value) : Z := match scalar_hash v with Some h => h | None => 0 end.

Definition good_key (v : value) : Prop :=
  hashable_ok v /\ comparable v /\
  match v with VStr bs => Forall is_byte bs /\ Z.of_nat (length bs) < 2 ^ 31 | _ => True end.

Definition veqb (a b : value) : bool := match obj_compare (fun _ => TyList) a b with Some true => true | _ => false end.

Lemma lxor_int a b : in_int a -> 0 <= b < 2 ^ 31 -> in_int (Z.lxor a b).
Proof.
  assert (P : forall x y, 0 <= x < 2 ^ 31 -> 0 <= y < 2 ^ 31 -> 0 <= Z.lxor x y < 2 ^ 31).
  { intros x y Hx Hy. split; [apply Z.lxor_nonneg; lia|].
    destruct (Z.eq_dec (Z.lxor x y) 0) as [->|N]; [lia|].
    assert (0 <= Z.lxor x y) by (apply Z.lxor_nonneg; lia).
    apply Z.log2_lt_pow2; [lia|].
    eapply Z.le_lt_trans; [apply Z.log2_lxor; lia|].
    apply Z.max_lub_lt.
    - destruct (Z.eq_dec x 0) as [->|]; [cbn; lia|]. apply Z.log2_lt_pow2; lia.
    - destruct (Z.eq_dec y 0) as [->|]; [cbn; lia|]. apply Z.log2_lt_pow2; lia. }
  unfold in_int. intros Ha Hb. destruct (Z.lt_ge_cases a 0).
  - assert (E : Z.lxor a b = Z.lnot (Z.lxor (Z.lnot a) b)).
    { rewrite <- Z.lnot_lxor_l. rewrite Z.lnot_involutive. reflexivity. }
    rewrite E. unfold Z.lnot at 1 2. unfold Z.lnot.
    specialize (P (- a - 1) b). fold (Z.pred (-a)) in *.
    replace (Z.pred (- a)) with (- a - 1) by lia.
    specialize (P ltac:(lia) ltac:(lia)). lia.
  - specialize (P a b ltac:(lia) Hb). lia.
Qed.

Lemma fold_hash_int l : forall x, in_int x -> in_int (fold_left hash_step l x).
Proof. induction l; intros x H; [assumption|]. cbn [fold_left]. apply IHl. apply wrap32_range. Qed.

Lemma hashbytes_int mem len x : Forall is_byte mem -> Z.of_nat len < 2 ^ 31 -> hashbytes mem len = Some x -> in_int x.
Proof.
  intros HB HL. unfold hashbytes. destruct mem as [|b0 mem]; [discriminate|].
  inversion HB as [|? ? H0 H1]; subst. destruct (Nat.ltb_spec (length (b0 :: mem)) len); [discriminate|].
  intros [= <-]. match goal with |- in_int (if ?c then _ else _) => destruct c end; [unfold in_int; lia|].
  apply lxor_int; [|lia]. apply fold_hash_int. unfold in_int, is_byte in *. lia.
Qed.

Lemma le64_bytes z : Forall is_byte (le64 z).
Proof.
  unfold le64. apply Forall_forall. intros b H. apply in_map_iff in H. destruct H as (i & <- & _).
  unfold is_byte. apply Z.mod_pos_bound. lia.
Qed.

Lemma vhash_int v : good_key v -> in_int (vhash v).
Proof.
  intros (_ & _ & H). unfold vhash. destruct v; cbn [scalar_hash]; try (unfold in_int; lia).
  - destruct b; unfold in_int; lia.
  - unfold hash8. destruct (hashbytes (le64 z) 8) eqn:E; [|unfold in_int; lia].
    eapply hashbytes_int; [apply le64_bytes| |exact E]. lia.
  - unfold hash8. destruct (hashbytes (le64 bits) 8) eqn:E; [|unfold in_int; lia].
    eapply hashbytes_int; [apply le64_bytes| |exact E]. lia.
  - destruct (str_hash (str_of bytes)) eqn:E; [|unfold in_int; lia].
    unfold str_hash, s_mem, str_of in E. cbn [s_count s_bytes] in E. destruct H as [HB HL].
    assert (HM : Forall is_byte (bytes ++ [0])).
    { apply Forall_app. split; [assumption|]. repeat constructor; unfold is_byte; lia. }
    eapply hashbytes_int; [exact HM| |exact E].
    pose proof (strlen_total bytes (length bytes) HB (le_n _)) as SL.
    destruct SL as [ES|(n & ES & R & _)]; rewrite ES; lia.
Qed.

Lemma good_cmp rt a b : good_key a -> good_key b -> obj_compare rt a b = Some (veqb a b).
Proof.
  intros (Ha & Ca & _) (Hb & Cb & _). unfold veqb, obj_compare.
  destruct a; cbn in Ha; try contradiction; destruct b; cbn in Hb; try contradiction; cbn;
    try reflexivity.
  - destruct (Bool.eqb b0 b); reflexivity.
  - destruct (z =? z0); reflexivity.
  - destruct (f_eq bits bits0); reflexivity.
  - destruct (str_eql _ _); reflexivity.
Qed.

Lemma veqb_true rt a b : good_key a -> good_key b -> veqb a b = true -> obj_compare rt a b = Some true.
Proof. intros Ha Hb H. rewrite (good_cmp rt a b Ha Hb), H. reflexivity. Qed.

Lemma veqb_refl a : good_key a -> veqb a a = true.
Proof. intros (_ & C & _). unfold veqb. rewrite compare_refl; auto. Qed.

Lemma veqb_sym a b : veqb a b = veqb b a.
Proof. unfold veqb. rewrite compare_sym. reflexivity. Qed.

Lemma veqb_trans a b c : good_key a -> good_key b -> good_key c ->
  veqb a b = true -> veqb b c = true -> veqb a c = true.
Proof.
  intros Ha Hb Hc H1 H2. apply (veqb_true (fun _ => TyList)) in H1, H2; auto.
  pose proof (compare_trans _ _ _ _ H1 H2) as H. unfold veqb. rewrite H. reflexivity.
Qed.

Lemma veqb_hash a b : good_key a -> good_key b -> veqb a b = true -> vhash a = vhash b.
Proof.
  intros Ha Hb H. unfold vhash. apply (veqb_true (fun _ => TyList)) in H; auto.
  rewrite (eq_hash _ a b (proj1 Ha) (proj1 Hb) H). reflexivity.
Qed.

Lemma value_map_history rt {V} num (h : list (value * V)) :
  small_history veqb num h -> tame vhash veqb num h -> Forall (fun kv => good_key (fst kv)) h ->
  exists m, map_inserts vhash (obj_compare rt) (new_map num) h = InsOk m /\
    (forall k, good_key k -> map_select vhash (obj_compare rt) m k =
       match last_stored veqb h k with Some v => SelVal v | None => SelNone end) /\
    combine (map_keys m) (m_vals m) = a_stores veqb h /\
    map_keys m = map fst (a_stores veqb h) /\
    map_count m = Z.of_nat (length (a_stores veqb h)).
Proof.
  intros Hs Ht HG.
  destruct (map_history (V := V) vhash (obj_compare rt) veqb good_key) with (num := num) (h := h) as (m & A & B & C & D & E & _); auto.
  - intros. apply good_cmp; auto.
  - apply veqb_refl.
  - intros. apply veqb_sym.
  - apply veqb_trans.
  - apply veqb_hash.
  - apply vhash_int.
  - exists m. auto.
Qed.

(** ** Counterexamples *)
Definition intkeys (l : list Z) : list (value * Z) := map (fun k => (VInt k, k)) l.

Lemma lost_key : exists (h : list (value * Z)) k m,
  map_inserts vhash (obj_compare (fun _ => TyList)) (new_map (-1)) h = InsOk m /\
  last_stored veqb h (VInt k) = Some k /\
  map_select vhash (obj_compare (fun _ => TyList)) m (VInt k) = SelNone.
Proof.
  exists (intkeys [1; 5; 8; 11; 27; 100]), 27.
  eexists. split; [vm_compute; reflexivity|]. split; vm_compute; reflexivity.
Qed.

(** After the key is lost, storing it again lists it twice. *)
Lemma dup_key : exists (h : list (value * Z)) m,
  map_inserts vhash (obj_compare (fun _ => TyList)) (new_map (-1)) h = InsOk m /\
  map_keys m = map VInt [1; 5; 8; 11; 27; 100; 27].
Proof.
  exists (intkeys [1; 5; 8; 11; 27; 100; 27]). eexists. split; vm_compute; reflexivity.
Qed.

Definition strkeys (l : list Z) : list (value * Z) := map (fun k => (VStr [k], k)) l.

Lemma rehash_all_app {K} (hash : K -> Z) fuel a : forall mapper mask i b,
  rehash_all hash fuel mapper mask i (a ++ b) =
  match rehash_all hash fuel mapper mask i a with
  | inl (Some mapper') => rehash_all hash fuel mapper' mask (i + length a) b
  | r => r
  end.
Proof.
  induction a as [|k a IH]; intros; cbn [rehash_all app length].
  - rewrite Nat.add_0_r. reflexivity.
  - destruct (rehash_loop _ _ _ _); try reflexivity. rewrite IH.
    rewrite Nat.add_succ_r. reflexivity.
Qed.

(** The table after the first four of the keys "d", "i", "j", "o", "y" are put back. *)
Definition stuck_table : list Z := [-1; -1; -1; -1; -1; 0; -1; -1; 1; -1; -1; 2; -1; -1; 3; -1].

Lemma stuck_loop F : rehash_loop F stuck_table 15 (8, -1) = SlotTimeout.
Proof.
  induction F; [reflexivity|]. cbn [rehash_loop].
  replace (zget stuck_table (fst (8, -1))) with (Some 1) by reflexivity.
  replace (probe_s 15 (8, -1)) with (8, -1) by reflexivity. exact IHF.
Qed.

Lemma stuck_key F : rehash_loop F stuck_table 15 (Z.land (vhash (VStr [121])) 15, vhash (VStr [121])) = SlotTimeout.
Proof.
  replace (vhash (VStr [121])) with (-1691822600) by reflexivity.
  do 8 (destruct F; [vm_compute; reflexivity|]).
  change (rehash_loop (S (S (S (S (S (S (S (S F)))))))) stuck_table 15 (Z.land (-1691822600) 15, -1691822600))
    with (rehash_loop F stuck_table 15 (8, -1)).
  apply stuck_loop.
Qed.

Lemma rehash_loop_mono f : forall g mapper mask st, (f <= g)%nat ->
  rehash_loop f mapper mask st <> SlotTimeout -> rehash_loop g mapper mask st = rehash_loop f mapper mask st.
Proof.
  induction f; intros g mapper mask st Hg; cbn [rehash_loop]; [contradiction|].
  destruct g as [|g]; [lia|]. cbn [rehash_loop].
  destruct (zget mapper (fst st)); [|reflexivity]. destruct (_ =? -1); [reflexivity|]. apply IHf. lia.
Qed.

Lemma rehash_all_mono {K} (hash : K -> Z) f g keys : (f <= g)%nat -> forall mapper mask i mapper',
  rehash_all hash f mapper mask i keys = inl (Some mapper') -> rehash_all hash g mapper mask i keys = inl (Some mapper').
Proof.
  intros Hg. induction keys as [|k keys IH]; intros mapper mask i mapper'; cbn [rehash_all]; [auto|].
  destruct (rehash_loop f mapper mask _) eqn:E; try discriminate.
  rewrite (rehash_loop_mono f g) by (rewrite ?E; auto; discriminate). rewrite E. apply IH.
Qed.

Definition hang_keys : list (value * Z) := strkeys [100; 105; 106; 111; 121].
Definition hang_map : hmap value Z :=
  match map_inserts vhash (obj_compare (fun _ => TyList)) (new_map (-1)) hang_keys with InsOk m => m | _ => new_map 0 end.

(** Storing a sixth variable in a frame that has d, i, j, o, y: the growth loop never ends. *)
Lemma growth_hangs :
  map_inserts vhash (obj_compare (fun _ => TyList)) (new_map (-1)) hang_keys = InsOk hang_map /\
  Z.of_nat (length (m_keys hang_map)) = calc_capacity (msize hang_map) /\
  forall F, grow_fuel vhash F hang_map = InsTimeout.
Proof.
  split; [vm_compute; reflexivity|]. split; [vm_compute; reflexivity|].
  intros F. unfold grow_fuel.
  replace (m_keys hang_map) with (map (fun k => VStr [k]) [100; 105; 106; 111] ++ [VStr [121]]) by (vm_compute; reflexivity).
  replace (2 * length (m_mapper hang_map))%nat with 16%nat by (vm_compute; reflexivity).
  change (Z.of_nat 16 - 1) with 15. rewrite rehash_all_app.
  assert (E : rehash_all vhash F (repeat (-1) 16) 15 0 (map (fun k => VStr [k]) [100; 105; 106; 111]) = inr tt \/
              rehash_all vhash F (repeat (-1) 16) 15 0 (map (fun k => VStr [k]) [100; 105; 106; 111]) = inl (Some stuck_table)).
  { destruct (Nat.le_gt_cases 10 F) as [H|H].
    - right. apply (rehash_all_mono vhash 10 F _ H). vm_compute. reflexivity.
    - do 10 (destruct F; [vm_compute; auto|]). lia. }
  destruct E as [E|E]; rewrite E; [reflexivity|]. cbn [rehash_all]. rewrite stuck_key. reflexivity.
Qed.
