(** Type tests decide [fits]. *)
From Coq Require Import ZArith List Lia Bool.
From Verif Require Import Base StringModel ValueModel MapModel ListModel ObjModel ObjSpec TextProofs.
Import ListNotations.
Open Scope Z_scope.

Lemma obind_ok {A B} (x : out A) (f : A -> out B) b : obind x f = OOk b -> exists a, x = OOk a /\ f a = OOk b.
Proof. destruct x; cbn; intros H; try discriminate. eauto. Qed.

(** ** The search with a pending error finds no more than the search without. *)
Lemma find_loop_refine {K V} (c1 c2 : K -> K -> option bool) (H : forall a b x, c1 a b = Some x -> c2 a b = Some x) :
  forall n (m : hmap K V) key st,
  match find_loop c1 n m key st with
  | Found k => find_loop c2 n m key st = Found k
  | Free i => find_loop c2 n m key st = Free i
  | _ => True
  end.
Proof.
  induction n as [|n IH]; intros m key st; cbn [find_loop]; [exact I|].
  destruct (zget (m_mapper m) (fst st)) as [k|]; [|exact I].
  destruct (k =? -1); [reflexivity|].
  destruct (zget (m_keys m) k) as [key'|]; [|exact I].
  destruct (c1 key key') as [[]|] eqn:E; try exact I; rewrite (H _ _ _ E); [reflexivity|apply IH].
Qed.

Lemma map_cmp_refine objs p a b x : map_cmp (mkmem objs p) a b = Some x -> map_cmp (mkmem objs false) a b = Some x.
Proof. unfold map_cmp. cbn. destruct (obj_compare (rt_of objs) a b) as [[]|]; destruct p; congruence. Qed.

Lemma map_sel_some m p mo k v m' : map_sel (set_pend m p) mo k = OOk (Some v, m') ->
  map_sel (mkmem (m_objs m) false) mo k = OOk (Some v, mkmem (m_objs m) false) /\ m_pend m' = p.
Proof.
  unfold map_sel. cbn [m_objs set_pend]. intros H. apply obind_ok in H as (h & Eh & H). rewrite Eh. cbn [obind].
  unfold map_select, find_slot in *.
  pose proof (find_loop_refine (V := value) _ _ (map_cmp_refine (m_objs m) p) (probe_fuel mo) mo k (start_u mo (hash_or0 (m_objs m) k))) as R.
  change (set_pend m p) with (mkmem (m_objs m) p) in *.
  destruct (find_loop (map_cmp (mkmem (m_objs m) p)) (probe_fuel mo) mo k (start_u mo (hash_or0 (m_objs m) k))) as [j| | | |]; try discriminate.
  rewrite R. destruct (nth_error (m_vals mo) j); [|discriminate]. injection H as <- <-. auto.
Qed.

Lemma sel_flag_some m o p k v p' : sel_flag m o p k = OOk (Some v, p') -> reads (m_objs m) o k v /\ p' = p.
Proof.
  destruct o; cbn [sel_flag]; intros H; try discriminate.
  - apply obind_ok in H as ([x mm] & E & H). cbn in H. injection H as -> <-.
    unfold keyed in E. destruct k; try discriminate.
    destruct (list_select l z) eqn:El; try discriminate. injection E as <- <-. split; [constructor; assumption|reflexivity].
  - apply obind_ok in H as ([x mm] & E & H). cbn in H. injection H as -> <-.
    apply map_sel_some in E as [E ->]. split; [constructor; assumption|reflexivity].
Qed.

Lemma sel_flag_none m o k p' : sel_flag m o false k = OOk (None, p') ->
  forall v, ~ reads (m_objs m) o k v.
Proof.
  intros H v R. destruct R as [lo i v R|mo k v R]; cbn [sel_flag] in H.
  - apply obind_ok in H as ([x mm] & E & H). injection H as -> _. cbn [keyed] in E. rewrite R in E. discriminate.
  - apply obind_ok in H as ([x mm] & E & H). injection H as -> _.
    change (set_pend m false) with (mkmem (m_objs m) false) in E. rewrite R in E. discriminate.
Qed.

(** ** The flag only ever goes up. *)
Lemma sel_flag_up m o p k x p' : sel_flag m o p k = OOk (x, p') -> p = true -> p' = true.
Proof.
  intros H ->. destruct o; cbn [sel_flag] in H; try discriminate; apply obind_ok in H as ([y mm] & E & H); injection H as -> <-; cbn.
  - unfold keyed in E. destruct k; try (injection E as _ <-; reflexivity).
    destruct (list_select l z); try discriminate; injection E as _ <-; reflexivity.
  - unfold map_sel in E. apply obind_ok in E as (h & Eh & E).
    destruct (map_select _ _ m0 k); try discriminate; injection E as _ <-; reflexivity.
Qed.

Lemma match_all_up rec sel
  (Hr : forall p t v b p', rec p t v = OOk (b, p') -> p = true -> p' = true)
  (Hs : forall p k x p', sel p k = OOk (x, p') -> p = true -> p' = true) :
  forall kvs p b p', match_all rec sel p kvs = OOk (b, p') -> p = true -> p' = true.
Proof.
  induction kvs as [|[k t] r IH]; intros p b p' H Hp; cbn in H.
  - injection H as _ <-. exact Hp.
  - apply obind_ok in H as ([x p1] & Es & H). cbn in H. pose proof (Hs _ _ _ _ Es Hp) as H1.
    destruct x as [v2|]; [|injection H as _ <-; exact H1].
    apply obind_ok in H as ([y p2] & Er & H). cbn in H. pose proof (Hr _ _ _ _ _ Er H1) as H2.
    destruct y; [eapply IH; eauto|injection H as _ <-; exact H2].
Qed.

Lemma type_up m : forall n p typ v b p', is_type_of n m p typ v = OOk (b, p') -> p = true -> p' = true.
Proof.
  induction n as [|n IH]; intros p typ v b p' H Hp; destruct typ; cbn [is_type_of] in H;
  try (injection H as _ <-; exact Hp); try discriminate.
  destruct (nth_error (m_objs m) l) as [[lo|mo|pv vs|c cl|i a|item|a b0|i|t i]|] eqn:E; try discriminate; try (injection H as _ <-; exact Hp).
  - destruct v; try (injection H as _ <-; exact Hp).
    destruct (nth_error (m_objs m) l0) as [[lo2| | | | | | | | ]|]; try (injection H as _ <-; exact Hp).
    destruct (list_items lo); [|discriminate].
    eapply match_all_up in H; eauto. intros; eapply sel_flag_up; eauto.
  - destruct v; try (injection H as _ <-; exact Hp).
    destruct (nth_error (m_objs m) l0) as [[lo2| mo2| | | | | | | ]|]; try (injection H as _ <-; exact Hp).
    eapply match_all_up in H; eauto. intros; eapply sel_flag_up; eauto.
  - destruct v; try (injection H as _ <-; exact Hp); eapply IH; eauto.
  - apply obind_ok in H as ([x p1] & Ea & H). cbn in H. destruct x.
    + injection H as _ <-. eapply IH; eauto.
    + eapply IH in H; eauto.
Qed.

(** ** Soundness of a positive answer. *)
Lemma match_all_true rec sel : forall kvs p p', match_all rec sel p kvs = OOk (true, p') ->
  forall k t, In (k, t) kvs -> exists p1 p2 p3 v, sel p1 k = OOk (Some v, p2) /\ rec p2 t v = OOk (true, p3).
Proof.
  induction kvs as [|[k0 t0] r IH]; intros p p' H k t Hin; [destruct Hin|]. cbn in H.
  apply obind_ok in H as ([x p1] & Es & H). cbn in H. destruct x as [v2|]; [|discriminate].
  apply obind_ok in H as ([y p2] & Er & H). cbn in H. destruct y; [|discriminate].
  destruct Hin as [Heq|Hin].
  - injection Heq as -> ->. eauto 10.
  - eapply IH; eauto.
Qed.

Lemma number_items_in vs i t : nth_error vs i = Some t -> In (VInt (Z.of_nat i), t) (number_items vs).
Proof.
  unfold number_items. intros H.
  assert (forall n, In (VInt (Z.of_nat (n + i)), t) (combine (map (fun i => VInt (Z.of_nat i)) (seq n (length vs))) vs)) as G; [|apply (G 0%nat)].
  revert i H. induction vs as [|v r IH]; intros [|i] H n; cbn in H; try discriminate.
  - injection H as ->. cbn. left. rewrite Nat.add_0_r. reflexivity.
  - cbn. right. specialize (IH i H (S n)). replace (n + S i)%nat with (S n + i)%nat by lia. exact IH.
Qed.

Lemma type_sound m : forall n p typ v p', is_type_of n m p typ v = OOk (true, p') -> fits (m_objs m) typ v.
Proof.
  induction n as [|n IH]; intros p typ v p' H; destruct typ; cbn [is_type_of] in H; try discriminate.
  - injection H as H _. apply tyname_eqb_eq in H. constructor. exact H.
  - constructor.
  - injection H as H _. apply tyname_eqb_eq in H. constructor. exact H.
  - constructor.
  - destruct (nth_error (m_objs m) l) as [[lo|mo|pv vs|c cl|i a|item|a b0|i|t i]|] eqn:E; try discriminate.
    + destruct v; try discriminate.
      destruct (nth_error (m_objs m) l0) as [[lo2| | | | | | | | ]|] eqn:E2; try discriminate.
      destruct (list_items lo) as [vs|] eqn:Ei; [|discriminate].
      eapply fits_list; eauto. intros i t Hi.
      destruct (match_all_true _ _ _ _ _ H _ _ (number_items_in _ _ _ Hi)) as (p1 & p2 & p3 & v & Hs & Hr).
      exists v. split; [eapply sel_flag_some; eauto|eapply IH; eauto].
    + destruct v; try discriminate.
      destruct (nth_error (m_objs m) l0) as [[lo2|mo2| | | | | | | ]|] eqn:E2; try discriminate.
      eapply fits_map; eauto. intros k t Hi.
      destruct (match_all_true _ _ _ _ _ H _ _ Hi) as (p1 & p2 & p3 & v & Hs & Hr).
      exists v. split; [eapply sel_flag_some; eauto|eapply IH; eauto].
    + destruct v; try (eapply fits_null_item; eauto; fail). eapply fits_null_none; eauto.
    + apply obind_ok in H as ([x p1] & Ea & H). cbn in H. destruct x.
      * eapply fits_sum_left; eauto.
      * eapply fits_sum_right; eauto.
Qed.

(** ** A negative answer without a flag is right. *)
Lemma in_number_items vs k t : In (k, t) (number_items vs) -> exists i, k = VInt (Z.of_nat i) /\ nth_error vs i = Some t.
Proof.
  unfold number_items.
  assert (forall n, In (k, t) (combine (map (fun i => VInt (Z.of_nat i)) (seq n (length vs))) vs) ->
    exists i, k = VInt (Z.of_nat (n + i)) /\ nth_error vs i = Some t) as G; [|apply (G 0%nat)].
  induction vs as [|v r IH]; intros n H; cbn in H; [destruct H|].
  destruct H as [H|H].
  - injection H as <- <-. exists 0%nat. rewrite Nat.add_0_r. auto.
  - destruct (IH _ H) as (i & -> & Hi). exists (S i). split; [f_equal; f_equal; lia|exact Hi].
Qed.

Lemma match_all_false rec sel
  (Hr : forall p t v b p', rec p t v = OOk (b, p') -> p = true -> p' = true)
  (Hs : forall p k x p', sel p k = OOk (x, p') -> p = true -> p' = true)
  (Hs1 : forall p k v p', sel p k = OOk (Some v, p') -> p' = p) :
  forall kvs, match_all rec sel false kvs = OOk (false, false) ->
  exists k t, In (k, t) kvs /\ (sel false k = OOk (None, false) \/ exists v, sel false k = OOk (Some v, false) /\ rec false t v = OOk (false, false)).
Proof.
  induction kvs as [|[k t] r IH]; intros H; cbn in H; [discriminate|].
  apply obind_ok in H as ([x p1] & Es & H). cbn in H. destruct x as [v2|].
  - pose proof (Hs1 _ _ _ _ Es). subst p1. apply obind_ok in H as ([y p2] & Er & H). cbn in H. destruct y.
    + destruct p2; [exfalso; pose proof (match_all_up _ _ Hr Hs _ _ _ _ H eq_refl); discriminate|].
      destruct (IH H) as (k' & t' & Hin & Hc). exists k', t'. split; [right; exact Hin|exact Hc].
    + injection H as ->. exists k, t. split; [left; reflexivity|]. right. exists v2. auto.
  - injection H as ->. exists k, t. split; [left; reflexivity|]. left. exact Es.
Qed.

Lemma reads_fun objs o k v w : reads objs o k v -> reads objs o k w -> v = w.
Proof. intros H1 H2. destruct H1; inversion H2; subst; congruence. Qed.

Lemma type_complete m : forall n typ v, is_type_of n m false typ v = OOk (false, false) -> ~ fits (m_objs m) typ v.
Proof.
  induction n as [|n IH]; intros typ v H F; destruct typ; cbn [is_type_of] in H; try discriminate; try (inversion F; fail).
  - inversion F; subst. injection H as H. rewrite tyname_eqb_refl in H. discriminate.
  - inversion F; subst. injection H as H. rewrite tyname_eqb_refl in H. discriminate.
  - destruct (nth_error (m_objs m) l) as [[lo|mo|pv vs|c cl|i a|item|a b0|i|t i]|] eqn:E; try discriminate;
    try (inversion F; subst; congruence).
    + destruct v; try (inversion F; subst; congruence).
      destruct (nth_error (m_objs m) l0) as [o2|] eqn:E2; [|inversion F; subst; congruence].
      destruct o2 as [lo2| | | | | | | | ]; try (inversion F; subst; congruence).
      destruct (list_items lo) as [vs|] eqn:Ei; [|discriminate].
      apply match_all_false in H; [|intros; eapply type_up; eauto|intros; eapply sel_flag_up; eauto|intros; eapply sel_flag_some; eauto].
      destruct H as (k & t & Hin & Hc).
      apply in_number_items in Hin as (i & -> & Hi).
      inversion F as [| |? ? Hx|? ? ? Hx|? ? ? ? Hx|? ? ? ? Hx|? lo' ts ? lo2' Hx1 Hx2 Hx3 Hall|? ? ? ? Hx]; subst; try congruence.
      replace lo' with lo in * by congruence. replace lo2' with lo2 in * by congruence. replace ts with vs in * by congruence.
      destruct (Hall _ _ Hi) as (v & Hrd & Hf). destruct Hc as [Hc|(v' & Hc & Hr)].
      * eapply sel_flag_none in Hc; eauto.
      * apply sel_flag_some in Hc as [Hrd' _]. assert (v' = v) by (eapply reads_fun; eauto). subst v'. eapply IH; eauto.
    + destruct v; try (inversion F; subst; congruence).
      destruct (nth_error (m_objs m) l0) as [o2|] eqn:E2; [|inversion F; subst; congruence].
      destruct o2 as [ |mo2| | | | | | | ]; try (inversion F; subst; congruence).
      apply match_all_false in H; [|intros; eapply type_up; eauto|intros; eapply sel_flag_up; eauto|intros; eapply sel_flag_some; eauto].
      destruct H as (k & t & Hin & Hc).
      inversion F as [| |? ? Hx|? ? ? Hx|? ? ? ? Hx|? ? ? ? Hx|? lo' ts ? lo2' Hx1 Hx2 Hx3 Hall|? mo' ? mo2' Hx1 Hx2 Hall]; subst; try congruence.
      replace mo' with mo in * by congruence. replace mo2' with mo2 in * by congruence.
      destruct (Hall _ _ Hin) as (v & Hrd & Hf). destruct Hc as [Hc|(v' & Hc & Hr)].
      * eapply sel_flag_none in Hc; eauto.
      * apply sel_flag_some in Hc as [Hrd' _]. assert (v' = v) by (eapply reads_fun; eauto). subst v'. eapply IH; eauto.
    + inversion F; subst; try congruence.
      replace item0 with item in * by congruence. destruct v; try discriminate; eapply IH; eauto.
    + apply obind_ok in H as ([x p1] & Ea & H). cbn in H. destruct x; [discriminate|].
      destruct p1; [pose proof (type_up _ _ _ _ _ _ _ H eq_refl); discriminate|].
      inversion F; subst; try congruence; replace a0 with a in * by congruence; replace b with b0 in * by congruence;
      match goal with Hf : fits _ a v |- _ => exact (IH _ _ Ea Hf) | Hf : fits _ b0 v |- _ => exact (IH _ _ H Hf) end.
Qed.

(** ** Plain type expressions: the test always answers, exactly, and leaves no error behind. *)

(** Nullable and sum objects refer to objects made before them (they cannot be changed afterwards). *)
Definition refs_before (objs : list hobj) : Prop := forall l,
  match nth_error objs l with
  | Some (ONullable i) => forall k, i = VRef k -> (k < l)%nat
  | Some (OSum a b) => forall k, a = VRef k \/ b = VRef k -> (k < l)%nat
  | _ => True
  end.

Lemma plain_total m (HB : refs_before (m_objs m)) : forall typ, plain_type (m_objs m) typ ->
  forall n p v, match typ with VRef l => (l < n)%nat | _ => True end ->
  exists b, is_type_of n m p typ v = OOk (b, p) /\ (b = true <-> fits (m_objs m) typ v).
Proof.
  intros typ HP. induction HP as [t| |l item E HP IH|l a b E HP1 IH1 HP2 IH2]; intros n p v Hn.
  - exists (tyname_eqb (type_of (rt_of (m_objs m)) v) t). split; [destruct n; reflexivity|].
    rewrite tyname_eqb_eq. split; intros H; [constructor; exact H|inversion H; auto].
  - exists true. split; [destruct n; reflexivity|]. split; [constructor|reflexivity].
  - destruct n as [|n]; [lia|]. cbn [is_type_of]. rewrite E.
    assert (Hi : match item with VRef k => (k < n)%nat | _ => True end).
    { pose proof (HB l) as B. rewrite E in B. destruct item; auto. specialize (B _ eq_refl). lia. }
    destruct (IH n p v Hi) as (b & Hb & Hf). destruct v; try (exists b; split; [exact Hb|]; rewrite Hf; split; intros H;
      [eapply fits_null_item; eauto|inversion H; subst; try congruence; replace item0 with item in * by congruence; assumption]; fail).
    exists true. split; [reflexivity|]. split; [intros _; eapply fits_null_none; eauto|reflexivity].
  - destruct n as [|n]; [lia|]. cbn [is_type_of]. rewrite E.
    assert (Ha : match a with VRef k => (k < n)%nat | _ => True end).
    { pose proof (HB l) as B. rewrite E in B. destruct a; auto. specialize (B _ (or_introl eq_refl)). lia. }
    assert (Hb : match b with VRef k => (k < n)%nat | _ => True end).
    { pose proof (HB l) as B. rewrite E in B. destruct b; auto. specialize (B _ (or_intror eq_refl)). lia. }
    destruct (IH1 n p v Ha) as (x & Hx & Hxf). destruct (IH2 n p v Hb) as (y & Hy & Hyf).
    rewrite Hx. cbn [obind fst snd]. destruct x.
    + exists true. split; [reflexivity|]. split; [intros _; eapply fits_sum_left; eauto; tauto|reflexivity].
    + exists y. split; [exact Hy|]. rewrite Hyf. split; intros H; [eapply fits_sum_right; eauto|].
      assert (~ fits (m_objs m) a v) by (intros Hf; apply Hxf in Hf; discriminate).
      inversion H; subst; try congruence; replace a0 with a in * by congruence; replace b0 with b in * by congruence; tauto.
Qed.

Lemma plain_test m typ v : refs_before (m_objs m) -> plain_type (m_objs m) typ ->
  exists b, is_type m typ v = OOk (b, m) /\ (b = true <-> fits (m_objs m) typ v).
Proof.
  intros HB HP.
  assert (Hn : match typ with VRef l => (l < type_depth (m_objs m))%nat | _ => True end).
  { destruct typ; auto. assert (l < length (m_objs m))%nat by (inversion HP; subst; eapply nth_error_Some_lt; eauto).
    unfold type_depth. nia. }
  destruct (plain_total m HB typ HP _ (m_pend m) v Hn) as (b & Hb & Hf).
  exists b. split; [|exact Hf]. unfold is_type. rewrite Hb. cbn. destruct m; reflexivity.
Qed.

Lemma test_sound m typ v m' : is_type m typ v = OOk (true, m') -> fits (m_objs m) typ v.
Proof. unfold is_type. intros H. apply obind_ok in H as ([b p] & E & H). cbn in H. injection H as -> <-. eapply type_sound; eauto. Qed.

Lemma test_complete m typ v m' : is_type m typ v = OOk (false, m') -> m_pend m' = false -> ~ fits (m_objs m) typ v.
Proof.
  unfold is_type. intros H. apply obind_ok in H as ([b p] & E & H). cbn in H. injection H as -> <-. cbn. intros ->.
  destruct (m_pend m) eqn:Ep; [pose proof (type_up _ _ _ _ _ _ _ E eq_refl); discriminate|]. eapply type_complete; eauto.
Qed.
