From Coq Require Import ZArith List Lia Bool.
From Verif Require Import Base StringModel ListModel SeqSpec.
Import ListNotations.
Open Scope Z_scope.

Section P.
Context {A : Type}.

(** The list object [l] represents the sequence [s]. *)
Definition rep (l : lobj A) (s : list A) : Prop :=
  l_count l = Z.of_nat (length s) /\ l_cap l = Z.of_nat (length (l_cells l)) /\
  (length s <= length (l_cells l))%nat /\ firstn (length s) (l_cells l) = map Some s.

Lemma rep_new cap : rep (new_list cap) [].
Proof.
  unfold rep, new_list. cbn [l_count l_cap l_cells length firstn map]. rewrite repeat_length.
  repeat split; try lia. destruct (Z.ltb_spec cap 8); lia.
Qed.

Lemma nth_firstn_some (cells : list (option A)) s i v : firstn (length s) cells = map Some s ->
  nth_error s i = Some v -> nth_error cells i = Some (Some v).
Proof.
  intros H Hi. pose proof (nth_error_Some_lt _ _ _ Hi) as L.
  rewrite <- (firstn_skipn (length s) cells), H, nth_error_app1 by (rewrite map_length; lia).
  rewrite nth_error_map, Hi. reflexivity.
Qed.

Lemma rep_read l s i : rep l s -> 0 <= i < Z.of_nat (length s) ->
  exists v, seq_get s i = Some v /\ cell_read (l_cells l) i = ROk v.
Proof.
  intros (H1 & H2 & H3 & H4) Hi. unfold seq_get.
  destruct (zget_in_range s i Hi) as [v Hv]. exists v. split; [assumption|].
  unfold cell_read, zget in *. destruct (Z.ltb_spec i 0); [lia|].
  rewrite (nth_firstn_some _ _ _ _ H4 Hv). reflexivity.
Qed.

Lemma select_spec l s key : rep l s -> Z.of_nat (length s) <= 2 ^ 31 - 1 -> in_int key ->
  list_select l key = match seq_get s key with Some v => ROk v | None => RErr end.
Proof.
  intros R Hs Hk. unfold list_select. rewrite wrap32_id by assumption.
  pose proof R as (H1 & _). rewrite H1.
  destruct (Z.ltb_spec key 0); cbn [orb].
  - unfold seq_get, zget. destruct (Z.ltb_spec key 0); [reflexivity|lia].
  - destruct (Z.leb_spec (Z.of_nat (length s)) key).
    + unfold seq_get, zget. destruct (Z.ltb_spec key 0); [lia|].
      destruct (nth_error s (Z.to_nat key)) eqn:E; [|reflexivity]. apply nth_error_Some_lt in E. lia.
    + destruct (rep_read l s key R ltac:(lia)) as (v & E1 & E2). rewrite E1, E2. reflexivity.
Qed.

Lemma firstn_upd {B} (l : list B) n i x : (n <= i)%nat -> firstn n (upd l i x) = firstn n l.
Proof.
  revert n i. induction l as [|a l IH]; intros n i H; [reflexivity|].
  destruct i as [|i]; cbn [upd].
  - replace n with 0%nat by lia. reflexivity.
  - destruct n; [reflexivity|]. cbn [firstn]. f_equal. apply IH. lia.
Qed.

Lemma firstn_S_upd {B} (l : list B) i x : (i < length l)%nat -> firstn (S i) (upd l i x) = firstn i l ++ [x].
Proof.
  revert i. induction l as [|a l IH]; intros i H; [cbn in H; lia|].
  destruct i as [|i]; cbn [upd firstn app]; [reflexivity|]. f_equal. apply IH. cbn in H. lia.
Qed.

Lemma firstn_upd_lt {B} (l : list B) n i x : (i < n)%nat -> firstn n (upd l i x) = upd (firstn n l) i x.
Proof.
  revert n i. induction l as [|a l IH]; intros n i H.
  - rewrite !firstn_nil. reflexivity.
  - destruct n; [lia|]. destruct i; cbn [upd firstn]; [reflexivity|]. f_equal. apply IH. lia.
Qed.

Lemma upd_split {B} (l : list B) i x : (i < length l)%nat -> upd l i x = firstn i l ++ x :: skipn (S i) l.
Proof.
  revert i. induction l as [|a l IH]; intros i H; [cbn in H; lia|].
  destruct i as [|i]; cbn [upd firstn skipn app]; [reflexivity|]. f_equal. apply IH. cbn in H. lia.
Qed.

Lemma map_upd {B C} (f : B -> C) (l : list B) i x : map f (upd l i x) = upd (map f l) i (f x).
Proof. revert i. induction l; destruct i; cbn; auto. f_equal. auto. Qed.

Lemma firstn_S_nth {B} (l : list B) i x : nth_error l i = Some x -> firstn (S i) l = firstn i l ++ [x].
Proof.
  revert i. induction l as [|a l IH]; intros i H; [destruct i; discriminate|].
  destruct i as [|i]; cbn [nth_error firstn app] in *; [congruence|]. f_equal. apply IH. assumption.
Qed.

Lemma copy_cells_spec n : forall i (src dst : list (option A)),
  (i + n <= length src)%nat -> (i + n <= length dst)%nat -> firstn i dst = firstn i src ->
  exists dst', copy_cells n (Z.of_nat i) src dst = ROk dst' /\ length dst' = length dst /\
    firstn (i + n) dst' = firstn (i + n) src.
Proof.
  induction n; intros i src dst Hs Hd He; cbn [copy_cells].
  - exists dst. rewrite Nat.add_0_r. auto.
  - destruct (zget_in_range src (Z.of_nat i) ltac:(lia)) as [c Hc]. rewrite Hc.
    destruct (Z.leb_spec (Z.of_nat (length dst)) (Z.of_nat i)); [lia|].
    rewrite Nat2Z.id. replace (Z.of_nat i + 1) with (Z.of_nat (S i)) by lia.
    destruct (IHn (S i) src (upd dst i c)) as (dst' & E1 & E2 & E3); rewrite ?upd_length in *; try lia.
    + rewrite firstn_S_upd by lia. rewrite He.
      symmetry. apply firstn_S_nth. apply zget_Some in Hc. rewrite Nat2Z.id in Hc. apply Hc.
    + exists dst'. rewrite <- !Nat.add_succ_comm. auto.
Qed.

Lemma grow_rep l s : rep l s -> l_count l = l_cap l -> 0 < l_cap l < 2 ^ 30 ->
  exists l', list_grow l = ROk l' /\ rep l' s /\ l_count l' < l_cap l' /\ l_cap l' = 2 * l_cap l.
Proof.
  intros (H1 & H2 & H3 & H4) Hc Hb. unfold list_grow.
  rewrite wrap32_id by (unfold in_int; lia).
  assert (EN : Z.to_nat (l_count l) = length s) by lia. rewrite EN.
  destruct (copy_cells_spec (length s) 0 (l_cells l) (repeat None (Z.to_nat (l_cap l * 2)))) as (c & E1 & E2 & E3).
  - lia.
  - rewrite repeat_length. lia.
  - reflexivity.
  - change (Z.of_nat 0) with 0 in E1. rewrite E1. eexists. split; [reflexivity|].
    rewrite repeat_length in E2. cbn [Nat.add] in E3.
    unfold rep. cbn [l_count l_cap l_cells]. rewrite E2, E3. repeat split; try lia. assumption.
Qed.

Lemma insert_spec l s key v : rep l s -> 8 <= l_cap l -> Z.of_nat (length s) < 2 ^ 30 -> in_int key ->
  match seq_set s key v with
  | Some s' => exists l', list_insert l key v = ROk l' /\ rep l' s' /\ l_cap l <= l_cap l'
  | None => list_insert l key v = RErr
  end.
Proof.
  intros R Hcap Hs Hk. unfold list_insert, seq_set. rewrite wrap32_id by assumption.
  pose proof R as (H1 & H2 & H3 & H4). rewrite H1.
  destruct (Z.eqb_spec key (Z.of_nat (length s))) as [->|N].
  - destruct (Z.ltb_spec (Z.of_nat (length s)) 0); [lia|]. destruct (Z.ltb_spec (Z.of_nat (length s)) (Z.of_nat (length s))); [lia|].
    cbn [orb].
    assert (W : exists l', (if Z.of_nat (length s) =? l_cap l then list_grow l else ROk l) = ROk l' /\
                rep l' s /\ l_count l' < l_cap l' /\ l_cap l <= l_cap l').
    { destruct (Z.eqb_spec (Z.of_nat (length s)) (l_cap l)) as [E|E].
      - destruct (grow_rep l s R) as (l' & G1 & G2 & G3 & G4); try lia. exists l'. repeat split; try apply G2; auto. lia.
      - exists l. repeat split; auto; lia. }
    destruct W as (l' & W1 & (W2 & W3 & W4 & W5) & W6 & W7). rewrite W1.
    unfold cell_write. destruct (Z.ltb_spec (l_count l') 0); [lia|].
    destruct (Z.leb_spec (Z.of_nat (length (l_cells l'))) (l_count l')); [lia|]. cbn [orb].
    eexists. split; [reflexivity|]. split; [|cbn; assumption].
    unfold rep. cbn [l_count l_cap l_cells]. rewrite upd_length, app_length. cbn [length].
    repeat split; try lia.
    rewrite Nat.add_1_r. rewrite W2, Nat2Z.id. rewrite firstn_S_upd by lia.
    rewrite W5, map_app. reflexivity.
  - destruct (Z.leb_spec 0 key) as [L0|L0], (Z.ltb_spec key 0); try lia; cbn [andb orb].
    2:{ reflexivity. }
    destruct (Z.ltb_spec key (Z.of_nat (length s))) as [L|L], (Z.ltb_spec (Z.of_nat (length s)) key); try lia.
    2:{ reflexivity. }
    unfold cell_write. destruct (Z.ltb_spec key 0); [lia|]. destruct (Z.leb_spec (Z.of_nat (length (l_cells l))) key); [lia|]. cbn [orb].
    eexists. split; [reflexivity|]. split; [|cbn; lia].
    rewrite <- upd_split by lia.
    unfold rep. cbn [l_count l_cap l_cells]. rewrite !upd_length.
    repeat split; try lia. rewrite firstn_upd_lt by lia. rewrite H4, map_upd. reflexivity.
Qed.

Lemma seq_set_length s i (v : A) s' : seq_set s i v = Some s' -> (length s' <= S (length s))%nat.
Proof.
  unfold seq_set. destruct (Z.eqb_spec i (Z.of_nat (length s))).
  - intros [= <-]. rewrite app_length. cbn [length]. lia.
  - destruct (Z.leb_spec 0 i), (Z.ltb_spec i (Z.of_nat (length s))); cbn [andb]; try discriminate.
    rewrite <- upd_split by lia. intros [= <-]. rewrite upd_length. lia.
Qed.

Lemma run_spec ops : forall l s, rep l s -> 8 <= l_cap l -> Forall (fun kv => in_int (fst kv)) ops ->
  Z.of_nat (length s) + Z.of_nat (length ops) <= 2 ^ 30 ->
  exists l', list_run l ops = ROk (l', snd (seq_run s ops)) /\ rep l' (fst (seq_run s ops)).
Proof.
  induction ops as [|[k v] ops IH]; intros l s R Hc HI Hl; cbn [list_run seq_run].
  - exists l. auto.
  - inversion HI as [|? ? I1 I2]; subst. cbn [fst] in I1. cbn [length] in Hl.
    pose proof (insert_spec l s k v R Hc ltac:(lia) I1) as S1.
    destruct (seq_set s k v) as [s'|] eqn:E.
    + destruct S1 as (l' & E1 & R' & C'). rewrite E1. apply seq_set_length in E.
      destruct (IH l' s' R' ltac:(lia) I2 ltac:(lia)) as (l2 & E2 & R2).
      destruct (seq_run s' ops) as [s2 bs] eqn:E3. cbn [fst snd] in *. rewrite E2. exists l2. auto.
    + rewrite S1. destruct (IH l s R Hc I2 ltac:(lia)) as (l2 & E2 & R2).
      destruct (seq_run s ops) as [s2 bs] eqn:E3. cbn [fst snd] in *. rewrite E2. exists l2. auto.
Qed.

Lemma new_list_cap (cap : Z) : 8 <= l_cap (new_list (A := A) cap).
Proof. unfold new_list. cbn [l_cap]. destruct (Z.ltb_spec cap 8); lia. Qed.

Theorem list_history cap ops : Forall (fun kv : Z * A => in_int (fst kv)) ops -> Z.of_nat (length ops) <= 2 ^ 30 ->
  exists l, list_run (new_list cap) ops = ROk (l, snd (seq_run [] ops)) /\
    list_count l = Z.of_nat (length (fst (seq_run [] ops))) /\
    forall i, in_int i -> list_select l i = match seq_get (fst (seq_run [] ops)) i with Some v => ROk v | None => RErr end.
Proof.
  intros HI HL. destruct (run_spec ops (new_list cap) [] (rep_new cap) (new_list_cap cap) HI) as (l & E & R).
  - cbn [length]. lia.
  - exists l. split; [assumption|]. split; [apply R|]. intros i Hi.
    assert (G : forall (ops : list (Z * A)) s, (length (fst (seq_run s ops)) <= length s + length ops)%nat).
    { clear. induction ops as [|[k v] ops IH]; intros s; cbn [seq_run length]; [cbn; lia|].
      destruct (seq_set s k v) as [s'|] eqn:E.
      - apply seq_set_length in E. specialize (IH s'). destruct (seq_run s' ops). cbn [fst] in *. lia.
      - specialize (IH s). destruct (seq_run s ops). cbn [fst] in *. lia. }
    apply select_spec; auto. specialize (G ops []). cbn [length] in G. lia.
Qed.

(** Copy. *)
Lemma copy_list_loop_spec (cp : A -> res A) (cpf : A -> A) s : (forall v, cp v = ROk (cpf v)) ->
  forall n i (src dst : list (option A)),
  firstn (length s) src = map Some s -> (i + n <= length s)%nat -> (i + n <= length dst)%nat ->
  firstn i dst = map Some (map cpf (firstn i s)) ->
  exists dst', copy_list_loop cp n (Z.of_nat i) src dst = ROk dst' /\ length dst' = length dst /\
    firstn (i + n) dst' = map Some (map cpf (firstn (i + n) s)).
Proof.
  intros Hcp. induction n; intros i src dst Hs Hi Hd He; cbn [copy_list_loop].
  - exists dst. rewrite Nat.add_0_r. auto.
  - destruct (nth_error s i) as [v|] eqn:Ev.
    2:{ apply nth_error_None in Ev. lia. }
    unfold cell_read at 1. unfold zget. destruct (Z.ltb_spec (Z.of_nat i) 0); [lia|]. rewrite Nat2Z.id.
    rewrite (nth_firstn_some _ _ _ _ Hs Ev), Hcp. unfold cell_write at 1.
    destruct (Z.ltb_spec (Z.of_nat i) 0); [lia|]. destruct (Z.leb_spec (Z.of_nat (length dst)) (Z.of_nat i)); [lia|]. cbn [orb].
    rewrite Nat2Z.id. replace (Z.of_nat i + 1) with (Z.of_nat (S i)) by lia.
    destruct (IHn (S i) src (upd dst i (Some (cpf v)))) as (dst' & E1 & E2 & E3); rewrite ?upd_length in *; auto; try lia.
    + rewrite firstn_S_upd by lia. rewrite He. rewrite (firstn_S_nth s i v Ev), !map_app. reflexivity.
    + exists dst'. rewrite <- !Nat.add_succ_comm. auto.
Qed.

Lemma copy_spec (cp : A -> res A) cpf l s : (forall v, cp v = ROk (cpf v)) -> rep l s ->
  exists l', list_copy cp l = ROk l' /\ rep l' (map cpf s).
Proof.
  intros Hcp (H1 & H2 & H3 & H4). unfold list_copy.
  replace (Z.to_nat (l_count l)) with (length s) by lia.
  assert (HL : (length s <= length (l_cells (new_list (A := A) (l_count l))))%nat).
  { unfold new_list. cbn [l_cells]. rewrite repeat_length. destruct (Z.ltb_spec (l_count l) 8); lia. }
  destruct (copy_list_loop_spec cp cpf s Hcp (length s) 0 (l_cells l) (l_cells (new_list (l_count l))) H4) as (c & E1 & E2 & E3);
    try lia; try reflexivity.
  change (Z.of_nat 0) with 0 in E1. rewrite E1. eexists. split; [reflexivity|].
  cbn [Nat.add] in E3. rewrite firstn_all in E3.
  unfold rep. cbn [l_count l_cap l_cells]. rewrite map_length, E2. repeat split; auto.
  unfold new_list. cbn [l_cap l_cells]. rewrite repeat_length. destruct (Z.ltb_spec (l_count l) 8); lia.
Qed.

Lemma rep_new2 items : rep (new_list2 items) items.
Proof.
  unfold rep, new_list2, new_list. cbn [l_count l_cap l_cells].
  rewrite app_length, map_length, skipn_length, repeat_length.
  repeat split.
  - destruct (Z.ltb_spec (Z.of_nat (length items)) 8); lia.
  - lia.
  - rewrite firstn_app, map_length, Nat.sub_diag. cbn [firstn]. rewrite app_nil_r.
    rewrite <- (map_length Some items) at 1. apply firstn_all.
Qed.
End P.

(** Key list. *)
Lemma consec_loop_spec first n : forall i l, rep l (map (fun j => first + Z.of_nat j) (seq 0 i)) -> 8 <= l_cap l ->
  Z.of_nat (i + n) <= 2 ^ 30 ->
  exists l', consec_loop n (Z.of_nat i) first l = ROk l' /\ rep l' (map (fun j => first + Z.of_nat j) (seq 0 (i + n))).
Proof.
  induction n; intros i l R Hc Hb; cbn [consec_loop].
  - exists l. rewrite Nat.add_0_r. auto.
  - pose proof (insert_spec l _ (Z.of_nat i) (if first =? 0 then Z.of_nat i else first + Z.of_nat i) R Hc) as S1.
    rewrite map_length, seq_length in S1. specialize (S1 ltac:(lia) ltac:(unfold in_int; lia)).
    unfold seq_set in S1. rewrite map_length, seq_length, Z.eqb_refl in S1.
    destruct S1 as (l' & E & R' & C'). rewrite E.
    replace (Z.of_nat i + 1) with (Z.of_nat (S i)) by lia.
    destruct (IHn (S i) l') as (l2 & E2 & R2); try lia.
    + rewrite seq_S, map_app. cbn [map Nat.add]. destruct (Z.eqb_spec first 0) as [->|]; [|assumption].
      rewrite Z.add_0_l. assumption.
    + exists l2. rewrite <- Nat.add_succ_comm. auto.
Qed.

Lemma keysof_spec {A} (l : lobj A) s : rep l s -> Z.of_nat (length s) <= 2 ^ 30 ->
  exists l', list_keysof l = ROk l' /\ rep l' (map Z.of_nat (seq 0 (length s))).
Proof.
  intros (H1 & _) Hb. unfold list_keysof, consecutive.
  replace (l_count l - 1 - 0 + 1) with (Z.of_nat (length s)) by lia. rewrite Nat2Z.id.
  destruct (consec_loop_spec 0 (length s) 0 (new_list (Z.of_nat (length s)))) as (l' & E & R).
  - apply rep_new.
  - apply new_list_cap.
  - lia.
  - exists l'. split; [assumption|]. cbn [Nat.add] in R.
    replace (map Z.of_nat (seq 0 (length s))) with (map (fun j => 0 + Z.of_nat j) (seq 0 (length s))); [assumption|].
    apply map_ext. intros. lia.
Qed.

(** An index outside a list is accepted if it is 2^32 or more. *)
Lemma trunc_select : exists (l : lobj Z) i, list_count l = 1 /\ in_i64 i /\ list_count l <= i /\ list_select l i = ROk 7.
Proof.
  exists (match list_insert (new_list (-1)) 0 7 with ROk l => l | _ => new_list 0 end), (2 ^ 32).
  vm_compute. repeat split; discriminate.
Qed.

Lemma trunc_insert : exists (l : lobj Z) i l', list_count l = 1 /\ in_i64 i /\ list_count l < i /\
  list_insert l i 9 = ROk l' /\ list_select l 0 = ROk 7 /\ list_select l' 0 = ROk 9.
Proof.
  exists (match list_insert (new_list (-1)) 0 7 with ROk l => l | _ => new_list 0 end), (2 ^ 32),
    (match list_insert (new_list (-1)) 0 9 with ROk l => l | _ => new_list 0 end).
  vm_compute. repeat split; discriminate.
Qed.
