From Coq Require Import ZArith List Lia Bool.
From Verif Require Import Base StringModel BufferModel.
Import ListNotations.
Open Scope Z_scope.

Definition on_pl (p : nat) (o : option view) : bool :=
  match o with Some w => (v_pl w =? p)%nat | None => false end.
Definition cnt (p : nat) (vs : list (option view)) : nat := length (filter (on_pl p) vs).

Lemma cnt_app p a b : cnt p (a ++ b) = (cnt p a + cnt p b)%nat.
Proof. unfold cnt. rewrite filter_app, app_length. reflexivity. Qed.

Lemma cnt_upd_none p vs : forall v w, nth_error vs v = Some (Some w) ->
  cnt p (upd vs v None) = (if (v_pl w =? p)%nat then cnt p vs - 1 else cnt p vs)%nat /\
  ((v_pl w =? p)%nat = true -> (0 < cnt p vs)%nat).
Proof.
  unfold cnt. induction vs as [|o vs IH]; intros v w H; [destruct v; discriminate|].
  destruct v as [|v]; cbn [nth_error upd filter] in *.
  - injection H as ->. cbn [on_pl]. destruct (v_pl w =? p)%nat; cbn [length]; split; lia || discriminate.
  - destruct (IH v w H) as [E1 E2]. destruct (on_pl p o); cbn [length]; rewrite E1; destruct (v_pl w =? p)%nat; split; intros; try discriminate; try specialize (E2 eq_refl); lia.
Qed.

Lemma cnt_pos p vs v w : nth_error vs v = Some (Some w) -> v_pl w = p -> (0 < cnt p vs)%nat.
Proof.
  intros H E. destruct (cnt_upd_none p vs v w H) as [_ P]. apply P. subst. apply Nat.eqb_refl.
Qed.

Lemma cnt_ge p vs : (forall v w, nth_error vs v = Some (Some w) -> (v_pl w < p)%nat) -> cnt p vs = 0%nat.
Proof.
  unfold cnt. induction vs as [|o vs IH]; intros H; [reflexivity|]. cbn [filter].
  assert (E : on_pl p o = false).
  { destruct o as [w|]; [|reflexivity]. cbn. specialize (H 0%nat w eq_refl). apply Nat.eqb_neq. lia. }
  rewrite E. apply IH. intros v w Hv. apply (H (S v) w Hv).
Qed.

Record bwf (st : bstate) : Prop := {
  b_view : forall v w, get_view st v = Some w -> exists p, get_pl st (v_pl w) = Some p /\
      0 <= v_off w /\ 0 <= v_len w /\ v_off w + v_len w <= Z.of_nat (length (p_body p));
  b_pl : forall i p, get_pl st i = Some p -> p_refs p = Z.of_nat (cnt i (b_views st)) /\ 0 < p_refs p /\
      Forall is_byte (p_body p) /\ Z.of_nat (length (p_body p)) < 2 ^ 63
}.

Lemma get_view_nth st v w : get_view st v = Some w <-> nth_error (b_views st) v = Some (Some w).
Proof. unfold get_view. destruct (nth_error (b_views st) v) as [[u|]|]; split; congruence. Qed.

Lemma get_pl_nth st v w : get_pl st v = Some w <-> nth_error (b_pls st) v = Some (Some w).
Proof. unfold get_pl. destruct (nth_error (b_pls st) v) as [[u|]|]; split; congruence. Qed.

Lemma bwf_empty : bwf empty_bstate.
Proof. constructor; intros i p H; destruct i; discriminate. Qed.

(** The operations for which the code is correct: non-negative sizes and slice lengths, finalizers on live objects. *)
Definition sane (st : bstate) (op : bop) : Prop :=
  match op with
  | BNew n => 0 <= n < 2 ^ 63
  | BSlice v o l => get_view st v <> None /\ in_i64 o /\ 0 <= l < 2 ^ 63
  | BSet v k x => get_view st v <> None
  | BFree v => get_view st v <> None
  end.

Lemma nth_error_snoc {A} (l : list A) x i y : nth_error (l ++ [x]) i = Some y ->
  nth_error l i = Some y \/ (i = length l /\ y = x).
Proof.
  intros H. destruct (Nat.lt_ge_cases i (length l)) as [L|L].
  - left. rewrite nth_error_app1 in H; assumption.
  - right. rewrite nth_error_app2 in H by assumption. destruct (i - length l)%nat as [|d] eqn:Ed.
    + injection H as <-. split; [lia|reflexivity].
    + destruct d; discriminate.
Qed.

Lemma nth_error_snoc_old {A} (l : list A) x i y : nth_error l i = Some y -> nth_error (l ++ [x]) i = Some y.
Proof. intros H. rewrite nth_error_app1 by (eapply nth_error_Some_lt; eassumption). assumption. Qed.

Lemma is_byte_repeat n : Forall is_byte (repeat 0 n).
Proof. induction n; constructor; auto. unfold is_byte. lia. Qed.

Lemma new_wf st n st' v : bwf st -> 0 <= n < 2 ^ 63 -> bin_new st n = ROk (st', v) ->
  bwf st' /\ get_view st' v = Some (mkview (length (b_pls st)) 0 n) /\ v = length (b_views st) /\
  (forall u w, get_view st u = Some w -> get_view st' u = Some w) /\
  get_pl st' (length (b_pls st)) = Some (mkpl 1 (repeat 0 (Z.to_nat n))).
Proof.
  intros W Hn. unfold bin_new, new_buffer. unfold u64. rewrite Z.mod_small by lia.
  destruct (Z.leb_spec (2 ^ 64) (16 + n)); [lia|]. intros [= <- <-].
  assert (L : forall u w, nth_error (b_views st) u = Some (Some w) -> (v_pl w < length (b_pls st))%nat).
  { intros u w Hu. apply get_view_nth in Hu. destruct (b_view _ W _ _ Hu) as (p & Hp & _).
    apply get_pl_nth in Hp. eapply nth_error_Some_lt. eassumption. }
  assert (GP : get_pl (mkbst (b_pls st ++ [Some (mkpl 1 (repeat 0 (Z.to_nat n)))])
             (b_views st ++ [Some (mkview (length (b_pls st)) 0 n)])) (length (b_pls st)) = Some (mkpl 1 (repeat 0 (Z.to_nat n)))).
  { apply get_pl_nth. cbn [b_pls]. rewrite nth_error_app2, Nat.sub_diag by lia. reflexivity. }
  split; [|split; [|split; [reflexivity|split; [|exact GP]]]].
  - constructor.
    + intros u w Hu. apply get_view_nth in Hu. cbn [b_views] in Hu. apply nth_error_snoc in Hu. destruct Hu as [Hu|[-> [= ->]]].
      * apply get_view_nth in Hu. destruct (b_view _ W _ _ Hu) as (p & Hp & R). exists p. split; [|assumption].
        apply get_pl_nth. cbn [b_pls]. apply nth_error_snoc_old. apply get_pl_nth. assumption.
      * cbn [v_pl v_off v_len]. eexists. split; [exact GP|]. cbn [p_body]. rewrite repeat_length. lia.
    + intros i p Hp. cbn [b_views]. rewrite cnt_app. pose proof Hp as Hp'. apply get_pl_nth in Hp'. cbn [b_pls] in Hp'.
      apply nth_error_snoc in Hp'. destruct Hp' as [Hp'|[-> E]].
      * pose proof Hp' as Hi. apply nth_error_Some_lt in Hi. apply get_pl_nth in Hp'.
        destruct (b_pl _ W _ _ Hp') as (A & B & C & D).
        unfold cnt at 2. cbn [filter on_pl v_pl]. destruct (Nat.eqb_spec (length (b_pls st)) i); [lia|].
        cbn [length]. rewrite Nat.add_0_r. auto.
      * injection E as ->. cbn [p_refs p_body]. rewrite (cnt_ge _ _ L). unfold cnt. cbn [filter on_pl v_pl].
        rewrite Nat.eqb_refl. cbn [length Nat.add]. rewrite repeat_length. repeat split; try lia. apply is_byte_repeat.
  - apply get_view_nth. cbn [b_views]. rewrite nth_error_app2, Nat.sub_diag by lia. reflexivity.
  - intros u w Hu. apply get_view_nth in Hu. apply get_view_nth. cbn [b_views]. apply nth_error_snoc_old. assumption.
Qed.

Lemma get_pl_upd_same st i x vs : (i < length (b_pls st))%nat ->
  get_pl (mkbst (upd (b_pls st) i x) vs) i = x.
Proof. intros H. unfold get_pl. cbn [b_pls]. rewrite nth_error_upd_same by assumption. destruct x; reflexivity. Qed.

Lemma get_pl_upd_other st i j x vs : i <> j -> get_pl (mkbst (upd (b_pls st) i x) vs) j = get_pl st j.
Proof. intros H. unfold get_pl. cbn [b_pls]. rewrite nth_error_upd_other by assumption. reflexivity. Qed.

(** A payload with another reference count or contents of the same length keeps every view valid. *)
Lemma slice_wf st v o l st' u : bwf st -> in_i64 o -> 0 <= l < 2 ^ 63 -> bin_slice_up st v o l = ROk (st', u) ->
  bwf st' /\ exists w p, get_view st v = Some w /\ get_pl st (v_pl w) = Some p /\
    get_view st' u = Some (mkview (v_pl w) o l) /\ u = length (b_views st) /\
    (forall x y, get_view st x = Some y -> get_view st' x = Some y) /\
    0 <= o /\ o + l <= Z.of_nat (length (p_body p)) /\ o < Z.of_nat (length (p_body p)) /\
    get_pl st' (v_pl w) = Some (mkpl (p_refs p + 1) (p_body p)) /\
    (forall i, i <> v_pl w -> get_pl st' i = get_pl st i).
Proof.
  intros W Ho Hl. unfold bin_slice_up, slice_buffer.
  destruct (get_view st v) as [w|] eqn:Ev; [|discriminate].
  destruct (get_pl st (v_pl w)) as [p|] eqn:Ep; [|discriminate].
  destruct (b_pl _ W _ _ Ep) as (A & B & C & D).
  destruct (Z.leb_spec (Z.of_nat (length (p_body p))) (u64 o)) as [|L1]; [discriminate|].
  assert (Ho' : 0 <= o).
  { destruct (Z.lt_ge_cases o 0); [|assumption]. exfalso. unfold u64, in_i64 in *.
    rewrite <- (Z.mod_unique o (2 ^ 64) (-1) (o + 2 ^ 64)) in L1 by lia. lia. }
  assert (Eo : u64 o = o) by (unfold u64, in_i64 in *; apply Z.mod_small; lia).
  assert (El : u64 l = l) by (unfold u64, in_i64 in *; apply Z.mod_small; lia).
  rewrite Eo, El in *.
  destruct (Z.ltb_spec (Z.of_nat (length (p_body p))) (u64 (o + l))) as [|L2]; [discriminate|].
  assert (Es : u64 (o + l) = o + l) by (unfold u64; apply Z.mod_small; lia). rewrite Es in L2.
  intros [= <- <-].
  assert (Lp : (v_pl w < length (b_pls st))%nat) by (apply get_pl_nth in Ep; eapply nth_error_Some_lt; eassumption).
  split.
  - constructor.
    + intros x y Hx. apply get_view_nth in Hx. cbn [b_views] in Hx. apply nth_error_snoc in Hx. destruct Hx as [Hx|[-> [= ->]]].
      * apply get_view_nth in Hx. destruct (b_view _ W _ _ Hx) as (q & Hq & R).
        destruct (Nat.eq_dec (v_pl w) (v_pl y)) as [E|E].
        -- rewrite <- E in *. rewrite get_pl_upd_same by assumption. eexists. split; [reflexivity|]. cbn [p_body].
           rewrite Ep in Hq. injection Hq as <-. assumption.
        -- rewrite get_pl_upd_other by assumption. exists q. auto.
      * cbn [v_pl v_off v_len]. rewrite get_pl_upd_same by assumption. eexists. split; [reflexivity|]. cbn [p_body]. lia.
    + intros i q Hq. cbn [b_views]. rewrite cnt_app. unfold cnt at 2. cbn [filter on_pl v_pl].
      destruct (Nat.eqb_spec (v_pl w) i) as [<-|E].
      * rewrite get_pl_upd_same in Hq by assumption. injection Hq as <-. cbn [p_refs p_body length]. repeat split; auto; lia.
      * rewrite get_pl_upd_other in Hq by assumption. cbn [length]. rewrite Nat.add_0_r. apply (b_pl _ W _ _ Hq).
  - exists w, p. split; [reflexivity|]. split; [assumption|]. split.
    { apply get_view_nth. cbn [b_views]. rewrite nth_error_app2, Nat.sub_diag by lia. reflexivity. }
    split; [reflexivity|]. split.
    { intros x y Hx. apply get_view_nth in Hx. apply get_view_nth. cbn [b_views]. apply nth_error_snoc_old. assumption. }
    split; [assumption|]. split; [assumption|]. split; [assumption|].
    split; [apply get_pl_upd_same; assumption|]. intros i Hi. apply get_pl_upd_other. auto.
Qed.

Lemma land_255 x : 0 <= x <= 255 -> Z.land x 255 = x.
Proof. intros H. change 255 with (Z.ones 8). rewrite Z.land_ones by lia. apply Z.mod_small. lia. Qed.

(** Reads. *)
Lemma select_wf st v w key : bwf st -> get_view st v = Some w -> in_int key ->
  (~ 0 <= key < v_len w -> buffer_select st v key = RErr) /\
  (0 <= key < v_len w -> exists p b, get_pl st (v_pl w) = Some p /\ zget (p_body p) (v_off w + key) = Some b /\
     buffer_select st v key = ROk b /\ is_byte b).
Proof.
  intros W Hv Hk. unfold buffer_select. rewrite Hv, wrap32_id by assumption. split.
  - intros H. destruct (Z.ltb_spec key 0); [reflexivity|]. destruct (Z.leb_spec (v_len w) key); [reflexivity|lia].
  - intros H. destruct (Z.ltb_spec key 0); [lia|]. destruct (Z.leb_spec (v_len w) key); [lia|]. cbn [orb].
    destruct (b_view _ W _ _ Hv) as (p & Hp & R1 & R2 & R3). rewrite Hp.
    destruct (zget_in_range (p_body p) (v_off w + key) ltac:(lia)) as [b Hb]. rewrite Hb. exists p, b. repeat split; auto.
    + destruct (b_pl _ W _ _ Hp) as (_ & _ & F & _). rewrite Forall_forall in F. apply F. apply zget_Some in Hb. destruct Hb as [_ Hb]. eapply nth_error_In. eassumption.
    + destruct (b_pl _ W _ _ Hp) as (_ & _ & F & _). rewrite Forall_forall in F. apply F. apply zget_Some in Hb. destruct Hb as [_ Hb]. eapply nth_error_In. eassumption.
Qed.

(** Writes. *)
Lemma insert_wf st v w key x : bwf st -> get_view st v = Some w -> in_int key ->
  (~ (0 <= key < v_len w /\ 0 <= x <= 255) -> buffer_insert st v key x = RErr) /\
  (0 <= key < v_len w /\ 0 <= x <= 255 -> exists st' p, buffer_insert st v key x = ROk st' /\
     get_pl st (v_pl w) = Some p /\ b_views st' = b_views st /\ bwf st' /\
     get_pl st' (v_pl w) = Some (mkpl (p_refs p) (upd (p_body p) (Z.to_nat (v_off w + key)) x)) /\
     (forall i, i <> v_pl w -> get_pl st' i = get_pl st i)).
Proof.
  intros W Hv Hk. unfold buffer_insert. rewrite Hv, wrap32_id by assumption. split.
  - intros H. destruct (Z.ltb_spec key 0); [reflexivity|]. destruct (Z.leb_spec (v_len w) key); [reflexivity|]. cbn [orb].
    destruct (Z.ltb_spec 255 x); [reflexivity|]. destruct (Z.ltb_spec x 0); [reflexivity|]. lia.
  - intros H. destruct (Z.ltb_spec key 0); [lia|]. destruct (Z.leb_spec (v_len w) key); [lia|]. cbn [orb].
    destruct (Z.ltb_spec 255 x); [lia|]. destruct (Z.ltb_spec x 0); [lia|]. cbn [orb].
    destruct (b_view _ W _ _ Hv) as (p & Hp & R1 & R2 & R3). rewrite Hp.
    destruct (Z.leb_spec (Z.of_nat (length (p_body p))) (v_off w + key)); [lia|].
    rewrite land_255 by lia.
    assert (Lp : (v_pl w < length (b_pls st))%nat) by (apply get_pl_nth in Hp; eapply nth_error_Some_lt; eassumption).
    destruct (b_pl _ W _ _ Hp) as (A & B & C & D).
    eexists. exists p. split; [reflexivity|]. split; [reflexivity|]. split; [reflexivity|].
    split; [|split; [apply get_pl_upd_same; assumption|intros i Hi; apply get_pl_upd_other; auto]].
    constructor.
    + intros u y Hu. assert (Hu' : get_view st u = Some y) by exact Hu.
      destruct (b_view _ W _ _ Hu') as (q & Hq & R).
      destruct (Nat.eq_dec (v_pl w) (v_pl y)) as [E|E].
      * rewrite <- E in *. rewrite get_pl_upd_same by assumption. eexists. split; [reflexivity|]. cbn [p_body].
        rewrite upd_length. rewrite Hp in Hq. injection Hq as <-. assumption.
      * rewrite get_pl_upd_other by assumption. exists q. auto.
    + intros i q Hq. cbn [b_views]. destruct (Nat.eq_dec (v_pl w) i) as [<-|E].
      * rewrite get_pl_upd_same in Hq by assumption. injection Hq as <-. cbn [p_refs p_body]. rewrite upd_length.
        repeat split; auto.
        apply Forall_forall. intros b Hb. apply In_nth_error in Hb. destruct Hb as [j Hj].
        destruct (Nat.eq_dec (Z.to_nat (v_off w + key)) j) as [<-|N].
        -- rewrite nth_error_upd_same in Hj by lia. injection Hj as <-. unfold is_byte. lia.
        -- rewrite nth_error_upd_other in Hj by assumption. rewrite Forall_forall in C. apply C. eapply nth_error_In. eassumption.
      * rewrite get_pl_upd_other in Hq by assumption. apply (b_pl _ W _ _ Hq).
Qed.

Lemma get_view_upd_none st v pls u : (v < length (b_views st))%nat ->
  get_view (mkbst pls (upd (b_views st) v None)) u = if (v =? u)%nat then None else get_view st u.
Proof.
  intros H. unfold get_view. cbn [b_views]. destruct (Nat.eqb_spec v u) as [<-|N].
  - rewrite nth_error_upd_same by assumption. reflexivity.
  - rewrite nth_error_upd_other by assumption. reflexivity.
Qed.

Lemma free_wf st v w : bwf st -> get_view st v = Some w ->
  exists st' p, buffer_free st v = ROk st' /\ bwf st' /\ get_pl st (v_pl w) = Some p /\
    (forall u, get_view st' u = if (v =? u)%nat then None else get_view st u) /\
    (forall i, i <> v_pl w -> get_pl st' i = get_pl st i) /\
    get_pl st' (v_pl w) = (if cnt (v_pl w) (b_views st') =? 0 then None else Some (mkpl (p_refs p - 1) (p_body p)))%nat.
Proof.
  intros W Hv. unfold buffer_free. rewrite Hv.
  destruct (b_view _ W _ _ Hv) as (p & Hp & R1 & R2 & R3). rewrite Hp.
  destruct (b_pl _ W _ _ Hp) as (A & B & C & D).
  pose proof Hv as Hn. apply get_view_nth in Hn. pose proof (nth_error_Some_lt _ _ _ Hn) as Lv.
  assert (Lp : (v_pl w < length (b_pls st))%nat) by (apply get_pl_nth in Hp; eapply nth_error_Some_lt; eassumption).
  eexists. exists p. split; [reflexivity|].
  assert (GV := fun pls => get_view_upd_none st v pls).
  assert (EC : cnt (v_pl w) (upd (b_views st) v None) = (cnt (v_pl w) (b_views st) - 1)%nat).
  { destruct (cnt_upd_none (v_pl w) _ _ _ Hn) as [E _]. rewrite Nat.eqb_refl in E. exact E. }
  assert (EP : get_pl (mkbst (upd (b_pls st) (v_pl w) (if p_refs p - 1 =? 0 then None else Some (mkpl (p_refs p - 1) (p_body p))))
      (upd (b_views st) v None)) (v_pl w) = if (cnt (v_pl w) (upd (b_views st) v None) =? 0)%nat then None else Some (mkpl (p_refs p - 1) (p_body p))).
  { rewrite get_pl_upd_same by assumption. rewrite EC.
    destruct (Z.eqb_spec (p_refs p - 1) 0), (Nat.eqb_spec (cnt (v_pl w) (b_views st) - 1) 0); try reflexivity; lia. }
  split; [|split; [reflexivity|split; [intros u; apply GV; assumption|split; [intros i Hi; apply get_pl_upd_other; auto|exact EP]]]].
  constructor.
  - intros u y Hu. rewrite GV in Hu by assumption. destruct (Nat.eqb_spec v u) as [|N]; [discriminate|].
    destruct (b_view _ W _ _ Hu) as (q & Hq & R).
    destruct (Nat.eq_dec (v_pl w) (v_pl y)) as [E|E].
    + rewrite <- E in *. rewrite EP.
      assert (P : (0 < cnt (v_pl w) (upd (b_views st) v None))%nat).
      { apply (cnt_pos _ _ u y); [|auto]. rewrite nth_error_upd_other by assumption. apply get_view_nth. assumption. }
      destruct (Nat.eqb_spec (cnt (v_pl w) (upd (b_views st) v None)) 0); [lia|].
      eexists. split; [reflexivity|]. cbn [p_body]. rewrite Hp in Hq. injection Hq as <-. assumption.
    + rewrite get_pl_upd_other by assumption. exists q. auto.
  - intros i q Hq. cbn [b_views]. destruct (Nat.eq_dec (v_pl w) i) as [<-|E].
    + rewrite EP in Hq. destruct (Nat.eqb_spec (cnt (v_pl w) (upd (b_views st) v None)) 0); [discriminate|].
      injection Hq as <-. cbn [p_refs p_body]. repeat split; auto; lia.
    + rewrite get_pl_upd_other in Hq by assumption. destruct (b_pl _ W _ _ Hq) as (A' & B' & C' & D').
      destruct (cnt_upd_none i _ _ _ Hn) as [E' _]. destruct (Nat.eqb_spec (v_pl w) i); [contradiction|]. rewrite E'. auto.
Qed.

(** Histories of sane operations. *)
Inductive sane_history : bstate -> list bop -> bstate -> Prop :=
| sh_nil : forall st, sane_history st [] st
| sh_cons : forall st op st1 ops st2, sane st op -> bstep st op = ROk st1 -> sane_history st1 ops st2 ->
    sane_history st (op :: ops) st2.

Lemma step_wf st op : bwf st -> sane st op -> exists st', bstep st op = ROk st' /\ bwf st'.
Proof.
  intros W S. destruct op as [n|v o l|v k x|v]; cbn [sane bstep] in *.
  - destruct (bin_new st n) as [[st' u]| |] eqn:E.
    + apply new_wf in E; auto. exists st'. split; [reflexivity|apply E].
    + exists st. auto.
    + unfold bin_new, new_buffer, u64 in E. rewrite Z.mod_small in E by lia.
      destruct (Z.leb_spec (2 ^ 64) (16 + n)); [lia|discriminate].
  - destruct S as (Sv & So & Sl). destruct (bin_slice_up st v o l) as [[st' u]| |] eqn:E.
    + apply slice_wf in E; auto. exists st'. split; [reflexivity|apply E].
    + exists st. auto.
    + unfold bin_slice_up, slice_buffer in E. destruct (get_view st v) as [w|] eqn:Ev; [|contradiction].
      destruct (b_view _ W _ _ Ev) as (p & Hp & _). rewrite Hp in E.
      destruct (_ <=? _); [discriminate|]. destruct (_ <? _); discriminate.
  - destruct (get_view st v) as [w|] eqn:Ev; [|contradiction].
    destruct (insert_wf st v w (wrap32 k) x W Ev (wrap32_range k)) as [I1 I2].
    assert (EK : buffer_insert st v k x = buffer_insert st v (wrap32 k) x).
    { unfold buffer_insert. rewrite (wrap32_id (wrap32 k)) by apply wrap32_range. reflexivity. }
    rewrite EK. destruct (buffer_insert st v (wrap32 k) x) as [st'| |] eqn:E.
    + assert (D : (0 <= wrap32 k < v_len w /\ 0 <= x <= 255) \/ ~ (0 <= wrap32 k < v_len w /\ 0 <= x <= 255)) by lia.
      destruct D as [D|D]; [|specialize (I1 D); discriminate].
      destruct (I2 D) as (st2 & p & E2 & _ & _ & W2 & _). injection E2 as ->. exists st2. auto.
    + exists st. auto.
    + assert (D : (0 <= wrap32 k < v_len w /\ 0 <= x <= 255) \/ ~ (0 <= wrap32 k < v_len w /\ 0 <= x <= 255)) by lia.
      destruct D as [D|D]; [|specialize (I1 D); discriminate].
      destruct (I2 D) as (st2 & p & E2 & _). discriminate.
  - destruct (get_view st v) as [w|] eqn:Ev; [|contradiction].
    destruct (free_wf st v w W Ev) as (st' & p & E & W' & _). exists st'. auto.
Qed.

Lemma history_wf st ops st' : sane_history st ops st' -> bwf st -> bwf st'.
Proof.
  induction 1; intros W; [assumption|]. apply IHsane_history.
  destruct (step_wf st op W H) as (st' & E & W'). rewrite H0 in E. injection E as ->. assumption.
Qed.

(** A view that is live at the end was there at the beginning with the same window, or did not exist. *)
Lemma step_view st op st' v w : bwf st -> sane st op -> bstep st op = ROk st' -> get_view st v = Some w ->
  get_view st' v = Some w \/ get_view st' v = None.
Proof.
  intros W S E Hv. destruct op as [n|u o l|u k x|u]; cbn [sane bstep] in *.
  - destruct (bin_new st n) as [[st1 u]| |] eqn:E1; try discriminate; injection E as <-; auto.
    apply new_wf in E1; auto. destruct E1 as (_ & _ & _ & G & _). auto.
  - destruct S as (Sv & So & Sl). destruct (bin_slice_up st u o l) as [[st1 y]| |] eqn:E1; try discriminate; injection E as <-; auto.
    apply slice_wf in E1; auto. destruct E1 as (_ & w1 & p1 & _ & _ & _ & _ & G & _). auto.
  - unfold buffer_insert in E. destruct (get_view st u); [|discriminate].
    destruct (_ || _); [injection E as <-; auto|]. destruct (_ || _); [injection E as <-; auto|].
    destruct (get_pl st _); [|discriminate]. destruct (_ <=? _); [discriminate|]. injection E as <-. left. assumption.
  - destruct (get_view st u) as [w1|] eqn:Eu; [|contradiction].
    destruct (free_wf st u w1 W Eu) as (st2 & p & E2 & _ & _ & G & _). rewrite E in E2. injection E2 as ->.
    rewrite G. destruct (u =? v)%nat; auto.
Qed.

Lemma step_view_dead st op st' v : bwf st -> sane st op -> bstep st op = ROk st' -> (v < length (b_views st))%nat ->
  get_view st v = None -> get_view st' v = None /\ (v < length (b_views st'))%nat.
Proof.
  intros W S E Lv Hv. destruct op as [n|u o l|u k x|u]; cbn [sane bstep] in *.
  - destruct (bin_new st n) as [[st1 u]| |] eqn:E1; try discriminate; injection E as <-; auto.
    unfold bin_new, new_buffer in E1. destruct (_ <=? _); [discriminate|]. injection E1 as <- <-.
    unfold get_view in *. cbn [b_views]. rewrite app_length, nth_error_app1 by assumption. split; [assumption|lia].
  - destruct S as (Sv & So & Sl). destruct (bin_slice_up st u o l) as [[st1 y]| |] eqn:E1; try discriminate; injection E as <-; auto.
    unfold bin_slice_up, slice_buffer in E1. destruct (get_view st u); [|discriminate]. destruct (get_pl st _); [|discriminate].
    destruct (_ <=? _); [discriminate|]. destruct (_ <? _); [discriminate|]. injection E1 as <- <-.
    unfold get_view in *. cbn [b_views]. rewrite app_length, nth_error_app1 by assumption. split; [assumption|lia].
  - unfold buffer_insert in E. destruct (get_view st u); [|discriminate].
    destruct (_ || _); [injection E as <-; auto|]. destruct (_ || _); [injection E as <-; auto|].
    destruct (get_pl st _); [|discriminate]. destruct (_ <=? _); [discriminate|]. injection E as <-. auto.
  - destruct (get_view st u) as [w1|] eqn:Eu; [|contradiction].
    unfold buffer_free in E. rewrite Eu in E. destruct (get_pl st _); [|discriminate]. injection E as <-.
    rewrite get_view_upd_none by (apply get_view_nth in Eu; eapply nth_error_Some_lt; eassumption). cbn [b_views]. rewrite upd_length.
    destruct (u =? v)%nat; auto.
Qed.

Lemma history_view st ops st' : sane_history st ops st' -> bwf st -> forall v w w',
  get_view st v = Some w -> get_view st' v = Some w' -> w' = w.
Proof.
  induction 1 as [st|st op st1 ops st2 S E H IH]; intros W v w w' H1 H2; [congruence|].
  destruct (step_wf st op W S) as (st1' & E' & W1). rewrite E in E'. injection E' as <-.
  destruct (step_view st op st1 v w W S E H1) as [G|G].
  - eapply IH; eauto.
  - exfalso. assert (L : (v < length (b_views st))%nat) by (apply get_view_nth in H1; eapply nth_error_Some_lt; eassumption).
    assert (L1 : (v < length (b_views st1))%nat).
    { destruct op; cbn [bstep] in E.
      - destruct (bin_new st size) as [[s u]| |] eqn:E1; try discriminate; injection E as <-; auto.
        unfold bin_new, new_buffer in E1. destruct (_ <=? _); [discriminate|]. injection E1 as <- <-. cbn. rewrite app_length. lia.
      - destruct (bin_slice_up st v0 off len) as [[s u]| |] eqn:E1; try discriminate; injection E as <-; auto.
        unfold bin_slice_up, slice_buffer in E1. destruct (get_view st v0); [|discriminate]. destruct (get_pl st _); [|discriminate].
        destruct (_ <=? _); [discriminate|]. destruct (_ <? _); [discriminate|]. injection E1 as <- <-. cbn. rewrite app_length. lia.
      - unfold buffer_insert in E. destruct (get_view st v0); [|discriminate].
        destruct (_ || _); [injection E as <-; auto|]. destruct (_ || _); [injection E as <-; auto|].
        destruct (get_pl st _); [|discriminate]. destruct (_ <=? _); [discriminate|]. injection E as <-. auto.
      - unfold buffer_free in E. destruct (get_view st v0); [|discriminate]. destruct (get_pl st _); [|discriminate].
        injection E as <-. cbn. rewrite upd_length. assumption. }
    clear - H G L1 W1 H2. revert G L1 W1. induction H as [st|st op st1 ops st2 S E H IH]; intros; [congruence|].
    destruct (step_wf st op W1 S) as (st1' & E' & W1'). rewrite E in E'. injection E' as <-.
    destruct (step_view_dead st op st1 v W1 S E L1 G) as [G1 L2]. apply IH; auto.
Qed.

(** Two views that overlap see the same bytes. *)
Lemma alias_read st a b wa wb : bwf st -> get_view st a = Some wa -> get_view st b = Some wb -> v_pl wa = v_pl wb ->
  forall i j, in_int i -> in_int j -> 0 <= i < v_len wa -> 0 <= j < v_len wb -> v_off wa + i = v_off wb + j ->
  buffer_select st a i = buffer_select st b j /\ exists x, buffer_select st a i = ROk x.
Proof.
  intros W Ha Hb Hp i j Hi Hj Ri Rj E.
  destruct (proj2 (select_wf st a wa i W Ha Hi) Ri) as (p & x & A1 & A2 & A3 & _).
  destruct (proj2 (select_wf st b wb j W Hb Hj) Rj) as (q & y & B1 & B2 & B3 & _).
  rewrite Hp, B1 in A1. injection A1 as ->. rewrite E, B2 in A2. injection A2 as ->. rewrite A3, B3. eauto.
Qed.

(** The effect of an accepted write on every read. *)
Lemma write_read st v w key x st' : bwf st -> get_view st v = Some w -> in_int key ->
  buffer_insert st v key x = ROk st' ->
  buffer_select st' v key = ROk x /\
  forall u wu j, get_view st u = Some wu -> in_int j ->
    (v_pl wu = v_pl w -> v_off wu + j <> v_off w + key) -> buffer_select st' u j = buffer_select st u j.
Proof.
  intros W Hv Hk E. destruct (insert_wf st v w key x W Hv Hk) as [I1 I2].
  assert (D : (0 <= key < v_len w /\ 0 <= x <= 255) \/ ~ (0 <= key < v_len w /\ 0 <= x <= 255)) by lia.
  destruct D as [D|D]; [|rewrite (I1 D) in E; discriminate].
  destruct (I2 D) as (st2 & p & E2 & Hp & Vs & W2 & Gp & Go). rewrite E in E2. injection E2 as <-.
  destruct (b_view _ W _ _ Hv) as (p' & Hp' & R1 & R2 & R3). rewrite Hp in Hp'. injection Hp' as <-.
  assert (GV : forall u, get_view st' u = get_view st u) by (intros; unfold get_view; rewrite Vs; reflexivity).
  split.
  - unfold buffer_select. rewrite GV, Hv, wrap32_id by assumption.
    destruct (Z.ltb_spec key 0); [lia|]. destruct (Z.leb_spec (v_len w) key); [lia|]. cbn [orb]. rewrite Gp. cbn [p_body].
    unfold zget. destruct (Z.ltb_spec (v_off w + key) 0); [lia|]. rewrite nth_error_upd_same by lia. reflexivity.
  - intros u wu j Hu Hj N. unfold buffer_select. rewrite GV, Hu.
    destruct (Z.ltb_spec (wrap32 j) 0); [reflexivity|]. destruct (Z.leb_spec (v_len wu) (wrap32 j)); [reflexivity|]. cbn [orb].
    rewrite wrap32_id in * by assumption.
    destruct (Nat.eq_dec (v_pl wu) (v_pl w)) as [Ep|Np].
    + rewrite Ep, Gp, Hp. cbn [p_body]. unfold zget.
      destruct (b_view _ W _ _ Hu) as (q & _ & S1 & _).
      destruct (Z.ltb_spec (v_off wu + j) 0); [lia|]. rewrite nth_error_upd_other; [reflexivity|].
      specialize (N Ep). lia.
    + rewrite Go by assumption. reflexivity.
Qed.
