(** Properties C04, C05, C13-C15, C55-C57: lists and buffers. *)
From Coq Require Import ZArith List Lia Bool.
From Verif Require Import Base StringModel ListModel SeqSpec ListProofs BufferModel BufferProofs.
Import ListNotations.
Open Scope Z_scope.

(** ** C04 *)
(** Every history of stores on a new list (32-bit indices) has the verdicts and the final contents of the abstract sequence.
    The bound 2^30 is on the number of stores (a list that long needs 8 GB for its array). *)
Theorem C04_list_is_sequence : forall A cap (ops : list (Z * A)),
  Forall (fun kv => in_int (fst kv)) ops -> Z.of_nat (length ops) <= 2 ^ 30 ->
  exists l, list_run (new_list cap) ops = ROk (l, snd (seq_run [] ops)) /\
    list_count l = Z.of_nat (length (fst (seq_run [] ops))) /\
    forall i, in_int i -> list_select l i = match seq_get (fst (seq_run [] ops)) i with Some v => ROk v | None => RErr end.
Proof. exact @list_history. Qed.

Example C04_example :
  let ops := map (fun k => (k, k * 10)) [0; 1; 2; 3; 4; 5; 6; 7; 8; 5; 20; -1; 9] in
  Forall (fun kv => in_int (fst kv)) ops /\
  seq_run [] ops = ([0; 10; 20; 30; 40; 50; 60; 70; 80; 90],
     [true; true; true; true; true; true; true; true; true; true; false; false; true]).
Proof. split; [repeat constructor; vm_compute; congruence|reflexivity]. Qed.

(** ** C05 *)
Theorem C05_read_outside_rejected_refuted : exists (l : lobj Z) i,
  list_count l = 1 /\ in_i64 i /\ list_count l <= i /\ list_select l i = ROk 7.
Proof. exact trunc_select. Qed.

Theorem C05_store_outside_rejected_refuted : exists (l : lobj Z) i l',
  list_count l = 1 /\ in_i64 i /\ list_count l < i /\
  list_insert l i 9 = ROk l' /\ list_select l 0 = ROk 7 /\ list_select l' 0 = ROk 9.
Proof. exact trunc_insert. Qed.

(** Missing w.r.t. the full statement: indices outside the 32-bit range. *)
Theorem C05_outside_rejected_partial : forall A (l : lobj A) s i v, rep l s -> 8 <= l_cap l -> Z.of_nat (length s) < 2 ^ 30 ->
  in_int i -> i < 0 \/ Z.of_nat (length s) < i -> list_select l i = RErr /\ list_insert l i v = RErr.
Proof.
  intros A l s i v R Hc Hs Hi Ho. split.
  - rewrite (select_spec l s i R) by (auto; lia). unfold seq_get.
    destruct (zget s i) eqn:E; [apply zget_lt in E; lia|reflexivity].
  - pose proof (insert_spec l s i v R Hc Hs Hi) as H. unfold seq_set in H.
    destruct (Z.eqb_spec i (Z.of_nat (length s))); [lia|].
    destruct (Z.leb_spec 0 i), (Z.ltb_spec i (Z.of_nat (length s))); cbn [andb] in H; auto; lia.
Qed.

Example C05_example : rep (new_list2 [5; 6; 7]) [5; 6; 7] /\ 8 <= l_cap (new_list2 [5; 6; 7]).
Proof. split; [apply rep_new2|vm_compute; discriminate]. Qed.

(** ** C57: copying a list copies its elements in order; the key list is 0..n-1. *)
Theorem C57_copy_elements : forall A (cp : A -> res A) cpf (l : lobj A) s,
  (forall v, cp v = ROk (cpf v)) -> rep l s ->
  exists l', list_copy cp l = ROk l' /\ rep l' (map cpf s).
Proof. exact @copy_spec. Qed.

Theorem C57_keys_of_list : forall A (l : lobj A) s, rep l s -> Z.of_nat (length s) <= 2 ^ 30 ->
  exists l', list_keysof l = ROk l' /\ rep l' (map Z.of_nat (seq 0 (length s))).
Proof. exact @keysof_spec. Qed.

Theorem C57_new_from_items : forall A (items : list A), rep (new_list2 items) items.
Proof. exact @rep_new2. Qed.

Example C57_example : rep (new_list2 [5; 6; 7]) [5; 6; 7] /\
  list_keysof (new_list2 [5; 6; 7]) = ROk (mklobj 8 3 [Some 0; Some 1; Some 2; None; None; None; None; None]).
Proof. split; [apply rep_new2|vm_compute; reflexivity]. Qed.

(** ** C13 *)
(** In every state reached by sane operations (sizes and slice lengths not negative), through any live buffer or slice. *)
Theorem C13_read_partial : forall ops st v w key, sane_history empty_bstate ops st -> get_view st v = Some w -> in_int key ->
  (~ 0 <= key < v_len w -> buffer_select st v key = RErr) /\
  (0 <= key < v_len w -> exists b, buffer_select st v key = ROk b /\ 0 <= b <= 255).
Proof.
  intros ops st v w key H Hv Hk. pose proof (history_wf _ _ _ H bwf_empty) as W.
  destruct (select_wf st v w key W Hv Hk) as [A B]. split; [assumption|].
  intros R. destruct (B R) as (p & b & _ & _ & E & F). exists b. split; [assumption|]. unfold is_byte in F. lia.
Qed.

Theorem C13_write_partial : forall ops st v w key x, sane_history empty_bstate ops st -> get_view st v = Some w -> in_int key ->
  (~ (0 <= key < v_len w /\ 0 <= x <= 255) -> buffer_insert st v key x = RErr) /\
  (0 <= key < v_len w /\ 0 <= x <= 255 -> exists st', buffer_insert st v key x = ROk st' /\
     buffer_select st' v key = ROk x /\
     forall u wu j, get_view st u = Some wu -> in_int j ->
       (v_pl wu = v_pl w -> v_off wu + j <> v_off w + key) -> buffer_select st' u j = buffer_select st u j).
Proof.
  intros ops st v w key x H Hv Hk. pose proof (history_wf _ _ _ H bwf_empty) as W.
  destruct (insert_wf st v w key x W Hv Hk) as [A B]. split; [assumption|].
  intros R. destruct (B R) as (st' & p & E & _). exists st'. split; [assumption|].
  apply (write_read st v w key x st' W Hv Hk E).
Qed.

Definition ex_ops : list bop := [BNew 10; BSlice 0 3 4; BSet 1 2 77; BSet 0 3 5; BNew 2; BSet 2 0 300].
Example C13_example : exists st, sane_history empty_bstate ex_ops st /\
  get_view st 1 = Some (mkview 0 3 4) /\ buffer_select st 0 5 = ROk 77 /\ buffer_select st 1 0 = ROk 5.
Proof.
  eexists. split.
  - unfold ex_ops. repeat (eapply sh_cons; [cbn; unfold in_i64; try split; try lia; try discriminate|vm_compute; reflexivity|]).
    all: try apply sh_nil. all: cbn; unfold in_i64; lia.
  - vm_compute. auto.
Qed.

(** The restriction to 32-bit indices is needed, and so is the one to non-negative slice lengths. *)
Theorem C13_any_index_refuted : exists st v w, get_view st v = Some w /\ v_len w = 1 /\ buffer_select st v (2 ^ 32) = ROk 9.
Proof.
  exists (mkbst [Some (mkpl 1 [9])] [Some (mkview 0 0 1)]), 0%nat, (mkview 0 0 1). vm_compute. auto.
Qed.

(** ** C14 *)
(** [a] a live buffer, [b] a slice of it; after any later sane history during which neither dies, position [i] of the slice is
    position [o+i] of the buffer, and a write through one is read through the other. *)
Theorem C14_slice_is_window : forall ops0 st n st1 a o len st2 b ops st3 wa wb,
  sane_history empty_bstate ops0 st -> 0 <= n < 2 ^ 31 -> bin_new st n = ROk (st1, a) ->
  in_i64 o -> 0 <= len < 2 ^ 63 -> bin_slice_up st1 a o len = ROk (st2, b) ->
  sane_history st2 ops st3 -> get_view st3 a = Some wa -> get_view st3 b = Some wb ->
  forall i, 0 <= i < len ->
    buffer_select st3 b i = buffer_select st3 a (o + i) /\
    forall x st4,
      (buffer_insert st3 b i x = ROk st4 -> buffer_select st4 a (o + i) = ROk x) /\
      (buffer_insert st3 a (o + i) x = ROk st4 -> buffer_select st4 b i = ROk x).
Proof.
  intros ops0 st n st1 a o len st2 b ops st3 wa wb H0 Hn Ea Ho Hl Eb H Ha Hb i Hi.
  pose proof (history_wf _ _ _ H0 bwf_empty) as W.
  apply new_wf in Ea; [|assumption|lia]. destruct Ea as (W1 & Va & _ & _ & Pa).
  apply slice_wf in Eb; auto. destruct Eb as (W2 & w & p & Va' & Pw & Vb & _ & Keep & Hlo & Hle & _).
  rewrite Va in Va'. injection Va' as <-. cbn [v_pl] in *. rewrite Pa in Pw. injection Pw as <-. cbn [p_body] in Hle.
  rewrite repeat_length in Hle.
  pose proof (history_wf _ _ _ H W2) as W3.
  pose proof (history_view _ _ _ H W2 a _ _ (Keep _ _ Va) Ha) as ->.
  pose proof (history_view _ _ _ H W2 b _ _ Vb Hb) as ->.
  assert (I1 : in_int i) by (unfold in_int; lia). assert (I2 : in_int (o + i)) by (unfold in_int; lia).
  assert (AL : forall st, bwf st -> get_view st a = Some (mkview (length (b_pls st1)) 0 n) -> True) by auto. clear AL.
  split.
  - apply (alias_read st3 b a _ _ W3 Hb Ha eq_refl); cbn [v_len v_off]; auto; lia.
  - intros x st4. split; intros E.
    + pose proof (write_read _ _ _ _ _ _ W3 Hb I1 E) as [R _]. rewrite <- R.
      destruct (proj2 (insert_wf st3 b _ i x W3 Hb I1)) as (s & q & Es & _ & Vs & Ws & _).
      { cbn [v_len]. split; [lia|]. destruct (Z.le_gt_cases 0 x), (Z.le_gt_cases x 255); try lia;
          rewrite (proj1 (insert_wf st3 b _ i x W3 Hb I1)) in E by (cbn [v_len]; lia); discriminate. }
      rewrite E in Es. injection Es as <-.
      assert (GV : forall u, get_view st4 u = get_view st3 u) by (intros; unfold get_view; rewrite Vs; reflexivity).
      symmetry. apply (alias_read st4 b a (mkview (length (b_pls st)) o len) (mkview (length (b_pls st)) 0 n) Ws); cbn [v_len v_off]; try rewrite GV; auto; lia.
    + pose proof (write_read _ _ _ _ _ _ W3 Ha I2 E) as [R _]. rewrite <- R.
      destruct (proj2 (insert_wf st3 a _ (o + i) x W3 Ha I2)) as (s & q & Es & _ & Vs & Ws & _).
      { cbn [v_len]. split; [lia|]. destruct (Z.le_gt_cases 0 x), (Z.le_gt_cases x 255); try lia;
          rewrite (proj1 (insert_wf st3 a _ (o + i) x W3 Ha I2)) in E by (cbn [v_len]; lia); discriminate. }
      rewrite E in Es. injection Es as <-.
      assert (GV : forall u, get_view st4 u = get_view st3 u) by (intros; unfold get_view; rewrite Vs; reflexivity).
      apply (alias_read st4 b a (mkview (length (b_pls st)) o len) (mkview (length (b_pls st)) 0 n) Ws); cbn [v_len v_off]; try rewrite GV; auto; lia.
Qed.

Example C14_example : exists st1 st2 st3,
  bin_new empty_bstate 10 = ROk (st1, 0%nat) /\ bin_slice_up st1 0 3 4 = ROk (st2, 1%nat) /\
  sane_history st2 [BSet 1 2 77; BSet 0 3 5] st3 /\ get_view st3 0 <> None /\ get_view st3 1 <> None.
Proof.
  eexists. eexists. eexists. split; [vm_compute; reflexivity|]. split; [vm_compute; reflexivity|].
  split.
  - eapply sh_cons; [vm_compute; discriminate|vm_compute; reflexivity|].
    eapply sh_cons; [vm_compute; discriminate|vm_compute; reflexivity|]. apply sh_nil.
  - split; vm_compute; discriminate.
Qed.

(** ** C15 *)
(** Missing w.r.t. the full statement: negative lengths and slices of slices (both refuted below). *)
Theorem C15_slice_inside_partial : forall ops st n st1 a o len st2 b,
  sane_history empty_bstate ops st -> 0 <= n < 2 ^ 63 -> bin_new st n = ROk (st1, a) ->
  in_i64 o -> 0 <= len < 2 ^ 63 -> bin_slice_up st1 a o len = ROk (st2, b) ->
  exists wb, get_view st2 b = Some wb /\ v_len wb = len /\ 0 <= v_off wb /\ v_off wb + v_len wb <= n.
Proof.
  intros ops st n st1 a o len st2 b H Hn Ea Ho Hl Eb.
  pose proof (history_wf _ _ _ H bwf_empty) as W.
  apply new_wf in Ea; [|assumption|lia]. destruct Ea as (W1 & Va & _ & _ & Pa).
  apply slice_wf in Eb; auto. destruct Eb as (W2 & w & p & Va' & Pw & Vb & _ & Keep & Hlo & Hle & _).
  rewrite Va in Va'. injection Va' as <-. cbn [v_pl] in *. rewrite Pa in Pw. injection Pw as <-. cbn [p_body] in Hle.
  rewrite repeat_length in Hle. eexists. split; [exact Vb|]. cbn [v_len v_off]. lia.
Qed.

Example C15_example : exists st1 st2, bin_new empty_bstate 10 = ROk (st1, 0%nat) /\ bin_slice_up st1 0 3 7 = ROk (st2, 1%nat).
Proof. eexists. eexists. split; vm_compute; reflexivity. Qed.

(** A slice [3,5) of a buffer of 10 bytes; a slice of that slice with offset 0 shows bytes [0,2) of the buffer. *)
Theorem C15_slice_of_slice_refuted : exists st1 st2 st3 ws wss,
  bin_new empty_bstate 10 = ROk (st1, 0%nat) /\ bin_slice_up st1 0 3 2 = ROk (st2, 1%nat) /\
  bin_slice_up st2 1 0 2 = ROk (st3, 2%nat) /\
  get_view st3 1 = Some ws /\ get_view st3 2 = Some wss /\ v_pl ws = v_pl wss /\ v_off wss < v_off ws.
Proof.
  eexists. eexists. eexists. eexists. eexists.
  split; [vm_compute; reflexivity|]. split; [vm_compute; reflexivity|]. split; [vm_compute; reflexivity|].
  split; [vm_compute; reflexivity|]. split; [vm_compute; reflexivity|]. split; reflexivity.
Qed.

(** A negative length passes the check because offset + length wraps; reading through the slice leaves the allocation. *)
Theorem C15_negative_length_refuted : exists st1 st2,
  bin_new empty_bstate 10 = ROk (st1, 0%nat) /\ bin_slice_up st1 0 1 (-1) = ROk (st2, 1%nat) /\
  buffer_select st2 1 1000 = RUB /\ buffer_insert st2 1 1000 0 = RUB.
Proof.
  eexists. eexists. split; [vm_compute; reflexivity|]. split; [vm_compute; reflexivity|]. split; vm_compute; reflexivity.
Qed.

(** ** C55: storage is released exactly when the last buffer or slice on it is finalized. *)
Theorem C55_storage_lifetime : forall ops st, sane_history empty_bstate ops st ->
  (forall v w, get_view st v = Some w -> get_pl st (v_pl w) <> None) /\
  (forall i p, get_pl st i = Some p -> exists v w, get_view st v = Some w /\ v_pl w = i).
Proof.
  intros ops st H. pose proof (history_wf _ _ _ H bwf_empty) as W. split.
  - intros v w Hv. destruct (b_view _ W _ _ Hv) as (p & Hp & _). congruence.
  - intros i p Hp. destruct (b_pl _ W _ _ Hp) as (A & B & _).
    assert (P : (0 < cnt i (b_views st))%nat) by lia. unfold cnt in P.
    destruct (filter (on_pl i) (b_views st)) as [|o l] eqn:E; [cbn in P; lia|].
    assert (I : In o (filter (on_pl i) (b_views st))) by (rewrite E; left; reflexivity).
    apply filter_In in I. destruct I as [I1 I2]. apply In_nth_error in I1. destruct I1 as [v Hv].
    destruct o as [w|]; [|discriminate]. exists v, w. split; [apply get_view_nth; assumption|]. apply Nat.eqb_eq. assumption.
Qed.

Theorem C55_no_bad_access : forall ops st op, sane_history empty_bstate ops st -> sane st op -> exists st', bstep st op = ROk st'.
Proof.
  intros ops st op H S. destruct (step_wf st op (history_wf _ _ _ H bwf_empty) S) as (st' & E & _). eauto.
Qed.

Example C55_example : exists st, sane_history empty_bstate [BNew 4; BSlice 0 1 2; BFree 0; BSet 1 0 9] st /\
  get_pl st 0 <> None /\ sane st (BFree 1).
Proof.
  eexists. split.
  - eapply sh_cons; [cbn; lia|vm_compute; reflexivity|].
    eapply sh_cons; [cbn; unfold in_i64; repeat split; try lia; discriminate|vm_compute; reflexivity|].
    eapply sh_cons; [vm_compute; discriminate|vm_compute; reflexivity|].
    eapply sh_cons; [vm_compute; discriminate|vm_compute; reflexivity|]. apply sh_nil.
  - split; vm_compute; discriminate.
Qed.

(** ** C56: creating a buffer. *)
Theorem C56_new_buffer_partial : forall ops st n, sane_history empty_bstate ops st -> 0 <= n < 2 ^ 31 ->
  exists st' a, bin_new st n = ROk (st', a) /\ buffer_count st' a = ROk n /\
    forall i, in_int i -> buffer_select st' a i = if (0 <=? i) && (i <? n) then ROk 0 else RErr.
Proof.
  intros ops st n H Hn. pose proof (history_wf _ _ _ H bwf_empty) as W.
  destruct (bin_new st n) as [[st' a]| |] eqn:E.
  - exists st', a. split; [reflexivity|]. apply new_wf in E; [|assumption|lia]. destruct E as (W1 & V & _ & _ & P).
    split; [unfold buffer_count; rewrite V; cbn [v_len]; rewrite wrap32_id by (unfold in_int; lia); reflexivity|].
    intros i Hi. destruct (select_wf st' a _ i W1 V Hi) as [A B]. cbn [v_len v_off v_pl] in *.
    destruct (Z.leb_spec 0 i), (Z.ltb_spec i n); cbn [andb]; try (apply A; lia).
    destruct (B ltac:(lia)) as (p & b & Hp & Hb & E & _). rewrite E. f_equal.
    rewrite P in Hp. injection Hp as <-. cbn [p_body] in Hb. apply zget_Some in Hb. destruct Hb as [_ Hb].
    apply nth_error_In in Hb. apply repeat_spec in Hb. assumption.
  - unfold bin_new, new_buffer in E. destruct (_ <=? _); discriminate.
  - unfold bin_new, new_buffer, u64 in E. rewrite Z.mod_small in E by lia. destruct (Z.leb_spec (2 ^ 64) (16 + n)); [lia|discriminate].
Qed.

Example C56_example : exists st' a, bin_new empty_bstate 3 = ROk (st', a) /\ buffer_select st' a 2 = ROk 0.
Proof. eexists. eexists. split; vm_compute; reflexivity. Qed.

(** buffer.new(-1) writes past the block it allocates. *)
Theorem C56_new_buffer_refuted : exists n, in_i64 n /\ bin_new empty_bstate n = RUB.
Proof. exists (-1). vm_compute. repeat split; discriminate. Qed.

Print Assumptions C04_list_is_sequence.
Print Assumptions C05_read_outside_rejected_refuted.
Print Assumptions C05_store_outside_rejected_refuted.
Print Assumptions C05_outside_rejected_partial.
Print Assumptions C57_copy_elements.
Print Assumptions C57_keys_of_list.
Print Assumptions C57_new_from_items.
Print Assumptions C13_read_partial.
Print Assumptions C13_write_partial.
Print Assumptions C13_any_index_refuted.
Print Assumptions C14_slice_is_window.
Print Assumptions C15_slice_inside_partial.
Print Assumptions C15_slice_of_slice_refuted.
Print Assumptions C15_negative_length_refuted.
Print Assumptions C55_storage_lifetime.
Print Assumptions C55_no_bad_access.
Print Assumptions C56_new_buffer_partial.
Print Assumptions C56_new_buffer_refuted.
