(** Lemmas about profiling. *)
From Coq Require Import ZArith String List Lia Bool.
From Verif Require Import Base StringModel ValueModel MapModel ObjModel ExeModel ArithModel FrameModel VmModel ListModel ListProofs LimitSpec LimitProofs AsmModel SourceModel ShowModel ShowSpec ShowProofs VmExamples ProfModel ProfSpec.
Import ListNotations.
Open Scope list_scope.
Open Scope Z_scope.

Section Prof.
Variables (E : env) (size : Z).

Ltac crack := repeat match goal with
  | H : (match ?x with _ => _ end) = _ |- _ => destruct x eqn:?; try discriminate
  | H : lift _ _ = SNext _ |- _ => apply lift_next in H; destruct H as (? & ? & H)
  | H : npush _ _ _ = SNext _ |- _ => apply npush_next in H; destruct H as [-> H]
  | H : SNext _ = SNext _ |- _ => injection H as <-
  | H : Some _ = Some _ |- _ => injection H as <- <-
  end.

Lemma vpushes_keeps vs : forall s s', vpushes size s vs = Some s' -> v_codes s' = v_codes s /\ v_rest s' = v_rest s.
Proof.
  induction vs as [|v r IH]; cbn [vpushes]; intros s s' H; [injection H as <-; auto|].
  destruct (vpush size s v) as [s1|] eqn:V; [|discriminate]. apply IH in H. unfold vpush in V. destruct (_ || _); [discriminate|]. injection V as <-.
  cbn in H. exact H.
Qed.
Lemma vpush_keeps v s s' : vpush size s v = Some s' -> v_codes s' = v_codes s /\ v_rest s' = v_rest s.
Proof. unfold vpush. destruct (_ || _); [discriminate|]. intros H. injection H as <-. auto. Qed.

Lemma finish_shape s s' : finish size s = SNext s' -> v_codes s' = v_codes s /\ exists f, v_rest s = f :: v_rest s'.
Proof.
  unfold finish. destruct (m_pend _); [discriminate|]. cbv zeta. destruct (v_rest s) as [|c rest]; [discriminate|].
  intros H. apply lift_next in H. destruct H as (vs & _ & H). destruct (vpushes _ _ _) as [s1|] eqn:V; [|discriminate]. injection H as <-.
  apply vpushes_keeps in V. cbn in V. destruct V as [-> ->]. eauto.
Qed.

Lemma exec_plain s op ops s' : exec E size s op ops = SNext s' ->
  match op with OP_CALL | OP_RETURN | OP_EXIT | OP_PUSHFUN => True | _ => v_codes s' = v_codes s /\ v_rest s' = v_rest s end.
Proof.
  destruct s as [m c [pc st lo cl wa] rest]. unfold exec. cbv zeta. cbn [v_mem v_codes v_cur v_rest f_pc f_stack f_locals f_clo f_want].
  intros H. destruct op; try exact I; crack.
  all: unfold with_stack, with_mem, with_pc in *; cbn [v_mem v_codes v_cur v_rest f_pc f_stack f_locals f_clo f_want]; auto.
  all: destruct (Bool.eqb _ _); cbn; auto.
Qed.

(** What one step does to the functions and to the frames. *)
Lemma step_shape x s s' : step E size x s = SNext s' ->
  match creates x s with Some _ => exists c, v_codes s' = v_codes s ++ [c] | None => v_codes s' = v_codes s end /\
  match enters x s with
  | Some c => (c < List.length (v_codes s))%nat /\ creates x s = None /\ leaving x s = false /\ List.length (v_rest s') = S (List.length (v_rest s))
  | None => if leaving x s then creates x s = None /\ S (List.length (v_rest s')) = List.length (v_rest s) else List.length (v_rest s') = List.length (v_rest s)
  end.
Proof.
  unfold step, creates, enters, leaving. destruct (exe_fetch x _) as [[[op ops]|]| |]; try discriminate. intros H.
  pose proof (exec_plain _ _ _ _ H) as P.
  assert (Z0 : v_codes (with_pc s (f_pc (v_cur s) + 1)) = v_codes s /\ v_rest (with_pc s (f_pc (v_cur s) + 1)) = v_rest s) by auto.
  destruct Z0 as [Z1 Z2]. rewrite Z1, Z2 in P.
  destruct op; try (match type of P with _ /\ _ => idtac end; destruct P as [-> ->]; split; reflexivity).
  - (* CALL *)
    cbn [exec] in H. cbv zeta in H.
    destruct ops as [|[] [|[] [|]]]; try discriminate.
    change (f_stack (v_cur (with_pc s (f_pc (v_cur s) + 1)))) with (f_stack (v_cur s)) in H.
    destruct (f_stack (v_cur s)) as [|callee r]; [discriminate|].
    destruct (32 <? wrap32 z) eqn:E1; [discriminate|]. destruct (wrap32 z <? 0) eqn:E2; [discriminate|].
    destruct (Z.of_nat (List.length r) <? wrap32 z) eqn:E3; [discriminate|]. cbn [orb].
    unfold do_call in H. destruct callee as [| | | | | | |lo]; try discriminate.
    change (m_objs (v_mem (with_stack (with_pc s (f_pc (v_cur s) + 1)) (skipn (Z.to_nat (wrap32 z)) r)))) with (m_objs (v_mem s)) in H.
    change (v_codes (with_stack (with_pc s (f_pc (v_cur s) + 1)) (skipn (Z.to_nat (wrap32 z)) r))) with (v_codes s) in H.
    destruct (nth_error (m_objs (v_mem s)) lo) as [[| | |c clo|id argc| | | |]|]; try discriminate.
    + destruct (nth_error (v_codes s) c) as [[? ?]|] eqn:EC; [|discriminate]. destruct (_ <=? _); [discriminate|]. cbn [alloc] in H.
      destruct (vpushes _ _ _) eqn:V; [|discriminate]. injection H as <-. apply vpushes_keeps in V. destruct V as [V1 V2]. cbn in V1, V2.
      rewrite V1, V2. split; [reflexivity|]. split; [apply nth_error_Some; congruence|]. split; [reflexivity|]. split; reflexivity.
    + destruct (_ <=? _); [discriminate|]. apply lift_next in H. destruct H as (? & _ & H). apply lift_next in H. destruct H as (? & _ & H).
      destruct (vpushes _ _ _) eqn:V; [|discriminate]. injection H as <-. apply vpushes_keeps in V. destruct V as [V1 V2]. cbn in V1, V2.
      rewrite V1, V2. split; reflexivity.
  - (* PUSHFUN *)
    cbn [exec] in H. cbv zeta in H. destruct ops as [|[] [|[] [|[] [|]]]]; try discriminate. cbn [alloc] in H. unfold npush in H.
    destruct (vpush _ _ _) eqn:V; [|discriminate]. injection H as <-. apply vpush_keeps in V. cbn in V. destruct V as [V1 V2]. rewrite V1, V2. eauto.
  - (* RETURN *)
    cbn [exec] in H. destruct ops as [|[] [|]]; try discriminate. apply finish_shape in H. cbn in H. destruct H as [-> [f H]]. split; [reflexivity|].
    split; [reflexivity|]. now rewrite H.
  - (* EXIT *)
    cbn [exec] in H. destruct ops as [|]; try discriminate. destruct (vpush _ _ _) as [s1|] eqn:V; [|discriminate]. apply vpush_keeps in V. cbn in V. destruct V as [V1 V2].
    apply finish_shape in H. destruct H as [C [f H]]. rewrite C, V1. split; [reflexivity|]. split; [reflexivity|]. now rewrite <- V2, H.
Qed.

(** A call that gets to a function is one of a function that was made. *)
Lemma enters_made x s c : enters x s = Some c -> step E size x s <> SUB -> (c < List.length (v_codes s))%nat /\ creates x s = None.
Proof.
  unfold step, enters, creates. destruct (exe_fetch x _) as [[[[] ops]|]| |]; try discriminate.
  destruct ops as [|[] [|[] [|]]]; try discriminate. cbn [exec]. cbv zeta.
  change (f_stack (v_cur (with_pc s (f_pc (v_cur s) + 1)))) with (f_stack (v_cur s)).
  destruct (f_stack (v_cur s)) as [|[| | | | | | |lo] r]; try discriminate.
  destruct (32 <? wrap32 z) eqn:E1; [discriminate|]. destruct (wrap32 z <? 0) eqn:E2; [discriminate|].
  destruct (Z.of_nat (List.length r) <? wrap32 z) eqn:E3; [discriminate|]. cbn [orb]. unfold do_call.
  change (m_objs (v_mem (with_stack (with_pc s (f_pc (v_cur s) + 1)) (skipn (Z.to_nat (wrap32 z)) r)))) with (m_objs (v_mem s)).
  change (v_codes (with_stack (with_pc s (f_pc (v_cur s) + 1)) (skipn (Z.to_nat (wrap32 z)) r))) with (v_codes s).
  destruct (nth_error (m_objs (v_mem s)) lo) as [[| | |k clo|id argc| | | |]|]; try discriminate. intros H N. injection H as <-. split; [|reflexivity].
  apply nth_error_Some. destruct (nth_error (v_codes s) k); congruence.
Qed.

Lemma enters_calls x s k : enters x s = Some k <-> calls_function x k s.
Proof.
  unfold enters, calls_function. split.
  - destruct (exe_fetch x _) as [[[[] ops]|]| |]; try discriminate. destruct ops as [|[] [|[] [|]]]; try discriminate.
    destruct (f_stack (v_cur s)) as [|[| | | | | | |lo] r]; try discriminate.
    destruct (32 <? wrap32 z) eqn:E1; [discriminate|]. destruct (wrap32 z <? 0) eqn:E2; [discriminate|].
    destruct (Z.of_nat (List.length r) <? wrap32 z) eqn:E3; [discriminate|]. cbn [orb].
    destruct (nth_error _ lo) as [[| | |c clo|id argc| | | |]|] eqn:EN; try discriminate. intros H. injection H as <-.
    rewrite Z.ltb_ge in *. exists z, z0, lo, (firstn (Z.to_nat (wrap32 z)) r), (skipn (Z.to_nat (wrap32 z)) r), clo.
    rewrite firstn_skipn, firstn_length_le by lia. repeat split; [lia|lia|assumption].
  - intros (argc & want & l & args & rest & clo & -> & -> & W & L & ->). rewrite W, app_length.
    destruct (32 <? _) eqn:E1; [rewrite Z.ltb_lt in E1; lia|]. destruct (_ <? 0) eqn:E2; [rewrite Z.ltb_lt in E2; lia|].
    destruct (Z.of_nat (List.length args + List.length rest) <? _) eqn:E3; [rewrite Z.ltb_lt in E3; lia|]. reflexivity.
Qed.

Lemma creates_makes x s name : creates x s = Some name <-> makes_function x s name.
Proof.
  unfold creates, makes_function. split.
  - destruct (exe_fetch x _) as [[[[] ops]|]| |]; try discriminate. destruct ops as [|[] [|[] [|[] [|]]]]; try discriminate. intros H. injection H as <-. eauto.
  - intros (e & a & ->). reflexivity.
Qed.

Lemma times_snoc P l n s : times P l n -> (P s -> times P (l ++ [s]) (n + 1)) /\ (~ P s -> times P (l ++ [s]) n).
Proof.
  induction 1; cbn [app]; (split; intros H1).
  - apply (tm_yes P s [] 0 H1). constructor.
  - apply tm_no; [exact H1|constructor].
  - apply tm_yes; [assumption|]. now apply IHtimes.
  - apply tm_yes; [assumption|]. now apply IHtimes.
  - apply tm_no; [assumption|]. now apply IHtimes.
  - apply tm_no; [assumption|]. now apply IHtimes.
Qed.
Lemma times_bound P l n : times P l n -> 0 <= n <= Z.of_nat (List.length l).
Proof. induction 1; cbn [List.length]; lia. Qed.

Lemma made_app x l1 : forall l2 ns, made x (l1 ++ l2) ns -> exists a b, ns = a ++ b /\ made x l1 a /\ made x l2 b.
Proof.
  induction l1 as [|s l1 IH]; cbn [app]; intros l2 ns H; [exists [], ns; repeat split; [constructor|assumption]|].
  inversion H as [|? ? name ms M R|? ? ms M R]; subst; destruct (IH _ _ R) as (a & b & -> & A & B).
  - exists (name :: a), b. repeat split; [now constructor|assumption].
  - exists a, b. repeat split; [now constructor|assumption].
Qed.
Lemma made_snoc x l a s : made x l a -> match creates x s with Some n => made x (l ++ [s]) (a ++ [n]) | None => made x (l ++ [s]) a end.
Proof.
  intros H. destruct (creates x s) as [n|] eqn:C.
  - apply creates_makes in C. induction H; cbn [app]; [apply md_yes; [assumption|constructor]|now apply md_yes|now apply md_no].
  - assert (N : forall n, ~ makes_function x s n) by (intros n M; apply creates_makes in M; congruence).
    induction H; cbn [app]; [apply md_no; [assumption|constructor]|now apply md_yes|now apply md_no].
Qed.
Lemma made_unique x l : forall a b, made x l a -> made x l b -> a = b.
Proof.
  induction l as [|s l IH]; intros a b A B; inversion A as [|? ? n1 m1 M1 R1|? ? m1 M1 R1]; subst; inversion B as [|? ? n2 m2 M2 R2|? ? m2 M2 R2]; subst.
  - reflexivity.
  - apply creates_makes in M1, M2. f_equal; [congruence|auto].
  - exfalso. now apply (M2 n1).
  - exfalso. now apply (M1 n2).
  - auto.
Qed.

(** The state of profiling after the states [l]. *)
Record prof (x : executable) (refs : Z) (l : list vstate) (t : ptab) (tids ids : list Z) : Prop := {
  pf_tids : tids = map Z.of_nat (seq 0 (List.length (pt_entries t)));
  pf_size : Z.of_nat (List.length (pt_entries t)) <= pt_size t;
  pf_refs : pt_refs t = Some (refs + Z.of_nat (List.length (pt_entries t)));
  pf_in : Forall (fun i => 0 <= i < Z.of_nat (List.length (pt_entries t))) ids;
  pf_names : made x l (map pe_name (pt_entries t));
  pf_calls : forall k e, nth_error (pt_entries t) k = Some e -> 0 <= pe_calls e /\ times (calls_function x k) l (pe_calls e + Z.of_nat (count_occ Z.eq_dec ids (Z.of_nat k)));
  pf_later : forall k, (List.length (pt_entries t) <= k)%nat -> times (calls_function x k) l 0
}.

Lemma wrap32_small z : - 2 ^ 31 <= z < 2 ^ 31 -> wrap32 z = z.
Proof. intros R. unfold wrap32. rewrite Z.mod_small; lia. Qed.

Lemma prof_create x refs l t tids ids s n : prof x refs l t tids ids -> creates x s = Some n -> enters x s = None ->
  0 <= refs -> refs + Z.of_nat (List.length (pt_entries t)) + 1 < 2 ^ 31 ->
  exists t', tab_add t n = ROk (Z.of_nat (List.length (pt_entries t)), t') /\ prof x refs (l ++ [s]) t' (tids ++ [Z.of_nat (List.length (pt_entries t))]) ids /\ List.length (pt_entries t') = S (List.length (pt_entries t)).
Proof.
  intros P C N R0 R. destruct P. unfold tab_add. set (used := Z.of_nat (List.length (pt_entries t))) in *.
  assert (U : 0 <= used) by (unfold used; lia).
  set (sz := if pt_size t =? used then _ else _).
  assert (SZ : used < sz). { unfold sz. destruct (pt_size t =? used) eqn:Q; [apply Z.eqb_eq in Q|apply Z.eqb_neq in Q; lia].
    destruct (2 * pt_size t =? 0) eqn:Q2; [apply Z.eqb_eq in Q2|apply Z.eqb_neq in Q2]; lia. }
  rewrite (proj2 (Z.leb_gt _ _)) by lia. rewrite wrap32_small by lia. rewrite (proj2 (Z.ltb_ge _ _)) by lia. rewrite pf_refs0. cbn [ref_step].
  rewrite (proj2 (Z.eqb_neq _ _)) by lia. eexists. split; [reflexivity|].
  assert (NC : forall k, ~ calls_function x k s) by (intros k K; apply enters_calls in K; congruence).
  split; [|cbn [pt_entries]; rewrite app_length; cbn; lia].
  constructor; cbn [pt_entries pt_size pt_refs]; rewrite ?app_length; cbn [List.length].
  - rewrite Nat.add_1_r, seq_S, map_app, <- pf_tids0. reflexivity.
  - unfold used in *. lia.
  - f_equal. unfold used. lia.
  - eapply Forall_impl; [|exact pf_in0]. cbn. unfold used in *. lia.
  - rewrite map_app. cbn [map pe_name]. pose proof (made_snoc _ _ _ s pf_names0) as M. now rewrite C in M.
  - intros k e H. destruct (Nat.lt_ge_cases k (List.length (pt_entries t))) as [K|K].
    + rewrite nth_error_app1 in H by assumption. destruct (pf_calls0 _ _ H) as [A B]. split; [exact A|]. now apply (times_snoc _ _ _ s B).
    + rewrite nth_error_app2 in H by assumption. destruct (k - List.length (pt_entries t))%nat as [|j] eqn:J; [|destruct j; discriminate].
      injection H as <-. cbn [pe_calls]. split; [lia|]. assert (count_occ Z.eq_dec ids (Z.of_nat k) = 0%nat) as ->.
      { apply count_occ_not_In. intros I. rewrite Forall_forall in pf_in0. apply pf_in0 in I. unfold used in I. lia. }
      apply (times_snoc _ _ _ s (pf_later0 k K)). apply NC.
  - intros k K. apply (times_snoc _ _ _ s (pf_later0 k ltac:(lia))). apply NC.
Qed.

Lemma prof_enter x refs l t tids ids s c : prof x refs l t tids ids -> creates x s = None -> enters x s = Some c ->
  (c < List.length (pt_entries t))%nat ->
  nth_error tids c = Some (Z.of_nat c) /\ prof x refs (l ++ [s]) t tids (Z.of_nat c :: ids).
Proof.
  intros P C N L. destruct P. split.
  - rewrite pf_tids0. erewrite map_nth_error; [reflexivity|]. rewrite (nth_error_nth' _ 0%nat) by (now rewrite seq_length). now rewrite seq_nth.
  - constructor; try assumption.
    + constructor; [lia|assumption].
    + pose proof (made_snoc _ _ _ s pf_names0) as M. now rewrite C in M.
    + intros k e H. destruct (pf_calls0 _ _ H) as [A B]. split; [exact A|]. cbn [count_occ]. destruct (Z.eq_dec (Z.of_nat c) (Z.of_nat k)) as [Q|Q].
      * assert (c = k) as <- by lia. replace (_ + _) with (pe_calls e + Z.of_nat (count_occ Z.eq_dec ids (Z.of_nat c)) + 1) by lia.
        apply (times_snoc _ _ _ s B). now apply enters_calls.
      * apply (times_snoc _ _ _ s B). intros K. apply enters_calls in K. congruence.
    + intros k K. apply (times_snoc _ _ _ s (pf_later0 k K)). intros Q. apply enters_calls in Q. assert (c = k) by congruence. lia.
Qed.

Lemma prof_plain x refs l t tids ids s : prof x refs l t tids ids -> creates x s = None -> enters x s = None -> prof x refs (l ++ [s]) t tids ids.
Proof.
  intros P C N. destruct P. assert (NC : forall k, ~ calls_function x k s) by (intros k K; apply enters_calls in K; congruence).
  constructor; try assumption.
  - pose proof (made_snoc _ _ _ s pf_names0) as M. now rewrite C in M.
  - intros k e H. destruct (pf_calls0 _ _ H) as [A B]. split; [exact A|]. apply (times_snoc _ _ _ s B), NC.
  - intros k K. apply (times_snoc _ _ _ s (pf_later0 k K)), NC.
Qed.

Lemma prof_sum x refs l t tids i ids : prof x refs l t tids (i :: ids) -> Z.of_nat (List.length l) < 2 ^ 63 -> Z.of_nat (List.length (pt_entries t)) < 2 ^ 31 ->
  exists t', tab_sum t i = Some t' /\ prof x refs l t' tids ids /\ List.length (pt_entries t') = List.length (pt_entries t).
Proof.
  intros P L U. destruct P. inversion pf_in0 as [|? ? I0 I1]; subst. unfold tab_sum. rewrite wrap32_small by lia.
  rewrite (proj2 (Z.ltb_ge _ _)), (proj2 (Z.leb_gt _ _)) by lia. cbn [orb].
  destruct (nth_error (pt_entries t) (Z.to_nat i)) as [e|] eqn:N; [|apply nth_error_None in N; lia].
  eexists. split; [reflexivity|]. split; [|cbn [pt_entries]; apply upd_length].
  destruct (pf_calls0 _ _ N) as [A B]. pose proof (times_bound _ _ _ B) as TB. rewrite Z2Nat.id in B, TB by lia. cbn [count_occ] in B, TB. destruct (Z.eq_dec i i); [|contradiction].
  assert (u64 (pe_calls e + 1) = pe_calls e + 1) as -> by (unfold u64; apply Z.mod_small; lia).
  constructor; cbn [pt_entries pt_size pt_refs]; rewrite ?upd_length; try assumption; try reflexivity.
  - rewrite map_upd. cbn [pe_name]. replace (upd (map pe_name (pt_entries t)) (Z.to_nat i) (pe_name e)) with (map pe_name (pt_entries t)); [assumption|].
    clear - N. revert N. generalize (pt_entries t) as es. generalize (Z.to_nat i) as j. induction j as [|j IH]; intros [|e0 es] H; try discriminate; cbn in *.
    + now injection H as ->.
    + f_equal. now apply IH.
  - intros k e' H. destruct (Nat.eq_dec (Z.to_nat i) k) as [<-|Q].
    + rewrite nth_error_upd_same in H by (apply nth_error_Some; congruence). injection H as <-. cbn [pe_calls]. split; [lia|].
      rewrite Z2Nat.id by lia. replace (_ + _) with (pe_calls e + Z.of_nat (S (count_occ Z.eq_dec ids i))) by lia. exact B.
    + rewrite nth_error_upd_other in H by assumption. destruct (pf_calls0 _ _ H) as [A' B']. split; [exact A'|]. cbn [count_occ] in B'.
      destruct (Z.eq_dec i (Z.of_nat k)); [lia|exact B'].
Qed.

Lemma prof_sums x refs l tids ids : forall t, prof x refs l t tids ids -> Z.of_nat (List.length l) < 2 ^ 63 -> Z.of_nat (List.length (pt_entries t)) < 2 ^ 31 ->
  exists t', tab_sums t ids = Some t' /\ prof x refs l t' tids [].
Proof.
  induction ids as [|i r IH]; intros t P L U; cbn [tab_sums]; [eauto|].
  destruct (prof_sum _ _ _ _ _ _ _ P L U) as (t1 & -> & P1 & L1). apply IH; [assumption|assumption|lia].
Qed.

Definition good (x : executable) (refs : Z) (l : list vstate) (p : pstate) : Prop :=
  prof x refs l (p_tab p) (p_tids p) (p_ids p) /\ List.length (v_codes (p_vm p)) = List.length (pt_entries (p_tab p)) /\
  List.length (p_ids p) = List.length (v_rest (p_vm p)).

(** The part of a step before the instruction is executed. *)
Lemma before_step x refs l p ns : good x refs l p -> step E size x (p_vm p) <> SUB -> 0 <= refs -> made x (l ++ [p_vm p]) ns -> refs + Z.of_nat (List.length ns) < 2 ^ 31 ->
  exists t tids ids, prof x refs (l ++ [p_vm p]) t tids ids /\
    (match creates x (p_vm p) with
     | Some name => match tab_add (p_tab p) name with ROk (id, t) => ROk (t, p_tids p ++ [id]) | RErr => RErr | RUB => RUB end
     | None => ROk (p_tab p, p_tids p) end) = ROk (t, tids) /\
    (match enters x (p_vm p) with Some c => option_map (fun i => i :: p_ids p) (nth_error tids c) | None => Some (p_ids p) end) = Some ids /\
    List.length (pt_entries t) = (if creates x (p_vm p) then S (List.length (pt_entries (p_tab p))) else List.length (pt_entries (p_tab p))) /\
    List.length ids = (if enters x (p_vm p) then S (List.length (p_ids p)) else List.length (p_ids p)).
Proof.
  intros (P & C & I) NU R0 M R.
  assert (ML : match creates x (p_vm p) with Some _ => Z.of_nat (List.length ns) = Z.of_nat (List.length (pt_entries (p_tab p))) + 1 | None => True end).
  { pose proof (made_snoc _ _ _ (p_vm p) (pf_names _ _ _ _ _ _ P)) as Q. destruct (creates x (p_vm p)); [|exact Logic.I].
    rewrite (made_unique _ _ _ _ M Q), app_length, map_length. cbn [List.length]. lia. }
  destruct (enters x (p_vm p)) as [c|] eqn:EN.
  - destruct (enters_made _ _ _ EN NU) as [L CR]. rewrite CR. rewrite C in L. destruct (prof_enter _ _ _ _ _ _ _ _ P CR EN L) as [T Q].
    exists (p_tab p), (p_tids p), (Z.of_nat c :: p_ids p). rewrite T. auto.
  - destruct (creates x (p_vm p)) as [n|] eqn:CR.
    + destruct (prof_create _ _ _ _ _ _ _ _ P CR EN R0 ltac:(lia)) as (t & -> & Q & L). eexists t, _, _. split; [exact Q|]. auto.
    + exists (p_tab p), (p_tids p), (p_ids p). split; [now apply prof_plain|auto].
Qed.

Lemma pstep_good x refs l p s' ns : good x refs l p -> step E size x (p_vm p) = SNext s' -> 0 <= refs -> made x (l ++ [p_vm p]) ns -> refs + Z.of_nat (List.length ns) < 2 ^ 31 ->
  Z.of_nat (List.length l) + 1 < 2 ^ 63 ->
  exists p', pstep E size x p = PNext p' /\ p_vm p' = s' /\ good x refs (l ++ [p_vm p]) p'.
Proof.
  intros G ST R0 M R L63. assert (NU : step E size x (p_vm p) <> SUB) by congruence.
  destruct (before_step _ _ _ _ _ G NU R0 M R) as (t & tids & ids & P & A & B & LT & LI).
  assert (U : Z.of_nat (List.length (pt_entries t)) < 2 ^ 31).
  { pose proof (made_unique _ _ _ _ M (pf_names _ _ _ _ _ _ P)) as ->. rewrite map_length in R. lia. }
  unfold pstep. rewrite A, B, ST. pose proof (step_shape _ _ _ ST) as [SC SR]. destruct G as (_ & C & I).
  assert (CT : List.length (v_codes s') = List.length (pt_entries t)).
  { destruct (creates x (p_vm p)); [destruct SC as [c ->]; rewrite app_length; cbn; lia|rewrite SC; lia]. }
  destruct (enters x (p_vm p)) as [c|] eqn:EN.
  - destruct SR as (_ & _ & LV & LR). rewrite LV. eexists. split; [reflexivity|]. cbn [p_vm]. split; [reflexivity|]. split; [assumption|]. split; [assumption|]. cbn. lia.
  - destruct (leaving x (p_vm p)) eqn:LV.
    + destruct SR as [CR LR]. destruct ids as [|i r]; [cbn in LI; lia|]. cbn [List.length] in LI.
      destruct (prof_sum _ _ _ _ _ _ _ P) as (t' & -> & P' & L'); [rewrite app_length; cbn; lia|lia|].
      eexists. split; [reflexivity|]. cbn [p_vm]. split; [reflexivity|]. split; [assumption|]. cbn [p_vm p_tab p_ids]. split; [congruence|lia].
    + eexists. split; [reflexivity|]. cbn [p_vm]. split; [reflexivity|]. split; [assumption|]. split; [assumption|]. cbn. lia.
Qed.

Lemma prun_path x refs : forall l s s', path E size x s l s' -> forall l0 p ns, p_vm p = s -> good x refs l0 p -> 0 <= refs -> made x (l0 ++ l) ns ->
  refs + Z.of_nat (List.length ns) < 2 ^ 31 -> Z.of_nat (List.length (l0 ++ l)) < 2 ^ 63 ->
  exists p', prun E size x (List.length l) p = PNext p' /\ p_vm p' = s' /\ good x refs (l0 ++ l) p'.
Proof.
  induction 1 as [s|s s1 l s' ST PA IH]; intros l0 p ns V G R0 M R L; cbn [prun List.length].
  - rewrite app_nil_r. eauto.
  - replace (l0 ++ s :: l) with ((l0 ++ [s]) ++ l) in * by (rewrite <- app_assoc; reflexivity). subst s.
    destruct (made_app _ _ _ _ M) as (a & b & -> & MA & MB). rewrite app_length in R.
    destruct (pstep_good _ _ _ _ _ _ G ST R0 MA ltac:(lia)) as (p1 & -> & V1 & G1). { rewrite !app_length in L. cbn in L. lia. }
    eapply IH; eauto. rewrite app_length. lia.
Qed.

Lemma good_start x refs m : good x refs [] (pstart m refs).
Proof.
  split; [|split; reflexivity]. constructor; cbn [pstart p_tab p_tids p_ids tab_new pt_entries pt_size pt_refs List.length map seq].
  - reflexivity.
  - cbn. lia.
  - f_equal. cbn. lia.
  - constructor.
  - constructor.
  - intros [|k] e H; discriminate.
  - constructor.
Qed.

Lemma prun_more x n : forall k p r t, prun E size x n p = PEnd r t -> prun E size x (n + k) p = PEnd r t.
Proof. induction n as [|n IH]; intros k p r t H; [discriminate|]. cbn [prun Nat.add] in *. destruct (pstep E size x p); try assumption. now apply IH. Qed.
Lemma prun_app x n : forall k p p1, prun E size x n p = PNext p1 -> prun E size x (n + k) p = prun E size x k p1.
Proof.
  induction n as [|n IH]; intros k p p1 H; cbn [prun Nat.add] in *; [now injection H as ->|]. destruct (pstep E size x p); try discriminate. now apply IH.
Qed.

Lemma prof_whole x refs m l r ns : whole_run E size x m l r -> made x l ns -> 0 <= refs -> refs + Z.of_nat (List.length ns) < 2 ^ 31 -> Z.of_nat (List.length l) < 2 ^ 63 ->
  exists t, (forall n, (List.length l <= n)%nat -> prun E size x n (pstart m refs) = PEnd r t) /\ map pe_name (pt_entries t) = ns /\
    (forall k e, nth_error (pt_entries t) k = Some e -> times (calls_function x k) l (pe_calls e)) /\
    pt_refs t = Some (refs + Z.of_nat (List.length ns)).
Proof.
  intros (l1 & s & PA & -> & OV) M R0 R L. destruct (made_app _ _ _ _ M) as (a & b & -> & MA & MB). rewrite app_length in R.
  assert (NE : step E size x s = r /\ step E size x s <> SUB /\ step E size x s <> SLoop /\ forall s', step E size x s <> SNext s').
  { destruct OV as [ST [(vs & m' & Q)|[Q|[Q|Q]]]]; rewrite Q in ST; repeat split; congruence. }
  destruct NE as (ST & N1 & N2 & N3).
  destruct (prun_path x refs _ _ _ PA [] (pstart m refs) a eq_refl (good_start _ _ _) R0 MA ltac:(lia)) as (p & PR & V & G).
  { rewrite app_length in L. cbn in *. lia. }
  cbn [app] in G. assert (PL : p_vm p = s) by exact V.
  destruct (before_step x refs l1 p (a ++ b) G) as (t & tids & ids & P & A & B & LT & LI); rewrite ?PL; auto; [rewrite app_length; lia|].
  rewrite PL in P. pose proof (made_unique _ _ _ _ M (pf_names _ _ _ _ _ _ P)) as MU.
  assert (U : Z.of_nat (List.length (pt_entries t)) < 2 ^ 31). { pose proof (f_equal (@List.length _) MU) as Q. rewrite map_length, app_length in Q. lia. }
  destruct (prof_sums _ _ _ _ _ _ P L U) as (t' & T & P').
  exists t'. split; [|split; [|split]].
  - intros n Hn. rewrite app_length in Hn. cbn in Hn. replace n with (List.length l1 + S (n - S (List.length l1)))%nat by lia. rewrite (prun_app _ _ _ _ _ PR).
    cbn [prun]. assert (pstep E size x p = PEnd r t') as ->; [|reflexivity]. unfold pstep. rewrite A, B, PL, ST. rewrite <- ST in *.
    destruct (step E size x s); try congruence; rewrite T; reflexivity.
  - symmetry. eapply made_unique; [exact M|]. exact (pf_names _ _ _ _ _ _ P').
  - intros k e H. destruct (pf_calls _ _ _ _ _ _ P' k e H) as [_ Q]. cbn [count_occ] in Q. now rewrite Z.add_0_r in Q.
  - rewrite (pf_refs _ _ _ _ _ _ P'). pose proof (made_unique _ _ _ _ M (pf_names _ _ _ _ _ _ P')) as Q. rewrite Q, map_length. reflexivity.
Qed.
End Prof.

Lemma tab_free_all l : forall refs, 0 < refs -> tab_free l (Some (refs + Z.of_nat (List.length l))) = ROk (Some refs).
Proof.
  induction l as [|e l IH]; intros refs R; cbn [tab_free List.length ref_step]; [now rewrite Z.add_0_r|].
  rewrite (proj2 (Z.eqb_neq _ _)) by lia. replace (_ - 1) with (refs + Z.of_nat (List.length l)) by lia. now apply IH.
Qed.

Lemma report_says prog time l : forall i, Forall (fun e => 0 <= pe_calls e < 2 ^ 63) l ->
  exists t, report (Some prog) time i l = ROk t /\ profile_says prog time i (map (fun e => (pe_name e, pe_calls e)) l) t.
Proof.
  induction l as [|e l IH]; intros i F; cbn [report map]; [exists []; split; [reflexivity|constructor]|].
  inversion F as [|? ? B F']; subst. destruct (IH (S i) F') as (t & -> & P). destruct (0 <? pe_calls e) eqn:Q; [apply Z.ltb_lt in Q|apply Z.ltb_ge in Q].
  - eexists. split; [reflexivity|]. unfold pad20. match goal with |- profile_says _ _ _ _ ?u => match u with context [time i ++ ?w] => idtac end end.
    replace (_ ++ _) with (((repeat 32 (20 - List.length (pe_name e))) ++ pe_name e ++ bytes_of " - " ++ prog ++ bytes_of " - " ++ int_text (pe_calls e) ++ bytes_of " calls - " ++ time i ++ bytes_of "us" ++ [10]) ++ t)
      by (rewrite <- !app_assoc; reflexivity).
    apply ps_called; [assumption| |assumption]. constructor.
    + apply Forall_forall. intros c I. now apply repeat_spec in I.
    + apply repeat_length.
    + apply int_text_shown. lia.
  - exists t. split; [reflexivity|]. assert (pe_calls e = 0) as -> by lia. now constructor.
Qed.

Lemma profile_whole E size x m l r ns refs prog time : whole_run E size x m l r -> made x l ns -> 0 < refs ->
  refs + Z.of_nat (List.length ns) < 2 ^ 31 -> Z.of_nat (List.length l) < 2 ^ 63 ->
  exists t cs text, (forall n, (List.length l <= n)%nat -> prun E size x n (pstart m refs) = PEnd r t) /\
    List.length cs = List.length ns /\ (forall k c, nth_error cs k = Some c -> times (calls_function x k) l c) /\
    report (Some prog) time 0 (pt_entries t) = ROk text /\ profile_says prog time 0 (combine ns cs) text /\
    tab_free (pt_entries t) (pt_refs t) = ROk (Some refs).
Proof.
  intros W M R0 R L. destruct (prof_whole E size x refs m l r ns W M ltac:(lia) R L) as (t & P & N & C & RF).
  assert (F : Forall (fun e => 0 <= pe_calls e < 2 ^ 63) (pt_entries t)).
  { apply Forall_forall. intros e I. apply In_nth_error in I. destruct I as [k I]. apply C in I. apply times_bound in I. lia. }
  destruct (report_says prog time (pt_entries t) 0 F) as (text & T & S1).
  exists t, (map pe_calls (pt_entries t)), text. split; [exact P|]. split; [now rewrite <- N, !map_length|]. split; [|split; [exact T|split]].
  - intros k c H. rewrite nth_error_map in H. destruct (nth_error (pt_entries t) k) eqn:Q; [|discriminate]. injection H as <-. eauto.
  - rewrite <- N. replace (combine _ _) with (map (fun e => (pe_name e, pe_calls e)) (pt_entries t)); [exact S1|].
    generalize (pt_entries t) as es. induction es as [|e es IH]; cbn; [reflexivity|now rewrite IH].
  - rewrite RF, <- N, map_length. now apply tab_free_all.
Qed.

(** Deciding what happens in concrete runs. *)
Fixpoint names_made (x : executable) (l : list vstate) : list (list Z) :=
  match l with [] => [] | s :: r => match creates x s with Some n => n :: names_made x r | None => names_made x r end end.
Lemma made_checked x l ns : names_made x l = ns -> made x l ns.
Proof.
  intros <-. induction l as [|s l IH]; cbn [names_made]; [constructor|]. destruct (creates x s) eqn:C.
  - apply md_yes; [now apply creates_makes|assumption].
  - apply md_no; [|assumption]. intros n Q. apply creates_makes in Q. congruence.
Qed.
Fixpoint times_called (x : executable) (k : nat) (l : list vstate) : Z :=
  match l with [] => 0 | s :: r => match enters x s with Some c => if Nat.eqb c k then times_called x k r + 1 else times_called x k r | None => times_called x k r end end.
Lemma times_checked x k l n : times_called x k l = n -> times (calls_function x k) l n.
Proof.
  intros <-. induction l as [|s l IH]; cbn [times_called]; [constructor|]. destruct (enters x s) as [c|] eqn:C.
  - destruct (Nat.eqb c k) eqn:Q; [apply Nat.eqb_eq in Q; subst c|apply Nat.eqb_neq in Q].
    + apply tm_yes; [now apply enters_calls|assumption].
    + apply tm_no; [|assumption]. intros H. apply enters_calls in H. congruence.
  - apply tm_no; [|assumption]. intros H. apply enters_calls in H. congruence.
Qed.

(** A program for the examples. *)
Definition prof_text : list Z := bytes_of "PUSHFUN f, 1, ""first""; ASS ""a""; POP 1; PUSHFUN g, 0, ""second""; POP 1;
PUSHTRU; PUSHVAR ""a""; CALL 1, 1; POP 1;
PUSHINT 1; PUSHVAR ""a""; CALL 1, 1; EXIT;
f: NOT; RETURN 1; g: RETURN 0;".
Definition prof_exe : executable := match assemble true prof_text with AOk (x, _) => x | _ => mkexe [] [] end.
Fixpoint trail (x : executable) (n : nat) (s : vstate) : list vstate :=
  match n with O => [] | S n => s :: match step env0 256 x s with SNext s' => trail x n s' | _ => [] end end.
