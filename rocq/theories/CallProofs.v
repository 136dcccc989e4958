(** Calls: arguments, parameters and results on the machine. *)
From Coq Require Import ZArith List Lia Bool.
From Verif Require Import Base StringModel ValueModel MapModel MapSpec MapProofs2 ListModel ExeModel ArithModel ObjModel AstModel CodegenModel FrameModel
  VmModel SrcModel CompSpec CodegenProofs ScopeSpec ScopeProofs LogicProofs.
Import ListNotations.
Open Scope Z_scope.

(** * Arguments and results *)
Lemma nth_error_repeat {A} (a : A) : forall n i, nth_error (repeat a n) i = if (i <? n)%nat then Some a else None.
Proof.
  induction n as [|n IH]; intros [|i]; cbn [repeat nth_error]; try reflexivity. rewrite IH. reflexivity.
Qed.

Lemma nth_error_firstn {A} : forall n (l : list A) i, nth_error (firstn n l) i = if (i <? n)%nat then nth_error l i else None.
Proof.
  induction n as [|n IH]; intros l i; [destruct i; reflexivity|].
  destruct l as [|a l]; cbn [firstn]; [destruct i; cbn [nth_error]; destruct (_ <? _)%nat; reflexivity|].
  destruct i; cbn [nth_error]; [reflexivity|]. rewrite IH. reflexivity.
Qed.

(** The first [p] of the values, filled up with none. *)
Lemma padded p (vs : list value) i : 
  nth_error (firstn p vs ++ repeat VNone (p - length vs)) i =
  if (i <? p)%nat then Some (nth i vs VNone) else None.
Proof.
  destruct (Nat.ltb_spec i (length (firstn p vs))) as [L|L].
  - rewrite nth_error_app1 by exact L. rewrite nth_error_firstn. rewrite firstn_length in L.
    destruct (Nat.ltb_spec i p); [|lia]. apply nth_error_nth'. lia.
  - rewrite nth_error_app2 by exact L. rewrite nth_error_repeat. rewrite firstn_length in *.
    destruct (Nat.ltb_spec i p).
    + destruct (Nat.ltb_spec (i - Nat.min p (length vs)) (p - length vs)); [|lia]. rewrite nth_overflow by lia. reflexivity.
    + destruct (Nat.ltb_spec (i - Nat.min p (length vs)) (p - length vs)); [lia|]. reflexivity.
Qed.

Lemma adjust_nth p args i : 0 <= p -> nth_error (adjust p args) i = if Z.of_nat i <? p then Some (nth i args VNone) else None.
Proof.
  intros Hp. unfold adjust. rewrite padded. destruct (Nat.ltb_spec i (Z.to_nat p)), (Z.ltb_spec (Z.of_nat i) p); try lia; reflexivity.
Qed.

Lemma results_nth want rets vs i : 0 <= want -> results want rets = OOk vs ->
  nth_error vs i = if Z.of_nat i <? want then Some (nth i rets VNone) else None.
Proof.
  intros Hw. unfold results. destruct (_ <? _); [discriminate|]. intros [= <-].
  replace (firstn (Z.to_nat (Z.min (Z.of_nat (length rets)) want)) rets) with (firstn (Z.to_nat want) rets).
  - replace (Z.to_nat (want - Z.of_nat (length rets))) with (Z.to_nat want - length rets)%nat by lia. rewrite padded.
    destruct (Nat.ltb_spec i (Z.to_nat want)), (Z.ltb_spec (Z.of_nat i) want); try lia; reflexivity.
  - destruct (Z.le_ge_cases (Z.of_nat (length rets)) want).
    + rewrite Z.min_l by lia. rewrite Nat2Z.id, firstn_all. apply firstn_all2. lia.
    + rewrite Z.min_r by lia. reflexivity.
Qed.

Section Calls.
Variables (E : env) (cap : Z).

Lemma vpushes_stack vs : forall s s', vpushes cap s vs = Some s' -> s' = with_stack s (rev vs ++ f_stack (v_cur s)).
Proof.
  induction vs as [|v vs IH]; intros s s' H; cbn [vpushes rev] in H.
  - injection H as <-. destruct s as [m c [pc st l cl w] r]. reflexivity.
  - unfold vpush in H. destruct (_ || _); [discriminate|]. apply IH in H. rewrite H.
    destruct s as [m c [pc st l cl w] r]. cbn. rewrite <- app_assoc. reflexivity.
Qed.

Lemma rev_nth_stack (vs base : list value) i v : nth_error vs i = Some v -> nth_error (rev (rev vs ++ base)) (length base + i) = Some v.
Proof.
  intros H. rewrite rev_app_distr, rev_involutive, nth_error_app2; rewrite rev_length; [|lia].
  replace (length base + i - length base)%nat with i by lia. exact H.
Qed.

(** What a call of a function object starts: a frame of its own whose stack holds one value per parameter. *)
Lemma call_starts s l c clo entry argc args want s' :
  nth_error (m_objs (v_mem s)) l = Some (OFun c clo) -> nth_error (v_codes s) c = Some (entry, argc) -> 0 <= argc ->
  do_call E cap s (VRef l) args want = SNext s' ->
  let loc := length (m_objs (v_mem s)) in
  v_cur s' = mkfr entry (rev (adjust argc args)) (VRef loc) (Some clo) want /\
  v_rest s' = v_cur s :: v_rest s /\ v_codes s' = v_codes s /\
  v_mem s' = mkmem (m_objs (v_mem s) ++ [OMap (new_map (-1))]) (m_pend (v_mem s)).
Proof.
  intros Hl Hc Ha. unfold do_call. rewrite Hl, Hc. destruct (_ <=? _); [discriminate|]. unfold alloc.
  destruct (vpushes _ _ _) as [s1|] eqn:Ev; [|discriminate]. intros [= <-]. apply vpushes_stack in Ev. rewrite Ev.
  cbn [with_stack v_cur v_rest v_codes v_mem f_pc f_stack f_locals f_clo f_want]. rewrite app_nil_r. auto.
Qed.

(** What the end of a call gives back. *)
Lemma call_returns s caller rest s' : v_rest s = caller :: rest -> 0 <= f_want (v_cur s) ->
  finish cap s = SNext s' ->
  let rets := rev (f_stack (v_cur s)) in
  v_mem s' = v_mem s /\ v_rest s' = rest /\
  exists vs, v_cur s' = mkfr (f_pc caller) (rev vs ++ f_stack caller) (f_locals caller) (f_clo caller) (f_want caller) /\
    forall i, nth_error vs i = if Z.of_nat i <? f_want (v_cur s) then Some (nth i rets VNone) else None.
Proof.
  intros Hr Hw. unfold finish. destruct (m_pend _); [discriminate|]. rewrite Hr. unfold lift.
  destruct (results _ _) as [vs| | | |] eqn:Ew; try discriminate.
  destruct (vpushes _ _ _) as [s1|] eqn:Ev; [|discriminate]. intros [= <-]. apply vpushes_stack in Ev. rewrite Ev.
  cbn [with_stack v_cur v_rest v_mem f_pc f_stack f_locals f_clo f_want]. split; [reflexivity|]. split; [reflexivity|].
  exists vs. split; [reflexivity|]. intros i. apply results_nth; assumption.
Qed.

End Calls.

(** * Parameters *)
(** Parameters declared with neither type nor default value. *)
Fixpoint plain (ps : params) : Prop :=
  match ps with ANil => True | ACons _ ONo ONo r => plain r | _ => False end.
Fixpoint names (ps : params) : list (list Z) :=
  match ps with ANil => [] | ACons n _ _ r => n :: names r end.

Lemma names_len ps : Z.of_nat (length (names ps)) = params_len ps.
Proof. induction ps as [|n ty df r IH]; [reflexivity|]. cbn [names length params_len]. lia. Qed.

Section Params.
Variables (E : env) (cap : Z) (x : executable).

Lemma steps_add' a : forall b s, steps E cap x (a + b) s = match steps E cap x a s with SNext s' => steps E cap x b s' | r => r end.
Proof. induction a as [|a IH]; intros b s; cbn [steps Nat.add]; [reflexivity|]. destruct (step E cap x s); auto. Qed.

Lemma bind_code : forall ps args i pos base s l h,
  plain ps -> length args = length (names ps) -> has_code x pos (comp_params i ps pos) ->
  f_pc (v_cur s) = pos -> f_stack (v_cur s) = rev args ++ base -> f_locals (v_cur s) = VRef l ->
  m_pend (v_mem s) = false -> vars (v_mem s) l h -> tame_scope (h ++ rev (combine (names ps) args)) ->
  exists n s', steps E cap x n s = SNext s' /\
    v_cur s' = mkfr (pos + size_params ps) base (VRef l) (f_clo (v_cur s)) (f_want (v_cur s)) /\
    v_rest s' = v_rest s /\ v_codes s' = v_codes s /\ m_pend (v_mem s') = false /\
    vars (v_mem s') l (h ++ rev (combine (names ps) args)) /\
    (forall k, k <> l -> nth_error (m_objs (v_mem s')) k = nth_error (m_objs (v_mem s)) k).
Proof.
  induction ps as [|name ty df r IH]; intros args i pos base s l h Hpl Hlen Hcode Hpc Hst Hloc Hp Hv Ht.
  - destruct args; [|discriminate]. exists O, s. cbn [steps names combine rev size_params app] in *. rewrite app_nil_r in *.
    rewrite Z.add_0_r. split; [reflexivity|]. split; [|auto 10].
    destruct s as [m c [pc st lo cl w] rs]. cbn in *. subst. reflexivity.
  - cbn [plain] in Hpl. destruct ty; [|contradiction]. destruct df; [|contradiction].
    destruct args as [|v args]; [discriminate|]. cbn [names length combine rev size_params comp_params app] in *.
    injection Hlen as Hlen. rewrite app_assoc in Ht. pose proof (tame_snoc_l _ _ Ht) as Ht1.
    apply has_app in Hcode. destruct Hcode as [Hc1 Hc2].
    rewrite (proj1 (proj2 (proj2 (proj2 comp_size)))) in Hc2. rewrite <- app_assoc in Hst. cbn [app] in Hst.
    destruct (IH args (i + 1) pos (v :: base) s l h Hpl Hlen Hc1 Hpc Hst Hloc Hp Hv Ht1)
      as (n & s1 & S1 & C1 & R1 & K1 & P1 & V1 & O1).
    destruct (set_var_vars E (v_mem s1) l _ name v P1 V1 Ht) as (m2 & Hset & V2 & P2 & L2 & O2).
    set (q := pos + size_params r) in *.
    apply has_cons in Hc2. destruct Hc2 as [F1 Hc2]. apply has_cons in Hc2. destruct Hc2 as [F2 _].
    exists (n + 2)%nat.
    assert (A1 : step E cap x s1 = SNext (with_mem (with_pc s1 (q + 1)) m2)).
    { assert (Epc : f_pc (v_cur s1) = q) by (rewrite C1; reflexivity).
      rewrite (step_fetch E cap x s1 OP_ASS [PStr name]) by (rewrite Epc; exact F1). rewrite Epc. unfold exec.
      cbn [with_pc v_cur f_stack f_locals v_mem]. rewrite C1. cbn [f_stack f_locals]. rewrite Hset. reflexivity. }
    eexists. rewrite steps_add', S1. cbn [steps]. rewrite A1.
    rewrite (step_fetch E cap x (with_mem (with_pc s1 (q + 1)) m2) OP_POP [PInt 1] F2).
    unfold exec. cbn [with_mem with_pc v_cur f_stack f_pc]. rewrite C1. cbn [f_stack f_locals f_clo f_want length].
    change (u32 1) with 1. destruct (Z.ltb_spec (Z.of_nat (S (length base))) 1); [lia|].
    split; [reflexivity|]. unfold with_mem, with_pc, with_stack. cbn [v_cur v_rest v_codes v_mem f_pc f_stack f_locals f_clo f_want].
    split; [change (Z.to_nat 1) with 1%nat; cbn [skipn]; replace (pos + (size_params r + (0 + (0 + 2)))) with (q + 1 + 1) by (unfold q; lia); rewrite C1; reflexivity|]. split; [exact R1|]. split; [exact K1|]. split; [exact P2|].
    split; [rewrite app_assoc; exact V2|]. intros k Hk. rewrite (O2 k Hk). apply O1. exact Hk.
Qed.

End Params.

(** The value the binding gives a parameter name: the argument of the first parameter of that name. *)
Lemma assigned_snoc h n v name : assigned (h ++ [(n, v)]) name = if name_eqb name n then Some v else assigned h name.
Proof. unfold assigned, last_stored. rewrite fold_left_app. reflexivity. Qed.

Lemma name_eqb_eq a b : name_eqb a b = true <-> a = b.
Proof. unfold name_eqb. destruct (list_eq_dec Z.eq_dec a b); split; congruence. Qed.

Lemma bound_value : forall ns args i name v, NoDup ns -> length args = length ns ->
  nth_error ns i = Some name -> nth_error args i = Some v -> assigned (rev (combine ns args)) name = Some v.
Proof.
  induction ns as [|n ns IH]; intros args i name v Hd Hl Hn Hv; [destruct i; discriminate|].
  destruct args as [|a args]; [discriminate|]. inversion Hd as [|? ? Hnot Hd']; subst. injection Hl as Hl.
  cbn [combine rev]. rewrite assigned_snoc. destruct i as [|i]; cbn [nth_error] in Hn, Hv.
  - injection Hn as ->. injection Hv as ->. rewrite (proj2 (name_eqb_eq _ _) eq_refl). reflexivity.
  - destruct (name_eqb name n) eqn:En.
    + apply name_eqb_eq in En. subst name. exfalso. apply Hnot. eapply nth_error_In. exact Hn.
    + eapply IH; eassumption.
Qed.

Lemma delivered cap s caller rest : v_rest s = caller :: rest -> m_pend (v_mem s) = false ->
  0 <= f_want (v_cur s) -> Z.min (Z.of_nat (length (f_stack (v_cur s)))) (f_want (v_cur s)) <= 8 ->
  finish cap s = SLimit \/
  exists s' vs, finish cap s = SNext s' /\ f_stack (v_cur s') = rev vs ++ f_stack caller /\
    firstn (Z.to_nat (f_want (v_cur s))) (rev (f_stack (v_cur s))) = firstn (length (f_stack (v_cur s))) vs.
Proof.
  intros Hr Hp Hw H8. unfold finish. rewrite Hp, Hr. unfold results. rewrite rev_length.
  destruct (Z.ltb_spec MAX_RETS (Z.min (Z.of_nat (length (f_stack (v_cur s)))) (f_want (v_cur s)))); [unfold MAX_RETS in *; lia|].
  cbn [lift]. match goal with |- context [vpushes _ _ ?l] => remember l as vs eqn:Evs end.
  destruct (vpushes _ _ vs) as [s1|] eqn:Ev; [|left; reflexivity]. right. exists s1, vs. split; [reflexivity|].
  apply vpushes_stack in Ev. rewrite Ev. split; [reflexivity|]. rewrite Evs.
  set (r := rev (f_stack (v_cur s))). assert (Lr : length r = length (f_stack (v_cur s))) by (unfold r; apply rev_length).
  rewrite <- Lr. destruct (Z.le_ge_cases (Z.of_nat (length r)) (f_want (v_cur s))) as [L|L].
  - rewrite Z.min_l by lia. rewrite Nat2Z.id, firstn_all. rewrite (firstn_all2 r) by lia.
    rewrite firstn_app, Nat.sub_diag, firstn_O, app_nil_r, firstn_all. reflexivity.
  - rewrite Z.min_r by lia. replace (Z.to_nat (f_want (v_cur s) - Z.of_nat (length r))) with O by lia. cbn [repeat]. rewrite app_nil_r.
    rewrite firstn_firstn. rewrite Nat.min_r by lia. reflexivity.
Qed.
