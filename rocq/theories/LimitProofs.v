(** The limits of the interpreter: proofs. *)
From Coq Require Import ZArith List Lia Bool.
From Verif Require Import Base StringModel ValueModel MapModel ListModel ExeModel ArithModel ObjModel FrameModel VmModel LimitSpec.
Import ListNotations.
Open Scope Z_scope.

Notation vlen l := (Z.of_nat (length l)).

Lemma values_used s : used s = values_of (frames_of s).
Proof.
  unfold used, frames_of. generalize (v_cur s :: v_rest s). induction l as [|f r IH]; [reflexivity|]. cbn [fold_right values_of]. rewrite IH. reflexivity.
Qed.

Lemma values_pos fs : 0 <= values_of fs.
Proof. induction fs; cbn [values_of]; lia. Qed.

Section Limits.
Variables (E : env) (size : Z).

Lemma lift_next {A} (x : out A) k s : lift x k = SNext s -> exists a, x = OOk a /\ k a = SNext s.
Proof. destruct x; cbn; try discriminate. eauto. Qed.
Lemma lift_limit {A} (x : out A) k : lift x k = SLimit -> exists a, x = OOk a /\ k a = SLimit.
Proof. destruct x; cbn; try discriminate. eauto. Qed.
Lemma lift_done {A} (x : out A) k r m : lift x k = SDone r m -> exists a, x = OOk a /\ k a = SDone r m.
Proof. destruct x; cbn; try discriminate. eauto. Qed.

Lemma vpush_some s v s' : vpush size s v = Some s' ->
  s' = with_stack s (v :: f_stack (v_cur s)) /\ room size 1 (vlen (f_stack (v_cur s))) (values_of (frames_of s)).
Proof.
  unfold vpush, room, MAX_FRAME_STACK. rewrite values_used. destruct (_ || _) eqn:B; [discriminate|]. intros H. injection H as <-.
  apply orb_false_iff in B. rewrite !Z.leb_gt in B. split; [reflexivity|lia].
Qed.
Lemma vpush_none s v : vpush size s v = None -> ~ room size 1 (vlen (f_stack (v_cur s))) (values_of (frames_of s)).
Proof.
  unfold vpush, room, MAX_FRAME_STACK. rewrite values_used. destruct (_ || _) eqn:B; [|discriminate]. intros _.
  apply orb_true_iff in B. rewrite !Z.leb_le in B. lia.
Qed.

Lemma npush_next s v s' : npush size s v = SNext s' ->
  s' = with_stack s (v :: f_stack (v_cur s)) /\ room size 1 (vlen (f_stack (v_cur s))) (values_of (frames_of s)).
Proof. unfold npush. destruct (vpush size s v) eqn:V; [|discriminate]. intros H. injection H as <-. exact (vpush_some _ _ _ V). Qed.
Lemma npush_limit s v : npush size s v = SLimit -> ~ room size 1 (vlen (f_stack (v_cur s))) (values_of (frames_of s)).
Proof. unfold npush. destruct (vpush size s v) eqn:V; [discriminate|]. intros _. exact (vpush_none _ _ V). Qed.

Lemma vpushes_some vs : forall s s', vpushes size s vs = Some s' -> 
  s' = with_stack s (rev vs ++ f_stack (v_cur s)) /\ (vs = [] \/ room size (vlen vs) (vlen (f_stack (v_cur s))) (values_of (frames_of s))).
Proof.
  induction vs as [|v r IH]; intros s s' H; cbn [vpushes] in H.
  - injection H as <-. destruct s as [? ? [] ?]. auto.
  - destruct (vpush size s v) as [s1|] eqn:V; [|discriminate]. apply vpush_some in V. destruct V as [-> R].
    apply IH in H. destruct H as [-> H]. destruct s as [m c f rest]. unfold with_stack, frames_of in *. cbn [v_cur v_mem v_codes v_rest f_pc f_stack f_locals f_clo f_want values_of length rev] in *. split.
    + rewrite <- app_assoc. reflexivity.
    + right. destruct H as [->|H]; unfold room in *; cbn [length] in *; lia.
Qed.
Lemma vpushes_none vs : forall s, vpushes size s vs = None -> ~ room size (vlen vs) (vlen (f_stack (v_cur s))) (values_of (frames_of s)).
Proof.
  induction vs as [|v r IH]; intros s H; cbn [vpushes] in H; [discriminate|].
  destruct (vpush size s v) as [s1|] eqn:V.
  - apply vpush_some in V. destruct V as [-> R]. apply IH in H. destruct s as [m c f rest]. unfold with_stack, frames_of, room in *. cbn [v_cur v_mem v_codes v_rest f_pc f_stack f_locals f_clo f_want values_of length] in *. lia.
  - apply vpush_none in V. unfold room in *. cbn [length]. lia.
Qed.

Definition same_frame (f f' : vframe) : Prop := f_locals f' = f_locals f /\ f_clo f' = f_clo f /\ f_want f' = f_want f.

Ltac crack := repeat match goal with
  | H : (match ?x with _ => _ end) = _ |- _ => destruct x eqn:?; try discriminate
  | H : lift _ _ = SNext _ |- _ => apply lift_next in H; destruct H as (? & ? & H)
  | H : npush _ _ _ = SNext _ |- _ => apply npush_next in H; destruct H as [-> H]
  | H : SNext _ = SNext _ |- _ => injection H as <-
  | H : Some _ = Some _ |- _ => injection H as <- <-
  end.

Ltac cracks := repeat match goal with
  | H : (match ?x with _ => _ end) = _ |- _ => destruct x eqn:?; try discriminate
  | H : lift _ _ = SLimit |- _ => apply lift_limit in H; destruct H as (? & ? & H)
  | H : npush _ _ _ = SLimit |- _ => apply npush_limit in H
  | H : Some _ = Some _ |- _ => injection H as <- <-
  end.

Lemma exec_effect s op ops t g s' : moves op ops = Some (t, g) -> exec E size s op ops = SNext s' ->
  t <= vlen (f_stack (v_cur s)) /\ (g = 0 \/ room size g (vlen (f_stack (v_cur s)) - t) (values_of (frames_of s) - t)) /\
  (exists gs, vlen gs = g /\ f_stack (v_cur s') = gs ++ skipn (Z.to_nat t) (f_stack (v_cur s))) /\
  v_rest s' = v_rest s /\ same_frame (v_cur s) (v_cur s') /\ (jumps op = false -> f_pc (v_cur s') = f_pc (v_cur s)).
Proof.
  destruct s as [m c [pc st lo cl wa] rest]. unfold exec, moves. cbv zeta. cbn [v_mem v_codes v_cur v_rest f_pc f_stack f_locals f_clo f_want].
  intros Hf H. destruct op; try discriminate; crack.
  all: unfold room, same_frame, frames_of, with_stack, with_mem, with_pc in *.
  all: cbn [v_mem v_codes v_cur v_rest f_pc f_stack f_locals f_clo f_want fst snd values_of length jumps] in *.
  all: repeat match goal with H : (_ <? _) = false |- _ => rewrite Z.ltb_ge in H end; try unfold u32 in *.
  all: try match goal with n : Z |- context [(?k mod 2 ^ 32)] => pose proof (Z.mod_pos_bound k (2 ^ 32) ltac:(lia)) end.
  all: try match goal with |- context [Bool.eqb ?a ?b] => destruct (Bool.eqb a b) end; cbn [v_mem v_codes v_cur v_rest f_pc f_stack f_locals f_clo f_want].
  all: split; [lia|]; split; [lia|]; split;
    [first [exists []; split; [reflexivity|]; reflexivity | eexists [_]; split; [reflexivity|]; reflexivity]|].
  all: repeat split; intros; try discriminate.
Qed.

Lemma exec_limit s op ops t g : moves op ops = Some (t, g) -> exec E size s op ops = SLimit ->
  t <= vlen (f_stack (v_cur s)) /\ ~ room size g (vlen (f_stack (v_cur s)) - t) (values_of (frames_of s) - t).
Proof.
  destruct s as [m c [pc st lo cl wa] rest]. unfold exec, moves. cbv zeta. cbn [v_mem v_codes v_cur v_rest f_pc f_stack f_locals f_clo f_want].
  intros Hf H. destruct op; try discriminate; cracks.
  all: unfold room, same_frame, frames_of, with_stack, with_mem, with_pc in *.
  all: cbn [v_mem v_codes v_cur v_rest f_pc f_stack f_locals f_clo f_want fst snd values_of length jumps] in *.
  all: try discriminate; lia.
Qed.

(** What the other three instructions do. *)
Lemma within_frames s : within size s <-> vlen (frames_of s) <= 16 /\ Forall (fun f => vlen (f_stack f) <= 16) (frames_of s) /\ values_of (frames_of s) <= size.
Proof. reflexivity. Qed.

Lemma within_pushes s vs s' : within size s -> vpushes size s vs = Some s' -> within size s'.
Proof.
  intros (A & B & C) H. apply vpushes_some in H. destruct H as [-> H]. destruct s as [m c f rest]. unfold within, frames_of, with_stack in *.
  cbn [v_cur v_rest f_stack values_of] in *. split; [exact A|]. inversion B; subst. split.
  - constructor; [|assumption]. cbn [f_stack]. rewrite app_length, rev_length. destruct H as [->|[H _]]; cbn [length] in *; lia.
  - rewrite app_length, rev_length. destruct H as [->|[_ H]]; cbn [length] in *; lia.
Qed.

Lemma finish_within s s' : within size s -> finish size s = SNext s' -> within size s'.
Proof.
  intros (A & B & C) H. unfold finish in H. destruct (m_pend _); [discriminate|]. destruct s as [m c f rest]. cbn [v_rest v_cur v_mem v_codes] in *.
  destruct rest as [|caller rest]; [discriminate|]. apply lift_next in H. destruct H as (vs & R & H). destruct (vpushes _ _ vs) as [s1|] eqn:V; [|discriminate].
  injection H as <-. eapply within_pushes; [|exact V]. unfold within, frames_of in *. cbn [v_cur v_rest values_of length] in *. inversion B; subst.
  pose proof (values_pos (caller :: rest)). cbn [values_of] in *. split; [lia|split; [assumption|lia]].
Qed.

Lemma do_call_within s callee args want s' : within size s -> do_call E size s callee args want = SNext s' -> within size s'.
Proof.
  intros W H. unfold do_call in H. destruct callee; try discriminate. destruct (nth_error _ l) as [[| | |c clo|id argc| | | |]|]; try discriminate.
  - destruct (nth_error _ c) as [[entry argc]|]; [|discriminate]. destruct (MAX_FRAMES <=? _) eqn:D; [discriminate|]. cbn [alloc] in H.
    destruct (vpushes _ _ _) as [s1|] eqn:V; [|discriminate]. injection H as <-. eapply within_pushes; [|exact V].
    apply Z.leb_gt in D. unfold MAX_FRAMES in D. destruct W as (A & B & C). unfold within, frames_of in *. cbn [v_cur v_rest values_of length f_stack] in *.
    split; [lia|]. split; [constructor; [cbn; lia|exact B]|lia].
  - destruct (MAX_FRAMES <=? _); [discriminate|]. apply lift_next in H. destruct H as (r & _ & H). apply lift_next in H. destruct H as (vs & _ & H).
    destruct (vpushes _ _ vs) as [s1|] eqn:V; [|discriminate]. injection H as <-. eapply within_pushes; [|exact V]. exact W.
Qed.

Lemma within_fewer s st : within size s -> vlen st <= vlen (f_stack (v_cur s)) -> within size (with_stack s st).
Proof.
  intros (A & B & C) H. destruct s as [m c f rest]. unfold within, frames_of, with_stack in *. cbn [v_cur v_rest f_stack values_of length] in *.
  inversion B; subst. split; [exact A|]. split; [constructor; [cbn [f_stack]; lia|assumption]|lia].
Qed.

Lemma exec_within s op ops s' : within size s -> exec E size s op ops = SNext s' -> within size s'.
Proof.
  intros W H. destruct (moves op ops) as [[t g]|] eqn:Ef.
  - destruct (exec_effect _ _ _ _ _ _ Ef H) as (T & R & (gs & G & St) & Rest & _).
    destruct W as (A & B & C). destruct s as [m c f rest], s' as [m' c' f' rest']. unfold within, frames_of in *. cbn [v_cur v_rest] in *. subst rest'.
    cbn [values_of length] in *. assert (L : vlen (f_stack f') = g + vlen (skipn (Z.to_nat t) (f_stack f))) by (rewrite St, app_length; lia).
    rewrite skipn_length in L. inversion B; subst. split; [exact A|]. unfold room in R.
    assert (0 <= t). { clear - Ef. unfold moves in Ef. destruct op; try discriminate; repeat match goal with H : match ?x with _ => _ end = _ |- _ => destruct x; try discriminate end;
      injection Ef as <- _; try lia. apply Z.mod_pos_bound. lia. }
    split; [constructor; [lia|assumption]|lia].
  - unfold exec in H. cbv zeta in H. unfold moves in Ef. destruct op; try discriminate;
      repeat match goal with H : match ?x with _ => _ end = SNext _ |- _ => destruct x eqn:?; try discriminate end.
    + eapply do_call_within; [|exact H]. apply within_fewer; [exact W|]. rewrite Heql2. rewrite skipn_length. cbn [length]. lia.
    + eapply finish_within; eassumption.
    + eapply finish_within; [|exact H]. apply (within_pushes s [f_locals (v_cur s)]); [exact W|]. cbn [vpushes]. rewrite Heqo. reflexivity.
Qed.

Lemma within_pc s pc : within size s -> within size (with_pc s pc).
Proof.
  intros (A & B & C). destruct s as [m c f rest]. unfold within, frames_of, with_pc in *. cbn [v_cur v_rest f_stack values_of length] in *.
  inversion B; subst. split; [exact A|]. split; [constructor; assumption|exact C].
Qed.

Lemma step_within x s s' : within size s -> step E size x s = SNext s' -> within size s'.
Proof.
  unfold step. intros W H. destruct (exe_fetch x _) as [[[op ops]|]| |]; try discriminate.
  eapply exec_within; [|exact H]. apply within_pc. exact W.
Qed.

Lemma steps_within x n : forall s s', within size s -> steps E size x n s = SNext s' -> within size s'.
Proof.
  induction n as [|n IH]; intros s s' W H; cbn [steps] in H; [injection H as <-; exact W|].
  destruct (step E size x s) as [s1| | | | | |] eqn:St; try discriminate. exact (IH _ _ (step_within _ _ _ W St) H).
Qed.

Lemma start_within m : 0 <= size -> within size (vm_start m).
Proof. intros H. unfold within, frames_of. cbn. split; [lia|]. split; [repeat constructor; cbn; lia|lia]. Qed.

Lemma finish_done s r m : within size s -> finish size s = SDone r m -> vlen r <= 16.
Proof.
  intros (A & B & C) H. unfold finish in H. destruct (m_pend _); [discriminate|]. destruct (v_rest s).
  - injection H as <- _. rewrite rev_length. inversion B; assumption.
  - apply lift_done in H. destruct H as (vs & _ & H). destruct (vpushes _ _ vs); discriminate.
Qed.

Lemma step_done x s r m : within size s -> step E size x s = SDone r m -> vlen r <= 16.
Proof.
  unfold step. intros W H. destruct (exe_fetch x _) as [[[op ops]|]| |]; try discriminate.
  set (s1 := with_pc s _) in H. assert (W1 : within size s1) by (apply within_pc; exact W). clearbody s1. clear W.
  unfold exec in H. cbv zeta in H. destruct op; try discriminate;
    repeat match goal with
    | H : match ?x with _ => _ end = SDone _ _ |- _ => destruct x eqn:?; try discriminate
    | H : lift _ _ = SDone _ _ |- _ => apply lift_done in H; destruct H as (? & ? & H)
    | H : npush _ ?a ?b = SDone _ _ |- _ => unfold npush in H; destruct (vpush size a b); discriminate
    | H : do_call _ _ _ _ _ _ = SDone _ _ |- _ => unfold do_call in H; cbn [alloc] in H
    end; try discriminate.
  - eapply finish_done; eassumption.
  - eapply finish_done; [|exact H]. apply (within_pushes s1 [f_locals (v_cur s1)]); [exact W1|]. cbn [vpushes]. rewrite Heqo. reflexivity.
Qed.

(** Every limit that is reported has been reached. *)
Lemma finish_limit s : finish size s = SLimit ->
  exists caller rest vs, v_rest s = caller :: rest /\ results (f_want (v_cur s)) (rev (f_stack (v_cur s))) = OOk vs /\
  ~ room size (vlen vs) (vlen (f_stack caller)) (values_of (caller :: rest)).
Proof.
  unfold finish. destruct (m_pend _); [discriminate|]. destruct (v_rest s) as [|caller rest]; [discriminate|]. intros H.
  apply lift_limit in H. destruct H as (vs & R & H). destruct (vpushes _ _ vs) eqn:V; [discriminate|]. exists caller, rest, vs.
  split; [reflexivity|]. split; [exact R|]. exact (vpushes_none _ _ V).
Qed.

Lemma adjust_length p args : 0 <= p -> vlen (adjust p args) = p.
Proof. intros H. unfold adjust. rewrite app_length, firstn_length, repeat_length. lia. Qed.

Lemma results_length want rets vs : results want rets = OOk vs -> vlen vs = Z.max 0 want.
Proof.
  unfold results. destruct (MAX_RETS <? _); [discriminate|]. intros H. injection H as <-. rewrite app_length, firstn_length, repeat_length. lia.
Qed.

Lemma do_call_limit s callee args want : do_call E size s callee args want = SLimit ->
  vlen (frames_of s) >= 16 \/
  (exists l c clo entry argc, callee = VRef l /\ nth_error (m_objs (v_mem s)) l = Some (OFun c clo) /\ nth_error (v_codes s) c = Some (entry, argc) /\
     ~ room size (Z.max 0 argc) 0 (values_of (frames_of s))) \/
  (exists l id argc, callee = VRef l /\ nth_error (m_objs (v_mem s)) l = Some (ONative id argc) /\
     ~ room size (Z.max 0 want) (vlen (f_stack (v_cur s))) (values_of (frames_of s))).
Proof.
  unfold do_call. destruct callee; try discriminate. destruct (nth_error (m_objs _) l) as [[| | |c clo|id argc| | | |]|] eqn:N; try discriminate.
  - destruct (nth_error (v_codes s) c) as [[entry argc]|] eqn:Nc; [|discriminate]. destruct (MAX_FRAMES <=? _) eqn:D.
    + intros _. left. apply Z.leb_le in D. unfold MAX_FRAMES in D. unfold frames_of. lia.
    + cbn [alloc]. destruct (vpushes _ _ _) eqn:V; [discriminate|]. intros _. right. left. apply vpushes_none in V.
      unfold frames_of in *. cbn [v_cur v_rest f_stack values_of length] in *. exists l, c, clo, entry, argc.
      repeat split; auto. intros R. apply V. unfold room in *. 
      replace (vlen (adjust argc args)) with (Z.max 0 argc); [lia|]. destruct (Z.le_gt_cases 0 argc).
      * rewrite adjust_length by assumption. lia.
      * unfold adjust. replace (Z.to_nat argc) with O by lia. cbn. lia.
  - destruct (MAX_FRAMES <=? _) eqn:D.
    + intros _. left. apply Z.leb_le in D. unfold MAX_FRAMES in D. unfold frames_of. lia.
    + intros H. apply lift_limit in H. destruct H as (r & _ & H). apply lift_limit in H. destruct H as (vs & R & H).
      destruct (vpushes _ _ vs) eqn:V; [discriminate|]. apply vpushes_none in V. rewrite (results_length _ _ _ R) in V. right. right. eexists _, _, _. eauto.
Qed.

Lemma reached_run x n m s : 0 <= size -> steps E size x n (vm_start m) = SNext s -> within size s.
Proof. intros H. exact (steps_within x n _ _ (start_within m H)). Qed.

Lemma reached_results x n m r m' : 0 <= size -> steps E size x n (vm_start m) = SDone r m' -> vlen r <= 16.
Proof.
  intros H. generalize (start_within m H). generalize (vm_start m). induction n as [|n IH]; intros s W D; cbn [steps] in D; [discriminate|].
  destruct (step E size x s) as [s1| | | | | |] eqn:St; try discriminate.
  - exact (IH _ (step_within _ _ _ W St) D).
  - injection D as <- <-. exact (step_done _ _ _ _ W St).
Qed.

Lemma step_effect x s op ops t g s' : exe_fetch x (f_pc (v_cur s)) = ROk (Some (op, ops)) -> moves op ops = Some (t, g) -> step E size x s = SNext s' ->
  t <= vlen (f_stack (v_cur s)) /\
  (exists gs, vlen gs = g /\ f_stack (v_cur s') = gs ++ skipn (Z.to_nat t) (f_stack (v_cur s))) /\
  v_rest s' = v_rest s /\ f_locals (v_cur s') = f_locals (v_cur s) /\ f_clo (v_cur s') = f_clo (v_cur s) /\ f_want (v_cur s') = f_want (v_cur s) /\
  (jumps op = false -> f_pc (v_cur s') = f_pc (v_cur s) + 1).
Proof.
  unfold step. intros F Ef H. rewrite F in H. destruct (exec_effect _ _ _ _ _ _ Ef H) as (A & _ & B & C & (D & D' & D'') & G).
  destruct s as [m c f rest]. cbn [with_pc v_cur v_rest f_stack f_locals f_clo f_want f_pc] in *. repeat split; auto.
Qed.

Lemma step_limit x s op ops t g : exe_fetch x (f_pc (v_cur s)) = ROk (Some (op, ops)) -> moves op ops = Some (t, g) -> step E size x s = SLimit ->
  ~ room size g (vlen (f_stack (v_cur s)) - t) (values_of (frames_of s) - t).
Proof.
  unfold step. intros F Ef H. rewrite F in H. destruct (exec_limit _ _ _ _ _ Ef H) as [_ R]. destruct s as [m c f rest]. exact R.
Qed.

(** 16 frames with 16 values each always fit a stack of 256. *)
Lemma values_frames fs : Forall (fun f => vlen (f_stack f) <= 16) fs -> values_of fs <= 16 * vlen fs.
Proof. induction 1; cbn [values_of length]; lia. Qed.

Lemma step_limit_frame x s op ops t g : within size s -> 256 <= size ->
  exe_fetch x (f_pc (v_cur s)) = ROk (Some (op, ops)) -> moves op ops = Some (t, g) -> step E size x s = SLimit ->
  vlen (f_stack (v_cur s)) - t + g > 16.
Proof.
  intros (A & B & C) S F M H. apply (step_limit _ _ _ _ _ _ F M) in H. unfold room, frames_of in *. cbn [values_of length] in *. inversion B; subst.
  pose proof (values_frames _ H3). lia.
Qed.

Lemma step_call_limit x s argc want callee st : exe_fetch x (f_pc (v_cur s)) = ROk (Some (OP_CALL, [PInt argc; PInt want])) -> f_stack (v_cur s) = callee :: st ->
  in_int argc -> in_int want -> step E size x s = SLimit ->
  argc > 32 \/ vlen (frames_of s) >= 16 \/
  (exists l c clo entry n, callee = VRef l /\ nth_error (m_objs (v_mem s)) l = Some (OFun c clo) /\ nth_error (v_codes s) c = Some (entry, n) /\
     ~ room size (Z.max 0 n) 0 (values_of (frames_of s) - 1 - argc)) \/
  (exists l id n, callee = VRef l /\ nth_error (m_objs (v_mem s)) l = Some (ONative id n) /\
     ~ room size (Z.max 0 want) (vlen st - argc) (values_of (frames_of s) - 1 - argc)).
Proof.
  unfold step. intros F St I1 I2 H. rewrite F in H. unfold exec in H. cbv zeta in H. rewrite !wrap32_id in H by assumption.
  destruct s as [m c f rest]. cbn [with_pc v_cur v_rest v_mem v_codes f_stack] in *. rewrite St in H.
  destruct (32 <? argc) eqn:A; [left; apply Z.ltb_lt in A; lia|]. destruct (argc <? 0) eqn:A0; [discriminate|]. apply Z.ltb_ge in A0.
  destruct (vlen st <? argc) eqn:A1; [discriminate|]. apply Z.ltb_ge in A1. right.
  apply do_call_limit in H. unfold frames_of, with_stack, with_pc in *. cbn [v_cur v_rest v_mem v_codes f_stack length values_of] in *.
  rewrite skipn_length in H. rewrite St. cbn [length]. replace (Z.of_nat (S (length st)) + values_of rest - 1 - argc) with (Z.of_nat (length st - Z.to_nat argc) + values_of rest) by lia.
  destruct H as [H|[H|H]]; [left; lia|right; left; exact H|right; right].
  replace (vlen st - argc) with (Z.of_nat (length st - Z.to_nat argc)) by lia. exact H.
Qed.

Lemma step_return_limit x s n : exe_fetch x (f_pc (v_cur s)) = ROk (Some (OP_RETURN, [PInt n])) -> step E size x s = SLimit ->
  exists caller rest, v_rest s = caller :: rest /\ ~ room size (Z.max 0 (f_want (v_cur s))) (vlen (f_stack caller)) (values_of (v_rest s)).
Proof.
  unfold step. intros F H. rewrite F in H. cbn [exec] in H. apply finish_limit in H. destruct H as (caller & rest & vs & A & B & C).
  apply results_length in B. destruct s as [m c f r]. cbn [with_pc v_cur v_rest f_want] in *. subst r. exists caller, rest. split; [reflexivity|].
  rewrite <- B. exact C.
Qed.
End Limits.
