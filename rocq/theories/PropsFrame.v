(** Properties C17, C18: call frames. *)
From Coq Require Import ZArith List Lia Bool.
From Verif Require Import Base StringModel UtilModel FrameModel FrameProofs.
Import ListNotations.
Open Scope Z_scope.

(** ** C17 *)
(** The runtime, with one shared stack for all frames, behaves for every history as if each frame had its own private list of
    values ([a_step]): same answers to pops, peeks, pushes, calls and returns; and the shared stack always holds exactly the
    values of the live frames. *)
Theorem C17_frames_are_isolated : forall A size (ops : list (fop A)),
  let cap := if size <? 0 then 1024 else size in
  ops_ok cap [] ops ->
  exists r, fsteps (frt_new size) ops = ROk (r, snd (a_steps cap [] ops)) /\
    let fs := fst (a_steps cap [] ops) in
    ft_depth r = Z.of_nat (length fs) /\ length (ft_frames r) = length fs /\ k_used (ft_stack r) = a_total fs.
Proof. exact @frame_history. Qed.

Example C17_example :
  let ops := [OEnter; OPush 1; OPush 2; OEnter; OPush 3; OTop (-1); OPop 2; OPop 1; OPush 4; ONativeF; OPush 5; OLeave; OLeave; OPop 2] in
  ops_ok 1024 [] ops /\
  a_steps 1024 [] ops = ([Some []],
    [Done; Done; Done; Done; Done; Values [None]; Refused; Values [Some 3]; Done; Done; Refused; Done; Done; Values [Some 2; Some 1]]).
Proof. split; [cbn; repeat split; (lia || discriminate)|reflexivity]. Qed.

(** Without a frame there is no answer to a peek: a NULL pointer is followed. *)
Theorem C17_peek_refuted : forall A size n, fstep (frt_new (A := A) size) (OTop n) = RUB.
Proof. reflexivity. Qed.

(** ** C18 *)
Theorem C18_limits_hold : forall A size (ops : list (fop A)) r outs,
  let cap := if size <? 0 then 1024 else size in
  ops_ok cap [] ops -> fsteps (frt_new size) ops = ROk (r, outs) ->
  0 <= ft_depth r <= 16 /\ Z.of_nat (length (ft_frames r)) = ft_depth r /\
  Forall (fun f => match f with FNormal used => 0 <= used <= 16 | _ => True end) (ft_frames r).
Proof. exact @frame_limits. Qed.

(** A refused request leaves frames and stack as they were. *)
Theorem C18_refusal_changes_nothing : forall A (r : frt A) o r', fstep r o = ROk (r', Refused) -> r' = r.
Proof.
  intros A r o r'. unfold fstep. destruct o.
  - destruct (rt_push r x); congruence.
  - destruct (rt_pop r n) as [[? ?]| |]; congruence.
  - destruct (rt_top r n); congruence.
  - destruct (rt_push_frame r); congruence.
  - destruct (rt_push_native r); congruence.
  - destruct (rt_push_failed r); congruence.
  - destruct (rt_pop_frame r); congruence.
Qed.

(** The limits are the only reasons for refusal: entering a frame is refused only with 16 live frames, and, with a stack of at
    least 256 entries (the default is 1024), pushing in a normal frame is refused only when it owns 16 values. *)
Theorem C18_enter_refused_only_at_limit : forall A (r : frt A) r', fstep r OEnter = ROk (r', Refused) -> ft_depth r = 16.
Proof.
  intros A r r'. unfold fstep, rt_push_frame, append_frame, MAX_FRAMES. destruct (Z.eqb_spec (ft_depth r) 16); [auto|discriminate].
Qed.

Theorem C18_push_refused_only_at_limit : forall A size (ops : list (fop A)) r outs r' x used fs,
  let cap := if size <? 0 then 1024 else size in
  256 <= cap -> ops_ok cap [] ops -> fsteps (frt_new size) ops = ROk (r, outs) ->
  ft_frames r = FNormal used :: fs -> fstep r (OPush x) = ROk (r', Refused) -> used = 16.
Proof.
  intros A size ops r outs r' x used fs cap Hc Ho Hr Hf Hp.
  destruct (steps_rep cap ops (frt_new size) [] (frt_new_rep size) eq_refl Ho) as (r1 & E & R & K). rewrite Hr in E.
  injection E as <- ->. destruct (fst (a_steps cap [] ops)) as [|g gs] eqn:Ea.
  { destruct R as (_ & _ & F & _). rewrite Hf in F. inversion F. }
  pose proof R as (R1 & R2 & R3 & R4). rewrite Hf in R3. inversion R3 as [|? ? ? ? Hfg]. subst.
  destruct g as [l|]; [|contradiction]. destruct Hfg as [-> Hl].
  destruct (Nat.eq_dec (length l) 16) as [->|N]; [reflexivity|exfalso].
  pose proof (push_refused size ops x l gs Hc Ho Ea ltac:(lia)) as P.
  destruct (step_rep cap r (Some l :: gs) (OPush x)) as (r2 & E2 & _); [exact R|exact K|exact I|].
  rewrite Hp in E2. fold cap in P. rewrite P in E2. discriminate.
Qed.

(** Recursion without end is stopped at the 17th frame; the 17th value of a frame is refused. *)
Example C18_example :
  let outs := snd (a_steps 1024 [] (repeat (@OEnter Z) 18)) in outs = repeat Done 16 ++ [Refused; Refused].
Proof. reflexivity. Qed.
Example C18_example_values :
  snd (a_steps 1024 [] (OEnter :: repeat (OPush 1) 18)) = repeat Done 17 ++ [Refused; Refused].
Proof. reflexivity. Qed.

Print Assumptions C17_frames_are_isolated.
Print Assumptions C18_limits_hold.
Print Assumptions C18_refusal_changes_nothing.
Print Assumptions C18_enter_refused_only_at_limit.
Print Assumptions C18_push_refused_only_at_limit.
Print Assumptions C17_peek_refuted.
