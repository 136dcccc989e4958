From Coq Require Import ZArith List Lia Bool.
From Verif Require Import Base StringModel UtilModel ListProofs UtilProofs FrameModel.
Import ListNotations.
Open Scope Z_scope.

(** Specification: each frame has its own private list of values (most recent first); native and failed frames have none.
    Nothing is shared between frames. *)
Definition aframes (A : Type) := list (option (list A)).

Definition a_total {A} (fs : aframes A) : Z :=
  fold_right (fun f n => (match f with Some l => Z.of_nat (length l) | None => 0 end) + n) 0 fs.

Definition a_step {A} (cap : Z) (fs : aframes A) (o : fop A) : aframes A * fout A :=
  match o, fs with
  | OPush x, Some l :: r =>
    if (Z.of_nat (length l) <? 16) && (a_total fs <? cap) then (Some (x :: l) :: r, Done) else (fs, Refused)
  | OPop n, Some l :: r =>
    if n <=? Z.of_nat (length l) then (Some (skipn (Z.to_nat n) l) :: r, Values (map Some (firstn (Z.to_nat n) l))) else (fs, Refused)
  | OTop n, Some l :: r => (fs, Values [nth_error l (Z.to_nat (- n))])
  | OTop n, _ => (fs, Values [None])
  | OEnter, _ => if Nat.ltb (length fs) 16 then (Some [] :: fs, Done) else (fs, Refused)
  | ONativeF, _ => if Nat.ltb (length fs) 16 then (None :: fs, Done) else (fs, Refused)
  | OFail, _ => if Nat.ltb (length fs) 16 then (None :: fs, Done) else (fs, Refused)
  | OLeave, _ :: r => (r, Done)
  | _, _ => (fs, Refused)
  end.

Fixpoint a_steps {A} (cap : Z) (fs : aframes A) (ops : list (fop A)) : aframes A * list (fout A) :=
  match ops with
  | [] => (fs, [])
  | o :: r => let (fs1, out) := a_step cap fs o in let (fs2, outs) := a_steps cap fs1 r in (fs2, out :: outs)
  end.

(** Arguments that C callers can pass: pop counts are unsigned, offsets from the top are not positive, and the top of the stack
    is only read while a frame is live. *)
Definition op_ok {A} (fs : aframes A) (o : fop A) : Prop :=
  match o with OPop n => 0 <= n | OTop n => n <= 0 /\ fs <> [] | _ => True end.
Fixpoint ops_ok {A} (cap : Z) (fs : aframes A) (ops : list (fop A)) : Prop :=
  match ops with [] => True | o :: r => op_ok fs o /\ ops_ok cap (fst (a_step cap fs o)) r end.

(** Representation. *)
Definition frame_rep {A} (f : frame) (g : option (list A)) : Prop :=
  match f, g with
  | FNormal used, Some l => used = Z.of_nat (length l) /\ (length l <= 16)%nat
  | FNative, None => True
  | FFailed, None => True
  | _, _ => False
  end.
Definition all_values {A} (fs : aframes A) : list A := concat (map (fun f => match f with Some l => l | None => [] end) fs).

Definition frt_rep {A} (r : frt A) (fs : aframes A) : Prop :=
  ft_depth r = Z.of_nat (length fs) /\ (length fs <= 16)%nat /\
  Forall2 frame_rep (ft_frames r) fs /\ srep (ft_stack r) (all_values fs).

Lemma a_total_len {A} (fs : aframes A) : a_total fs = Z.of_nat (length (all_values fs)).
Proof.
  unfold all_values. induction fs as [|[l|] fs IH]; [reflexivity| |]; cbn [a_total fold_right map concat].
  - rewrite app_length, Nat2Z.inj_add, <- IH. reflexivity.
  - cbn [app]. rewrite <- IH. reflexivity.
Qed.

Lemma read_tops_spec {A} (s : stack A) l : srep s l -> forall n i, (i + n <= length l)%nat ->
  read_tops s i n = ROk (map Some (firstn n (skipn i l))).
Proof.
  intros R. induction n; intros i H; cbn [read_tops]; [reflexivity|].
  rewrite (stack_top_spec s l) by (auto; lia). rewrite IHn by lia.
  replace (Z.to_nat (- - Z.of_nat i)) with i by lia.
  destruct (nth_error l i) as [x|] eqn:E; [|apply nth_error_None in E; lia].
  assert (Es : skipn i l = x :: skipn (S i) l).
  { clear - E. revert i E. induction l; intros [|i] E; try discriminate; cbn [nth_error] in E.
    - injection E as ->. reflexivity.
    - cbn [skipn]. apply IHl. assumption. }
  rewrite Es. cbn [firstn map]. reflexivity.
Qed.

Lemma step_rep {A} cap (r : frt A) fs o : frt_rep r fs -> k_size (ft_stack r) = cap -> op_ok fs o ->
  exists r', fstep r o = ROk (r', snd (a_step cap fs o)) /\ frt_rep r' (fst (a_step cap fs o)) /\ k_size (ft_stack r') = cap.
Proof.
  intros RR Hc Ho. pose proof RR as (H1 & H2 & H3 & H4).
  assert (Hap : forall f g, frame_rep f g ->
    exists r', match append_frame r f with ROk r' => ROk (r', Done) | RErr => ROk (r, Refused) | RUB => RUB end =
      ROk (r', snd (if Nat.ltb (length fs) 16 then (g :: fs, @Done A) else (fs, Refused))) /\
      (match g with Some l => l = [] | None => True end -> frt_rep r' (fst (if Nat.ltb (length fs) 16 then (g :: fs, @Done A) else (fs, Refused)))) /\
      k_size (ft_stack r') = cap).
  { intros f g Hfg. unfold append_frame, MAX_FRAMES. rewrite H1.
    destruct (Z.eqb_spec (Z.of_nat (length fs)) 16), (Nat.ltb_spec (length fs) 16); try lia; cbn [fst snd].
    - exists r. split; [reflexivity|]. split; [intros _; exact RR|assumption].
    - eexists. split; [reflexivity|]. split; [|assumption]. intros Hg.
      unfold frt_rep. cbn [ft_depth ft_frames ft_stack length]. split; [lia|]. split; [lia|].
      split; [constructor; assumption|]. unfold all_values. cbn [map concat]. destruct g; [subst|]; exact H4. }
  destruct o as [x|n|n| | | |]; cbn [op_ok] in Ho.
  - (* push *)
    cbn [fstep]. unfold rt_push. remember (ft_frames r) as frs0 eqn:Ef. destruct H3 as [|f g frs fs Hfg H3]; cbn [a_step].
    { exists r. cbn [fst snd]. auto. }
    destruct f as [used| |], g as [l|]; cbn [frame_rep] in Hfg; try contradiction.
    2,3: exists r; cbn [fst snd]; auto.
    destruct Hfg as [Eu Hl]. unfold MAX_FRAME_STACK. rewrite a_total_len.
    pose proof (stack_push_spec (ft_stack r) _ x H4) as P. unfold sp_push in P. rewrite Hc in P.
    destruct (Z.eqb_spec used 16), (Z.ltb_spec (Z.of_nat (length l)) 16); try lia; cbn [andb].
    + exists r. cbn [fst snd]. auto.
    + destruct (Z.ltb_spec (Z.of_nat (length (all_values (Some l :: fs)))) cap).
      * destruct P as (s' & E & R' & Ek). rewrite E. eexists. split; [reflexivity|]. cbn [fst ft_stack]. split; [|congruence].
        unfold frt_rep. cbn [ft_depth ft_frames ft_stack length] in *. split; [assumption|]. split; [assumption|].
        split; [|exact R']. constructor; [|assumption]. cbn [frame_rep length]. lia.
      * rewrite P. exists r. cbn [fst snd]. auto.
  - (* pop *)
    cbn [fstep]. unfold rt_pop. remember (ft_frames r) as frs0 eqn:Ef. destruct H3 as [|f g frs fs Hfg H3]; cbn [a_step].
    { exists r. cbn [fst snd]. auto. }
    destruct f as [used| |], g as [l|]; cbn [frame_rep] in Hfg; try contradiction.
    2,3: exists r; cbn [fst snd]; auto.
    destruct Hfg as [Eu Hl].
    destruct (Z.ltb_spec used n), (Z.leb_spec n (Z.of_nat (length l))); try lia.
    + exists r. cbn [fst snd]. auto.
    + assert (La : (Z.to_nat n <= length l)%nat) by lia.
      rewrite (read_tops_spec _ _ H4) by (unfold all_values; cbn [map concat]; rewrite app_length; lia).
      pose proof (stack_pop_spec (ft_stack r) _ n H4 Ho) as P. unfold sp_pop in P.
      destruct (Z.leb_spec n (Z.of_nat (length (all_values (Some l :: fs))))) as [L|L].
      2:{ unfold all_values in L. cbn [map concat] in L. rewrite app_length in L. lia. }
      destruct P as (s' & E & R' & Ek). rewrite E. eexists. cbn [fst snd skipn]. split.
      { do 3 f_equal. unfold all_values. cbn [map concat]. rewrite firstn_app.
        replace (Z.to_nat n - length l)%nat with 0%nat by lia. cbn [firstn]. rewrite app_nil_r. reflexivity. }
      cbn [ft_stack]. split; [|congruence]. unfold frt_rep. cbn [ft_depth ft_frames ft_stack length] in *. split; [assumption|]. split; [assumption|]. split.
      * constructor; [|assumption]. cbn [frame_rep]. rewrite skipn_length. lia.
      * unfold all_values in *. cbn [map concat] in *. rewrite skipn_app in R'.
        replace (Z.to_nat n - length l)%nat with 0%nat in R' by lia. exact R'.
  - (* top *)
    cbn [fstep]. unfold rt_top. destruct Ho as [Hn Hne]. remember (ft_frames r) as frs0 eqn:Ef. destruct H3 as [|f g frs fs Hfg H3]; [contradiction|]. cbn [a_step].
    destruct f as [used| |], g as [l|]; cbn [frame_rep] in Hfg; try contradiction.
    2,3: exists r; cbn [fst snd]; auto.
    destruct Hfg as [Eu Hl]. exists r. cbn [fst snd]. split; [|auto].
    destruct (Z.leb_spec (used + n) 0).
    + do 4 f_equal. symmetry. f_equal. apply nth_error_None. lia.
    + rewrite (stack_top_spec _ _ _ H4) by assumption. unfold all_values. cbn [map concat].
      rewrite nth_error_app1 by lia. reflexivity.
  - cbn [fstep a_step]. destruct (Hap (FNormal 0) (Some [])) as (r' & E & R & K); [split; [reflexivity|cbn; lia]|].
    exists r'. auto.
  - cbn [fstep a_step]. destruct (Hap FNative None I) as (r' & E & R & K). exists r'. auto.
  - cbn [fstep a_step]. destruct (Hap FFailed None I) as (r' & E & R & K). exists r'. auto.
  - (* leave *)
    cbn [fstep]. unfold rt_pop_frame. remember (ft_frames r) as frs0 eqn:Ef. destruct H3 as [|f g frs fs Hfg H3]; cbn [a_step].
    { exists r. cbn [fst snd]. auto. }
    cbn [length] in *.
    destruct f as [used| |], g as [l|]; cbn [frame_rep] in Hfg; try contradiction.
    2,3: eexists; cbn [fst snd]; (split; [reflexivity|]); (split; [|assumption]); unfold frt_rep; cbn [ft_depth ft_frames ft_stack];
      (split; [lia|]); (split; [lia|]); (split; [assumption|exact H4]).
    destruct Hfg as [Eu Hl]. pose proof (stack_pop_spec (ft_stack r) _ used H4 ltac:(lia)) as P. unfold sp_pop in P.
    destruct (Z.leb_spec used (Z.of_nat (length (all_values (Some l :: fs))))) as [L|L].
    2:{ unfold all_values in L. cbn [map concat] in L. rewrite app_length in L. lia. }
    destruct P as (s' & E & R' & Ek). rewrite E. eexists. cbn [fst snd]. split; [reflexivity|].
    cbn [ft_stack]. split; [|congruence]. unfold frt_rep. cbn [ft_depth ft_frames ft_stack]. split; [lia|]. split; [lia|].
    split; [assumption|]. unfold all_values in *. cbn [map concat] in R'. rewrite Eu, Nat2Z.id, skipn_app, skipn_all, Nat.sub_diag in R'. exact R'.
Qed.

Lemma steps_rep {A} cap ops : forall (r : frt A) fs, frt_rep r fs -> k_size (ft_stack r) = cap -> ops_ok cap fs ops ->
  exists r', fsteps r ops = ROk (r', snd (a_steps cap fs ops)) /\ frt_rep r' (fst (a_steps cap fs ops)) /\ k_size (ft_stack r') = cap.
Proof.
  induction ops as [|o ops IH]; intros r fs R Hc Ho; [exists r; auto|]. destruct Ho as [O1 O2]. cbn [fsteps a_steps].
  destruct (step_rep cap r fs o R Hc O1) as (r1 & E1 & R1 & K1). rewrite E1.
  destruct (a_step cap fs o) as [fs1 out]. cbn [fst snd] in *.
  destruct (IH r1 fs1 R1 K1 O2) as (r2 & E2 & R2 & K2). rewrite E2. destruct (a_steps cap fs1 ops). exists r2. auto.
Qed.

Lemma F2_length {A B} (R : A -> B -> Prop) l l' : Forall2 R l l' -> length l = length l'.
Proof. induction 1; cbn; congruence. Qed.

Lemma frt_new_rep {A} size : frt_rep (frt_new (A := A) size) [].
Proof. split; [reflexivity|]. split; [cbn; lia|]. split; [constructor|apply srep_new]. Qed.

Lemma frame_history {A} size (ops : list (fop A)) :
  let cap := if size <? 0 then 1024 else size in
  ops_ok cap [] ops ->
  exists r, fsteps (frt_new size) ops = ROk (r, snd (a_steps cap [] ops)) /\
    let fs := fst (a_steps cap [] ops) in
    ft_depth r = Z.of_nat (length fs) /\ length (ft_frames r) = length fs /\ k_used (ft_stack r) = a_total fs.
Proof.
  intros cap Ho. destruct (steps_rep cap ops (frt_new size) [] (frt_new_rep size) eq_refl Ho) as (r & E & (R1 & R2 & R3 & R4) & _).
  exists r. split; [exact E|]. cbv zeta. split; [exact R1|]. split; [eapply F2_length; exact R3|].
  rewrite a_total_len. apply R4.
Qed.

(** Limits, on the specification. *)
Definition limited {A} (fs : aframes A) : Prop :=
  (length fs <= 16)%nat /\ Forall (fun f => match f with Some l => (length l <= 16)%nat | None => True end) fs.

Lemma limited_step {A} cap (fs : aframes A) o : op_ok fs o -> limited fs -> limited (fst (a_step cap fs o)).
Proof.
  intros Ho [H1 H2]. unfold a_step. destruct o as [x|n|n| | | |]; cbn [op_ok] in Ho.
  - destruct fs as [|[l|] r]; try (split; assumption).
    destruct (Z.ltb_spec (Z.of_nat (length l)) 16), (a_total (Some l :: r) <? cap); cbn [andb fst]; try (split; assumption).
    inversion H2; subst. split; [assumption|]. constructor; [cbn; lia|assumption].
  - destruct fs as [|[l|] r]; try (split; assumption).
    destruct (n <=? Z.of_nat (length l)); cbn [fst]; try (split; assumption).
    inversion H2; subst. split; [assumption|]. constructor; [rewrite skipn_length; lia|assumption].
  - destruct fs as [|[l|] r]; split; assumption.
  - destruct (Nat.ltb_spec (length fs) 16); cbn [fst]; split; try assumption. constructor; [cbn; lia|assumption].
  - destruct (Nat.ltb_spec (length fs) 16); cbn [fst]; split; try assumption. constructor; [exact I|assumption].
  - destruct (Nat.ltb_spec (length fs) 16); cbn [fst]; split; try assumption. constructor; [exact I|assumption].
  - destruct fs as [|f r]; [split; assumption|]. cbn [fst]. inversion H2; subst. cbn [length] in H1. split; [lia|assumption].
Qed.

Lemma limited_steps {A} cap ops : forall fs : aframes A, ops_ok cap fs ops -> limited fs -> limited (fst (a_steps cap fs ops)).
Proof.
  induction ops as [|o ops IH]; intros fs Ho H; [assumption|]. destruct Ho as [O1 O2]. cbn [a_steps].
  pose proof (limited_step cap fs o O1 H) as H1. destruct (a_step cap fs o) as [fs1 out]. cbn [fst] in *.
  specialize (IH fs1 O2 H1). destruct (a_steps cap fs1 ops). exact IH.
Qed.

Lemma limited_total {A} (fs : aframes A) : limited fs -> a_total fs <= 16 * Z.of_nat (length fs).
Proof.
  intros [_ H]. induction H as [|f r Hf H IH]; [cbn; lia|]. cbn [a_total fold_right length]. fold (a_total r).
  destruct f; lia.
Qed.

(** Model side: the running frame and the limits. *)
Lemma frame_limits {A} size (ops : list (fop A)) r outs :
  let cap := if size <? 0 then 1024 else size in
  ops_ok cap [] ops -> fsteps (frt_new size) ops = ROk (r, outs) ->
  0 <= ft_depth r <= 16 /\ Z.of_nat (length (ft_frames r)) = ft_depth r /\
  Forall (fun f => match f with FNormal used => 0 <= used <= 16 | _ => True end) (ft_frames r).
Proof.
  intros cap Ho Hr. destruct (steps_rep cap ops (frt_new size) [] (frt_new_rep size) eq_refl Ho) as (r' & E & (R1 & R2 & R3 & R4) & _).
  rewrite Hr in E. injection E as <- ->. split; [lia|]. split.
  - rewrite (F2_length _ _ _ R3). auto.
  - clear - R3. induction R3 as [|f g ? ? Hfg ? IH]; constructor; [|assumption].
    destruct f, g; cbn in Hfg; auto; lia.
Qed.

(** With a stack of at least 256 entries (the default is 1024) a push is refused only by the per-frame limit. *)
Lemma push_refused {A} size (ops : list (fop A)) x l fs :
  let cap := if size <? 0 then 1024 else size in
  256 <= cap -> ops_ok cap [] ops -> fst (a_steps cap [] ops) = Some l :: fs -> (length l < 16)%nat ->
  snd (a_step cap (Some l :: fs) (OPush x)) = Done.
Proof.
  intros cap Hc Ho E Hl. assert (L : limited (fst (a_steps cap [] ops))).
  { apply limited_steps; [assumption|]. split; [cbn; lia|constructor]. }
  rewrite E in L. cbn [a_step]. destruct (Z.ltb_spec (Z.of_nat (length l)) 16); [|lia].
  assert (T : a_total (Some l :: fs) < cap).
  { destruct L as [L1 L2]. inversion L2 as [|? ? M1 M2]; subst. cbn [length] in L1.
    assert (Q : limited fs) by (split; [lia|assumption]). apply limited_total in Q.
    cbn [a_total fold_right]. fold (a_total fs). lia. }
  destruct (Z.ltb_spec (a_total (Some l :: fs)) cap); [reflexivity|lia].
Qed.
