(** Programs that import files: proofs. *)
From Coq Require Import ZArith String List Lia Bool.
From Verif Require Import Base StringModel ValueModel MapModel ListModel ExeModel ArithModel ObjModel FrameModel SysModel SourceModel
  LexModel ParseModel CodegenModel CompileModel BuiltinModel SysProofs VmModel LimitSpec LimitProofs ImportModel.
Import ListNotations.
Open Scope Z_scope.

(** * The machine on top of other frames *)
Definition under (s : vstate) (bl : list vframe) : vstate := mkvs (v_mem s) (v_codes s) (v_cur s) (v_rest s ++ bl).
Definition on (bl : list vframe) (r : sres) : sres := match r with SNext t => SNext (under t bl) | r => r end.

Section Under.
Variables (E : env) (size : Z) (bl : list vframe).
Hypothesis Hsize : 256 <= size.

Lemma values_app a b : values_of (a ++ b) = values_of a + values_of b.
Proof. induction a as [|f a IH]; cbn [values_of app]; lia. Qed.

Lemma vpush_at m c f rest v : values_of (rest ++ bl) <= 240 ->
  vpush size (mkvs m c f (rest ++ bl)) v = option_map (fun t => under t bl) (vpush size (mkvs m c f rest) v).
Proof.
  intros H. unfold vpush, MAX_FRAME_STACK. rewrite !values_used. unfold frames_of. cbn [v_cur v_rest values_of]. rewrite values_app in *.
  pose proof (values_pos rest). pose proof (values_pos bl).
  destruct (16 <=? vlen (f_stack f)) eqn:B; [reflexivity|]. apply Z.leb_gt in B.
  rewrite !(proj2 (Z.leb_gt _ _)) by lia. reflexivity.
Qed.
Lemma npush_at m c f rest v : values_of (rest ++ bl) <= 240 -> npush size (mkvs m c f (rest ++ bl)) v = on bl (npush size (mkvs m c f rest) v).
Proof. intros H. unfold npush. rewrite vpush_at by exact H. destruct (vpush _ _ _); reflexivity. Qed.
Lemma vpushes_at vs : forall m c f rest, values_of (rest ++ bl) <= 240 ->
  vpushes size (mkvs m c f (rest ++ bl)) vs = option_map (fun t => under t bl) (vpushes size (mkvs m c f rest) vs).
Proof.
  induction vs as [|v r IH]; intros m c f rest H; [reflexivity|]. cbn [vpushes]. rewrite vpush_at by exact H.
  destruct (vpush size (mkvs m c f rest) v) as [t|] eqn:V; [|reflexivity]. cbn [option_map]. apply vpush_some in V. destruct V as [-> _].
  unfold under, with_stack. cbn [v_mem v_codes v_cur v_rest]. apply IH, H.
Qed.

Lemma lift_on {A} (x : out A) k k' : (forall a, k' a = on bl (k a)) -> lift x k' = on bl (lift x k).
Proof. intros H. destruct x; cbn [lift]; auto. Qed.

Definition settled (s : vstate) : Prop :=
  Forall (fun f => vlen (f_stack f) <= 16) (v_cur s :: v_rest s ++ bl) /\ vlen (v_cur s :: v_rest s ++ bl) <= 15.

Lemma frames_240 (fs : list vframe) : Forall (fun f => vlen (f_stack f) <= 16) fs -> vlen fs <= 15 -> values_of fs <= 240.
Proof. intros H L. pose proof (values_frames fs H). lia. Qed.

Lemma finish_at m c f g rest : values_of (rest ++ bl) <= 240 -> finish size (mkvs m c f (g :: rest ++ bl)) = on bl (finish size (mkvs m c f (g :: rest))).
Proof.
  intros H. unfold finish. cbn [v_mem v_codes v_cur v_rest]. destruct (m_pend m); [reflexivity|]. apply lift_on. intros vs. rewrite vpushes_at by exact H.
  destruct (vpushes _ _ _); reflexivity.
Qed.

Lemma do_call_at m c f rest callee args want : values_of (f :: rest ++ bl) <= 240 -> vlen (f :: rest ++ bl) <= 15 ->
  do_call E size (mkvs m c f (rest ++ bl)) callee args want = on bl (do_call E size (mkvs m c f rest) callee args want).
Proof.
  intros H L. unfold do_call. cbn [v_mem v_codes v_cur v_rest]. destruct callee; try reflexivity.
  assert (L1 : (MAX_FRAMES <=? vlen (f :: rest ++ bl)) = false) by (unfold MAX_FRAMES; apply Z.leb_gt; lia).
  assert (L2 : (MAX_FRAMES <=? vlen (f :: rest)) = false) by (unfold MAX_FRAMES; apply Z.leb_gt; cbn [length] in *; rewrite app_length in L; lia).
  destruct (nth_error (m_objs m) l) as [[| | |n clo|id argc| | | |]|]; try reflexivity.
  - destruct (nth_error c n) as [[entry argc]|]; [|reflexivity]. rewrite L1, L2. cbn [alloc]. rewrite app_comm_cons, vpushes_at by exact H.
    destruct (vpushes _ _ _); reflexivity.
  - rewrite L1, L2. apply lift_on. intros r. apply lift_on. intros vs. unfold with_mem. cbn [v_codes v_cur v_rest].
    rewrite vpushes_at by (cbn [values_of] in H; lia). destruct (vpushes _ _ _); reflexivity.
Qed.

Definition last (op : opcode) : bool := match op with OP_EXIT | OP_RETURN => true | _ => false end.

Lemma settled_240 s : settled s -> values_of (v_cur s :: v_rest s ++ bl) <= 240 /\ values_of (v_rest s ++ bl) <= 240.
Proof.
  intros [F L]. split; [apply frames_240; assumption|]. apply frames_240; [inversion F; assumption|cbn [length] in L; lia].
Qed.

Lemma exec_under s op ops : settled s -> (last op = true -> v_rest s <> []) -> exec E size (under s bl) op ops = on bl (exec E size s op ops).
Proof.
  intros S B. pose proof (settled_240 s S) as [V0 V]. destruct S as [F L]. destruct s as [m c [pc st lo cl wa] rest]. unfold under in *. cbn [v_mem v_codes v_cur v_rest] in *.
  destruct (last op) eqn:Q.
  { specialize (B eq_refl). destruct rest as [|g rest]; [exfalso; apply B; reflexivity|]. clear B.
    assert (V1 : values_of (rest ++ bl) <= 240) by (cbn [values_of app] in V; lia).
    destruct op; try discriminate Q; unfold exec; cbv zeta; cbn [v_mem v_codes v_cur v_rest f_pc f_stack f_locals f_clo f_want].
    - destruct ops as [|[] [|]]; try reflexivity. cbn [app]. apply finish_at, V1.
    - destruct ops as [|]; try reflexivity. rewrite vpush_at by exact V. destruct (vpush size _ lo) as [t|] eqn:P; [|reflexivity]. cbn [option_map].
      apply vpush_some in P. destruct P as [-> _]. unfold under, with_stack. cbn [v_mem v_codes v_cur v_rest f_pc f_stack f_locals f_clo f_want app]. apply finish_at, V1. }
  clear B. unfold exec. cbv zeta. cbn [v_mem v_codes v_cur v_rest f_pc f_stack f_locals f_clo f_want].
  destruct op; try discriminate Q; try reflexivity.
  all: repeat (match goal with |- context [match ?x with _ => _ end] => is_var x; destruct x end; try reflexivity).
  all: unfold with_mem, with_stack, with_pc; cbn [v_mem v_codes v_cur v_rest f_pc f_stack f_locals f_clo f_want alloc].
  all: try (apply lift_on; intros ?).
  all: try (rewrite npush_at by exact V; reflexivity).
  all: try reflexivity.
  all: repeat (match goal with |- context [match ?x with _ => _ end] => first [is_var x; destruct x | destruct x eqn:?] end; try reflexivity).
  all: try (rewrite npush_at by exact V; reflexivity).
  all: try (apply do_call_at; [|exact L]; cbn [values_of f_stack length] in *; rewrite skipn_length; lia).
Qed.

Lemma step_under x s : settled s -> (forall op ops, exe_fetch x (f_pc (v_cur s)) = ROk (Some (op, ops)) -> last op = true -> v_rest s <> []) ->
  step E size x (under s bl) = on bl (step E size x s).
Proof.
  intros S B. unfold step. change (f_pc (v_cur (under s bl))) with (f_pc (v_cur s)). destruct (exe_fetch x _) as [[[op ops]|]| |] eqn:F; try reflexivity.
  change (with_pc (under s bl) (f_pc (v_cur s) + 1)) with (under (with_pc s (f_pc (v_cur s) + 1)) bl). apply exec_under; [|exact (B op ops eq_refl)].
  destruct s as [m c [pc st lo cl wa] rest]. destruct S as [F1 L1]. split; [|exact L1]. cbn [v_cur v_rest with_pc] in *. inversion F1; subst. constructor; assumption.
Qed.

(** The lowest frame is done: its values go to the frame below. *)
Lemma step_bottom x m c f g rest op ops : values_of (f :: g :: rest) <= 240 -> exe_fetch x (f_pc f) = ROk (Some (op, ops)) -> last op = true ->
  step E size x (mkvs m c f (g :: rest)) =
  match step E size x (mkvs m c f []) with
  | SDone rets m' => lift (results (f_want f) rets) (fun vs => match vpushes size (mkvs m' c g rest) vs with Some t => SNext t | None => SLimit end)
  | r => r
  end.
Proof.
  intros V F Q. assert (V0 : values_of (g :: rest) <= 240) by (cbn [values_of] in *; lia). destruct f as [pc st lo cl wa]. unfold step. cbn [v_cur f_pc] in *. rewrite F. unfold with_pc, exec. cbv zeta. cbn [v_mem v_codes v_cur v_rest f_pc f_stack f_locals f_clo f_want].
  destruct op; try discriminate Q.
  - destruct ops as [|[] [|]]; try reflexivity. unfold finish. cbn [v_mem v_codes v_cur v_rest f_pc f_stack f_locals f_clo f_want]. destruct (m_pend m); reflexivity.
  - destruct ops; try reflexivity. clear F.
    assert (P : forall v h, vlen (f_stack h) = vlen st -> vpush size (mkvs m c h (g :: rest)) v = option_map (fun t => mkvs (v_mem t) (v_codes t) (v_cur t) (g :: rest)) (vpush size (mkvs m c h []) v)).
    { intros v h Hh. unfold vpush, MAX_FRAME_STACK. rewrite !values_used. unfold frames_of. cbn [v_cur v_rest values_of f_stack] in *. pose proof (values_pos rest).
      destruct (16 <=? vlen (f_stack h)) eqn:B; [reflexivity|]. apply Z.leb_gt in B. rewrite !(proj2 (Z.leb_gt _ _)) by lia. reflexivity. }
    rewrite P by reflexivity. destruct (vpush size (mkvs m c _ []) lo) as [t|] eqn:T; [|reflexivity]. cbn [option_map]. apply vpush_some in T. destruct T as [-> _].
    unfold with_stack, finish. cbn [v_mem v_codes v_cur v_rest f_pc f_stack f_locals f_clo f_want]. destruct (m_pend m); reflexivity.
Qed.
End Under.

(** What a step does to the frames below and to the functions. *)
Section Rest.
Variables (E : env) (size : Z).

Lemma pushes_same s vs t : vpushes size s vs = Some t -> v_rest t = v_rest s /\ v_codes t = v_codes s.
Proof. intros H. apply vpushes_some in H. destruct H as [-> _]. split; reflexivity. Qed.

Lemma do_call_rest s callee args want t : do_call E size s callee args want = SNext t ->
  v_codes t = v_codes s /\
  match callee with
  | VRef l => match nth_error (m_objs (v_mem s)) l with
              | Some (OFun c _) => v_rest t = v_cur s :: v_rest s
              | Some (ONative _ _) => v_rest t = v_rest s
              | _ => False end
  | _ => False end.
Proof.
  unfold do_call. intros H. destruct callee; try discriminate. destruct (nth_error _ l) as [[| | |c clo|id argc| | | |]|]; try discriminate.
  - destruct (nth_error _ c) as [[entry argc]|]; [|discriminate]. destruct (MAX_FRAMES <=? _); [discriminate|]. cbn [alloc] in H.
    destruct (vpushes _ _ _) as [s1|] eqn:V; [|discriminate]. injection H as <-. apply pushes_same in V. cbn [v_rest v_codes] in V. tauto.
  - destruct (MAX_FRAMES <=? _); [discriminate|]. apply lift_next in H. destruct H as (r & _ & H). apply lift_next in H. destruct H as (vs & _ & H).
    destruct (vpushes _ _ vs) as [s1|] eqn:V; [|discriminate]. injection H as <-. apply pushes_same in V. cbn [v_rest v_codes with_mem] in V. tauto.
Qed.

Lemma step_done_rest x s rets m : step E size x s = SDone rets m -> v_rest s = [].
Proof.
  unfold step. intros H. destruct (exe_fetch _ _) as [[[op ops]|]| |]; try discriminate. destruct s as [mm c [pc st lo cl wa] rest]. unfold with_pc, exec in H. cbv zeta in H.
  cbn [v_mem v_codes v_cur v_rest f_pc f_stack f_locals f_clo f_want] in *.
  assert (G : forall t, v_rest t = rest -> finish size t = SDone rets m -> rest = []).
  { intros t R G. unfold finish in G. destruct (m_pend _); [discriminate|]. rewrite R in G. destruct rest; [reflexivity|]. apply lift_done in G. destruct G as (? & _ & G). destruct (vpushes _ _ _); discriminate G. }
  destruct op; repeat match goal with
  | H : (match ?x with _ => _ end) = SDone _ _ |- _ => destruct x eqn:?; try discriminate
  | H : lift _ _ = SDone _ _ |- _ => apply lift_done in H; destruct H as (? & ? & H)
  | H : npush _ _ _ = SDone _ _ |- _ => unfold npush in H
  | H : do_call _ _ _ _ _ _ = SDone _ _ |- _ => unfold do_call in H
  | H : vpush _ _ _ = Some _ |- _ => apply vpush_some in H; destruct H as [-> _]
  end; try discriminate H; try (eapply G; [|exact H]; reflexivity).
Qed.

Lemma finish_rest s t : finish size s = SNext t -> v_codes t = v_codes s /\ exists f, v_rest s = f :: v_rest t.
Proof.
  unfold finish. destruct (m_pend _); [discriminate|]. destruct (v_rest s) as [|g r]; [discriminate|]. intros H. apply lift_next in H. destruct H as (vs & _ & H).
  destruct (vpushes _ _ vs) as [s1|] eqn:V; [|discriminate]. injection H as <-. apply pushes_same in V. cbn [v_rest v_codes] in V. destruct V as [-> ->]. eauto.
Qed.

Lemma step_rest x s op ops t : exe_fetch x (f_pc (v_cur s)) = ROk (Some (op, ops)) -> step E size x s = SNext t ->
  match op with
  | OP_CALL => v_codes t = v_codes s /\ match called s with CFun c => exists f, v_rest t = f :: v_rest s | _ => v_rest t = v_rest s end
  | OP_EXIT | OP_RETURN => v_codes t = v_codes s /\ exists f, v_rest s = f :: v_rest t
  | OP_PUSHFUN => (exists k, v_codes t = v_codes s ++ [k]) /\ v_rest t = v_rest s
  | _ => v_codes t = v_codes s /\ v_rest t = v_rest s
  end.
Proof.
  intros F H. unfold step in H. rewrite F in H. destruct s as [m c [pc st lo cl wa] rest]. unfold with_pc, exec in H. cbv zeta in H. unfold called.
  cbn [v_mem v_codes v_cur v_rest f_pc f_stack f_locals f_clo f_want] in *.
  destruct op; repeat match goal with
  | H : (match ?x with _ => _ end) = SNext _ |- _ => destruct x eqn:?; try discriminate
  | H : lift _ _ = SNext _ |- _ => apply lift_next in H; destruct H as (? & ? & H)
  | H : npush _ _ _ = SNext _ |- _ => apply npush_next in H; destruct H as [-> H]
  | H : SNext _ = SNext _ |- _ => injection H as <-
  | H : finish _ _ = SNext _ |- _ => apply finish_rest in H; cbn [v_codes v_rest] in H
  end; try (split; [reflexivity|reflexivity]); try (split; [eexists; reflexivity|reflexivity]).
  all: try (match goal with |- context [Bool.eqb ?a ?b] => destruct (Bool.eqb a b) end; split; reflexivity).
  all: try exact H.
  - apply do_call_rest in H. destruct H as [A B]. split; [exact A|]. cbn [v_mem with_stack v_cur v_rest] in B. destruct v; try contradiction.
    match type of B with match ?x with _ => _ end => destruct x as [[| | |n clo|id n| | | |]|] end; try contradiction; [eauto|]. destruct (id =? N_import)%nat; exact B.
  - match goal with V : vpush _ _ _ = Some _ |- _ => apply vpush_some in V; destruct V as [-> _] end. cbn [with_stack v_codes v_rest] in H. exact H.
Qed.
End Rest.

(** * Programs on top of other frames *)
(** The frames below: what the machine does with them when the current frame ends. *)
Inductive chain : bool -> list vframe -> list below -> Prop :=
| ch_bottom : chain true [] []
| ch_import u imp w f r b : chain imp r b -> chain true (native_frame w :: f :: r) (BNative :: BRun u imp :: b)
| ch_call u imp f r b : chain imp r b -> chain false (f :: r) (BRun u imp :: b).

Section Imports.
Variables (E : env) (size : Z) (cwd : option (list Z)) (fs : list Z -> option (list Z)) (big : Z).
Hypothesis Hsize : 256 <= size.
Notation istep := (istep E size cwd fs big).
Notation isteps := (isteps E size cwd fs big).
Notation do_import := (do_import cwd fs big).
Notation env_of := (env_of E cwd).

Definition ichain (i : istate) : Prop := chain (i_imp i) (v_rest (i_vs i)) (i_rest i).

Lemma do_import_next i s args want i' : do_import i s args want = INext i' -> exists loc m u, 
  vlen (v_cur s :: v_rest s) <= 14 /\
  i' = mkis (mkvs m (v_codes s) (mkfr 0 [] loc None 0) (native_frame want :: v_cur s :: v_rest s)) (i_codes i) u true (BNative :: BRun (i_prog i) (i_imp i) :: i_rest i).
Proof.
  unfold ImportModel.do_import. intros H. repeat match goal with H : (match ?x with _ => _ end) = INext _ |- _ => destruct x eqn:?; try discriminate end.
  injection H as <-. repeat match goal with H : (_ <=? _) = false |- _ => apply Z.leb_gt in H end. unfold MAX_FRAMES in *. do 3 eexists. split; [|reflexivity]. lia.
Qed.

(** The instructions by what they do to the frames. *)
Variant sort_of := KCall (c : nat) | KImport (argc expected want : Z) | KLast | KFun | KPlain.
Definition sort_at (i : istate) : sort_of :=
  match exe_fetch (p_exe (i_prog i)) (f_pc (v_cur (i_vs i))) with
  | ROk (Some (OP_CALL, [PInt argc; PInt want])) => match called (i_vs i) with CFun c => KCall c | CImport e => KImport argc e want | COther => KPlain end
  | ROk (Some ((OP_EXIT | OP_RETURN), _)) => KLast
  | ROk (Some (OP_PUSHFUN, _)) => KFun
  | _ => KPlain
  end.
Definition go (r : sres) (k : vstate -> ires) : ires := match r with SNext t => k t | r => IEnd r end.
Definition vstep (i : istate) : vstate -> sres := step (env_of (i_prog i)) size (p_exe (i_prog i)).

Lemma istep_eq i : istep i =
  match sort_at i with
  | KCall c => go (vstep i (i_vs i)) (fun t => match nth_error (i_codes i) c with
               | Some u' => INext (mkis t (i_codes i) u' false (BRun (i_prog i) (i_imp i) :: i_rest i))
               | None => IEnd VmModel.SUB end)
  | KImport argc expected want =>
      let s := i_vs i in let st := List.tl (f_stack (v_cur s)) in let n := wrap32 argc in
      if 32 <? n then IEnd SLimit else if (n <? 0) || (vlen st <? n) then IEnd SBad else
      do_import i (with_stack (with_pc s (f_pc (v_cur s) + 1)) (skipn (Z.to_nat n) st))
        (let a := firstn (Z.to_nat n) st in if expected <? 0 then a else adjust expected a) (wrap32 want)
  | KLast => go (vstep i (if i_imp i then shorter (i_vs i) else i_vs i))
               (fun t => match (if i_imp i then List.tl (i_rest i) else i_rest i) with BRun u' imp :: r => INext (mkis t (i_codes i) u' imp r) | _ => IEnd VmModel.SUB end)
  | KFun => go (vstep i (i_vs i)) (fun t => INext (mkis t (i_codes i ++ [i_prog i]) (i_prog i) (i_imp i) (i_rest i)))
  | KPlain => go (vstep i (i_vs i)) (fun t => INext (mkis t (i_codes i) (i_prog i) (i_imp i) (i_rest i)))
  end.
Proof.
  unfold ImportModel.istep, sort_at, vstep, go. destruct (exe_fetch _ _) as [[[op ops]|]| |]; try (destruct (step _ _ _ _); reflexivity).
  destruct op; try (destruct (step _ _ _ _); reflexivity). destruct ops as [|[] [|[] [|]]]; try (destruct (step _ _ _ _); reflexivity).
  destruct (called (i_vs i)) as [c|e|]; [|reflexivity|]; destruct (step _ _ _ _); reflexivity.
Qed.

Lemma vstep_rest i t : vstep i (i_vs i) = SNext t -> 
  match sort_at i with
  | KCall c => v_codes t = v_codes (i_vs i) /\ exists f, v_rest t = f :: v_rest (i_vs i)
  | KLast => v_codes t = v_codes (i_vs i) /\ exists f, v_rest (i_vs i) = f :: v_rest t
  | KFun => (exists k, v_codes t = v_codes (i_vs i) ++ [k]) /\ v_rest t = v_rest (i_vs i)
  | _ => v_codes t = v_codes (i_vs i) /\ v_rest t = v_rest (i_vs i)
  end.
Proof.
  unfold vstep, sort_at. intros H. destruct (exe_fetch _ _) as [[[op ops]|]| |] eqn:F; try (unfold step in H; rewrite F in H; discriminate H).
  pose proof (step_rest _ _ _ _ _ _ _ F H) as R. destruct op; try exact R.
  destruct ops as [|[] [|[] [|]]]; try (unfold step in H; rewrite F in H; discriminate H). destruct (called (i_vs i)); exact R.
Qed.

Lemma vstep_last i t : sort_at i = KLast -> forall s, f_pc (v_cur s) = f_pc (v_cur (i_vs i)) -> vstep i s = SNext t -> v_codes t = v_codes s /\ exists f, v_rest s = f :: v_rest t.
Proof.
  unfold vstep, sort_at. intros K s C H. destruct (exe_fetch _ (f_pc (v_cur (i_vs i)))) as [[[op ops]|]| |] eqn:F; try discriminate. rewrite <- C in F.
  pose proof (step_rest _ _ _ _ _ _ _ F H) as R. destruct op; try discriminate K; try exact R.
  destruct ops as [|[] [|[] [|]]]; try discriminate K. destruct (called (i_vs i)); discriminate K.
Qed.

Lemma istep_chain i i' : ichain i -> istep i = INext i' -> ichain i' /\ exists cs ps, v_codes (i_vs i') = v_codes (i_vs i) ++ cs /\ i_codes i' = i_codes i ++ ps /\ length cs = length ps.
Proof.
  unfold ichain. intros C H. rewrite istep_eq in H. destruct (sort_at i) eqn:K.
  - destruct (vstep i _) as [t| | | | | |] eqn:V; try discriminate. cbn [go] in H. destruct (nth_error _ c) as [u|]; [|discriminate]. injection H as <-.
    apply vstep_rest in V. rewrite K in V. destruct V as [A [f B]]. cbn [i_imp i_vs i_rest i_codes]. rewrite A, B. split; [constructor; exact C|]. exists [], []. rewrite !app_nil_r. auto.
  - cbv zeta in H. destruct (32 <? _); [discriminate|]. destruct (_ || _); [discriminate|]. apply do_import_next in H. destruct H as (loc & m & u & _ & ->).
    cbn [i_imp i_vs i_rest i_codes v_rest v_codes with_stack with_pc v_cur]. split; [constructor; exact C|]. exists [], []. rewrite !app_nil_r. auto.
  - destruct (vstep i _) as [t| | | | | |] eqn:V; try discriminate. apply vstep_last in V; [|exact K|destruct (i_imp i); [|reflexivity]; unfold shorter; destruct (v_rest (i_vs i)); reflexivity].
    destruct V as [A [f B]]. cbn [go] in H. inversion C as [C1 C2 C3|u imp w g r b C' C1 C2 C3|u imp g r b C' C1 C2 C3]; rewrite <- C1 in *; rewrite <- ?C2 in *; rewrite <- ?C3 in *; cbn [List.tl] in *.
    + discriminate H.
    + injection H as <-. unfold shorter in *. rewrite <- C2 in *. cbn [v_rest v_codes i_imp i_vs i_rest i_codes] in *. injection B as _ <-. rewrite A. split; [exact C'|].
      exists [], []. rewrite !app_nil_r. auto.
    + injection H as <-. cbn [i_imp i_vs i_rest i_codes] in *. injection B as _ <-. rewrite A. split; [exact C'|]. exists [], []. rewrite !app_nil_r. auto.
  - destruct (vstep i _) as [t| | | | | |] eqn:V; try discriminate. injection H as <-. apply vstep_rest in V. rewrite K in V. destruct V as [[k A] B].
    cbn [i_imp i_vs i_rest i_codes]. rewrite A, B. split; [exact C|]. do 2 eexists. split; [reflexivity|]. split; reflexivity.
  - destruct (vstep i _) as [t| | | | | |] eqn:V; try discriminate. injection H as <-. apply vstep_rest in V. rewrite K in V. destruct V as [A B].
    cbn [i_imp i_vs i_rest i_codes]. rewrite A, B. split; [exact C|]. exists [], []. rewrite !app_nil_r. auto.
Qed.

Lemma istep_within i i' : within size (i_vs i) -> istep i = INext i' -> within size (i_vs i').
Proof.
  intros W H. rewrite istep_eq in H. destruct (sort_at i) eqn:K.
  - destruct (vstep i _) as [t| | | | | |] eqn:V; try discriminate. cbn [go] in H. destruct (nth_error _ c) as [u|]; [|discriminate]. injection H as <-. exact (step_within _ _ _ _ _ W V).
  - cbv zeta in H. destruct (32 <? _); [discriminate|]. destruct (_ || _); [discriminate|]. apply do_import_next in H. destruct H as (loc & m & u & L & ->).
    destruct (i_vs i) as [m0 c [pc st lo cl wa] rest]. destruct W as (A & B & D). unfold within, frames_of, with_stack, with_pc in *.
    cbn [i_vs v_cur v_rest f_stack f_pc f_locals f_clo f_want values_of length native_frame] in *. pose proof (skipn_length (Z.to_nat (wrap32 argc)) (List.tl st)).
    assert (length (List.tl st) <= length st)%nat by (destruct st; cbn; lia). inversion B; subst. cbn [f_stack] in *.
    split; [lia|]. split; [|lia]. constructor; [cbn; lia|]. constructor; [cbn; lia|]. constructor; [cbn [f_stack]; lia|assumption].
  - destruct (vstep i _) as [t| | | | | |] eqn:V; try discriminate. assert (W' : within size (if i_imp i then shorter (i_vs i) else i_vs i)).
    { destruct (i_imp i); [|exact W]. destruct W as (A & B & D). unfold shorter. destruct (v_rest (i_vs i)) as [|g r] eqn:R; unfold within, frames_of in *; rewrite R in *; [auto|]. 
      cbn [v_cur v_rest f_stack length values_of] in *. inversion B as [|? ? ? B']; subst. inversion B'; subst. split; [lia|]. split; [constructor; assumption|lia]. }
    cbn [go] in H. destruct (if i_imp i then List.tl (i_rest i) else i_rest i) as [|[u imp|] r]; try discriminate. injection H as <-. exact (step_within _ _ _ _ _ W' V).
  - destruct (vstep i _) as [t| | | | | |] eqn:V; try discriminate. injection H as <-. exact (step_within _ _ _ _ _ W V).
  - destruct (vstep i _) as [t| | | | | |] eqn:V; try discriminate. injection H as <-. exact (step_within _ _ _ _ _ W V).
Qed.

Definition iunder (i : istate) (bl : list vframe) (bb : list below) : istate := mkis (under (i_vs i) bl) (i_codes i) (i_prog i) (i_imp i) (i_rest i ++ bb).
Definition ion (bl : list vframe) (bb : list below) (r : ires) : ires := match r with INext i => INext (iunder i bl bb) | r => r end.
Definition roomy (bl : list vframe) (i : istate) : Prop :=
  Forall (fun f => vlen (f_stack f) <= 16) (v_cur (i_vs i) :: v_rest (i_vs i) ++ bl) /\ vlen (v_cur (i_vs i) :: v_rest (i_vs i) ++ bl) <= 14.

Lemma sort_under i bl bb : sort_at (iunder i bl bb) = sort_at i.
Proof. reflexivity. Qed.

Lemma not_last i op ops : sort_at i <> KLast -> exe_fetch (p_exe (i_prog i)) (f_pc (v_cur (i_vs i))) = ROk (Some (op, ops)) -> last op = true -> False.
Proof. unfold sort_at. intros K F L. rewrite F in K. destruct op; try discriminate L; apply K; reflexivity. Qed.

Lemma vstep_under i bl bb : roomy bl i -> sort_at i <> KLast -> vstep (iunder i bl bb) (under (i_vs i) bl) = on bl (vstep i (i_vs i)).
Proof.
  intros [F L] K. unfold vstep. apply step_under; [exact Hsize|split; [exact F|lia]|]. intros op ops Q1 Q2. exfalso. exact (not_last i op ops K Q1 Q2).
Qed.

Lemma do_import_under i bl bb s args want : vlen (v_cur s :: v_rest s ++ bl) <= 14 ->
  do_import (iunder i bl bb) (under s bl) args want = ion bl bb (do_import i s args want).
Proof.
  intros L. unfold ImportModel.do_import. cbn [under v_cur v_rest v_mem v_codes i_prog i_imp i_rest i_codes iunder].
  assert (L0 : vlen (v_cur s :: v_rest s) <= vlen (v_cur s :: v_rest s ++ bl)) by (cbn [length]; rewrite app_length; lia).
  unfold MAX_FRAMES. rewrite !(proj2 (Z.leb_gt _ _)) by lia.
  destruct (parse_args _ _ args) as [[|[] ps]| | | |]; try reflexivity. destruct (c_string _) as [file|]; [|reflexivity]. destruct (load _ _ _ _ _) as [u| |]; try reflexivity.
Qed.

Lemma istep_under i bl bb : ichain i -> roomy bl i -> (sort_at i = KLast -> i_rest i <> []) -> istep (iunder i bl bb) = ion bl bb (istep i).
Proof.
  intros C R B. rewrite !istep_eq. rewrite sort_under. destruct (sort_at i) eqn:K.
  - cbn [iunder i_codes]. change (i_vs (mkis _ _ _ _ _)) with (under (i_vs i) bl).
    change (vstep _ (under (i_vs i) bl)) with (vstep (iunder i bl bb) (under (i_vs i) bl)). rewrite vstep_under by (auto; rewrite K; discriminate). destruct (vstep i (i_vs i)); try reflexivity. cbn [on go]. destruct (nth_error _ c); reflexivity.
  - cbv zeta. cbn [iunder i_vs]. change (v_cur (under (i_vs i) bl)) with (v_cur (i_vs i)).
    destruct (32 <? _); [reflexivity|]. destruct (_ || _); [reflexivity|].
    change (with_stack (with_pc (under (i_vs i) bl) ?p) ?q) with (under (with_stack (with_pc (i_vs i) p) q) bl). apply (do_import_under i bl bb).
    destruct R as [_ L]. cbn [with_stack with_pc v_cur v_rest length] in *. exact L.
  - specialize (B eq_refl). cbn [iunder i_vs i_imp i_rest i_codes i_prog].
    assert (Q : exists b0, (if i_imp i then List.tl (i_rest i) else i_rest i) = b0 /\ b0 <> [] /\ (if i_imp i then List.tl (i_rest i ++ bb) else i_rest i ++ bb) = b0 ++ bb /\
      (if i_imp i then shorter (under (i_vs i) bl) else under (i_vs i) bl) = under (if i_imp i then shorter (i_vs i) else i_vs i) bl /\
      settled bl (if i_imp i then shorter (i_vs i) else i_vs i) /\ v_rest (if i_imp i then shorter (i_vs i) else i_vs i) <> [] /\
      f_pc (v_cur (if i_imp i then shorter (i_vs i) else i_vs i)) = f_pc (v_cur (i_vs i))).
    { destruct R as [F L]. unfold settled. inversion C as [C1 C2 C3|u imp w g r b C' C1 C2 C3|u imp g r b C' C1 C2 C3]; rewrite <- ?C3 in *.
      - exfalso. apply B. reflexivity.
      - exists (BRun u imp :: b). cbn [List.tl app]. split; [reflexivity|]. split; [discriminate|]. split; [reflexivity|]. unfold shorter, under. cbn [v_rest].
        rewrite <- C2 in *. cbn [app v_mem v_codes v_cur v_rest f_pc f_stack f_locals f_clo f_want length] in *. split; [reflexivity|]. split.
        + inversion F as [|? ? F1 F2]; subst. inversion F2; subst. split; [constructor; assumption|lia].
        + split; [discriminate|reflexivity].
      - exists (BRun u imp :: b). cbn [app]. split; [reflexivity|]. split; [discriminate|]. split; [reflexivity|]. rewrite <- C2 in *. split; [reflexivity|].
        split; [split; [exact F|cbn [length app] in *; lia]|]. split; [discriminate|reflexivity]. }
    destruct Q as (b0 & Q1 & Q2 & Q3 & Q4 & Q5 & Q6 & Q7). rewrite Q1, Q3, Q4.
    change (vstep (mkis _ _ _ _ _)) with (vstep i). unfold vstep at 1. rewrite step_under; [|exact Hsize|exact Q5|intros; exact Q6].
    unfold vstep. cbn [iunder i_prog]. destruct (step _ _ _ _); try reflexivity. cbn [on go ion]. destruct b0 as [|[u imp|] b0]; [exfalso; apply Q2; reflexivity| |]; reflexivity.
  - cbn [iunder i_codes]. change (i_vs (mkis _ _ _ _ _)) with (under (i_vs i) bl).
    change (vstep _ (under (i_vs i) bl)) with (vstep (iunder i bl bb) (under (i_vs i) bl)). rewrite vstep_under by (auto; rewrite K; discriminate). destruct (vstep i (i_vs i)); reflexivity.
  - cbn [iunder i_codes]. change (i_vs (mkis _ _ _ _ _)) with (under (i_vs i) bl).
    change (vstep _ (under (i_vs i) bl)) with (vstep (iunder i bl bb) (under (i_vs i) bl)). rewrite vstep_under by (auto; rewrite K; discriminate). destruct (vstep i (i_vs i)); reflexivity.
Qed.

(** The end of the lowest program. *)
Lemma end_under i w g bl u imp bb : ichain i -> i_rest i = [] -> sort_at i = KLast -> roomy (native_frame w :: g :: bl) i ->
  istep (iunder i (native_frame w :: g :: bl) (BNative :: BRun u imp :: bb)) =
  match istep i with
  | IEnd (SDone rets m') =>
      go (lift (results w rets) (fun vs => match vpushes size (mkvs m' (v_codes (i_vs i)) g bl) vs with Some t => SNext t | None => SLimit end))
         (fun t => INext (mkis t (i_codes i) u imp bb))
  | r => r
  end.
Proof.
  unfold ichain. intros C N K [F L]. rewrite N in C. inversion C as [C1 C2| |]. rewrite !istep_eq, sort_under, K. cbn [iunder i_vs i_imp i_rest i_codes i_prog]. rewrite <- C1, N. cbn [app List.tl].
  assert (Q : exists op ops, exe_fetch (p_exe (i_prog i)) (f_pc (v_cur (i_vs i))) = ROk (Some (op, ops)) /\ last op = true).
  { unfold sort_at in K. destruct (exe_fetch _ _) as [[[op ops]|]| |]; try discriminate. exists op, ops. split; [reflexivity|].
    destruct op; try discriminate K; try reflexivity. destruct ops as [|[] [|[] [|]]]; try discriminate K. destruct (called _); discriminate K. }
  destruct Q as (op & ops & Q1 & Q2). unfold shorter, under. rewrite <- C2 in *. cbn [app v_rest v_cur v_mem v_codes native_frame f_want f_stack length values_of] in *.
  destruct (i_vs i) as [m c [pc st lo cl wa] rest] eqn:S. cbn [v_rest v_cur v_mem v_codes f_pc f_stack f_locals f_clo f_want] in *. subst rest.
  unfold vstep. cbn [i_prog iunder].
  assert (V : forall w', values_of (mkfr pc st lo cl w' :: g :: bl) <= 240).
  { intros w'. inversion F as [|? ? F1 F2]; subst. inversion F2 as [|? ? F3 F4]; subst. cbn [f_stack] in *. apply frames_240; [constructor; [exact F1|exact F4]|cbn [length]; lia]. }
  rewrite (step_bottom (env_of (i_prog i)) size Hsize (p_exe (i_prog i)) m c (mkfr pc st lo cl w) g bl op ops (V w) Q1 Q2). cbn [f_want].
  assert (X : step (env_of (i_prog i)) size (p_exe (i_prog i)) (mkvs m c (mkfr pc st lo cl w) []) = step (env_of (i_prog i)) size (p_exe (i_prog i)) (mkvs m c (mkfr pc st lo cl wa) [])).
  { unfold step. cbn [v_cur f_pc]. rewrite Q1. unfold with_pc, exec. cbv zeta. cbn [v_cur f_pc f_stack f_locals f_clo f_want v_mem v_codes v_rest]. destruct op; try discriminate Q2.
    - destruct ops as [|[] [|]]; reflexivity.
    - destruct ops; try reflexivity. unfold vpush, used. cbn [v_cur v_rest f_stack]. destruct (_ || _); reflexivity. }
  rewrite X. clear X. destruct (step _ _ _ _) as [t|rets m'| | | | |] eqn:Y; try reflexivity.
  exfalso. assert (P : f_pc (v_cur (mkvs m c (mkfr pc st lo cl wa) [])) = f_pc (v_cur (i_vs i))) by (rewrite S; reflexivity). pose proof (vstep_last i t K _ P Y) as [_ [f0 D]]. discriminate D.
Qed.

Lemma iend_done i rets m : istep i = IEnd (SDone rets m) -> sort_at i = KLast.
Proof.
  assert (D : forall s, vstep i s = SDone rets m -> f_pc (v_cur s) = f_pc (v_cur (i_vs i)) -> sort_at i = KLast).
  { intros s H P. unfold vstep, step in H. unfold sort_at. rewrite P in H. destruct (exe_fetch _ _) as [[[op ops]|]| |]; try discriminate. destruct s as [mm c [pc st lo cl wa] rest]. unfold with_pc, exec in H. cbv zeta in H.
    cbn [v_mem v_codes v_cur v_rest f_pc f_stack f_locals f_clo f_want] in H. destruct op; try reflexivity; exfalso.
    all: repeat match goal with
    | H : (match ?x with _ => _ end) = SDone _ _ |- _ => destruct x eqn:?; try discriminate
    | H : lift _ _ = SDone _ _ |- _ => apply lift_done in H; destruct H as (? & ? & H)
    | H : npush _ _ _ = SDone _ _ |- _ => unfold npush in H
    | H : do_call _ _ _ _ _ _ = SDone _ _ |- _ => unfold do_call in H
    end; try discriminate H. }
  rewrite istep_eq. destruct (sort_at i) eqn:K; intros H; try reflexivity.
  - destruct (vstep i (i_vs i)) eqn:V; try discriminate H; [cbn [go] in H; destruct (nth_error _ c); discriminate H|]. injection H as -> ->. exact (D _ V eq_refl).
  - cbv zeta in H. destruct (32 <? _); [discriminate|]. destruct (_ || _); [discriminate|]. unfold ImportModel.do_import in H.
    repeat match goal with H : (match ?x with _ => _ end) = IEnd (SDone _ _) |- _ => destruct x; try discriminate end.
  - destruct (vstep i (i_vs i)) eqn:V; try discriminate H. injection H as -> ->. exact (D _ V eq_refl).
  - destruct (vstep i (i_vs i)) eqn:V; try discriminate H. injection H as -> ->. exact (D _ V eq_refl).
Qed.

Lemma isteps_S n i : isteps (S n) i = match istep i with INext i' => isteps n i' | r => r end.
Proof. reflexivity. Qed.
Lemma isteps_add a : forall b i, isteps (a + b) i = match isteps a i with INext i' => isteps b i' | r => r end.
Proof. induction a as [|a IH]; intros b i; [reflexivity|]. rewrite Nat.add_succ_l, !isteps_S. destruct (istep i); auto. Qed.

Lemma isteps_kept n : forall i i', ichain i -> within size (i_vs i) -> isteps n i = INext i' -> ichain i' /\ within size (i_vs i') /\
  exists cs ps, v_codes (i_vs i') = v_codes (i_vs i) ++ cs /\ i_codes i' = i_codes i ++ ps /\ length cs = length ps.
Proof.
  induction n as [|n IH]; intros i i' C W H.
  - injection H as <-. split; [exact C|]. split; [exact W|]. exists [], []. rewrite !app_nil_r. auto.
  - rewrite isteps_S in H. destruct (istep i) as [i1|] eqn:S; [|discriminate]. destruct (istep_chain _ _ C S) as [C1 (cs & ps & A & B & G)].
    destruct (IH _ _ C1 (istep_within _ _ W S) H) as (C2 & W2 & cs2 & ps2 & A2 & B2 & G2). split; [exact C2|]. split; [exact W2|].
    exists (cs ++ cs2), (ps ++ ps2). rewrite A2, A, B2, B, !app_assoc, !app_length. auto.
Qed.

(** A run of a program, on top of other frames. *)
Lemma run_under bl bb j : forall i, ichain i -> (forall k ik, (k < j)%nat -> isteps k i = INext ik -> roomy bl ik /\ (sort_at ik = KLast -> i_rest ik <> [])) ->
  isteps j (iunder i bl bb) = ion bl bb (isteps j i).
Proof.
  induction j as [|j IH]; intros i C H; [reflexivity|]. rewrite !isteps_S. destruct (H 0%nat i ltac:(lia) eq_refl) as [R B]. rewrite (istep_under i bl bb C R B).
  destruct (istep i) as [i1|r] eqn:S; [|reflexivity]. cbn [ion]. apply IH; [exact (proj1 (istep_chain _ _ C S))|]. intros k ik Hk Hi. apply (H (Datatypes.S k)); [lia|]. rewrite isteps_S, S. exact Hi.
Qed.

(** A state at the end of the lowest program has no successor. *)
Lemma last_ends i : ichain i -> i_rest i = [] -> sort_at i = KLast -> exists r, istep i = IEnd r.
Proof.
  intros C N K. destruct (istep i) as [i'|r] eqn:S; [|eauto]. exfalso. unfold ichain in C. rewrite N in C. inversion C as [C1 C2| |]. rewrite istep_eq, K, <- C1, N in S. cbn [List.tl] in S.
  destruct (vstep i _); discriminate S.
Qed.

Definition alone (codes : list (Z * Z)) (ps : list program) (u : program) (m : mem) : istate :=
  mkis (mkvs (v_mem (vm_start m)) codes (v_cur (vm_start m)) []) ps u true [].


Lemma isteps_last j : forall i r, isteps j i = IEnd r -> exists k ik, (k < j)%nat /\ isteps k i = INext ik /\ istep ik = IEnd r.
Proof.
  induction j as [|j IH]; intros i r H; [discriminate|]. rewrite isteps_S in H. destruct (istep i) as [i1|r1] eqn:S.
  - destruct (IH _ _ H) as (k & ik & L & A & B). exists (Datatypes.S k), ik. split; [lia|]. rewrite isteps_S, S. auto.
  - injection H as <-. exists 0%nat, i. split; [lia|]. split; [reflexivity|exact S].
Qed.
Lemma isteps_end a b : forall i r, (a <= b)%nat -> isteps a i = IEnd r -> isteps b i = IEnd r.
Proof. intros i r L H. replace b with (a + (b - a))%nat by lia. rewrite isteps_add, H. reflexivity. Qed.

Definition depth_of (i : istate) : Z := vlen (v_cur (i_vs i) :: v_rest (i_vs i)).
(** A run that stays within [n] frames. *)
Definition shallow (n : Z) (j : nat) (i : istate) : Prop := forall k ik, (k <= j)%nat -> isteps k i = INext ik -> depth_of ik <= n.

Lemma alone_chain codes ps u m : ichain (alone codes ps u m).
Proof. constructor. Qed.
Lemma alone_within codes ps u m : within size (i_vs (alone codes ps u m)).
Proof. unfold within, frames_of. cbn. split; [lia|]. split; [constructor; [cbn; lia|constructor]|lia]. Qed.

(** What an import does. *)
Section One.
Variables (i : istate) (argc want : Z) (l : nat) (args st : list value) (file : list Z) (u : program).
Hypothesis C : ichain i.
Hypothesis W : within size (i_vs i).
Hypothesis F : exe_fetch (p_exe (i_prog i)) (f_pc (v_cur (i_vs i))) = ROk (Some (OP_CALL, [PInt argc; PInt want])).
Hypothesis St : f_stack (v_cur (i_vs i)) = VRef l :: args ++ st.
Hypothesis Na : vlen args = argc.
Hypothesis Ha : argc <= 32.
Hypothesis Hw : - 2 ^ 31 <= want < 2 ^ 31.
Hypothesis Hl : nth_error (m_objs (v_mem (i_vs i))) l = Some (ONative N_import 1).

Let f := v_cur (i_vs i).
Let bl := native_frame want :: mkfr (f_pc f + 1) st (f_locals f) (f_clo f) (f_want f) :: v_rest (i_vs i).
Let bb := BNative :: BRun (i_prog i) (i_imp i) :: i_rest i.

Lemma import_sort : istep i = do_import i (with_stack (with_pc (i_vs i) (f_pc f + 1)) st) (adjust 1 args) want.
Proof.
  assert (K : sort_at i = KImport argc 1 want).
  { unfold sort_at. rewrite F. unfold called. rewrite St, Hl. reflexivity. }
  assert (N : wrap32 argc = argc) by (apply wrap32_id; unfold in_int; lia).
  assert (Nw : wrap32 want = want) by (apply wrap32_id; exact Hw).
  rewrite istep_eq, K. cbv zeta. rewrite N, St, Nw. cbn [List.tl]. rewrite (proj2 (Z.ltb_ge 32 argc)) by lia. rewrite (proj2 (Z.ltb_ge argc 0)) by lia.
  rewrite (proj2 (Z.ltb_ge (vlen (args ++ st)) argc)) by (rewrite app_length; lia). cbn [orb]. rewrite <- Na, Nat2Z.id, skipn_app, skipn_all, Nat.sub_diag, firstn_app, firstn_all, Nat.sub_diag. cbn [skipn firstn app]. rewrite app_nil_r.
  reflexivity.
Qed.

Section Good.
Hypothesis Hf : hd_error args = Some (VStr file).
Hypothesis Hz : ~ In 0 file.
Hypothesis Ld : load cwd fs big (i_prog i) file = ROk u.
Let a := alone (v_codes (i_vs i)) (i_codes i) u (v_mem (i_vs i)).

Lemma import_enters : depth_of i <= 14 -> istep i = INext (iunder a bl bb).
Proof.
  intros Hd. rewrite import_sort. unfold adjust. change (Z.to_nat 1) with 1%nat. destruct args as [|x ar]; [discriminate|]. injection Hf as ->. cbn [firstn length app repeat Nat.sub].
  unfold ImportModel.do_import. cbn [with_stack with_pc v_cur v_rest v_mem v_codes]. change (vlen (mkfr ?p ?q ?r ?s ?t :: v_rest (i_vs i))) with (depth_of i). unfold MAX_FRAMES. rewrite !(proj2 (Z.leb_gt _ _)) by lia.
  cbn -[c_string load alloc new_map]. rewrite (c_string_app file [] Hz), Ld. unfold iunder, under, a, alone, bl, bb, vm_start. cbn [alloc v_mem v_codes v_cur v_rest i_vs i_codes i_prog i_imp i_rest app]. reflexivity.
Qed.

Lemma shallow_roomy j k ik : shallow (13 - depth_of i) j a -> (k <= j)%nat -> isteps k a = INext ik -> roomy bl ik.
Proof.
  intros Sh L H. specialize (Sh k ik L H). destruct (isteps_kept k a ik (alone_chain _ _ _ _) (alone_within _ _ _ _) H) as (_ & (A & B & D) & _).
  destruct W as (A1 & B1 & D1). unfold roomy, depth_of, bl, frames_of, f in *. rewrite app_comm_cons. split.
  - apply Forall_app. split; [exact B|]. inversion B1 as [|? ? B2 B3]; subst. constructor; [cbn; lia|]. constructor; [cbn [f_stack]; rewrite St in B2; cbn [length] in B2; rewrite app_length in B2; lia|exact B3].
  - rewrite app_length, Nat2Z.inj_add. cbn [length] in *. lia.
Qed.

Lemma shallow_deep j : shallow (13 - depth_of i) j a -> depth_of i <= 14.
Proof. intros Sh. specialize (Sh 0%nat a ltac:(lia) eq_refl). assert (D : depth_of a = 1) by reflexivity. lia. Qed.

Lemma import_running j ia : isteps j a = INext ia -> shallow (13 - depth_of i) j a -> isteps (S j) i = INext (iunder ia bl bb).
Proof.
  intros H Sh. rewrite isteps_S, (import_enters (shallow_deep j Sh)). rewrite run_under; [rewrite H; reflexivity|constructor|].
  intros k ik L Hk. split; [exact (shallow_roomy j k ik Sh ltac:(lia) Hk)|]. intros K N.
  destruct (last_ends ik (proj1 (isteps_kept k a ik (alone_chain _ _ _ _) (alone_within _ _ _ _) Hk)) N K) as [r R].
  replace j with (k + S (j - k - 1))%nat in H by lia. rewrite isteps_add, Hk, isteps_S, R in H. discriminate H.
Qed.

Lemma import_fails j r : isteps j a = IEnd r -> (forall rets m', r <> SDone rets m') -> shallow (13 - depth_of i) j a -> isteps (S j) i = IEnd r.
Proof.
  intros H D Sh. destruct (isteps_last _ _ _ H) as (k & ik & L & A & B).
  assert (Shk : shallow (13 - depth_of i) k a) by (intros k' ik' L' H'; exact (Sh k' ik' ltac:(lia) H')).
  apply (isteps_end (S k + 1) (S j)); [lia|]. rewrite isteps_add, (import_running k ik A Shk), isteps_S.
  pose proof (shallow_roomy k k ik Shk ltac:(lia) A) as R. destruct (isteps_kept k a ik (alone_chain _ _ _ _) (alone_within _ _ _ _) A) as (Ck & _).
  destruct (i_rest ik) as [|b0 br] eqn:N.
  - destruct (sort_at ik) eqn:K; try (rewrite (istep_under ik bl bb Ck R ltac:(rewrite K; discriminate)), B; reflexivity).
    unfold bl, bb. rewrite (end_under ik want _ _ _ _ _ Ck N K R), B. destruct r; try reflexivity. exfalso. eapply D. reflexivity.
  - rewrite (istep_under ik bl bb Ck R ltac:(rewrite N; discriminate)), B. reflexivity.
Qed.

Lemma import_returns j ia rets m' : isteps j a = INext ia -> istep ia = IEnd (SDone rets m') -> shallow (13 - depth_of i) j a ->
  exists cs ps, isteps (S (S j)) i =
      match results want rets with
      | OOk vs => if vlen vs + vlen st <=? 16 then
          INext (mkis (mkvs m' (v_codes (i_vs i) ++ cs) (mkfr (f_pc f + 1) (rev vs ++ st) (f_locals f) (f_clo f) (f_want f)) (v_rest (i_vs i))) (i_codes i ++ ps) (i_prog i) (i_imp i) (i_rest i))
          else IEnd SLimit
      | _ => IEnd VmModel.SUB
      end.
Proof.
  intros A B Sh. pose proof (shallow_roomy j j ia Sh ltac:(lia) A) as R. destruct (isteps_kept j a ia (alone_chain _ _ _ _) (alone_within _ _ _ _) A) as (Ck & _ & cs & ps & C1 & C2 & _).
  exists cs, ps. replace (S (S j)) with (S j + 1)%nat by lia. rewrite isteps_add, (import_running j ia A Sh), isteps_S.
  pose proof (iend_done _ _ _ B) as K.
  assert (N : i_rest ia = []).
  { unfold ichain in Ck. rewrite istep_eq, K in B. destruct (vstep ia _) as [t|rr mm| | | | |] eqn:V; try discriminate B.
    - cbn [go] in B. exfalso. destruct (if i_imp ia then List.tl (i_rest ia) else i_rest ia) as [|[] ?]; discriminate B.
    - apply step_done_rest in V. inversion Ck as [E1 E2 E3|uu imp w g r b C' E1 E2 E3|uu imp g r b C' E1 E2 E3]; try reflexivity; exfalso; rewrite <- E1 in V.
      + unfold shorter in V. rewrite <- E2 in V. discriminate V.
      + rewrite <- E2 in V. discriminate V. }
  unfold bl, bb. rewrite (end_under ia want _ _ _ _ _ Ck N K R), B. rewrite C1, C2.
  change (i_codes a) with (i_codes i). change (v_codes (i_vs a)) with (v_codes (i_vs i)).
  destruct (results want rets) as [vs| | | |] eqn:Q; try reflexivity; try (unfold results in Q; destruct (_ <? _) in Q; discriminate Q). cbn [lift].
  destruct W as (A1 & B1 & D1). unfold frames_of in A1, B1. inversion B1 as [|? ? B2 B3]; subst. rewrite St in B2. cbn [length] in B2. rewrite app_length in B2. fold f in B2.
  pose proof (values_frames _ B3) as V3. cbn [length] in A1.
  destruct (vpushes size _ vs) as [t|] eqn:P.
  - apply vpushes_some in P. destruct P as [-> P]. cbn [go]. cbn [v_cur f_stack] in P. rewrite (proj2 (Z.leb_le _ _)).
    + unfold with_stack. cbn [v_cur v_mem v_codes v_rest f_pc f_stack f_locals f_clo f_want]. reflexivity.
    + unfold room in P. destruct P as [->|[P _]]; cbn [length] in *; lia.
  - apply vpushes_none in P. unfold frames_of, room in P. cbn [v_cur v_rest f_stack values_of] in P. cbn [go]. rewrite (proj2 (Z.leb_gt _ _)); [reflexivity|]. 
    assert (vlen (v_rest (i_vs i)) <= 15) by lia. lia.
Qed.
End Good.
End One.
End Imports.
