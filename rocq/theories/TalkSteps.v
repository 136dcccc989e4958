(** What a program writes: proofs, the runs. *)
From Coq Require Import ZArith List Bool Lia.
From Verif Require Import BuiltinModel SysProofs LookSpec LookProofs ShowModel ShowSpec ShowProofs.
From Verif Require Import Base FloatModel StringModel ValueModel ListModel ExeModel ArithModel AstModel CodegenModel CompSpec CompileModel CompileProofs MapModel MapSpec MapProofs MapProofs2 ObjModel FrameModel VmModel SrcModel
  LexModel ParseModel DepthSpec DepthProofs LimitProofs FuelProofs RunProofs ScopeSpec ScopeProofs CalcSpec CalcProofs WhileSpec WhileProofs CopyProofs FunRun TalkModel TalkSpec TalkProofs TalkRun.
Import ListNotations.
Open Scope Z_scope.

Lemma nth_of_nil {A} n : nth_error (@nil A) n = None.
Proof. destruct n; reflexivity. Qed.

Section Machine.
Variables (ff : Z -> list Z) (fb : nat -> list Z) (k b : nat).
Notation W stop := (watch ff fb k stop b).
Definition at_rest (o : list Z) (s : vstate) : Prop := calm k (VStr o) s.

Lemma here_written o m : here k (VStr o) m -> written k m = o.
Proof. intros H. apply written_stream. exact H. Qed.

Lemma exec_same stop stop' cap s op ops : op <> OP_CALL -> exec (W stop) cap s op ops = exec (W stop') cap s op ops.
Proof.
  intros N. destruct op; try reflexivity; try congruence.
  1,2: unfold exec, select_or_none, select_of; destruct ops; [|reflexivity]; destruct (f_stack (v_cur s)) as [|? [|? ?]]; try reflexivity; rewrite !watch_select; reflexivity.
  unfold exec, get_var. destruct ops as [|[] [|]]; try reflexivity. destruct (vstring _); cbn [obind]; try reflexivity. rewrite !watch_get. reflexivity.
Qed.

(** One instruction: it writes nothing, or it writes [w]. *)
Lemma exec_talk cap o s op ops : at_rest o s -> op <> OP_PUSHFUN ->
  (exists r, (forall stop, exec (W stop) cap s op ops = r) /\ forall s', r = SNext s' -> at_rest o s') \/
  (exists w r, (forall stop, exec (W stop) cap s op ops = if stop (o ++ w) then SLoop else r) /\ (forall s', r = SNext s' -> at_rest (o ++ w) s') /\ (r = SLimit \/ exists s', r = SNext s')).
Proof.
  intros C N. destruct (opcode_eqb op OP_CALL) eqn:Q.
  2:{ assert (N2 : op <> OP_CALL) by (intros ->; discriminate). left. exists (exec (W never) cap s op ops). split; [intros stop; apply exec_same; exact N2|].
      exact (exec_calm k (VStr o) ff fb k b never cap s op ops C N N2). }
  assert (op = OP_CALL) as -> by (destruct op; try discriminate; reflexivity). clear Q N.
  assert (Dull : forall r, (forall s', r <> SNext s') -> forall s', r = SNext s' -> at_rest o s') by (intros r H s' Q; exfalso; exact (H s' Q)).
  unfold exec. destruct ops as [|[|argc| | |] [|[|want| | |] [|? ?]]]; try (left; eexists; split; [reflexivity|apply Dull; discriminate]).
  destruct (f_stack (v_cur s)) as [|callee st]; [left; eexists; split; [reflexivity|apply Dull; discriminate]|].
  destruct (32 <? wrap32 argc); [left; eexists; split; [reflexivity|apply Dull; discriminate]|]. destruct (wrap32 argc <? 0); [left; eexists; split; [reflexivity|apply Dull; discriminate]|].
  destruct (Z.of_nat (length st) <? wrap32 argc); [left; eexists; split; [reflexivity|apply Dull; discriminate]|].
  set (s1 := with_stack s (skipn (Z.to_nat (wrap32 argc)) st)). assert (C1 : at_rest o s1) by exact C. clearbody s1.
  unfold do_call. destruct callee; try (left; eexists; split; [reflexivity|apply Dull; discriminate]).
  destruct (nth_error (m_objs (v_mem s1)) l) as [ob|]; [|left; eexists; split; [reflexivity|apply Dull; discriminate]].
  destruct ob; try (left; eexists; split; [reflexivity|apply Dull; discriminate]).
  - destruct C1 as (_ & -> & _). left; eexists; split; [intros stop; rewrite nth_of_nil; reflexivity|apply Dull; discriminate].
  - destruct (MAX_FRAMES <=? _); [left; eexists; split; [reflexivity|apply Dull; discriminate]|]. cbn [e_native watch].
    destruct (id =? N_print)%nat; [|left; eexists; split; [reflexivity|apply Dull; discriminate]]. unfold talks.
    destruct (bin_print ff fb _ _) as [[w fl]| | | |]; try (left; eexists; split; [reflexivity|apply Dull; discriminate]). cbn [fst].
    right. exists w. rewrite (here_written o) by apply C1. eexists. split; [intros stop; destruct (stop (o ++ w)); [reflexivity|cbn [lift fst snd]; reflexivity]|].
    assert (C2 : at_rest (o ++ w) (with_mem s1 (set_obj (v_mem s1) k (stream (o ++ w))))).
    { destruct C1 as (A & B & D). split; [|split; assumption]. unfold here in *. cbn. exact (nth_upd_same _ _ _ _ A). }
    assert (R : exists vs, results (wrap32 want) [] = OOk vs).
    { unfold results. cbn [length Z.of_nat]. replace (MAX_RETS <? Z.min 0 (wrap32 want)) with false; [eauto|]. symmetry. apply Z.ltb_ge. unfold MAX_RETS. lia. }
    destruct R as (vs & ->). cbn [lift]. destruct (vpushes cap _ vs) as [s'|] eqn:V; [|split; [discriminate|auto]]. split; [|eauto]. intros s2 [= <-]. exact (pushes_calm k _ cap vs _ _ V C2).
Qed.

Lemma rest_one o o' s : at_rest o s -> at_rest o' s -> o = o'.
Proof. intros (A & _) (B & _). unfold here in *. congruence. Qed.

Lemma steps_last E cap x j s : steps E cap x (S j) s = match steps E cap x j s with SNext s' => step E cap x s' | r => r end.
Proof.
  revert s. induction j as [|j IH]; intros s; [cbn [steps]; destruct (step E cap x s); reflexivity|]. change (steps E cap x (S (S j)) s) with (match step E cap x s with SNext s' => steps E cap x (S j) s' | r => r end).
  cbn [steps]. destruct (step E cap x s); try reflexivity. apply IH.
Qed.

Section Steps.
Variables (cap : Z) (x : executable) (s0 : vstate).
Hypothesis NoFun : forall stop j s op ops, steps (W stop) cap x j s0 = SNext s -> exe_fetch x (f_pc (v_cur s)) = ROk (Some (op, ops)) -> op <> OP_PUSHFUN.
Hypothesis Start : at_rest [] s0.
Notation go stop j := (steps (W stop) cap x j s0).

Lemma step_talk stop0 j s o : go stop0 j = SNext s -> at_rest o s ->
  (exists r, (forall stop, step (W stop) cap x s = r) /\ forall s', r = SNext s' -> at_rest o s') \/
  (exists w r, (forall stop, step (W stop) cap x s = if stop (o ++ w) then SLoop else r) /\ (forall s', r = SNext s' -> at_rest (o ++ w) s') /\ (r = SLimit \/ exists s', r = SNext s')).
Proof.
  intros G R. unfold step. destruct (exe_fetch x (f_pc (v_cur s))) as [[[op ops]|]| |] eqn:F; try (left; eexists; split; [reflexivity|discriminate]).
  apply exec_talk; [exact R|]. exact (NoFun stop0 j s op ops G F).
Qed.

Lemma rests stop : forall j s, go stop j = SNext s -> exists o, at_rest o s.
Proof.
  induction j as [|j IH]; intros s H; [injection H as <-; eauto|]. rewrite steps_last in H. destruct (go stop j) as [s1| | | | | |] eqn:G; try discriminate.
  destruct (IH _ eq_refl) as (o & R). destruct (step_talk stop j s1 o G R) as [(r & A & B)|(w & r & A & B & _)]; rewrite A in H; [eauto|].
  destruct (stop (o ++ w)); [discriminate|eauto].
Qed.

Section NoLimit.
Hypothesis NoLimit : forall j, go never j <> SLimit.

Lemma coupled stop : forall j, go stop j = go never j \/ (go stop j = SLoop /\ exists i s o, go never i = SNext s /\ at_rest o s /\ stop o = true).
Proof.
  induction j as [|j [IH|[IH F]]]; [left; reflexivity| |right; rewrite steps_last, IH; auto].
  rewrite !steps_last, IH. destruct (go never j) as [s1| | | | | |] eqn:G; auto.
  destruct (rests never j s1 G) as (o & R). destruct (step_talk never j s1 o G R) as [(r & A & B)|(w & r & A & B & C)]; rewrite !A; [left; reflexivity|].
  destruct (stop (o ++ w)) eqn:T; [|left; reflexivity]. right. split; [reflexivity|]. destruct C as [->|(s' & ->)].
  - exfalso. apply (NoLimit (S j)). rewrite steps_last, G, A. reflexivity.
  - exists (S j), s', (o ++ w). split; [rewrite steps_last, G, A; reflexivity|]. auto.
Qed.

Lemma caught stop : forall j s o, go never j = SNext s -> at_rest o s -> (go stop j = SNext s /\ (o = [] \/ stop o = false)) \/ exists i, go stop i = SLoop.
Proof.
  induction j as [|j IH]; intros s o H R.
  - left. split; [exact H|]. left. injection H as <-. exact (rest_one _ _ _ R Start).
  - rewrite steps_last in H. destruct (go never j) as [s1| | | | | |] eqn:G; try discriminate. destruct (rests never j s1 G) as (o1 & R1).
    destruct (IH s1 o1 eq_refl R1) as [[G2 Z]|L]; [|right; exact L]. destruct (step_talk never j s1 o1 G R1) as [(r & A & B)|(w & r & A & B & C)].
    + rewrite A in H. subst r. pose proof (rest_one _ _ _ R (B _ eq_refl)). subst o1. left. rewrite steps_last, G2, A. auto.
    + rewrite A in H. cbn [never] in H. subst r. pose proof (rest_one _ _ _ R (B _ eq_refl)). subst o. destruct (stop (o1 ++ w)) eqn:T.
      * right. exists (S j). rewrite steps_last, G2, A, T. reflexivity.
      * left. rewrite steps_last, G2, A, T. auto.
Qed.

Lemma grows j s o : go never j = SNext s -> at_rest o s -> forall d s' o', go never (j + d) = SNext s' -> at_rest o' s' -> exists w, o' = o ++ w.
Proof.
  intros G R. induction d as [|d IH]; intros s' o' G' R'.
  - rewrite Nat.add_0_r, G in G'. injection G' as <-. exists []. rewrite app_nil_r. exact (rest_one _ _ _ R' R).
  - rewrite Nat.add_succ_r, steps_last in G'. destruct (go never (j + d)) as [s1| | | | | |] eqn:G1; try discriminate. destruct (rests never _ s1 G1) as (o1 & R1).
    destruct (IH s1 o1 eq_refl R1) as (w1 & ->). destruct (step_talk never _ s1 _ G1 R1) as [(r & A & B)|(w & r & A & B & C)]; rewrite A in G'; cbn [never] in G'; subst r.
    + exists w1. exact (rest_one _ _ _ R' (B _ eq_refl)).
    + exists (w1 ++ w). rewrite app_assoc. exact (rest_one _ _ _ R' (B _ eq_refl)).
Qed.
End NoLimit.
End Steps.

(** * The full machine does what the watched one does, as long as that comes back *)
Definition below {A} (x y : out A) : Prop := x = OLoop \/ y = x.
Lemma below_refl {A} (x : out A) : below x x.
Proof. right. reflexivity. Qed.
Lemma below_bind {A B} (x y : out A) (f g : A -> out B) : below x y -> (forall a, below (f a) (g a)) -> below (obind x f) (obind y g).
Proof. intros [->| ->] H; [left; reflexivity|]. destruct x; cbn; try (right; reflexivity). apply H. Qed.
Definition sbelow (x y : sres) : Prop := x = SLoop \/ y = x.
Lemma sbelow_refl x : sbelow x x.
Proof. right. reflexivity. Qed.
Lemma sbelow_lift {A} (x y : out A) f : below x y -> sbelow (lift x f) (lift y f).
Proof. intros [->| ->]; [left|right]; reflexivity. Qed.

Variable E0 : env.
Notation L := (loud ff fb k (std_env E0 (Some (VRef b)))).
Notation Q := (W never).

Lemma smap_below id key m : below (e_smap Q id key m) (e_smap L id key m).
Proof. cbn [e_smap watch loud std_env]. destruct id as [|[|[|[|[|[|id]]]]]]; try apply below_refl; left; reflexivity. Qed.
Lemma select_below : forall n m c key, below (obj_select Q n m c key) (obj_select L n m c key).
Proof.
  induction n as [|n IH]; intros m c key; destruct c; cbn [obj_select]; try apply below_refl; destruct (nth_error (m_objs m) l) as [[]|]; try apply below_refl;
    try apply smap_below; try (left; reflexivity).
  apply below_bind; [apply IH|]. intros r. destruct (m_pend (snd r)); [apply below_refl|]. destruct (fst r); [apply below_refl|]. destruct prev; [apply IH|apply below_refl].
Qed.
Lemma get_below scopes key : forall m, below (get_in Q m scopes key) (get_in L m scopes key).
Proof.
  induction scopes as [|[o|] r IH]; intros m; [apply below_refl| |apply IH]. cbn [get_in]. apply below_bind; [apply select_below|]. intros a. destruct (fst a); [apply below_refl|apply IH].
Qed.
Lemma insert_below m c key v : below (insert_of Q m c key v) (insert_of L m c key v).
Proof. unfold insert_of. destruct c; try apply below_refl. destruct (nth_error (m_objs m) l) as [[]|]; try apply below_refl. left. reflexivity. Qed.

Lemma exec_below cap s op ops : sbelow (exec Q cap s op ops) (exec L cap s op ops).
Proof.
  destruct op; try (right; reflexivity); unfold exec.
  - destruct ops as [|[] [|]]; try apply sbelow_refl. destruct (f_stack (v_cur s)); [apply sbelow_refl|]. apply sbelow_lift. unfold set_var. apply below_bind; [apply below_refl|]. intros. apply insert_below.
  - destruct ops as [|[|argc| | |] [|[|want| | |] [|? ?]]]; try apply sbelow_refl.
    destruct (f_stack (v_cur s)) as [|callee st]; [apply sbelow_refl|].
    destruct (32 <? wrap32 argc); [apply sbelow_refl|]. destruct (wrap32 argc <? 0); [apply sbelow_refl|]. destruct (Z.of_nat (length st) <? wrap32 argc); [apply sbelow_refl|].
    unfold do_call. destruct callee; try apply sbelow_refl. destruct (nth_error (m_objs (v_mem _)) l) as [o|]; [|apply sbelow_refl].
    destruct o; try apply sbelow_refl. destruct (MAX_FRAMES <=? _); [apply sbelow_refl|]. apply sbelow_lift. cbn [e_native watch loud]. destruct (id =? N_print)%nat; [|left; reflexivity].
    unfold talks, talk. destruct (bin_print _ _ _ _); try (right; reflexivity). left. reflexivity.
  - destruct ops; [|apply sbelow_refl]. destruct (f_stack (v_cur s)) as [|? [|? ?]]; try apply sbelow_refl. apply sbelow_lift. unfold select_or_none, select_of. apply below_bind; [apply select_below|]. intros. apply below_refl.
  - destruct ops; [|apply sbelow_refl]. destruct (f_stack (v_cur s)) as [|? [|? ?]]; try apply sbelow_refl. apply sbelow_lift. unfold select_or_none, select_of. apply below_bind; [apply select_below|]. intros. apply below_refl.
  - destruct ops; [|apply sbelow_refl]. destruct (f_stack (v_cur s)) as [|? [|? [|? ?]]]; try apply sbelow_refl. apply sbelow_lift. apply insert_below.
  - destruct ops; [|apply sbelow_refl]. destruct (f_stack (v_cur s)) as [|? [|? [|? ?]]]; try apply sbelow_refl. apply sbelow_lift. apply insert_below.
  - destruct ops as [|[] [|]]; try apply sbelow_refl. apply sbelow_lift. unfold get_var. apply below_bind; [apply below_refl|]. intros. apply get_below.
Qed.
Lemma step_below cap x s : sbelow (step Q cap x s) (step L cap x s).
Proof. unfold step. destruct (exe_fetch x (f_pc (v_cur s))) as [[[op ops]|]| |]; try apply sbelow_refl. apply exec_below. Qed.
Lemma steps_below cap x : forall n s, steps Q cap x n s <> SLoop -> steps L cap x n s = steps Q cap x n s.
Proof.
  induction n as [|n IH]; intros s H; [reflexivity|]. cbn [steps] in *. destruct (step_below cap x s) as [P|P]; [rewrite P in H; congruence|].
  rewrite P. destruct (step Q cap x s); auto.
Qed.
End Machine.

Lemma watch_fuel ff fb k stop b : ~ short_of_fuel (watch ff fb k stop b).
Proof.
  intros [(id & a & m & H)|[(id & key & m & H)|[(t & id & key & m & H)|(t & id & key & v & m & H)]]]; cbn [e_native e_smap e_fselect e_finsert watch] in H; try discriminate.
  - destruct (id =? N_print)%nat; [|discriminate]. unfold talks in H. destruct (bin_print _ _ _ _); try discriminate. destruct (stop _); discriminate.
  - unfold smap_select in H. destruct id as [|[|[|[|[|[|id]]]]]]; try discriminate H; destruct key; try discriminate H; destruct (slot_of _ bytes) as [sl|]; try discriminate H;
      destruct (slot_value m sl); discriminate H.
Qed.
