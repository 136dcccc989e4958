(** Programs that import files: what is loaded, how deep imports go, programs that do not import, whole runs. *)
From Coq Require Import ZArith String List Lia Bool.
From Verif Require Import Base StringModel ValueModel MapModel ListModel ExeModel ArithModel ObjModel FrameModel SysModel SourceModel
  LexModel ParseModel CodegenModel CompileModel BuiltinModel SysProofs SourceProofs VmModel LimitSpec LimitProofs.
From Verif Require Import CompSpec CodegenProofs3 RunProofs BalanceProofs DepthSpec DepthProofs BuiltinProofs NetSpec NetProofs ImportModel ImportProofs.
Import ListNotations.
Open Scope Z_scope.

(** * What is loaded *)
Section Load.
Variables (cwd : option (list Z)) (fs : list Z -> option (list Z)) (big : Z).
Hypothesis Hcwd : forall dir, cwd = Some dir -> dir <> [] /\ no_nul dir.

Lemma folder_starts path f d r : folder_spec cwd path f -> (path = Some (47 :: d) \/ path = None /\ cwd = Some (47 :: r)) -> exists f', f = 47 :: f'.
Proof.
  intros H [->|[-> C]]; cbn [folder_spec] in H.
  - destruct H as (file & E & (d' & ->) & _). destruct d' as [|c d']; [exists []; reflexivity|]. cbn [app] in E. injection E as <- _. exists (d' ++ [47]). reflexivity.
  - destruct H as (dir & E & [[_ ->]|[_ ->]]); rewrite C in E; injection E as <-; eauto. exists (r ++ [47]). reflexivity.
Qed.

(** The program whose file is [full]. *)
Lemma load_is u file f full : folder_spec cwd (p_path u) f -> no_nul f -> no_nul file -> (exists f', f = 47 :: f') ->
  full = (if is_absolute file then file else f ++ file) ->
  (1024 <= Z.of_nat (length full) -> load cwd fs big u file = RErr) /\
  (Z.of_nat (length full) < 1024 ->
    (fs full = None -> load cwd fs big u file = RErr) /\
    (forall text, fs full = Some text -> Z.of_nat (length text) < 2 ^ 31 -> SIZEOF_SOURCE + Z.of_nat (length full) + Z.of_nat (length text) + 2 <= big ->
      load cwd fs big u file = match compile text with ROk x => ROk (mkprog x (Some full)) | RErr => RErr | RUB => RUB end)).
Proof.
  intros Hf Nf Ns Ab Ef. assert (Hc : forall dir, cwd = Some dir -> dir <> []) by (intros dir H; exact (proj1 (Hcwd dir H))).
  assert (Hn : forall dir, cwd = Some dir -> no_nul dir) by (intros dir H; exact (proj2 (Hcwd dir H))).
  destruct (import_path cwd (p_path u) file (repeat 0 1024) f Hf Nf Ns Hc) as [I1 I2]. rewrite <- Ef in I1, I2. 
  assert (Lr : Z.of_nat (length (repeat 0 1024)) = 1024) by reflexivity. rewrite Lr in I1, I2.
  assert (Ab2 : exists r, full = 47 :: r).
  { rewrite Ef. destruct (is_absolute file) eqn:A; [apply absolute_is; exact A|]. destruct Ab as [f' ->]. eexists. reflexivity. }
  assert (Rs : forall p, resolved cwd full p <-> p = full).
  { intros p. destruct Ab2 as [r E]. split; [intros [(r' & _ & ->)|(_ & H & _)]; [reflexivity|exfalso; exact (H r E)]|intros ->; left; eauto]. }
  assert (Nn : no_nul full).
  { rewrite Ef. destruct (is_absolute file); [exact Ns|]. unfold no_nul in *. rewrite in_app_iff. tauto. }
  unfold load. split.
  - intros H. rewrite (I1 H). reflexivity.
  - intros H. destruct (I2 H) as (b & -> & _ & ->). split.
    + intros Hm. rewrite (file_missing cwd fs big full Hn Nn) by (intros p R; apply Rs in R; subst; exact Hm). reflexivity.
    + intros text Ht Lt Bg. destruct (file_ok cwd fs big Hn full full text Nn (proj2 (Rs full) eq_refl) Ht Lt Bg) as (s & -> & T & A & _ & P & _). rewrite T, A, P. reflexivity.
Qed.
End Load.

(** * Where a script is *)
Lemma folder_tells cwd p m f : folder_spec cwd (Some p) f -> text f -> short f -> bin_folder (Some p) m = OOk ([VStr f], m).
Proof.
  intros (file & -> & (d & ->) & Nf) T S. unfold bin_folder.
  replace (rev ((d ++ [47]) ++ file)) with (rev file ++ 47 :: rev d) by (rewrite !rev_app_distr; reflexivity).
  rewrite popped_app by (rewrite <- in_rev; exact Nf). rewrite rev_length.
  replace (length ((d ++ [47%Z]) ++ file) - length file)%nat with (length (d ++ [47%Z])) by (rewrite (app_length (d ++ [47])); lia).
  rewrite <- app_assoc. rewrite (new_string_text (d ++ [47]) (file ++ [0]) T S). reflexivity.
Qed.
Lemma location_tells p m : plain_text p -> bin_location (Some p) m = OOk ([VStr p], m).
Proof. intros H. unfold bin_location, give_string. rewrite (vstring_plain p H). reflexivity. Qed.
Lemma cwd_tells dir m : plain_text dir -> Z.of_nat (length dir) < 1024 -> bin_cwd (Some dir) m = OOk ([VStr dir], m).
Proof.
  intros H L. unfold bin_cwd. destruct (getcwd_ok dir (repeat 0 1024)) as (rest & -> & _); [change (length (repeat 0 1024)) with 1024%nat; lia|].
  rewrite c_string_app by (apply H). unfold give_string. rewrite (vstring_plain dir H). reflexivity.
Qed.
Lemma cwd_long dir m : 1024 <= Z.of_nat (length dir) -> bin_cwd (Some dir) m = OErr.
Proof. intros L. unfold bin_cwd, c_getcwd. change (length (repeat 0 1024)) with 1024%nat. destruct (_ <? _) eqn:Q; [reflexivity|]. apply Z.ltb_ge in Q. lia. Qed.
Lemma nowhere_tells cwd m : bin_folder None m = OOk ([VNone], m) /\ bin_location None m = OOk ([VNone], m) /\ (cwd = None -> bin_cwd cwd m = OErr).
Proof. split; [reflexivity|]. split; [reflexivity|]. intros ->. reflexivity. Qed.

(** * Runs *)
Section Imports.
Variables (E : env) (size : Z) (cwd : option (list Z)) (fs : list Z -> option (list Z)) (big : Z).
Hypothesis Hsize : 256 <= size.
Notation istep := (istep E size cwd fs big).
Notation isteps := (isteps E size cwd fs big).
Notation env_of := (env_of E cwd).
Notation vstep := (vstep E size cwd).

(** The states a run that starts with the program [u] passes. *)
Definition reached (u : program) (m : mem) (i : istate) : Prop := exists k, isteps k (istart u m) = INext i.

Lemma reached_kept u m i : reached u m i -> ichain i /\ within size (i_vs i) /\ length (i_codes i) = length (v_codes (i_vs i)).
Proof.
  intros [k H]. destruct (isteps_kept E size cwd fs big k (istart u m) i) as (C & W & cs & ps & A & B & L); [constructor|apply alone_within; assumption|exact H|].
  split; [exact C|]. split; [exact W|]. rewrite A, B. cbn. lia.
Qed.

(** Frames of imports below the current one. *)
Fixpoint imports (b : list below) : Z := match b with [] => 0 | BNative :: r => 1 + imports r | BRun _ _ :: r => imports r end.

Lemma chain_imports imp r b : chain imp r b -> 2 * imports b <= vlen r.
Proof. induction 1; cbn [imports length]; lia. Qed.

Lemma few_imports u m i : reached u m i -> imports (i_rest i) <= 7.
Proof.
  intros R. destruct (reached_kept u m i R) as (C & (W & _) & _). apply chain_imports in C. unfold frames_of in W. cbn [length] in W. lia.
Qed.

(** The program of a function stays what it is. *)
Lemma home_kept u m i k i' c u' : reached u m i -> isteps k i = INext i' -> nth_error (i_codes i) c = Some u' -> nth_error (i_codes i') c = Some u'.
Proof.
  intros R H N. destruct (reached_kept u m i R) as (C & W & _). destruct (isteps_kept E size cwd fs big k i i' C W H) as (_ & _ & cs & ps & _ & B & _).
  rewrite B. rewrite nth_error_app1; [exact N|]. apply nth_error_Some. congruence.
Qed.


(** What a function made by a program runs. *)
Lemma fun_made u m i i' ops : reached u m i -> exe_fetch (p_exe (i_prog i)) (f_pc (v_cur (i_vs i))) = ROk (Some (OP_PUSHFUN, ops)) -> istep i = INext i' ->
  exists l c clo st, f_stack (v_cur (i_vs i')) = VRef l :: st /\ nth_error (m_objs (v_mem (i_vs i'))) l = Some (OFun c clo) /\ nth_error (i_codes i') c = Some (i_prog i) /\ i_prog i' = i_prog i.
Proof.
  intros R F H. destruct (reached_kept u m i R) as (_ & _ & L). assert (K : sort_at i = KFun) by (unfold sort_at; rewrite F; reflexivity).
  rewrite istep_eq, K in H. unfold ImportProofs.vstep, step in H. rewrite F in H. destruct (i_vs i) as [mm cs [pc st lo cl wa] rest]. unfold with_pc, exec in H. cbv zeta in H.
  cbn [v_mem v_codes v_cur v_rest f_pc f_stack f_locals f_clo f_want] in *. destruct ops as [|[] [|[] [|[] [|]]]]; try discriminate H. cbn [alloc] in H.
  unfold npush in H. destruct (vpush _ _ _) as [t|] eqn:V; [|discriminate H]. cbn [go] in H. injection H as <-. apply vpush_some in V. destruct V as [-> _].
  cbn [i_vs i_codes i_prog with_stack v_cur f_stack v_mem m_objs]. do 4 eexists. split; [reflexivity|]. split; [rewrite nth_error_app2, Nat.sub_diag by lia; reflexivity|].
  split; [|reflexivity]. rewrite nth_error_app2 by lia. rewrite L, Nat.sub_diag. reflexivity.
Qed.

Lemma fun_called i i' argc want l st c clo u' : exe_fetch (p_exe (i_prog i)) (f_pc (v_cur (i_vs i))) = ROk (Some (OP_CALL, [PInt argc; PInt want])) ->
  f_stack (v_cur (i_vs i)) = VRef l :: st -> nth_error (m_objs (v_mem (i_vs i))) l = Some (OFun c clo) -> nth_error (i_codes i) c = Some u' ->
  istep i = INext i' -> i_prog i' = u' /\ i_rest i' = BRun (i_prog i) (i_imp i) :: i_rest i.
Proof.
  intros F St Ol Nc H. assert (K : sort_at i = KCall c) by (unfold sort_at, called; rewrite F, St, Ol; reflexivity).
  rewrite istep_eq, K, Nc in H. destruct (vstep i (i_vs i)); try discriminate H. injection H as <-. auto.
Qed.

(** * Programs that do not import *)
Section Single.
Variable u : program.

Definition single (i : istate) : Prop :=
  i_prog i = u /\ Forall (fun p => p = u) (i_codes i) /\ length (i_codes i) = length (v_codes (i_vs i)) /\ ichain i /\ Forall (fun b => exists w, b = BRun u w) (i_rest i).

Definition importing (i : istate) : Prop := exists argc e want, sort_at i = KImport argc e want.

Lemma call_code i c t : sort_at i = KCall c -> vstep i (i_vs i) = SNext t -> (c < length (v_codes (i_vs i)))%nat.
Proof.
  unfold sort_at, called, ImportProofs.vstep, step. intros K V. destruct (exe_fetch _ _) as [[[op ops]|]| |]; try discriminate K. destruct op; try discriminate K. destruct ops as [|[a| | | |] [|[w| | | |] [|]]]; try discriminate K.
  destruct (i_vs i) as [mm cs [pc st lo cl wa] rest]. unfold with_pc, exec in V. cbv zeta in V. cbn [v_mem v_codes v_cur v_rest f_pc f_stack f_locals f_clo f_want] in *.
  destruct st as [|v st]; [discriminate K|]. destruct v; try discriminate K. destruct (nth_error (m_objs mm) l) as [[| | |n clo|id ac| | | |]|] eqn:O; try discriminate K.
  - injection K as ->. destruct (32 <? _); [discriminate V|]. destruct (wrap32 _ <? 0); [discriminate V|]. destruct (_ <? wrap32 _); [discriminate V|]. unfold do_call in V. cbn [with_stack v_mem v_codes v_cur v_rest] in V. rewrite O in V.
    destruct (nth_error cs c) eqn:N; [|discriminate V]. apply nth_error_Some. congruence.
  - destruct (id =? N_import)%nat; discriminate K.
Qed.

Definition alike (r : sres) (q : ires) : Prop :=
  match r with SNext t => exists i', q = INext i' /\ i_vs i' = t /\ single i' | r => q = IEnd r end.

Lemma single_step i : single i -> ~ importing i -> alike (step (env_of u) size (p_exe u) (i_vs i)) (istep i).
Proof.
  intros (P & C & L & Ch & B) N. rewrite istep_eq. assert (V : forall s, vstep i s = step (env_of u) size (p_exe u) s) by (intros s; unfold ImportProofs.vstep; rewrite P; reflexivity).
  assert (Nx : forall t, vstep i (i_vs i) = SNext t -> ichain i -> ichain i) by auto.
  destruct (sort_at i) eqn:K.
  - rewrite <- V. destruct (vstep i (i_vs i)) as [t| | | | | |] eqn:S; try reflexivity. cbn [go alike]. pose proof (call_code _ _ _ K S) as Lc.
    destruct (nth_error (i_codes i) c) as [u'|] eqn:Q; [|apply nth_error_None in Q; lia]. rewrite Forall_forall in C. pose proof (C u' (nth_error_In _ _ Q)) as ->.
    apply vstep_rest in S. rewrite K in S. destruct S as [S1 [f S2]]. eexists. split; [reflexivity|]. split; [reflexivity|]. unfold single, ichain. cbn [i_prog i_codes i_vs i_imp i_rest].
    split; [reflexivity|]. split; [apply Forall_forall; exact C|]. split; [congruence|]. split; [rewrite S2; constructor; exact Ch|]. constructor; [rewrite P; eauto|exact B].
  - exfalso. apply N. do 3 eexists. exact K.
  - unfold ichain in Ch. destruct (i_imp i) eqn:I.
    + assert (R : v_rest (i_vs i) = [] /\ i_rest i = []).
      { inversion Ch as [E1 E2 E3|uu imp w g r b C' E1 E2 E3|]; [auto|]. exfalso. rewrite <- E3 in B. inversion B as [|? ? [w' X] _]. discriminate X. }
      destruct R as [R1 R2]. rewrite R2. cbn [List.tl]. unfold shorter. rewrite R1. rewrite V. destruct (step _ _ _ (i_vs i)) as [t| | | | | |] eqn:S; try reflexivity. exfalso.
      destruct (vstep_last E size cwd i t K (i_vs i) eq_refl (eq_trans (V (i_vs i)) S)) as [_ [f X]]. rewrite R1 in X. discriminate X.
    + rewrite V. destruct (step _ _ _ (i_vs i)) as [t| | | | | |] eqn:S; try reflexivity. cbn [go alike].
      destruct (vstep_last E size cwd i t K (i_vs i) eq_refl (eq_trans (V (i_vs i)) S)) as [X1 [f X2]].
      inversion Ch as [| |uu imp g r b C' E1 E2 E3]. rewrite <- E3 in B. inversion B as [|? ? [w' X] B']; subst. injection X as -> ->.
      eexists. split; [reflexivity|]. split; [reflexivity|]. unfold single, ichain. cbn [i_prog i_codes i_vs i_imp i_rest]. split; [reflexivity|]. split; [exact C|]. split; [congruence|]. split; [|exact B'].
      rewrite X2 in E2. injection E2 as _ ->. exact C'.
  - rewrite <- V. destruct (vstep i (i_vs i)) as [t| | | | | |] eqn:S; try reflexivity. cbn [go alike]. apply vstep_rest in S. rewrite K in S. destruct S as [[k S1] S2].
    eexists. split; [reflexivity|]. split; [reflexivity|]. unfold single, ichain. cbn [i_prog i_codes i_vs i_imp i_rest]. rewrite S1, S2, !app_length. cbn [length]. repeat (split; [auto; try lia|]); [|exact B].
    apply Forall_app. split; [exact C|]. constructor; [exact P|constructor].
  - rewrite <- V. destruct (vstep i (i_vs i)) as [t| | | | | |] eqn:S; try reflexivity. cbn [go alike]. apply vstep_rest in S. rewrite K in S. destruct S as [S1 S2].
    eexists. split; [reflexivity|]. split; [reflexivity|]. unfold single, ichain. cbn [i_prog i_codes i_vs i_imp i_rest]. rewrite S1, S2. repeat (split; [assumption|]). exact B.
Qed.

Lemma single_run n : forall i, single i -> (forall k ik, (k < n)%nat -> isteps k i = INext ik -> ~ importing ik) ->
  alike (steps (env_of u) size (p_exe u) n (i_vs i)) (isteps n i).
Proof.
  induction n as [|n IH]; intros i S H; [exists i; auto|]. cbn [steps]. rewrite isteps_S.
  pose proof (single_step i S (H 0%nat i ltac:(lia) eq_refl)) as A. destruct (step _ _ _ (i_vs i)) as [t| | | | | |]; cbn [alike] in A; try (rewrite A; reflexivity).
  destruct A as (i' & A1 & A2 & A3). rewrite A1, <- A2. apply IH; [exact A3|]. intros k ik Lk Hk. apply (H (Datatypes.S k)); [lia|]. rewrite isteps_S, A1. exact Hk.
Qed.

Lemma start_single m : single (istart u m).
Proof. unfold single, ichain. cbn. repeat split; try constructor. Qed.

(** An import that is asked for is seen by the machine of VmModel.v as a call of the native function [N_import]. *)
Lemma importing_step i : single i -> importing i -> (forall argv m, e_native E N_import argv m = OErr) ->
  match step (env_of u) size (p_exe u) (i_vs i) with SNext _ | SDone _ _ | VmModel.SUB | SLoop => False | _ => True end.
Proof.
  intros (P & _) (argc & e & want & K) H. unfold sort_at, called in K. rewrite P in K. unfold step. destruct (exe_fetch _ _) as [[[op ops]|]| |]; try discriminate K.
  destruct op; try discriminate K. destruct ops as [|[a| | | |] [|[w| | | |] [|]]]; try discriminate K.
  destruct (i_vs i) as [mm cs [pc st lo cl wa] rest]. unfold with_pc, exec. cbv zeta. cbn [v_mem v_codes v_cur v_rest f_pc f_stack f_locals f_clo f_want] in *.
  destruct st as [|v st]; [discriminate K|]. destruct v; try discriminate K. destruct (nth_error (m_objs mm) l) as [[| | |n clo|id ac| | | |]|] eqn:O; try discriminate K.
  destruct (id =? N_import)%nat eqn:I; [|discriminate K]. apply Nat.eqb_eq in I. subst id.
  destruct (32 <? _); [exact Logic.I|]. destruct (wrap32 _ <? 0); [exact Logic.I|]. destruct (_ <? wrap32 _); [exact Logic.I|]. unfold do_call. cbn [with_stack v_mem v_codes v_cur v_rest]. rewrite O.
  destruct (MAX_FRAMES <=? _); [exact Logic.I|]. unfold ImportModel.env_of. cbn [e_native]. change (N_import =? N_cwd)%nat with false. change (N_import =? N_folder)%nat with false. change (N_import =? N_location)%nat with false.
  cbn iota. rewrite H. exact Logic.I.
Qed.

Lemma run_single n m : (forall argv m, e_native E N_import argv m = OErr) ->
  match steps (env_of u) size (p_exe u) n (vm_start m) with
  | SNext s => exists i, isteps n (istart u m) = INext i /\ i_vs i = s
  | SErr | SLimit | VmModel.SBad => True
  | r => isteps n (istart u m) = IEnd r
  end.
Proof.
  intros H. change (vm_start m) with (i_vs (istart u m)). generalize (start_single m). generalize (istart u m). induction n as [|n IH]; intros i S; [exists i; auto|].
  cbn [steps]. rewrite isteps_S. assert (D : importing i \/ ~ importing i).
  { unfold importing. destruct (sort_at i); [right|left; eauto|right|right|right]; intros (? & ? & ? & ?); discriminate. }
  destruct D as [I|I].
  - pose proof (importing_step i S I H) as A. destruct (step _ _ _ _); try contradiction; exact Logic.I.
  - pose proof (single_step i S I) as A. destruct (step _ _ _ (i_vs i)) as [t| | | | | |]; cbn [alike] in A; try (rewrite A; reflexivity); try exact Logic.I.
    destruct A as (i' & A1 & A2 & A3). rewrite A1, <- A2. apply IH, A3.
Qed.
End Single.
End Imports.
