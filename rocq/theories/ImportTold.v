(** Programs that import files: imports of programs without calls, followed to the end. *)
From Coq Require Import ZArith String List Lia Bool.
From Verif Require Import Base StringModel AstModel ValueModel MapModel ListModel ExeModel ArithModel ObjModel FrameModel SysModel SourceModel
  LexModel ParseModel CodegenModel CompileModel BuiltinModel SysProofs SourceProofs VmModel LimitSpec LimitProofs.
From Verif Require Import CompSpec CodegenProofs3 RunProofs BalanceProofs DepthSpec DepthProofs CallProofs BuiltinProofs NetSpec NetProofs ImportModel ImportProofs ImportMore.
Import ListNotations.
Open Scope Z_scope.

Section Imports.
Variables (E : env) (size : Z) (cwd : option (list Z)) (fs : list Z -> option (list Z)) (big : Z).
Hypothesis Hsize : 256 <= size.
Notation istep := (istep E size cwd fs big).
Notation isteps := (isteps E size cwd fs big).
Notation env_of := (env_of E cwd).
Notation load := (load cwd fs big).

(** * What an import does that does not get to a program *)
Lemma import_all i argc want l args st :
  exe_fetch (p_exe (i_prog i)) (f_pc (v_cur (i_vs i))) = ROk (Some (OP_CALL, [PInt argc; PInt want])) ->
  f_stack (v_cur (i_vs i)) = VRef l :: args ++ st -> vlen args = argc -> argc <= 32 -> - 2 ^ 31 <= want < 2 ^ 31 ->
  nth_error (m_objs (v_mem (i_vs i))) l = Some (ONative N_import 1) ->
  (16 <= depth_of i -> istep i = IEnd SLimit) /\
  (depth_of i <= 15 ->
    match hd_error args with
    | Some (VStr file) => ~ In 0 file ->
        match load (i_prog i) file with
        | ROk _ => depth_of i = 15 -> istep i = IEnd SLimit
        | RErr => istep i = IEnd SErr
        | RUB => istep i = IEnd VmModel.SUB
        end
    | _ => istep i = IEnd SErr
    end).
Proof.
  intros F St Na Ha Hw Hl. rewrite (import_sort E size cwd fs big i argc want l args st F St Na Ha Hw Hl). unfold do_import. cbn [with_stack with_pc v_cur v_rest v_mem v_codes].
  change (vlen (mkfr ?p ?q ?r ?s ?t :: v_rest (i_vs i))) with (depth_of i). unfold MAX_FRAMES. generalize (depth_of i). intros d. split; intros D.
  - rewrite (proj2 (Z.leb_le _ _)) by lia. reflexivity.
  - rewrite (proj2 (Z.leb_gt _ _)) by lia. unfold adjust. change (Z.to_nat 1) with 1%nat. destruct args as [|v ar]; [reflexivity|]. cbn [hd_error firstn length app repeat Nat.sub].
    destruct v as [| | | |file| | |l0]; try reflexivity.
    intros Z. cbn -[c_string ImportModel.load alloc new_map]. rewrite (c_string_app file [] Z). destruct (load (i_prog i) file); try reflexivity. intros Hd15. subst d. reflexivity.
Qed.

(** * Programs without calls *)
Section Flat.
Variables (u : program) (root : stmt).
Hypothesis Cd : compiled root (p_exe u).
Hypothesis Cf : callfree_stmt root = true.

Lemma flat_run m n : 
  match steps (env_of u) size (p_exe u) n (vm_start m) with
  | SNext s => v_rest s = [] /\ exists cs, isteps n (istart u m) = INext (mkis s cs u true [])
  | r => isteps n (istart u m) = IEnd r
  end.
Proof.
  induction n as [|n IH]; [split; [reflexivity|exists []; reflexivity]|]. replace (S n) with (n + 1)%nat by lia. rewrite steps_add', isteps_add.
  destruct (steps _ _ _ n _) as [s| | | | | |] eqn:S; try (rewrite IH; reflexivity). destruct IH as [R [cs I]]. rewrite I. cbn [steps]. rewrite isteps_S.
  destruct (compiled_balanced root _ Cd) as (D & _ & B). destruct (B _ _ _ _ _ S) as [P _].
  assert (Q : forall op ops, exe_fetch (p_exe u) (f_pc (v_cur s)) = ROk (Some (op, ops)) -> op <> OP_CALL).
  { intros op ops F. pose proof Cd as (H1 & H2 & H3 & evs & H4 & H5 & H6). destruct (program_fetch root evs H2 H4 H5 H6) as (x' & Hx' & Hfetch & _). rewrite H1 in Hx'. injection Hx' as <-.
    rewrite (Hfetch _ P) in F. injection F as F. apply nth_error_In in F. pose proof (program_quiet root Cf) as Q. unfold quiet in Q. rewrite Forall_forall in Q. exact (Q _ F). }
  rewrite istep_eq. set (i := mkis s cs u true []). assert (V : forall t, ImportProofs.vstep E size cwd i t = step (env_of u) size (p_exe u) t) by reflexivity.
  destruct (sort_at i) eqn:K.
  1,2: exfalso; unfold sort_at, i in K; cbn [i_prog i_vs] in K; destruct (exe_fetch _ _) as [[[op ops]|]| |] eqn:F; try discriminate K; pose proof (Q _ _ eq_refl) as N; destruct op; try discriminate K; exact (N eq_refl).
  - cbn [i i_imp i_rest List.tl i_vs]. unfold shorter. rewrite R. rewrite V. destruct (step _ _ _ s) as [t| | | | | |] eqn:T; try reflexivity. exfalso.
    destruct (vstep_last E size cwd i t K s eq_refl T) as [_ [f X]]. rewrite R in X. discriminate X.
  - rewrite V. cbn [i i_vs]. destruct (step _ _ _ s) as [t| | | | | |] eqn:T; try reflexivity. pose proof (vstep_rest E size cwd i t T) as X. rewrite K in X. destruct X as [_ X]. cbn [i i_vs] in X. cbn [go].
    split; [congruence|]. eexists. reflexivity.
  - rewrite V. cbn [i i_vs]. destruct (step _ _ _ s) as [t| | | | | |] eqn:T; try reflexivity. pose proof (vstep_rest E size cwd i t T) as X. rewrite K in X. destruct X as [_ X]. cbn [i i_vs] in X. cbn [go].
    split; [congruence|]. eexists. reflexivity.
Qed.

Lemma flat_shallow m n j : 1 <= n -> shallow E size cwd fs big n j (istart u m).
Proof.
  intros H k ik _ Hk. pose proof (flat_run m k) as F. rewrite Hk in F. destruct (steps _ _ _ k _) as [s| | | | | |]; try discriminate F. destruct F as [R [cs F]]. injection F as ->.
  unfold depth_of. cbn [i_vs]. rewrite R. cbn [length]. lia.
Qed.

(** The import of such a program. *)
Section One.
Variables (i : istate) (argc want : Z) (l : nat) (args st : list value) (file : list Z).
Hypothesis C : ichain i.
Hypothesis W : within size (i_vs i).
Hypothesis F : exe_fetch (p_exe (i_prog i)) (f_pc (v_cur (i_vs i))) = ROk (Some (OP_CALL, [PInt argc; PInt want])).
Hypothesis St : f_stack (v_cur (i_vs i)) = VRef l :: args ++ st.
Hypothesis Na : vlen args = argc.
Hypothesis Ha : argc <= 32.
Hypothesis Hw : - 2 ^ 31 <= want < 2 ^ 31.
Hypothesis Hl : nth_error (m_objs (v_mem (i_vs i))) l = Some (ONative N_import 1).
Hypothesis Hf : hd_error args = Some (VStr file).
Hypothesis Hz : ~ In 0 file.
Hypothesis Ld : load (i_prog i) file = ROk u.
Hypothesis Hc : v_codes (i_vs i) = [].
Hypothesis Hi : i_codes i = [].
Hypothesis Hd : depth_of i <= 12.

Lemma import_flat j :
  match steps (env_of u) size (p_exe u) j (vm_start (v_mem (i_vs i))) with
  | SNext _ => exists i', isteps (S j) i = INext i'
  | SDone rets m' => exists k cs ps, isteps k i =
      match results want rets with
      | OOk vs => if vlen vs + vlen st <=? 16 then
          INext (mkis (mkvs m' cs (mkfr (f_pc (v_cur (i_vs i)) + 1) (rev vs ++ st) (f_locals (v_cur (i_vs i))) (f_clo (v_cur (i_vs i))) (f_want (v_cur (i_vs i)))) (v_rest (i_vs i))) ps (i_prog i) (i_imp i) (i_rest i))
          else IEnd SLimit
      | _ => IEnd VmModel.SUB
      end
  | r => isteps (S j) i = IEnd r
  end.
Proof.
  pose proof (flat_run (v_mem (i_vs i)) j) as R. set (m := v_mem (i_vs i)) in *.
  assert (A : alone (v_codes (i_vs i)) (i_codes i) u m = istart u m) by (rewrite Hc, Hi; reflexivity).
  assert (Sh : forall k, shallow E size cwd fs big (13 - depth_of i) k (alone (v_codes (i_vs i)) (i_codes i) u m)) by (intros k; rewrite A; apply flat_shallow; lia).
  assert (Fl : forall r, isteps j (istart u m) = IEnd r -> (forall rets m', r <> SDone rets m') -> isteps (S j) i = IEnd r).
  { intros r H N. rewrite <- A in H. exact (import_fails E size cwd fs big Hsize i argc want l args st file u W F St Na Ha Hw Hl Hf Hz Ld j r H N (Sh j)). }
  destruct (steps _ _ _ j _) as [s|rets m'| | | | |] eqn:S; try (apply Fl; [exact R|discriminate]).
  - destruct R as [_ [cs R]]. rewrite <- A in R. eexists. exact (import_running E size cwd fs big Hsize i argc want l args st file u W F St Na Ha Hw Hl Hf Hz Ld j _ R (Sh j)).
  - destruct (isteps_last E size cwd fs big _ _ _ R) as (k & ik & _ & R1 & R2). rewrite <- A in R1.
    destruct (import_returns E size cwd fs big Hsize i argc want l args st file u W F St Na Ha Hw Hl Hf Hz Ld k ik rets m' R1 R2 (Sh k)) as (cs & ps & Q).
    do 3 eexists. exact Q.
Qed.
End One.
End Flat.
End Imports.
