(** Functions: from the text on, through the compiled code. *)
From Coq Require Import ZArith List Bool Lia.
From Verif Require FrameModel LimitSpec.
From Verif Require Import Base FloatModel StringModel ValueModel ExeModel ArithModel AstModel CodegenModel CompSpec CodegenProofs CodegenProofs2 CodegenProofs3 MapModel ObjModel VmModel
  SrcModel LexModel ParseModel FuelProofs SimProofs RunProofs ParseSafe CompileModel CompileProofs BalanceSpec BalanceProofs DepthSpec DepthProofs
  ScopeSpec ScopeProofs CalcSpec CalcProofs WhileSpec WhileProofs FunSpec FunProofs.
Import ListNotations.
Open Scope Z_scope.

(** * These programs are compiled *)
Section Ok.
Variable T : list Z -> option (list param * stmt).

Lemma fsimple_ok : (forall e, fsimple T e -> ok_expr MVal e = true /\ ok_expr MRets e = true /\ tuple_len e = 1) /\
  (forall es, fsimple_all T es -> ok_exprs es = true).
Proof.
  apply expr_mut2; cbn [fsimple fsimple_all]; intros; try contradiction; try (cbn; auto; fail).
  - destruct H0 as [_ P]. destruct (H P) as (A & _). cbn. rewrite A. auto.
  - destruct H1 as (_ & P1 & P2). destruct (H P1) as (A & _). destruct (H0 P2) as (B & _). cbn. rewrite A, B. auto.
  - destruct H1 as (P1 & P2). destruct (H P1) as (A & _). destruct (H0 P2) as (B & _). cbn. rewrite A, B. auto.
  - destruct H1 as (P1 & P2). destruct (H P1) as (A & _). destruct (H0 P2) as (B & _). cbn. rewrite A, B. auto.
  - destruct f; try contradiction. destruct H1 as [_ P]. specialize (H0 P). cbn. rewrite H0. auto.
  - destruct H1 as [P1 P2]. destruct (H P1) as (A & _). cbn. rewrite A, (H0 P2). reflexivity.
Qed.

Lemma ftuple_ok e : ftuple T e -> ok_expr MRets e = true.
Proof.
  assert (One : forall e, fsimple T e -> ok_expr MRets e = true) by (intros e0 P; destruct (proj1 fsimple_ok e0 P) as (_ & A & _); auto).
  induction e; intros P; try exact (One _ P). cbn [ftuple] in P. destruct P as [P1 P2]. cbn. rewrite (IHe1 P1), (IHe2 P2). reflexivity.
Qed.

Lemma ftarget_ok e : ftarget T e -> ok_expr MTgt e = true.
Proof. induction e; cbn [ftarget]; intros P; try contradiction; [reflexivity|]. destruct P as [P1 P2]. cbn. rewrite (IHe1 P1), (IHe2 P2). reflexivity. Qed.

Lemma fsimple_high M e : fsimple T e -> forall m a, m <> MTgt -> fits_expr M m e a = true -> a + 1 <= M.
Proof.
  induction e; cbn [fsimple]; intros P m a N F; try contradiction; cbn [fits_expr] in F; rewrite ?andb_true_iff, ?Z.leb_le in F; try lia.
  - destruct P as [_ P]. exact (IHe P MVal a ltac:(discriminate) F).
  - destruct P as (_ & P & _). exact (IHe1 P MVal a ltac:(discriminate) (proj1 F)).
  - destruct F as [[[F _] _] _]. pose proof (exprs_len_nonneg args). lia.
Qed.

Lemma ftuple_high M e : ftuple T e -> forall a, fits_expr M MRets e a = true -> a + tuple_len e <= M.
Proof.
  assert (One : forall e, fsimple T e -> forall a, fits_expr M MRets e a = true -> a + tuple_len e <= M).
  { intros e0 P a F. destruct (proj1 fsimple_ok e0 P) as (_ & _ & ->). exact (fsimple_high M e0 P MRets a ltac:(discriminate) F). }
  induction e; intros P a F; try exact (One _ P a F). cbn [ftuple] in P. destruct P as [P1 P2]. cbn [fits_expr] in F. apply andb_true_iff in F. destruct F as [F1 F2].
  specialize (IHe1 P1 a F1). specialize (IHe2 P2 _ F2). cbn [tuple_len]. lia.
Qed.

Lemma fexpr_ok lp e : fcore T lp (SExpr e) -> ok_expr MVal e = true.
Proof.
  assert (One : fsimple T e -> ok_expr MVal e = true) by (intros P; destruct (proj1 fsimple_ok e P) as (A & _); exact A).
  destruct e; try exact One. destruct e1; try exact One; intros C.
  - destruct C as [_ C]. destruct (proj1 fsimple_ok _ C) as (A & _). cbn. rewrite A. reflexivity.
  - destruct e2; try contradiction C. destruct e2; try contradiction C. destruct C as (C1 & C2 & C3 & _ & C4).
    pose proof (CodegenProofs3.tuple_len_pos e1_1). pose proof (CodegenProofs3.tuple_len_pos e1_2).
    cbn [ok_expr value_mode]. cbn [tuple_len] in *. rewrite (ftarget_ok _ C1), (ftarget_ok _ C2), (proj2 fsimple_ok _ C4).
    replace (MAX_TUPLE <? tuple_len e1_1 + tuple_len e1_2) with false by (symmetry; apply Z.ltb_ge; unfold MAX_TUPLE; lia).
    destruct (_ =? 1); reflexivity.
Qed.

Lemma fcore_ok : (forall t lp, fcore T lp t -> fits_stmt 16 t = true -> ok_stmt lp t = true) /\
  (forall ss lp, fcores T lp ss -> fits_stmts 16 ss = true -> ok_stmts lp ss = true).
Proof.
  apply stmt_mut3.
  - intros e lp C F. exact (fexpr_ok lp e C).
  - intros lp C F. exact C.
  - intros c t IH lp [C1 C2] F. cbn [fits_stmt] in F. apply andb_true_iff in F. destruct F as [_ F]. destruct (proj1 fsimple_ok _ C1) as (A & _).
    cbn [ok_stmt]. rewrite A, (IH lp C2 F). reflexivity.
  - intros c t IHt f IHf lp (C1 & C2 & C3) F. cbn [fits_stmt] in F. rewrite !andb_true_iff in F. destruct F as [[_ F2] F3]. destruct (proj1 fsimple_ok _ C1) as (A & _).
    cbn [ok_stmt]. rewrite A, (IHt lp C2 F2), (IHf lp C3 F3). reflexivity.
  - intros c t IH lp [C1 C2] F. cbn [fits_stmt] in F. apply andb_true_iff in F. destruct F as [_ F]. destruct (proj1 fsimple_ok _ C1) as (A & _).
    cbn [ok_stmt]. rewrite A, (IH true C2 F). reflexivity.
  - intros t IH c lp [C1 C2] F. cbn [fits_stmt] in F. apply andb_true_iff in F. destruct F as [F _]. destruct (proj1 fsimple_ok _ C1) as (A & _).
    cbn [ok_stmt]. rewrite A, (IH true C2 F). reflexivity.
  - intros ss IH lp C F. exact (IH lp C F).
  - intros e lp C F. cbn [fcore fits_stmt] in *. pose proof (ftuple_high 16 e C 0 F) as H.
    cbn [ok_stmt]. rewrite (ftuple_ok e C). replace (MAX_TUPLE <? tuple_len e) with false; [reflexivity|]. symmetry. apply Z.ltb_ge. unfold MAX_TUPLE. lia.
  - intros ? ? ? ? ? C. contradiction C.
  - intros lp _ _. reflexivity.
  - intros t IH ss IHs lp [C1 C2] F. cbn [fits_stmts] in F. apply andb_true_iff in F. destruct F as [F1 F2].
    cbn [ok_stmts]. rewrite (IH lp C1 F1), (IHs lp C2 F2). reflexivity.
Qed.
End Ok.

Lemma ftype_ok t : ftype t -> ok_expr MVal t = true.
Proof.
  induction t; cbn [ftype]; intros F; try contradiction; [reflexivity| |].
  - destruct op; try contradiction. cbn. rewrite (IHt F). reflexivity.
  - destruct op; try contradiction. destruct F as [F1 F2]. cbn. rewrite (IHt1 F1), (IHt2 F2). reflexivity.
Qed.

Lemma plain_ok T ps : Forall (fparam T) ps -> ok_params (plain ps) = true.
Proof.
  induction 1 as [|[x [ty df]] ps [F1 F2] _ IH]; [reflexivity|]. cbn [plain ok_params]. rewrite IH. cbn [fst snd] in *.
  destruct ty as [t|]; destruct df as [d|]; cbn [maybe]; rewrite ?(ftype_ok _ F1), ?(proj1 (proj1 (fsimple_ok T) _ F2)); reflexivity.
Qed.

Lemma program_ok T ss : fcores T false ss -> forall ds, Forall (fun d => fcore T false (snd (snd d)) /\ Forall (fparam T) (fst (snd d))) ds -> fits_stmts 16 (program ds ss) = true ->
  ok_stmts false (program ds ss) = true.
Proof.
  intros C ds. induction ds as [|[f [ps body]] ds IH]; intros D F; [exact (proj2 (fcore_ok T) ss false C F)|].
  inversion_clear D as [|? ? [D1 D0] D2]. cbn [program fits_stmts fits_stmt fst snd] in *. rewrite !andb_true_iff in F. destruct F as [[_ F1] F2].
  cbn [ok_stmts ok_stmt]. rewrite (plain_ok T ps D0), (proj1 (fcore_ok T) body false D1 F1), (IH D2 F2). reflexivity.
Qed.

(** * Without built-in functions *)
(** The same machine, in which a built-in function never comes back. *)
Definition mute (E : env) : env := mkenv (fun _ _ _ => OLoop) (e_smap E) (e_fselect E) (e_finsert E) (e_builtins E).

Lemma select_mute E n : forall m c k, obj_select E n m c k = obj_select (mute E) n m c k.
Proof.
  induction n as [|n IH]; intros m c k; cbn [obj_select]; destruct c; try reflexivity; destruct (nth_error (m_objs m) l) as [[]|]; try reflexivity.
  rewrite <- IH. destruct (obj_select E n m vars k) as [[v m1]| | | |]; cbn [obind fst snd]; try reflexivity.
  destruct (m_pend m1); [reflexivity|]. destruct v; [reflexivity|]. destruct prev; [|reflexivity]. apply IH.
Qed.

Lemma get_mute E scopes k : forall m, get_in E m scopes k = get_in (mute E) m scopes k.
Proof.
  induction scopes as [|[o|] r IH]; intros m; cbn [get_in]; [reflexivity| |apply IH]. unfold select_of. rewrite <- select_mute.
  destruct (obj_select E _ m o k) as [[[v|] m1]| | | |]; cbn [obind fst snd]; auto.
Qed.

Lemma exec_mute E cap s op ops : exec (mute E) cap s op ops = SLoop \/ exec E cap s op ops = exec (mute E) cap s op ops.
Proof.
  destruct op; try (right; reflexivity).
  2,3: right; unfold exec, select_or_none, select_of; destruct ops; [|reflexivity]; destruct (f_stack (v_cur s)) as [|? [|? ?]]; try reflexivity; rewrite <- select_mute; reflexivity.
  2:{ right. unfold exec, get_var. destruct ops as [|[] [|]]; try reflexivity. destruct (vstring _); cbn [obind]; try reflexivity. rewrite get_mute. reflexivity. }
  unfold exec. destruct ops as [|[|argc| | |] [|[|want| | |] [|? ?]]]; try (right; reflexivity).
  destruct (f_stack (v_cur s)) as [|callee st]; [right; reflexivity|].
  destruct (32 <? wrap32 argc); [right; reflexivity|]. destruct (wrap32 argc <? 0); [right; reflexivity|].
  destruct (Z.of_nat (length st) <? wrap32 argc); [right; reflexivity|].
  unfold do_call. destruct callee; try (right; reflexivity). destruct (nth_error (m_objs (v_mem _)) l) as [o|]; [|right; reflexivity].
  destruct o; try (right; reflexivity). destruct (FrameModel.MAX_FRAMES <=? _); [right; reflexivity|]. left. reflexivity.
Qed.

Lemma step_mute E cap x s : step (mute E) cap x s = SLoop \/ step E cap x s = step (mute E) cap x s.
Proof. unfold step. destruct (exe_fetch x (f_pc (v_cur s))) as [[[op ops]|]| |]; try (right; reflexivity). apply exec_mute. Qed.

Lemma steps_mute E cap x n : forall s, steps (mute E) cap x n s <> SLoop -> steps E cap x n s = steps (mute E) cap x n s.
Proof.
  induction n as [|n IH]; intros s H; [reflexivity|]. cbn [steps] in *. destruct (step_mute E cap x s) as [Q|Q]; [rewrite Q in H; congruence|].
  rewrite Q. destruct (step (mute E) cap x s); auto.
Qed.

Lemma mute_short E : short_of_fuel (mute E) -> short_of_fuel E.
Proof. intros [(i & a & m & H)|H]; [discriminate|right; exact H]. Qed.

Lemma mute_unknown E m X : unknown E m X -> unknown (mute E) m X.
Proof. intros U m' y Hy P K. rewrite <- get_mute. exact (U m' y Hy P K). Qed.

Lemma mute_types E m X : knows_types E m X -> knows_types (mute E) m X.
Proof. intros U m' y k Hy Q P K. rewrite <- get_mute. exact (U m' y k Hy Q P K). Qed.

(** * The limit on the frames, and no other *)
Lemma last_one E cap x m i j s t : steps E cap x i m = SNext s -> step E cap x s = SLimit -> steps E cap x j m = SNext t -> step E cap x t = SLimit -> s = t.
Proof.
  assert (A : forall i d s t, steps E cap x i m = SNext s -> step E cap x s = SLimit -> steps E cap x (i + d) m = SNext t -> s = t).
  { intros i0 [|d] s0 t0 H1 H2 H3; [rewrite Nat.add_0_r in H3; congruence|]. rewrite (steps_add E cap x), H1 in H3. cbn [steps] in H3. rewrite H2 in H3. discriminate. }
  intros H1 H2 H3 H4. destruct (Nat.le_ge_cases i j) as [L|L].
  - apply (A i (j - i)%nat s t H1 H2). replace (i + (j - i))%nat with j by lia. exact H3.
  - symmetry. apply (A j (i - j)%nat t s H3 H4). replace (j + (i - j))%nat with i by lia. exact H1.
Qed.

Lemma no_other_limit root x : compiled root x -> fits_stmt 16 root = true -> forall E cap m, 256 <= cap ->
  ~ limit E cap x (comp_program root) true (vm_start m).
Proof.
  intros Cd Ft E cap m Hc (n & t & Hn & Ht & Nb). apply Nb.
  assert (Hl : steps E cap x (n + 1) (vm_start m) = SLimit) by (rewrite (steps_add E cap x), Hn; cbn [steps]; rewrite Ht; reflexivity).
  destruct (shallow_limit_args root x Cd Ft E cap m _ Hc Hl) as (i & s & argc & want & _ & Hs & Hst & Fc & Fa & Fr).
  pose proof (last_one E cap x _ _ _ _ _ Hs Hst Hn Ht) as <-.
  pose proof Cd as (H1 & H2 & H3 & evs & H4 & H5 & H6).
  destruct (program_fetch root evs H2 H4 H5 H6) as (x' & Hx' & Hfetch & _). rewrite H1 in Hx'. injection Hx' as <-.
  destruct (compiled_balanced root x Cd) as (D & _ & B). destruct (B E cap m i s Hs) as [P _].
  rewrite (Hfetch _ P) in Fc. injection Fc as Fc. split; [reflexivity|]. split.
  - unfold LimitSpec.frames_of in Fr. cbn [length] in Fr. unfold FrameModel.MAX_FRAMES. lia.
  - exists argc, want. split; [|exact Fa]. split; [exact P|exact Fc].
Qed.

(** * Without a bound no call is too deep *)
Section NeverDeep.
Variable again : option store -> store -> stmt -> told fate.
Variable calls : list Z -> store -> list value -> told (list value).
Hypothesis Ha : forall w s t, again w s t <> Deep.
Hypothesis Hc : forall f g vs, calls f g vs <> Deep.

Lemma tbind_deep {A B} (t : told A) (f : A -> told B) : t <> Deep -> (forall a, f a <> Deep) -> tbind t f <> Deep.
Proof. intros H1 H2. destruct t; cbn; auto; discriminate. Qed.
Lemma tell_deep a : tell a <> Deep.
Proof. destruct a; discriminate. Qed.

Lemma fsays_deep : (forall e w s, fsays calls w s e <> Deep) /\ (forall es w s, fargs calls w s es <> Deep).
Proof.
  apply expr_mut2; intros; cbn [fsays fargs]; try discriminate.
  - destruct (see w s0 s); discriminate.
  - apply tbind_deep; [auto|]. intros ?. apply tell_deep.
  - apply tbind_deep; [auto|]. intros ?. apply tbind_deep; [auto|]. intros ?. apply tell_deep.
  - apply tbind_deep; [auto|]. intros [|[]| | | | | |]; try discriminate. apply tbind_deep; [auto|]. intros []; discriminate.
  - apply tbind_deep; [auto|]. intros [|[]| | | | | |]; try discriminate. apply tbind_deep; [auto|]. intros []; discriminate.
  - destruct f; try discriminate. apply tbind_deep; [auto|]. intros vs. apply tbind_deep; [apply Hc|]. discriminate.
  - apply tbind_deep; [auto|]. intros vs. apply tbind_deep; [auto|]. discriminate.
Qed.
Lemma ftest_deep w s c : ftest calls w s c <> Deep.
Proof. unfold ftest. apply tbind_deep; [apply fsays_deep|]. intros []; discriminate. Qed.
Lemma ftells_deep e w s : ftells calls w s e <> Deep.
Proof.
  assert (One : forall e, tbind (fsays calls w s e) (fun v => Told [v]) <> Deep) by (intros e0; apply tbind_deep; [apply fsays_deep|discriminate]).
  induction e; try exact (One _). cbn [ftells]. apply tbind_deep; [exact IHe1|]. intros a. apply tbind_deep; [exact IHe2|]. discriminate.
Qed.

Lemma fdoes_deep : (forall t w s, fdoes again calls w s t <> Deep) /\ (forall ss w s, fdoes_all again calls w s ss <> Deep).
Proof.
  apply stmt_mut3; intros; cbn [fdoes fdoes_all]; try discriminate.
  - assert (One : forall e, tbind (fsays calls w s e) (fun _ => Told (Fell s)) <> Deep) by (intros e0; apply tbind_deep; [apply fsays_deep|discriminate]).
    destruct e; try exact (One _). assert (Two : forall f args, tbind (fargs calls w s args) (fun vs => tbind (calls f (outer w s) vs)
      (fun rs => Told (Fell (put_all s (targets e1) rs)))) <> Deep).
    { intros f args. apply tbind_deep; [apply fsays_deep|]. intros vs. apply tbind_deep; [apply Hc|]. discriminate. }
    destruct e1; try (apply tbind_deep; [apply fsays_deep|discriminate]); destruct e2; try exact (One _); destruct e2; try exact (One _); apply Two.
  - apply tbind_deep; [apply ftest_deep|]. intros []; [auto|discriminate].
  - apply tbind_deep; [apply ftest_deep|]. intros []; auto.
  - apply tbind_deep; [apply ftest_deep|]. intros []; [|discriminate]. apply tbind_deep; [auto|]. intros []; auto; discriminate.
  - apply tbind_deep; [auto|]. intros []; try discriminate. apply tbind_deep; [apply ftest_deep|]. intros []; [auto|discriminate].
  - auto.
  - apply tbind_deep; [apply ftells_deep|]. discriminate.
  - apply tbind_deep; [auto|]. intros []; auto; discriminate.
Qed.

Lemma receive_deep w s ps : forall vs, receive calls w s ps vs <> Deep.
Proof.
  induction ps as [|[x [ty df]] ps IH]; intros vs; [discriminate|]. cbn [receive]. apply tbind_deep; [apply IH|]. intros s1. apply tbind_deep.
  - destruct df as [d|]; [|discriminate]. destruct (hd VNone vs); try discriminate. apply fsays_deep.
  - intros v. destruct ty as [t|]; [destruct (accepts t v)|]; discriminate.
Qed.
End NeverDeep.

Lemma never_deep T n : (forall w s t, fstmt T n None w s t <> Deep) /\ (forall f g vs, fcall T n None f g vs <> Deep).
Proof.
  induction n as [|n [IHs IHc]]; [split; intros; discriminate|]. split.
  - intros w s t. exact (proj1 (fdoes_deep _ _ IHs IHc) t w s).
  - intros f g vs. cbn [fcall option_map]. destruct (T f) as [[ps body]|]; [|discriminate].
    apply tbind_deep; [exact (receive_deep _ IHc _ _ _ _)|]. intros s. apply tbind_deep; [exact (proj1 (fdoes_deep _ _ IHs IHc) body _ _)|]. intros []; discriminate.
Qed.

(** * What the machine does *)
Lemma fperforms src ds ss : text_ok src -> slen src < 2 ^ 26 -> reads src (program ds ss) -> fgood ds ss -> fits_stmts 16 (program ds ss) = true ->
  exists x, compile src = ROk x /\ forall E cap m, 256 <= cap -> m_pend m = false -> unknown E m (fnames ds ss) -> knows_types E m (fkinds ds) ->
  forall n,
  match ftold ds ss n (Some 15%nat) with
  | Told (Fell s) => exists j l m', steps E cap x j (vm_start m) = SDone [VRef l] m' /\
      forall y, In y (fmentions_all ss) -> select_of E m' (VRef l) (VStr y) = OOk (s y, m')
  | Told (Gave vs) => exists j m', steps E cap x j (vm_start m) = SDone vs m'
  | Told (Broke _) => False
  | Wrong => exists j, steps E cap x j (vm_start m) = SErr
  | Overflows => exists j, steps E cap x j (vm_start m) = VmModel.SUB
  | Deep => ~ short_of_fuel E -> exists j, steps E cap x j (vm_start m) = SLimit
  | Unfinished => ~ short_of_fuel E -> exists s, steps E cap x n (vm_start m) = SNext s
  end.
Proof.
  intros T L R G Ft. pose proof G as (Nd & C & F & Tn & D).
  assert (W : wf_stmts (program ds ss)). { pose proof R as P. apply reads_parse in P. destruct (parse_tree _ _ _ _ P T) as [W _]. exact W. }
  assert (OK : ok_stmts false (program ds ss) = true).
  { apply (program_ok (defined ds)); [exact C| |exact Ft]. eapply Forall_impl; [|exact D]. intros d (H1 & _ & _ & H2 & _). split; assumption. }
  destruct (compile_good src _ T L R OK) as (x & Cp & Cd). exists x. split; [exact Cp|]. intros E cap m Hc Pe Un Ty n.
  pose proof Cd as (H1 & H2 & H3 & evs & H4 & H5 & H6).
  destruct (program_sim_d (mute E) cap _ evs x m n H2 H3 H4 H5 H6 H1 (fun _ _ _ => eq_refl)) as [Hl|Ho].
  { exfalso. exact (no_other_limit _ x Cd Ft (mute E) cap m Hc Hl). }
  pose proof (fprogram_d (mute E) m ds ss G W Pe (mute_unknown E m _ Un) (mute_types E m _ Ty) n (Some 15%nat)) as A.
  assert (K : forall j r, r <> SLoop -> steps (mute E) cap x j (vm_start m) = r -> steps E cap x j (vm_start m) = r).
  { intros j r Hr Hj. rewrite steps_mute; [exact Hj|congruence]. }
  destruct (ftold ds ss n (Some 15%nat)) as [r| | | |]; cbn [agrees] in A.
  - destruct A as (p & Q & A). rewrite Q in Ho. destruct p as [rets st]. cbn [outcome] in Ho. destruct Ho as [j Ho]. apply K in Ho; [|discriminate].
    destruct r as [s|s|vs]; cbn [fended fst snd] in A; [|contradiction|].
    + destruct A as [-> A]. exists j, (length (m_objs m)), (t_mem st). split; [exact Ho|]. intros y Hy. rewrite <- (A y Hy). unfold select_of. apply select_mute.
    + subst rets. eauto.
  - rewrite A in Ho. destruct Ho as [j Ho]. exists j. apply K; [discriminate|exact Ho].
  - rewrite A in Ho. destruct Ho as [j Ho]. exists j. apply K; [discriminate|exact Ho].
  - rewrite A in Ho. intros Sh. destruct Ho as [[j Ho]|[_ [j Ho]]]; [|exists j; apply K; [discriminate|exact Ho]].
    exfalso. pose proof (fprogram_plain (mute E) m ds ss G W Pe (mute_unknown E m _ Un) (mute_types E m _ Ty) j) as A2.
    assert (End : forall i r, steps (mute E) cap x i (vm_start m) = r -> (forall t, r <> SNext t) -> r = SLoop).
    { intros i r Hi Hr. symmetry. exact (steps_end (mute E) cap x _ _ _ _ _ Ho Hi ltac:(discriminate) Hr). }
    destruct (runs_fuel (mute E) cap _ x Cd m j) as [[i Hi]|H]; [apply End in Hi; discriminate|].
    destruct (ftold ds ss j None) as [r| | | |] eqn:Q; cbn [agrees] in A2.
    + destruct A2 as ([rets st] & Q2 & _). rewrite Q2 in H. destruct H as [i Hi]. apply End in Hi; discriminate.
    + rewrite A2 in H. destruct H as [i Hi]. apply End in Hi; discriminate.
    + rewrite A2 in H. destruct H as [i Hi]. apply End in Hi; discriminate.
    + exact (proj1 (never_deep (defined ds) j) _ _ _ Q).
    + rewrite A2 in H. destruct H as [[S _]|[s Hs]]; [apply Sh; exact (mute_short E S)|]. rewrite Ho in Hs. discriminate.
  - rewrite A in Ho. intros Sh. destruct Ho as [[S _]|[s Hs]]; [destruct Sh; exact (mute_short E S)|]. exists s. apply K; [discriminate|exact Hs].
Qed.

(** * What is told does not change with more patience *)
Definition upto {A} (t t' : told A) : Prop := t = Unfinished \/ t = t'.

Section More.
Variables again again' : option store -> store -> stmt -> told fate.
Variables calls calls' : list Z -> store -> list value -> told (list value).
Hypothesis Ha : forall w s t, upto (again w s t) (again' w s t).
Hypothesis Hc : forall f g vs, upto (calls f g vs) (calls' f g vs).

Lemma upto_same {A} (t : told A) : upto t t.
Proof. right. reflexivity. Qed.
Lemma upto_bind {A B} (t t' : told A) (f f' : A -> told B) : upto t t' -> (forall a, upto (f a) (f' a)) -> upto (tbind t f) (tbind t' f').
Proof. intros [->|<-] H; [left; reflexivity|]. destruct t; cbn; auto using upto_same. Qed.
Hint Resolve upto_same : core.

Lemma fsays_more : (forall e w s, upto (fsays calls w s e) (fsays calls' w s e)) /\ (forall es w s, upto (fargs calls w s es) (fargs calls' w s es)).
Proof.
  apply expr_mut2; intros; cbn [fsays fargs]; auto.
  - apply upto_bind; auto.
  - apply upto_bind; [auto|]. intros ?. apply upto_bind; auto.
  - apply upto_bind; [auto|]. intros [|[]| | | | | |]; auto. apply upto_bind; auto.
  - apply upto_bind; [auto|]. intros [|[]| | | | | |]; auto. apply upto_bind; auto.
  - destruct f; auto. apply upto_bind; [auto|]. intros vs. apply upto_bind; auto.
  - apply upto_bind; [auto|]. intros vs. apply upto_bind; auto.
Qed.
Lemma ftest_more w s c : upto (ftest calls w s c) (ftest calls' w s c).
Proof. unfold ftest. apply upto_bind; [apply fsays_more|auto]. Qed.
Lemma ftells_more e w s : upto (ftells calls w s e) (ftells calls' w s e).
Proof.
  assert (One : forall e, upto (tbind (fsays calls w s e) (fun v => Told [v])) (tbind (fsays calls' w s e) (fun v => Told [v]))) by (intros e0; apply upto_bind; [apply fsays_more|auto]).
  induction e; try exact (One _). cbn [ftells]. apply upto_bind; [exact IHe1|]. intros ?. apply upto_bind; auto.
Qed.

Lemma fdoes_more : (forall t w s, upto (fdoes again calls w s t) (fdoes again' calls' w s t)) /\
  (forall ss w s, upto (fdoes_all again calls w s ss) (fdoes_all again' calls' w s ss)).
Proof.
  apply stmt_mut3; intros; cbn [fdoes fdoes_all]; auto.
  - assert (One : forall e, upto (tbind (fsays calls w s e) (fun _ => Told (Fell s))) (tbind (fsays calls' w s e) (fun _ => Told (Fell s))))
      by (intros e0; apply upto_bind; [apply fsays_more|auto]).
    destruct e; try exact (One _).
    assert (Two : forall f args, upto (tbind (fargs calls w s args) (fun vs => tbind (calls f (outer w s) vs) (fun rs => Told (Fell (put_all s (targets e1) rs)))))
      (tbind (fargs calls' w s args) (fun vs => tbind (calls' f (outer w s) vs) (fun rs => Told (Fell (put_all s (targets e1) rs)))))).
    { intros f args. apply upto_bind; [apply fsays_more|]. intros vs. apply upto_bind; auto. }
    destruct e1; try (apply upto_bind; [apply fsays_more|auto]); destruct e2; try exact (One _); destruct e2; try exact (One _); apply Two.
  - apply upto_bind; [apply ftest_more|]. intros []; auto.
  - apply upto_bind; [apply ftest_more|]. intros []; auto.
  - apply upto_bind; [apply ftest_more|]. intros []; [|auto]. apply upto_bind; [auto|]. intros []; auto.
  - apply upto_bind; [auto|]. intros []; auto. apply upto_bind; [apply ftest_more|]. intros []; auto.
  - apply upto_bind; [apply ftells_more|auto].
  - apply upto_bind; [auto|]. intros []; auto.
Qed.

Lemma receive_more w s ps : forall vs, upto (receive calls w s ps vs) (receive calls' w s ps vs).
Proof.
  induction ps as [|[x [ty df]] ps IH]; intros vs; [auto|]. cbn [receive]. apply upto_bind; [apply IH|]. intros s1. apply upto_bind; [|auto].
  destruct df as [d|]; [|auto]. destruct (hd VNone vs); auto. apply fsays_more.
Qed.
End More.

Lemma levels_more T n : forall d, (forall w s t, upto (fstmt T n d w s t) (fstmt T (S n) d w s t)) /\ (forall f g vs, upto (fcall T n d f g vs) (fcall T (S n) d f g vs)).
Proof.
  induction n as [|n IH]; intros d; [split; intros; [left; reflexivity|]; destruct d as [[|d]|]; [right; reflexivity|left; reflexivity..]|]. split.
  - intros w s t. destruct (IH d) as [A B]. exact (proj1 (fdoes_more _ _ _ _ A B) t w s).
  - intros f g vs. destruct (IH (option_map pred d)) as [A B].
    assert (H : upto (match T f with Some (ps, body) => tbind (receive (fcall T n (option_map pred d)) (Some g) nothing ps vs) (fun s => tbind (fdoes (fstmt T n (option_map pred d)) (fcall T n (option_map pred d)) (Some g) s body)
        (fun r => match r with Gave rs => Told rs | Fell _ => Told [] | Broke _ => Wrong end)) | None => Wrong end)
      (match T f with Some (ps, body) => tbind (receive (fcall T (S n) (option_map pred d)) (Some g) nothing ps vs) (fun s => tbind (fdoes (fstmt T (S n) (option_map pred d)) (fcall T (S n) (option_map pred d)) (Some g) s body)
        (fun r => match r with Gave rs => Told rs | Fell _ => Told [] | Broke _ => Wrong end)) | None => Wrong end)).
    { destruct (T f) as [[ps body]|]; [|right; reflexivity]. apply upto_bind; [exact (receive_more _ _ B _ _ _ _)|]. intros s.
      apply upto_bind; [exact (proj1 (fdoes_more _ _ _ _ A B) body _ _)|]. intros r. right. reflexivity. }
    destruct d as [[|d]|]; [right; reflexivity|exact H|exact H].
Qed.

Lemma ftold_more ds ss d n k : (n <= k)%nat -> ftold ds ss n d <> Unfinished -> ftold ds ss k d = ftold ds ss n d.
Proof.
  intros L. induction L as [|k L IH]; intros H; [reflexivity|]. specialize (IH H).
  destruct (proj1 (levels_more (defined ds) k d) None nothing (SComp ss)) as [Q|Q]; fold (ftold ds ss k d) in Q.
  - rewrite IH in Q. contradiction.
  - rewrite <- IH. symmetry. exact Q.
Qed.

(** A program that is never told to the end runs forever. *)
Lemma fforever src ds ss : text_ok src -> slen src < 2 ^ 26 -> reads src (program ds ss) -> fgood ds ss -> fits_stmts 16 (program ds ss) = true ->
  (forall n, ftold ds ss n (Some 15%nat) = Unfinished) ->
  exists x, compile src = ROk x /\ forall E cap m, 256 <= cap -> m_pend m = false -> unknown E m (fnames ds ss) -> knows_types E m (fkinds ds) -> ~ short_of_fuel E ->
  forall n, exists s, steps E cap x n (vm_start m) = SNext s.
Proof.
  intros T L R G Ft U. destruct (fperforms src ds ss T L R G Ft) as (x & C & H). exists x. split; [exact C|]. intros E cap m Hc Pe Un Ty Sh n.
  specialize (H E cap m Hc Pe Un Ty n). rewrite U in H. exact (H Sh).
Qed.

(** * Factorials *)
Definition n_f : list Z := [102].
Definition n_n : list Z := [110].
Definition fact_body : stmt :=
  SComp (SCons (SIf (EBin BLss (EIdent n_n) (EInt 2)) (SReturn (EInt 1)))
    (SCons (SReturn (EBin BMul (EIdent n_n) (ECall (EIdent n_f) (ECons (EBin BSub (EIdent n_n) (EInt 1)) ENil)))) SNil)).
Definition fact_def : definition := (n_f, ([(n_n, (None, None))], fact_body)).
Definition fact_main (a : Z) : stmts := SCons (SReturn (ECall (EIdent n_f) (ECons (EInt a) ENil))) SNil.
Fixpoint fact_of (k : nat) : Z := match k with O => 1 | S j => Z.of_nat k * fact_of j end.
Definition factorial (a : Z) : Z := fact_of (Z.to_nat a).

Lemma fact_small a n : 0 <= a <= 15 -> (20 <= n)%nat -> ftold [fact_def] (fact_main a) n (Some 15%nat) = Told (Gave [VInt (factorial a)]).
Proof.
  intros Ha Hn. assert (H : ftold [fact_def] (fact_main a) 20 (Some 15%nat) = Told (Gave [VInt (factorial a)])).
  { assert (Q : forall k, (k <= 15)%nat -> ftold [fact_def] (fact_main (Z.of_nat k)) 20 (Some 15%nat) = Told (Gave [VInt (factorial (Z.of_nat k))])).
    { intros k Hk. do 16 (destruct k as [|k]; [vm_compute; reflexivity|]). lia. }
    specialize (Q (Z.to_nat a) ltac:(lia)). rewrite Z2Nat.id in Q by lia. exact Q. }
  rewrite (ftold_more _ _ _ 20 n Hn); [exact H|]. rewrite H. discriminate.
Qed.

Lemma fact_deep d : forall n z g, (d <= n)%nat -> Z.of_nat d + 1 <= z < 2 ^ 63 -> fcall (defined [fact_def]) n (Some d) n_f g [VInt z] = Deep.
Proof.
  induction d as [|d IH]; intros n z g Hn Hz; [destruct n; reflexivity|]. destruct n as [|n]; [lia|].
  assert (N2 : (z <? 2) = false) by (apply Z.ltb_ge; lia).
  assert (Fz : fits64 (z - 1) = AVal (VInt (z - 1))).
  { unfold fits64. replace ((-2 ^ 63 <=? z - 1) && (z - 1 <? 2 ^ 63)) with true; [reflexivity|]. symmetry. rewrite andb_true_iff, Z.leb_le, Z.ltb_lt. lia. }
  cbn [fcall option_map pred]. change (defined [fact_def] n_f) with (Some ([(n_n, (@None expr, @None expr))], fact_body)). cbv beta iota. cbn [receive tbind tl hd].
  unfold fact_body. cbn [fdoes fdoes_all ftells]. unfold ftest. cbn [fsays fargs]. change (see (Some g) (put_in nothing n_n (VInt z)) n_n) with (Some (VInt z)). cbv beta iota. cbn [receive tbind tl hd].
  cbn [tbind means2 tell order arith bool_answer outer]. rewrite N2. cbn [tbind tell].
  change (see (Some g) (put_in nothing n_n (VInt z)) n_n) with (Some (VInt z)). cbn [tbind arith]. rewrite Fz. cbn [tbind tell].
  rewrite IH by lia. reflexivity.
Qed.

Lemma fact_large a n : 16 <= a < 2 ^ 63 -> (20 <= n)%nat -> ftold [fact_def] (fact_main a) n (Some 15%nat) = Deep.
Proof.
  intros Ha Hn. destruct n as [|n]; [lia|]. unfold ftold, fact_main. cbn [fstmt fdoes fdoes_all ftells fsays fargs tbind outer].
  rewrite fact_deep by (cbn; lia). reflexivity.
Qed.

Lemma fact_few : few [n_f] /\ few [n_n].
Proof. split; (split; [repeat constructor; vm_compute; try discriminate; reflexivity|left; cbn; lia]). Qed.

Lemma fact_good a : fgood [fact_def] (fact_main a).
Proof.
  unfold fgood. split; [constructor; [intros []|constructor]|]. split; [cbn; intuition discriminate|]. split; [exact (proj1 fact_few)|].
  split; [intros x []|]. constructor; [|constructor]. split; [cbn; intuition discriminate|]. split; [exact (proj2 fact_few)|].
  split; [intros x [<-|[<-|[<-|[<-|[]]]]]; reflexivity|]. split; [repeat constructor|constructor].
Qed.

Lemma fact_runs src a : text_ok src -> slen src < 2 ^ 26 -> reads src (program [fact_def] (fact_main a)) -> 0 <= a < 2 ^ 63 ->
  exists x, compile src = ROk x /\ forall E cap m, 256 <= cap -> m_pend m = false -> unknown E m [n_f; n_n] ->
  (a <= 15 -> exists j m', steps E cap x j (vm_start m) = SDone [VInt (factorial a)] m') /\
  (16 <= a -> ~ short_of_fuel E -> exists j, steps E cap x j (vm_start m) = SLimit).
Proof.
  intros T L R Ha. destruct (fperforms src [fact_def] (fact_main a) T L R (fact_good a) eq_refl) as (x & C & H). exists x. split; [exact C|].
  intros E cap m Hc Pe Un. assert (Un' : unknown E m (fnames [fact_def] (fact_main a))).
  { intros m' y Hy. apply Un. cbn in Hy |- *. tauto. }
  specialize (H E cap m Hc Pe Un' (fun m' x k i => match i with end) 20%nat). split; intros B.
  - rewrite fact_small in H by lia. exact H.
  - rewrite fact_large in H by lia. exact H.
Qed.
