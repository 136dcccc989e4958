(** Functions with lists and maps: from the text on, through the compiled code. *)
From Coq Require Import ZArith List Bool Lia.
From Verif Require FrameModel LimitSpec.
From Verif Require Import Base FloatModel StringModel ListModel ListProofs ValueModel ExeModel ArithModel AstModel CodegenModel CompSpec CodegenProofs CodegenProofs2 CodegenProofs3 SeqSpec MapModel MapSpec MapProofs ObjModel VmModel
  SrcModel LexModel ParseModel FuelProofs SimProofs RunProofs ParseSafe CompileModel CompileProofs BalanceSpec BalanceProofs DepthSpec DepthProofs BuiltinModel
  ScopeSpec ScopeProofs CalcSpec CalcProofs WhileSpec WhileProofs FunSpec FunProofs FunRun.
From Verif Require Import ListsSpec CollSpec CollHeap CollProofs.
Import ListNotations.
Open Scope Z_scope.

(** * These programs are compiled *)
Section Ok.
Variable T : list Z -> option (list param * stmt).

Lemma csimple_ok : (forall e, csimple T e -> ok_expr MVal e = true /\ ok_expr MRets e = true /\ tuple_len e = 1) /\
  (forall es, csimple_all T es -> ok_exprs es = true) /\ (forall ps, csimple_pairs T ps -> ok_pairs ps = true).
Proof.
  apply expr_mut4; intros; cbn [csimple] in *; try contradiction; try (cbn; auto; fail).
  - destruct H0 as [_ P]. destruct (H P) as (A & _). cbn. rewrite A. auto.
  - destruct H1 as (_ & P1 & P2). destruct (H P1) as (A & _). destruct (H0 P2) as (B & _). cbn. rewrite A, B. auto.
  - destruct H1 as (P1 & P2). destruct (H P1) as (A & _). destruct (H0 P2) as (B & _). cbn. rewrite A, B. auto.
  - destruct H1 as (P1 & P2). destruct (H P1) as (A & _). destruct (H0 P2) as (B & _). cbn. rewrite A, B. auto.
  - destruct H1 as (P1 & P2). destruct (H P1) as (A & _). destruct (H0 P2) as (B & _). cbn. rewrite A, B. auto.
  - destruct H0 as [_ P]. cbn. rewrite (H P). auto.
  - destruct f; try contradiction. destruct H1 as [_ P]. specialize (H0 P). cbn. rewrite H0. auto.
  - destruct H1 as [P1 P2]. destruct (H P1) as (A & _). cbn. rewrite A, (H0 P2). reflexivity.
  - destruct H2 as (P1 & P2 & P3). destruct (H P1) as (A & _). destruct (H0 P2) as (B & _). cbn. rewrite A, B, (H1 P3). reflexivity.
Qed.

Lemma ctuple_ok e : ctuple T e -> ok_expr MRets e = true.
Proof.
  assert (One : forall e, csimple T e -> ok_expr MRets e = true) by (intros e0 P; destruct (proj1 csimple_ok e0 P) as (_ & A & _); auto).
  induction e; intros P; try exact (One _ P). cbn [ctuple] in P. destruct P as [P1 P2]. cbn. rewrite (IHe1 P1), (IHe2 P2). reflexivity.
Qed.

Lemma csimple_high M e : csimple T e -> forall m a, m <> MTgt -> fits_expr M m e a = true -> a + 1 <= M.
Proof.
  induction e; cbn [csimple]; intros P m a N F; try contradiction; cbn [fits_expr] in F; rewrite ?andb_true_iff, ?Z.leb_le in F; try lia.
  - destruct P as [_ P]. exact (IHe P MVal a ltac:(discriminate) F).
  - destruct P as (_ & P & _). exact (IHe1 P MVal a ltac:(discriminate) (proj1 F)).
  - destruct P as (P & _). destruct m; try congruence; exact (IHe1 P MVal a ltac:(discriminate) (proj1 F)).
  - destruct F as [[[F _] _] _]. pose proof (exprs_len_nonneg args). lia.
Qed.

Lemma ctuple_high M e : ctuple T e -> forall a, fits_expr M MRets e a = true -> a + tuple_len e <= M.
Proof.
  assert (One : forall e, csimple T e -> forall a, fits_expr M MRets e a = true -> a + tuple_len e <= M).
  { intros e0 P a F. destruct (proj1 csimple_ok e0 P) as (_ & _ & ->). exact (csimple_high M e0 P MRets a ltac:(discriminate) F). }
  induction e; intros P a F; try exact (One _ P a F). cbn [ctuple] in P. destruct P as [P1 P2]. cbn [fits_expr] in F. apply andb_true_iff in F. destruct F as [F1 F2].
  specialize (IHe1 P1 a F1). specialize (IHe2 P2 _ F2). cbn [tuple_len]. lia.
Qed.

Lemma cexpr_ok lp e : ccore T lp (SExpr e) -> ok_expr MVal e = true.
Proof.
  assert (One : csimple T e -> ok_expr MVal e = true) by (intros P; destruct (proj1 csimple_ok e P) as (A & _); exact A).
  destruct e; try exact One. destruct e1; try exact One; intros C.
  - destruct C as [_ C]. destruct (proj1 csimple_ok _ C) as (A & _). cbn. rewrite A. reflexivity.
  - destruct e2; try contradiction C. destruct e2; try contradiction C. destruct C as (C1 & C2 & C3 & _ & C4).
    pose proof (CodegenProofs3.tuple_len_pos e1_1). pose proof (CodegenProofs3.tuple_len_pos e1_2).
    cbn [ok_expr value_mode]. cbn [tuple_len] in *. rewrite (ftarget_ok T _ C1), (ftarget_ok T _ C2), (proj1 (proj2 csimple_ok) _ C4).
    replace (MAX_TUPLE <? tuple_len e1_1 + tuple_len e1_2) with false by (symmetry; apply Z.ltb_ge; unfold MAX_TUPLE; lia).
    destruct (_ =? 1); reflexivity.
  - destruct C as (C1 & C2 & C3). destruct (proj1 csimple_ok _ C1) as (A1 & _). destruct (proj1 csimple_ok _ C2) as (A2 & _). destruct (proj1 csimple_ok _ C3) as (A3 & _).
    cbn. rewrite A1, A2, A3. reflexivity.
Qed.

Lemma ccore_ok : (forall t lp, ccore T lp t -> fits_stmt 16 t = true -> ok_stmt lp t = true) /\
  (forall ss lp, ccores T lp ss -> fits_stmts 16 ss = true -> ok_stmts lp ss = true).
Proof.
  apply stmt_mut3.
  - intros e lp C F. exact (cexpr_ok lp e C).
  - intros lp C F. exact C.
  - intros c t IH lp [C1 C2] F. cbn [fits_stmt] in F. apply andb_true_iff in F. destruct F as [_ F]. destruct (proj1 csimple_ok _ C1) as (A & _).
    cbn [ok_stmt]. rewrite A, (IH lp C2 F). reflexivity.
  - intros c t IHt f IHf lp (C1 & C2 & C3) F. cbn [fits_stmt] in F. rewrite !andb_true_iff in F. destruct F as [[_ F2] F3]. destruct (proj1 csimple_ok _ C1) as (A & _).
    cbn [ok_stmt]. rewrite A, (IHt lp C2 F2), (IHf lp C3 F3). reflexivity.
  - intros c t IH lp [C1 C2] F. cbn [fits_stmt] in F. apply andb_true_iff in F. destruct F as [_ F]. destruct (proj1 csimple_ok _ C1) as (A & _).
    cbn [ok_stmt]. rewrite A, (IH true C2 F). reflexivity.
  - intros t IH c lp [C1 C2] F. cbn [fits_stmt] in F. apply andb_true_iff in F. destruct F as [F _]. destruct (proj1 csimple_ok _ C1) as (A & _).
    cbn [ok_stmt]. rewrite A, (IH true C2 F). reflexivity.
  - intros ss IH lp C F. exact (IH lp C F).
  - intros e lp C F. cbn [ccore fits_stmt] in *. pose proof (ctuple_high 16 e C 0 F) as H.
    cbn [ok_stmt]. rewrite (ctuple_ok e C). replace (MAX_TUPLE <? tuple_len e) with false; [reflexivity|]. symmetry. apply Z.ltb_ge. unfold MAX_TUPLE. lia.
  - intros ? ? ? ? ? C. contradiction C.
  - intros lp _ _. reflexivity.
  - intros t IH ss IHs lp [C1 C2] F. cbn [fits_stmts] in F. apply andb_true_iff in F. destruct F as [F1 F2].
    cbn [ok_stmts]. rewrite (IH lp C1 F1), (IHs lp C2 F2). reflexivity.
Qed.
End Ok.

Lemma cplain_ok T ps : Forall (cparam T) ps -> ok_params (plain ps) = true.
Proof.
  induction 1 as [|[x [ty df]] ps [F1 F2] _ IH]; [reflexivity|]. cbn [plain ok_params]. rewrite IH. cbn [fst snd] in *.
  destruct ty as [t|]; destruct df as [d|]; cbn [maybe]; rewrite ?(ftype_ok _ F1), ?(proj1 (proj1 (csimple_ok T) _ F2)); reflexivity.
Qed.

Lemma cprogram_ok T ss : ccores T false ss -> forall ds, Forall (fun d => ccore T false (snd (snd d)) /\ Forall (cparam T) (fst (snd d))) ds -> fits_stmts 16 (program ds ss) = true ->
  ok_stmts false (program ds ss) = true.
Proof.
  intros C ds. induction ds as [|[f [ps body]] ds IH]; intros D F; [exact (proj2 (ccore_ok T) ss false C F)|].
  inversion_clear D as [|? ? [D1 D0] D2]. cbn [program fits_stmts fits_stmt fst snd] in *. rewrite !andb_true_iff in F. destruct F as [[_ F1] F2].
  cbn [ok_stmts ok_stmt]. rewrite (cplain_ok T ps D0), (proj1 (ccore_ok T) body false D1 F1), (IH D2 F2). reflexivity.
Qed.

(** * Without a bound no call is too deep *)
Section NeverDeep.
Variable again : option store -> store -> colls -> stmt -> tale cfate.
Variable calls : list Z -> store -> colls -> list value -> tale (list value * colls).
Hypothesis Ha : forall w s h t, again w s h t <> TooDeep.
Hypothesis Hc : forall f g h vs, calls f g h vs <> TooDeep.

Lemma then_deep {A B} (t : tale A) (f : A -> tale B) : t <> TooDeep -> (forall a, f a <> TooDeep) -> and_then t f <> TooDeep.
Proof. intros H1 H2. destruct t; cbn; auto; discriminate. Qed.
Lemma answered_deep a : answered a <> TooDeep.
Proof. destruct a; discriminate. Qed.
Lemma found_deep h c k : found h c k <> TooDeep.
Proof.
  unfold found. destruct c; try discriminate; [destruct k; try discriminate; destruct (near _); discriminate|].
  destruct (nth_error h l) as [[]|]; try discriminate; [destruct k; try discriminate; destruct (near _); discriminate|destruct (usable k); discriminate].
Qed.
Lemma stored_deep h c k v : stored h c k v <> TooDeep.
Proof.
  unfold stored. destruct c; try discriminate. destruct (nth_error h l) as [[]|]; try discriminate.
  - destruct k; try discriminate. destruct (_ && _); [|discriminate]. destruct (seq_set _ _ _); discriminate.
  - destruct (_ && _); discriminate.
Qed.

Lemma csays_deep : (forall e w s h, csays calls w s h e <> TooDeep) /\
  (forall es, (forall w s h, cargs calls w s h es <> TooDeep) /\ (forall w s k i h, citems calls w s k i h es <> TooDeep)) /\
  (forall ps w s k h, cpairs calls w s k h ps <> TooDeep).
Proof.
  apply expr_mut4; intros; cbn [csays]; try discriminate.
  - destruct (see w s0 s); discriminate.
  - apply then_deep; [auto|]. intros ?. apply then_deep; [apply answered_deep|discriminate].
  - apply then_deep; [auto|]. intros ?. apply then_deep; [auto|]. intros ?. apply then_deep; [apply answered_deep|discriminate].
  - apply then_deep; [auto|]. intros p. destruct (fst p) as [|[]| | | | | |]; try discriminate. apply then_deep; [auto|]. intros q. destruct (fst q); discriminate.
  - apply then_deep; [auto|]. intros p. destruct (fst p) as [|[]| | | | | |]; try discriminate. apply then_deep; [auto|]. intros q. destruct (fst q); discriminate.
  - apply then_deep; [auto|]. intros ?. apply then_deep; [auto|]. intros ?. apply then_deep; [apply found_deep|discriminate].
  - apply then_deep; [apply H|discriminate].
  - apply then_deep; [apply H|discriminate].
  - destruct f; try discriminate. apply then_deep; [apply H0|]. intros p. apply then_deep; [apply Hc|discriminate].
  - split; intros; discriminate.
  - split; intros.
    + change (cargs calls w s h (ECons e r)) with (and_then (cargs calls w s h r) (fun p => and_then (csays calls w s (snd p) e) (fun q => Tale (fst q :: fst p, snd q)))).
      apply then_deep; [apply H0|]. intros p. apply then_deep; [apply H|discriminate].
    + change (citems calls w s k i h (ECons e r)) with (and_then (csays calls w s h e) (fun p => and_then (stored (snd p) (VRef k) (VInt i) (fst p)) (fun h1 => citems calls w s k (i + 1) h1 r))).
      apply then_deep; [apply H|]. intros p. apply then_deep; [apply stored_deep|]. intros h1. apply H0.
  - cbn [cpairs]. apply then_deep; [apply H|]. intros p. apply then_deep; [apply H0|]. intros q. apply then_deep; [apply stored_deep|]. intros h1. apply H1.
Qed.
Lemma ctest_deep w s h c : ctest calls w s h c <> TooDeep.
Proof. unfold ctest. apply then_deep; [apply csays_deep|]. intros p. destruct (fst p); discriminate. Qed.
Lemma ctells_deep e w s : forall h, ctells calls w s h e <> TooDeep.
Proof.
  assert (One : forall e h, and_then (csays calls w s h e) (fun p => Tale ([fst p], snd p)) <> TooDeep) by (intros e0 h; apply then_deep; [apply csays_deep|discriminate]).
  induction e; intros h; try exact (One _ h). cbn [ctells]. apply then_deep; [apply IHe1|]. intros a. apply then_deep; [apply IHe2|]. discriminate.
Qed.

Lemma cdoes_deep : (forall t w s h, cdoes again calls w s h t <> TooDeep) /\ (forall ss w s h, cdoes_all again calls w s h ss <> TooDeep).
Proof.
  apply stmt_mut3; intros; cbn [cdoes cdoes_all]; try discriminate.
  - assert (One : forall e, and_then (csays calls w s h e) (fun p => Tale (CFell s (snd p))) <> TooDeep) by (intros e0; apply then_deep; [apply csays_deep|discriminate]).
    destruct e; try exact (One _). assert (Two : forall f args, and_then (cargs calls w s h args) (fun p => and_then (calls f (outer w s) (snd p) (fst p))
      (fun q => Tale (CFell (put_all s (targets e1) (fst q)) (snd q)))) <> TooDeep).
    { intros f args. apply then_deep; [apply csays_deep|]. intros vs. apply then_deep; [apply Hc|]. discriminate. }
    assert (Three : forall a i r, and_then (csays calls w s h r) (fun p => and_then (csays calls w s (snd p) a) (fun q => and_then (csays calls w s (snd q) i) (fun u =>
      and_then (stored (snd u) (fst q) (fst u) (fst p)) (fun h1 => Tale (CFell s h1))))) <> TooDeep).
    { intros a i r. apply then_deep; [apply csays_deep|]. intros p. apply then_deep; [apply csays_deep|]. intros q. apply then_deep; [apply csays_deep|]. intros u.
      apply then_deep; [apply stored_deep|discriminate]. }
    destruct e1; try (apply then_deep; [apply csays_deep|discriminate]); try apply Three; destruct e2; try exact (One _); destruct e2; try exact (One _); apply Two.
  - apply then_deep; [apply ctest_deep|]. intros [[] h1]; cbn [fst snd]; [auto|discriminate].
  - apply then_deep; [apply ctest_deep|]. intros [[] h1]; cbn [fst snd]; auto.
  - apply then_deep; [apply ctest_deep|]. intros [[] h1]; cbn [fst snd]; [|discriminate]. apply then_deep; [auto|]. intros []; auto; discriminate.
  - apply then_deep; [auto|]. intros []; try discriminate. apply then_deep; [apply ctest_deep|]. intros [[] h1]; cbn [fst snd]; [auto|discriminate].
  - auto.
  - apply then_deep; [apply ctells_deep|]. discriminate.
  - apply then_deep; [auto|]. intros []; auto; discriminate.
Qed.

Lemma creceive_deep w s h ps : forall vs, creceive calls w s h ps vs <> TooDeep.
Proof.
  induction ps as [|[x [ty df]] ps IH]; intros vs; [discriminate|]. cbn [creceive]. apply then_deep; [apply IH|]. intros p. apply then_deep.
  - destruct df as [d|]; [|discriminate]. destruct (hd VNone vs); try discriminate. apply csays_deep.
  - intros v. destruct ty as [t|]; [destruct (caccepts _ t _)|]; discriminate.
Qed.
End NeverDeep.

Lemma never_deep T n : (forall w s h t, cstmt T n None w s h t <> TooDeep) /\ (forall f g h vs, ccall T n None f g h vs <> TooDeep).
Proof.
  induction n as [|n [IHs IHc]]; [split; intros; discriminate|]. split.
  - intros w s h t. exact (proj1 (cdoes_deep _ _ IHs IHc) t w s h).
  - intros f g h vs. cbn [ccall option_map]. destruct (T f) as [[ps body]|]; [|discriminate].
    apply then_deep; [exact (creceive_deep _ IHc _ _ _ _ _)|]. intros s. apply then_deep; [exact (proj1 (cdoes_deep _ _ IHs IHc) body _ _ _)|]. intros []; discriminate.
Qed.

(** * What can be seen of the lists and maps *)
(** Number [k] is the object [nth k loc], a different one for each [k]; its kind, its count and what is selected from it are as described. *)
Definition shows (E : env) (loc : list nat) (h : colls) (m : mem) : Prop :=
  length loc = length h /\ NoDup loc /\
  forall k c, nth_error h k = Some c ->
    type_of (rt_of (m_objs m)) (VRef (nth k loc O)) = match c with CList _ => TyList | CMap _ => TyMap end /\
    (forall other, bin_count other [VRef (nth k loc O)] m = OOk ([VInt (match c with CList xs => Z.of_nat (length xs) | CMap kvs => Z.of_nat (length kvs) end)], m)) /\
    forall key v, fine_k key -> found h (VRef k) key = Tale v -> select_or_none E m (VRef (nth k loc O)) (at_ loc key) = OOk (at_ loc v, m).

Lemma holds_shows E lg loc h m : holds lg loc h m -> m_pend m = false -> shows E loc h m.
Proof.
  intros Hd P. pose proof Hd as (L & N & _ & _). split; [exact L|]. split; [exact N|]. intros k c Hk.
  assert (Lk : (k < length h)%nat) by (apply nth_error_Some; congruence). split; [|split].
  - cbn [type_of]. rewrite (holds_kind lg loc h m k Hd Lk). unfold is_list. rewrite Hk. destruct c; reflexivity.
  - intros other. pose proof (holds_coll lg loc h m k c Hd Hk) as H. unfold bin_count. destruct c as [xs|kvs]; cbn [object_of] in H.
    + destruct H as (_ & _ & lo & -> & (R & _) & _). rewrite P. unfold ret1. rewrite R, map_length. reflexivity.
    + destruct H as (_ & mo & -> & Wf & A). rewrite P. unfold ret1, map_count. do 4 f_equal. assert (Q : length (abs mo) = length kvs) by (rewrite A; apply map_length).
      rewrite <- Q. unfold abs. rewrite combine_length. destruct Wf as (_ & Wf2 & _). rewrite Wf2, Nat.min_id. reflexivity.
  - intros key v Fk Fd. pose proof (holds_found E lg loc h m (VRef k) key Hd P Lk Fk) as H. rewrite Fd in H. destruct H as (p & Q & -> & _). exact Q.
Qed.

(** * What the machine does *)
Lemma cperforms src ds ss : text_ok src -> slen src < 2 ^ 26 -> reads src (program ds ss) -> cgood ds ss -> fits_stmts 16 (program ds ss) = true ->
  exists x, compile src = ROk x /\ forall E cap m, 256 <= cap -> m_pend m = false -> unknown E m (cnames ds ss) -> knows_types E m (ckinds ds) ->
  forall n,
  match ctold ds ss n (Some 15%nat) with
  | Tale (CFell s h) => exists j l loc m', steps E cap x j (vm_start m) = SDone [VRef l] m' /\ shows E loc h m' /\
      forall y, In y (cmentions_all ss) -> select_of E m' (VRef l) (VStr y) = OOk (option_map (at_ loc) (s y), m')
  | Tale (CGave vs h) => exists j loc m', steps E cap x j (vm_start m) = SDone (map (at_ loc) vs) m' /\ shows E loc h m'
  | Tale (CBroke _ _) => False
  | Errs => exists j, steps E cap x j (vm_start m) = SErr
  | Spills => exists j, steps E cap x j (vm_start m) = VmModel.SUB
  | TooDeep => ~ short_of_fuel E -> (exists j, steps E cap x j (vm_start m) = SLimit) \/ (exists k, ctold ds ss k None = Silent)
  | Cut => ~ short_of_fuel E -> exists s, steps E cap x n (vm_start m) = SNext s
  | Silent => True
  end.
Proof.
  intros T L R G Ft. pose proof G as (Nd & C & F & Tn & D).
  assert (W : wf_stmts (program ds ss)). { pose proof R as P. apply reads_parse in P. destruct (parse_tree _ _ _ _ P T) as [W _]. exact W. }
  assert (OK : ok_stmts false (program ds ss) = true).
  { apply (cprogram_ok (defined ds)); [exact C| |exact Ft]. eapply Forall_impl; [|exact D]. intros d (H1 & _ & _ & H2 & _). split; assumption. }
  destruct (compile_good src _ T L R OK) as (x & Cp & Cd). exists x. split; [exact Cp|]. intros E cap m Hc Pe Un Ty n.
  pose proof Cd as (H1 & H2 & H3 & evs & H4 & H5 & H6).
  destruct (program_sim_d (mute E) cap _ evs x m n H2 H3 H4 H5 H6 H1 (fun _ _ _ => eq_refl)) as [Hl|Ho].
  { exfalso. exact (no_other_limit _ x Cd Ft (mute E) cap m Hc Hl). }
  pose proof (cprogram_d (mute E) m ds ss G W Pe (mute_unknown E m _ Un) (mute_types E m _ Ty) n (Some 15%nat)) as A.
  assert (K : forall j r, r <> SLoop -> steps (mute E) cap x j (vm_start m) = r -> steps E cap x j (vm_start m) = r).
  { intros j r Hr Hj. rewrite steps_mute; [exact Hj|congruence]. }
  destruct (ctold ds ss n (Some 15%nat)) as [r| | | | |]; cbn [agrees] in A.
  - destruct A as (p & Q & A). rewrite Q in Ho. destruct p as [rets st]. cbn [outcome] in Ho. destruct Ho as [j Ho]. apply K in Ho; [|discriminate].
    destruct A as [loc A]. destruct r as [s h|s h|vs h]; cbn [fst snd] in A; [|contradiction|].
    + destruct A as (-> & Hd & P' & A). exists j, (length (m_objs m)), loc, (t_mem st). split; [exact Ho|]. split; [exact (holds_shows E _ _ _ _ Hd P')|]. intros y Hy. rewrite <- (A y Hy). unfold select_of. apply select_mute.
    + destruct A as (-> & Hd & P'). exists j, loc, (t_mem st). split; [exact Ho|exact (holds_shows E _ _ _ _ Hd P')].
  - rewrite A in Ho. destruct Ho as [j Ho]. exists j. apply K; [discriminate|exact Ho].
  - rewrite A in Ho. destruct Ho as [j Ho]. exists j. apply K; [discriminate|exact Ho].
  - rewrite A in Ho. intros Sh. destruct Ho as [[j Ho]|[_ [j Ho]]]; [|left; exists j; apply K; [discriminate|exact Ho]].
    right. exists j. pose proof (cprogram_plain (mute E) m ds ss G W Pe (mute_unknown E m _ Un) (mute_types E m _ Ty) j) as A2.
    assert (End : forall i r, steps (mute E) cap x i (vm_start m) = r -> (forall t, r <> SNext t) -> r = SLoop).
    { intros i r Hi Hr. symmetry. exact (steps_end (mute E) cap x _ _ _ _ _ Ho Hi ltac:(discriminate) Hr). }
    destruct (runs_fuel (mute E) cap _ x Cd m j) as [[i Hi]|H]; [apply End in Hi; discriminate|].
    destruct (ctold ds ss j None) as [r| | | | |] eqn:Q; cbn [agrees] in A2; try exact eq_refl; exfalso.
    + destruct A2 as ([rets st] & Q2 & _). rewrite Q2 in H. destruct H as [i Hi]. apply End in Hi; discriminate.
    + rewrite A2 in H. destruct H as [i Hi]. apply End in Hi; discriminate.
    + rewrite A2 in H. destruct H as [i Hi]. apply End in Hi; discriminate.
    + exact (proj1 (never_deep (defined ds) j) _ _ _ _ Q).
    + rewrite A2 in H. destruct H as [[S _]|[s Hs]]; [apply Sh; exact (mute_short E S)|]. rewrite Ho in Hs. discriminate.
  - rewrite A in Ho. intros Sh. destruct Ho as [[S _]|[s Hs]]; [destruct Sh; exact (mute_short E S)|]. exists s. apply K; [discriminate|exact Hs].
  - exact I.
Qed.

(** * What is told does not change with more patience *)
Definition upto {A} (t t' : tale A) : Prop := t = Cut \/ t = t'.

Section More.
Variables again again' : option store -> store -> colls -> stmt -> tale cfate.
Variables calls calls' : list Z -> store -> colls -> list value -> tale (list value * colls).
Hypothesis Ha : forall w s h t, upto (again w s h t) (again' w s h t).
Hypothesis Hc : forall f g h vs, upto (calls f g h vs) (calls' f g h vs).

Lemma upto_same {A} (t : tale A) : upto t t.
Proof. right. reflexivity. Qed.
Lemma upto_bind {A B} (t t' : tale A) (f f' : A -> tale B) : upto t t' -> (forall a, upto (f a) (f' a)) -> upto (and_then t f) (and_then t' f').
Proof. intros [->|<-] H; [left; reflexivity|]. destruct t; cbn; auto using upto_same. Qed.
Hint Resolve upto_same : core.

Lemma csays_more : (forall e w s h, upto (csays calls w s h e) (csays calls' w s h e)) /\
  (forall es, (forall w s h, upto (cargs calls w s h es) (cargs calls' w s h es)) /\ (forall w s k i h, upto (citems calls w s k i h es) (citems calls' w s k i h es))) /\
  (forall ps w s k h, upto (cpairs calls w s k h ps) (cpairs calls' w s k h ps)).
Proof.
  apply expr_mut4; intros; cbn [csays]; auto.
  - apply upto_bind; auto.
  - apply upto_bind; [auto|]. intros ?. apply upto_bind; auto.
  - apply upto_bind; [auto|]. intros p. destruct (fst p) as [|[]| | | | | |]; auto. apply upto_bind; auto.
  - apply upto_bind; [auto|]. intros p. destruct (fst p) as [|[]| | | | | |]; auto. apply upto_bind; auto.
  - apply upto_bind; [auto|]. intros ?. apply upto_bind; auto.
  - apply upto_bind; [apply H|auto].
  - apply upto_bind; [apply H|auto].
  - destruct f; auto. apply upto_bind; [apply H0|]. intros p. apply upto_bind; auto.
  - split; intros.
    + change (upto (and_then (cargs calls w s h r) (fun p => and_then (csays calls w s (snd p) e) (fun q => Tale (fst q :: fst p, snd q))))
        (and_then (cargs calls' w s h r) (fun p => and_then (csays calls' w s (snd p) e) (fun q => Tale (fst q :: fst p, snd q))))).
      apply upto_bind; [apply H0|]. intros p. apply upto_bind; auto.
    + change (upto (and_then (csays calls w s h e) (fun p => and_then (stored (snd p) (VRef k) (VInt i) (fst p)) (fun h1 => citems calls w s k (i + 1) h1 r)))
        (and_then (csays calls' w s h e) (fun p => and_then (stored (snd p) (VRef k) (VInt i) (fst p)) (fun h1 => citems calls' w s k (i + 1) h1 r)))).
      apply upto_bind; [apply H|]. intros p. apply upto_bind; [auto|]. intros h1. apply H0.
  - cbn [cpairs]. apply upto_bind; [apply H|]. intros p. apply upto_bind; [apply H0|]. intros q. apply upto_bind; [auto|]. intros h1. apply H1.
Qed.
Lemma ctest_more w s h c : upto (ctest calls w s h c) (ctest calls' w s h c).
Proof. unfold ctest. apply upto_bind; [apply csays_more|auto]. Qed.
Lemma ctells_more e w s : forall h, upto (ctells calls w s h e) (ctells calls' w s h e).
Proof.
  assert (One : forall e h, upto (and_then (csays calls w s h e) (fun p => Tale ([fst p], snd p))) (and_then (csays calls' w s h e) (fun p => Tale ([fst p], snd p)))) by (intros e0 h; apply upto_bind; [apply csays_more|auto]).
  induction e; intros h; try exact (One _ h). cbn [ctells]. apply upto_bind; [apply IHe1|]. intros ?. apply upto_bind; auto.
Qed.

Lemma cdoes_more : (forall t w s h, upto (cdoes again calls w s h t) (cdoes again' calls' w s h t)) /\
  (forall ss w s h, upto (cdoes_all again calls w s h ss) (cdoes_all again' calls' w s h ss)).
Proof.
  apply stmt_mut3; intros; cbn [cdoes cdoes_all]; auto.
  - assert (One : forall e, upto (and_then (csays calls w s h e) (fun p => Tale (CFell s (snd p)))) (and_then (csays calls' w s h e) (fun p => Tale (CFell s (snd p)))))
      by (intros e0; apply upto_bind; [apply csays_more|auto]).
    destruct e; try exact (One _).
    assert (Two : forall f args, upto (and_then (cargs calls w s h args) (fun p => and_then (calls f (outer w s) (snd p) (fst p)) (fun q => Tale (CFell (put_all s (targets e1) (fst q)) (snd q)))))
      (and_then (cargs calls' w s h args) (fun p => and_then (calls' f (outer w s) (snd p) (fst p)) (fun q => Tale (CFell (put_all s (targets e1) (fst q)) (snd q)))))).
    { intros f args. apply upto_bind; [apply csays_more|]. intros vs. apply upto_bind; auto. }
    assert (Three : forall a i r, upto (and_then (csays calls w s h r) (fun p => and_then (csays calls w s (snd p) a) (fun q => and_then (csays calls w s (snd q) i) (fun u =>
        and_then (stored (snd u) (fst q) (fst u) (fst p)) (fun h1 => Tale (CFell s h1))))))
      (and_then (csays calls' w s h r) (fun p => and_then (csays calls' w s (snd p) a) (fun q => and_then (csays calls' w s (snd q) i) (fun u =>
        and_then (stored (snd u) (fst q) (fst u) (fst p)) (fun h1 => Tale (CFell s h1))))))).
    { intros a i r. apply upto_bind; [apply csays_more|]. intros p. apply upto_bind; [apply csays_more|]. intros q. apply upto_bind; [apply csays_more|]. intros u. apply upto_bind; auto. }
    destruct e1; try (apply upto_bind; [apply csays_more|solve [auto]]); try apply Three; destruct e2 as [| | | | | | | | | | | | | | | | |fn ar|]; try (right; reflexivity); destruct fn; try (right; reflexivity); apply Two.
  - apply upto_bind; [apply ctest_more|]. intros [[] h1]; cbn [fst snd]; auto.
  - apply upto_bind; [apply ctest_more|]. intros [[] h1]; cbn [fst snd]; auto.
  - apply upto_bind; [apply ctest_more|]. intros [[] h1]; cbn [fst snd]; [|auto]. apply upto_bind; [auto|]. intros []; auto.
  - apply upto_bind; [auto|]. intros []; auto. apply upto_bind; [apply ctest_more|]. intros [[] h2]; cbn [fst snd]; auto.
  - apply upto_bind; [apply ctells_more|auto].
  - apply upto_bind; [auto|]. intros []; auto.
Qed.

Lemma creceive_more w s h ps : forall vs, upto (creceive calls w s h ps vs) (creceive calls' w s h ps vs).
Proof.
  induction ps as [|[x [ty df]] ps IH]; intros vs; [auto|]. cbn [creceive]. apply upto_bind; [apply IH|]. intros s1. apply upto_bind; [|auto].
  destruct df as [d|]; [|auto]. destruct (hd VNone vs); auto. apply csays_more.
Qed.
End More.

Lemma clevels_more T n : forall d, (forall w s h t, upto (cstmt T n d w s h t) (cstmt T (S n) d w s h t)) /\ (forall f g h vs, upto (ccall T n d f g h vs) (ccall T (S n) d f g h vs)).
Proof.
  induction n as [|n IH]; intros d; [split; intros; [left; reflexivity|]; destruct d as [[|d]|]; [right; reflexivity|left; reflexivity..]|]. split.
  - intros w s h t. destruct (IH d) as [A B]. exact (proj1 (cdoes_more _ _ _ _ A B) t w s h).
  - intros f g h vs. destruct (IH (option_map pred d)) as [A B].
    assert (H : upto (cbody T (cstmt T n (option_map pred d)) (ccall T n (option_map pred d)) f g h vs) (cbody T (cstmt T (S n) (option_map pred d)) (ccall T (S n) (option_map pred d)) f g h vs)).
    { unfold cbody. destruct (T f) as [[ps body]|]; [|right; reflexivity]. apply upto_bind; [exact (creceive_more _ _ B _ _ _ _ _)|]. intros s.
      apply upto_bind; [exact (proj1 (cdoes_more _ _ _ _ A B) body _ _ _)|]. intros r. right. reflexivity. }
    destruct d as [[|d]|]; [right; reflexivity|exact H|exact H].
Qed.

Lemma ctold_more ds ss d n k : (n <= k)%nat -> ctold ds ss n d <> Cut -> ctold ds ss k d = ctold ds ss n d.
Proof.
  intros L. induction L as [|k L IH]; intros H; [reflexivity|]. specialize (IH H).
  destruct (proj1 (clevels_more (defined ds) k d) None nothing [] (SComp ss)) as [Q|Q]; fold (ctold ds ss k d) in Q.
  - rewrite IH in Q. contradiction.
  - rewrite <- IH. symmetry. exact Q.
Qed.

(** A program that is never told to the end runs forever. *)
Lemma cforever src ds ss : text_ok src -> slen src < 2 ^ 26 -> reads src (program ds ss) -> cgood ds ss -> fits_stmts 16 (program ds ss) = true ->
  (forall n, ctold ds ss n (Some 15%nat) = Cut) ->
  exists x, compile src = ROk x /\ forall E cap m, 256 <= cap -> m_pend m = false -> unknown E m (cnames ds ss) -> knows_types E m (ckinds ds) -> ~ short_of_fuel E ->
  forall n, exists s, steps E cap x n (vm_start m) = SNext s.
Proof.
  intros T L R G Ft U. destruct (cperforms src ds ss T L R G Ft) as (x & C & H). exists x. split; [exact C|]. intros E cap m Hc Pe Un Ty Sh n.
  specialize (H E cap m Hc Pe Un Ty n). rewrite U in H. exact (H Sh).
Qed.
