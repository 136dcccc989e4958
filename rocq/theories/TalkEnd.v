(** What a program writes: proofs, from the text on. *)
From Coq Require Import ZArith List Bool Lia.
From Verif Require Import BuiltinModel SysProofs LookSpec LookProofs ShowModel ShowSpec ShowProofs.
From Verif Require Import Base FloatModel StringModel ValueModel ListModel ExeModel ArithModel AstModel CodegenModel CompSpec CompileModel CompileProofs MapModel MapSpec MapProofs MapProofs2 ObjModel FrameModel VmModel SrcModel
  LexModel ParseModel ParseSafe CodegenProofs3 LimitSpec DepthSpec BalanceProofs DepthProofs LimitProofs FuelProofs RunProofs ScopeSpec ScopeProofs CalcSpec CalcProofs WhileSpec WhileProofs CopyProofs FunRun
  TalkModel TalkSpec TalkProofs TalkRun TalkSteps.
Import ListNotations.
Open Scope Z_scope.

(** * The code of these programs *)
Definition unfun (c : list instr) : Prop := Forall (fun i => fst i <> OP_PUSHFUN) c.
Lemma unfun_app a b : unfun a -> unfun b -> unfun (a ++ b).
Proof. intros A B. apply Forall_app. auto. Qed.
Lemma unfun_cons op ops r : op <> OP_PUSHFUN -> unfun r -> unfun ((op, ops) :: r).
Proof. intros H R. constructor; [exact H|exact R]. Qed.
Lemma unfun_nil : unfun [].
Proof. constructor. Qed.
Lemma unfun_pop s : unfun (pop_code s).
Proof. unfold pop_code. destruct (is_expr s); [apply unfun_cons; [discriminate|]|]; constructor. Qed.

Ltac uf := repeat first [apply unfun_app | apply unfun_pop | apply unfun_cons; [discriminate|] | apply unfun_nil | assumption].

Lemma simple_unfun e : simple e -> forall m p, m <> MTgt -> unfun (comp_expr m e p).
Proof.
  induction e; cbn [simple]; intros P m p N; try contradiction; cbn [comp_expr].
  - uf.
  - uf.
  - uf.
  - destruct m; try congruence; uf.
  - uf.
  - uf.
  - uf.
  - destruct P as [_ P]. apply unfun_app; [apply IHe; [exact P|discriminate]|]. destruct op; uf.
  - destruct P as (_ & P1 & P2). apply unfun_app; [apply IHe1; [exact P1|discriminate]|]. apply unfun_app; [apply IHe2; [exact P2|discriminate]|]. destruct op; uf.
  - destruct P as (P1 & P2). apply unfun_app; [apply IHe1; [exact P1|discriminate]|]. apply unfun_app; [uf|]. apply unfun_app; [apply IHe2; [exact P2|discriminate]|uf].
  - destruct P as (P1 & P2). apply unfun_app; [apply IHe1; [exact P1|discriminate]|]. apply unfun_app; [uf|]. apply unfun_app; [apply IHe2; [exact P2|discriminate]|uf].
Qed.
Lemma simples_unfun e : simples e -> forall p, unfun (comp_expr MRets e p).
Proof.
  induction e; intros P p; try (apply (simple_unfun _ P MRets p); discriminate). cbn [simples] in P. destruct P as [P1 P2]. cbn [comp_expr]. apply unfun_app; auto.
Qed.
Lemma args_unfun es : simple_all es -> forall p, unfun (comp_args es p).
Proof.
  induction es as [|e r IH]; intros P p; [exact unfun_nil|]. destruct P as [P1 P2]. change (comp_args (ECons e r) p) with (comp_args r p ++ comp_expr MVal e (p + size_args r)).
  apply unfun_app; [apply IH; exact P2|]. apply simple_unfun; [exact P1|discriminate].
Qed.
Lemma tcore_unfun :
  (forall t lp, tcore lp t -> forall brk p, unfun (comp_stmt brk t p)) /\ (forall ss lp, tcores lp ss -> forall brk p, unfun (comp_stmts brk ss p)).
Proof.
  assert (V : forall e p, simple e -> unfun (comp_expr MVal e p)) by (intros; apply simple_unfun; [assumption|discriminate]).
  apply stmt_mut2.
  - intros e lp C brk p. destruct e; try contradiction C.
    + destruct e1; try contradiction C. cbn. apply unfun_app; [apply V; exact C|uf].
    + destruct e; try contradiction C. destruct C as [-> C].
      change (comp_stmt brk (SExpr (ECall (EIdent the_print) args)) p) with (comp_args args p ++ [(OP_PUSHVAR, [PStr the_print])] ++ [(OP_CALL, [PInt (exprs_len args); PInt 1])]).
      apply unfun_app; [apply args_unfun; exact C|uf].
  - intros lp C brk p. cbn. uf.
  - intros c t IH lp [C1 C2] brk p. cbn [comp_stmt]. apply unfun_app; [apply V; exact C1|]. apply unfun_app; [uf|]. apply unfun_app; [exact (IH lp C2 _ _)|uf].
  - intros c t IHt f IHf lp (C1 & C2 & C3) brk p. cbn [comp_stmt]. apply unfun_app; [apply V; exact C1|]. apply unfun_app; [uf|]. apply unfun_app; [exact (IHt lp C2 _ _)|].
    apply unfun_app; [uf|]. apply unfun_app; [uf|]. apply unfun_app; [exact (IHf lp C3 _ _)|uf].
  - intros c t IH lp [C1 C2] brk p. cbn [comp_stmt]. apply unfun_app; [apply V; exact C1|]. apply unfun_app; [uf|]. apply unfun_app; [exact (IH true C2 _ _)|uf].
  - intros t IH c lp [C1 C2] brk p. cbn [comp_stmt]. apply unfun_app; [exact (IH true C2 _ _)|]. apply unfun_app; [uf|]. apply unfun_app; [apply V; exact C1|uf].
  - intros ss IH lp C brk p. exact (IH lp C brk p).
  - intros e lp C brk p. cbn [comp_stmt]. apply unfun_app; [apply simples_unfun; exact C|uf].
  - intros ? ? ? ? ? C. contradiction C.
  - intros lp _ brk p. exact unfun_nil.
  - intros t IH ss IHs lp [C1 C2] brk p. change (comp_stmts brk (SCons t ss) p) with (comp_stmt brk t p ++ pop_code t ++ comp_stmts brk ss (p + size_stmt t + pop_size t)).
    apply unfun_app; [exact (IH lp C1 _ _)|]. apply unfun_app; [uf|exact (IHs lp C2 _ _)].
Qed.

Lemma simple_all_ok es : simple_all es -> ok_exprs es = true.
Proof.
  induction es as [|e r IH]; intros P; [reflexivity|]. destruct P as [P1 P2]. change (ok_exprs (ECons e r)) with (ok_expr MVal e && ok_exprs r).
  rewrite (proj1 (simple_ok e P1)), (IH P2). reflexivity.
Qed.
Lemma tcore_ok : (forall t lp, tcore lp t -> fits_stmt 16 t = true -> ok_stmt lp t = true) /\
  (forall ss lp, tcores lp ss -> fits_stmts 16 ss = true -> ok_stmts lp ss = true).
Proof.
  apply stmt_mut2.
  - intros e lp C F. destruct e; try contradiction C.
    + destruct e1; try contradiction C. cbn [tcore] in C. destruct (simple_ok _ C) as (A & _ & B & _).
      cbn [ok_stmt ok_expr value_mode tuple_len]. change (1 =? 1) with true. cbn iota. rewrite A. auto.
    + destruct e; try contradiction C. destruct C as [-> C]. change (ok_stmt lp (SExpr (ECall (EIdent the_print) args))) with (ok_exprs args && true).
      rewrite (simple_all_ok _ C). reflexivity.
  - intros lp C F. cbn in *. auto.
  - intros c t IH lp [C1 C2] F. cbn [fits_stmt] in F. apply andb_true_iff in F. destruct F as [_ F]. destruct (simple_ok _ C1) as (A & _ & B & _).
    cbn [ok_stmt]. rewrite A, (IH lp C2 F). auto.
  - intros c t IHt f IHf lp (C1 & C2 & C3) F. cbn [fits_stmt] in F. apply andb_true_iff in F. destruct F as [F F3]. apply andb_true_iff in F. destruct F as [_ F].
    destruct (simple_ok _ C1) as (A & _ & B & _). cbn [ok_stmt]. rewrite A, (IHt lp C2 F), (IHf lp C3 F3). auto.
  - intros c t IH lp [C1 C2] F. cbn [fits_stmt] in F. apply andb_true_iff in F. destruct F as [_ F]. destruct (simple_ok _ C1) as (A & _ & B & _).
    cbn [ok_stmt]. rewrite A, (IH true C2 F). auto.
  - intros t IH c lp [C1 C2] F. cbn [fits_stmt] in F. apply andb_true_iff in F. destruct F as [F _]. destruct (simple_ok _ C1) as (A & _ & B & _).
    cbn [ok_stmt]. rewrite A, (IH true C2 F). auto.
  - intros ss IH lp C F. exact (IH lp C F).
  - intros e lp C F. cbn [tcore fits_stmt] in *. destruct (simples_ok e C) as [A B]. pose proof (simples_high 16 e C 0 F) as H.
    cbn [ok_stmt]. rewrite A. replace (MAX_TUPLE <? tuple_len e) with false; [auto|]. symmetry. apply Z.ltb_ge. unfold MAX_TUPLE. lia.
  - intros ? ? ? ? ? C. contradiction C.
  - intros lp _ _. auto.
  - intros t IH ss IHs lp [C1 C2] F. cbn [fits_stmts] in F. apply andb_true_iff in F. destruct F as [F1 F2].
    change (ok_stmts lp (SCons t ss)) with (ok_stmt lp t && ok_stmts lp ss). rewrite (IH lp C1 F1), (IHs lp C2 F2). auto.
Qed.

(** * The program *)
Fixpoint same_text (a c : list Z) : bool := match a, c with [], [] => true | x :: r, y :: q => (x =? y) && same_text r q | _, _ => false end.
Lemma same_text_true a : forall c, same_text a c = true <-> a = c.
Proof.
  induction a as [|x r IH]; intros [|y q]; cbn; split; intros H; try discriminate; try reflexivity.
  - apply andb_true_iff in H. destruct H as [H1 H2]. apply Z.eqb_eq in H1. apply IH in H2. congruence.
  - injection H as -> ->. rewrite Z.eqb_refl. apply IH. reflexivity.
Qed.

Lemma stopped_prefix stop ws : forall o, stopped stop o ws = true -> exists us vs, ws = us ++ vs /\ us <> [] /\ stop (o ++ concat us) = true.
Proof.
  induction ws as [|w r IH]; intros o H; [discriminate|]. cbn [stopped] in H. apply orb_true_iff in H. destruct H as [H|H].
  - exists [w], r. split; [reflexivity|]. split; [discriminate|]. cbn. rewrite app_nil_r. exact H.
  - destruct (IH _ H) as (us & vs & -> & _ & Q). exists (w :: us), vs. split; [reflexivity|]. split; [discriminate|]. cbn. rewrite app_assoc. exact Q.
Qed.
Lemma prefix_stopped stop us : forall vs o, us <> [] -> stop (o ++ concat us) = true -> stopped stop o (us ++ vs) = true.
Proof.
  induction us as [|w r IH]; intros vs o N H; [congruence|]. cbn [app stopped]. destruct r as [|w' r].
  - cbn in H. rewrite app_nil_r in H. rewrite H. reflexivity.
  - rewrite (IH vs (o ++ w)); [apply orb_true_r|discriminate|]. rewrite <- app_assoc. exact H.
Qed.
Lemma never_stopped ws : forall o, stopped never o ws = false.
Proof. induction ws as [|w r IH]; intros o; [reflexivity|]. cbn. apply IH. Qed.

Section Program.
Variables (ss : stmts) (X : list (list Z)) (x : executable).
Variables (E0 : env) (ff : Z -> list Z) (fb : nat -> list Z) (text : value -> list Z) (k b : nat) (cap : Z) (m : mem).
Hypothesis Cd : compiled (SComp ss) x.
Hypothesis C : tcores false ss.
Hypothesis F : tfines X ss.
Hypothesis Few : few X.
Hypothesis HX : forall y, In y X -> no_nul y /\ ~ exists name, In name known_names /\ y = bytes_of name.
Hypothesis Ft : fits_stmts 16 ss = true.
Hypothesis Text : forall v, basic v -> scalar_shown ff v (text v).
Hypothesis Hcap : 256 <= cap.
Hypothesis Pe : m_pend m = false.
Hypothesis Hb : nth_error (m_objs m) b = Some (OSMap 0).
Hypothesis Hk : nth_error (m_objs m) k = Some (stream []).
Notation W stop := (watch ff fb k stop b).
Notation go stop j := (steps (W stop) cap x j (vm_start m)).
Notation L := (loud ff fb k (std_env E0 (Some (VRef b)))).

Lemma text_same v : basic v -> text v = scalar_text ff v.
Proof. intros B. apply scalar_shown_text; [exact (Text v B)|]. destruct v; try exact I. exact B. Qed.

Lemma begin_rest : at_rest k [] (vm_start m).
Proof.
  split; [|split; reflexivity]. unfold here. cbn. rewrite nth_error_app1; [exact Hk|]. apply nth_error_Some. congruence.
Qed.

Lemma no_fun stop j s op ops : go stop j = SNext s -> exe_fetch x (f_pc (v_cur s)) = ROk (Some (op, ops)) -> op <> OP_PUSHFUN.
Proof.
  intros Hs Fc. pose proof Cd as Cd'. destruct Cd' as (H1 & H2 & H3 & evs & H4 & H5 & H6).
  destruct (program_fetch _ evs H2 H4 H5 H6) as (x' & Hx' & Hfetch & _). rewrite H1 in Hx'. injection Hx' as <-.
  destruct (compiled_balanced _ x Cd) as (D & _ & B). destruct (B _ cap m j s Hs) as [P _].
  rewrite (Hfetch _ P) in Fc. injection Fc as Fc. apply nth_error_In in Fc.
  assert (Q : unfun (comp_program (SComp ss))). { unfold comp_program. apply unfun_app; [exact (proj2 tcore_unfun ss false C 0 0)|uf]. }
  unfold unfun in Q. rewrite Forall_forall in Q. exact (Q _ Fc).
Qed.

Lemma no_limit stop j : go stop j <> SLimit.
Proof.
  intros H. destruct (shallow_limit _ x Cd Ft _ cap m j Hcap H) as (i & s & argc & want & _ & Hs & _ & Fr).
  destruct (rests ff fb k b cap x (vm_start m) no_fun begin_rest stop i s Hs) as (o & _ & _ & R). unfold frames_of in Fr. rewrite R in Fr. cbn in Fr. lia.
Qed.

Lemma begins : tholds k b (length (m_objs m)) X nothing [] (snd (alloc m (OMap (new_map (-1))))).
Proof. exists m. split; [reflexivity|]. split; [exact Hb|]. split; [exact Hk|]. exact (start_holds m X Pe). Qed.

Lemma heard_program stop n : heard k b (length (m_objs m)) X stop [] (acting text ss n)
  (run_stmt_n (W stop) n (SComp ss) (mksc (VRef (length (m_objs m))) None) (mkst (snd (alloc m (OMap (new_map (-1))))) [])).
Proof. exact (heard_all ff fb k b (length (m_objs m)) text X stop Few HX text_same n (SComp ss) false nothing [] (mkst (snd (alloc m (OMap (new_map (-1))))) []) C F begins). Qed.

Lemma source stop n : if stopped stop [] (fst (acting text ss n)) then run_program (W stop) n (SComp ss) m = OLoop else
  match snd (acting text ss n) with
  | None => run_program (W stop) n (SComp ss) m = OFuel
  | Some (Falls s) => exists st, run_program (W stop) n (SComp ss) m = OOk ([VRef (length (m_objs m))], st) /\
      tholds k b (length (m_objs m)) X s (concat (fst (acting text ss n))) (t_mem st)
  | Some (Gives vs) => exists st, run_program (W stop) n (SComp ss) m = OOk (vs, st) /\ written k (t_mem st) = concat (fst (acting text ss n))
  | Some Fails => run_program (W stop) n (SComp ss) m = OErr
  | Some Lost => run_program (W stop) n (SComp ss) m = OUB
  | Some (Breaks _) => False
  end.
Proof.
  pose proof (heard_program stop n) as H. unfold heard in H. unfold run_program. cbn [alloc snd] in *.
  destruct (stopped stop [] (fst (acting text ss n))); [rewrite H; reflexivity|]. pose proof (acting_unbroken text ss n) as U.
  destruct (snd (acting text ss n)) as [r|]; [|rewrite H; reflexivity]. cbn [app] in H. destruct r; cbn [tcomes] in H.
  - destruct H as (st & -> & H). exists st. split; [|exact H]. cbn [obind]. unfold body_results. rewrite (proj2 (tholds_out k b _ X s _ _ H)). reflexivity.
  - exact (U s C eq_refl).
  - destruct H as (st & -> & P & H). exists st. split; [|exact H]. cbn [obind]. unfold body_results. rewrite P. reflexivity.
  - rewrite H. reflexivity.
  - rewrite H. reflexivity.
Qed.

Lemma ran stop n :
  match run_program (W stop) n (SComp ss) m with
  | OOk (rets, st) => exists j, go stop j = SDone rets (t_mem st)
  | OErr => exists j, go stop j = SErr
  | OUB => exists j, go stop j = VmModel.SUB
  | OLoop => exists j, go stop j = SLoop
  | OFuel => exists s, go stop n = SNext s
  end.
Proof.
  destruct (runs_fuel (W stop) cap _ x Cd m n) as [[j H]|H]; [exfalso; exact (no_limit stop j H)|].
  destruct (run_program (W stop) n (SComp ss) m) as [[]| | | |]; auto. destruct H as [[H _]|H]; [|exact H]. exfalso. exact (watch_fuel _ _ _ _ _ H).
Qed.

Lemma no_loop j : go never j <> SLoop.
Proof.
  intros H. pose proof (ran never j) as R. pose proof (source never j) as S. rewrite never_stopped in S.
  assert (End : forall i r, go never i = r -> (forall t, r <> SNext t) -> r = SLoop).
  { intros i r Hi N. exact (steps_end (W never) cap x (vm_start m) i j r SLoop Hi H N ltac:(discriminate)). }
  destruct (snd (acting text ss j)) as [[]|]; try contradiction.
  - destruct S as (st & S & _). rewrite S in R. destruct R as (i & R). discriminate (End i _ R ltac:(discriminate)).
  - destruct S as (st & S & _). rewrite S in R. destruct R as (i & R). discriminate (End i _ R ltac:(discriminate)).
  - rewrite S in R. destruct R as (i & R). discriminate (End i _ R ltac:(discriminate)).
  - rewrite S in R. destruct R as (i & R). discriminate (End i _ R ltac:(discriminate)).
  - rewrite S in R. destruct R as (s & R). congruence.
Qed.

Lemma machine_same j : steps L cap x j (vm_start m) = go never j.
Proof. apply steps_below. apply no_loop. Qed.

Lemma rest_written o s : at_rest k o s -> written k (v_mem s) = o.
Proof. intros (H & _). exact (here_written k o _ H). Qed.

Lemma written_now t : (exists j s, steps L cap x j (vm_start m) = SNext s /\ written k (v_mem s) = t) <-> sometime text ss t.
Proof.
  split.
  - intros (j & s & H & Hw). rewrite machine_same in H. destruct (rests ff fb k b cap x (vm_start m) no_fun begin_rest never j s H) as (o & R).
    pose proof (rest_written o s R) as Q. rewrite Hw in Q. subst o. destruct t as [|c t]; [exists O, [], []; split; reflexivity|].
    destruct (caught ff fb k b cap x (vm_start m) no_fun begin_rest (same_text (c :: t)) j s (c :: t) H R) as [[_ [Z|Z]]|(i & Z)]; [discriminate| |].
    + rewrite (proj2 (same_text_true (c :: t) (c :: t)) eq_refl) in Z. discriminate.
    + pose proof (ran (same_text (c :: t)) i) as A. pose proof (source (same_text (c :: t)) i) as S. destruct (stopped _ [] (fst (acting text ss i))) eqn:St.
      * destruct (stopped_prefix _ _ _ St) as (us & vs & Q & _ & T). apply same_text_true in T. exists i, us, vs. split; [exact Q|exact T].
      * assert (End : forall i' r, go (same_text (c :: t)) i' = r -> (forall t, r <> SNext t) -> r = SLoop).
        { intros i' r Hi N. exact (steps_end (W (same_text (c :: t))) cap x (vm_start m) i' i r SLoop Hi Z N ltac:(discriminate)). }
        exfalso. destruct (snd (acting text ss i)) as [[]|]; try contradiction.
        -- destruct S as (st & S & _). rewrite S in A. destruct A as (i' & A). discriminate (End i' _ A ltac:(discriminate)).
        -- destruct S as (st & S & _). rewrite S in A. destruct A as (i' & A). discriminate (End i' _ A ltac:(discriminate)).
        -- rewrite S in A. destruct A as (i' & A). discriminate (End i' _ A ltac:(discriminate)).
        -- rewrite S in A. destruct A as (i' & A). discriminate (End i' _ A ltac:(discriminate)).
        -- rewrite S in A. destruct A as (s' & A). congruence.
  - intros (n & us & rest & Q & ->). destruct us as [|u us].
    { exists O, (vm_start m). split; [reflexivity|]. exact (rest_written [] _ begin_rest). }
    pose proof (ran (same_text (concat (u :: us))) n) as A. pose proof (source (same_text (concat (u :: us))) n) as S.
    rewrite Q, (prefix_stopped (same_text (concat (u :: us))) (u :: us) rest []) in S; [|discriminate|apply same_text_true; reflexivity].
    rewrite S in A. destruct A as (j & A).
    destruct (coupled ff fb k b cap x (vm_start m) no_fun begin_rest (no_limit never) (same_text (concat (u :: us))) j) as [G|(_ & i & s & o & G & R & T)].
    + exfalso. apply (no_loop j). rewrite <- G. exact A.
    + apply same_text_true in T. exists i, s. rewrite machine_same. split; [exact G|]. rewrite T. exact (rest_written o s R).
Qed.

Lemma done_stays j j' r : go never j = r -> (forall t, r <> SNext t) -> (j <= j')%nat -> go never j' = r.
Proof.
  intros H N Le. induction Le as [|j' _ IH]; [exact H|]. rewrite steps_last, IH. destruct r; try reflexivity. exfalso. exact (N s eq_refl).
Qed.

(** The last state of a program that stops with a failure. *)
Lemma last_words n ws e j r : acting text ss n = (ws, Some e) -> go never j = r -> (forall t, r <> SNext t) ->
  exists i s, go never i = SNext s /\ step (W never) cap x s = r /\ written k (v_mem s) = concat ws.
Proof.
  intros A H N.
  assert (Last : forall j, go never j = r -> exists i s, (i < j)%nat /\ go never i = SNext s /\ step (W never) cap x s = r).
  { clear j H. induction j as [|j IH]; intros H; [exfalso; exact (N _ (eq_sym H))|]. rewrite steps_last in H. destruct (go never j) as [s| | | | | |] eqn:G.
    1: exists j, s; auto. all: subst r; destruct (IH eq_refl) as (i & s & I1 & I2); exists i, s; split; [lia|exact I2]. }
  destruct (Last j H) as (i & s & _ & G & St). exists i, s. split; [exact G|]. split; [exact St|].
  destruct (rests ff fb k b cap x (vm_start m) no_fun begin_rest never i s G) as (o & R). rewrite (rest_written o s R).
  assert (End : go never (S i) = r) by (rewrite steps_last, G; exact St).
  assert (P1 : exists w, o = concat ws ++ w).
  { destruct (proj2 (written_now (concat ws))) as (i' & s' & G' & Hw). { exists n, ws, []. rewrite A, app_nil_r. auto. }
    rewrite machine_same in G'. destruct (rests ff fb k b cap x (vm_start m) no_fun begin_rest never i' s' G') as (o' & R'). rewrite (rest_written o' s' R') in Hw. subst o'.
    assert (Le : (i' <= i)%nat). { destruct (Nat.le_gt_cases i' i) as [Le|Gt]; [exact Le|]. rewrite (done_stays (S i) i' r End N Gt) in G'. exfalso. exact (N _ G'). }
    apply (grows ff fb k b cap x (vm_start m) no_fun begin_rest i' s' (concat ws) G' R' (i - i') s o); [|exact R]. replace (i' + (i - i'))%nat with i by lia. exact G. }
  assert (P2 : exists w, concat ws = o ++ w).
  { destruct (proj1 (written_now o)) as (n' & us & rest & Q & ->). { exists i, s. rewrite machine_same. split; [exact G|exact (rest_written o s R)]. }
    assert (Pre : exists rest', ws = us ++ rest').
    { destruct (Nat.le_gt_cases n n') as [Le|Gt].
      - pose proof (more_acting text ss n n' Le) as M. unfold more in M. rewrite A in M. cbn [snd] in M. rewrite <- M in Q. cbn [fst] in Q. eauto.
      - assert (Le : (n' <= n)%nat) by lia. pose proof (more_acting text ss n' n Le) as M. unfold more in M. rewrite A in M. destruct (snd (acting text ss n')).
        + rewrite M in Q. cbn [fst] in Q. eauto.
        + destruct M as (rest' & M). cbn [fst] in M. rewrite M, Q, <- app_assoc. eauto. }
    destruct Pre as (rest' & ->). rewrite concat_app. eauto. }
  destruct P1 as (w1 & P1), P2 as (w2 & P2). rewrite P1 in P2. rewrite <- app_assoc in P2. rewrite <- (app_nil_r (concat ws)) in P2 at 1. apply app_inv_head in P2.
  symmetry in P2. apply app_eq_nil in P2. destruct P2 as [-> _]. rewrite app_nil_r in P1. exact P1.
Qed.

Lemma step_machine j s : go never j = SNext s -> step L cap x s = step (W never) cap x s.
Proof.
  intros G. pose proof (machine_same (S j)) as H. rewrite !steps_last, machine_same, G in H. exact H.
Qed.

Lemma ends_so n ws r : acting text ss n = (ws, Some r) ->
  match r with
  | Falls s => exists j l m', steps L cap x j (vm_start m) = SDone [VRef l] m' /\ written k m' = concat ws /\
      forall y, In y X -> select_of L m' (VRef l) (VStr y) = OOk (s y, m')
  | Gives vs => exists j m', steps L cap x j (vm_start m) = SDone vs m' /\ written k m' = concat ws
  | Fails => exists j s, steps L cap x j (vm_start m) = SNext s /\ step L cap x s = SErr /\ written k (v_mem s) = concat ws
  | Lost => exists j s, steps L cap x j (vm_start m) = SNext s /\ step L cap x s = VmModel.SUB /\ written k (v_mem s) = concat ws
  | Breaks _ => False
  end.
Proof.
  intros A. pose proof (ran never n) as R. pose proof (source never n) as S. rewrite never_stopped, A in S. cbn [fst snd] in S. destruct r.
  - destruct S as (st & S & H). rewrite S in R. destruct R as (j & R). exists j, (length (m_objs m)), (t_mem st). rewrite machine_same. split; [exact R|].
    split; [exact (proj1 (tholds_out k b _ X s _ _ H))|]. intros y Hy. destruct H as (m0 & Hl & _ & _ & H). rewrite <- Hl. exact (holds_select L m0 X Few s _ y H Hy).
  - contradiction.
  - destruct S as (st & S & H). rewrite S in R. destruct R as (j & R). exists j, (t_mem st). rewrite machine_same. auto.
  - rewrite S in R. destruct R as (j & R). destruct (last_words n ws Fails j SErr A R ltac:(discriminate)) as (i & s & G & St & Hw). exists i, s. rewrite machine_same, (step_machine i s G). auto.
  - rewrite S in R. destruct R as (j & R). destruct (last_words n ws Lost j VmModel.SUB A R ltac:(discriminate)) as (i & s & G & St & Hw). exists i, s. rewrite machine_same, (step_machine i s G). auto.
Qed.

Lemma on_and_on : (forall n, snd (acting text ss n) = None) -> forall j, exists s, steps L cap x j (vm_start m) = SNext s.
Proof.
  intros H j. pose proof (ran never j) as R. pose proof (source never j) as S. rewrite never_stopped, (H j) in S. rewrite S in R. rewrite machine_same. exact R.
Qed.
End Program.

Lemma talking src ss X : text_ok src -> slen src < 2 ^ 26 -> reads src ss -> tcores false ss -> incl (tnames_all ss) X -> few X ->
  (forall y, In y X -> no_nul y /\ ~ exists name, In name known_names /\ y = bytes_of name) -> fits_stmts 16 ss = true ->
  exists x, compile src = ROk x /\ compiled (SComp ss) x /\ tfines X ss.
Proof.
  intros T Ln R C I Fw HX Ft. pose proof (proj2 tcore_ok ss false C Ft) as OK.
  assert (Wf : wf_stmts ss). { pose proof R as P. apply reads_parse in P. destruct (parse_tree _ _ _ _ P T) as [Wf _]. exact Wf. }
  destruct (compile_good src _ T Ln R OK) as (x & Cp & Cd). exists x. split; [exact Cp|]. split; [exact Cd|]. split; assumption.
Qed.
