(** Expressions of literals and operators: proofs. *)
From Coq Require Import ZArith List Bool Lia.
From Verif Require Import Base FloatModel StringModel ValueModel ExeModel ArithModel AstModel CodegenModel CompSpec MapModel ObjModel VmModel BuiltinModel BuiltinProofs TextProofs SrcModel LexModel ParseModel RunProofs
  ParseSafe CompileModel CompileProofs DepthSpec DepthProofs CalcSpec.
Import ListNotations.
Open Scope Z_scope.

Definition basic (v : value) : Prop := match v with VNone | VBool _ | VFloat _ => True | VInt z => in_i64 z | VStr s => text_ok s | _ => False end.

Lemma math_means op opc v w : (op = BAdd /\ opc = OP_ADD) \/ (op = BSub /\ opc = OP_SUB) \/ (op = BMul /\ opc = OP_MUL) \/ (op = BDiv /\ opc = OP_DIV) ->
  match means2 op v w with
  | AVal r => math_op opc v w = ROk r /\ basic r
  | AErr => math_op opc v w = RErr
  | ALost => math_op opc v w = RUB
  | ANone => False
  end.
Proof.
  intros H. unfold means2, arith, fits64. repeat destruct H as [H|H]; destruct H as [-> ->];
    destruct v as [| |x|x| | | |], w as [| |y|y| | | |]; cbn [as_double math_op math_int math_flt]; try reflexivity; unfold int_res; try (cbn; auto; fail);
    repeat match goal with |- context [if ?c then _ else _] => let Q := fresh "Q" in destruct c eqn:Q end; cbn; auto;
    (split; [reflexivity|]); match goal with Q : _ && _ = true |- _ => apply andb_true_iff in Q; rewrite Z.leb_le, Z.ltb_lt in Q; exact Q end.
Qed.

Lemma rel_means op opc v w : (op = BLss /\ opc = OP_LSS) \/ (op = BLeq /\ opc = OP_LEQ) \/ (op = BGrt /\ opc = OP_GRT) \/ (op = BGeq /\ opc = OP_GEQ) ->
  match means2 op v w with
  | AVal r => exists b, r = VBool b /\ rel_op opc v w = ROk b
  | AErr => rel_op opc v w = RErr
  | _ => False
  end.
Proof.
  intros H. unfold means2, order, arith, bool_answer. repeat destruct H as [H|H]; destruct H as [-> ->];
    destruct v as [| |x|x| | | |], w as [| |y|y| | | |]; cbn [as_double rel_op rel_int rel_flt]; try reflexivity;
    eexists; (split; [reflexivity|]); rewrite ?Z.gtb_ltb, ?Z.geb_leb; reflexivity.
Qed.

Lemma same_compare rt v w : basic v -> basic w -> obj_compare rt v w = Some (same v w).
Proof.
  destruct v as [| | | |bs| | |], w as [| | | |bs0| | |]; cbn; intros A B; try contradiction; try reflexivity. unfold str_of.
  assert (N : ~ In 0 bs) by (intros N; unfold text_ok in A; rewrite Forall_forall in A; specialize (A 0 N); lia).
  destruct (list_eq_dec Z.eq_dec bs bs0) as [->|D].
  - f_equal. apply str_eql_iff; auto.
  - destruct (str_eql _ _) eqn:Q; [|reflexivity]. apply str_eql_iff in Q; [congruence|auto].
Qed.

Lemma no_nul_strlen s : ~ In 0 s -> c_strlen (s ++ [0]) = Some (length s).
Proof.
  induction s as [|c r IH]; intros H; [reflexivity|]. cbn [app c_strlen length]. destruct (Z.eqb_spec c 0) as [->|]; [exfalso; apply H; left; reflexivity|].
  rewrite IH; [reflexivity|]. intros C. apply H. right. exact C.
Qed.

Lemma vstring_chars s : text_ok s -> chars s -> vstring s = OOk (VStr s).
Proof.
  intros A (cs & F & C & L).
  assert (N : ~ In 0 s) by (intros N; unfold text_ok in A; rewrite Forall_forall in A; specialize (A 0 N); lia).
  pose proof (new_string_text s [0] (ex_intro _ cs (conj F C)) L) as H. rewrite <- H. unfold vstring, new_string, from_string.
  rewrite wrap32_id by (unfold in_int; lia). cbn [Z.ltb Z.compare]. rewrite (no_nul_strlen s N).
  destruct (Z.ltb_spec (Z.of_nat (length s)) 0); [lia|]. rewrite Nat2Z.id. reflexivity.
Qed.

Lemma mod_means v w : basic v -> basic w ->
  match means2 BMod v w with
  | AVal r => mod_op v w = ROk r /\ basic r
  | AErr => mod_op v w = RErr
  | ALost => mod_op v w = RUB
  | ANone => False
  end.
Proof.
  intros A B. destruct v as [| |x|x| | | |], w as [| |y|y| | | |]; cbn [means2 mod_op]; try reflexivity; try contradiction.
  cbn in A, B. unfold in_i64 in *. destruct (y =? 0) eqn:Y; [reflexivity|]. apply Z.eqb_neq in Y. cbn [orb].
  destruct ((x =? - 2 ^ 63) && (y =? - 1)) eqn:M.
  - apply andb_true_iff in M. destruct M as [X Y1]. apply Z.eqb_eq in X, Y1. subst. reflexivity.
  - assert (Q : - 2 ^ 63 <= Z.quot x y < 2 ^ 63).
    { pose proof (Z.quot_rem' x y) as D. destruct (Z.eq_dec y (-1)) as [->|N1].
      - rewrite andb_false_iff, !Z.eqb_neq in M. assert (x <> - 2 ^ 63) by (destruct M; lia).
        rewrite <- (Z.opp_involutive (-1)), Z.quot_opp_r by lia. change (- -1) with 1. rewrite Z.quot_1_r. lia.
      - destruct (Z.eq_dec y 1) as [->|N2]; [rewrite Z.quot_1_r; lia|].
        assert (Ab : Z.abs (Z.quot x y) * 2 <= Z.abs x).
        { rewrite <- Z.quot_abs by lia. rewrite Z.quot_div_nonneg by lia. 
          assert (Z.abs x / Z.abs y * Z.abs y <= Z.abs x) by (rewrite Z.mul_comm; apply Z.mul_div_le; lia).
          assert (0 <= Z.abs x / Z.abs y) by (apply Z.div_pos; lia). nia. }
        lia. }
    replace ((- 2 ^ 63 <=? Z.quot x y) && (Z.quot x y <? 2 ^ 63)) with true
      by (symmetry; apply andb_true_iff; split; [apply Z.leb_le|apply Z.ltb_lt]; lia).
    split; [reflexivity|]. cbn. pose proof (Z.rem_bound_abs x y Y). unfold in_i64. lia.
Qed.

Lemma fits_in z r : fits64 z = AVal r -> r = VInt z /\ in_i64 z.
Proof.
  unfold fits64, in_i64. destruct ((- 2 ^ 63 <=? z) && (z <? 2 ^ 63)) eqn:E; [|discriminate]. intros H. injection H as <-.
  apply andb_true_iff in E. rewrite Z.leb_le, Z.ltb_lt in E. split; [reflexivity|lia].
Qed.

Lemma binary_means op m v w : op <> BStp -> basic v -> basic w -> m_pend m = false ->
  match means2 op v w with
  | AVal r => binary_op (binop_code op) m v w = OOk (r, m) /\ basic r
  | AErr => binary_op (binop_code op) m v w = OErr
  | ALost => binary_op (binop_code op) m v w = OUB
  | ANone => False
  end.
Proof.
  intros N A B P. pose proof (mod_means v w A B) as Hm.
  pose proof (same_compare (rt_of (m_objs m)) v w A B) as Hs.
  destruct op; try congruence; cbn [binop_code binary_op];
  first
  [ match goal with |- match means2 ?o _ _ with _ => _ end =>
      pose proof (math_means o (binop_code o) v w ltac:(cbn; auto 6)) as H; cbn [binop_code] in H;
      destruct (means2 o v w); try contradiction; [destruct H as [H ?]|..]; rewrite H; cbn; auto end
  | solve [destruct (means2 BMod v w); try contradiction; [destruct Hm as [Hm ?]|..]; rewrite Hm; cbn; auto]
  | solve [cbn [means2]; unfold bool_answer, compare_op; rewrite Hs, P; cbn; auto]
  | match goal with |- match means2 ?o _ _ with _ => _ end =>
      pose proof (rel_means o (binop_code o) v w ltac:(cbn; auto 6)) as H; cbn [binop_code] in H;
      destruct (means2 o v w); try contradiction; [destruct H as (b & -> & H)|..]; rewrite H; cbn; auto end ].
Qed.

Lemma unary_means op m v : op <> UNlb -> basic v ->
  match means1 op v with
  | AVal r => unary_op (unop_code op) m v = OOk (r, m) /\ basic r
  | AErr => unary_op (unop_code op) m v = OErr
  | ALost => unary_op (unop_code op) m v = OUB
  | ANone => False
  end.
Proof.
  intros N A. destruct op; try congruence; cbn [unop_code unary_op means1]; [auto| |].
  - destruct v as [| |x|x| | | |]; cbn [neg_op]; try reflexivity; try contradiction.
    + destruct (fits64 (- x)) eqn:E.
      * apply fits_in in E. destruct E as [-> I]. unfold int_res. unfold in_i64 in I.
        replace ((- 2 ^ 63 <=? - x) && (- x <? 2 ^ 63)) with true by (symmetry; apply andb_true_iff; split; [apply Z.leb_le|apply Z.ltb_lt]; lia).
        split; [reflexivity|exact I].
      * unfold fits64 in E. destruct (_ && _) in E; discriminate.
      * unfold fits64 in E. unfold int_res. destruct (_ && _); [discriminate|reflexivity].
      * unfold fits64 in E. destruct (_ && _) in E; discriminate.
    + split; [reflexivity|exact I].
  - destruct v; cbn; auto.
Qed.

Section Eval.
Variables (E : env) (A2 : params -> stmt -> list value -> value -> sst -> out (list value * sst)).
Notation ev := (eval E A2).

Lemma eval_means : forall e m vs sc st, pure e -> wf_expr e -> m_pend (t_mem st) = false -> m <> MTgt ->
  match means e with
  | AVal r => ev m e vs sc st = OOk ([r], st) /\ basic r
  | AErr => ev m e vs sc st = OErr
  | ALost => ev m e vs sc st = OUB
  | ANone => False
  end.
Proof.
  induction e; intros mo vs sc st Pu Wf Pe Nm; cbn [pure] in Pu; try contradiction; cbn [means]; cbn [wf_expr] in Wf.
  - split; [reflexivity|exact Wf].
  - split; [reflexivity|exact I].
  - cbn [eval]. rewrite (vstring_chars _ Wf Pu). split; [reflexivity|exact Wf].
  - split; [reflexivity|exact I].
  - split; [reflexivity|exact I].
  - split; [reflexivity|exact I].
  - destruct Pu as [No Pu]. specialize (IHe MVal [] sc st Pu Wf Pe ltac:(discriminate)). cbn [eval]. destruct (means e) as [v| | |]; cbn [andthen]; try contradiction;
      [|rewrite IHe; reflexivity..]. destruct IHe as [He Bv]. rewrite He. cbn [obind fst snd].
    pose proof (unary_means op (t_mem st) v No Bv) as U. destruct (means1 op v); try contradiction; [|rewrite U; reflexivity..].
    destruct U as [U Br]. rewrite U. cbn. destruct st; auto.
  - destruct Pu as (No & P1 & P2), Wf as [W1 W2]. specialize (IHe1 MVal [] sc st P1 W1 Pe ltac:(discriminate)).
    specialize (IHe2 MVal [] sc st P2 W2 Pe ltac:(discriminate)). cbn [eval].
    destruct (means e1) as [v| | |]; cbn [andthen]; try contradiction; [|rewrite IHe1; reflexivity..]. destruct IHe1 as [He1 B1]. rewrite He1. cbn [obind fst snd].
    destruct (means e2) as [w| | |]; cbn [andthen]; try contradiction; [|rewrite IHe2; reflexivity..]. destruct IHe2 as [He2 B2]. rewrite He2. cbn [obind fst snd].
    pose proof (binary_means op (t_mem st) v w No B1 B2 Pe) as U. destruct (means2 op v w); try contradiction; [|rewrite U; reflexivity..].
    destruct U as [U Br]. rewrite U. cbn. destruct st; auto.
  - destruct Pu as (P1 & P2), Wf as [W1 W2]. specialize (IHe1 MVal [] sc st P1 W1 Pe ltac:(discriminate)).
    specialize (IHe2 MVal [] sc st P2 W2 Pe ltac:(discriminate)). cbn [eval].
    destruct (means e1) as [v| | |]; cbn [andthen]; try contradiction; [|rewrite IHe1; reflexivity..]. destruct IHe1 as [He1 B1]. rewrite He1. cbn [obind fst snd].
    destruct v as [|[]| | | | | |]; cbn [truth]; try contradiction; try reflexivity; [|split; [reflexivity|exact I]].
    destruct (means e2) as [w| | |]; cbn [andthen]; try contradiction; [|rewrite IHe2; reflexivity..]. destruct IHe2 as [He2 B2]. rewrite He2. cbn [obind fst snd].
    destruct w as [|[]| | | | | |]; cbn [truth bool_answer]; try contradiction; try reflexivity; (split; [reflexivity|exact I]).
  - destruct Pu as (P1 & P2), Wf as [W1 W2]. specialize (IHe1 MVal [] sc st P1 W1 Pe ltac:(discriminate)).
    specialize (IHe2 MVal [] sc st P2 W2 Pe ltac:(discriminate)). cbn [eval].
    destruct (means e1) as [v| | |]; cbn [andthen]; try contradiction; [|rewrite IHe1; reflexivity..]. destruct IHe1 as [He1 B1]. rewrite He1. cbn [obind fst snd].
    destruct v as [|[]| | | | | |]; cbn [truth]; try contradiction; try reflexivity; [split; [reflexivity|exact I]|].
    destruct (means e2) as [w| | |]; cbn [andthen]; try contradiction; [|rewrite IHe2; reflexivity..]. destruct IHe2 as [He2 B2]. rewrite He2. cbn [obind fst snd].
    destruct w as [|[]| | | | | |]; cbn [truth bool_answer]; try contradiction; try reflexivity; (split; [reflexivity|exact I]).
Qed.
End Eval.

Lemma program_means E e m n : pure e -> wf_expr e -> m_pend m = false ->
  match means e with
  | AVal r => exists st, run_program E (S n) (SComp (SCons (SReturn e) SNil)) m = OOk ([r], st)
  | AErr => run_program E (S n) (SComp (SCons (SReturn e) SNil)) m = OErr
  | ALost => run_program E (S n) (SComp (SCons (SReturn e) SNil)) m = OUB
  | ANone => False
  end.
Proof.
  intros Pu Wf Pe. unfold run_program, alloc. change (run_stmt_n E (S n)) with (run_stmt E (run_stmt_n E n) (run_call_n E n)). cbn [run_stmt run_stmts].
  set (st := mkst _ []). set (sc := mksc _ None).
  pose proof (eval_means E (run_call_n E n) e MRets [] sc st Pu Wf Pe ltac:(discriminate)) as H.
  destruct (means e); try contradiction; [destruct H as [H _]|..]; rewrite H; cbn [obind fst snd]; try reflexivity.
  unfold body_results. change (m_pend (t_mem st)) with (m_pend m). rewrite Pe. eexists. reflexivity.
Qed.

(** From the text on. *)
Lemma calculates src e : text_ok src -> slen src < 2 ^ 26 -> reads src (SCons (SReturn e) SNil) -> pure e ->
  exists x, compile src = ROk x /\ forall E cap m, m_pend m = false ->
  (exists j, steps E cap x j (vm_start m) = SLimit) \/
  match means e with
  | AVal r => exists j m', steps E cap x j (vm_start m) = SDone [r] m'
  | AErr => exists j, steps E cap x j (vm_start m) = SErr
  | ALost => exists j, steps E cap x j (vm_start m) = VmModel.SUB
  | ANone => False
  end.
Proof.
  intros T L R Pu.
  assert (OK : forall e, pure e -> ok_expr MVal e = true /\ ok_expr MRets e = true /\ tuple_len e = 1).
  { clear. induction e; cbn [pure]; intros P; try contradiction; cbn; try auto.
    - destruct P as [_ P]. destruct (IHe P) as (-> & _). auto.
    - destruct P as (_ & P1 & P2). destruct (IHe1 P1) as (-> & _). destruct (IHe2 P2) as (-> & _). auto.
    - destruct P as (P1 & P2). destruct (IHe1 P1) as (-> & _). destruct (IHe2 P2) as (-> & _). auto.
    - destruct P as (P1 & P2). destruct (IHe1 P1) as (-> & _). destruct (IHe2 P2) as (-> & _). auto. }
  destruct (OK e Pu) as (_ & O2 & O3).
  assert (Wf : wf_expr e).
  { pose proof R as P. apply reads_parse in P. destruct (parse_tree _ _ _ _ P T) as [W _]. cbn in W. tauto. }
  destruct (compile_good src _ T L R) as (x & C & Cd).
  { cbn [ok_stmts ok_stmt]. rewrite O3, O2. reflexivity. }
  exists x. split; [exact C|]. intros E cap m Pe.
  destruct (runs E cap _ x Cd m 1) as [H|H]; [left; exact H|]. right.
  pose proof (program_means E e m 0 Pu Wf Pe) as M. destruct (means e); try contradiction.
  - destruct M as [st M]. rewrite M in H. destruct H as [j H]. eauto.
  - rewrite M in H. exact H.
  - rewrite M in H. exact H.
Qed.

Lemma pure_callfree e : pure e -> callfree e = true.
Proof.
  induction e; cbn [pure callfree]; try contradiction; try reflexivity; intros H.
  - apply IHe, H.
  - destruct H as (_ & A & B). rewrite IHe1, IHe2 by assumption. reflexivity.
  - destruct H as (A & B). rewrite IHe1, IHe2 by assumption. reflexivity.
  - destruct H as (A & B). rewrite IHe1, IHe2 by assumption. reflexivity.
Qed.

(** An expression that never holds more than 16 values is computed on a stack of 256. *)
Lemma calculates_all src e : text_ok src -> slen src < 2 ^ 26 -> reads src (SCons (SReturn e) SNil) -> pure e -> fits_expr 16 MRets e 0 = true ->
  exists x, compile src = ROk x /\ forall E cap m, 256 <= cap -> m_pend m = false ->
  match means e with
  | AVal r => exists j m', steps E cap x j (vm_start m) = SDone [r] m'
  | AErr => exists j, steps E cap x j (vm_start m) = SErr
  | ALost => exists j, steps E cap x j (vm_start m) = VmModel.SUB
  | ANone => False
  end.
Proof.
  intros T L R Pu Ft. destruct (calculates src e T L R Pu) as (x & C & H). exists x. split; [exact C|]. intros E cap m Hc Pe.
  destruct (H E cap m Pe) as [[j Hl]|Hr]; [|exact Hr]. exfalso.
  destruct (compile_compiled src x T L C) as (ss & R' & Cd). pose proof (reads_one _ _ _ R R') as <-.
  revert Hl. apply (callfree_no_limit _ _ Cd); [| |exact Hc]; cbn [fits_stmt fits_stmts callfree_stmt callfree_stmts]; [rewrite Ft|rewrite pure_callfree by assumption]; reflexivity.
Qed.
