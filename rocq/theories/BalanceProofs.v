(** The code of a program keeps the stack balanced (C28). *)
From Coq Require Import ZArith List Lia Bool.
From Verif Require Import Base StringModel ValueModel MapModel ListModel ExeModel ExeSpec ExeProofs ArithModel ObjModel AstModel
  CodegenModel FrameModel VmModel SrcModel CompSpec CodegenProofs CodegenProofs2 CodegenProofs3 SimProofs BalanceSpec RunProofs.
Import ListNotations.
Open Scope Z_scope.

(** * Statically *)
Section Static.
Variable lim : Z.
Hypothesis Hlim : lim < 2^31.

Definition agree (D : Z -> Z) (p : Z) (ds : list Z) : Prop := forall k d, nth_error ds k = Some d -> D (p + Z.of_nat k) = d.
Definition flows (D : Z -> Z) (p : Z) (c : list instr) : Prop :=
  forall k op ops, nth_error c k = Some (op, ops) -> flow D (p + Z.of_nat k) op ops.
Definition known (D : Z -> Z) (K : list (Z * Z)) : Prop := Forall (fun td => 0 <= fst td <= lim /\ D (fst td) = snd td) K.

(** Code [c] at [p] goes from depth [a] to depth [b], if the labels in [K] have the given depths. *)
Definition seg (K : list (Z * Z)) (p : Z) (c : list instr) (a b : Z) : Prop :=
  exists ds, length ds = length c /\ forall D, agree D p ds -> D (p + Z.of_nat (length c)) = b ->
    D p = a /\ (known D K -> 0 <= p -> p + Z.of_nat (length c) <= lim -> flows D p c).

Lemma seg_nil K p a : seg K p [] a a.
Proof. exists []. split; [reflexivity|]. intros D _ H. cbn [length] in H. rewrite Z.add_0_r in H. split; [exact H|]. intros _ _ _ [|k] op ops; discriminate. Qed.

Lemma agree_app D p d1 d2 : agree D p (d1 ++ d2) <-> agree D p d1 /\ agree D (p + Z.of_nat (length d1)) d2.
Proof.
  unfold agree. split.
  - intros H. split; intros k d Hk.
    + apply H. rewrite nth_error_app1; [exact Hk|]. eapply nth_error_Some_lt; eassumption.
    + rewrite <- Z.add_assoc, <- Nat2Z.inj_add. apply H. rewrite nth_error_app2 by lia. rewrite <- Hk. f_equal. lia.
  - intros [H1 H2] k d Hk. destruct (Nat.lt_ge_cases k (length d1)).
    + rewrite nth_error_app1 in Hk by assumption. auto.
    + rewrite nth_error_app2 in Hk by assumption. apply H2 in Hk. rewrite <- Hk. f_equal. lia.
Qed.

Lemma flows_app D p c1 c2 : flows D p c1 -> flows D (p + Z.of_nat (length c1)) c2 -> flows D p (c1 ++ c2).
Proof.
  intros H1 H2 k op ops Hk. destruct (Nat.lt_ge_cases k (length c1)).
  - rewrite nth_error_app1 in Hk by assumption. auto.
  - rewrite nth_error_app2 in Hk by assumption. apply H2 in Hk. replace (p + Z.of_nat k) with (p + Z.of_nat (length c1) + Z.of_nat (k - length c1)) by lia. exact Hk.
Qed.

(** Sequence; the code before may use the position between as a label. *)
Lemma seg_app K p c1 c2 a m b q : q = p + Z.of_nat (length c1) -> seg ((q, m) :: K) p c1 a m -> seg K q c2 m b -> seg K p (c1 ++ c2) a b.
Proof.
  intros -> (d1 & L1 & H1) (d2 & L2 & H2). exists (d1 ++ d2). split; [rewrite !app_length; lia|].
  intros D Ha He. apply agree_app in Ha. destruct Ha as [Ha1 Ha2]. rewrite L1 in Ha2. rewrite app_length, Nat2Z.inj_add, Z.add_assoc in He.
  destruct (H2 D Ha2 He) as [Hm Hf2]. destruct (H1 D Ha1 Hm) as [Hp Hf1]. split; [exact Hp|].
  intros HK H0 HL. rewrite app_length, Nat2Z.inj_add in HL. apply flows_app.
  - apply Hf1; [|lia|lia]. constructor; [|exact HK]. cbn [fst snd]. split; [lia|exact Hm].
  - apply Hf2; [exact HK|lia|lia].
Qed.

(** The end and the start may be used as labels. *)
Lemma seg_end K p c a b q : q = p + Z.of_nat (length c) -> seg ((q, b) :: K) p c a b -> seg K p c a b.
Proof.
  intros -> (ds & L & H). exists ds. split; [exact L|]. intros D Ha He. destruct (H D Ha He) as [Hp Hf]. split; [exact Hp|].
  intros HK H0 HL. apply Hf; auto. constructor; [|exact HK]. cbn [fst snd]. split; [lia|exact He].
Qed.
Lemma seg_start K p c a b : seg ((p, a) :: K) p c a b -> seg K p c a b.
Proof.
  intros (ds & L & H). exists ds. split; [exact L|]. intros D Ha He. destruct (H D Ha He) as [Hp Hf]. split; [exact Hp|].
  intros HK H0 HL. apply Hf; auto. constructor; [|exact HK]. cbn [fst snd]. split; [lia|exact Hp].
Qed.
Lemma seg_weaken K K' p c a b : incl K' K -> seg K' p c a b -> seg K p c a b.
Proof.
  intros Hi (ds & L & H). exists ds. split; [exact L|]. intros D Ha He. destruct (H D Ha He) as [Hp Hf]. split; [exact Hp|].
  intros HK H0 HL. apply Hf; auto. unfold known in *. rewrite Forall_forall in *. auto.
Qed.

Lemma seg_one K p op ops a b :
  (forall D, D p = a -> D (p + 1) = b -> known D K -> 0 <= p -> p + 1 <= lim -> flow D p op ops) -> seg K p [(op, ops)] a b.
Proof.
  intros H. exists [a]. split; [reflexivity|]. intros D Ha He. specialize (Ha O a eq_refl). cbn in Ha. rewrite Z.add_0_r in Ha.
  split; [exact Ha|]. intros HK H0 HL [|[|k]] op' ops' Hk; try discriminate. injection Hk as <- <-. cbn [Z.of_nat]. rewrite Z.add_0_r.
  apply H; auto.
Qed.

Lemma seg_effect K p op ops a b t g : effect op ops = Some (t, g) -> t <= a -> b = a - t + g -> seg K p [(op, ops)] a b.
Proof.
  intros He Ht ->. apply seg_one. intros D Hp Hn _ _ _.
  assert (G : match effect op ops with Some (takes, gives) => takes <= D p /\ D (p + 1) = D p - takes + gives | None => False end).
  { rewrite He, Hp. split; [exact Ht|exact Hn]. }
  unfold flow. destruct op; try exact G; destruct ops as [|[] [|[] [|[] [|? ?]]]]; cbn in He; try discriminate; exact G.
Qed.

Lemma known_at D K t d : known D K -> In (t, d) K -> 0 <= t <= lim /\ D t = d.
Proof. intros HK Hi. unfold known in HK. rewrite Forall_forall in HK. exact (HK _ Hi). Qed.

Lemma seg_jump K p t a b : In (t, a) K -> seg K p [(OP_JUMP, [PIdx t])] a b.
Proof. intros Hi. apply seg_one. intros D Hp _ HK _ _. destruct (known_at _ _ _ _ HK Hi). cbn [flow]. split; [lia|congruence]. Qed.
Lemma seg_jumpif K p t a b op : op = OP_JUMPIFANDPOP \/ op = OP_JUMPIFNOTANDPOP -> In (t, b) K -> 0 <= b -> a = b + 1 -> seg K p [(op, [PIdx t])] a b.
Proof.
  intros Ho Hi Hb ->. apply seg_one. intros D Hp Hn HK _ _. destruct (known_at _ _ _ _ HK Hi).
  destruct Ho; subst op; cbn [flow]; rewrite Hp; lia.
Qed.
Lemma seg_return K p n b : seg K p [(OP_RETURN, [PInt n])] n b.
Proof. apply seg_one. intros D Hp _ _ _ _. exact Hp. Qed.
Lemma seg_pop K p a b : 0 <= b -> a = b + 1 -> seg K p [i_pop1] a b.
Proof. intros Hb ->. apply (seg_effect _ _ _ _ _ _ 1 0); [reflexivity|lia|lia]. Qed.

Lemma seg_fun K p name ps sp body a :
  0 <= a -> params_len ps <= sp ->
  (forall K, seg K (p + 2) (body_code (comp_params 0 ps) (size_params ps) (comp_stmt 0 body) body (p + 2)) (params_len ps) (a + 1)) ->
  Z.of_nat (length (body_code (comp_params 0 ps) (size_params ps) (comp_stmt 0 body) body (p + 2))) = sp ->
  seg K p (func_code name (params_len ps) sp (body_code (comp_params 0 ps) (size_params ps) (comp_stmt 0 body) body) p) a (a + 1).
Proof.
  intros Ha Hsp H L. unfold func_code.
  set (q := p + 2 + sp). apply (seg_end _ _ _ _ _ q); [unfold q; rewrite app_length, Nat2Z.inj_add; unfold instr in L |- *; rewrite L; cbn [length]; lia|].
  eapply (seg_app _ _ _ _ _ (params_len ps) _ (p + 2)); [reflexivity| |apply H].
  change [?a; ?b] with ([a] ++ [b]). eapply (seg_app _ _ _ _ _ (a + 1)); [reflexivity| |].
  - apply seg_one. intros D Hp Hn HK H0 HL. 
    destruct (known_at _ _ (p + 2) (params_len ps) HK); [cbn; auto|].
    destruct (known_at _ _ q (a + 1) HK); [cbn; auto|].
    pose proof (params_len_nonneg ps). cbn [flow]. rewrite Hp. repeat split; lia.
  - apply seg_jump. cbn. auto.
Qed.


Lemma pop_seg K p s : seg K p (pop_code s) (pop_size s) 0.
Proof. unfold pop_code, pop_size. destruct (is_expr s); [apply seg_pop; lia|apply seg_nil]. Qed.

Definition base_of (m : mode) (e : expr) : Z := match m with MTgt => tuple_len e | _ => 0 end.

Definition seg_claim (e : expr) : Prop :=
  forall m K p a, ok_expr m e = true -> mode_ok m -> 0 <= a -> size_expr m e < 2^31 ->
     seg K p (comp_expr m e p) (a + base_of m e) (a + arity m e).

Lemma val_seg e : seg_claim e -> forall K p a b, ok_expr MVal e = true -> 0 <= a -> b = a + 1 -> size_expr MVal e < 2^31 ->
  seg K p (comp_expr MVal e p) a b.
Proof. intros H K p a b Hok Ha -> Hs. pose proof (H MVal K p a Hok I Ha Hs) as G. cbn [base_of arity] in G. rewrite Z.add_0_r in G. exact G. Qed.

Lemma segs :
  (forall e, seg_claim e) /\
  (forall es, (forall K p a, ok_exprs es = true -> 0 <= a -> size_args es < 2^31 -> seg K p (comp_args es p) a (a + exprs_len es)) /\
     (forall i K p a, ok_exprs es = true -> 0 <= a -> size_items es < 2^31 -> seg K p (comp_items i es p) (a + 1) (a + 1))) /\
  (forall ps K p a, ok_pairs ps = true -> 0 <= a -> size_pairs ps < 2^31 -> seg K p (comp_pairs ps p) (a + 1) (a + 1)) /\
  (forall ps i K p a, ok_params ps = true -> 0 <= a -> size_params ps < 2^31 -> seg K p (comp_params i ps p) (a + params_len ps) a) /\
  (forall s b brk K p, ok_stmt b s = true -> (b = true -> In (brk, 0) K) -> size_stmt s < 2^31 -> seg K p (comp_stmt brk s p) 0 (pop_size s)) /\
  (forall ss b brk K p, ok_stmts b ss = true -> (b = true -> In (brk, 0) K) -> size_stmts ss < 2^31 -> seg K p (comp_stmts brk ss p) 0 0).
Proof.
  Ltac lens' := unfold i_pop1; repeat (rewrite ?app_length, ?Nat2Z.inj_add, ?csize_expr, ?csize_args, ?csize_items, ?csize_pairs, ?csize_params, ?csize_stmt,
    ?csize_stmts, ?pop_size_code; cbn [length]).
  Ltac at_end := solve [reflexivity | lens'; lia].
  Ltac sq m := eapply (seg_app _ _ _ _ _ m).
  Ltac sqa m q := apply (seg_app _ _ _ _ _ m _ q); [lens'; lia| |].
  Ltac inK := cbn [In]; repeat first [left; f_equal; lia | right]; assumption.
  Ltac eff := first [eapply seg_effect; [reflexivity|lia|lia] | eapply seg_effect; [reflexivity|cbn; lia|cbn; lia]].
  Ltac bools := repeat match goal with H : _ && _ = true |- _ => apply andb_prop in H; destruct H end.
  Ltac sizes := repeat match goal with
    | H : context [size_expr ?m ?e] |- _ => lazymatch goal with K : 0 <= size_expr m e |- _ => fail | _ => pose proof (proj1 size_nonneg e m) end
    | H : context [size_args ?e] |- _ => lazymatch goal with K : 0 <= size_args e |- _ => fail | _ => pose proof (proj1 (proj1 (proj2 size_nonneg) e)) end
    | H : context [size_items ?e] |- _ => lazymatch goal with K : 0 <= size_items e |- _ => fail | _ => pose proof (proj2 (proj1 (proj2 size_nonneg) e)) end
    | H : context [size_pairs ?e] |- _ => lazymatch goal with K : 0 <= size_pairs e |- _ => fail | _ => pose proof (proj1 (proj2 (proj2 size_nonneg)) e) end
    | H : context [size_params ?e] |- _ => lazymatch goal with K : 0 <= size_params e |- _ => fail | _ => pose proof (proj1 (proj2 (proj2 (proj2 size_nonneg))) e) end
    | H : context [size_stmt ?e] |- _ => lazymatch goal with K : 0 <= size_stmt e |- _ => fail | _ => pose proof (proj1 (proj2 (proj2 (proj2 (proj2 size_nonneg)))) e) end
    | H : context [size_stmts ?e] |- _ => lazymatch goal with K : 0 <= size_stmts e |- _ => fail | _ => pose proof (proj2 (proj2 (proj2 (proj2 (proj2 size_nonneg)))) e) end
    | H : context [pop_size ?e] |- _ => lazymatch goal with K : 0 <= pop_size e <= 1 |- _ => fail | _ => pose proof (pop_size_nonneg e) end
    end.
  Ltac val H := apply (val_seg _ H); [assumption|lia|lia|lia].
  Ltac start := cbn [comp_expr comp_args comp_items comp_pairs comp_params comp_stmt comp_stmts
         size_expr size_args size_items size_pairs size_params size_stmt size_stmts
         ok_expr ok_exprs ok_pairs ok_params ok_stmt ok_stmts exprs_len pairs_len params_len] in *; bools; sizes.
  Ltac plain m e := assert (base_of m e = 0 /\ arity m e = 1) as [-> ->] by (destruct m; try discriminate; auto); rewrite Z.add_0_r.
  apply ast_ind2.
  - intros z m K p a Hok Hm Ha Hs. plain m (EInt z). eff.
  - intros z m K p a Hok Hm Ha Hs. plain m (EFlt z). eff.
  - intros z m K p a Hok Hm Ha Hs. plain m (EStr z). eff.
  - intros z m K p a Hok Hm Ha Hs. destruct m; try discriminate; cbn [comp_expr base_of arity tuple_len]; eff.
  - intros m K p a Hok Hm Ha Hs. plain m ENone. eff.
  - intros m K p a Hok Hm Ha Hs. plain m ETrue. eff.
  - intros m K p a Hok Hm Ha Hs. plain m EFalse. eff.
  - intros op e He m K p a Hok Hm Ha Hs. plain m (EUn op e). start.
    sq (a + 1); [at_end|val He|destruct op; eff].
  - intros op e1 e2 H1 H2 m K p a Hok Hm Ha Hs. plain m (EBin op e1 e2). start.
    sq (a + 1); [|val H1|sq (a + 2); [at_end|val H2|destruct op; eff]]. at_end.
  - (* EAnd *)
    intros e1 e2 H1 H2 m K p a Hok Hm Ha Hs. plain m (EAnd e1 e2). start.
    remember (p + size_expr MVal e1 + 1 + size_expr MVal e2 + 3) as l eqn:El.
    apply (seg_end _ _ _ _ _ (l + 1)); [lens'; lia|].
    replace (comp_expr MVal e1 p ++ [(OP_JUMPIFNOTANDPOP, [PIdx l])] ++ comp_expr MVal e2 (p + size_expr MVal e1 + 1) ++
       [(OP_JUMPIFNOTANDPOP, [PIdx l]); (OP_PUSHTRU, []); (OP_JUMP, [PIdx (l + 1)]); (OP_PUSHFLS, [])])
      with ((comp_expr MVal e1 p ++ [(OP_JUMPIFNOTANDPOP, [PIdx l])] ++ comp_expr MVal e2 (p + size_expr MVal e1 + 1) ++
       [(OP_JUMPIFNOTANDPOP, [PIdx l])] ++ [(OP_PUSHTRU, [])] ++ [(OP_JUMP, [PIdx (l + 1)])]) ++ [(OP_PUSHFLS, [])]) by (rewrite <- !app_assoc; reflexivity).
    sqa a l; [|eff].
    sqa (a + 1) (p + size_expr MVal e1); [val H1|].
    sqa a (p + size_expr MVal e1 + 1); [apply seg_jumpif; [auto|inK|lia|lia]|].
    sq (a + 1); [reflexivity|val H2|].
    sq a; [reflexivity|apply seg_jumpif; [auto|inK|lia|lia]|].
    sq (a + 1); [reflexivity|eff|]. apply seg_jump. inK.
  - (* EOr *)
    intros e1 e2 H1 H2 m K p a Hok Hm Ha Hs. plain m (EOr e1 e2). start.
    remember (p + size_expr MVal e1 + 1 + size_expr MVal e2 + 3) as l eqn:El.
    apply (seg_end _ _ _ _ _ (l + 1)); [lens'; lia|].
    replace (comp_expr MVal e1 p ++ [(OP_JUMPIFANDPOP, [PIdx l])] ++ comp_expr MVal e2 (p + size_expr MVal e1 + 1) ++
       [(OP_JUMPIFANDPOP, [PIdx l]); (OP_PUSHFLS, []); (OP_JUMP, [PIdx (l + 1)]); (OP_PUSHTRU, [])])
      with ((comp_expr MVal e1 p ++ [(OP_JUMPIFANDPOP, [PIdx l])] ++ comp_expr MVal e2 (p + size_expr MVal e1 + 1) ++
       [(OP_JUMPIFANDPOP, [PIdx l])] ++ [(OP_PUSHFLS, [])] ++ [(OP_JUMP, [PIdx (l + 1)])]) ++ [(OP_PUSHTRU, [])]) by (rewrite <- !app_assoc; reflexivity).
    sqa a l; [|eff].
    sqa (a + 1) (p + size_expr MVal e1); [val H1|].
    sqa a (p + size_expr MVal e1 + 1); [apply seg_jumpif; [auto|inK|lia|lia]|].
    sq (a + 1); [reflexivity|val H2|].
    sq a; [reflexivity|apply seg_jumpif; [auto|inK|lia|lia]|].
    sq (a + 1); [reflexivity|eff|]. apply seg_jump. inK.
  - (* assignment *)
    intros e1 e2 H1 H2 m K p a Hok Hm Ha Hs.
    assert (base_of m (EAss e1 e2) = 0 /\ arity m (EAss e1 e2) = 1) as [-> ->] by (destruct m; try discriminate; auto). start.
    match goal with H : negb _ = true |- _ => apply negb_true_iff in H; apply Z.ltb_ge in H; unfold MAX_TUPLE in H end.
    pose proof (tuple_len_pos e1).
    set (mr := if tuple_len e1 =? 1 then MVal else MCall (tuple_len e1)) in *.
    assert (Hmr : mode_ok mr /\ arity mr e2 = tuple_len e1 /\ base_of mr e2 = 0).
    { unfold mr. destruct (Z.eqb_spec (tuple_len e1) 1); cbn; repeat split; lia. }
    destruct Hmr as (Hmr & Harr & Hnil). clearbody mr.
    sqa (a + tuple_len e1) (p + size_expr mr e2).
    + rewrite <- Hnil, <- Harr. apply H2; auto; lia.
    + apply (H1 MTgt); [assumption|exact I|lia|lia].
  - (* tuples *)
    intros e1 e2 H1 H2 m K p a Hok Hm Ha Hs. destruct m; try discriminate; start; cbn [base_of arity tuple_len];
    pose proof (tuple_len_pos e1); pose proof (tuple_len_pos e2).
    + sqa (a + tuple_len e1) (p + size_expr MRets e1).
      * apply (H1 MRets); [assumption|exact I|lia|lia].
      * rewrite Z.add_assoc. rewrite <- (Z.add_0_r (a + tuple_len e1)) at 1. apply (H2 MRets); [assumption|exact I|lia|lia].
    + sqa (a + tuple_len e1 + 1) (p + size_expr MTgt e2).
      * rewrite Z.add_assoc. apply (H2 MTgt); [assumption|exact I|lia|lia].
      * sqa (a + tuple_len e1) (p + size_expr MTgt e2 + 1); [apply seg_pop; lia|]. apply (H1 MTgt); [assumption|exact I|lia|lia].
  - intros e1 e2 _ _ m K p a Hok. discriminate.
  - (* selection *)
    intros e1 e2 H1 H2 m K p a Hok Hm Ha Hs.
    assert (Hok' : ok_expr MVal e1 && ok_expr MVal e2 = true) by (destruct m; try discriminate; exact Hok).
    assert (Har : base_of m (ESel e1 e2) = match m with MTgt => 1 | _ => 0 end /\ arity m (ESel e1 e2) = 1) by (destruct m; try discriminate; auto).
    destruct Har as [-> ->]. clear Hok. start.
    remember (a + match m with MTgt => 1 | _ => 0 end) as a' eqn:Ea'.
    assert (0 <= a') by (subst a'; destruct m; lia).
    sqa (a' + 1) (p + size_expr MVal e1); [val H1|]. sqa (a' + 2) (p + size_expr MVal e1 + size_expr MVal e2); [val H2|].
    destruct m; eff.
  - (* lists *)
    intros es [_ H] m K p a Hok Hm Ha Hs. plain m (EList es). start.
    sqa (a + 1) (p + 1); [eff|]. apply H; auto; lia.
  - intros es H m K p a Hok Hm Ha Hs. plain m (EMap es). start.
    sqa (a + 1) (p + 1); [eff|]. apply H; auto; lia.
  - (* calls *)
    intros f args Hn Hf Hargs m K p a Hok Hm Ha Hs. rewrite call_comp by assumption. rewrite call_size in Hs by assumption.
    rewrite call_ok in Hok by assumption.
    assert (Hok' : ok_exprs args && ok_expr MVal f = true) by (destruct m; try discriminate; exact Hok).
    assert (Har : base_of m (ECall f args) = 0 /\ arity m (ECall f args) = returns_of m) by (destruct m; try discriminate; auto).
    destruct Har as [-> ->]. clear Hok. bools. sizes. rewrite Z.add_0_r.
    pose proof (exprs_len_nonneg args). pose proof (proj1 (proj2 ok_size) args ltac:(assumption)).
    sqa (a + exprs_len args) (p + size_args args); [apply Hargs; auto; lia|].
    sqa (a + exprs_len args + 1) (p + size_args args + size_expr MVal f); [val Hf|].
    apply (seg_effect _ _ _ _ _ _ (exprs_len args + 1) (returns_of m)); [|lia|lia].
    cbn [effect]. destruct m as [| |n|]; cbn [returns_of mode_ok] in *;
      repeat match goal with |- context [?x <=? ?y] => destruct (Z.leb_spec x y); [|lia] | |- context [?x <? ?y] => destruct (Z.ltb_spec x y); [|lia] end; reflexivity.
  - intros e1 e2 args H1 H2 Hargs m K p a Hok Hm Ha Hs. 
    assert (Hok' : ok_exprs args && (ok_expr MVal e1 && ok_expr MVal e2) = true) by (destruct m; try discriminate; exact Hok).
    assert (Har : base_of m (ECall (EArw e1 e2) args) = 0 /\ arity m (ECall (EArw e1 e2) args) = returns_of m) by (destruct m; try discriminate; auto).
    destruct Har as [-> ->]. clear Hok. start. rewrite Z.add_0_r.
    pose proof (exprs_len_nonneg args). pose proof (proj1 (proj2 ok_size) args ltac:(assumption)).
    sqa (a + exprs_len args) (p + size_args args); [apply Hargs; auto; lia|].
    sqa (a + exprs_len args + 1) (p + size_args args + size_expr MVal e1); [val H1|].
    sqa (a + exprs_len args + 2) (p + size_args args + size_expr MVal e1 + size_expr MVal e2); [val H2|].
    change [?x; ?y] with ([x] ++ [y]).
    sq (a + exprs_len args + 2); [reflexivity|eff|].
    apply (seg_effect _ _ _ _ _ _ (exprs_len args + 1 + 1) (returns_of m)); [|lia|lia].
    cbn [effect]. destruct m as [| |n|]; cbn [returns_of mode_ok] in *;
      repeat match goal with |- context [?x <=? ?y] => destruct (Z.leb_spec x y); [|lia] | |- context [?x <? ?y] => destruct (Z.ltb_spec x y); [|lia] end; reflexivity.
  - (* functions *)
    intros ps body Hps Hbody m K p a Hok Hm Ha Hs. plain m (EFun ps body). start.
    apply seg_fun; [lia|pose proof (params_len_size ps); lia| |unfold body_code; lens'; lia].
    intros K'. unfold body_code.
    sqa 0 (p + 2 + size_params ps); [apply (Hps 0 _ _ 0); auto; lia|].
    sqa (pop_size body) (p + 2 + size_params ps + size_stmt body); [eapply (Hbody false); auto; [discriminate|lia]|].
    sq 0; [reflexivity|apply pop_seg|apply seg_return].
  - (* arguments and items *)
    split; intros; cbn [exprs_len comp_args comp_items]; [rewrite Z.add_0_r|]; apply seg_nil.
  - intros e r He [Hr1 Hr2]. split.
    + intros K p a Hok Ha Hs. start. pose proof (exprs_len_nonneg r).
      sqa (a + exprs_len r) (p + size_args r); [apply Hr1; auto; lia|]. val He.
    + intros i K p a Hok Ha Hs. start.
      sqa (a + 2) (p + 1); [eff|]. sqa (a + 3) (p + 1 + size_expr MVal e); [val He|].
      sqa (a + 1) (p + 1 + size_expr MVal e + 1); [eff|]. apply Hr2; auto; lia.
  - intros; apply seg_nil.
  - intros k v r Hk Hv Hr K p a Hok Ha Hs. start.
    sqa (a + 2) (p + size_expr MVal k); [val Hk|]. sqa (a + 3) (p + size_expr MVal k + size_expr MVal v); [val Hv|].
    sqa (a + 1) (p + size_expr MVal k + size_expr MVal v + 1); [eff|]. apply Hr; auto; lia.
  - (* parameters *)
    intros. cbn [params_len comp_params]. rewrite Z.add_0_r. apply seg_nil.
  - intros name ty df r Hty Hdf Hr i K p a Hok Ha Hs. start. pose proof (params_len_nonneg r).
    remember (p + size_params r) as p1 eqn:Ep1.
    remember (p1 + match df with OYes d => 5 + size_expr MVal d | ONo => 0 end) as p2 eqn:Ep2.
    sqa (a + 1) p1; [rewrite Z.add_assoc; apply Hr; auto; destruct df, ty; sizes; lia|].
    apply (seg_app _ _ _ _ _ (a + 1) _ p2); [subst p2; destruct df; lens'; lia| |].
    { destruct df as [|d]; [apply seg_nil|]. sizes.
      apply (seg_end _ _ _ _ _ p2); [lens'; lia|].
      change [?x1; ?x2; ?x3; ?x4; ?x5] with ([x1] ++ [x2] ++ [x3] ++ [x4] ++ [x5]). rewrite <- !app_assoc.
      sqa (a + 2) (p1 + 1); [eff|]. sqa (a + 3) (p1 + 2); [eff|]. sqa (a + 2) (p1 + 3); [eff|].
      sqa (a + 1) (p1 + 4); [apply seg_jumpif; [auto|inK|lia|lia]|]. sqa a (p1 + 5); [apply seg_pop; lia|].
      apply (val_seg _ Hdf); [assumption|lia|lia|destruct ty; sizes; lia]. }
    eapply (seg_app _ _ _ _ _ (a + 1)); [reflexivity| |].
    { destruct ty as [|t]; [apply seg_nil|]. sizes.
      sqa (a + 2) (p2 + size_expr MVal t); [|eff]. apply (val_seg _ Hty); [assumption|lia|lia|destruct df; sizes; lia]. }
    change [?x1; ?x2] with ([x1] ++ [x2]). sq (a + 1); [reflexivity|eff|apply seg_pop; lia].
  - (* statements *)
    intros e He b brk K p Hok Hb Hs. start. apply (val_seg _ He); auto; lia.
  - intros b brk K p Hok Hb Hs. start. subst b. apply seg_jump. auto.
  - intros c t Hc Ht b brk K p Hok Hb Hs. start.
    remember (p + size_expr MVal c + 1) as p1 eqn:Ep1.
    apply (seg_end _ _ _ _ _ (p1 + size_stmt t + pop_size t)); [lens'; lia|].
    sqa 1 (p + size_expr MVal c); [val Hc|]. sqa 0 p1; [apply seg_jumpif; [auto|inK|lia|lia]|].
    sqa (pop_size t) (p1 + size_stmt t); [apply (Ht b); auto; [intros; cbn; auto|lia]|]. apply pop_seg.
  - intros c t f Hc Ht Hf b brk K p Hok Hb Hs. start.
    remember (p + size_expr MVal c + 1) as p1 eqn:Ep1. remember (p1 + size_stmt t + pop_size t + 1) as p2 eqn:Ep2.
    apply (seg_end _ _ _ _ _ (p2 + size_stmt f + pop_size f)); [lens'; lia|].
    replace (comp_expr MVal c p ++ [(OP_JUMPIFNOTANDPOP, [PIdx p2])] ++ comp_stmt brk t p1 ++ pop_code t ++
        [(OP_JUMP, [PIdx (p2 + size_stmt f + pop_size f)])] ++ comp_stmt brk f p2 ++ pop_code f)
      with ((comp_expr MVal c p ++ [(OP_JUMPIFNOTANDPOP, [PIdx p2])] ++ comp_stmt brk t p1 ++ pop_code t ++
        [(OP_JUMP, [PIdx (p2 + size_stmt f + pop_size f)])]) ++ comp_stmt brk f p2 ++ pop_code f) by (rewrite <- !app_assoc; reflexivity).
    sqa 0 p2.
    + sqa 1 (p + size_expr MVal c); [val Hc|]. sqa 0 p1; [apply seg_jumpif; [auto|inK|lia|lia]|].
      sqa (pop_size t) (p1 + size_stmt t); [apply (Ht b); auto; [intros; cbn; auto|lia]|].
      sqa 0 (p1 + size_stmt t + pop_size t); [apply pop_seg|]. apply seg_jump. cbn; auto.
    + sqa (pop_size f) (p2 + size_stmt f); [apply (Hf b); auto; [intros; cbn; auto|lia]|]. apply pop_seg.
  - intros c t Hc Ht b brk K p Hok Hb Hs. start.
    remember (p + size_expr MVal c + 1) as p1 eqn:Ep1. remember (p1 + size_stmt t + pop_size t + 1) as lend eqn:El.
    apply seg_start. apply (seg_end _ _ _ _ _ lend); [lens'; lia|].
    sqa 1 (p + size_expr MVal c); [val Hc|]. sqa 0 p1; [apply seg_jumpif; [auto|inK|lia|lia]|].
    sqa (pop_size t) (p1 + size_stmt t); [apply (Ht true); auto; [intros; cbn; auto|lia]|].
    sqa 0 (p1 + size_stmt t + pop_size t); [apply pop_seg|]. apply seg_jump. cbn; auto.
  - intros t c Ht Hc b brk K p Hok Hb Hs. start.
    remember (p + size_stmt t + pop_size t) as p1 eqn:Ep1. remember (p1 + size_expr MVal c + 1) as lend eqn:El.
    apply seg_start. apply (seg_end _ _ _ _ _ lend); [lens'; lia|].
    sqa (pop_size t) (p + size_stmt t); [apply (Ht true); auto; [intros; cbn; auto|lia]|].
    sqa 0 p1; [apply pop_seg|]. sqa 1 (p1 + size_expr MVal c); [val Hc|]. apply seg_jumpif; [auto| |apply Z.le_refl|reflexivity]. cbn; auto.
  - intros ss Hss b brk K p Hok Hb Hs. apply (Hss b); auto.
  - intros e He b brk K p Hok Hb Hs. start.
    sqa (tuple_len e) (p + size_expr MRets e); [|apply seg_return].
    pose proof (He MRets ((p + size_expr MRets e, tuple_len e) :: K) p 0 ltac:(assumption) I ltac:(lia) ltac:(lia)) as G. exact G.
  - intros name ps body Hps Hbody b brk K p Hok Hb Hs. start.
    apply (seg_app _ _ _ _ _ 1 _ (p + (2 + (size_params ps + (size_stmt body + (pop_size body + 1)))))); [unfold func_code, body_code; lens'; lia| |].
    + apply seg_fun; [lia|pose proof (params_len_size ps); lia| |unfold body_code; lens'; lia].
      intros K'. unfold body_code.
      sqa 0 (p + 2 + size_params ps); [apply (Hps 0 _ _ 0); auto; lia|].
      sqa (pop_size body) (p + 2 + size_params ps + size_stmt body); [eapply (Hbody false); auto; [discriminate|lia]|].
      sq 0; [reflexivity|apply pop_seg|apply seg_return].
    + change [?x1; ?x2] with ([x1] ++ [x2]). sq 1; [reflexivity|eff|apply seg_pop; cbn; lia].
  - intros. apply seg_nil.
  - intros s r Hst Hr b brk K p Hok Hb Hs. start.
    sqa (pop_size s) (p + size_stmt s); [apply (Hst b); auto; [intros; cbn; auto|lia]|].
    sqa 0 (p + size_stmt s + pop_size s); [apply pop_seg|]. apply (Hr b); auto; lia.
Qed.

End Static.

(** A depth for every instruction of a program. *)
Theorem program_balanced root : ok_stmt false root = true -> is_expr root = false -> Z.of_nat (length (comp_program root)) < 2^31 ->
  exists D, D 0 = 0 /\ forall pc op ops, 0 <= pc -> nth_error (comp_program root) (Z.to_nat pc) = Some (op, ops) -> flow D pc op ops.
Proof.
  intros Hok Hne Hlen. set (lim := Z.of_nat (length (comp_program root))) in *.
  assert (S : seg lim [] 0 (comp_program root) 0 0).
  { unfold comp_program. eapply (seg_app _ _ _ _ _ _ 0); [reflexivity| |].
    - pose proof (proj1 (proj2 (proj2 (proj2 (proj2 (segs lim Hlen))))) root false 0) as G.
      unfold pop_size in G. rewrite Hne in G. apply G; auto; [discriminate|].
      unfold lim, comp_program in Hlen. rewrite app_length, Nat2Z.inj_add, csize_stmt in Hlen. lia.
    - apply seg_one. intros D Hp _ _ _ _. exact Hp. }
  destruct S as (ds & L & H). set (D := fun p => nth (Z.to_nat p) ds 0).
  destruct (H D) as [H0 Hf].
  - intros k d Hk. unfold D. rewrite Z.add_0_l, Nat2Z.id. apply nth_error_nth. exact Hk.
  - unfold D. rewrite Z.add_0_l, Nat2Z.id. apply nth_overflow. lia.
  - exists D. split; [exact H0|]. intros pc op ops Hpc Hn. specialize (Hf ltac:(constructor) ltac:(lia) ltac:(unfold lim; lia) _ _ _ Hn).
    rewrite Z2Nat.id, Z.add_0_l in Hf by lia. exact Hf.
Qed.

(** * Dynamically *)
Lemma results_length want rets vs : 0 <= want -> results want rets = OOk vs -> Z.of_nat (length vs) = want.
Proof.
  intros Hw. unfold results. destruct (MAX_RETS <? _); [discriminate|]. intros [= <-].
  rewrite app_length, firstn_length, repeat_length. lia.
Qed.
Lemma adjust_length p args : 0 <= p -> Z.of_nat (length (adjust p args)) = p.
Proof. intros H. unfold adjust. rewrite app_length, firstn_length, repeat_length. lia. Qed.

Section Dyn.
Variables (E : env) (cap : Z) (x : executable) (code : list instr) (D : Z -> Z).
Hypothesis Hfetch : forall i, 0 <= i -> exe_fetch x i = ROk (nth_error code (Z.to_nat i)).
Hypothesis Hflow : forall pc op ops, 0 <= pc -> nth_error code (Z.to_nat pc) = Some (op, ops) -> flow D pc op ops.

Definition depth_of (f : vframe) : Z := Z.of_nat (length (f_stack f)).
(** The waiting frames will have the assigned depth once the results asked for are pushed. *)
Fixpoint chain (want : Z) (fs : list vframe) : Prop :=
  match fs with
  | [] => True
  | f :: r => 0 <= want /\ 0 <= f_pc f /\ depth_of f + want = D (f_pc f) /\ chain (f_want f) r
  end.
Definition inv (s : vstate) : Prop :=
  0 <= f_pc (v_cur s) /\ depth_of (v_cur s) = D (f_pc (v_cur s)) /\ chain (f_want (v_cur s)) (v_rest s) /\
  Forall (fun c => 0 <= fst c /\ 0 <= snd c /\ D (fst c) = snd c) (v_codes s).

Lemma lift_next {A} (o : out A) k s' : lift o k = SNext s' -> exists a, o = OOk a /\ k a = SNext s'.
Proof. destruct o; cbn; intros H; try discriminate. eauto. Qed.
Lemma npush_next s v s' : npush cap s v = SNext s' -> s' = with_stack s (v :: f_stack (v_cur s)).
Proof. unfold npush, vpush. destruct (_ || _); [discriminate|]. congruence. Qed.
Lemma vpushes_next vs : forall s s', vpushes cap s vs = Some s' -> s' = with_stack s (rev vs ++ f_stack (v_cur s)).
Proof.
  induction vs as [|v vs IH]; intros s s' H; cbn [vpushes] in H.
  - injection H as <-. destruct s as [m c [pc st l cl w] r]. reflexivity.
  - unfold vpush in H. destruct (_ || _); [discriminate|]. apply IH in H. rewrite H. cbn [rev]. rewrite <- app_assoc. reflexivity.
Qed.

(** A frame in which only the stack changed. *)
Lemma inv_stack m codes f rest st m' codes' pc :
  inv (mkvs m codes f rest) -> 0 <= pc -> Z.of_nat (length st) = D pc ->
  Forall (fun c => 0 <= fst c /\ 0 <= snd c /\ D (fst c) = snd c) codes' ->
  inv (mkvs m' codes' (mkfr pc st (f_locals f) (f_clo f) (f_want f)) rest).
Proof. intros (H1 & H2 & H3 & H4) Hp Hl Hc. repeat split; auto. Qed.

Lemma finish_inv s s' : chain (f_want (v_cur s)) (v_rest s) ->
  Forall (fun c => 0 <= fst c /\ 0 <= snd c /\ D (fst c) = snd c) (v_codes s) -> finish cap s = SNext s' -> inv s'.
Proof.
  intros H3 H4 H. unfold finish in H. destruct (m_pend (v_mem s)); [discriminate|].
  destruct (v_rest s) as [|f r] eqn:Er; [discriminate|]. cbn [chain] in H3. destruct H3 as (Hw & Hp & Hd & Hc).
  apply lift_next in H. destruct H as (vs & Hv & H). destruct (vpushes cap _ vs) as [s1|] eqn:Ev; [|discriminate]. injection H as <-.
  apply vpushes_next in Ev. subst s1. apply results_length in Hv; [|exact Hw].
  unfold with_stack. cbn [v_cur v_mem v_codes v_rest]. repeat split; cbn; auto.
  unfold depth_of in *. cbn. rewrite app_length, rev_length. lia.
Qed.

Lemma call_inv s callee args want s' :
  0 <= f_pc (v_cur s) -> depth_of (v_cur s) + want = D (f_pc (v_cur s)) -> 0 <= want -> chain (f_want (v_cur s)) (v_rest s) ->
  Forall (fun c => 0 <= fst c /\ 0 <= snd c /\ D (fst c) = snd c) (v_codes s) ->
  do_call E cap s callee args want = SNext s' -> inv s'.
Proof.
  intros Hp Hd Hw Hch Hc H. unfold do_call in H.
  destruct callee as [| | | | | | |l]; try discriminate.
  destruct (nth_error (m_objs (v_mem s)) l) as [[| | |c clo|id na| | | |]|]; try discriminate.
  - destruct (nth_error (v_codes s) c) as [[entry argc]|] eqn:Ec; [|discriminate].
    destruct (_ <=? _); [discriminate|]. destruct (alloc _ _) as [loc m]. destruct (vpushes cap _ _) as [s1|] eqn:Ev; [|discriminate].
    injection H as <-. apply vpushes_next in Ev. subst s1.
    apply nth_error_In in Ec. rewrite Forall_forall in Hc. destruct (Hc _ Ec) as (Hc1 & Hc2 & Hc3). cbn [fst snd] in *.
    repeat split; cbn; auto; try (apply Forall_forall; assumption).
    unfold depth_of. cbn. rewrite app_nil_r, rev_length, adjust_length by lia. congruence.
  - destruct (_ <=? _); [discriminate|]. apply lift_next in H. destruct H as (r & _ & H). apply lift_next in H. destruct H as (vs & Hv & H).
    destruct (vpushes cap _ vs) as [s1|] eqn:Ev; [|discriminate]. injection H as <-. apply vpushes_next in Ev. subst s1.
    apply results_length in Hv; [|exact Hw]. repeat split; cbn; auto.
    unfold depth_of in *. cbn. rewrite app_length, rev_length. lia.
Qed.

Lemma step_inv s s' : inv s -> step E cap x s = SNext s' -> inv s'.
Proof.
  intros Hi H. pose proof Hi as (H1 & H2 & H3 & H4). unfold step in H. rewrite (Hfetch _ H1) in H.
  destruct (nth_error code (Z.to_nat (f_pc (v_cur s)))) as [[op ops]|] eqn:En; [|discriminate].
  pose proof (Hflow _ _ _ H1 En) as F. destruct s as [m codes [pc st loc clo want] rest].
  cbn [v_cur f_pc v_rest v_codes f_want depth_of f_stack] in *. unfold depth_of in H2. cbn [f_stack] in H2.
  assert (G : forall st' m', Z.of_nat (length st') = D (pc + 1) ->
     inv (mkvs m' codes (mkfr (pc + 1) st' loc clo want) rest)).
  { intros st' m' Hl. apply (inv_stack m codes (mkfr pc st loc clo want) rest); [exact Hi|lia|exact Hl|exact H4]. }
  unfold exec, with_pc in H. cbn [v_cur f_pc v_rest v_codes f_want f_stack v_mem f_locals f_clo] in H.
  Ltac nexts := repeat match goal with
    | H : lift _ _ = SNext _ |- _ => apply lift_next in H; destruct H as (? & ? & H)
    | H : npush _ _ _ = SNext _ |- _ => apply npush_next in H; subst
    | H : SNext _ = SNext _ |- _ => injection H as <-
    | H : SErr = SNext _ |- _ => discriminate
    | H : SBad = SNext _ |- _ => discriminate
    | H : SLimit = SNext _ |- _ => discriminate
    | H : SUB = SNext _ |- _ => discriminate
    end.
  assert (Simple : forall t g, effect op ops = Some (t, g) -> flow D pc op ops -> t <= D pc /\ D (pc + 1) = D pc - t + g).
  { intros t g He Hf. destruct op; try (unfold flow in Hf; rewrite He in Hf; exact Hf);
      destruct ops as [|[] [|[] [|[] [|? ?]]]]; cbn in He; discriminate. }
  destruct op, ops as [|[] [|[] [|[] [|? ?]]]]; try discriminate H;
    try (destruct (Simple _ _ eq_refl F) as [F1 F2]; clear Simple F).
  all: try (destruct st as [|v1 [|v2 [|v3 st]]]; cbn [length] in H2; try (exfalso; lia); nexts;
            cbv beta in *; apply G; cbn [length v_cur f_stack with_mem with_stack with_pc]; cbn [length]; lia).
  - (* POP *)
    cbn [effect] in Simple. unfold flow in F. cbn [effect] in F. destruct ((0 <=? z) && (z <? 2 ^ 31)) eqn:Ez; [|contradiction].
    apply andb_prop in Ez. destruct Ez as [Ez1 Ez2]. apply Z.leb_le in Ez1. apply Z.ltb_lt in Ez2.
    assert (Eu : u32 z = z) by (apply Z.mod_small; lia). rewrite Eu in H.
    destruct (Z.ltb_spec (Z.of_nat (length st)) z); [discriminate|]. nexts. apply G. cbn. rewrite skipn_length. lia.
  - (* CHECKTYPE *)
    destruct st as [|v1 [|v2 st]]; cbn [length] in H2; try (exfalso; lia). nexts.
    match goal with H : (if fst ?r then _ else _) = _ |- _ => destruct (fst r); nexts end. apply G. cbn [length v_cur f_stack with_mem with_stack with_pc]; cbn [length]. lia.
  - (* CALL *)
    unfold flow in F. cbn [effect] in F. destruct ((0 <=? z) && (z <? 2 ^ 31) && (0 <=? z0) && (z0 <? 2 ^ 31)) eqn:Ez; [|contradiction].
    repeat match goal with H : _ && _ = true |- _ => apply andb_prop in H; destruct H end.
    repeat match goal with H : (_ <=? _) = true |- _ => apply Z.leb_le in H | H : (_ <? _) = true |- _ => apply Z.ltb_lt in H end.
    assert (Ew : wrap32 z = z) by (apply wrap32_id; unfold in_int; lia). assert (Ew0 : wrap32 z0 = z0) by (apply wrap32_id; unfold in_int; lia).
    rewrite Ew, Ew0 in H. destruct st as [|callee r]; [discriminate|]. cbn [length] in H2.
    destruct (32 <? z); [discriminate|]. destruct (z <? 0); [discriminate|].
    destruct (Z.ltb_spec (Z.of_nat (length r)) z); [discriminate|].
    eapply call_inv; [| | | | |exact H]; cbn; try assumption; try lia.
    unfold depth_of. cbn. rewrite skipn_length. lia.
  - (* PUSHVAR *)
    nexts. match goal with H : match ?o with _ => _ end = _ |- _ => destruct o; nexts end. apply G. cbn [length v_cur f_stack with_mem with_stack with_pc]; cbn [length]. lia.
  - (* PUSHFUN *)
    cbn [flow] in F. destruct F as (F0 & F1 & F2 & F3).
    destruct (alloc m _) as [c m1]. destruct (alloc m1 _) as [fn m2]. nexts.
    apply (inv_stack m codes (mkfr pc st loc clo want) rest); [exact Hi|cbn [v_cur f_pc]; lia|cbn [v_cur f_stack f_pc length]; lia|].
    cbn [v_codes]. apply Forall_app. split; [exact H4|]. constructor; [|constructor]. cbn [fst snd].
    rewrite !wrap32_id by (unfold in_int; lia). lia.
  - destruct (alloc m _) as [l m']. nexts. apply G. cbn [length v_cur f_stack with_mem with_stack with_pc]; cbn [length]. lia.
  - destruct (alloc m _) as [l m']. nexts. apply G. cbn [length v_cur f_stack with_mem with_stack with_pc]; cbn [length]. lia.
  - eapply finish_inv; [| |exact H]; assumption.
  - unfold vpush in H. destruct (_ || _); [discriminate|]. eapply finish_inv; [| |exact H]; assumption.
  - cbn [flow] in F. destruct F as (F0 & F1 & F2 & F3). destruct st as [|[|b|?|?|?|?| |?] st]; try discriminate. cbn [length] in H2.
    nexts. rewrite (wrap32_id z) by (unfold in_int; lia).
    destruct (eqb _ _); [|apply G; cbn [length]; lia].
    apply (inv_stack m codes (mkfr pc (VBool b :: st) loc clo want) rest); [exact Hi|lia|cbn [v_cur f_stack with_stack]; lia|exact H4].
  - cbn [flow] in F. destruct F as (F0 & F1 & F2 & F3). destruct st as [|[|b|?|?|?|?| |?] st]; try discriminate. cbn [length] in H2.
    nexts. rewrite (wrap32_id z) by (unfold in_int; lia).
    destruct (eqb _ _); [|apply G; cbn [length]; lia].
    apply (inv_stack m codes (mkfr pc (VBool b :: st) loc clo want) rest); [exact Hi|lia|cbn [v_cur f_stack with_stack]; lia|exact H4].
  - cbn [flow] in F. destruct F as (F0 & F1). nexts. rewrite (wrap32_id z) by (unfold in_int; lia).
    apply (inv_stack m codes (mkfr pc st loc clo want) rest); [exact Hi|lia|lia|exact H4].
Qed.

Lemma steps_inv j : forall s s', inv s -> steps E cap x j s = SNext s' -> inv s'.
Proof.
  induction j as [|j IH]; intros s s' Hi H; cbn [steps] in H; [injection H as <-; exact Hi|].
  destruct (step E cap x s) as [s1| | | | | |] eqn:Es; try discriminate. eapply IH; [|exact H]. eapply step_inv; eassumption.
Qed.

End Dyn.

Theorem compiled_balanced root x : compiled root x ->
  exists D, (forall pc op ops, 0 <= pc -> exe_fetch x pc = ROk (Some (op, ops)) -> flow D pc op ops) /\
    forall E cap m j s, steps E cap x j (vm_start m) = SNext s ->
      0 <= f_pc (v_cur s) /\ Z.of_nat (length (f_stack (v_cur s))) = D (f_pc (v_cur s)).
Proof.
  intros (H1 & H2 & H3 & evs & H4 & H5 & H6).
  destruct (program_fetch root evs H2 H4 H5 H6) as (x' & Hx' & Hfetch & _). rewrite H1 in Hx'. injection Hx' as <-.
  destruct (program_compiles root evs H4) as (Hok & _ & He & _). rewrite He, map_length in H5.
  destruct (program_balanced root Hok H3 H5) as (D & H0 & Hflow). exists D. split.
  - intros pc op ops Hpc Hf. apply Hflow; [exact Hpc|]. rewrite (Hfetch pc Hpc) in Hf. congruence.
  - intros E cap m j s Hs. 
    assert (Hi : inv D (vm_start m)).
    { unfold vm_start. destruct (alloc m _) as [loc m1]. repeat split; cbn; auto; lia. }
    destruct (steps_inv E cap x (comp_program root) D Hfetch Hflow j _ _ Hi Hs) as (A & B & _). split; [exact A|exact B].
Qed.
