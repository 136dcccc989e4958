(** The code of a program never holds more values on a frame than its tree tells (C75); the structure is that of BalanceProofs.v. *)
From Coq Require Import ZArith List Lia Bool.
From Verif Require Import Base StringModel ValueModel MapModel ListModel ExeModel ExeSpec ExeProofs ArithModel ObjModel AstModel
  CodegenModel FrameModel VmModel SrcModel CompSpec CodegenProofs CodegenProofs2 CodegenProofs3 SimProofs BalanceSpec BalanceProofs RunProofs DepthSpec LimitSpec LimitProofs.
Import ListNotations.
Open Scope Z_scope.

(** * Statically *)
Section Static.
Variable lim : Z.
Hypothesis Hlim : lim < 2^31.
Variable M : Z.
Hypothesis HM : 1 <= M.

Notation known := (known lim).

(** Code [c] at [p] goes from depth [a] to depth [b], if the labels in [K] have the given depths. *)
Definition seg (K : list (Z * Z)) (p : Z) (c : list instr) (a b : Z) : Prop :=
  a <= M -> b <= M /\ exists ds, length ds = length c /\ Forall (fun d => d <= M) ds /\ forall D, agree D p ds -> D (p + Z.of_nat (length c)) = b ->
    D p = a /\ (known D K -> 0 <= p -> p + Z.of_nat (length c) <= lim -> flows D p c).

Lemma seg_nil K p a : seg K p [] a a.
Proof. intros Ha. split; [exact Ha|]. exists []. split; [reflexivity|]. split; [constructor|]. intros D _ H. cbn [length] in H. rewrite Z.add_0_r in H. split; [exact H|]. intros _ _ _ [|k] op ops; discriminate. Qed.

(** Sequence; the code before may use the position between as a label. *)
Lemma seg_app K p c1 c2 a m b q : q = p + Z.of_nat (length c1) -> seg ((q, m) :: K) p c1 a m -> seg K q c2 m b -> seg K p (c1 ++ c2) a b.
Proof.
  intros -> S1 S2 A. destruct (S1 A) as (B1 & d1 & L1 & F1 & H1). destruct (S2 B1) as (B2 & d2 & L2 & F2 & H2). split; [exact B2|].
  exists (d1 ++ d2). split; [rewrite !app_length; lia|]. split; [apply Forall_app; split; assumption|].
  intros D Ha He. apply agree_app in Ha. destruct Ha as [Ha1 Ha2]. rewrite L1 in Ha2. rewrite app_length, Nat2Z.inj_add, Z.add_assoc in He.
  destruct (H2 D Ha2 He) as [Hm Hf2]. destruct (H1 D Ha1 Hm) as [Hp Hf1]. split; [exact Hp|].
  intros HK H0 HL. rewrite app_length, Nat2Z.inj_add in HL. apply flows_app.
  - apply Hf1; [|lia|lia]. constructor; [|exact HK]. cbn [fst snd]. split; [lia|exact Hm].
  - apply Hf2; [exact HK|lia|lia].
Qed.

(** The end and the start may be used as labels. *)
Lemma seg_end K p c a b q : q = p + Z.of_nat (length c) -> seg ((q, b) :: K) p c a b -> seg K p c a b.
Proof.
  intros -> S A. destruct (S A) as (B & ds & L & F & H). split; [exact B|]. exists ds. split; [exact L|]. split; [exact F|]. intros D Ha He. destruct (H D Ha He) as [Hp Hf]. split; [exact Hp|].
  intros HK H0 HL. apply Hf; auto. constructor; [|exact HK]. cbn [fst snd]. split; [lia|exact He].
Qed.
Lemma seg_start K p c a b : seg ((p, a) :: K) p c a b -> seg K p c a b.
Proof.
  intros S A. destruct (S A) as (B & ds & L & F & H). split; [exact B|]. exists ds. split; [exact L|]. split; [exact F|]. intros D Ha He. destruct (H D Ha He) as [Hp Hf]. split; [exact Hp|].
  intros HK H0 HL. apply Hf; auto. constructor; [|exact HK]. cbn [fst snd]. split; [lia|exact Hp].
Qed.
Lemma seg_weaken K K' p c a b : incl K' K -> seg K' p c a b -> seg K p c a b.
Proof.
  intros Hi S A. destruct (S A) as (B & ds & L & F & H). split; [exact B|]. exists ds. split; [exact L|]. split; [exact F|]. intros D Ha He. destruct (H D Ha He) as [Hp Hf]. split; [exact Hp|].
  intros HK H0 HL. apply Hf; auto. unfold known in *. rewrite Forall_forall in *. auto.
Qed.

Lemma seg_one K p op ops a b :
  (forall D, D p = a -> D (p + 1) = b -> known D K -> 0 <= p -> p + 1 <= lim -> flow D p op ops) -> (a <= M -> b <= M) -> seg K p [(op, ops)] a b.
Proof.
  intros H B A. split; [exact (B A)|]. exists [a]. split; [reflexivity|]. split; [constructor; [exact A|constructor]|]. intros D Ha He. specialize (Ha O a eq_refl). cbn in Ha. rewrite Z.add_0_r in Ha.
  split; [exact Ha|]. intros HK H0 HL [|[|k]] op' ops' Hk; try discriminate. injection Hk as <- <-. cbn [Z.of_nat]. rewrite Z.add_0_r.
  apply H; auto.
Qed.

Lemma seg_effect K p op ops a b t g : effect op ops = Some (t, g) -> t <= a -> b = a - t + g -> (a <= M -> b <= M) -> seg K p [(op, ops)] a b.
Proof.
  intros He Ht -> B. apply seg_one; [|exact B]. intros D Hp Hn _ _ _.
  assert (G : match effect op ops with Some (takes, gives) => takes <= D p /\ D (p + 1) = D p - takes + gives | None => False end).
  { rewrite He, Hp. split; [exact Ht|exact Hn]. }
  unfold flow. destruct op; try exact G; destruct ops as [|[] [|[] [|[] [|? ?]]]]; cbn in He; try discriminate; exact G.
Qed.

Lemma known_at D K t d : known D K -> In (t, d) K -> 0 <= t <= lim /\ D t = d.
Proof. intros HK Hi. unfold known in HK. rewrite Forall_forall in HK. exact (HK _ Hi). Qed.

Lemma seg_jump K p t a b : In (t, a) K -> (a <= M -> b <= M) -> seg K p [(OP_JUMP, [PIdx t])] a b.
Proof. intros Hi B. apply seg_one; [|exact B]. intros D Hp _ HK _ _. destruct (known_at _ _ _ _ HK Hi). cbn [flow]. split; [lia|congruence]. Qed.
Lemma seg_jumpif K p t a b op : op = OP_JUMPIFANDPOP \/ op = OP_JUMPIFNOTANDPOP -> In (t, b) K -> 0 <= b -> a = b + 1 -> seg K p [(op, [PIdx t])] a b.
Proof.
  intros Ho Hi Hb ->. apply seg_one; [|lia]. intros D Hp Hn HK _ _. destruct (known_at _ _ _ _ HK Hi).
  destruct Ho; subst op; cbn [flow]; rewrite Hp; lia.
Qed.
Lemma seg_return K p n b : b <= M -> seg K p [(OP_RETURN, [PInt n])] n b.
Proof. intros B. apply seg_one; [|lia]. intros D Hp _ _ _ _. exact Hp. Qed.
Lemma seg_pop K p a b : 0 <= b -> a = b + 1 -> seg K p [i_pop1] a b.
Proof. intros Hb ->. apply (seg_effect _ _ _ _ _ _ 1 0); [reflexivity|lia|lia|lia]. Qed.

Lemma seg_fun K p name ps sp body a :
  0 <= a -> params_len ps <= sp -> a + 1 <= M -> params_len ps <= M ->
  (forall K, seg K (p + 2) (body_code (comp_params 0 ps) (size_params ps) (comp_stmt 0 body) body (p + 2)) (params_len ps) (a + 1)) ->
  Z.of_nat (length (body_code (comp_params 0 ps) (size_params ps) (comp_stmt 0 body) body (p + 2))) = sp ->
  seg K p (func_code name (params_len ps) sp (body_code (comp_params 0 ps) (size_params ps) (comp_stmt 0 body) body) p) a (a + 1).
Proof.
  intros Ha Hsp B1 B2 H L. unfold func_code.
  set (q := p + 2 + sp). apply (seg_end _ _ _ _ _ q); [unfold q; rewrite app_length, Nat2Z.inj_add; unfold instr in L |- *; rewrite L; cbn [length]; lia|].
  eapply (seg_app _ _ _ _ _ (params_len ps) _ (p + 2)); [reflexivity| |apply H].
  change [?a; ?b] with ([a] ++ [b]). eapply (seg_app _ _ _ _ _ (a + 1)); [reflexivity| |].
  - apply seg_one; [|lia]. intros D Hp Hn HK H0 HL. 
    destruct (known_at _ _ (p + 2) (params_len ps) HK); [cbn; auto|].
    destruct (known_at _ _ q (a + 1) HK); [cbn; auto|].
    pose proof (params_len_nonneg ps). cbn [flow]. rewrite Hp. repeat split; lia.
  - apply seg_jump; [cbn; auto|cbn; lia].
Qed.

Lemma fits_params_len : forall ps a, fits_params M ps a = true -> a + params_len ps <= M.
Proof.
  fix IH 1. intros [|name ty df r] a H; cbn [fits_params params_len] in *.
  - apply Z.leb_le in H. lia.
  - apply andb_prop in H. destruct H as [H _]. apply andb_prop in H. destruct H as [H _]. apply IH in H. lia.
Qed.


Lemma pop_seg K p s : seg K p (pop_code s) (pop_size s) 0.
Proof. unfold pop_code, pop_size. destruct (is_expr s); [apply seg_pop; lia|apply seg_nil]. Qed.


Definition seg_claim (e : expr) : Prop :=
  forall m K p a, fits_expr M m e a = true -> ok_expr m e = true -> mode_ok m -> 0 <= a -> size_expr m e < 2^31 ->
     seg K p (comp_expr m e p) (a + base_of m e) (a + arity m e).

Lemma val_seg e : seg_claim e -> forall K p a b, fits_expr M MVal e a = true -> ok_expr MVal e = true -> 0 <= a -> b = a + 1 -> size_expr MVal e < 2^31 ->
  seg K p (comp_expr MVal e p) a b.
Proof. intros H K p a b Hft Hok Ha -> Hs. pose proof (H MVal K p a Hft Hok I Ha Hs) as G. cbn [base_of arity] in G. rewrite Z.add_0_r in G. exact G. Qed.

Lemma segs :
  (forall e, seg_claim e) /\
  (forall es, (forall K p a, fits_args M es a = true -> ok_exprs es = true -> 0 <= a -> size_args es < 2^31 -> seg K p (comp_args es p) a (a + exprs_len es)) /\
     (forall i K p a, fits_items M es (a + 1) = true -> ok_exprs es = true -> 0 <= a -> size_items es < 2^31 -> seg K p (comp_items i es p) (a + 1) (a + 1))) /\
  (forall ps K p a, fits_pairs M ps (a + 1) = true -> ok_pairs ps = true -> 0 <= a -> size_pairs ps < 2^31 -> seg K p (comp_pairs ps p) (a + 1) (a + 1)) /\
  (forall ps i K p a, fits_params M ps a = true -> ok_params ps = true -> 0 <= a -> size_params ps < 2^31 -> seg K p (comp_params i ps p) (a + params_len ps) a) /\
  (forall s b brk K p, fits_stmt M s = true -> ok_stmt b s = true -> (b = true -> In (brk, 0) K) -> size_stmt s < 2^31 -> seg K p (comp_stmt brk s p) 0 (pop_size s)) /\
  (forall ss b brk K p, fits_stmts M ss = true -> ok_stmts b ss = true -> (b = true -> In (brk, 0) K) -> size_stmts ss < 2^31 -> seg K p (comp_stmts brk ss p) 0 0).
Proof.
  Ltac lens' := unfold i_pop1; repeat (rewrite ?app_length, ?Nat2Z.inj_add, ?csize_expr, ?csize_args, ?csize_items, ?csize_pairs, ?csize_params, ?csize_stmt,
    ?csize_stmts, ?pop_size_code; cbn [length]).
  Ltac at_end := solve [reflexivity | lens'; lia].
  Ltac sq m := eapply (seg_app _ _ _ _ _ m).
  Ltac sqa m q := apply (seg_app _ _ _ _ _ m _ q); [lens'; lia| |].
  Ltac inK := cbn [In]; repeat first [left; f_equal; lia | right]; assumption.
  Ltac eff := first [eapply seg_effect; [reflexivity|lia|lia|lia] | eapply seg_effect; [reflexivity|cbn; lia|cbn; lia|cbn; lia]].
  Ltac bools := repeat match goal with H : _ && _ = true |- _ => apply andb_prop in H; destruct H | H : (_ <=? _) = true |- _ => apply Z.leb_le in H end.
  Ltac sizes := repeat match goal with
    | H : context [size_expr ?m ?e] |- _ => lazymatch goal with K : 0 <= size_expr m e |- _ => fail | _ => pose proof (proj1 size_nonneg e m) end
    | H : context [size_args ?e] |- _ => lazymatch goal with K : 0 <= size_args e |- _ => fail | _ => pose proof (proj1 (proj1 (proj2 size_nonneg) e)) end
    | H : context [size_items ?e] |- _ => lazymatch goal with K : 0 <= size_items e |- _ => fail | _ => pose proof (proj2 (proj1 (proj2 size_nonneg) e)) end
    | H : context [size_pairs ?e] |- _ => lazymatch goal with K : 0 <= size_pairs e |- _ => fail | _ => pose proof (proj1 (proj2 (proj2 size_nonneg)) e) end
    | H : context [size_params ?e] |- _ => lazymatch goal with K : 0 <= size_params e |- _ => fail | _ => pose proof (proj1 (proj2 (proj2 (proj2 size_nonneg))) e) end
    | H : context [size_stmt ?e] |- _ => lazymatch goal with K : 0 <= size_stmt e |- _ => fail | _ => pose proof (proj1 (proj2 (proj2 (proj2 (proj2 size_nonneg)))) e) end
    | H : context [size_stmts ?e] |- _ => lazymatch goal with K : 0 <= size_stmts e |- _ => fail | _ => pose proof (proj2 (proj2 (proj2 (proj2 (proj2 size_nonneg)))) e) end
    | H : context [pop_size ?e] |- _ => lazymatch goal with K : 0 <= pop_size e <= 1 |- _ => fail | _ => pose proof (pop_size_nonneg e) end
    end.
  Ltac fit := solve [assumption | match goal with H : fits_expr _ _ _ ?b = true |- fits_expr _ _ _ ?c = true => replace c with b by lia; exact H end].
  Ltac val H := apply (val_seg _ H); [fit|assumption|lia|lia|lia].
  Ltac start := cbn [comp_expr comp_args comp_items comp_pairs comp_params comp_stmt comp_stmts
         size_expr size_args size_items size_pairs size_params size_stmt size_stmts
         fits_expr fits_args fits_items fits_pairs fits_params fits_stmt fits_stmts
         ok_expr ok_exprs ok_pairs ok_params ok_stmt ok_stmts exprs_len pairs_len params_len] in *; bools; sizes.
  Ltac plain m e := assert (base_of m e = 0 /\ arity m e = 1) as [-> ->] by (destruct m; try discriminate; auto); rewrite Z.add_0_r.
  apply ast_ind2.
  - intros z m K p a Hft Hok Hm Ha Hs. plain m (EInt z). start. eff.
  - intros z m K p a Hft Hok Hm Ha Hs. plain m (EFlt z). start. eff.
  - intros z m K p a Hft Hok Hm Ha Hs. plain m (EStr z). start. eff.
  - intros z m K p a Hft Hok Hm Ha Hs. destruct m; try discriminate; start; cbn [base_of arity tuple_len]; eff.
  - intros m K p a Hft Hok Hm Ha Hs. plain m ENone. start. eff.
  - intros m K p a Hft Hok Hm Ha Hs. plain m ETrue. start. eff.
  - intros m K p a Hft Hok Hm Ha Hs. plain m EFalse. start. eff.
  - intros op e He m K p a Hft Hok Hm Ha Hs. plain m (EUn op e). start.
    sq (a + 1); [at_end|val He|destruct op; eff].
  - intros op e1 e2 H1 H2 m K p a Hft Hok Hm Ha Hs. plain m (EBin op e1 e2). start.
    sq (a + 1); [|val H1|sq (a + 2); [at_end|val H2|destruct op; eff]]. at_end.
  - (* EAnd *)
    intros e1 e2 H1 H2 m K p a Hft Hok Hm Ha Hs. plain m (EAnd e1 e2). start.
    remember (p + size_expr MVal e1 + 1 + size_expr MVal e2 + 3) as l eqn:El.
    apply (seg_end _ _ _ _ _ (l + 1)); [lens'; lia|].
    replace (comp_expr MVal e1 p ++ [(OP_JUMPIFNOTANDPOP, [PIdx l])] ++ comp_expr MVal e2 (p + size_expr MVal e1 + 1) ++
       [(OP_JUMPIFNOTANDPOP, [PIdx l]); (OP_PUSHTRU, []); (OP_JUMP, [PIdx (l + 1)]); (OP_PUSHFLS, [])])
      with ((comp_expr MVal e1 p ++ [(OP_JUMPIFNOTANDPOP, [PIdx l])] ++ comp_expr MVal e2 (p + size_expr MVal e1 + 1) ++
       [(OP_JUMPIFNOTANDPOP, [PIdx l])] ++ [(OP_PUSHTRU, [])] ++ [(OP_JUMP, [PIdx (l + 1)])]) ++ [(OP_PUSHFLS, [])]) by (rewrite <- !app_assoc; reflexivity).
    sqa a l; [|eff].
    sqa (a + 1) (p + size_expr MVal e1); [val H1|].
    sqa a (p + size_expr MVal e1 + 1); [apply seg_jumpif; [auto|inK|lia|lia]|].
    sq (a + 1); [reflexivity|val H2|].
    sq a; [reflexivity|apply seg_jumpif; [auto|inK|lia|lia]|].
    sq (a + 1); [reflexivity|eff|]. apply seg_jump; [inK|lia].
  - (* EOr *)
    intros e1 e2 H1 H2 m K p a Hft Hok Hm Ha Hs. plain m (EOr e1 e2). start.
    remember (p + size_expr MVal e1 + 1 + size_expr MVal e2 + 3) as l eqn:El.
    apply (seg_end _ _ _ _ _ (l + 1)); [lens'; lia|].
    replace (comp_expr MVal e1 p ++ [(OP_JUMPIFANDPOP, [PIdx l])] ++ comp_expr MVal e2 (p + size_expr MVal e1 + 1) ++
       [(OP_JUMPIFANDPOP, [PIdx l]); (OP_PUSHFLS, []); (OP_JUMP, [PIdx (l + 1)]); (OP_PUSHTRU, [])])
      with ((comp_expr MVal e1 p ++ [(OP_JUMPIFANDPOP, [PIdx l])] ++ comp_expr MVal e2 (p + size_expr MVal e1 + 1) ++
       [(OP_JUMPIFANDPOP, [PIdx l])] ++ [(OP_PUSHFLS, [])] ++ [(OP_JUMP, [PIdx (l + 1)])]) ++ [(OP_PUSHTRU, [])]) by (rewrite <- !app_assoc; reflexivity).
    sqa a l; [|eff].
    sqa (a + 1) (p + size_expr MVal e1); [val H1|].
    sqa a (p + size_expr MVal e1 + 1); [apply seg_jumpif; [auto|inK|lia|lia]|].
    sq (a + 1); [reflexivity|val H2|].
    sq a; [reflexivity|apply seg_jumpif; [auto|inK|lia|lia]|].
    sq (a + 1); [reflexivity|eff|]. apply seg_jump; [inK|lia].
  - (* assignment *)
    intros e1 e2 H1 H2 m K p a Hft Hok Hm Ha Hs.
    assert (base_of m (EAss e1 e2) = 0 /\ arity m (EAss e1 e2) = 1) as [-> ->] by (destruct m; try discriminate; auto). start.
    match goal with H : negb _ = true |- _ => apply negb_true_iff in H; apply Z.ltb_ge in H; unfold MAX_TUPLE in H end.
    pose proof (tuple_len_pos e1).
    set (mr := if tuple_len e1 =? 1 then MVal else MCall (tuple_len e1)) in *.
    assert (Hmr : mode_ok mr /\ arity mr e2 = tuple_len e1 /\ base_of mr e2 = 0).
    { unfold mr. destruct (Z.eqb_spec (tuple_len e1) 1); cbn; repeat split; lia. }
    destruct Hmr as (Hmr & Harr & Hnil). clearbody mr.
    sqa (a + tuple_len e1) (p + size_expr mr e2).
    + rewrite <- Hnil, <- Harr. apply H2; auto; lia.
    + apply (H1 MTgt); [fit|assumption|exact I|lia|lia].
  - (* tuples *)
    intros e1 e2 H1 H2 m K p a Hft Hok Hm Ha Hs. destruct m; try discriminate; start; cbn [base_of arity tuple_len];
    pose proof (tuple_len_pos e1); pose proof (tuple_len_pos e2).
    + sqa (a + tuple_len e1) (p + size_expr MRets e1).
      * apply (H1 MRets); [fit|assumption|exact I|lia|lia].
      * rewrite Z.add_assoc. rewrite <- (Z.add_0_r (a + tuple_len e1)) at 1. apply (H2 MRets); [fit|assumption|exact I|lia|lia].
    + sqa (a + tuple_len e1 + 1) (p + size_expr MTgt e2).
      * rewrite Z.add_assoc. apply (H2 MTgt); [fit|assumption|exact I|lia|lia].
      * sqa (a + tuple_len e1) (p + size_expr MTgt e2 + 1); [apply seg_pop; lia|]. apply (H1 MTgt); [fit|assumption|exact I|lia|lia].
  - intros e1 e2 _ _ m K p a Hft Hok. discriminate.
  - (* selection *)
    intros e1 e2 H1 H2 m K p a Hft Hok Hm Ha Hs.
    assert (Hok' : ok_expr MVal e1 && ok_expr MVal e2 = true) by (destruct m; try discriminate; exact Hok).
    assert (Har : base_of m (ESel e1 e2) = match m with MTgt => 1 | _ => 0 end /\ arity m (ESel e1 e2) = 1) by (destruct m; try discriminate; auto).
    destruct Har as [-> ->]. clear Hok. start.
    remember (a + match m with MTgt => 1 | _ => 0 end) as a' eqn:Ea'.
    assert (0 <= a') by (subst a'; destruct m; lia).
    assert (Ea2 : match m with MTgt => a + 1 | _ => a end = a') by (subst a'; destruct m; lia). rewrite Ea2 in *.
    sqa (a' + 1) (p + size_expr MVal e1); [val H1|]. sqa (a' + 2) (p + size_expr MVal e1 + size_expr MVal e2); [val H2|].
    destruct m; eff.
  - (* lists *)
    intros es [_ H] m K p a Hft Hok Hm Ha Hs. plain m (EList es). start.
    sqa (a + 1) (p + 1); [eff|]. apply H; auto; lia.
  - intros es H m K p a Hft Hok Hm Ha Hs. plain m (EMap es). start.
    sqa (a + 1) (p + 1); [eff|]. apply H; auto; lia.
  - (* calls *)
    intros f args Hn Hf Hargs m K p a Hft Hok Hm Ha Hs. rewrite call_comp by assumption. rewrite call_size in Hs by assumption.
    rewrite call_ok in Hok by assumption.
    assert (Hok' : ok_exprs args && ok_expr MVal f = true) by (destruct m; try discriminate; exact Hok).
    assert (Har : base_of m (ECall f args) = 0 /\ arity m (ECall f args) = returns_of m) by (destruct m; try discriminate; auto).
    assert (Hft' : (a + exprs_len args + 1 <=? M) && (a + returns_of m <=? M) && fits_args M args a && fits_expr M MVal f (a + exprs_len args) = true)
      by (destruct f; try exact Hft; contradiction). clear Hft.
    destruct Har as [-> ->]. clear Hok. bools. sizes. rewrite Z.add_0_r.
    pose proof (exprs_len_nonneg args). pose proof (proj1 (proj2 ok_size) args ltac:(assumption)).
    sqa (a + exprs_len args) (p + size_args args); [apply Hargs; auto; lia|].
    sqa (a + exprs_len args + 1) (p + size_args args + size_expr MVal f); [val Hf|].
    apply (seg_effect _ _ _ _ _ _ (exprs_len args + 1) (returns_of m)); [|lia|lia|lia].
    cbn [effect]. destruct m as [| |n|]; cbn [returns_of mode_ok] in *;
      repeat match goal with |- context [?x <=? ?y] => destruct (Z.leb_spec x y); [|lia] | |- context [?x <? ?y] => destruct (Z.ltb_spec x y); [|lia] end; reflexivity.
  - intros e1 e2 args H1 H2 Hargs m K p a Hft Hok Hm Ha Hs. 
    assert (Hok' : ok_exprs args && (ok_expr MVal e1 && ok_expr MVal e2) = true) by (destruct m; try discriminate; exact Hok).
    assert (Har : base_of m (ECall (EArw e1 e2) args) = 0 /\ arity m (ECall (EArw e1 e2) args) = returns_of m) by (destruct m; try discriminate; auto).
    destruct Har as [-> ->]. clear Hok. start. rewrite Z.add_0_r.
    pose proof (exprs_len_nonneg args). pose proof (proj1 (proj2 ok_size) args ltac:(assumption)).
    sqa (a + exprs_len args) (p + size_args args); [apply Hargs; auto; lia|].
    sqa (a + exprs_len args + 1) (p + size_args args + size_expr MVal e1); [val H1|].
    sqa (a + exprs_len args + 2) (p + size_args args + size_expr MVal e1 + size_expr MVal e2); [val H2|].
    change [?x; ?y] with ([x] ++ [y]).
    sq (a + exprs_len args + 2); [reflexivity|eff|].
    apply (seg_effect _ _ _ _ _ _ (exprs_len args + 1 + 1) (returns_of m)); [|lia|lia|lia].
    cbn [effect]. destruct m as [| |n|]; cbn [returns_of mode_ok] in *;
      repeat match goal with |- context [?x <=? ?y] => destruct (Z.leb_spec x y); [|lia] | |- context [?x <? ?y] => destruct (Z.ltb_spec x y); [|lia] end; reflexivity.
  - (* functions *)
    intros ps body Hps Hbody m K p a Hft Hok Hm Ha Hs. plain m (EFun ps body). start.
    apply seg_fun; [lia|pose proof (params_len_size ps); lia|lia|match goal with H : fits_params _ _ _ = true |- _ => apply fits_params_len in H; lia end| |unfold body_code; lens'; lia].
    intros K'. unfold body_code.
    sqa 0 (p + 2 + size_params ps); [apply (Hps 0 _ _ 0); auto; lia|].
    sqa (pop_size body) (p + 2 + size_params ps + size_stmt body); [eapply (Hbody false); auto; [discriminate|lia]|].
    sq 0; [reflexivity|apply pop_seg|apply seg_return; cbn; lia].
  - (* arguments and items *)
    split; intros; cbn [exprs_len comp_args comp_items]; [rewrite Z.add_0_r|]; apply seg_nil.
  - intros e r He [Hr1 Hr2]. split.
    + intros K p a Hft Hok Ha Hs. start. pose proof (exprs_len_nonneg r).
      sqa (a + exprs_len r) (p + size_args r); [apply Hr1; auto; lia|]. val He.
    + intros i K p a Hft Hok Ha Hs. start.
      sqa (a + 2) (p + 1); [eff|]. sqa (a + 3) (p + 1 + size_expr MVal e); [val He|].
      sqa (a + 1) (p + 1 + size_expr MVal e + 1); [eff|]. apply Hr2; auto; lia.
  - intros; apply seg_nil.
  - intros k v r Hk Hv Hr K p a Hft Hok Ha Hs. start.
    sqa (a + 2) (p + size_expr MVal k); [val Hk|]. sqa (a + 3) (p + size_expr MVal k + size_expr MVal v); [val Hv|].
    sqa (a + 1) (p + size_expr MVal k + size_expr MVal v + 1); [eff|]. apply Hr; auto; lia.
  - (* parameters *)
    intros. cbn [params_len comp_params]. rewrite Z.add_0_r. apply seg_nil.
  - intros name ty df r Hty Hdf Hr i K p a Hft Hok Ha Hs. start. pose proof (params_len_nonneg r).
    remember (p + size_params r) as p1 eqn:Ep1.
    remember (p1 + match df with OYes d => 5 + size_expr MVal d | ONo => 0 end) as p2 eqn:Ep2.
    sqa (a + 1) p1; [rewrite Z.add_assoc; apply Hr; auto; destruct df, ty; sizes; lia|].
    apply (seg_app _ _ _ _ _ (a + 1) _ p2); [subst p2; destruct df; lens'; lia| |].
    { destruct df as [|d]; [apply seg_nil|]. bools. sizes.
      apply (seg_end _ _ _ _ _ p2); [lens'; lia|].
      change [?x1; ?x2; ?x3; ?x4; ?x5] with ([x1] ++ [x2] ++ [x3] ++ [x4] ++ [x5]). rewrite <- !app_assoc.
      sqa (a + 2) (p1 + 1); [eff|]. sqa (a + 3) (p1 + 2); [eff|]. sqa (a + 2) (p1 + 3); [eff|].
      sqa (a + 1) (p1 + 4); [apply seg_jumpif; [auto|inK|lia|lia]|]. sqa a (p1 + 5); [apply seg_pop; lia|].
      apply (val_seg _ Hdf); [fit|assumption|lia|lia|destruct ty; sizes; lia]. }
    eapply (seg_app _ _ _ _ _ (a + 1)); [reflexivity| |].
    { destruct ty as [|t]; [apply seg_nil|]. sizes.
      sqa (a + 2) (p2 + size_expr MVal t); [|eff]. apply (val_seg _ Hty); [fit|assumption|lia|lia|destruct df; sizes; lia]. }
    change [?x1; ?x2] with ([x1] ++ [x2]). sq (a + 1); [reflexivity|eff|apply seg_pop; lia].
  - (* statements *)
    intros e He b brk K p Hft Hok Hb Hs. start. apply (val_seg _ He); auto; lia.
  - intros b brk K p Hft Hok Hb Hs. start. subst b. apply seg_jump; [auto|cbn; lia].
  - intros c t Hc Ht b brk K p Hft Hok Hb Hs. start.
    remember (p + size_expr MVal c + 1) as p1 eqn:Ep1.
    apply (seg_end _ _ _ _ _ (p1 + size_stmt t + pop_size t)); [lens'; lia|].
    sqa 1 (p + size_expr MVal c); [val Hc|]. sqa 0 p1; [apply seg_jumpif; [auto|inK|lia|lia]|].
    sqa (pop_size t) (p1 + size_stmt t); [apply (Ht b); auto; [intros; cbn; auto|lia]|]. apply pop_seg.
  - intros c t f Hc Ht Hf b brk K p Hft Hok Hb Hs. start.
    remember (p + size_expr MVal c + 1) as p1 eqn:Ep1. remember (p1 + size_stmt t + pop_size t + 1) as p2 eqn:Ep2.
    apply (seg_end _ _ _ _ _ (p2 + size_stmt f + pop_size f)); [lens'; lia|].
    replace (comp_expr MVal c p ++ [(OP_JUMPIFNOTANDPOP, [PIdx p2])] ++ comp_stmt brk t p1 ++ pop_code t ++
        [(OP_JUMP, [PIdx (p2 + size_stmt f + pop_size f)])] ++ comp_stmt brk f p2 ++ pop_code f)
      with ((comp_expr MVal c p ++ [(OP_JUMPIFNOTANDPOP, [PIdx p2])] ++ comp_stmt brk t p1 ++ pop_code t ++
        [(OP_JUMP, [PIdx (p2 + size_stmt f + pop_size f)])]) ++ comp_stmt brk f p2 ++ pop_code f) by (rewrite <- !app_assoc; reflexivity).
    sqa 0 p2.
    + sqa 1 (p + size_expr MVal c); [val Hc|]. sqa 0 p1; [apply seg_jumpif; [auto|inK|lia|lia]|].
      sqa (pop_size t) (p1 + size_stmt t); [apply (Ht b); auto; [intros; cbn; auto|lia]|].
      sqa 0 (p1 + size_stmt t + pop_size t); [apply pop_seg|]. apply seg_jump; [cbn; auto|cbn; lia].
    + sqa (pop_size f) (p2 + size_stmt f); [apply (Hf b); auto; [intros; cbn; auto|lia]|]. apply pop_seg.
  - intros c t Hc Ht b brk K p Hft Hok Hb Hs. start.
    remember (p + size_expr MVal c + 1) as p1 eqn:Ep1. remember (p1 + size_stmt t + pop_size t + 1) as lend eqn:El.
    apply seg_start. apply (seg_end _ _ _ _ _ lend); [lens'; lia|].
    sqa 1 (p + size_expr MVal c); [val Hc|]. sqa 0 p1; [apply seg_jumpif; [auto|inK|lia|lia]|].
    sqa (pop_size t) (p1 + size_stmt t); [apply (Ht true); auto; [intros; cbn; auto|lia]|].
    sqa 0 (p1 + size_stmt t + pop_size t); [apply pop_seg|]. apply seg_jump; [cbn; auto|cbn; lia].
  - intros t c Ht Hc b brk K p Hft Hok Hb Hs. start.
    remember (p + size_stmt t + pop_size t) as p1 eqn:Ep1. remember (p1 + size_expr MVal c + 1) as lend eqn:El.
    apply seg_start. apply (seg_end _ _ _ _ _ lend); [lens'; lia|].
    sqa (pop_size t) (p + size_stmt t); [apply (Ht true); auto; [intros; cbn; auto|lia]|].
    sqa 0 p1; [apply pop_seg|]. sqa 1 (p1 + size_expr MVal c); [val Hc|]. apply seg_jumpif; [auto| |apply Z.le_refl|reflexivity]. cbn; auto.
  - intros ss Hss b brk K p Hft Hok Hb Hs. apply (Hss b); auto.
  - intros e He b brk K p Hft Hok Hb Hs. start.
    sqa (tuple_len e) (p + size_expr MRets e); [|apply seg_return; cbn; lia].
    pose proof (He MRets ((p + size_expr MRets e, tuple_len e) :: K) p 0 ltac:(assumption) ltac:(assumption) I ltac:(lia) ltac:(lia)) as G. exact G.
  - intros name ps body Hps Hbody b brk K p Hft Hok Hb Hs. start.
    apply (seg_app _ _ _ _ _ 1 _ (p + (2 + (size_params ps + (size_stmt body + (pop_size body + 1)))))); [unfold func_code, body_code; lens'; lia| |].
    + apply seg_fun; [lia|pose proof (params_len_size ps); lia|lia|match goal with H : fits_params _ _ _ = true |- _ => apply fits_params_len in H; lia end| |unfold body_code; lens'; lia].
      intros K'. unfold body_code.
      sqa 0 (p + 2 + size_params ps); [apply (Hps 0 _ _ 0); auto; lia|].
      sqa (pop_size body) (p + 2 + size_params ps + size_stmt body); [eapply (Hbody false); auto; [discriminate|lia]|].
      sq 0; [reflexivity|apply pop_seg|apply seg_return; cbn; lia].
    + change [?x1; ?x2] with ([x1] ++ [x2]). sq 1; [reflexivity|eff|apply seg_pop; cbn; lia].
  - intros. apply seg_nil.
  - intros s r Hst Hr b brk K p Hft Hok Hb Hs. start.
    sqa (pop_size s) (p + size_stmt s); [apply (Hst b); auto; [intros; cbn; auto|lia]|].
    sqa 0 (p + size_stmt s + pop_size s); [apply pop_seg|]. apply (Hr b); auto; lia.
Qed.

End Static.


(** A depth for every instruction of a program, none above [M]. *)
Theorem program_depth M root : 1 <= M -> fits_stmt M root = true -> ok_stmt false root = true -> is_expr root = false -> Z.of_nat (length (comp_program root)) < 2^31 ->
  exists D, D 0 = 0 /\ (forall pc, D pc <= M) /\ forall pc op ops, 0 <= pc -> nth_error (comp_program root) (Z.to_nat pc) = Some (op, ops) -> flow D pc op ops.
Proof.
  intros HM Hft Hok Hne Hlen. set (lim := Z.of_nat (length (comp_program root))) in *.
  assert (S : seg lim M [] 0 (comp_program root) 0 0).
  { unfold comp_program. eapply (seg_app _ _ _ _ _ _ _ 0); [reflexivity| |].
    - pose proof (proj1 (proj2 (proj2 (proj2 (proj2 (segs lim Hlen M HM))))) root false 0) as G.
      unfold pop_size in G. rewrite Hne in G. apply G; auto; [discriminate|].
      unfold lim, comp_program in Hlen. rewrite app_length, Nat2Z.inj_add, csize_stmt in Hlen. lia.
    - apply seg_one; [|lia]. intros D Hp _ _ _ _. exact Hp. }
  destruct (S ltac:(lia)) as (_ & ds & L & F & H). set (D := fun p => nth (Z.to_nat p) ds 0).
  destruct (H D) as [H0 Hf].
  - intros k d Hk. unfold D. rewrite Z.add_0_l, Nat2Z.id. apply nth_error_nth. exact Hk.
  - unfold D. rewrite Z.add_0_l, Nat2Z.id. apply nth_overflow. lia.
  - exists D. split; [exact H0|]. split.
    + intros pc. unfold D. destruct (nth_in_or_default (Z.to_nat pc) ds 0) as [I|I]; [|rewrite I; lia]. rewrite Forall_forall in F. exact (F _ I).
    + intros pc op ops Hpc Hn. specialize (Hf ltac:(constructor) ltac:(lia) ltac:(unfold lim; lia) _ _ _ Hn).
      rewrite Z2Nat.id, Z.add_0_l in Hf by lia. exact Hf.
Qed.

(** * Programs without calls have no CALL instruction *)
Definition quiet (c : list instr) : Prop := Forall (fun i => fst i <> OP_CALL) c.

Lemma quiet_app a b : quiet a -> quiet b -> quiet (a ++ b).
Proof. intros A B. apply Forall_app. auto. Qed.
Lemma quiet_one op ops : op <> OP_CALL -> quiet [(op, ops)].
Proof. intros H. constructor; [exact H|constructor]. Qed.
Lemma quiet_cons op ops r : op <> OP_CALL -> quiet r -> quiet ((op, ops) :: r).
Proof. intros H R. constructor; [exact H|exact R]. Qed.
Lemma quiet_pop s : quiet (pop_code s).
Proof. unfold pop_code. destruct (is_expr s); [apply quiet_one; discriminate|constructor]. Qed.

Lemma quiets :
  (forall e m p, callfree e = true -> quiet (comp_expr m e p)) /\
  (forall es, (forall p, callfrees es = true -> quiet (comp_args es p)) /\ (forall i p, callfrees es = true -> quiet (comp_items i es p))) /\
  (forall ps p, callfree_pairs ps = true -> quiet (comp_pairs ps p)) /\
  (forall ps i p, callfree_params ps = true -> quiet (comp_params i ps p)) /\
  (forall s brk p, callfree_stmt s = true -> quiet (comp_stmt brk s p)) /\
  (forall ss brk p, callfree_stmts ss = true -> quiet (comp_stmts brk ss p)).
Proof.
  Ltac qt := repeat first [apply quiet_app | apply quiet_pop | apply quiet_cons; [discriminate|] | assumption | apply Forall_nil | solve [auto]].
  Ltac splits := repeat match goal with H : _ && _ = true |- _ => apply andb_prop in H; destruct H end.
  apply ast_ind2; intros; cbn [comp_expr comp_args comp_items comp_pairs comp_params comp_stmt comp_stmts
    callfree callfrees callfree_pairs callfree_params callfree_stmt callfree_stmts] in *; try discriminate; try split; intros; splits;
    unfold func_code, body_code, i_pop1; try solve [qt].
  all: repeat match goal with H : _ /\ _ |- _ => destruct H end.
  all: try destruct ty, df; try destruct m; try destruct op; try solve [qt].
Qed.

Lemma program_quiet root : callfree_stmt root = true -> quiet (comp_program root).
Proof. intros H. apply quiet_app; [apply quiets; exact H|apply quiet_one; discriminate]. Qed.

(** * The limits *)
Section Limit.
Variables (E : env) (cap : Z) (x : executable) (D : Z -> Z).
Hypothesis Hcap : 256 <= cap.
Hypothesis Hflow : forall pc op ops, 0 <= pc -> exe_fetch x pc = ROk (Some (op, ops)) -> flow D pc op ops.
Hypothesis HD : forall pc, D pc <= 16.

Lemma moves_flow op ops t g pc : moves op ops = Some (t, g) -> flow D pc op ops -> g = 0 \/ D (pc + 1) = D pc - t + g.
Proof.
  unfold moves. intros H F. destruct op; try discriminate; repeat match goal with H : match ?x with _ => _ end = _ |- _ => destruct x; try discriminate end;
    injection H as <- <-; cbn in F; lia.
Qed.

Lemma rest_fits s k caller rest : within cap s -> v_rest s = caller :: rest -> 0 <= k -> Z.of_nat (length (f_stack caller)) + k <= 16 ->
  room cap k (Z.of_nat (length (f_stack caller))) (values_of (v_rest s)).
Proof.
  intros (A & B & C) R K L. unfold frames_of in *. inversion B; subst. rewrite R in *. cbn [values_of length] in *. inversion H2; subst.
  pose proof (values_frames _ H4). unfold room. lia.
Qed.

Lemma finish_no_limit s : within cap s -> chain D (f_want (v_cur s)) (v_rest s) -> finish cap s <> SLimit.
Proof.
  intros W Ch H. destruct (finish_limit cap s H) as (caller & rest & vs & R & Q & No). rewrite R in Ch. cbn [chain] in Ch. destruct Ch as (C1 & C2 & C3 & _).
  apply results_length in Q. apply No. rewrite <- R. apply (rest_fits s _ caller rest W R); [lia|]. unfold depth_of in C3. specialize (HD (f_pc caller)). lia.
Qed.

Lemma limit_only_call s : inv D s -> within cap s -> step E cap x s = SLimit ->
  (exists argc want, exe_fetch x (f_pc (v_cur s)) = ROk (Some (OP_CALL, [PInt argc; PInt want])) /\ 0 <= argc <= 32) /\ Z.of_nat (length (frames_of s)) = 16.
Proof.
  intros (I1 & I2 & I3 & I4) W H. pose proof H as H0. unfold step in H. destruct (exe_fetch x (f_pc (v_cur s))) as [[[op ops]|]| |] eqn:F; try discriminate.
  pose proof (Hflow _ _ _ I1 F) as Fl. unfold depth_of in I2.
  destruct (moves op ops) as [[t g]|] eqn:Mv.
  - pose proof (step_limit_frame E cap x s op ops t g W Hcap F Mv H0) as Bad. exfalso. rewrite I2 in Bad.
    destruct (moves_flow _ _ _ _ _ Mv Fl) as [->|E1]; [|specialize (HD (f_pc (v_cur s) + 1)); lia]. specialize (HD (f_pc (v_cur s))).
    assert (0 <= t); [|lia]. clear - Mv. unfold moves in Mv. destruct op; try discriminate;
      repeat match goal with H : match ?x with _ => _ end = _ |- _ => destruct x; try discriminate end; injection Mv as <-; try lia; apply Z.mod_pos_bound; lia.
  - assert (W1 : within cap (with_pc s (f_pc (v_cur s) + 1))) by (apply within_pc; exact W).
    destruct op; cbn [moves] in Mv; try discriminate; try (cbn in Fl; contradiction);
      try (destruct ops as [|[] [|[] [|[] [|? ?]]]]; cbn in Fl, Mv; try contradiction; discriminate).
    + (* CALL *)
      destruct ops as [|[|argc| | |] [|[|want| | |] [|? ?]]]; cbn [flow BalanceSpec.effect] in Fl; try contradiction; try discriminate.
      destruct ((0 <=? argc) && (argc <? 2 ^ 31) && (0 <=? want) && (want <? 2 ^ 31)) eqn:Rg; [|contradiction].
      rewrite !andb_true_iff, !Z.leb_le, !Z.ltb_lt in Rg. destruct Fl as [Fl1 Fl2].
      destruct (f_stack (v_cur s)) as [|callee st] eqn:St; [cbn [length] in I2; lia|]. cbn [length] in I2.
      pose proof (HD (f_pc (v_cur s))). pose proof (HD (f_pc (v_cur s) + 1)).
      split; [exists argc, want; split; [reflexivity|lia]|].
      pose proof W as (A & B & C).
      destruct (step_call_limit E cap x s argc want callee st F St) as [G|[G|[G|G]]];
        [unfold in_int; lia|unfold in_int; lia|exact H0|lia|lia| |]; destruct (Z.eq_dec (Z.of_nat (length (frames_of s))) 16) as [Q|Q]; try exact Q; exfalso.
      * destruct G as (l & c & clo & entry & n & _ & _ & N & No). apply nth_error_In in N. rewrite Forall_forall in I4. destruct (I4 _ N) as (_ & N1 & N2).
        cbn [fst snd] in *. pose proof (HD entry). apply No. pose proof (values_frames _ B). unfold room. lia.
      * destruct G as (l & id & n & _ & _ & No). apply No. pose proof (values_frames _ B). unfold room. lia.
    + (* RETURN *)
      exfalso. destruct ops as [|[|n| | |] [|? ?]]; try (cbn in Fl; contradiction). cbn [exec] in H. revert H. apply finish_no_limit; [exact W1|]. destruct s. exact I3.
    + (* EXIT *)
      exfalso. destruct ops as [|? ?]; [|cbn in Fl; contradiction]. cbn [exec] in H. cbn [flow] in Fl.
      destruct (vpush cap _ _) as [s'|] eqn:V.
      * revert H. apply finish_no_limit.
        -- apply (within_pushes cap _ [f_locals (v_cur (with_pc s (f_pc (v_cur s) + 1)))] _ W1). cbn [vpushes]. rewrite V. reflexivity.
        -- apply vpush_some in V. destruct V as [-> _]. destruct s as [? ? [] ?]. exact I3.
      * apply vpush_none in V. apply V. destruct s as [mm cc f rest]. unfold with_pc, room, frames_of in *. cbn [v_cur v_rest f_stack f_pc values_of] in *.
        rewrite Fl in I2. destruct W as (A & B & C). unfold frames_of in *. cbn [v_cur v_rest length] in *. inversion B; subst. pose proof (values_frames _ H4).
        lia.
Qed.
End Limit.

Lemma limit_last E cap x n : forall s, steps E cap x n s = SLimit -> exists i t, (i < n)%nat /\ steps E cap x i s = SNext t /\ step E cap x t = SLimit.
Proof.
  induction n as [|n IH]; intros s H; cbn [steps] in H; [discriminate|].
  destruct (step E cap x s) as [s1| | | | | |] eqn:St; try discriminate.
  - destruct (IH _ H) as (i & t & A & B & C). exists (S i), t. split; [lia|]. split; [cbn [steps]; rewrite St; exact B|exact C].
  - exists O, s. split; [lia|]. split; [reflexivity|exact St].
Qed.

(** Only calls can reach a limit, and only the sixteen frames. *)
Theorem shallow_limit_args root x : compiled root x -> fits_stmt 16 root = true -> forall E cap m n, 256 <= cap -> steps E cap x n (vm_start m) = SLimit ->
  exists i s argc want, (i < n)%nat /\ steps E cap x i (vm_start m) = SNext s /\ step E cap x s = SLimit /\
    exe_fetch x (f_pc (v_cur s)) = ROk (Some (OP_CALL, [PInt argc; PInt want])) /\ 0 <= argc <= 32 /\ Z.of_nat (length (frames_of s)) = 16.
Proof.
  intros (H1 & H2 & H3 & evs & H4 & H5 & H6) Ft E cap m n Hc Hl.
  destruct (program_fetch root evs H2 H4 H5 H6) as (x' & Hx' & Hfetch & _). rewrite H1 in Hx'. injection Hx' as <-.
  destruct (program_compiles root evs H4) as (Hok & _ & He & _). rewrite He, map_length in H5.
  destruct (program_depth 16 root ltac:(lia) Ft Hok H3 H5) as (D & H0 & HD & Hflow).
  destruct (limit_last _ _ _ _ _ Hl) as (i & s & Hi & Hs & Hst).
  assert (I0 : inv D (vm_start m)).
  { unfold vm_start. destruct (alloc m _) as [loc m1]. repeat split; cbn; auto; lia. }
  pose proof (steps_inv E cap x (comp_program root) D Hfetch Hflow i _ _ I0 Hs) as Is.
  assert (Ws : within cap s) by (eapply reached_run; [|exact Hs]; lia).
  destruct (limit_only_call E cap x D Hc) with (s := s) as ((argc & want & Fc & Fa) & Fr); auto.
  - intros pc op ops Hpc Hf. apply Hflow; [exact Hpc|]. rewrite (Hfetch pc Hpc) in Hf. congruence.
  - exists i, s, argc, want. auto 10.
Qed.

(** A program without calls never reaches one. *)
Theorem shallow_limit root x : compiled root x -> fits_stmt 16 root = true -> forall E cap m n, 256 <= cap -> steps E cap x n (vm_start m) = SLimit ->
  exists i s argc want, (i < n)%nat /\ steps E cap x i (vm_start m) = SNext s /\
    exe_fetch x (f_pc (v_cur s)) = ROk (Some (OP_CALL, [PInt argc; PInt want])) /\ Z.of_nat (length (frames_of s)) = 16.
Proof.
  intros Cd Ft E cap m n Hc Hl. destruct (shallow_limit_args root x Cd Ft E cap m n Hc Hl) as (i & s & argc & want & H1 & H2 & _ & H3 & _ & H4).
  exists i, s, argc, want. auto.
Qed.

Theorem callfree_no_limit root x : compiled root x -> fits_stmt 16 root = true -> callfree_stmt root = true -> forall E cap m n, 256 <= cap ->
  steps E cap x n (vm_start m) <> SLimit.
Proof.
  intros Cd Ft Cf E cap m n Hc Hl. destruct (shallow_limit root x Cd Ft E cap m n Hc Hl) as (i & s & argc & want & _ & Hs & Fc & _).
  destruct Cd as (H1 & H2 & H3 & evs & H4 & H5 & H6).
  destruct (program_fetch root evs H2 H4 H5 H6) as (x' & Hx' & Hfetch & _). rewrite H1 in Hx'. injection Hx' as <-.
  destruct (compiled_balanced root x) as (D & _ & B); [unfold compiled; eauto 10|]. destruct (B E cap m i s Hs) as [P _].
  rewrite (Hfetch _ P) in Fc. injection Fc as Fc. apply nth_error_In in Fc.
  pose proof (program_quiet root Cf) as Q. unfold quiet in Q. rewrite Forall_forall in Q. apply (Q _ Fc). reflexivity.
Qed.
