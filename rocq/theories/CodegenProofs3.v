(** Programs the code generator accepts are built without failure and fetch as the resolved code. *)
From Coq Require Import ZArith List Lia Bool.
From Verif Require Import Base StringModel ExeModel ExeSpec ExeProofs AstModel CodegenModel CompSpec CodegenProofs CodegenProofs2.
Import ListNotations.
Open Scope Z_scope.

Definition operand_in (lo hi : Z) (o : operand) : Prop :=
  match o with
  | PIdx z => lo <= z <= hi
  | PInt z => in_i64 z
  | PFlt b => 0 <= b < 2^64
  | PStr s => text_ok s
  | PProm _ => False
  end.
Definition instr_in (lo hi : Z) (i : instr) : Prop := Forall (operand_in lo hi) (snd i).

Definition mode_ok (m : mode) : Prop := match m with MCall n => 1 <= n <= 32 | _ => True end.

Lemma tuple_len_pos e : 1 <= tuple_len e.
Proof. induction e using expr_mut with (P0 := fun _ => True) (P1 := fun _ => True) (P2 := fun _ => True) (P3 := fun _ => True) (P4 := fun _ => True) (P5 := fun _ => True); cbn [tuple_len]; auto; lia. Qed.

Lemma exprs_len_nonneg es : 0 <= exprs_len es.
Proof. induction es; cbn [exprs_len]; lia. Qed.
Lemma pairs_len_nonneg es : 0 <= pairs_len es.
Proof. induction es; cbn [pairs_len]; lia. Qed.
Lemma params_len_nonneg es : 0 <= params_len es.
Proof. induction es; cbn [params_len]; lia. Qed.
Lemma params_len_size ps : params_len ps <= size_params ps.
Proof. induction ps as [|name ty df r IH]; cbn [params_len size_params]; [lia|]. destruct ty, df; sizes; lia. Qed.

Lemma pop_in lo hi s : Forall (instr_in lo hi) (pop_code s).
Proof. unfold pop_code. destruct (is_expr s); repeat constructor; cbn; unfold in_i64; lia. Qed.

Lemma comp_in hi (Hhi : hi < 2^31) :
  (forall e m pos, ok_expr m e = true -> wf_expr e -> mode_ok m -> 0 <= pos -> pos + size_expr m e <= hi ->
     Forall (instr_in 0 hi) (comp_expr m e pos)) /\
  (forall es, (forall pos, ok_exprs es = true -> wf_exprs es -> 0 <= pos -> pos + size_args es <= hi ->
     Forall (instr_in 0 hi) (comp_args es pos)) /\
     (forall i pos, ok_exprs es = true -> wf_exprs es -> 0 <= i -> i + exprs_len es < 2^31 -> 0 <= pos -> pos + size_items es <= hi ->
     Forall (instr_in 0 hi) (comp_items i es pos))) /\
  (forall ps pos, ok_pairs ps = true -> wf_pairs ps -> 0 <= pos -> pos + size_pairs ps <= hi ->
     Forall (instr_in 0 hi) (comp_pairs ps pos)) /\
  (forall ps i pos, ok_params ps = true -> wf_params ps -> 0 <= i -> i + params_len ps < 2^31 -> 0 <= pos -> pos + size_params ps <= hi ->
     Forall (instr_in 0 hi) (comp_params i ps pos)) /\
  (forall s b brk pos, ok_stmt b s = true -> wf_stmt s -> (b = true -> 0 <= brk <= hi) -> 0 <= pos -> pos + size_stmt s <= hi ->
     Forall (instr_in 0 hi) (comp_stmt brk s pos)) /\
  (forall ss b brk pos, ok_stmts b ss = true -> wf_stmts ss -> (b = true -> 0 <= brk <= hi) -> 0 <= pos -> pos + size_stmts ss <= hi ->
     Forall (instr_in 0 hi) (comp_stmts brk ss pos)).
Proof.
  Ltac facts :=
    repeat match goal with
    | |- context [exprs_len ?e] =>
      lazymatch goal with K : 0 <= exprs_len e |- _ => fail | _ => pose proof (exprs_len_nonneg e) end
    | K : ok_exprs ?e = true |- context [exprs_len ?e] =>
      lazymatch goal with K : exprs_len e <= size_args e /\ _ |- _ => fail | _ => pose proof (proj1 (proj2 ok_size) e K) end
    | |- context [pairs_len ?e] =>
      lazymatch goal with K : 0 <= pairs_len e |- _ => fail | _ => pose proof (pairs_len_nonneg e) end
    | K : ok_pairs ?e = true |- context [pairs_len ?e] =>
      lazymatch goal with K : pairs_len e <= size_pairs e |- _ => fail | _ => pose proof (proj2 (proj2 ok_size) e K) end
    | |- context [params_len ?e] =>
      lazymatch goal with K : 0 <= params_len e |- _ => fail | _ => pose proof (params_len_nonneg e); pose proof (params_len_size e) end
    | |- context [tuple_len ?e] =>
      lazymatch goal with K : 1 <= tuple_len e |- _ => fail | _ => pose proof (tuple_len_pos e) end
    | H : negb (MAX_TUPLE <? ?t) = true |- _ => apply negb_true_iff in H; apply Z.ltb_ge in H; unfold MAX_TUPLE in H
    end; unfold in_i64 in *; cbn [returns_of mode_ok] in *; try lia.
  Ltac go :=
    repeat match goal with
    | H : _ && _ = true |- _ => apply andb_prop in H; destruct H
    | H : ?a /\ ?b |- _ => lazymatch a with 0 <= _ => fail | _ => destruct H end
    | H : false = true |- _ => discriminate
    | |- Forall _ (_ ++ _) => apply Forall_app; split
    | |- Forall _ (_ :: _) => apply Forall_cons
    | |- Forall _ [] => apply Forall_nil
    | |- Forall _ (pop_code _) => apply pop_in
    | |- instr_in _ _ _ => unfold instr_in; cbn [snd i_pop1]
    | |- operand_in _ _ _ => cbn [operand_in]
    | |- text_ok _ => assumption
    | H : forall m pos, ok_expr m ?e = true -> _ |- Forall _ (comp_expr _ ?e _) => apply H; clear H
    | |- Forall _ (comp_args _ _) => match goal with H : forall pos, ok_exprs _ = true -> _ |- _ => apply H; clear H end
    | |- Forall _ (comp_items _ _ _) => match goal with H : forall i pos, ok_exprs _ = true -> _ |- _ => apply H; clear H end
    | |- Forall _ (comp_pairs _ _) => match goal with H : forall pos, ok_pairs _ = true -> _ |- _ => apply H; clear H end
    | |- Forall _ (comp_params _ _ _) => match goal with H : forall i pos, ok_params _ = true -> _ |- _ => apply H; clear H end
    | K : ok_stmt ?b ?s = true, H : forall b brk pos, ok_stmt b ?s = true -> _ |- Forall _ (comp_stmt _ ?s _) => apply (H b); clear H
    | K : ok_stmts ?b ?s = true, H : forall b brk pos, ok_stmts b ?s = true -> _ |- Forall _ (comp_stmts _ ?s _) => apply (H b); clear H
    | |- mode_ok MVal => exact I
    | |- mode_ok MRets => exact I
    | |- mode_ok MTgt => exact I
    end; try assumption; try lia; facts.
  apply ast_ind2; intros; repeat match goal with H : (forall pos, _) /\ _ |- _ => destruct H | |- (forall pos, _) /\ _ => split; intros end;
    try (rewrite call_comp by assumption); try (rewrite call_size in * by assumption); try (rewrite call_ok in * by assumption);
    cbn [comp_expr comp_args comp_items comp_pairs comp_params comp_stmt comp_stmts
         size_expr size_args size_items size_pairs size_params size_stmt size_stmts
         ok_expr ok_exprs ok_pairs ok_params ok_stmt ok_stmts exprs_len params_len
         wf_expr wf_exprs wf_pairs wf_params wf_oexpr wf_stmt wf_stmts] in *; unfold func_code, body_code;
    repeat match goal with
    | H : context [size_expr ?m ?e] |- _ => lazymatch goal with K : 0 <= size_expr m e |- _ => fail | _ => pose proof (proj1 size_nonneg e m) end
    | H : context [size_args ?e] |- _ => lazymatch goal with K : 0 <= size_args e /\ _ |- _ => fail | _ => pose proof (proj1 (proj2 size_nonneg) e) end
    | H : context [size_items ?e] |- _ => lazymatch goal with K : 0 <= size_args e /\ _ |- _ => fail | _ => pose proof (proj1 (proj2 size_nonneg) e) end
    | H : context [size_pairs ?e] |- _ => lazymatch goal with K : 0 <= size_pairs e |- _ => fail | _ => pose proof (proj1 (proj2 (proj2 size_nonneg)) e) end
    | H : context [size_params ?e] |- _ => lazymatch goal with K : 0 <= size_params e |- _ => fail | _ => pose proof (proj1 (proj2 (proj2 (proj2 size_nonneg))) e) end
    | H : context [size_stmt ?e] |- _ => lazymatch goal with K : 0 <= size_stmt e |- _ => fail | _ => pose proof (proj1 (proj2 (proj2 (proj2 (proj2 size_nonneg)))) e) end
    | H : context [size_stmts ?e] |- _ => lazymatch goal with K : 0 <= size_stmts e |- _ => fail | _ => pose proof (proj2 (proj2 (proj2 (proj2 (proj2 size_nonneg)))) e) end
    | H : context [pop_size ?s] |- _ => lazymatch goal with K : 0 <= pop_size s <= 1 |- _ => fail | _ => pose proof (pop_size_nonneg s) end
    end;
    try match goal with H : mode_ok ?m |- _ => destruct m end; try destruct ty, df; go.
  all: try solve [destruct (Z.eqb_spec (tuple_len a) 1); cbn [mode_ok]; auto; lia].
  all: try solve [repeat constructor; lia].
  all: try solve [pose proof (exprs_len_nonneg r); lia].
  all: try solve [auto].
  all: repeat match goal with
    | H : context [size_expr ?m ?e] |- _ => lazymatch goal with K : 0 <= size_expr m e |- _ => fail | _ => pose proof (proj1 size_nonneg e m) end
    end; pose proof (params_len_nonneg r); lia.
Qed.

(** The resolved operations of a typed history are well formed when the resolved code is. *)
Lemma settled_ok V hi (n : nat) : forall tys os cs, Forall2 (operand_typed n) tys os ->
  settleds V tys os = map Some cs -> hi < 2^31 -> Forall (operand_in 0 hi) cs -> Forall operand_ok os.
Proof.
  intros tys os cs H. revert cs. induction H as [|ty o tys os Ho _ IH]; intros cs E Hhi Hc; [constructor|].
  destruct cs as [|c cs]; [discriminate|]. cbn [settleds map] in E. injection E as E1 E2.
  inversion Hc; subst. constructor; [|eapply IH; eauto].
  destruct o; cbn [settled operand_ok] in *; auto; injection E1 as <-; cbn [operand_in] in *; unfold in_i64 in *; auto; lia.
Qed.

Lemma events_ok V hi : hi < 2^31 -> forall evs n c, history_typed n evs -> bounded 0 hi evs ->
  emitted_with V evs = map inj c -> Forall (instr_in 0 hi) c -> Forall event_ok evs.
Proof.
  intros Hhi. induction evs as [|[|p v|op os off len] evs IH]; intros n c Ht Hb E Hc; [constructor| | |];
    cbn [history_typed bounded emitted_with] in *.
  - constructor; [exact I|]. eapply IH; eauto.
  - constructor; [cbn [event_ok]; unfold in_i64; lia|]. destruct Ht, Hb. eapply IH; eauto.
  - destruct c as [|i c]; [discriminate|]. cbn [map] in E. injection E as E0 E1 E2. inversion Hc as [|? ? Hi Hc']; subst. destruct Ht as [Ht1 Ht2].
    constructor; [|eapply IH; eauto].
    cbn [event_ok]. eapply settled_ok; [exact Ht1|exact E1|exact Hhi|exact Hi].
Qed.

Lemma history_first_set evs : (forall q, cnt q evs <= 1)%nat -> agrees (first_set evs) evs.
Proof.
  assert (H : forall a b, (forall q, cnt q (a ++ b) <= 1)%nat -> agrees (first_set (a ++ b)) b).
  { intros a b. revert a. induction b as [|e b IH]; intros a H; [exact I|].
    specialize (IH (a ++ [e])). rewrite <- app_assoc in IH. cbn [app] in IH.
    destruct e as [|p v|]; cbn [agrees]; auto. split; [|auto].
    specialize (H p). rewrite cnt_app in H. cbn [cnt] in H. rewrite Nat.eqb_refl in H.
    assert (Ha : cnt p a = O) by lia. clear -Ha.
    induction a as [|[|q w|]]; cbn [app first_set cnt] in *; auto; [rewrite Nat.eqb_refl; reflexivity|].
    destruct (Nat.eqb_spec q p); [lia|auto]. }
  intros Hc. apply (H []). exact Hc.
Qed.

Lemma program_compiles root evs : cg_program root = Some evs ->
  ok_stmt false root = true /\
  history_typed 0 evs /\ emitted [] evs = map inj (comp_program root) /\ bounded 0 (size_stmt root + 1) evs.
Proof.
  unfold cg_program, g_seq, g_emit. intros H.
  destruct (proj1 (proj2 (proj2 (proj2 (proj2 cg_good)))) root None O 0) as [Hf Hs]. cbn [some] in Hf, Hs.
  destruct (ok_stmt false root) eqn:Eo; [|rewrite (Hf eq_refl) in H; discriminate].
  destruct (Hs eq_refl) as (e & n' & E & _ & Hc & Ht & Hb & He). rewrite E in H. injection H as <-.
  split; [reflexivity|].
  assert (T : history_typed 0 (e ++ [EvEmit OP_EXIT [] 0 0])).
  { apply Ht; [discriminate|]. cbn. split; [constructor|exact I]. }
  assert (C : forall q, (cnt q (e ++ [EvEmit OP_EXIT [] 0 0]) <= 1)%nat).
  { intros q. rewrite cnt_app, Hc. unfold ind. cbn [cnt]. destruct (_ && _); lia. }
  split; [exact T|]. split.
  - rewrite (emitted_resolved (first_set (e ++ [EvEmit OP_EXIT [] 0 0]))).
    + rewrite emitted_with_app. unfold comp_program. rewrite map_app.
      rewrite (He _ 0); [reflexivity| |discriminate].
      pose proof (history_first_set _ C) as Ha. apply agrees_app in Ha. apply Ha.
    + exact T.
    + exact C.
    + intros q v Hq. destruct q; discriminate.
    + intros q. unfold value_of. destruct q; reflexivity.
  - apply bounded_app. split; [|exact I]. apply (bounded_weaken _ _ _ _ _ Hb); lia.
Qed.

Lemma program_length root : Z.of_nat (length (comp_program root)) = size_stmt root + 1.
Proof.
  unfold comp_program. rewrite app_length, Nat2Z.inj_add. rewrite (proj1 (proj2 (proj2 (proj2 (proj2 comp_size))))). reflexivity.
Qed.

(** The code of an accepted program: it is built, and what is fetched is the resolved code. *)
Theorem program_fetch root evs : wf_stmt root -> cg_program root = Some evs ->
  Z.of_nat (length (emitted [] evs)) < 2^31 -> data_bytes evs < 2^31 ->
  exists x, codegen root = Some (ROk x) /\
    (forall i, 0 <= i -> exe_fetch x i = ROk (nth_error (comp_program root) (Z.to_nat i))) /\
    Forall (instr_in 0 (size_stmt root)) (comp_program root).
Proof.
  intros Hwf H Hlen Hdata.
  destruct (program_compiles root evs H) as (Hok & Ht & He & Hb).
  rewrite He, map_length, program_length in Hlen.
  pose proof (proj1 (proj2 (proj2 (proj2 (proj2 size_nonneg)))) root) as Hsz.
  assert (Hin : Forall (instr_in 0 (size_stmt root)) (comp_program root)).
  { unfold comp_program. apply Forall_app. split; [|repeat constructor].
    apply (proj1 (proj2 (proj2 (proj2 (proj2 (comp_in (size_stmt root) ltac:(lia)))))) root false); auto; try lia. }
  assert (Hev : Forall event_ok evs).
  { pose proof (emitted_resolved (first_set evs)) as R.
    apply (events_ok (first_set evs) (size_stmt root + 1) ltac:(lia) evs O (comp_program root) Ht Hb).
    - rewrite <- He. symmetry. unfold cg_program, g_seq, g_emit in H.
      destruct (proj1 (proj2 (proj2 (proj2 (proj2 cg_good)))) root None O 0) as [_ Hs].
      destruct (Hs Hok) as (e & n' & E & _ & Hc & _). rewrite E in H. injection H as <-.
      apply R; auto.
      + intros q. rewrite cnt_app, Hc. unfold ind. cbn [cnt]. destruct (_ && _); lia.
      + intros q v Hq. destruct q; discriminate.
      + intros q. unfold value_of. destruct q; reflexivity.
    - eapply Forall_impl; [|exact Hin]. intros i Hi. unfold instr_in in *. eapply Forall_impl; [|exact Hi].
      intros o. destruct o; cbn; auto; lia. }
  destruct (proj2 (build_iff evs exeb_new) Ht) as [b Eb].
  assert (Hd : exists x, exeb_finalize b = ROk x).
  { apply (finalize_iff evs b Hev Eb). rewrite He. clear.
    unfold all_delivered. apply Forall_forall. intros i Hi. apply in_map_iff in Hi. destruct Hi as (c & <- & _).
    cbn. intros Hn. apply in_map_iff in Hn. destruct Hn as (o & Ho & _). discriminate. }
  destruct Hd as [x Ex]. exists x. split.
  { unfold codegen. rewrite H, Eb, Ex. reflexivity. }
  split; [|exact Hin].
  intros i Hi. pose proof (fetch_spec evs b x Hev Hdata Eb Ex i Hi) as F.
  rewrite He, nth_error_map in F. destruct (nth_error (comp_program root) (Z.to_nat i)) as [[op os]|]; cbn in F; [|exact F].
  destruct F as (os' & E & F). assert (os' = os) as ->; [|exact F].
  clear -E. revert os' E. induction os as [|o os IH]; intros [|o' os'] E; cbn in E; try discriminate; [reflexivity|].
  injection E as -> E. f_equal. apply IH. exact E.
Qed.
