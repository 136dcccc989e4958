(** Simulation of direct evaluation by the compiled code, part 1: tools and expressions. *)
From Coq Require Import ZArith List Lia Bool.
From Verif Require FrameModel.
From Verif Require Import Base StringModel ValueModel MapModel ListModel ExeModel ExeSpec ExeProofs ArithModel ObjModel AstModel CodegenModel VmModel
  SrcModel CompSpec FuelProofs CodegenProofs CodegenProofs2 CodegenProofs3.
Import ListNotations.
Open Scope Z_scope.

(** * A bound on the depth of calls *)
Section Depth.
Variable E : env.

(** Direct evaluation that also counts the frames (runtime.c:14, 599-609): with [d] calls left, and at none left the marker [OLoop]. *)
Fixpoint run_stmt_d (n : nat) (d : option nat) (t : stmt) (sc : scope) (st : sst) {struct n} : out (sig * sst) :=
  match n with
  | O => OFuel
  | S n => run_stmt E (run_stmt_d n d) (run_call_d n d) t sc st
  end
with run_call_d (n : nat) (d : option nat) (ps : params) (body : stmt) (args : list value) (clo : value) (st : sst) {struct n} : out (list value * sst) :=
  match d with
  | Some O => OLoop
  | _ =>
    match n with
    | O => OFuel
    | S n => run_call E (run_stmt_d n (option_map pred d)) (run_call_d n (option_map pred d)) ps body args clo st
    end
  end.
End Depth.

Section Sim.
Variable E : env.
Variable cap : Z.
Variable x : executable.
Variable code : list instr.
Hypothesis Hfetch : forall i, 0 <= i -> exe_fetch x i = ROk (nth_error code (Z.to_nat i)).
Hypothesis Hlen : Z.of_nat (length code) < 2^31.
Variable bounded : bool.
Hypothesis Hnat : bounded = true -> forall id args m, e_native E id args m = OLoop.

Notation step := (step E cap x).
Notation steps := (steps E cap x).

(** * Pieces of code *)
Definition code_at (p : Z) (c : list instr) : Prop :=
  exists pre post, code = pre ++ c ++ post /\ Z.of_nat (length pre) = p.
Definition here (p : Z) (i : instr) : Prop := 0 <= p /\ nth_error code (Z.to_nat p) = Some i.

Lemma code_at_app p a b : code_at p (a ++ b) -> code_at p a /\ code_at (p + Z.of_nat (length a)) b.
Proof.
  intros (pre & post & E1 & E2). split.
  - exists pre, (b ++ post). rewrite E1, <- app_assoc. auto.
  - exists (pre ++ a), post. rewrite E1, <- !app_assoc. split; [reflexivity|]. rewrite app_length. lia.
Qed.

Lemma code_at_cons p i c : code_at p (i :: c) -> here p i /\ code_at (p + 1) c.
Proof.
  intros H. change (i :: c) with ([i] ++ c) in H. apply code_at_app in H. destruct H as [H1 H2]. split; [|exact H2].
  destruct H1 as (pre & post & E1 & <-). split; [lia|].
  rewrite E1, Nat2Z.id, nth_error_app2, Nat.sub_diag by lia. reflexivity.
Qed.

Lemma code_at_range p c : code_at p c -> 0 <= p /\ p + Z.of_nat (length c) < 2^31.
Proof. intros (pre & post & E1 & <-). rewrite E1, !app_length in Hlen. lia. Qed.

Lemma step_here s op ops : here (f_pc (v_cur s)) (op, ops) -> step s = exec E cap (with_pc s (f_pc (v_cur s) + 1)) op ops.
Proof. intros [H1 H2]. unfold VmModel.step. rewrite (Hfetch _ H1), H2. reflexivity. Qed.

(** * Runs *)
(** With [bounded] the sixteen frames are counted by the direct evaluation: reaching a seventeenth is then no excuse. *)
Definition bad (s : vstate) : Prop :=
  bounded = true /\ FrameModel.MAX_FRAMES <= Z.of_nat (S (length (v_rest s))) /\
  exists argc want, here (f_pc (v_cur s)) (OP_CALL, [PInt argc; PInt want]) /\ 0 <= argc <= 32.
Definition limit (s : vstate) : Prop := exists n t, steps n s = SNext t /\ step t = SLimit /\ ~ bad t.
Definition ends (s : vstate) (r : sres) : Prop := exists n, steps n s = r.

Definition sim {A} (k : nat) (o : out A) (s : vstate) (post : A -> vstate -> Prop) : Prop :=
  limit s \/
  match o with
  | OOk a => exists n s', steps n s = SNext s' /\ post a s'
  | OErr => ends s SErr
  | OUB => ends s SUB
  | OLoop => ends s SLoop \/ (bounded = true /\ ends s SLimit)
  | OFuel => (short_of_fuel E /\ ends s SLoop) \/ exists s', steps k s = SNext s'
  end.

Definition after {A} (k : nat) (o : out A) (r : sres) (post : A -> vstate -> Prop) : Prop :=
  match r with
  | SNext s => sim k o s post
  | SLimit => True
  | SErr => o = OErr
  | SUB => o = OUB
  | SLoop => o = OLoop \/ (o = OFuel /\ short_of_fuel E)
  | SBad | SDone _ _ => False
  end.

Lemma steps_S n s : steps (S n) s = match step s with SNext s' => steps n s' | r => r end.
Proof. reflexivity. Qed.

Lemma steps_add a : forall b s, steps (a + b) s = match steps a s with SNext s' => steps b s' | r => r end.
Proof.
  induction a as [|a IH]; intros b s; [reflexivity|]. cbn [Nat.add]. rewrite !steps_S. destruct (step s); auto.
Qed.

Lemma steps_prefix a b s s' : (a <= b)%nat -> steps b s = SNext s' -> exists s'', steps a s = SNext s''.
Proof.
  intros H Hb. replace b with (a + (b - a))%nat in Hb by lia. rewrite steps_add in Hb.
  destruct (steps a s) as [s1| | | | | |]; try discriminate. eauto.
Qed.

Lemma sim_next {A} k (o : out A) s s1 post : step s = SNext s1 -> sim k o s1 post -> sim (S k) o s post.
Proof.
  intros Es [(n & t & Hn & Ht)|H]; [left; exists (S n), t; rewrite steps_S, Es; auto|]. right.
  destruct o as [a| | | |].
  - destruct H as (n & s' & Hn & Hp). exists (S n), s'. rewrite steps_S, Es. auto.
  - destruct H as [n Hn]. exists (S n). rewrite steps_S, Es. auto.
  - destruct H as [n Hn]. exists (S n). rewrite steps_S, Es. auto.
  - destruct H as [[n Hn]|[B [n Hn]]]; [left|right; split; [exact B|]]; exists (S n); rewrite steps_S, Es; auto.
  - destruct H as [[F [n Hn]]|[s' Hs]]; [left; split; [exact F|]; exists (S n); rewrite steps_S, Es; auto|right]. exists s'. rewrite steps_S, Es. auto.
Qed.

(** A step that may run into the limit only with the leave of the direct evaluation. *)
Lemma sim_step_if {A} k (o : out A) s post : (step s = SLimit -> bad s -> o = OLoop) -> {bad s} + {~ bad s} ->
  after k o (step s) post -> sim (S k) o s post.
Proof.
  unfold after. intros Hb D. destruct (step s) as [s1|rets m| | | | |] eqn:Es; intros H; try contradiction.
  - eapply sim_next; eauto.
  - subst o. right. exists 1%nat. rewrite steps_S, Es. reflexivity.
  - destruct D as [B|B].
    + rewrite (Hb eq_refl B). right. right. split; [apply B|]. exists 1%nat. rewrite steps_S, Es. reflexivity.
    + left. exists O, s. cbn. auto.
  - subst o. right. exists 1%nat. rewrite steps_S, Es. reflexivity.
  - right. destruct H as [->|[-> F]]; [left|left; split; [exact F|]]; exists 1%nat; rewrite steps_S, Es; reflexivity.
Qed.

Lemma sim_step {A} k (o : out A) s post : ~ bad s -> after k o (step s) post -> sim (S k) o s post.
Proof. intros B. apply sim_step_if; [intros _ H; destruct (B H)|right; exact B]. Qed.

Lemma bad_dec s : {bad s} + {~ bad s}.
Proof.
  unfold bad, here. destruct bounded; [|right; intros [? _]; discriminate].
  destruct (Z_le_dec FrameModel.MAX_FRAMES (Z.of_nat (S (length (v_rest s))))) as [F|F]; [|right; tauto].
  destruct (Z_le_dec 0 (f_pc (v_cur s))) as [P|P]; [|right; intros (_ & _ & ? & ? & [? _] & _); tauto].
  destruct (nth_error code (Z.to_nat (f_pc (v_cur s)))) as [[op ops]|] eqn:En; [|right; intros (_ & _ & ? & ? & [_ ?] & _); discriminate].
  destruct op; try (right; intros (_ & _ & ? & ? & [_ ?] & _); discriminate).
  destruct ops as [|[?|argc|?|?|?] [|[?|want|?|?|?] [|? ?]]]; try (right; intros (_ & _ & ? & ? & [_ ?] & _); discriminate).
  destruct (Z_le_dec 0 argc) as [L|L]; [destruct (Z_le_dec argc 32) as [G|G]|].
  - left. repeat split; auto. exists argc, want. auto.
  - right. intros (_ & _ & a & w & [_ Ha] & Hr). injection Ha as <- <-. lia.
  - right. intros (_ & _ & a & w & [_ Ha] & Hr). injection Ha as <- <-. lia.
Qed.

Lemma not_bad s op ops : here (f_pc (v_cur s)) (op, ops) -> op <> OP_CALL -> ~ bad s.
Proof. intros [H1 H2] Ho (_ & _ & argc & want & [_ H4] & _). rewrite H2 in H4. injection H4 as -> ->. apply Ho. reflexivity. Qed.

Lemma sim_weaken {A} k k' (o : out A) s post : (k' <= k)%nat -> sim k o s post -> sim k' o s post.
Proof.
  intros Hk [H|H]; [left; exact H|right]. destruct o; auto. destruct H as [H|[s' Hs]]; [left; exact H|right].
  eapply steps_prefix; eauto.
Qed.

Lemma sim_step0 {A} k (o : out A) s post : ~ bad s -> after k o (step s) post -> sim k o s post.
Proof. intros B H. apply (sim_weaken (S k)); [lia|]. apply sim_step; assumption. Qed.

Lemma sim_bind {A B} k (o : out A) (f : A -> out B) s post1 post2 :
  sim k o s post1 -> (forall a s1, post1 a s1 -> sim k (f a) s1 post2) -> sim k (obind o f) s post2.
Proof.
  intros [H|H] Hf; [left; exact H|]. destruct o as [a| | | |]; cbn [obind]; try (right; exact H).
  destruct H as (n & s1 & Hn & Hp). specialize (Hf a s1 Hp).
  assert (L : forall j r, steps j s1 = r -> steps (n + j) s = r) by (intros j r Hj; rewrite steps_add, Hn; exact Hj).
  destruct Hf as [(j & t & Hj & Ht)|Hf]; [left; exists (n + j)%nat, t; auto|right].
  destruct (f a) as [b| | | |].
  - destruct Hf as (j & s2 & Hj & Hp2). exists (n + j)%nat, s2. auto.
  - destruct Hf as [j Hj]. exists (n + j)%nat. auto.
  - destruct Hf as [j Hj]. exists (n + j)%nat. auto.
  - destruct Hf as [[j Hj]|[Hb [j Hj]]]; [left|right; split; [exact Hb|]]; exists (n + j)%nat; auto.
  - destruct Hf as [[F [j Hj]]|[s2 Hs]]; [left; split; [exact F|]; exists (n + j)%nat; auto|right].
    apply (steps_prefix k (n + k) s s2); [lia|auto].
Qed.

Lemma sim_then {A} k (o : out A) s (post1 post2 : A -> vstate -> Prop) :
  sim k o s post1 -> (forall a s1, post1 a s1 -> sim k (OOk a) s1 post2) -> sim k o s post2.
Proof.
  intros H Hf. pose proof (sim_bind k o (fun a => OOk a) s post1 post2 H Hf) as G.
  destruct o; exact G.
Qed.

Lemma sim_ret {A} k (a : A) s (post : A -> vstate -> Prop) : post a s -> sim k (OOk a) s post.
Proof. intros H. right. exists O, s. auto. Qed.

Lemma sim_mono {A} k (o : out A) s (post post' : A -> vstate -> Prop) :
  sim k o s post -> (forall a s', post a s' -> post' a s') -> sim k o s post'.
Proof.
  intros [H|H] Hp; [left; exact H|right]. destruct o; auto. destruct H as (n & s' & Hn & Ha). eauto.
Qed.

Lemma after_lift {A B} k (p : out A) (f : A -> out B) g post :
  answers (short_of_fuel E) p -> (forall a, p = OOk a -> after k (f a) (g a) post) -> after k (obind p f) (lift p g) post.
Proof. intros An H. destruct p; cbn; auto. Qed.

Ltac answer := first
  [ apply native_answers | apply vstring_answers | apply get_var_answers | apply set_var_answers | apply select_or_none_answers | apply insert_answers
  | apply binary_answers | apply unary_answers | apply is_type_answers | apply results_answers ].

Lemma after_push {A} k (o : out A) s v post :
  sim k o (with_stack s (v :: f_stack (v_cur s))) post -> after k o (npush cap s v) post.
Proof. unfold npush, vpush. intros H. destruct (_ || _); cbn; auto. Qed.

Lemma vpushes_some vs : forall s s', vpushes cap s vs = Some s' -> s' = with_stack s (rev vs ++ f_stack (v_cur s)).
Proof.
  induction vs as [|v vs IH]; intros s s' H; cbn [vpushes rev app] in *.
  - injection H as <-. destruct s as [m c [pc st l cl w] r]. reflexivity.
  - unfold vpush in H. destruct (_ || _); [discriminate|]. apply IH in H. rewrite H.
    unfold with_stack. cbn. rewrite <- app_assoc. reflexivity.
Qed.

Lemma after_pushes {A} k (o : out A) s vs post :
  sim k o (with_stack s (rev vs ++ f_stack (v_cur s))) post ->
  after k o (match vpushes cap s vs with Some s' => SNext s' | None => SLimit end) post.
Proof.
  intros H. destruct (vpushes cap s vs) as [s'|] eqn:Es; [|exact I]. apply vpushes_some in Es. subst s'. exact H.
Qed.

(** * States *)
Definition st_at (st : sst) (codes : list (Z * Z)) (pc : Z) (stk : list value) (sc : scope) (want : Z) (rest : list vframe) : vstate :=
  mkvs (t_mem st) codes (mkfr pc stk (sc_locals sc) (sc_clo sc) want) rest.

Definition func_at (ps : params) (body : stmt) (pos : Z) : list instr :=
  body_code (comp_params 0 ps) (size_params ps) (comp_stmt 0 body) body pos.

Definition code_rel (src : params * stmt) (c : Z * Z) : Prop :=
  snd c = params_len (fst src) /\ ok_params (fst src) = true /\ ok_stmt false (snd src) = true /\
  code_at (fst c) (func_at (fst src) (snd src) (fst c)).
Definition crel (st : sst) (codes : list (Z * Z)) : Prop := Forall2 code_rel (t_codes st) codes.

Lemma step_st st codes pc stk sc want rest op ops : here pc (op, ops) ->
  step (st_at st codes pc stk sc want rest) = exec E cap (st_at st codes (pc + 1) stk sc want rest) op ops.
Proof. intros H. rewrite (step_here _ op ops); [reflexivity|exact H]. Qed.

Lemma st_at_pc st codes pc pc' stk sc want rest : pc = pc' -> st_at st codes pc stk sc want rest = st_at st codes pc' stk sc want rest.
Proof. intros ->. reflexivity. Qed.

Lemma with_stack_st st codes pc stk stk' sc want rest : with_stack (st_at st codes pc stk sc want rest) stk' = st_at st codes pc stk' sc want rest.
Proof. reflexivity. Qed.
Lemma with_mem_st st codes pc stk sc want rest m : with_mem (st_at st codes pc stk sc want rest) m = st_at (put_mem st m) codes pc stk sc want rest.
Proof. reflexivity. Qed.
Lemma with_pc_st st codes pc pc' stk sc want rest : with_pc (st_at st codes pc stk sc want rest) pc' = st_at st codes pc' stk sc want rest.
Proof. reflexivity. Qed.
Lemma stack_st st codes pc stk sc want rest : f_stack (v_cur (st_at st codes pc stk sc want rest)) = stk.
Proof. reflexivity. Qed.

Definition arity (m : mode) (e : expr) : Z := match m with MVal => 1 | MRets => tuple_len e | MCall n => n | MTgt => 1 end.

Lemma exec_binop s op : exec E cap s (binop_code op) [] =
  match f_stack (v_cur s) with
  | b :: a :: r => lift (binary_op (binop_code op) (v_mem s) a b) (fun x => npush cap (with_mem (with_stack s r) (snd x)) (fst x))
  | _ => SBad
  end.
Proof. destruct op; reflexivity. Qed.

Lemma exec_jump_not s t : exec E cap s OP_JUMPIFNOTANDPOP [PIdx t] =
  match f_stack (v_cur s) with
  | VBool b :: r => SNext (if b then with_stack s r else with_pc (with_stack s r) (wrap32 t))
  | _ :: _ => SErr
  | [] => SBad
  end.
Proof. destruct s as [m c [pc [|[|[]|?|?|?|?| |?] st] l cl w] r]; reflexivity. Qed.

Lemma exec_jump_if s t : exec E cap s OP_JUMPIFANDPOP [PIdx t] =
  match f_stack (v_cur s) with
  | VBool b :: r => SNext (if b then with_pc (with_stack s r) (wrap32 t) else with_stack s r)
  | _ :: _ => SErr
  | [] => SBad
  end.
Proof. destruct s as [m c [pc [|[|[]|?|?|?|?| |?] st] l cl w] r]; reflexivity. Qed.

Lemma exec_unop s op : exec E cap s (unop_code op) [] =
  match f_stack (v_cur s) with
  | a :: r => lift (unary_op (unop_code op) (v_mem s) a) (fun x => npush cap (with_mem (with_stack s r) (snd x)) (fst x))
  | _ => SBad
  end.
Proof. destruct op; reflexivity. Qed.

Lemma results_len want rets vs : 0 <= want -> results want rets = OOk vs -> Z.of_nat (length vs) = want.
Proof.
  intros Hw. unfold results. destruct (MAX_RETS <? _); [discriminate|]. intros [= <-].
  rewrite app_length, firstn_length, repeat_length. lia.
Qed.

Lemma adjust_len p args : 0 <= p -> Z.of_nat (length (adjust p args)) = p.
Proof. intros H. unfold adjust. rewrite app_length, firstn_length, repeat_length. lia. Qed.

Lemma wrap32_in z : 0 <= z < 2^31 -> wrap32 z = z.
Proof. intros H. apply wrap32_id. unfold in_int. lia. Qed.

(** * Expressions *)
Section Level.
Variable k : nat.
Variable again_stmt : stmt -> scope -> sst -> out (sig * sst).
Variable again_call : params -> stmt -> list value -> value -> sst -> out (list value * sst).
Variable rest : list vframe.
Hypothesis Hdeep : bounded = true -> FrameModel.MAX_FRAMES <= Z.of_nat (S (length rest)) ->
  forall ps body args clo st, again_call ps body args clo st = OLoop.

(** Calls with less fuel are simulated from the state in which the new frame has its arguments. *)
Definition call_sim (rest : list vframe) (k : nat) (again_call : params -> stmt -> list value -> value -> sst -> out (list value * sst)) : Prop :=
  forall ps body args clo st codes entry caller want,
  crel st codes -> ok_params ps = true -> ok_stmt false body = true -> code_at entry (func_at ps body entry) ->
  Z.of_nat (length args) = params_len ps ->
  sim k (do (rets, st1) <- again_call ps body args clo st; do vs <- results want rets; OOk (vs, st1))
    (let (loc, m) := alloc (t_mem st) (OMap (new_map (-1))) in
     mkvs m codes (mkfr entry (rev args) loc (Some clo) want) (caller :: rest))
    (fun r s' => exists codes', crel (snd r) codes' /\
       s' = with_stack (mkvs (t_mem (snd r)) codes' caller rest) (rev (fst r) ++ f_stack caller)).
Hypothesis Hcall : Z.of_nat (S (length rest)) < FrameModel.MAX_FRAMES -> call_sim rest k again_call.

Notation eval := (eval E again_call).
Notation eval_args := (eval_args E again_call).
Notation eval_items := (eval_items E again_call).
Notation eval_pairs := (eval_pairs E again_call).

(** From the CALL instruction on: the operands are on the stack. *)
Lemma call_ok_sim callee args want argc st codes pc base sc wnt :
  here pc (OP_CALL, [PInt argc; PInt want]) -> argc = Z.of_nat (length args) -> argc < 2^31 -> 0 <= want < 2^31 -> crel st codes ->
  sim (S k) (call E again_call callee args want st) (st_at st codes pc (callee :: args ++ base) sc wnt rest)
    (fun r s' => Z.of_nat (length (fst r)) = want /\ exists codes', crel (snd r) codes' /\
       s' = st_at (snd r) codes' (pc + 1) (rev (fst r) ++ base) sc wnt rest).
Proof.
  intros Hh -> Ha Hw Hc.
  assert (Hbad : bad (st_at st codes pc (callee :: args ++ base) sc wnt rest) ->
    Z.of_nat (length args) <= 32 /\ FrameModel.MAX_FRAMES <= Z.of_nat (S (length rest))).
  { intros (_ & Hf & argc & w & Hh' & Hr). split; [|exact Hf]. cbn [st_at v_cur f_pc] in Hh'.
    destruct Hh as [_ Hh], Hh' as [_ Hh']. rewrite Hh in Hh'. injection Hh' as <- _. lia. }
  apply sim_step_if; [|apply bad_dec|]; rewrite (step_st _ _ _ _ _ _ _ _ _ Hh).
  { unfold exec. cbn [v_cur st_at f_stack]. rewrite (wrap32_in (Z.of_nat _)), (wrap32_in want) by lia.
    intros Hs B. pose proof (Hbad B) as [H32 H16]. destruct B as [Eb _]. revert Hs.
    destruct (Z.ltb_spec 32 (Z.of_nat (length args))); [lia|].
    destruct (Z.ltb_spec (Z.of_nat (length args)) 0); [lia|].
    destruct (Z.ltb_spec (Z.of_nat (length (args ++ base))) (Z.of_nat (length args))) as [Hl|Hl]; [rewrite app_length in Hl; lia|].
    unfold do_call, call. cbn [v_mem with_stack st_at].
    destruct callee as [|b|z|f|s|t| |l]; try discriminate.
    destruct (nth_error (m_objs (t_mem st)) l) as [o|]; [|discriminate].
    destruct o as [| | |c clo|id na| | | |]; try discriminate.
    - cbn [v_codes with_stack st_at].
      destruct (nth_error (t_codes st) c) as [[ps body]|] eqn:Et.
      + intros _. rewrite (Hdeep Eb H16). reflexivity.
      + destruct (nth_error codes c) as [[entry argc]|] eqn:Ec; [|discriminate].
        exfalso. apply nth_error_None in Et. pose proof (nth_error_Some_lt _ _ _ Ec). rewrite (Forall2_len _ _ _ Hc) in Et. lia.
    - intros _. rewrite (Hnat Eb). reflexivity. }
  unfold exec. cbn [v_cur st_at f_stack]. rewrite (wrap32_in (Z.of_nat _)), (wrap32_in want) by lia.
  destruct (Z.ltb_spec 32 (Z.of_nat (length args))); [exact I|].
  destruct (Z.ltb_spec (Z.of_nat (length args)) 0); [lia|].
  destruct (Z.ltb_spec (Z.of_nat (length (args ++ base))) (Z.of_nat (length args))) as [Hl|Hl]; [rewrite app_length in Hl; lia|].
  rewrite Nat2Z.id, firstn_app, Nat.sub_diag, firstn_all, skipn_app, Nat.sub_diag, skipn_all. cbn [firstn skipn app].
  rewrite app_nil_r. unfold do_call, call. cbn [v_mem with_stack st_at].
  destruct callee as [|b|z|f|s|t| |l]; try reflexivity.
  destruct (nth_error (m_objs (t_mem st)) l) as [o|]; [|reflexivity].
  destruct o as [| | |c clo|id na| | | |]; try reflexivity.
  - cbn [v_codes with_stack st_at].
    destruct (nth_error (t_codes st) c) as [[ps body]|] eqn:Et.
    + destruct (nth_error codes c) as [[entry argc]|] eqn:Ec.
      2:{ exfalso. apply nth_error_None in Ec. pose proof (nth_error_Some_lt _ _ _ Et). rewrite <- (Forall2_len _ _ _ Hc) in Ec. lia. }
      assert (Hr : code_rel (ps, body) (entry, argc)).
      { clear -Hc Et Ec. unfold crel in Hc. revert c Et Ec. induction Hc as [|a b la lb Hab _ IH]; intros [|c] Et Ec; cbn in *; try discriminate; [|eauto].
        injection Et as ->. injection Ec as ->. exact Hab. }
      destruct Hr as (Er & Hop & Hob & Hat). cbn [fst snd] in *. subst argc.
      cbn [with_stack v_cur v_rest st_at length].
      match goal with |- context [if ?b then SLimit else _] => destruct b eqn:Eb; [exact I|apply Z.leb_gt in Eb] end.
      assert (Hsim := fun caller => Hcall Eb ps body (adjust (params_len ps) args) clo st codes entry caller want Hc Hop Hob Hat
        (adjust_len _ _ (params_len_nonneg ps))).
      destruct (alloc (t_mem st) (OMap (new_map (-1)))) as [loc m1] eqn:Em.
      apply after_pushes. cbn [with_stack v_cur f_stack v_mem v_codes v_rest f_pc f_locals f_clo f_want]. rewrite app_nil_r.
      set (caller := {| f_pc := pc + 1; f_stack := base; f_locals := sc_locals sc; f_clo := sc_clo sc; f_want := wnt |}).
      specialize (Hsim caller).
      destruct Hsim as [Hs|Hs]; [left; exact Hs|right].
      destruct (again_call ps body (adjust (params_len ps) args) clo st) as [[rets st1]| | | |]; cbn [obind] in Hs |- *; try exact Hs.
      destruct (results want rets) as [vs| | | |] eqn:Ev; cbn [obind] in Hs |- *; try exact Hs.
      destruct Hs as (n & s' & Hn & codes' & Hc' & ->). exists n. eexists. split; [exact Hn|]. cbn [fst snd].
      split; [eapply results_len; eauto; lia|]. exists codes'. split; [exact Hc'|]. reflexivity.
    + destruct (nth_error codes c) as [[entry argc]|] eqn:Ec; [|reflexivity].
      exfalso. apply nth_error_None in Et. pose proof (nth_error_Some_lt _ _ _ Ec). rewrite (Forall2_len _ _ _ Hc) in Et. lia.
  - match goal with |- context [if ?b then SLimit else _] => destruct b; [exact I|] end.
    apply after_lift; [answer|]. intros [rets m] _. cbn [fst snd]. apply after_lift; [answer|]. intros vs Ev.
    apply after_pushes. apply sim_ret. cbn [fst snd]. split; [eapply results_len; eauto; lia|].
    exists codes. split; [exact Hc|reflexivity].
Qed.

Definition eval_claim (e : expr) : Prop :=
  forall m vs sc st codes pos base want,
  ok_expr m e = true -> mode_ok m -> code_at pos (comp_expr m e pos) -> crel st codes ->
  (match m with MTgt => Z.of_nat (length vs) = tuple_len e | _ => vs = [] end) ->
  sim (S k) (eval m e vs sc st) (st_at st codes pos (rev vs ++ base) sc want rest)
    (fun r s' => Z.of_nat (length (fst r)) = arity m e /\ exists codes', crel (snd r) codes' /\
       s' = st_at (snd r) codes' (pos + size_expr m e) (rev (fst r) ++ base) sc want rest).

Lemma val_sim e : eval_claim e -> forall sc st codes pos base want,
  ok_expr MVal e = true -> code_at pos (comp_expr MVal e pos) -> crel st codes ->
  sim (S k) (eval MVal e [] sc st) (st_at st codes pos base sc want rest)
    (fun r s' => exists v codes', fst r = [v] /\ crel (snd r) codes' /\
       s' = st_at (snd r) codes' (pos + size_expr MVal e) (v :: base) sc want rest).
Proof.
  intros H sc st codes pos base want Hok Hat Hc.
  eapply sim_mono; [exact (H MVal [] sc st codes pos base want Hok I Hat Hc eq_refl)|].
  intros [vs st'] s' (Hl & codes' & Hc' & ->). cbn [fst snd arity] in *.
  destruct vs as [|v [|? ?]]; cbn [length] in Hl; try lia. exists v, codes'. auto.
Qed.

Lemma csize_expr m e pos : Z.of_nat (length (comp_expr m e pos)) = size_expr m e.
Proof. apply (proj1 comp_size). Qed.
Lemma csize_args es pos : Z.of_nat (length (comp_args es pos)) = size_args es.
Proof. apply (proj1 (proj2 comp_size)). Qed.
Lemma csize_items es i pos : Z.of_nat (length (comp_items i es pos)) = size_items es.
Proof. apply (proj1 (proj2 comp_size)). Qed.
Lemma csize_pairs ps pos : Z.of_nat (length (comp_pairs ps pos)) = size_pairs ps.
Proof. apply (proj1 (proj2 (proj2 comp_size))). Qed.
Lemma csize_params ps i pos : Z.of_nat (length (comp_params i ps pos)) = size_params ps.
Proof. apply (proj1 (proj2 (proj2 (proj2 comp_size)))). Qed.
Lemma csize_stmt s b pos : Z.of_nat (length (comp_stmt b s pos)) = size_stmt s.
Proof. apply (proj1 (proj2 (proj2 (proj2 (proj2 comp_size))))). Qed.
Lemma csize_stmts s b pos : Z.of_nat (length (comp_stmts b s pos)) = size_stmts s.
Proof. apply (proj2 (proj2 (proj2 (proj2 (proj2 comp_size))))). Qed.

Ltac cut_code :=
  repeat match goal with
  | H : code_at _ (_ ++ _) |- _ => apply code_at_app in H; destruct H
  | H : code_at _ (_ :: _) |- _ => apply code_at_cons in H; destruct H
  end;
  rewrite ?csize_expr, ?csize_args, ?csize_items, ?csize_pairs, ?csize_params, ?csize_stmt, ?csize_stmts, ?pop_size_code in *;
  repeat match goal with H : code_at _ [] |- _ => clear H end.

Ltac bools := repeat match goal with H : _ && _ = true |- _ => apply andb_prop in H; destruct H end.

(** Evaluate a subexpression. *)
Ltac value H :=
  eapply sim_bind; [eapply (val_sim _ H); [eassumption|eassumption|eassumption]|];
  let v := fresh "v" in let c := fresh "codes" in let st := fresh "st" in
  intros [? st] ? (v & c & ? & ? & ?); cbn [fst snd] in *; subst.

Ltac no_call := solve [discriminate | match goal with |- ?f ?o <> _ => destruct o; discriminate end].
Ltac instr_at H := apply sim_step0; [eapply not_bad; [exact H|no_call]|]; rewrite (step_st _ _ _ _ _ _ _ _ _ H).
Ltac instr := match goal with H : here ?p _ |- context [st_at _ _ ?p] => instr_at H end.
Ltac slow_instr_at H := apply sim_step; [eapply not_bad; [exact H|no_call]|]; rewrite (step_st _ _ _ _ _ _ _ _ _ H).

Ltac norm := rewrite ?with_stack_st, ?with_mem_st, ?stack_st; rewrite ?with_stack_st, ?with_mem_st, ?with_pc_st, ?stack_st.

Ltac done_with :=
  norm; apply sim_ret; cbn [fst snd arity length tuple_len]; split; [try reflexivity; try lia|];
  eexists; split; [eassumption|]; cbn [rev app size_expr]; first [reflexivity | apply st_at_pc; lia].

(** Function objects. *)
Lemma func_sim name ps body sc st codes pos base want :
  code_at pos (func_code name (params_len ps) (size_params ps + (size_stmt body + (pop_size body + 1)))
      (body_code (comp_params 0 ps) (size_params ps) (comp_stmt 0 body) body) pos) ->
  ok_params ps = true -> ok_stmt false body = true -> crel st codes ->
  sim (S k) (OOk (new_function sc st ps body)) (st_at st codes pos base sc want rest)
    (fun r s' => exists codes', crel (snd r) codes' /\
       s' = st_at (snd r) codes' (pos + (2 + (size_params ps + (size_stmt body + (pop_size body + 1))))) (fst r :: base) sc want rest).
Proof.
  intros Hat Hp Hb Hc.
  assert (Hs := code_at_range _ _ Hat).
  unfold func_code in Hat, Hs. cbn [app] in Hat, Hs.
  apply code_at_cons in Hat. destruct Hat as [Hh1 Hat]. apply code_at_cons in Hat. destruct Hat as [Hh2 Hat].
  replace (pos + 1 + 1) with (pos + 2) in Hat by lia.
  assert (Hl : Z.of_nat (length (body_code (comp_params 0 ps) (size_params ps) (comp_stmt 0 body) body (pos + 2))) =
               size_params ps + (size_stmt body + (pop_size body + 1))).
  { unfold body_code. rewrite !app_length, !Nat2Z.inj_add, csize_params, csize_stmt, pop_size_code. cbn [length]. lia. }
  cbn [length] in Hs. pose proof (params_len_nonneg ps). pose proof (params_len_size ps).
  pose proof (proj1 (proj2 (proj2 (proj2 (proj2 size_nonneg)))) body). pose proof (pop_size_nonneg body).
  instr_at Hh1. cbn [exec]. cbn [v_mem v_cur st_at f_clo f_locals v_codes v_rest].
  unfold new_function. assert (El : length codes = length (t_codes st)) by (symmetry; apply (Forall2_len _ _ _ Hc)). rewrite El.
  destruct (alloc (t_mem st) (OClosure (sc_clo sc) (sc_locals sc))) as [c m1].
  destruct (alloc m1 (OFun (length (t_codes st)) c)) as [fn m2].
  apply after_push. rewrite !wrap32_in by lia.
  change (with_stack _ _) with (st_at (mkst m2 (t_codes st ++ [(ps, body)])) (codes ++ [(pos + 2, params_len ps)]) (pos + 1) (fn :: base) sc want rest).
  instr_at Hh2. cbn [exec after]. norm. rewrite wrap32_in by lia.
  apply sim_ret. exists (codes ++ [(pos + 2, params_len ps)]). cbn [fst snd]. split; [|apply st_at_pc; lia].
  unfold crel. cbn [t_codes]. apply Forall2_app; [exact Hc|]. constructor; [|constructor].
  unfold code_rel. cbn [fst snd]. auto.
Qed.

Lemma eval_sim_all :
  (forall e, eval_claim e) /\
  (forall es, (forall sc st codes pos base want, ok_exprs es = true -> code_at pos (comp_args es pos) -> crel st codes ->
      sim (S k) (eval_args es sc st) (st_at st codes pos base sc want rest)
        (fun r s' => Z.of_nat (length (fst r)) = exprs_len es /\ exists codes', crel (snd r) codes' /\
           s' = st_at (snd r) codes' (pos + size_args es) (fst r ++ base) sc want rest)) /\
     (forall l i sc st codes pos base want, ok_exprs es = true -> code_at pos (comp_items i es pos) -> crel st codes ->
      sim (S k) (eval_items l i es sc st) (st_at st codes pos (l :: base) sc want rest)
        (fun st' s' => exists codes', crel st' codes' /\ s' = st_at st' codes' (pos + size_items es) (l :: base) sc want rest))) /\
  (forall ps l sc st codes pos base want, ok_pairs ps = true -> code_at pos (comp_pairs ps pos) -> crel st codes ->
      sim (S k) (eval_pairs l ps sc st) (st_at st codes pos (l :: base) sc want rest)
        (fun st' s' => exists codes', crel st' codes' /\ s' = st_at st' codes' (pos + size_pairs ps) (l :: base) sc want rest)) /\
  (forall ps : params, True) /\ (forall s : stmt, True) /\ (forall ss : stmts, True).
Proof.
  apply ast_ind2; auto.
  - intros z m vs sc st codes pos base want Hok Hm Hat Hc Hvs.
    destruct m; try discriminate; subst; cbn [comp_expr] in *; cut_code; instr; apply after_push; done_with.
  - intros z m vs sc st codes pos base want Hok Hm Hat Hc Hvs.
    destruct m; try discriminate; subst; cbn [comp_expr] in *; cut_code; instr; apply after_push; done_with.
  - intros z m vs sc st codes pos base want Hok Hm Hat Hc Hvs.
    destruct m; try discriminate; subst; cbn [comp_expr] in *; cut_code; instr; cbn [SrcModel.eval exec];
      (apply after_lift; [answer|]); intros v _; apply after_push; done_with.
  - intros z m vs sc st codes pos base want Hok Hm Hat Hc Hvs.
    destruct m; try discriminate; subst; cbn [comp_expr] in *; cut_code; instr; cbn [SrcModel.eval exec];
      try ((apply after_lift; [answer|]); intros [[v|] mm] _; cbn [fst snd]; [apply after_push; done_with|reflexivity]).
    destruct vs as [|v [|? ?]]; cbn [length tuple_len] in Hvs; try lia. cbn [rev app].
    apply after_lift; [answer|]. intros mm _. done_with.
  - intros m vs sc st codes pos base want Hok Hm Hat Hc Hvs.
    destruct m; try discriminate; subst; cbn [comp_expr] in *; cut_code; instr; apply after_push; done_with.
  - intros m vs sc st codes pos base want Hok Hm Hat Hc Hvs.
    destruct m; try discriminate; subst; cbn [comp_expr] in *; cut_code; instr; apply after_push; done_with.
  - intros m vs sc st codes pos base want Hok Hm Hat Hc Hvs.
    destruct m; try discriminate; subst; cbn [comp_expr] in *; cut_code; instr; apply after_push; done_with.
  - intros op a Ha m vs sc st codes pos base want Hok Hm Hat Hc Hvs.
    destruct m; try discriminate; subst; cbn [comp_expr ok_expr value_mode andb] in *; cut_code; cbn [SrcModel.eval rev app];
      value Ha; instr; rewrite exec_unop; cbn [f_stack v_cur st_at v_mem];
      (apply after_lift; [answer|]); intros [r mm] _; apply after_push; done_with.
  - intros op a b Ha Hb m vs sc st codes pos base want Hok Hm Hat Hc Hvs.
    destruct m; try discriminate; subst; cbn [comp_expr ok_expr value_mode andb] in *; cut_code; bools; cbn [SrcModel.eval rev app];
      value Ha; value Hb; instr; rewrite exec_binop; cbn [f_stack v_cur st_at v_mem];
      (apply after_lift; [answer|]); intros [r mm] _; apply after_push; done_with.
  - intros a b Ha Hb m vs sc st codes pos base want Hok Hm Hat Hc Hvs.
    assert (Hs : 0 <= pos /\ pos + size_expr m (EAnd a b) < 2^31) by (rewrite <- (csize_expr m (EAnd a b) pos); apply code_at_range; exact Hat).
    assert (Hok' : value_mode m && (ok_expr MVal a && ok_expr MVal b) = true) by exact Hok.
    assert (Hvs' : vs = []) by (destruct m; try discriminate; exact Hvs).
    assert (Har : arity m (EAnd a b) = 1) by (destruct m; try discriminate; reflexivity).
    clear Hvs. rewrite Har. subst vs. cbn [comp_expr size_expr] in *. cut_code. bools. cbn [SrcModel.eval rev app].
    pose proof (proj1 size_nonneg a MVal). pose proof (proj1 size_nonneg b MVal).
    value Ha. rename v into va.
    destruct va as [|[]|?|?|?|?| |?]; instr; rewrite exec_jump_not, stack_st; try reflexivity; norm; cbn [after].
    + value Hb. destruct v as [|[]|?|?|?|?| |?]; instr; rewrite exec_jump_not, stack_st; try reflexivity; norm; cbn [after].
      * instr. apply after_push. norm. instr. cbn [exec after]. norm. rewrite wrap32_in by lia. done_with.
      * rewrite wrap32_in by lia.
        replace (pos + size_expr MVal a + 1 + size_expr MVal b + 3) with (pos + size_expr MVal a + 1 + size_expr MVal b + 1 + 1 + 1) by lia.
        instr. apply after_push. done_with.
    + rewrite wrap32_in by lia.
      replace (pos + size_expr MVal a + 1 + size_expr MVal b + 3) with (pos + size_expr MVal a + 1 + size_expr MVal b + 1 + 1 + 1) by lia.
      instr. apply after_push. done_with.
  - intros a b Ha Hb m vs sc st codes pos base want Hok Hm Hat Hc Hvs.
    assert (Hs : 0 <= pos /\ pos + size_expr m (EOr a b) < 2^31) by (rewrite <- (csize_expr m (EOr a b) pos); apply code_at_range; exact Hat).
    assert (Hok' : value_mode m && (ok_expr MVal a && ok_expr MVal b) = true) by exact Hok.
    assert (Hvs' : vs = []) by (destruct m; try discriminate; exact Hvs).
    assert (Har : arity m (EOr a b) = 1) by (destruct m; try discriminate; reflexivity).
    clear Hvs. rewrite Har. subst vs. cbn [comp_expr size_expr] in *. cut_code. bools. cbn [SrcModel.eval rev app].
    pose proof (proj1 size_nonneg a MVal). pose proof (proj1 size_nonneg b MVal).
    value Ha. rename v into va.
    destruct va as [|[]|?|?|?|?| |?]; instr; rewrite exec_jump_if, stack_st; try reflexivity; norm; cbn [after].
    + rewrite wrap32_in by lia.
      replace (pos + size_expr MVal a + 1 + size_expr MVal b + 3) with (pos + size_expr MVal a + 1 + size_expr MVal b + 1 + 1 + 1) by lia.
      instr. apply after_push. done_with.
    + value Hb. destruct v as [|[]|?|?|?|?| |?]; instr; rewrite exec_jump_if, stack_st; try reflexivity; norm; cbn [after].
      * rewrite wrap32_in by lia.
        replace (pos + size_expr MVal a + 1 + size_expr MVal b + 3) with (pos + size_expr MVal a + 1 + size_expr MVal b + 1 + 1 + 1) by lia.
        instr. apply after_push. done_with.
      * instr. apply after_push. norm. instr. cbn [exec after]. norm. rewrite wrap32_in by lia. done_with.
  - (* assignment *)
    intros a b Ha Hb m vs sc st codes pos base want Hok Hm Hat Hc Hvs.
    assert (Hok' : value_mode m && (negb (MAX_TUPLE <? tuple_len a) &&
      (ok_expr (if tuple_len a =? 1 then MVal else MCall (tuple_len a)) b && ok_expr MTgt a)) = true) by exact Hok.
    assert (Hvs' : vs = []) by (destruct m; try discriminate; exact Hvs).
    assert (Har : arity m (EAss a b) = arity MTgt a) by (destruct m; try discriminate; reflexivity).
    clear Hvs. rewrite Har. subst vs. cbn [comp_expr size_expr SrcModel.eval rev app] in *. bools.
    match goal with H : negb _ = true |- _ => apply negb_true_iff in H; apply Z.ltb_ge in H; unfold MAX_TUPLE in H end.
    pose proof (tuple_len_pos a).
    set (mr := if tuple_len a =? 1 then MVal else MCall (tuple_len a)) in *.
    assert (Hmr : mode_ok mr /\ arity mr b = tuple_len a /\ (match mr with MTgt => Z.of_nat (@length value []) = tuple_len b | _ => @nil value = [] end)).
    { unfold mr. destruct (Z.eqb_spec (tuple_len a) 1); cbn; repeat split; lia. }
    destruct Hmr as (Hmr & Harr & Hnil). clearbody mr. cut_code.
    eapply sim_bind; [exact (Hb mr [] sc st codes pos base want ltac:(assumption) Hmr ltac:(assumption) Hc Hnil)|].
    intros [xs st1] s1 (Hl & codes1 & Hc1 & ->). cbn [fst snd] in *.
    eapply sim_mono; [eapply (Ha MTgt xs); [assumption|exact I|eassumption|exact Hc1|cbv beta iota; lia]|].
    intros [out st2] s2 (Hl2 & codes2 & Hc2 & ->). cbn [fst snd] in *. split; [exact Hl2|]. exists codes2. split; [exact Hc2|].
    apply st_at_pc. lia.
  - (* tuples *)
    intros a b Ha Hb m vs sc st codes pos base want Hok Hm Hat Hc Hvs.
    destruct m; try discriminate; cbn [comp_expr size_expr SrcModel.eval ok_expr] in *; bools.
    + subst vs. cbn [rev app]. cut_code.
      eapply sim_bind; [exact (Ha MRets [] sc st codes pos base want ltac:(assumption) I ltac:(assumption) Hc eq_refl)|].
      intros [xs st1] s1 (Hl & codes1 & Hc1 & ->). cbn [fst snd arity] in *.
      eapply sim_bind; [exact (Hb MRets [] sc st1 codes1 _ (rev xs ++ base) want ltac:(assumption) I ltac:(eassumption) Hc1 eq_refl)|].
      intros [ys st2] s2 (Hl2 & codes2 & Hc2 & ->). cbn [fst snd arity] in *.
      apply sim_ret. cbn [fst snd arity tuple_len]. rewrite app_length, rev_app_distr, <- app_assoc. split; [lia|].
      exists codes2. split; [exact Hc2|]. apply st_at_pc. lia.
    + cbn [app] in Hat. cut_code.
      pose proof (tuple_len_pos a). pose proof (tuple_len_pos b). cbn [tuple_len] in Hvs.
      set (v1 := firstn (Z.to_nat (tuple_len a)) vs). set (v2 := skipn (Z.to_nat (tuple_len a)) vs).
      assert (Ev : vs = v1 ++ v2) by (symmetry; apply firstn_skipn).
      assert (L1 : Z.of_nat (length v1) = tuple_len a) by (unfold v1; rewrite firstn_length; lia).
      assert (L2 : Z.of_nat (length v2) = tuple_len b) by (unfold v2; rewrite skipn_length; lia).
      clearbody v1 v2. subst vs. rewrite rev_app_distr, <- app_assoc.
      eapply sim_bind; [exact (Hb MTgt v2 sc st codes pos (rev v1 ++ base) want ltac:(assumption) I ltac:(assumption) Hc L2)|].
      intros [ys st1] s1 (Hl & codes1 & Hc1 & ->). cbn [fst snd arity] in *.
      destruct ys as [|y [|? ?]]; cbn [length] in Hl; try lia. cbn [rev app].
      instr. unfold i_pop1. cbn [exec v_cur st_at f_stack].
      change (u32 1) with 1. change (Z.to_nat 1) with 1%nat. cbn [skipn].
      destruct (Z.ltb_spec (Z.of_nat (length (y :: rev v1 ++ base))) 1) as [Hlt|_]; [cbn [length] in Hlt; lia|].
      change (mkvs _ _ _ _) with (st_at st1 codes1 (pos + size_expr MTgt b + 1) (y :: rev v1 ++ base) sc want rest).
      norm. cbn [after].
      eapply sim_mono; [exact (Ha MTgt v1 sc st1 codes1 _ base want ltac:(assumption) I ltac:(eassumption) Hc1 L1)|].
      intros [out st2] s2 (Hl2 & codes2 & Hc2 & ->). cbn [fst snd arity] in *. split; [exact Hl2|]. exists codes2. split; [exact Hc2|].
      apply st_at_pc. lia.
  - intros a b _ _ m vs sc st codes pos base want Hok. discriminate.
  - (* selection *)
    intros a b Ha Hb m vs sc st codes pos base want Hok Hm Hat Hc Hvs.
    assert (Hok' : ok_expr MVal a && ok_expr MVal b = true) by (destruct m; try discriminate; exact Hok).
    bools. cbn [comp_expr size_expr SrcModel.eval] in *. cut_code.
    destruct m; try discriminate; cbv beta iota in Hvs; try subst vs; cbn [rev app].
    + value Ha. value Hb. instr. cbn [exec v_cur st_at f_stack v_mem].
      apply after_lift; [answer|]. intros [r mm] _. apply after_push. done_with.
    + value Ha. value Hb. instr. cbn [exec v_cur st_at f_stack v_mem].
      apply after_lift; [answer|]. intros [r mm] _. apply after_push. done_with.
    + destruct vs as [|v [|? ?]]; cbn [length tuple_len] in Hvs; try lia. cbn [rev app].
      value Ha. value Hb. instr. cbn [exec v_cur st_at f_stack v_mem].
      apply after_lift; [answer|]. intros mm _. done_with.
  - (* lists *)
    intros es [_ He] m vs sc st codes pos base want Hok Hm Hat Hc Hvs.
    assert (Hok' : value_mode m && ok_exprs es = true) by exact Hok.
    assert (Hvs' : vs = []) by (destruct m; try discriminate; exact Hvs).
    assert (Har : arity m (EList es) = 1) by (destruct m; try discriminate; reflexivity).
    clear Hvs. rewrite Har. subst vs. cbn [comp_expr size_expr SrcModel.eval rev app] in *. bools. cut_code.
    instr. cbn [exec v_mem st_at]. destruct (alloc (t_mem st) _) as [l mm]. apply after_push.
    change (mkvs _ _ _ _) with (st_at st codes (pos + 1) base sc want rest). norm.
    eapply sim_bind; [eapply (He l 0 sc); eassumption|].
    intros st1 s1 (codes1 & Hc1 & ->). done_with.
  - (* maps *)
    intros ps He m vs sc st codes pos base want Hok Hm Hat Hc Hvs.
    assert (Hok' : value_mode m && ok_pairs ps = true) by exact Hok.
    assert (Hvs' : vs = []) by (destruct m; try discriminate; exact Hvs).
    assert (Har : arity m (EMap ps) = 1) by (destruct m; try discriminate; reflexivity).
    clear Hvs. rewrite Har. subst vs. cbn [comp_expr size_expr SrcModel.eval rev app] in *. bools. cut_code.
    instr. cbn [exec v_mem st_at]. destruct (alloc (t_mem st) _) as [l mm]. apply after_push.
    change (mkvs _ _ _ _) with (st_at st codes (pos + 1) base sc want rest). norm.
    eapply sim_bind; [eapply (He l sc); eassumption|].
    intros st1 s1 (codes1 & Hc1 & ->). done_with.
  - (* calls *)
    intros f args Hna Hf [Hargs _] m vs sc st codes pos base want Hok Hm Hat Hc Hvs.
    rewrite call_ok in Hok by exact Hna. rewrite call_size by exact Hna. rewrite call_comp in Hat by exact Hna.
    assert (Hs := code_at_range _ _ Hat). rewrite !app_length, !Nat2Z.inj_add, csize_args, csize_expr in Hs. cbn [length] in Hs.
    assert (Hok' : ok_exprs args && ok_expr MVal f = true) by (destruct m; try discriminate; exact Hok).
    assert (Hvs' : vs = []) by (destruct m; try discriminate; exact Hvs).
    assert (Hret : 0 <= returns_of m < 2^31) by (destruct m; cbn [returns_of mode_ok] in *; lia).
    assert (Har : arity m (ECall f args) = returns_of m) by (destruct m; try discriminate; reflexivity).
    clear Hvs. rewrite Har. subst vs. bools. cut_code. cbn [rev app].
    pose proof (exprs_len_nonneg args). pose proof (proj1 (proj1 (proj2 ok_size) args ltac:(assumption))).
    pose proof (proj1 size_nonneg f MVal).
    assert (Ee : eval m (ECall f args) [] sc st =
      (do (xs, st1) <- eval_args args sc st; do (x0, st2) <- eval MVal f [] sc st1;
       match x0 with [fn] => call E again_call fn xs (returns_of m) st2 | _ => OUB end)).
    { destruct f; try contradiction; reflexivity. }
    rewrite Ee. clear Ee.
    eapply sim_bind; [eapply Hargs; eassumption|].
    intros [xs st1] s1 (Hl & codes1 & Hc1 & ->). cbn [fst snd] in *.
    value Hf.
    eapply sim_mono; [eapply call_ok_sim; [eassumption|lia|lia|exact Hret|eassumption]|].
    intros [out st2] s2 (Hl2 & codes2 & Hc2 & ->). cbn [fst snd] in *. split; [exact Hl2|]. exists codes2. split; [exact Hc2|].
    apply st_at_pc. lia.
  - (* method calls *)
    intros a b args Ha Hb [Hargs _] m vs sc st codes pos base want Hok Hm Hat Hc Hvs.
    assert (Hok' : ok_exprs args && (ok_expr MVal a && ok_expr MVal b) = true) by (destruct m; try discriminate; exact Hok).
    assert (Hvs' : vs = []) by (destruct m; try discriminate; exact Hvs).
    assert (Hret : 0 <= returns_of m < 2^31) by (destruct m; cbn [returns_of mode_ok] in *; lia).
    assert (Har : arity m (ECall (EArw a b) args) = returns_of m) by (destruct m; try discriminate; reflexivity).
    clear Hvs. rewrite Har. subst vs. cbn [comp_expr size_expr SrcModel.eval rev app] in *.
    assert (Hs := code_at_range _ _ Hat). rewrite !app_length, !Nat2Z.inj_add, csize_args, !csize_expr in Hs. cbn [length] in Hs.
    bools. cut_code.
    pose proof (exprs_len_nonneg args). pose proof (proj1 (proj1 (proj2 ok_size) args ltac:(assumption))).
    pose proof (proj1 size_nonneg a MVal). pose proof (proj1 size_nonneg b MVal).
    eapply sim_bind; [eapply Hargs; eassumption|].
    intros [xs st1] s1 (Hl & codes1 & Hc1 & ->). cbn [fst snd] in *.
    value Ha. value Hb. instr. cbn [exec v_cur st_at f_stack v_mem].
    apply after_lift; [answer|]. intros [fn mm] _. cbn [fst snd]. apply after_push.
    change (mkvs _ _ _ _) with (st_at st2 codes2 (pos + size_args args + size_expr MVal a + size_expr MVal b + 1) (v0 :: v :: xs ++ base) sc want rest).
    norm.
    eapply sim_mono; [eapply (call_ok_sim fn (v :: xs)); [eassumption|cbn [length]; lia|cbn [length]; lia|exact Hret|]|].
    { eassumption. }
    intros [out st3] s3 (Hl2 & codes3 & Hc3 & ->). cbn [fst snd] in *. split; [exact Hl2|]. exists codes3. split; [exact Hc3|].
    apply st_at_pc. lia.
  - (* functions *)
    intros ps body _ _ m vs sc st codes pos base want Hok Hm Hat Hc Hvs.
    assert (Hok' : value_mode m && (ok_params ps && ok_stmt false body) = true) by exact Hok.
    assert (Hvs' : vs = []) by (destruct m; try discriminate; exact Hvs).
    assert (Har : arity m (EFun ps body) = 1) by (destruct m; try discriminate; reflexivity).
    clear Hvs. rewrite Har. subst vs. cbn [comp_expr size_expr SrcModel.eval rev app] in *. bools.
    pose proof (func_sim _ ps body sc st codes pos base want Hat ltac:(assumption) ltac:(assumption) Hc) as F.
    destruct (new_function sc st ps body) as [fn st1].
    eapply (sim_bind _ (OOk (fn, st1)) (fun r => one (fst r) (snd r))); [exact F|].
    intros [fn' st1'] s1 (codes1 & Hc1 & ->). cbn [fst snd] in *. done_with.
  - split.
    + intros sc st codes pos base want _ _ Hc. apply sim_ret. cbn [fst snd length exprs_len app size_args]. split; [reflexivity|].
      exists codes. split; [exact Hc|]. apply st_at_pc. lia.
    + intros l i sc st codes pos base want _ _ Hc. apply sim_ret. exists codes. split; [exact Hc|]. cbn [size_items]. apply st_at_pc. lia.
  - intros e r He [Hr1 Hr2]. split.
    + intros sc st codes pos base want Hok Hat Hc. cbn [ok_exprs comp_args size_args SrcModel.eval_args exprs_len] in *. bools. cut_code.
      eapply sim_bind; [eapply Hr1; eassumption|].
      intros [xs st1] s1 (Hl & codes1 & Hc1 & ->). cbn [fst snd] in *.
      value He. apply sim_ret. cbn [fst snd app length]. split; [lia|]. eexists. split; [eassumption|]. apply st_at_pc. lia.
    + intros l i sc st codes pos base want Hok Hat Hc. cbn [ok_exprs comp_items size_items SrcModel.eval_items exprs_len app] in *. bools. cut_code.
      instr. apply after_push. norm. value He. instr. cbn [exec v_cur st_at f_stack v_mem].
      apply after_lift; [answer|]. intros mm _. cbn [after].
      change (mkvs _ _ _ _) with (st_at st0 codes0 (pos + 1 + size_expr MVal e + 1) (v :: VInt i :: l :: base) sc want rest). norm.
      eapply sim_mono; [eapply Hr2; eassumption|].
      intros st2 s2 (codes2 & Hc2 & ->). exists codes2. split; [exact Hc2|]. apply st_at_pc. lia.
  - intros l sc st codes pos base want _ _ Hc. apply sim_ret. exists codes. split; [exact Hc|]. cbn [size_pairs]. apply st_at_pc. lia.
  - intros ke e r Hk He Hr l sc st codes pos base want Hok Hat Hc.
    cbn [ok_pairs comp_pairs size_pairs SrcModel.eval_pairs] in *. bools. cut_code.
    value Hk. value He. instr. cbn [exec v_cur st_at f_stack v_mem].
    apply after_lift; [answer|]. intros mm _. cbn [after].
    change (mkvs _ _ _ _) with (st_at st1 codes1 (pos + size_expr MVal ke + size_expr MVal e + 1) (v0 :: v :: l :: base) sc want rest). norm.
    eapply sim_mono; [eapply Hr; eassumption|].
    intros st2 s2 (codes2 & Hc2 & ->). exists codes2. split; [exact Hc2|]. apply st_at_pc. lia.
Qed.

Lemma eval_sim e : eval_claim e.
Proof. apply (proj1 eval_sim_all). Qed.

(** * Parameters *)
Lemma bind_sim : forall ps args i sc st codes pos base want,
  ok_params ps = true -> code_at pos (comp_params i ps pos) -> crel st codes -> Z.of_nat (length args) = params_len ps ->
  sim (S k) (bind_params E again_call ps args sc st) (st_at st codes pos (rev args ++ base) sc want rest)
    (fun st' s' => exists codes', crel st' codes' /\ s' = st_at st' codes' (pos + size_params ps) base sc want rest).
Proof.
  induction ps as [|name ty df r IH]; intros args i sc st codes pos base want Hok Hat Hc Hl.
  - destruct args; [|cbn [length params_len] in Hl; lia]. cbn [bind_params rev app].
    apply sim_ret. exists codes. split; [exact Hc|]. cbn [size_params]. apply st_at_pc. lia.
  - pose proof (params_len_nonneg r).
    destruct args as [|v args]; cbn [length params_len] in Hl; [lia|].
    assert (Hs := code_at_range _ _ Hat). rewrite csize_params in Hs.
    cbn [ok_params comp_params size_params bind_params rev] in *.
    apply andb_prop in Hok. destruct Hok as [Hokr Hok]. apply andb_prop in Hok. destruct Hok as [Hokd Hokt].
    apply code_at_app in Hat. destruct Hat as [Hatr Hat]. rewrite csize_params in Hat.
    apply code_at_app in Hat. destruct Hat as [Hatd Hat].
    apply code_at_app in Hat. destruct Hat as [Hatt Hat].
    rewrite <- app_assoc. cbn [app].
    eapply sim_bind; [eapply (IH args (i + 1)); [eassumption|eassumption|eassumption|lia]|].
    intros st1 s1 (codes1 & Hc1 & ->).
    set (p1 := pos + size_params r) in *.
    set (sd := match df with OYes d => 5 + size_expr MVal d | ONo => 0 end) in *.
    set (t0 := match ty with OYes t => size_expr MVal t + 1 | ONo => 0 end) in *.
    assert (Hsd : 0 <= sd) by (unfold sd; destruct df; [lia|pose proof (proj1 size_nonneg e MVal); lia]).
    assert (Hst : 0 <= t0) by (unfold t0; destruct ty; [lia|pose proof (proj1 size_nonneg e MVal); lia]).
    assert (Hp1 : 0 <= p1) by (pose proof (proj1 (proj2 (proj2 (proj2 size_nonneg))) r); unfold p1; lia).
    eapply (sim_bind _ _ _ _ (fun (q : value * sst) s' => exists codes', crel (snd q) codes' /\
      s' = st_at (snd q) codes' (p1 + sd) (fst q :: base) sc want rest)).
    { unfold sd in *. destruct df as [|d].
      - apply sim_ret. exists codes1. split; [exact Hc1|]. apply st_at_pc. cbn [fst snd]. lia.
      - cbn [app] in Hatd. cut_code. instr. cbn [exec v_cur st_at f_stack v_mem]. apply after_push.
        change (mkvs _ _ _ _) with (st_at st1 codes1 (p1 + 1) (v :: base) sc want rest). norm.
        instr. cbn [exec]. apply after_push. norm.
        instr. change OP_EQL with (binop_code BEql). rewrite exec_binop. cbn [f_stack v_cur st_at v_mem binop_code binary_op].
        pose proof (proj1 size_nonneg d MVal).
        destruct (compare_op (t_mem st1) false _ (VType TyNone)) as [c| | | |] eqn:Ecmp; cbn [obind lift]; try reflexivity; [|left; reflexivity|exfalso; revert Ecmp; apply (compare_answers False)].
        assert (Hb : exists b, c = VBool b).
        { unfold compare_op in Ecmp. destruct (obj_compare _ _ _); [|discriminate]. destruct (m_pend _); [discriminate|].
          injection Ecmp as <-. eauto. }
        destruct Hb as [b ->]. apply after_push. cbn [fst snd].
        change (mkvs _ _ _ _) with (st_at st1 codes1 (p1 + 1 + 1 + 1) (VType TyNone :: VType (type_of (rt_of (m_objs (t_mem st1))) v) :: v :: base) sc want rest).
        norm. replace (put_mem st1 (t_mem st1)) with st1 by (destruct st1; reflexivity).
        instr. rewrite exec_jump_not, stack_st. cbn [after]. norm. destruct b.
        + instr. unfold i_pop1. cbn [exec v_cur st_at f_stack].
          change (u32 1) with 1. change (Z.to_nat 1) with 1%nat. cbn [skipn].
          destruct (Z.ltb_spec (Z.of_nat (length (v :: base))) 1) as [Hlt|_]; [cbn [length] in Hlt; lia|].
          change (mkvs _ _ _ _) with (st_at st1 codes1 (p1 + 1 + 1 + 1 + 1 + 1) (v :: base) sc want rest). norm. cbn [after].
          replace (p1 + 1 + 1 + 1 + 1 + 1) with (p1 + 5) in * by lia.
          value (eval_sim d). apply sim_ret. cbn [fst snd]. eexists. split; [eassumption|]. apply st_at_pc. lia.
        + rewrite wrap32_in by lia. apply sim_ret. cbn [fst snd]. exists codes1. split; [exact Hc1|]. apply st_at_pc. lia. }
    intros [v2 st2] s2 (codes2 & Hc2 & ->). cbn [fst snd] in *.
    match type of Hatt with code_at ?q _ => assert (Hld : q = p1 + sd) end.
    { unfold sd. destruct df; [cbn [length]; lia|]. rewrite app_length, Nat2Z.inj_add, csize_expr. cbn [length]. lia. }
    rewrite Hld in Hatt, Hat.
    eapply (sim_bind _ _ _ _ (fun (q : sst) s' => exists codes', crel q codes' /\
      s' = st_at q codes' (p1 + sd + t0) (v2 :: base) sc want rest)).
    { unfold t0 in *. clear Hld. destruct ty as [|t].
      - apply sim_ret. exists codes2. split; [exact Hc2|]. apply st_at_pc. lia.
      - cut_code. value (eval_sim t). instr. cbn [exec v_cur st_at f_stack v_mem].
        apply after_lift; [answer|]. intros [ok mm] _. cbn [fst snd]. destruct ok; [|reflexivity].
        cbn [after]. apply sim_ret. eexists. split; [eassumption|].
        change (mkvs _ _ _ _) with (st_at st0 codes0 (p1 + sd + size_expr MVal t + 1) (v0 :: v2 :: base) sc want rest). norm.
        apply st_at_pc. lia. }
    intros st3 s3 (codes3 & Hc3 & ->).
    match type of Hat with code_at (p1 + sd + ?q) _ => assert (Hlt : q = t0) end.
    { unfold t0. destruct ty; [reflexivity|]. rewrite app_length, Nat2Z.inj_add, csize_expr. reflexivity. }
    rewrite Hlt in Hat. cut_code.
    instr. cbn [exec v_cur st_at f_stack v_mem f_locals].
    apply after_lift; [answer|]. intros mm _. cbn [after].
    change (mkvs _ _ _ _) with (st_at st3 codes3 (p1 + sd + t0 + 1) (v2 :: base) sc want rest). norm.
    instr. unfold i_pop1. cbn [exec v_cur st_at f_stack].
    change (u32 1) with 1. change (Z.to_nat 1) with 1%nat. cbn [skipn].
    destruct (Z.ltb_spec (Z.of_nat (length (v2 :: base))) 1) as [Hlt1|_]; [cbn [length] in Hlt1; lia|].
    change (mkvs _ _ _ _) with (st_at (put_mem st3 mm) codes3 (p1 + sd + t0 + 1 + 1) (v2 :: base) sc want rest). norm. cbn [after].
    apply sim_ret. exists codes3. split; [exact Hc3|]. apply st_at_pc. lia.
Qed.

(** * Statements *)
Definition post_of (b : bool) (brk : Z) (sc : scope) (want : Z) (nxt len : Z) (r : sig * sst) (s' : vstate) : Prop :=
  exists codes', crel (snd r) codes' /\
  match fst r with
  | SigNext => exists stk, Z.of_nat (length stk) = len /\ s' = st_at (snd r) codes' nxt stk sc want rest
  | SigBreak => b = true /\ s' = st_at (snd r) codes' brk [] sc want rest
  | SigRet vs => exists pc n, here pc (OP_RETURN, [PInt n]) /\ s' = st_at (snd r) codes' pc (rev vs) sc want rest
  end.

Definition stmt_claim (k : nat) (run : stmt -> scope -> sst -> out (sig * sst)) (s : stmt) : Prop :=
  forall b brk sc st codes pos want,
  ok_stmt b s = true -> code_at pos (comp_stmt brk s pos) -> (b = true -> 0 <= brk < 2^31) -> crel st codes ->
  sim k (run s sc st) (st_at st codes pos [] sc want rest) (post_of b brk sc want (pos + size_stmt s) (pop_size s)).

Hypothesis Hagain : forall s, stmt_claim k again_stmt s.

(** The value of an expression statement is popped. *)
Lemma pop_sim {A} s st codes pos stk sc want (o : out A) post : code_at pos (pop_code s) -> Z.of_nat (length stk) = pop_size s ->
  sim (S k) o (st_at st codes (pos + pop_size s) [] sc want rest) post ->
  sim (S k) o (st_at st codes pos stk sc want rest) post.
Proof.
  unfold pop_code, pop_size. intros Hat Hl H. destruct (is_expr s).
  - destruct stk as [|v [|? ?]]; cbn [length] in Hl; try lia.
    cut_code. instr. unfold i_pop1. cbn [exec v_cur st_at f_stack].
    change (u32 1) with 1. change (Z.to_nat 1) with 1%nat. cbn [skipn].
    change (Z.of_nat (length [v]) <? 1) with false. cbn [after]. exact H.
  - destruct stk; [|cbn [length] in Hl; lia]. rewrite (st_at_pc _ _ pos (pos + 0)) by lia. exact H.
Qed.

Lemma popped_sim run s b brk sc st codes pos want : stmt_claim (S k) run s ->
  ok_stmt b s = true -> code_at pos (comp_stmt brk s pos) -> code_at (pos + size_stmt s) (pop_code s) ->
  (b = true -> 0 <= brk < 2^31) -> crel st codes ->
  sim (S k) (run s sc st) (st_at st codes pos [] sc want rest) (post_of b brk sc want (pos + size_stmt s + pop_size s) 0).
Proof.
  intros Hs Hok Hat Hpop Hb Hc. eapply sim_then; [apply Hs; eassumption|].
  intros [g st1] s1 (codes1 & Hc1 & H). cbn [fst snd] in *. destruct g as [| |vs].
  - destruct H as (stk & Hl & ->). eapply pop_sim; [exact Hpop|exact Hl|]. apply sim_ret. exists codes1. split; [exact Hc1|].
    exists []. split; reflexivity.
  - destruct H as [H ->]. apply sim_ret. exists codes1. split; [exact Hc1|]. split; [exact H|reflexivity].
  - apply sim_ret. exists codes1. split; [exact Hc1|]. exact H.
Qed.

Lemma post_pc b brk sc want nxt nxt' len r s : post_of b brk sc want nxt len r s -> nxt = nxt' -> post_of b brk sc want nxt' len r s.
Proof. intros H <-. exact H. Qed.

Lemma stmts_sim :
  (forall s, stmt_claim (S k) (run_stmt E again_stmt again_call) s) /\
  (forall ss b brk sc st codes pos want,
    ok_stmts b ss = true -> code_at pos (comp_stmts brk ss pos) -> (b = true -> 0 <= brk < 2^31) -> crel st codes ->
    sim (S k) (run_stmts E again_stmt again_call ss sc st) (st_at st codes pos [] sc want rest)
      (post_of b brk sc want (pos + size_stmts ss) 0)).
Proof.
  enough (H : (forall e : expr, True) /\ (forall es : exprs, True) /\ (forall ps : pairs, True) /\ (forall ps : params, True) /\ 
  (forall s, stmt_claim (S k) (run_stmt E again_stmt again_call) s) /\
  (forall ss b brk sc st codes pos want,
    ok_stmts b ss = true -> code_at pos (comp_stmts brk ss pos) -> (b = true -> 0 <= brk < 2^31) -> crel st codes ->
    sim (S k) (run_stmts E again_stmt again_call ss sc st) (st_at st codes pos [] sc want rest)
      (post_of b brk sc want (pos + size_stmts ss) 0))) by tauto.
  apply ast_ind2; auto.
  - intros e _ b brk sc st codes pos want Hok Hat Hb Hc. cbn [run_stmt ok_stmt comp_stmt size_stmt] in *.
    value (eval_sim e). apply sim_ret. eexists. split; [eassumption|]. exists [v]. split; reflexivity.
  - intros b brk sc st codes pos want Hok Hat Hb Hc. cbn [run_stmt ok_stmt comp_stmt size_stmt] in *. subst b. cut_code.
    instr. cbn [exec after]. norm. rewrite wrap32_in by (apply Hb; reflexivity). apply sim_ret.
    exists codes. cbn [fst snd]. auto.
  - (* if *)
    intros c t _ Ht b brk sc st codes pos want Hok Hat Hb Hc.
    assert (Hs := code_at_range _ _ Hat). rewrite csize_stmt in Hs.
    cbn [run_stmt ok_stmt comp_stmt size_stmt app] in *. cut_code. bools.
    pose proof (proj1 size_nonneg c MVal). pose proof (proj1 (proj2 (proj2 (proj2 (proj2 size_nonneg)))) t). pose proof (pop_size_nonneg t).
    value (eval_sim c). destruct v as [|[]|?|?|?|?| |?]; instr; rewrite exec_jump_not, stack_st; try reflexivity; norm; cbn [after].
    + eapply sim_mono; [eapply popped_sim; eassumption|]. intros r s' Hp. eapply post_pc; [exact Hp|lia].
    + rewrite wrap32_in by lia. apply sim_ret. eexists. split; [eassumption|]. exists []. split; [reflexivity|]. apply st_at_pc. lia.
  - (* if else *)
    intros c t f _ Ht Hf b brk sc st codes pos want Hok Hat Hb Hc.
    assert (Hs := code_at_range _ _ Hat). rewrite csize_stmt in Hs.
    cbn [run_stmt ok_stmt comp_stmt size_stmt app] in *. cut_code. bools.
    pose proof (proj1 size_nonneg c MVal). pose proof (proj1 (proj2 (proj2 (proj2 (proj2 size_nonneg)))) t). pose proof (pop_size_nonneg t).
    pose proof (proj1 (proj2 (proj2 (proj2 (proj2 size_nonneg)))) f). pose proof (pop_size_nonneg f).
    value (eval_sim c). destruct v as [|[]|?|?|?|?| |?]; instr; rewrite exec_jump_not, stack_st; try reflexivity; norm; cbn [after].
    + eapply sim_then; [eapply (popped_sim _ t); eassumption|].
      intros [g st1] s1 (codes1 & Hc1 & Hg). cbn [fst snd] in *. destruct g as [| |vs].
      * destruct Hg as (stk & Hl & ->). destruct stk; [|cbn [length] in Hl; lia].
        instr. cbn [exec after]. norm. rewrite wrap32_in by lia. apply sim_ret. exists codes1. split; [exact Hc1|]. exists []. split; [reflexivity|].
        apply st_at_pc. lia.
      * apply sim_ret. exists codes1. split; [exact Hc1|]. exact Hg.
      * apply sim_ret. exists codes1. split; [exact Hc1|]. exact Hg.
    + rewrite wrap32_in by lia.
      eapply sim_mono; [eapply (popped_sim _ f); eassumption|]. intros r s' Hp. eapply post_pc; [exact Hp|lia].
  - (* while *)
    intros c t _ Ht b brk sc st codes pos want Hok Hat Hb Hc.
    assert (Hs := code_at_range _ _ Hat). rewrite csize_stmt in Hs. pose proof Hat as Hat0. pose proof Hok as Hok0.
    cbn [run_stmt ok_stmt comp_stmt size_stmt app] in Hok, Hat, Hs |- *. cut_code. bools.
    pose proof (proj1 size_nonneg c MVal). pose proof (proj1 (proj2 (proj2 (proj2 (proj2 size_nonneg)))) t). pose proof (pop_size_nonneg t).
    value (eval_sim c). destruct v as [|[]|?|?|?|?| |?]; instr; rewrite exec_jump_not, stack_st; try reflexivity; norm; cbn [after].
    + eapply sim_bind; [eapply (popped_sim _ t true); try eassumption; intros _; lia|].
      intros [g st1] s1 (codes1 & Hc1 & Hg). cbn [fst snd] in *. destruct g as [| |vs].
      * destruct Hg as (stk & Hl & ->). destruct stk; [|cbn [length] in Hl; lia].
        match goal with H : here _ (OP_JUMP, [PIdx pos]) |- _ => slow_instr_at H end.
        cbn [exec after]. norm. rewrite wrap32_in by lia. apply (Hagain (SWhile c t)); assumption.
      * destruct Hg as [_ ->]. apply sim_ret. exists codes1. split; [exact Hc1|]. exists []. split; [reflexivity|]. apply st_at_pc. cbn [size_stmt]. lia.
      * apply sim_ret. exists codes1. split; [exact Hc1|]. exact Hg.
    + rewrite wrap32_in by lia. apply sim_ret. eexists. split; [eassumption|]. exists []. split; [reflexivity|]. apply st_at_pc. cbn [size_stmt]. lia.
  - (* do while *)
    intros t c Ht _ b brk sc st codes pos want Hok Hat Hb Hc.
    assert (Hs := code_at_range _ _ Hat). rewrite csize_stmt in Hs. pose proof Hat as Hat0. pose proof Hok as Hok0.
    cbn [run_stmt ok_stmt comp_stmt size_stmt app] in Hok, Hat, Hs |- *. cut_code. bools.
    pose proof (proj1 size_nonneg c MVal). pose proof (proj1 (proj2 (proj2 (proj2 (proj2 size_nonneg)))) t). pose proof (pop_size_nonneg t).
    eapply sim_bind; [eapply (popped_sim _ t true); try eassumption; intros _; lia|].
    intros [g st1] s1 (codes1 & Hc1 & Hg). cbn [fst snd] in *. destruct g as [| |vs].
    + destruct Hg as (stk & Hl & ->). destruct stk; [|cbn [length] in Hl; lia].
      value (eval_sim c). destruct v as [|[]|?|?|?|?| |?].
      2:{ match goal with H : here _ (OP_JUMPIFANDPOP, _) |- _ => slow_instr_at H end.
          rewrite exec_jump_if, stack_st. norm. cbn [after]. rewrite wrap32_in by lia. apply (Hagain (SDo t c)); assumption. }
      all: instr; rewrite exec_jump_if, stack_st; try reflexivity; norm; cbn [after].
      apply sim_ret. eexists. split; [eassumption|]. exists []. split; [reflexivity|]. apply st_at_pc. cbn [size_stmt]. lia.
    + destruct Hg as [_ ->]. apply sim_ret. exists codes1. split; [exact Hc1|]. exists []. split; [reflexivity|]. apply st_at_pc. cbn [size_stmt]. lia.
    + apply sim_ret. exists codes1. split; [exact Hc1|]. exact Hg.
  - (* return *)
    intros e _ b brk sc st codes pos want Hok Hat Hb Hc. cbn [run_stmt ok_stmt comp_stmt size_stmt] in *. bools. cut_code.
    eapply sim_bind; [exact (eval_sim e MRets [] sc st codes pos [] want ltac:(assumption) I ltac:(assumption) Hc eq_refl)|].
    intros [vs st1] s1 (Hl & codes1 & Hc1 & ->). cbn [fst snd] in *. apply sim_ret. exists codes1. split; [exact Hc1|].
    exists (pos + size_expr MRets e), (tuple_len e). split; [eassumption|]. rewrite app_nil_r. reflexivity.
  - (* function declaration *)
    intros name ps body _ _ b brk sc st codes pos want Hok Hat Hb Hc. cbn [run_stmt ok_stmt comp_stmt size_stmt] in *. bools.
    apply code_at_app in Hat. destruct Hat as [Hat1 Hat2].
    pose proof (func_sim _ ps body sc st codes pos [] want Hat1 ltac:(assumption) ltac:(assumption) Hc) as F.
    destruct (new_function sc st ps body) as [fn st1].
    match goal with |- sim _ ?o _ _ => change o with (obind (OOk (fn, st1)) (fun r => do mm <- set_var E (t_mem (snd r)) (sc_locals sc) name (fst r); OOk (SigNext, put_mem (snd r) mm))) end.
    eapply sim_bind; [exact F|].
    intros [fn' st1'] s1 (codes1 & Hc1 & ->). cbn [fst snd] in *.
    match type of Hat2 with code_at ?q _ => assert (Eq : q = pos + (2 + (size_params ps + (size_stmt body + (pop_size body + 1))))) end.
    { unfold func_code, body_code. rewrite !app_length, !Nat2Z.inj_add, csize_params, csize_stmt, pop_size_code. cbn [length]. lia. }
    rewrite Eq in Hat2. cut_code.
    instr. cbn [exec v_cur st_at f_stack v_mem f_locals].
    apply after_lift; [answer|]. intros mm _. cbn [after].
    rewrite with_mem_st. norm.
    instr. unfold i_pop1. cbn [exec v_cur st_at f_stack].
    change (u32 1) with 1. change (Z.to_nat 1) with 1%nat. cbn [skipn].
    change (Z.of_nat (length [fn']) <? 1) with false. cbn [after].
    apply sim_ret. exists codes1. split; [exact Hc1|]. exists []. split; [reflexivity|]. 
    norm. apply st_at_pc. cbn [size_stmt]. lia.
  - intros b brk sc st codes pos want Hok Hat Hb Hc. apply sim_ret. exists codes. split; [exact Hc|]. exists []. split; [reflexivity|].
    apply st_at_pc. cbn [size_stmts]. lia.
  - intros s r Hs Hr b brk sc st codes pos want Hok Hat Hb Hc. cbn [run_stmts ok_stmts comp_stmts size_stmts] in *. bools. cut_code.
    eapply sim_bind; [eapply (popped_sim _ s); eassumption|].
    intros [g st1] s1 (codes1 & Hc1 & Hg). cbn [fst snd] in *. destruct g as [| |vs].
    + destruct Hg as (stk & Hl & ->). destruct stk; [|cbn [length] in Hl; lia].
      eapply sim_mono; [eapply Hr; eassumption|]. intros q s' Hp. eapply post_pc; [exact Hp|lia].
    + apply sim_ret. exists codes1. split; [exact Hc1|]. exact Hg.
    + apply sim_ret. exists codes1. split; [exact Hc1|]. exact Hg.
Qed.

End Level.

(** * Calls *)
Section Calls.
Variable k : nat.
Variable again_stmt : stmt -> scope -> sst -> out (sig * sst).
Variable again_call : params -> stmt -> list value -> value -> sst -> out (list value * sst).
Variable rest : list vframe.
Hypothesis Hdeep : bounded = true -> FrameModel.MAX_FRAMES <= Z.of_nat (S (S (length rest))) ->
  forall ps body args clo st, again_call ps body args clo st = OLoop.
Hypothesis Hcall : forall caller : vframe, Z.of_nat (S (S (length rest))) < FrameModel.MAX_FRAMES -> call_sim (caller :: rest) k again_call.
Hypothesis Hagain : forall caller s, stmt_claim (caller :: rest) k again_stmt s.

Ltac cut_code :=
  repeat match goal with
  | H : code_at _ (_ ++ _) |- _ => apply code_at_app in H; destruct H
  | H : code_at _ (_ :: _) |- _ => apply code_at_cons in H; destruct H
  end;
  rewrite ?csize_expr, ?csize_args, ?csize_items, ?csize_pairs, ?csize_params, ?csize_stmt, ?csize_stmts, ?pop_size_code in *;
  repeat match goal with H : code_at _ [] |- _ => clear H end.

Lemma finish_sim {A} caller want n vs st codes pc sc (o : out A) post :
  here pc (OP_RETURN, [PInt n]) ->
  (m_pend (t_mem st) = true -> o = OErr) ->
  (m_pend (t_mem st) = false -> after k o (lift (results want vs) (fun rs =>
    match vpushes cap (mkvs (t_mem st) codes caller rest) rs with Some s' => SNext s' | None => SLimit end)) post) ->
  sim (S k) o (st_at st codes pc (rev vs) sc want (caller :: rest)) post.
Proof.
  intros Hh H1 H2. apply sim_step; [eapply not_bad; [exact Hh|discriminate]|]; rewrite (step_st _ _ _ _ _ _ _ _ _ Hh). cbn [exec]. unfold finish. cbn [v_mem st_at v_cur f_stack v_rest f_want v_codes].
  destruct (m_pend (t_mem st)); [exact (H1 eq_refl)|]. rewrite rev_involutive. exact (H2 eq_refl).
Qed.

Lemma calls_sim : call_sim rest (S k) (run_call E again_stmt again_call).
Proof.
  intros ps body args clo st codes entry caller want Hc Hop Hob Hat Hl.
  unfold run_call. destruct (alloc (t_mem st) (OMap (new_map (-1)))) as [loc mm].
  change (mkvs mm codes (mkfr entry (rev args) loc (Some clo) want) (caller :: rest)) with
    (st_at (put_mem st mm) codes entry (rev args) (mksc loc (Some clo)) want (caller :: rest)).
  rewrite <- (app_nil_r (rev args)). unfold func_at, body_code in Hat. cut_code.
  assert (Hret : forall (g : sig) st2 s2, post_of (caller :: rest) false 0 (mksc loc (Some clo)) want (entry + size_params ps + size_stmt body + pop_size body) 0 (g, st2) s2 ->
    sim (S k) (do (rets, st1) <- body_results g [] st2; do vs <- results want rets; OOk (vs, st1)) s2
      (fun r s' => exists codes', crel (snd r) codes' /\
         s' = with_stack (mkvs (t_mem (snd r)) codes' caller rest) (rev (fst r) ++ f_stack caller))).
  { intros g st2 s2 (codes2 & Hc2 & Hg). cbn [fst snd] in *. unfold body_results.
    assert (Hfin : forall pc n vs, here pc (OP_RETURN, [PInt n]) ->
      sim (S k) (do (rets, st1) <- (if m_pend (t_mem st2) then OErr else OOk (vs, st2)); do vs0 <- results want rets; OOk (vs0, st1))
        (st_at st2 codes2 pc (rev vs) (mksc loc (Some clo)) want (caller :: rest))
        (fun r s' => exists codes', crel (snd r) codes' /\
         s' = with_stack (mkvs (t_mem (snd r)) codes' caller rest) (rev (fst r) ++ f_stack caller))).
    { intros pc n vs Hh. eapply finish_sim; [exact Hh| |].
      - intros ->. reflexivity.
      - intros ->. cbn [obind]. apply after_lift; [answer|]. intros rs _. apply after_pushes. apply sim_ret. exists codes2. cbn [fst snd]. split; [exact Hc2|reflexivity]. }
    destruct g as [| |vs].
    - destruct Hg as (stk & Hl2 & ->). destruct stk; [|cbn [length] in Hl2; lia]. apply (Hfin _ 0 []). assumption.
    - destruct Hg as [Hg _]. discriminate.
    - destruct Hg as (pc & n & Hh & ->). apply (Hfin _ n vs). exact Hh. }
  assert (Eo : forall o : out sst, 
    (do (rets, st1) <- (do st1 <- o; do (g, st2) <- run_stmt E again_stmt again_call body (mksc loc (Some clo)) st1; body_results g [] st2);
     do vs <- results want rets; OOk (vs, st1)) =
    (do st1 <- o; do (g, st2) <- run_stmt E again_stmt again_call body (mksc loc (Some clo)) st1;
     do (rets, st1) <- body_results g [] st2; do vs <- results want rets; OOk (vs, st1))).
  { intros [st1| | | |]; cbn [obind]; try reflexivity. destruct (run_stmt _ _ _ _ _ _) as [[g st2]| | | |]; reflexivity. }
  rewrite Eo. clear Eo.
  eapply sim_bind; [eapply (bind_sim k again_call (caller :: rest) Hdeep (Hcall caller) ps args 0); [assumption|eassumption|exact Hc|exact Hl]|].
  intros st1 s1 (codes1 & Hc1 & ->).
  eapply sim_bind; [eapply (popped_sim k again_call (caller :: rest) Hdeep (Hcall caller) _ body false 0); [apply (proj1 (stmts_sim k again_stmt again_call (caller :: rest) Hdeep (Hcall caller) (Hagain caller)))|assumption|eassumption|eassumption|discriminate|exact Hc1]|].
  intros [g st2] s2 Hp. apply Hret. exact Hp.
Qed.

End Calls.

(** * All levels of fuel *)
Lemma levels_none n : bounded = false -> forall rest,
  (forall s, stmt_claim rest n (run_stmt_n E n) s) /\ call_sim rest n (run_call_n E n).
Proof.
  intros Hb. assert (Hno : forall (P : Prop), bounded = true -> P) by (rewrite Hb; discriminate).
  induction n as [|n IH]; intros rest.
  - split.
    + intros s b brk sc st codes pos want _ _ _ _. right. right. cbn. eauto.
    + intros ps body args clo st codes entry caller want _ _ _ _ _. right. right. cbn. eauto.
  - split.
    + intros s. refine (proj1 (stmts_sim n (run_stmt_n E n) (run_call_n E n) rest _ (fun _ => proj2 (IH rest)) (proj1 (IH rest))) s). intros B. exact (Hno _ B).
    + apply (calls_sim n (run_stmt_n E n) (run_call_n E n) rest); [intros B; exact (Hno _ B)|intros caller _; apply IH|intros caller; apply IH].
Qed.

(** With so many frames, so many more calls are possible. *)
Definition leaves (d : option nat) (rest : list vframe) : Prop :=
  match d with
  | Some d => Z.of_nat (S (length rest)) + Z.of_nat d = FrameModel.MAX_FRAMES
  | None => bounded = false
  end.

Lemma deep_loop n d rest : leaves d rest -> bounded = true -> FrameModel.MAX_FRAMES <= Z.of_nat (S (length rest)) ->
  forall ps body args clo st, run_call_d E n d ps body args clo st = OLoop.
Proof.
  destruct d as [d|]; unfold leaves; intros H B G ps body args clo st; [|rewrite B in H; discriminate].
  assert (d = O) by lia. subst d. destruct n; reflexivity.
Qed.

Lemma leaves_pred d rest caller : leaves d rest -> d <> Some O -> leaves (option_map pred d) (caller :: rest).
Proof. destruct d as [[|d]|]; cbn [leaves option_map pred length]; intros H N; [congruence|lia|exact H]. Qed.

Lemma levels_d n : forall d rest, leaves d rest ->
  (forall s, stmt_claim rest n (run_stmt_d E n d) s) /\ (d <> Some O -> call_sim rest n (run_call_d E n d)).
Proof.
  induction n as [|n IH]; intros d rest Hd.
  - split.
    + intros s b brk sc st codes pos want _ _ _ _. right. right. cbn. eauto.
    + intros N ps body args clo st codes entry caller want _ _ _ _ _. destruct d as [[|d]|]; [congruence|right; right; cbn; eauto..].
  - assert (Hcs : forall d rest, leaves d rest -> Z.of_nat (S (length rest)) < FrameModel.MAX_FRAMES -> call_sim rest n (run_call_d E n d)).
    { intros d' rest' Hd' L. apply IH; [exact Hd'|]. intros ->. cbn [leaves] in Hd'. lia. }
    split.
    + intros s. exact (proj1 (stmts_sim n (run_stmt_d E n d) (run_call_d E n d) rest (deep_loop n d rest Hd) (Hcs d rest Hd) (proj1 (IH d rest Hd))) s).
    + intros N. assert (Ec : forall caller, leaves (option_map pred d) (caller :: rest)) by (intros caller; apply leaves_pred; assumption).
      assert (Hsim : call_sim rest (S n) (run_call E (run_stmt_d E n (option_map pred d)) (run_call_d E n (option_map pred d)))).
      { apply calls_sim.
        - intros B G. exact (deep_loop n (option_map pred d) (mkfr 0 [] VNone None 0 :: rest) (Ec _) B G).
        - intros caller. exact (Hcs _ _ (Ec caller)).
        - intros caller. exact (proj1 (IH _ _ (Ec caller))). }
      destruct d as [[|d]|]; [congruence|exact Hsim|exact Hsim].
Qed.

End Sim.

(** * Programs *)
Definition outcome {A} (E : env) (cap : Z) (x : executable) (bounded : bool) (n : nat) (m : mem) (o : out (A * sst)) (done : A -> mem -> sres) : Prop :=
  match o with
  | OOk (rets, st) => exists j, steps E cap x j (vm_start m) = done rets (t_mem st)
  | OErr => exists j, steps E cap x j (vm_start m) = SErr
  | OUB => exists j, steps E cap x j (vm_start m) = SUB
  | OLoop => (exists j, steps E cap x j (vm_start m) = SLoop) \/ (bounded = true /\ exists j, steps E cap x j (vm_start m) = SLimit)
  | OFuel => (short_of_fuel E /\ exists j, steps E cap x j (vm_start m) = SLoop) \/ exists s, steps E cap x n (vm_start m) = SNext s
  end.

Lemma program_sim_with E cap root evs x m n bounded run :
  wf_stmt root -> is_expr root = false -> cg_program root = Some evs ->
  Z.of_nat (length (emitted [] evs)) < 2^31 -> data_bytes evs < 2^31 -> codegen root = Some (ROk x) ->
  ((forall i, 0 <= i -> exe_fetch x i = ROk (nth_error (comp_program root) (Z.to_nat i))) -> Z.of_nat (length (comp_program root)) < 2^31 ->
   stmt_claim E cap x (comp_program root) bounded [] n run root) ->
  limit E cap x (comp_program root) bounded (vm_start m) \/
  outcome E cap x bounded n m (let (loc, mm) := alloc m (OMap (new_map (-1))) in
    do (g, st) <- run root (mksc loc None) (mkst mm []);
    body_results g [loc] st) SDone.
Proof.
  intros Hwf Hne Hcg Hlen Hdata Hx Hrun.
  destruct (program_fetch root evs Hwf Hcg Hlen Hdata) as (x' & Hx' & Hfetch & _).
  rewrite Hx in Hx'. injection Hx' as <-.
  destruct (program_compiles root evs Hcg) as (Hok & _ & He & _).
  rewrite He, map_length in Hlen. specialize (Hrun Hfetch Hlen).
  unfold outcome, vm_start. destruct (alloc m (OMap (new_map (-1)))) as [loc mm].
  assert (Hat : code_at (comp_program root) 0 (comp_stmt 0 root 0)) by (exists [], [(OP_EXIT, [])]; auto).
  assert (Hex : here (comp_program root) (size_stmt root) (OP_EXIT, [])).
  { pose proof (csize_stmt root 0 0) as Hs. split; [lia|]. unfold comp_program.
    rewrite nth_error_app2 by lia. replace (Z.to_nat (size_stmt root) - length (comp_stmt 0 root 0))%nat with O by lia. reflexivity. }
  pose proof (Hrun false 0 (mksc loc None) (mkst mm []) [] 0 0 Hok Hat ltac:(discriminate) ltac:(constructor)) as Hsim.
  change (st_at (mkst mm []) [] 0 [] (mksc loc None) 0 []) with (mkvs mm [] (mkfr 0 [] loc None 0) []) in Hsim.
  destruct Hsim as [Hl|Hsim]; [left; exact Hl|].
  destruct (run root (mksc loc None) (mkst mm [])) as [[g st]| | | |]; cbn [obind]; [|right; exact Hsim..].
  destruct Hsim as (j & s1 & Hj & codes1 & Hc1 & Hg). cbn [fst snd] in *.
  assert (Hend : forall r, (forall s', r <> SNext s') -> step E cap x s1 = r -> steps E cap x (j + 1) (mkvs mm [] (mkfr 0 [] loc None 0) []) = r).
  { intros r Hr Hs. rewrite (steps_add E cap x), Hj. cbn [steps]. rewrite Hs. destruct r; reflexivity. }
  unfold body_results. destruct g as [| |vs].
  - destruct Hg as (stk & Hls & ->). unfold pop_size in Hls. rewrite Hne in Hls. destruct stk; [|cbn [length] in Hls; lia].
    pose proof (step_st E cap x _ Hfetch st codes1 _ [] (mksc loc None) 0 [] _ _ Hex) as Hst. cbn [exec] in Hst.
    destruct (vpush cap _ _) as [s'|] eqn:Ev.
    + assert (Es' : s' = st_at st codes1 (size_stmt root + 1) [loc] (mksc loc None) 0 []).
      { unfold vpush in Ev. destruct (_ || _); [discriminate|]. injection Ev as <-. reflexivity. }
      subst s'. unfold finish in Hst. cbn [v_mem st_at v_cur f_stack v_rest f_want v_codes rev app] in Hst.
      right. destruct (m_pend (t_mem st)).
      * exists (j + 1)%nat. apply Hend; [discriminate|exact Hst].
      * exists (j + 1)%nat. apply Hend; [discriminate|exact Hst].
    + left. exists j, (st_at st codes1 (size_stmt root) [] (mksc loc None) 0 []). split; [exact Hj|]. split; [exact Hst|].
      eapply not_bad; [exact Hex|discriminate].
  - destruct Hg. discriminate.
  - destruct Hg as (pc & q & Hh & ->).
    pose proof (step_st E cap x _ Hfetch st codes1 _ (rev vs) (mksc loc None) 0 [] _ _ Hh) as Hst. cbn [exec] in Hst.
    unfold finish in Hst. cbn [v_mem st_at v_cur f_stack v_rest f_want v_codes] in Hst. rewrite rev_involutive in Hst.
    right. destruct (m_pend (t_mem st)); exists (j + 1)%nat; (apply Hend; [discriminate|exact Hst]).
Qed.

Theorem program_sim E cap root evs x m n : wf_stmt root -> is_expr root = false -> cg_program root = Some evs ->
  Z.of_nat (length (emitted [] evs)) < 2^31 -> data_bytes evs < 2^31 -> codegen root = Some (ROk x) ->
  (exists j, steps E cap x j (vm_start m) = SLimit) \/
  match run_program E n root m with
  | OOk (rets, st) => exists j, steps E cap x j (vm_start m) = SDone rets (t_mem st)
  | OErr => exists j, steps E cap x j (vm_start m) = SErr
  | OUB => exists j, steps E cap x j (vm_start m) = SUB
  | OLoop => exists j, steps E cap x j (vm_start m) = SLoop
  | OFuel => (short_of_fuel E /\ exists j, steps E cap x j (vm_start m) = SLoop) \/ exists s, steps E cap x n (vm_start m) = SNext s
  end.
Proof.
  intros Hwf Hne Hcg Hlen Hdata Hx.
  destruct (program_sim_with E cap root evs x m n false (run_stmt_n E n) Hwf Hne Hcg Hlen Hdata Hx) as [(j & t & Hj & Ht & _)|H].
  - intros Hfetch Hl. exact (proj1 (levels_none E cap x (comp_program root) Hfetch Hl false ltac:(discriminate) n eq_refl []) root).
  - left. exists (j + 1)%nat. rewrite (steps_add E cap x), Hj. cbn [steps]. rewrite Ht. reflexivity.
  - right. unfold run_program. unfold outcome in H. destruct (alloc m _) as [loc mm].
    destruct (do (g, st) <- run_stmt_n E n root (mksc loc None) (mkst mm []); body_results g [loc] st) as [[rets st]| | | |]; try exact H.
    destruct H as [H|[H _]]; [exact H|discriminate].
Qed.

(** The same with the sixteen frames of the machine counted. *)
Definition run_program_d (E : env) (n : nat) (d : option nat) (root : stmt) (m : mem) : out (list value * sst) :=
  let (loc, mm) := alloc m (OMap (new_map (-1))) in
  do (g, st) <- run_stmt_d E n d root (mksc loc None) (mkst mm []);
  body_results g [loc] st.

Theorem program_sim_d E cap root evs x m n : wf_stmt root -> is_expr root = false -> cg_program root = Some evs ->
  Z.of_nat (length (emitted [] evs)) < 2^31 -> data_bytes evs < 2^31 -> codegen root = Some (ROk x) ->
  (forall id args m, e_native E id args m = OLoop) ->
  limit E cap x (comp_program root) true (vm_start m) \/
  outcome E cap x true n m (run_program_d E n (Some 15%nat) root m) SDone.
Proof.
  intros Hwf Hne Hcg Hlen Hdata Hx Hnat.
  apply (program_sim_with E cap root evs x m n true (run_stmt_d E n (Some 15%nat)) Hwf Hne Hcg Hlen Hdata Hx).
  intros Hfetch Hl. exact (proj1 (levels_d E cap x (comp_program root) Hfetch Hl true (fun _ => Hnat) n (Some 15%nat) [] eq_refl) root).
Qed.
