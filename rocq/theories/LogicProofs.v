(** The code of the logical operators, instruction by instruction; calls and results. *)
From Coq Require Import ZArith List Lia Bool.
From Verif Require Import Base StringModel ValueModel MapModel ListModel ExeModel ArithModel ObjModel AstModel CodegenModel VmModel
  FrameModel SrcModel CompSpec CodegenProofs.
Import ListNotations.
Open Scope Z_scope.

(** The executable holds the instructions [c] from index [pos] on. *)
Definition has_code (x : executable) (pos : Z) (c : list instr) : Prop :=
  0 <= pos /\ pos + Z.of_nat (length c) < 2^31 /\
  forall k i, nth_error c k = Some i -> exe_fetch x (pos + Z.of_nat k) = ROk (Some i).

(** The state [s] moved to index [pc] of its frame, with the stack [st]. *)
Definition at_pc (s : vstate) (pc : Z) (st : list value) : vstate := with_pc (with_stack s st) pc.

Lemma has_app x pos a b : has_code x pos (a ++ b) -> has_code x pos a /\ has_code x (pos + Z.of_nat (length a)) b.
Proof.
  intros (H0 & H1 & H). rewrite app_length in H1. split; (split; [lia|split; [lia|]]); intros k i Hk.
  - apply H. rewrite nth_error_app1; [exact Hk|]. apply nth_error_Some. congruence.
  - replace (pos + Z.of_nat (length a) + Z.of_nat k) with (pos + Z.of_nat (length a + k)) by lia.
    apply H. rewrite nth_error_app2 by lia. replace (length a + k - length a)%nat with k by lia. exact Hk.
Qed.

Lemma has_cons x pos i c : has_code x pos (i :: c) -> exe_fetch x pos = ROk (Some i) /\ has_code x (pos + 1) c.
Proof.
  intros H. pose proof H as (_ & _ & G). specialize (G O i eq_refl). replace (pos + Z.of_nat 0) with pos in G by lia.
  change (i :: c) with ([i] ++ c) in H. apply has_app in H. destruct H as [_ H]. cbn [length] in H. split; [exact G|exact H].
Qed.

Section Logic.
Variables (E : env) (cap : Z) (x : executable).

Lemma step_fetch s op ops : exe_fetch x (f_pc (v_cur s)) = ROk (Some (op, ops)) ->
  step E cap x s = exec E cap (with_pc s (f_pc (v_cur s) + 1)) op ops.
Proof. intros H. unfold step. rewrite H. reflexivity. Qed.

Lemma exec_jump_not' s t : exec E cap s OP_JUMPIFNOTANDPOP [PIdx t] =
  match f_stack (v_cur s) with
  | VBool b :: r => SNext (if b then with_stack s r else with_pc (with_stack s r) (wrap32 t))
  | _ :: _ => SErr
  | [] => SBad
  end.
Proof. destruct s as [m c [pc [|[|[]|?|?|?|?| |?] st] l cl w] r]; reflexivity. Qed.

Lemma exec_jump_if' s t : exec E cap s OP_JUMPIFANDPOP [PIdx t] =
  match f_stack (v_cur s) with
  | VBool b :: r => SNext (if b then with_pc (with_stack s r) (wrap32 t) else with_stack s r)
  | _ :: _ => SErr
  | [] => SBad
  end.
Proof. destruct s as [m c [pc [|[|[]|?|?|?|?| |?] st] l cl w] r]; reflexivity. Qed.

Lemma wrap32_idx z : 0 <= z < 2^31 -> wrap32 z = z.
Proof. intros. apply wrap32_id. unfold in_int. lia. Qed.

(** The state is within the interpreter's limits. *)
Definition within (s : vstate) : Prop := Z.of_nat (length (f_stack (v_cur s))) <= MAX_FRAME_STACK /\ used s <= cap.

Lemma push_back s v st w pc : within s -> f_stack (v_cur s) = v :: st ->
  npush cap (at_pc s pc st) w = SNext (at_pc s pc (w :: st)).
Proof.
  intros [H1 H2] Hs. unfold npush, vpush. rewrite Hs in H1. cbn [length] in H1.
  unfold used, at_pc in *. cbn [fold_right with_pc with_stack v_cur v_rest f_stack] in *. rewrite Hs in H2. cbn [length] in H2.
  destruct (Z.leb_spec MAX_FRAME_STACK (Z.of_nat (length st))); [lia|].
  match goal with |- context [cap <=? ?u] => destruct (Z.leb_spec cap u) end; [lia|]. reflexivity.
Qed.

(** The tail of both operators: conditional jump, push, jump over, push. *)
Lemma tail_code (keep : bool) q st v s :
  has_code x q [(if keep then OP_JUMPIFNOTANDPOP else OP_JUMPIFANDPOP, [PIdx (q + 3)]); (if keep then OP_PUSHTRU else OP_PUSHFLS, []);
                (OP_JUMP, [PIdx (q + 4)]); (if keep then OP_PUSHFLS else OP_PUSHTRU, [])] ->
  f_pc (v_cur s) = q -> f_stack (v_cur s) = v :: st -> within s ->
  match v with
  | VBool r => exists n, steps E cap x n s = SNext (at_pc s (q + 4) (VBool r :: st))
  | _ => step E cap x s = SErr
  end.
Proof.
  intros H Hpc Hs Hw. pose proof H as (R1 & R2 & _). cbn [length] in R2.
  apply has_cons in H. destruct H as [F0 H]. apply has_cons in H. destruct H as [F1 H]. apply has_cons in H. destruct H as [F2 H].
  apply has_cons in H. destruct H as [F3 _]. rewrite <- Hpc in F0.
  assert (S0 : step E cap x s = match v with
    | VBool r => SNext (at_pc s (if Bool.eqb r keep then q + 1 else q + 3) st) | _ => SErr end).
  { rewrite (step_fetch _ _ _ F0). destruct keep.
    - rewrite exec_jump_not'. cbn [with_pc v_cur f_stack]. rewrite Hs. destruct v; try reflexivity.
      destruct b; cbn [Bool.eqb]; rewrite ?wrap32_idx by lia; rewrite Hpc; reflexivity.
    - rewrite exec_jump_if'. cbn [with_pc v_cur f_stack]. rewrite Hs. destruct v; try reflexivity.
      destruct b; cbn [Bool.eqb]; rewrite ?wrap32_idx by lia; rewrite Hpc; reflexivity. }
  destruct v as [|r| | | | | |]; try exact S0.
  destruct (Bool.eqb r keep) eqn:Er.
  - apply Bool.eqb_prop in Er. subst r. exists 3%nat. cbn [steps]. rewrite S0.
    rewrite (step_fetch (at_pc s (q + 1) st) _ _ F1).
    assert (S1 : exec E cap (with_pc (at_pc s (q + 1) st) (q + 1 + 1)) (if keep then OP_PUSHTRU else OP_PUSHFLS) [] =
      SNext (at_pc s (q + 2) (VBool keep :: st))).
    { replace (q + 1 + 1) with (q + 2) by lia. rewrite <- (push_back s (VBool keep) st (VBool keep) (q + 2) Hw Hs). destruct keep; reflexivity. }
    cbn [at_pc with_pc with_stack v_cur f_pc] in S1 |- *. rewrite S1.
    replace (q + 1 + 1) with (q + 2) in F2 by lia.
    match goal with |- match step E cap x ?t with _ => _ end = _ => rewrite (step_fetch t _ _ F2) end.
    unfold exec. rewrite wrap32_idx by lia. reflexivity.
  - assert (r = negb keep) by (destruct r, keep; try discriminate; reflexivity). subst r. exists 2%nat. cbn [steps]. rewrite S0.
    replace (q + 1 + 1 + 1) with (q + 3) in F3 by lia. rewrite (step_fetch (at_pc s (q + 3) st) _ _ F3).
    assert (S1 : exec E cap (with_pc (at_pc s (q + 3) st) (q + 3 + 1)) (if keep then OP_PUSHFLS else OP_PUSHTRU) [] =
      SNext (at_pc s (q + 4) (VBool (negb keep) :: st))).
    { replace (q + 3 + 1) with (q + 4) by lia. rewrite <- (push_back s (VBool (negb keep)) st (VBool (negb keep)) (q + 4) Hw Hs). destruct keep; reflexivity. }
    cbn [at_pc with_pc with_stack v_cur f_pc] in S1 |- *. rewrite S1. reflexivity.
Qed.

(** The operator code as a whole. [keep] is the value of the left operand that does not decide: true for and, false for or. *)
Lemma logic_code (keep : bool) a b pos :
  let e := if keep then EAnd a b else EOr a b in
  let qa := pos + size_expr MVal a in
  let pb := qa + 1 in
  let qb := pb + size_expr MVal b in
  let fin := pos + size_expr MVal e in
  has_code x pos (comp_expr MVal e pos) ->
  has_code x pos (comp_expr MVal a pos) /\ has_code x pb (comp_expr MVal b pb) /\
  (forall s v st, f_pc (v_cur s) = qa -> f_stack (v_cur s) = v :: st -> within s ->
     match v with
     | VBool r =>
       if Bool.eqb r keep then step E cap x s = SNext (at_pc s pb st)
       else exists mid, step E cap x s = SNext (at_pc s mid st) /\ qb <= mid < fin /\
              step E cap x (at_pc s mid st) = SNext (at_pc s fin (VBool r :: st))
     | _ => step E cap x s = SErr
     end) /\
  (forall s v st, f_pc (v_cur s) = qb -> f_stack (v_cur s) = v :: st -> within s ->
     match v with
     | VBool r => exists n, steps E cap x n s = SNext (at_pc s fin (VBool r :: st))
     | _ => step E cap x s = SErr
     end).
Proof.
  intros e qa pb qb fin H.
  assert (Efin : fin = qb + 4) by (unfold fin, qb, pb, qa, e; destruct keep; cbn [size_expr]; lia).
  assert (H' : has_code x pos (comp_expr MVal a pos ++ [(if keep then OP_JUMPIFNOTANDPOP else OP_JUMPIFANDPOP, [PIdx (qb + 3)])] ++
    comp_expr MVal b pb ++ [(if keep then OP_JUMPIFNOTANDPOP else OP_JUMPIFANDPOP, [PIdx (qb + 3)]); (if keep then OP_PUSHTRU else OP_PUSHFLS, []);
                (OP_JUMP, [PIdx (qb + 4)]); (if keep then OP_PUSHFLS else OP_PUSHTRU, [])])).
  { unfold e in H. destruct keep; cbn [comp_expr] in H; fold qa in H; fold pb in H; fold qb in H;
      replace (qb + 3 + 1) with (qb + 4) in H by lia; exact H. }
  clear H. apply has_app in H'. destruct H' as [Ha H]. rewrite (proj1 comp_size) in H. fold qa in H.
  apply has_app in H. destruct H as [Hj H]. cbn [length] in H. change (Z.of_nat 1) with 1 in H. fold pb in H.
  apply has_app in H. destruct H as [Hb H]. rewrite (proj1 comp_size) in H. fold qb in H.
  split; [exact Ha|]. split; [exact Hb|]. split.
  - intros s v st Hpc Hs Hw. pose proof H as (R1 & R2 & _). cbn [length] in R2.
    apply has_cons in Hj. destruct Hj as [F0 _]. rewrite <- Hpc in F0.
    assert (S0 : step E cap x s = match v with
      | VBool r => SNext (at_pc s (if Bool.eqb r keep then pb else qb + 3) st) | _ => SErr end).
    { rewrite (step_fetch _ _ _ F0). destruct keep.
      - rewrite exec_jump_not'. cbn [with_pc v_cur f_stack]. rewrite Hs. destruct v; try reflexivity.
        destruct b0; cbn [Bool.eqb]; rewrite ?wrap32_idx by lia; rewrite Hpc; reflexivity.
      - rewrite exec_jump_if'. cbn [with_pc v_cur f_stack]. rewrite Hs. destruct v; try reflexivity.
        destruct b0; cbn [Bool.eqb]; rewrite ?wrap32_idx by lia; rewrite Hpc; reflexivity. }
    destruct v as [|r| | | | | |]; try exact S0. destruct (Bool.eqb r keep) eqn:Er; [exact S0|].
    exists (qb + 3). split; [exact S0|]. split; [lia|].
    assert (r = negb keep) by (destruct r, keep; try discriminate; reflexivity). subst r.
    apply has_cons in H. destruct H as [_ H]. apply has_cons in H. destruct H as [_ H]. apply has_cons in H. destruct H as [_ H].
    apply has_cons in H. destruct H as [F3 _]. replace (qb + 1 + 1 + 1) with (qb + 3) in F3 by lia.
    rewrite (step_fetch (at_pc s (qb + 3) st) _ _ F3). rewrite Efin.
    rewrite <- (push_back s _ st (VBool (negb keep)) (qb + 4) Hw Hs).
    cbn [at_pc with_pc with_stack v_cur f_pc]. replace (qb + 3 + 1) with (qb + 4) by lia. destruct keep; reflexivity.
  - intros s v st Hpc Hs Hw. rewrite Efin. apply (tail_code keep qb st v s H Hpc Hs Hw).
Qed.

End Logic.
