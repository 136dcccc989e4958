(** Consequences of the simulation of SimProofs.v for whole programs. *)
From Coq Require Import ZArith List Lia Bool.
From Verif Require Import Base StringModel ValueModel MapModel ListModel ExeModel ExeSpec ExeProofs ArithModel ObjModel AstModel
  CodegenModel FrameModel VmModel SrcModel CompSpec CodegenProofs CodegenProofs2 CodegenProofs3 FuelProofs SimProofs.
Import ListNotations.
Open Scope Z_scope.

(** [x] is the executable codegen makes of the tree [root]; the literals fit their C types, the root is not a bare expression
    (parse.c:440-479 makes a compound statement), and code and data are smaller than 2^31 (they are counted in C ints). *)
Definition compiled (root : stmt) (x : executable) : Prop :=
  codegen root = Some (ROk x) /\ wf_stmt root /\ is_expr root = false /\
  exists evs, cg_program root = Some evs /\ Z.of_nat (length (emitted [] evs)) < 2^31 /\ data_bytes evs < 2^31.

Section Run.
Variables (E : env) (cap : Z) (root : stmt) (x : executable).
Hypothesis Hx : compiled root x.

Lemma runs_fuel m n :
  (exists j, steps E cap x j (vm_start m) = SLimit) \/
  match run_program E n root m with
  | OOk (rets, st) => exists j, steps E cap x j (vm_start m) = SDone rets (t_mem st)
  | OErr => exists j, steps E cap x j (vm_start m) = SErr
  | OUB => exists j, steps E cap x j (vm_start m) = SUB
  | OLoop => exists j, steps E cap x j (vm_start m) = SLoop
  | OFuel => (short_of_fuel E /\ exists j, steps E cap x j (vm_start m) = SLoop) \/ exists s, steps E cap x n (vm_start m) = SNext s
  end.
Proof. destruct Hx as (H1 & H2 & H3 & evs & H4 & H5 & H6). eapply program_sim; eassumption. Qed.

Lemma runs m n :
  (exists j, steps E cap x j (vm_start m) = SLimit) \/
  match run_program E n root m with
  | OOk (rets, st) => exists j, steps E cap x j (vm_start m) = SDone rets (t_mem st)
  | OErr => exists j, steps E cap x j (vm_start m) = SErr
  | OUB => exists j, steps E cap x j (vm_start m) = SUB
  | OLoop => exists j, steps E cap x j (vm_start m) = SLoop
  | OFuel => (exists j, steps E cap x j (vm_start m) = SLoop) \/ exists s, steps E cap x n (vm_start m) = SNext s
  end.
Proof.
  destruct (runs_fuel m n) as [H|H]; [left; exact H|right]. destruct (run_program E n root m) as [[rets st]| | | |]; auto.
  destruct H as [[_ H]|H]; auto.
Qed.

(** A run has at most one end. *)
Lemma steps_end s : forall i j r r', steps E cap x i s = r -> steps E cap x j s = r' ->
  (forall t, r <> SNext t) -> (forall t, r' <> SNext t) -> r = r'.
Proof.
  assert (A : forall i d s r, steps E cap x i s = r -> (forall t, r <> SNext t) -> steps E cap x (i + d) s = r).
  { induction i as [|i IH]; intros d s0 r H Hr; cbn [steps Nat.add] in *.
    - exfalso. exact (Hr s0 (eq_sym H)).
    - destruct (step E cap x s0); auto. }
  intros i j r r' Hi Hj Hr Hr'.
  pose proof (A i j s r Hi Hr) as Hi'. pose proof (A j i s r' Hj Hr') as Hj'. rewrite Nat.add_comm in Hj'. congruence.
Qed.
Lemma steps_next_end s i j r t : steps E cap x i s = r -> (forall t, r <> SNext t) -> steps E cap x j s = SNext t -> (j < i)%nat.
Proof.
  intros Hi Hr Hj. destruct (Nat.lt_ge_cases j i) as [|Hge]; [assumption|]. exfalso.
  replace j with (i + (j - i))%nat in Hj by lia. rewrite (steps_add E cap x), Hi in Hj. destruct r; try discriminate. eapply Hr. reflexivity.
Qed.

(** What the run ends with is what direct evaluation gives. *)
Lemma run_evaluates m j r : steps E cap x j (vm_start m) = r -> (forall t, r <> SNext t) -> r <> SLimit -> r <> SLoop ->
  forall n, (j <= n)%nat ->
  match run_program E n root m with
  | OOk (rets, st) => r = SDone rets (t_mem st)
  | OErr => r = SErr
  | OUB => r = SUB
  | _ => False
  end.
Proof.
  intros Hj Hr Hl Hlp n Hn.
  assert (D : forall r', (exists i, steps E cap x i (vm_start m) = r') -> (forall t, r' <> SNext t) -> r = r').
  { intros r' [i Hi] Hr'. exact (steps_end _ j i r r' Hj Hi Hr Hr'). }
  destruct (runs m n) as [H|H].
  - exfalso. apply Hl. apply D; [exact H|discriminate].
  - destruct (run_program E n root m) as [[rets st]| | | |].
    + apply D; [exact H|discriminate].
    + apply D; [exact H|discriminate].
    + apply D; [exact H|discriminate].
    + apply Hlp. apply D; [exact H|discriminate].
    + destruct H as [H|[t H]].
      * apply Hlp. apply D; [exact H|discriminate].
      * pose proof (steps_next_end _ _ _ _ _ Hj Hr H). lia.
Qed.

Lemma never_bad m j : steps E cap x j (vm_start m) <> SBad.
Proof.
  intros H. pose proof (run_evaluates m j SBad H ltac:(discriminate) ltac:(discriminate) ltac:(discriminate) j (le_n _)) as G.
  destruct (run_program E j root m) as [[? ?]| | | |]; try discriminate; contradiction.
Qed.

Lemma targets i op ops t : exe_fetch x i = ROk (Some (op, ops)) -> 0 <= i -> In (PIdx t) ops ->
  exists op' ops', exe_fetch x t = ROk (Some (op', ops')).
Proof.
  intros Hf Hi Hin. destruct Hx as (H1 & H2 & H3 & evs & H4 & H5 & H6).
  destruct (program_fetch root evs H2 H4 H5 H6) as (x' & Hx' & Hfetch & Hall).
  rewrite H1 in Hx'. injection Hx' as <-. rewrite (Hfetch i Hi) in Hf. injection Hf as Hf.
  apply nth_error_In in Hf. rewrite Forall_forall in Hall. specialize (Hall _ Hf). unfold instr_in in Hall. cbn [snd] in Hall.
  rewrite Forall_forall in Hall. specialize (Hall _ Hin). cbn [operand_in] in Hall.
  rewrite (Hfetch t) by lia.
  destruct (nth_error (comp_program root) (Z.to_nat t)) as [[op' ops']|] eqn:En; [eauto|].
  apply nth_error_None in En. exfalso. unfold comp_program in En. rewrite app_length in En.
  pose proof (csize_stmt root 0 0) as Hs. cbn [length] in En. lia.
Qed.

End Run.
