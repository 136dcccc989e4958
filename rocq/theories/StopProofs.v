(** Interrupted programs. *)
From Coq Require Import ZArith String List Bool Lia Arith.
From Verif Require Import Base StringModel ExeModel ValueModel ObjModel VmModel LimitSpec LimitProofs SourceModel ShowSpec AsmModel TraceModel TraceSpec TraceProofs StopModel StopSpec.
Import ListNotations.
Open Scope list_scope.
Open Scope Z_scope.
Notation ln := List.length.

Lemma pushes_rest size vs s s' : vpushes size s vs = Some s' -> v_rest s' = v_rest s.
Proof. intros H. apply vpushes_some in H. destruct H as [-> _]. reflexivity. Qed.
Lemma finish_rest size s s' : finish size s = SNext s' -> exists f, v_rest s = f :: v_rest s'.
Proof.
  unfold finish. destruct (m_pend _); [discriminate|]. destruct (v_rest s) as [|c r]; [discriminate|]. intros H. apply lift_next in H.
  destruct H as (vs & _ & H). destruct (vpushes _ _ vs) eqn:V; [|discriminate]. injection H as <-. apply pushes_rest in V. cbn in V. exists c. now rewrite V.
Qed.
Lemma call_rest E size s callee args want s' : do_call E size s callee args want = SNext s' -> v_rest s' = v_rest s \/ exists f, v_rest s' = f :: v_rest s.
Proof.
  intros H. unfold do_call in H. destruct callee; try discriminate. destruct (nth_error _ l) as [[| | |c clo|id argc| | | |]|]; try discriminate.
  - destruct (nth_error _ c) as [[entry argc]|]; [|discriminate]. destruct (_ <=? Z.of_nat _); [discriminate|]. cbn [alloc] in H.
    destruct (vpushes _ _ _) as [s1|] eqn:V; [|discriminate]. injection H as <-. apply pushes_rest in V. right. eexists. exact V.
  - destruct (_ <=? Z.of_nat _); [discriminate|]. apply lift_next in H. destruct H as (r & _ & H). apply lift_next in H. destruct H as (vs & _ & H).
    destruct (vpushes _ _ vs) as [s1|] eqn:V; [|discriminate]. injection H as <-. apply pushes_rest in V. left. exact V.
Qed.

Lemma exec_rest E size s op ops s' : exec E size s op ops = SNext s' ->
  v_rest s' = v_rest s \/ (exists f, v_rest s' = f :: v_rest s) \/ exists f, v_rest s = f :: v_rest s'.
Proof.
  intros H. destruct (moves op ops) as [[t g]|] eqn:Ef.
  - destruct (exec_effect _ _ _ _ _ _ _ _ Ef H) as (T & R & _ & Rest & _). now left.
  - unfold exec in H. cbv zeta in H. unfold moves in Ef. destruct op; try discriminate;
      repeat match goal with H : match ?x with _ => _ end = SNext _ |- _ => destruct x eqn:?; try discriminate end.
    + apply call_rest in H. cbn [with_stack v_rest] in H. tauto.
    + apply finish_rest in H. tauto.
    + apply finish_rest in H. unfold vpush in Heqo. destruct (_ || _); [discriminate|]. injection Heqo as <-. cbn [with_stack v_rest] in H. tauto.
Qed.
Lemma step_rest E size x s s' : step E size x s = SNext s' ->
  v_rest s' = v_rest s \/ (exists f, v_rest s' = f :: v_rest s) \/ exists f, v_rest s = f :: v_rest s'.
Proof.
  unfold step. destruct (exe_fetch x _) as [[[op ops]|]| |]; try discriminate. intros H. apply exec_rest in H. exact H.
Qed.

Section Flat.
Variable w : watch.
Variable E : env.
Variable size : Z.
Variable x : executable.

(** The loop without calling itself, until fewer than [d] frames are left. *)
Fixpoint flat (fuel d : nat) (flag : bool) (n : nat) (s : vstate) : ended :=
  match fuel with
  | O => EFuel
  | S f =>
    match step E size x s with
    | SNext s' =>
      if (ln (v_rest s') <? d)%nat then EBack flag n s' else
      let (stop, flag) := check w flag n s' in if stop then EAbort n flag s' else flat f d flag (S n) s'
    | r => EOut r flag
    end
  end.

Definition resume (f d : nat) (flag : bool) (n : nat) (s : vstate) : ended :=
  let (stop, flag) := check w flag n s in if stop then EAbort n flag s else flat f d flag (S n) s.

Lemma flat_back f : forall d flag n s flag' n' s', (d <= ln (v_rest s))%nat -> flat f d flag n s = EBack flag' n' s' -> S (ln (v_rest s')) = d.
Proof.
  induction f as [|f IH]; intros d flag n s flag' n' s' L H; [discriminate|]. cbn [flat] in H. destruct (step E size x s) as [t| | | | | |] eqn:St; try discriminate.
  destruct (ln (v_rest t) <? d)%nat eqn:D.
  - injection H as <- <- <-. apply Nat.ltb_lt in D. apply step_rest in St. destruct St as [R|[[g R]|[g R]]]; apply (f_equal (@ln _)) in R; cbn [ln] in R; lia.
  - apply Nat.ltb_ge in D. destruct (check w flag n t) as [[] fl]; [discriminate|]. exact (IH _ _ _ _ _ _ _ D H).
Qed.

Lemma flat_split f : forall d flag n s r, (S d <= ln (v_rest s))%nat -> flat f d flag n s = r -> r <> EFuel ->
  (flat f (S d) flag n s = r /\ forall a b c, r <> EBack a b c) \/
  exists f' flag' n' s', (f' < f)%nat /\ flat f (S d) flag n s = EBack flag' n' s' /\ ln (v_rest s') = d /\ resume f' d flag' n' s' = r.
Proof.
  induction f as [|f IH]; intros d flag n s r L H N; [cbn in H; congruence|]. cbn [flat] in *. destruct (step E size x s) as [t| | | | | |] eqn:St;
    try (left; split; [exact H|intros a b c; rewrite <- H; discriminate]).
  assert (R : (d <= ln (v_rest t))%nat) by (apply step_rest in St; destruct St as [R|[[g R]|[g R]]]; apply (f_equal (@ln _)) in R; cbn [ln] in R; lia).
  destruct (ln (v_rest t) <? d)%nat eqn:D; [apply Nat.ltb_lt in D; lia|]. destruct (ln (v_rest t) <? S d)%nat eqn:D'.
  - right. apply Nat.ltb_lt in D'. exists f, flag, n, t. split; [lia|]. split; [reflexivity|]. split; [lia|]. exact H.
  - apply Nat.ltb_ge in D'. destruct (check w flag n t) as [[] fl]; [left; split; [exact H|intros a b c; rewrite <- H; discriminate]|].
    destruct (IH _ _ _ _ _ D' H N) as [A|(f' & flag' & n' & s' & A & B)]; [left; exact A|right; exists f', flag', n', s'; split; [lia|exact B]].
Qed.

Lemma flat_more f : forall f' d flag n s r, flat f d flag n s = r -> r <> EFuel -> (f <= f')%nat -> flat f' d flag n s = r.
Proof.
  induction f as [|f IH]; intros f' d flag n s r H N L; [cbn in H; congruence|]. destruct f' as [|f']; [lia|]. cbn [flat] in *.
  destruct (step E size x s) as [t| | | | | |] eqn:St; try exact H. destruct (_ <? d)%nat; [exact H|]. destruct (check w flag n t) as [[] fl]; [exact H|].
  apply IH; [exact H|exact N|lia].
Qed.

Lemma loop_flat f : forall flag n s r, flat f (ln (v_rest s)) flag n s = r -> r <> EFuel -> loop w E size x f flag n s = r.
Proof.
  induction f as [f IH] using lt_wf_ind. intros flag n s r H N. destruct f as [|f]; [cbn in H; congruence|]. cbn [flat loop] in *.
  assert (G : forall f', (f' <= f)%nat -> forall fl k t, resume f' (ln (v_rest t)) fl k t = r ->
    (let (stop, flag0) := check w fl k t in if stop then EAbort k flag0 t else loop w E size x f flag0 (S k) t) = r).
  { intros f' Lf fl k t R. unfold resume in R. destruct (check w fl k t) as [[] fl']; [exact R|]. apply IH; [lia| |exact N]. eapply flat_more; [exact R|exact N|exact Lf]. }
  destruct (step E size x s) as [t| | | | | |] eqn:St; try exact H. unfold deeper. pose proof (step_rest _ _ _ _ _ St) as R.
  destruct R as [R|[[g R]|[g R]]].
  - rewrite R in *. rewrite Nat.ltb_irrefl in *. apply (G f (le_n _)). unfold resume. rewrite R. exact H.
  - apply (f_equal (@ln _)) in R. cbn [ln] in R. replace (ln (v_rest s) <? ln (v_rest t))%nat with true by (symmetry; apply Nat.ltb_lt; lia).
    replace (ln (v_rest t) <? ln (v_rest s))%nat with false in H by (symmetry; apply Nat.ltb_ge; lia).
    destruct (check w flag n t) as [[] fl]; [rewrite <- H; reflexivity|].
    destruct (flat_split f _ _ _ _ _ (eq_ind_r (fun k => (k <= _)%nat) (le_n _) (eq_sym R)) H N) as [[A B]|(f' & fl' & n' & s' & Lf & A & Ds & B)].
    + rewrite (IH f (Nat.lt_succ_diag_r _) fl (S n) t r); [|rewrite R; exact A|exact N]. destruct r; try reflexivity. exfalso. eapply B. reflexivity.
    + rewrite (IH f (Nat.lt_succ_diag_r _) fl (S n) t (EBack fl' n' s')); [|rewrite R; exact A|discriminate].
      apply (G f' ltac:(lia)). rewrite Ds. exact B.
  - apply (f_equal (@ln _)) in R. cbn [ln] in R. replace (ln (v_rest s) <? ln (v_rest t))%nat with false by (symmetry; apply Nat.ltb_ge; lia).
    replace (ln (v_rest t) <? ln (v_rest s))%nat with true in * by (symmetry; apply Nat.ltb_lt; lia). exact H.
Qed.

Lemma flat_on f1 : forall f2 d flag n s flag' n' s' r, flat f1 (S d) flag n s = EBack flag' n' s' -> (S d <= ln (v_rest s))%nat -> resume f2 d flag' n' s' = r -> r <> EFuel ->
  flat (f1 + f2) d flag n s = r.
Proof.
  induction f1 as [|f IH]; intros f2 d flag n s flag' n' s' r H L R N; [discriminate|]. cbn [flat Nat.add] in *.
  destruct (step E size x s) as [t| | | | | |] eqn:St; try discriminate.
  assert (D0 : (d <= ln (v_rest t))%nat) by (apply step_rest in St; destruct St as [Q|[[g Q]|[g Q]]]; apply (f_equal (@ln _)) in Q; cbn [ln] in Q; lia).
  destruct (ln (v_rest t) <? d)%nat eqn:D; [apply Nat.ltb_lt in D; lia|]. destruct (ln (v_rest t) <? S d)%nat eqn:D'.
  - injection H as <- <- <-. unfold resume in R. destruct (check w flag n t) as [[] fl]; [exact R|]. eapply flat_more; [exact R|exact N|lia].
  - apply Nat.ltb_ge in D'. destruct (check w flag n t) as [[] fl]; [discriminate|]. eapply IH; eassumption.
Qed.
Lemma flat_out f : forall d flag n s r, flat f (S d) flag n s = r -> (S d <= ln (v_rest s))%nat -> r <> EFuel -> (forall a b c, r <> EBack a b c) -> flat f d flag n s = r.
Proof.
  induction f as [|f IH]; intros d flag n s r H L N B; [cbn in H; congruence|]. cbn [flat] in *.
  destruct (step E size x s) as [t| | | | | |] eqn:St; try exact H.
  destruct (ln (v_rest t) <? S d)%nat eqn:D'; [subst r; exfalso; eapply B; reflexivity|]. apply Nat.ltb_ge in D'.
  destruct (ln (v_rest t) <? d)%nat eqn:D; [apply Nat.ltb_lt in D; lia|]. destruct (check w flag n t) as [[] fl]; [exact H|]. apply IH; assumption.
Qed.

Lemma flat_loop f : forall flag n s r, loop w E size x f flag n s = r -> r <> EFuel -> exists f', flat f' (ln (v_rest s)) flag n s = r.
Proof.
  induction f as [|f IH]; intros flag n s r H N; [cbn in H; congruence|]. cbn [loop] in H.
  assert (G : forall fl k t q, (let (stop, flag0) := check w fl k t in if stop then EAbort k flag0 t else loop w E size x f flag0 (S k) t) = q -> q <> EFuel ->
    exists f', resume f' (ln (v_rest t)) fl k t = q).
  { intros fl k t q Q Nq. unfold resume. destruct (check w fl k t) as [[] fl']; [exists O; exact Q|]. exact (IH _ _ _ _ Q Nq). }
  destruct (step E size x s) as [t| | | | | |] eqn:St; try (exists 1%nat; cbn [flat]; rewrite St; exact H).
  unfold deeper in H. pose proof (step_rest _ _ _ _ _ St) as R. destruct R as [R|[[g R]|[g R]]].
  - rewrite R in H. rewrite Nat.ltb_irrefl in H. destruct (G _ _ _ _ H N) as (f' & F). exists (S f'). cbn [flat]. rewrite St, R, Nat.ltb_irrefl.
    unfold resume in F. rewrite R in F. exact F.
  - apply (f_equal (@ln _)) in R. cbn [ln] in R. replace (ln (v_rest s) <? ln (v_rest t))%nat with true in H by (symmetry; apply Nat.ltb_lt; lia).
    destruct (check w flag n t) as [[] fl] eqn:Ck.
    { exists 1%nat. cbn [flat]. rewrite St, Ck. destruct (ln (v_rest t) <? ln (v_rest s))%nat eqn:D; [apply Nat.ltb_lt in D; lia|]. exact H. }
    destruct (loop w E size x f fl (S n) t) as [q a|a b c|a b c|] eqn:Lp.
    4: congruence.
    3: { destruct (IH _ _ _ _ Lp ltac:(discriminate)) as (f1 & F1). destruct (G _ _ _ _ H N) as (f2 & F2). exists (S (f1 + f2)). cbn [flat]. rewrite St, Ck.
      destruct (ln (v_rest t) <? ln (v_rest s))%nat eqn:D; [apply Nat.ltb_lt in D; lia|]. rewrite R in F1. pose proof (flat_back _ _ _ _ _ _ _ _ (Nat.eq_le_incl _ _ (eq_sym R)) F1) as Ds.
      injection Ds as Ds. rewrite Ds in F2. eapply flat_on; [exact F1|lia|exact F2|exact N]. }
    all: destruct (IH _ _ _ _ Lp ltac:(discriminate)) as (f1 & F1); exists (S f1); cbn [flat]; rewrite St, Ck;
      destruct (ln (v_rest t) <? ln (v_rest s))%nat eqn:D; [apply Nat.ltb_lt in D; lia|]; rewrite R in F1; subst r;
      apply flat_out; [exact F1|lia|discriminate|discriminate].
  - apply (f_equal (@ln _)) in R. cbn [ln] in R. replace (ln (v_rest s) <? ln (v_rest t))%nat with false in H by (symmetry; apply Nat.ltb_ge; lia).
    replace (ln (v_rest t) <? ln (v_rest s))%nat with true in H by (symmetry; apply Nat.ltb_lt; lia).
    exists 1%nat. cbn [flat]. rewrite St. replace (ln (v_rest t) <? ln (v_rest s))%nat with true by (symmetry; apply Nat.ltb_lt; lia). exact H.
Qed.

(** * What is told and what is done *)
Lemma check_no fl n s fl' : check w fl n s = (false, fl') -> fl = false /\ fl' = false /\ w_sig w n = false /\ (forall f, w_call w = Some f -> f n s = true).
Proof.
  unfold check. destruct (fl || w_sig w n) eqn:O; [discriminate|]. apply orb_false_iff in O. destruct O as [-> ->]. destruct (w_call w) as [f|].
  - intros H. injection H as H <-. apply negb_false_iff in H. repeat split. intros g Eg. injection Eg as <-. exact H.
  - intros H. injection H as <-. repeat split. discriminate.
Qed.
Lemma check_yes fl n s fl' : check w fl n s = (true, fl') -> told fl w n s.
Proof.
  unfold check, told. destruct (fl || w_sig w n) eqn:O.
  - intros _. apply orb_true_iff in O. destruct O as [->|O]; [now left|]. right. left. exists n. auto.
  - destruct (w_call w) as [f|]; [|discriminate]. intros H. injection H as H _. apply negb_true_iff in H. right. right. exists f. auto.
Qed.
Lemma untold n s fl : check w false n s = (false, fl) -> (forall i, (i < n)%nat -> w_sig w i = false) -> ~ told false w n s /\ fl = false /\ forall i, (i < S n)%nat -> w_sig w i = false.
Proof.
  intros H P. apply check_no in H. destruct H as (_ & -> & S & F).
  assert (Q : forall i, (i < Datatypes.S n)%nat -> w_sig w i = false) by (intros i Hi; destruct (Nat.eq_dec i n) as [->|]; [exact S|apply P; lia]).
  split; [|split; [reflexivity|exact Q]].
  intros [T|[(i & Hi & T)|(f & Cf & T)]]; [discriminate|rewrite Q in T by lia; discriminate|rewrite (F _ Cf) in T; discriminate].
Qed.

Lemma steps_snoc n : forall s t, steps E size x n s = SNext t -> steps E size x (S n) s = step E size x t.
Proof.
  induction n as [|n IH]; intros s t H; cbn [steps] in *.
  - injection H as <-. destruct (step E size x s); reflexivity.
  - destruct (step E size x s) as [s1| | | | | |]; try discriminate. apply IH in H. cbn [steps] in H. exact H.
Qed.
Lemma steps_first n k s t : steps E size x n s = SNext t -> (k <= n)%nat -> exists u, steps E size x k s = SNext u.
Proof.
  revert k s. induction n as [|n IH]; intros k s H L; [replace k with O by lia; eexists; reflexivity|]. destruct k as [|k]; [eexists; reflexivity|].
  cbn [steps] in *. destruct (step E size x s) as [s1| | | | | |]; try discriminate. apply (IH k); [exact H|lia].
Qed.

Definition quiet (before : bool) (s0 : vstate) (n : nat) : Prop := forall i t, (i < n)%nat -> steps E size x i s0 = SNext t -> ~ told before w i t.
Definition verdict (before : bool) (s0 : vstate) (fuel : nat) (r : ended) : Prop :=
  match r with
  | EAbort n _ s => steps E size x n s0 = SNext s /\ told before w n s /\ quiet before s0 n
  | EOut q fl => exists n s, steps E size x n s0 = SNext s /\ step E size x s = q /\ (forall t, q <> SNext t) /\ fl = false /\ quiet before s0 (S n)
  | EBack _ _ _ => False
  | EFuel => exists s, steps E size x fuel s0 = SNext s /\ quiet before s0 (S fuel)
  end.

Lemma flat_verdict s0 f : forall k s, steps E size x k s0 = SNext s -> quiet false s0 (S k) -> (forall i, (i < S k)%nat -> w_sig w i = false) ->
  verdict false s0 (k + f) (flat f 0 false (S k) s).
Proof.
  induction f as [|f IH]; intros k s H Q P; cbn [flat].
  - cbn [verdict]. rewrite Nat.add_0_r. exists s. auto.
  - pose proof (steps_snoc _ _ _ H) as H1. destruct (step E size x s) as [t| | | | | |] eqn:St;
      try (cbn [verdict]; exists k, s; split; [exact H|]; split; [exact St|]; split; [discriminate|]; split; [reflexivity|exact Q]).
    cbn [Nat.ltb Nat.leb]. destruct (check w false (S k) t) as [[] fl] eqn:Ck.
    + cbn [verdict]. split; [exact H1|]. split; [exact (check_yes _ _ _ _ Ck)|exact Q].
    + destruct (untold _ _ _ Ck P) as (U & -> & P'). replace (k + S f)%nat with (S k + f)%nat by lia. apply IH; [exact H1| |exact P'].
      intros i u Hi Hu. destruct (Nat.eq_dec i (S k)) as [->|]; [rewrite H1 in Hu; injection Hu as <-; exact U|]. apply (Q i u); [lia|exact Hu].
Qed.

Lemma verdict_more before s0 f f' r : r <> EFuel -> verdict before s0 f r -> verdict before s0 f' r.
Proof. destruct r; cbn; auto. congruence. Qed.

Lemma launch_verdict fuel before m : verdict before (vm_start m) fuel (launch w E size x fuel before m).
Proof.
  unfold launch. destruct (check w before 0 (vm_start m)) as [[] fl] eqn:Ck.
  - cbn [verdict]. split; [reflexivity|]. split; [exact (check_yes _ _ _ _ Ck)|]. intros i t Hi. lia.
  - pose proof (check_no _ _ _ _ Ck) as (-> & -> & _). destruct (untold _ _ _ Ck) as (U & _ & P); [intros i Hi; lia|].
    assert (Q : quiet false (vm_start m) 1) by (intros i t Hi Hs; replace i with O in * by lia; cbn [steps] in Hs; injection Hs as <-; exact U).
    pose proof (fun f => flat_verdict (vm_start m) f 0 (vm_start m) eq_refl Q P) as V. cbn [Nat.add] in V.
    destruct (loop w E size x fuel false 1 (vm_start m)) as [q a|a b c|a b c|] eqn:Lp.
    4: { specialize (V fuel). destruct (flat fuel 0 false 1 (vm_start m)) eqn:X; try exact V.
      all: apply (loop_flat fuel false 1 (vm_start m)) in X; [congruence|discriminate]. }
    all: destruct (flat_loop _ _ _ _ _ Lp ltac:(discriminate)) as (f' & F); specialize (V f'); change (ln (v_rest (vm_start m))) with O in F; rewrite F in V;
      (eapply verdict_more; [|exact V]; discriminate).
Qed.
End Flat.

Lemma aborted w E size x fuel before m n fl s : launch w E size x fuel before m = EAbort n fl s ->
  steps E size x n (vm_start m) = SNext s /\ told before w n s /\ forall i t, (i < n)%nat -> steps E size x i (vm_start m) = SNext t -> ~ told before w i t.
Proof. intros H. pose proof (launch_verdict w E size x fuel before m) as V. rewrite H in V. exact V. Qed.

Lemma obeyed w E size x before m n s fuel : steps E size x n (vm_start m) = SNext s -> told before w n s -> (n <= fuel)%nat ->
  exists k fl t, (k <= n)%nat /\ launch w E size x fuel before m = EAbort k fl t.
Proof.
  intros H T L. pose proof (launch_verdict w E size x fuel before m) as V. destruct (launch w E size x fuel before m) as [q a|a b c|a b c|]; cbn [verdict] in V.
  - destruct V as (k & t & A & B & C & _ & Q). exfalso. destruct (le_lt_dec n k) as [Le|Lt]; [exact (Q n s (proj2 (Nat.lt_succ_r _ _) Le) H T)|].
    destruct (steps_first E size x n (S k) _ _ H Lt) as (u & U). rewrite (steps_snoc _ _ _ _ _ _ A), B in U. exact (C _ U).
  - destruct V as (A & B & Q). exists a, b, c. split; [|reflexivity]. destruct (le_lt_dec a n) as [Le|Lt]; [exact Le|]. exfalso. exact (Q n s Lt H T).
  - contradiction.
  - destruct V as (u & A & Q). exfalso. exact (Q n s (proj2 (Nat.lt_succ_r _ _) L) H T).
Qed.

Lemma untouched w E size x before m n s r fuel : steps E size x n (vm_start m) = SNext s -> step E size x s = r -> (forall t, r <> SNext t) ->
  (forall i t, (i <= n)%nat -> steps E size x i (vm_start m) = SNext t -> ~ told before w i t) -> (n < fuel)%nat ->
  exists fl, launch w E size x fuel before m = EOut r fl.
Proof.
  intros H St N Q L. pose proof (launch_verdict w E size x fuel before m) as V. destruct (launch w E size x fuel before m) as [q a|a b c|a b c|]; cbn [verdict] in V.
  - destruct V as (k & t & A & B & C & _ & _). exists a. f_equal. destruct (lt_eq_lt_dec k n) as [[Lt|Eq]|Lt].
    + exfalso. destruct (steps_first E size x n (S k) _ _ H Lt) as (u & U). rewrite (steps_snoc _ _ _ _ _ _ A), B in U. exact (C _ U).
    + subst k. rewrite H in A. injection A as <-. congruence.
    + exfalso. destruct (steps_first E size x k (S n) _ _ A Lt) as (u & U). rewrite (steps_snoc _ _ _ _ _ _ H), St in U. exact (N _ U).
  - destruct V as (A & B & _). exfalso. destruct (le_lt_dec a n) as [Le|Lt]; [exact (Q _ _ Le A B)|].
    destruct (steps_first E size x a (S n) _ _ A Lt) as (u & U). rewrite (steps_snoc _ _ _ _ _ _ H), St in U. exact (N _ U).
  - contradiction.
  - destruct V as (u & A & _). exfalso. destruct (steps_first E size x fuel (S n) _ _ A L) as (v & U). rewrite (steps_snoc _ _ _ _ _ _ H), St in U. exact (N _ U).
Qed.

Lemma refused w E size x fuel m : launch w E size x fuel true m = EAbort 0 true (vm_start m).
Proof. reflexivity. Qed.
(** Once interrupted the runtime stays so. *)
Lemma check_flag w fl n s fl' : check w fl n s = (true, fl') -> fl = true \/ w_sig w n = true -> fl' = true.
Proof. unfold check. destruct (fl || w_sig w n) eqn:O; [intros H _; now injection H|]. apply orb_false_iff in O. destruct O as [-> ->]. intros _ [|]; discriminate. Qed.
Lemma flat_flag w E size x f : forall d fl n s k fl' t, flat w E size x f d fl n s = EAbort k fl' t -> w_sig w k = true -> fl' = true.
Proof.
  induction f as [|f IH]; intros d fl n s k fl' t H T; [discriminate|]. cbn [flat] in H. destruct (step E size x s) as [u| | | | | |]; try discriminate.
  destruct (_ <? d)%nat; [discriminate|]. destruct (check w fl n u) as [[] fl1] eqn:Ck.
  - injection H as <- <- <-. eapply check_flag; [exact Ck|now right].
  - eapply IH; eassumption.
Qed.
Lemma stays w E size x fuel before m n fl s : launch w E size x fuel before m = EAbort n fl s -> before = true \/ (exists i, (i <= n)%nat /\ w_sig w i = true) -> fl = true.
Proof.
  intros H T. pose proof (aborted _ _ _ _ _ _ _ _ _ _ H) as (A & _ & Q). unfold launch in H. destruct (check w before 0 (vm_start m)) as [[] fl1] eqn:Ck.
  - injection H as <- <- <-. eapply check_flag; [exact Ck|]. destruct T as [T|(i & Hi & T)]; [now left|right]. replace i with O in T by lia. exact T.
  - pose proof (check_no _ _ _ _ _ Ck) as (-> & -> & _). destruct T as [T|(i & Hi & T)]; [discriminate|]. destruct (flat_loop _ _ _ _ _ _ _ _ _ H ltac:(discriminate)) as (f' & F).
    destruct (Nat.eq_dec i n) as [->|Ne]; [eapply flat_flag; eassumption|]. exfalso.
    destruct (steps_first E size x n i _ _ A Hi) as (u & U). apply (Q i u ltac:(lia) U). right. left. exists i. auto.
Qed.

Lemma abort_trace w E size x text name src fuel before m n fl s : Forall (fun i => 0 <= bi_off i <= Z.of_nat (ln text)) (x_body x) -> named src name ->
  TraceSpec.readable src (Z.of_nat (ln text)) text -> Z.of_nat (ln text) < 2 ^ 31 -> 0 <= size ->
  launch w E size x fuel before m = EAbort n fl s ->
  exists r t, api_run rt_new src (RunErr (abort_frames x src s)) = ROk (false, r) /\
    trace_says 0 (map (fun f => call_at x text name (f_pc f)) (v_cur s :: v_rest s)) t /\
    forall fuel, (16 <= fuel)%nat -> print_trace fuel r = OOk (bytes_of "Stack trace:" ++ [10] ++ t).
Proof.
  intros A B C D Z0 F. apply aborted in F. destruct F as (F & _). apply runtime_fails; [|discriminate]. destruct (reached_run _ _ _ _ _ _ Z0 F) as (W & _).
  apply lv_one; [|rewrite map_length; unfold frames_of in W; lia]. unfold abort_frames. induction (v_cur s :: v_rest s) as [|g l IH]; cbn [map]; constructor; [|apply IH].
  constructor; assumption.
Qed.
