(** A program whose run is collected in between, for C80. *)
From Coq Require Import ZArith List Lia Bool String.
From Verif Require Import Base StringModel ValueModel MapModel ListModel ObjModel ExeModel VmModel BuiltinModel ShowModel CompileModel VmExamples
  MoveSpec MoveProofs MoveObj MoveRun.
Import ListNotations.
Open Scope Z_scope.

Definition move_src : list Z := bytes_of "[9]; x = [1, 2]; print(x, 5); x;".
Definition move_mem : mem := mkmem [OSMap 0] false.
Definition move_env : env := std_env env0 None.
Definition move_exe : executable := match compile move_src with ROk x => x | _ => mkexe [] [] end.
Definition no_text (_ : Z) : list Z := [].
Definition no_buf (_ : nat) : list Z := [].
Definition state_of (r : sres) : vstate := match r with SNext s => s | _ => vm_start move_mem end.
(** After the assignment, and the same after a collection that moves the second list (from 3 to 2) and drops the first. *)
Definition before : vstate := Eval vm_compute in state_of (steps (with_builtins move_env (Some (VRef 0))) 100 move_exe 14 (vm_start move_mem)).
Definition move_to (l : nat) : nat := match l with 3%nat => 2%nat | _ => l end.
Definition after : vstate := Eval vm_compute in
  mkvs (mkmem (map (ren_obj move_to) (match m_objs (v_mem before) with a :: b :: _ :: c :: _ => [a; b; c] | l => l end)) false) (v_codes before)
    (ren_frame move_to (v_cur before)) (map (ren_frame move_to) (v_rest before)).

Lemma env0_blind : blind env0.
Proof.
  constructor; cbn; intros; auto; (eexists; split; [reflexivity|]; apply ropt_none; assumption).
Qed.

Lemma live_within b s (P : nat -> Prop) : (forall l, b = Some (VRef l) -> P l) ->
  (forall fr l, In fr (v_cur s :: v_rest s) -> frame_refers fr l -> P l) ->
  (forall l o k, P l -> nth_error (m_objs (v_mem s)) l = Some o -> refers o k -> P k) -> forall l, live b s l -> P l.
Proof. intros A B C l H. induction H; eauto. Qed.

Lemma before_live l : live (Some (VRef 0)) before l -> l = 0%nat \/ l = 1%nat \/ l = 3%nat.
Proof.
  apply (live_within (Some (VRef 0)) before (fun l => l = 0%nat \/ l = 1%nat \/ l = 3%nat)).
  - intros k [= <-]. auto.
  - intros fr k [<-|[]] H. destruct H as [H|[H|H]]; cbn in H; [injection H as <-; auto|discriminate|contradiction].
  - intros k o j [->|[->| ->]] H R; injection H as <-; inversion R; subst; cbn in *; repeat match goal with H : _ \/ _ |- _ => destruct H end;
      try contradiction; try discriminate; try match goal with H : VRef _ = VRef _ |- _ => injection H as <- end; auto.
Qed.
Lemma before_collected : collected (Some (VRef 0)) before (Some (VRef 0)) after.
Proof.
  exists move_to. repeat split; try (cbn; lia).
  - intros l k A B. apply before_live in A, B. destruct A as [->|[->| ->]], B as [->|[->| ->]]; cbn; congruence.
  - intros l A. apply before_live in A. destruct A as [->|[->| ->]]; eexists; split; reflexivity.
Qed.

Lemma plain_gc ff fb E size x b n w r : forall k s s', steps (with_builtins E b) size x k s = SNext s' ->
  gc_run ff fb E size x n b s' w r -> gc_run ff fb E size x (k + n) b s (written ff fb (with_builtins E b) size x k s ++ w) r.
Proof.
  induction k as [|k IH]; cbn; intros s s' H G; [injection H as <-; exact G|].
  destruct (step _ size x s) as [t| | | | | | ] eqn:St; try discriminate. cbn. eapply gr_step; [exact St|]. eapply IH; eassumption.
Qed.

Lemma whole_start m b : (forall l o k, nth_error (m_objs m) l = Some o -> refers o k -> (k < List.length (m_objs m))%nat) ->
  (forall l, b = Some (VRef l) -> (l < List.length (m_objs m))%nat) -> whole b (vm_start m).
Proof.
  intros C B l H. assert (G : (l < List.length (m_objs (v_mem (vm_start m))))%nat).
  { revert H. apply (live_within b (vm_start m) (fun l => (l < List.length (m_objs (v_mem (vm_start m))))%nat)).
    - intros k K. apply B in K. cbn. rewrite app_length. lia.
    - intros fr k [<-|[]] [H|[H|H]]; cbn in H; [injection H as <-|discriminate|contradiction]. cbn. rewrite app_length. cbn. lia.
    - cbn. rewrite app_length. cbn. intros k o j L K Rf. destruct (Nat.lt_ge_cases k (List.length (m_objs m))) as [Lt|Ge].
      + rewrite nth_error_app1 in K by exact Lt. specialize (C _ _ _ K Rf). lia.
      + rewrite nth_error_app2 in K by exact Ge. destruct (k - List.length (m_objs m))%nat; [|destruct n; discriminate]. injection K as <-.
        inversion Rf; subst; cbn in *; contradiction. }
  apply nth_error_Some in G. destruct (nth_error _ l) as [o|]; [exists o; reflexivity|congruence].
Qed.

Lemma move_run : exists w mg, gc_run no_text no_buf move_env 100 move_exe 22 (Some (VRef 0)) (vm_start move_mem) w (SDone [VRef 1] mg) /\
  List.length (m_objs mg) = 4%nat /\ nth_error (m_objs mg) 2 = Some (OList (mklobj 8 2 [Some (VInt 1); Some (VInt 2); None; None; None; None; None; None])) /\
  In (OOk (bytes_of "[1, 2]5")) w.
Proof.
  eexists. eexists. split.
  - change 22%nat with (14 + 8)%nat. eapply plain_gc; [vm_compute; reflexivity|].
    eapply gr_collect; [exact before_collected|]. change 8%nat with (7 + 1)%nat. eapply plain_gc; [vm_compute; reflexivity|].
    eapply gr_stop; [vm_compute; reflexivity|discriminate].
  - vm_compute. split; [reflexivity|]. split; [reflexivity|]. repeat (first [left; reflexivity|right]).
Qed.
