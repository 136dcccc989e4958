(** Interrupted programs that import files. *)
From Coq Require Import ZArith String List Bool Lia Arith.
From Verif Require Import Base StringModel ExeModel ValueModel ObjModel VmModel ImportModel ImportProofs StopModel StopSpec StopProofs HaltModel.
Import ListNotations.
Open Scope list_scope.
Open Scope Z_scope.

Section Flat.
Variable w : watch.
Variable E : env.
Variable size : Z.
Variable cwd : option (list Z).
Variable fs : list Z -> option (list Z).
Variable big : Z.
Notation istep := (istep E size cwd fs big).
Notation isteps := (isteps E size cwd fs big).
Notation wt i := (waiting (i_rest i)).
Notation hloop := (hloop w E size cwd fs big).

Lemma waits i i' : ichain i -> istep i = INext i' -> wt i' = wt i \/ wt i' = S (wt i) \/ wt i = S (wt i').
Proof.
  unfold ichain. intros C H. rewrite istep_eq in H. destruct (sort_at i) eqn:K.
  - destruct (vstep _ _ _ i _) as [t| | | | | |] eqn:V; try discriminate. cbn [go] in H. destruct (nth_error _ c) as [u|]; [|discriminate]. injection H as <-. right. left. reflexivity.
  - cbv zeta in H. destruct (32 <? _); [discriminate|]. destruct (_ || _); [discriminate|]. apply do_import_next in H. destruct H as (loc & m & u & _ & ->). right. left. reflexivity.
  - destruct (vstep _ _ _ i _) as [t| | | | | |] eqn:V; try discriminate. cbn [go] in H.
    inversion C as [C1 C2 C3|u imp w' g r b C' C1 C2 C3|u imp g r b C' C1 C2 C3]; rewrite <- C1 in *; rewrite <- ?C3 in *; cbn [List.tl] in *.
    + discriminate H.
    + injection H as <-. right. right. reflexivity.
    + injection H as <-. right. right. reflexivity.
  - destruct (vstep _ _ _ i _) as [t| | | | | |] eqn:V; try discriminate. injection H as <-. now left.
  - destruct (vstep _ _ _ i _) as [t| | | | | |] eqn:V; try discriminate. injection H as <-. now left.
Qed.
Lemma kept i i' : ichain i -> istep i = INext i' -> ichain i'.
Proof. intros C H. exact (proj1 (istep_chain _ _ _ _ _ _ _ C H)). Qed.

(** The loop without calling itself, until fewer than [d] others wait. *)
Fixpoint hflat (fuel d : nat) (flag : bool) (n : nat) (s : istate) : halted :=
  match fuel with
  | O => HFuel
  | S f =>
    match istep s with
    | INext s' =>
      if (wt s' <? d)%nat then HBack flag n s' else
      let (stop, flag) := check w flag n (i_vs s') in if stop then HAbort n flag s' else hflat f d flag (S n) s'
    | IEnd r => HOut r flag
    end
  end.
Definition hresume (f d : nat) (flag : bool) (n : nat) (s : istate) : halted :=
  let (stop, flag) := check w flag n (i_vs s) in if stop then HAbort n flag s else hflat f d flag (S n) s.

Lemma hflat_back f : forall d flag n s flag' n' s', ichain s -> (d <= wt s)%nat -> hflat f d flag n s = HBack flag' n' s' -> S (wt s') = d /\ ichain s'.
Proof.
  induction f as [|f IH]; intros d flag n s flag' n' s' C L H; [discriminate|]. cbn [hflat] in H. destruct (istep s) as [t|] eqn:St; try discriminate.
  pose proof (kept _ _ C St) as C'. destruct (wt t <? d)%nat eqn:D.
  - injection H as <- <- <-. apply Nat.ltb_lt in D. apply waits in St; [|exact C]. split; [lia|exact C'].
  - apply Nat.ltb_ge in D. destruct (check w flag n _) as [[] fl]; [discriminate|]. exact (IH _ _ _ _ _ _ _ C' D H).
Qed.

Lemma hflat_split f : forall d flag n s r, ichain s -> (S d <= wt s)%nat -> hflat f d flag n s = r -> r <> HFuel ->
  (hflat f (S d) flag n s = r /\ forall a b c, r <> HBack a b c) \/
  exists f' flag' n' s', (f' < f)%nat /\ hflat f (S d) flag n s = HBack flag' n' s' /\ wt s' = d /\ ichain s' /\ hresume f' d flag' n' s' = r.
Proof.
  induction f as [|f IH]; intros d flag n s r C L H N; [cbn in H; congruence|]. cbn [hflat] in *. destruct (istep s) as [t|] eqn:St;
    [|left; split; [exact H|intros a b c; rewrite <- H; discriminate]].
  pose proof (kept _ _ C St) as C'. assert (R : (d <= wt t)%nat) by (apply waits in St; [lia|exact C]).
  destruct (wt t <? d)%nat eqn:D; [apply Nat.ltb_lt in D; lia|]. destruct (wt t <? S d)%nat eqn:D'.
  - right. apply Nat.ltb_lt in D'. exists f, flag, n, t. split; [lia|]. split; [reflexivity|]. split; [lia|]. split; [exact C'|exact H].
  - apply Nat.ltb_ge in D'. destruct (check w flag n _) as [[] fl]; [left; split; [exact H|intros a b c; rewrite <- H; discriminate]|].
    destruct (IH _ _ _ _ _ C' D' H N) as [A|(f' & flag' & n' & s' & A & B)]; [left; exact A|right; exists f', flag', n', s'; split; [lia|exact B]].
Qed.

Lemma hflat_more f : forall f' d flag n s r, hflat f d flag n s = r -> r <> HFuel -> (f <= f')%nat -> hflat f' d flag n s = r.
Proof.
  induction f as [|f IH]; intros f' d flag n s r H N L; [cbn in H; congruence|]. destruct f' as [|f']; [lia|]. cbn [hflat] in *.
  destruct (istep s) as [t|] eqn:St; try exact H. destruct (_ <? d)%nat; [exact H|]. destruct (check w flag n _) as [[] fl]; [exact H|].
  apply IH; [exact H|exact N|lia].
Qed.

Lemma hloop_flat f : forall flag n s r, ichain s -> hflat f (wt s) flag n s = r -> r <> HFuel -> hloop f flag n s = r.
Proof.
  induction f as [f IH] using lt_wf_ind. intros flag n s r C H N. destruct f as [|f]; [cbn in H; congruence|]. cbn [hflat HaltModel.hloop] in *.
  assert (G : forall f', (f' <= f)%nat -> forall fl k t, ichain t -> hresume f' (wt t) fl k t = r ->
    (let (stop, flag0) := check w fl k (i_vs t) in if stop then HAbort k flag0 t else hloop f flag0 (S k) t) = r).
  { intros f' Lf fl k t Ct R. unfold hresume in R. destruct (check w fl k _) as [[] fl']; [exact R|]. apply IH; [lia|exact Ct| |exact N]. eapply hflat_more; [exact R|exact N|exact Lf]. }
  destruct (istep s) as [t|] eqn:St; try exact H. pose proof (kept _ _ C St) as C'. pose proof (waits _ _ C St) as R.
  destruct R as [R|[R|R]].
  - rewrite R in *. rewrite Nat.ltb_irrefl in *. apply (G f (le_n _)); [exact C'|]. unfold hresume. rewrite R. exact H.
  - replace (wt s <? wt t)%nat with true by (symmetry; apply Nat.ltb_lt; lia).
    replace (wt t <? wt s)%nat with false in H by (symmetry; apply Nat.ltb_ge; lia).
    destruct (check w flag n _) as [[] fl]; [rewrite <- H; reflexivity|].
    destruct (hflat_split f _ _ _ _ _ C' (eq_ind_r (fun k => (k <= _)%nat) (le_n _) (eq_sym R)) H N) as [[A B]|(f' & fl' & n' & s' & Lf & A & Ds & Cs & B)].
    + rewrite (IH f (Nat.lt_succ_diag_r _) fl (S n) t r C'); [|rewrite R; exact A|exact N]. destruct r; try reflexivity. exfalso. eapply B. reflexivity.
    + rewrite (IH f (Nat.lt_succ_diag_r _) fl (S n) t (HBack fl' n' s') C'); [|rewrite R; exact A|discriminate].
      apply (G f' ltac:(lia)); [exact Cs|]. rewrite Ds. exact B.
  - replace (wt s <? wt t)%nat with false by (symmetry; apply Nat.ltb_ge; lia).
    replace (wt t <? wt s)%nat with true in * by (symmetry; apply Nat.ltb_lt; lia). exact H.
Qed.

Lemma hflat_on f1 : forall f2 d flag n s flag' n' s' r, ichain s -> hflat f1 (S d) flag n s = HBack flag' n' s' -> (S d <= wt s)%nat -> hresume f2 d flag' n' s' = r -> r <> HFuel ->
  hflat (f1 + f2) d flag n s = r.
Proof.
  induction f1 as [|f IH]; intros f2 d flag n s flag' n' s' r C H L R N; [discriminate|]. cbn [hflat Nat.add] in *.
  destruct (istep s) as [t|] eqn:St; try discriminate. pose proof (kept _ _ C St) as C'.
  assert (D0 : (d <= wt t)%nat) by (apply waits in St; [lia|exact C]).
  destruct (wt t <? d)%nat eqn:D; [apply Nat.ltb_lt in D; lia|]. destruct (wt t <? S d)%nat eqn:D'.
  - injection H as <- <- <-. unfold hresume in R. destruct (check w flag n _) as [[] fl]; [exact R|]. eapply hflat_more; [exact R|exact N|lia].
  - apply Nat.ltb_ge in D'. destruct (check w flag n _) as [[] fl]; [discriminate|]. eapply IH; eassumption.
Qed.
Lemma hflat_out f : forall d flag n s r, ichain s -> hflat f (S d) flag n s = r -> (S d <= wt s)%nat -> r <> HFuel -> (forall a b c, r <> HBack a b c) -> hflat f d flag n s = r.
Proof.
  induction f as [|f IH]; intros d flag n s r C H L N B; [cbn in H; congruence|]. cbn [hflat] in *.
  destruct (istep s) as [t|] eqn:St; try exact H. pose proof (kept _ _ C St) as C'.
  destruct (wt t <? S d)%nat eqn:D'; [subst r; exfalso; eapply B; reflexivity|]. apply Nat.ltb_ge in D'.
  destruct (wt t <? d)%nat eqn:D; [apply Nat.ltb_lt in D; lia|]. destruct (check w flag n _) as [[] fl]; [exact H|]. apply IH; assumption.
Qed.

Lemma hflat_loop f : forall flag n s r, ichain s -> hloop f flag n s = r -> r <> HFuel -> exists f', hflat f' (wt s) flag n s = r.
Proof.
  induction f as [|f IH]; intros flag n s r C H N; [cbn in H; congruence|]. cbn [HaltModel.hloop] in H.
  assert (G : forall fl k t q, ichain t -> (let (stop, flag0) := check w fl k (i_vs t) in if stop then HAbort k flag0 t else hloop f flag0 (S k) t) = q -> q <> HFuel ->
    exists f', hresume f' (wt t) fl k t = q).
  { intros fl k t q Ct Q Nq. unfold hresume. destruct (check w fl k _) as [[] fl']; [exists O; exact Q|]. exact (IH _ _ _ _ Ct Q Nq). }
  destruct (istep s) as [t|] eqn:St; try (exists 1%nat; cbn [hflat]; rewrite St; exact H).
  pose proof (kept _ _ C St) as C'. pose proof (waits _ _ C St) as R. destruct R as [R|[R|R]].
  - rewrite R in H. rewrite Nat.ltb_irrefl in H. destruct (G _ _ _ _ C' H N) as (f' & F). exists (S f'). cbn [hflat]. rewrite St, R, Nat.ltb_irrefl.
    unfold hresume in F. rewrite R in F. exact F.
  - replace (wt s <? wt t)%nat with true in H by (symmetry; apply Nat.ltb_lt; lia).
    destruct (check w flag n (i_vs t)) as [[] fl] eqn:Ck.
    { exists 1%nat. cbn [hflat]. rewrite St, Ck. destruct (wt t <? wt s)%nat eqn:D; [apply Nat.ltb_lt in D; lia|]. exact H. }
    destruct (hloop f fl (S n) t) as [q a|a b c|a b c|] eqn:Lp.
    4: congruence.
    3: { destruct (IH _ _ _ _ C' Lp ltac:(discriminate)) as (f1 & F1). rewrite R in F1. destruct (hflat_back _ _ _ _ _ _ _ _ C' (Nat.eq_le_incl _ _ (eq_sym R)) F1) as [Ds Cs].
      destruct (G _ _ _ _ Cs H N) as (f2 & F2). exists (S (f1 + f2)). cbn [hflat]. rewrite St, Ck.
      destruct (wt t <? wt s)%nat eqn:D; [apply Nat.ltb_lt in D; lia|].
      injection Ds as Ds. rewrite Ds in F2. eapply hflat_on; [exact C'|exact F1|lia|exact F2|exact N]. }
    all: destruct (IH _ _ _ _ C' Lp ltac:(discriminate)) as (f1 & F1); exists (S f1); cbn [hflat]; rewrite St, Ck;
      destruct (wt t <? wt s)%nat eqn:D; [apply Nat.ltb_lt in D; lia|]; rewrite R in F1; subst r;
      apply hflat_out; [exact C'|exact F1|lia|discriminate|discriminate].
  - replace (wt s <? wt t)%nat with false in H by (symmetry; apply Nat.ltb_ge; lia).
    replace (wt t <? wt s)%nat with true in H by (symmetry; apply Nat.ltb_lt; lia).
    exists 1%nat. cbn [hflat]. rewrite St. replace (wt t <? wt s)%nat with true by (symmetry; apply Nat.ltb_lt; lia). exact H.
Qed.

Lemma isteps_snoc n : forall s t, isteps n s = INext t -> isteps (S n) s = istep t.
Proof.
  induction n as [|n IH]; intros s t H; cbn [ImportModel.isteps] in *.
  - injection H as <-. destruct (istep s); reflexivity.
  - destruct (istep s) as [s1|]; try discriminate. apply IH in H. cbn [ImportModel.isteps] in H. exact H.
Qed.
Lemma isteps_first n k s t : isteps n s = INext t -> (k <= n)%nat -> exists u, isteps k s = INext u.
Proof.
  revert k s. induction n as [|n IH]; intros k s H L; [replace k with O by lia; eexists; reflexivity|]. destruct k as [|k]; [eexists; reflexivity|].
  cbn [ImportModel.isteps] in *. destruct (istep s) as [s1|]; try discriminate. apply (IH k); [exact H|lia].
Qed.

Definition hquiet (before : bool) (s0 : istate) (n : nat) : Prop := forall i t, (i < n)%nat -> isteps i s0 = INext t -> ~ told before w i (i_vs t).
Definition hverdict (before : bool) (s0 : istate) (fuel : nat) (r : halted) : Prop :=
  match r with
  | HAbort n _ s => isteps n s0 = INext s /\ told before w n (i_vs s) /\ hquiet before s0 n
  | HOut q fl => exists n s, isteps n s0 = INext s /\ istep s = IEnd q /\ fl = false /\ hquiet before s0 (S n)
  | HBack _ _ _ => False
  | HFuel => exists s, isteps fuel s0 = INext s /\ hquiet before s0 (S fuel)
  end.

Lemma hflat_verdict s0 f : forall k s, isteps k s0 = INext s -> hquiet false s0 (S k) -> (forall i, (i < S k)%nat -> w_sig w i = false) ->
  hverdict false s0 (k + f) (hflat f 0 false (S k) s).
Proof.
  induction f as [|f IH]; intros k s H Q P; cbn [hflat].
  - cbn [hverdict]. rewrite Nat.add_0_r. exists s. auto.
  - pose proof (isteps_snoc _ _ _ H) as H1. destruct (istep s) as [t|q] eqn:St;
      [|cbn [hverdict]; exists k, s; split; [exact H|]; split; [exact St|]; split; [reflexivity|exact Q]].
    cbn [Nat.ltb Nat.leb]. destruct (check w false (S k) (i_vs t)) as [[] fl] eqn:Ck.
    + cbn [hverdict]. split; [exact H1|]. split; [exact (check_yes _ _ _ _ _ Ck)|exact Q].
    + destruct (untold _ _ _ _ Ck P) as (U & -> & P'). replace (k + S f)%nat with (S k + f)%nat by lia. apply IH; [exact H1| |exact P'].
      intros i u Hi Hu. destruct (Nat.eq_dec i (S k)) as [->|]; [rewrite H1 in Hu; injection Hu as <-; exact U|]. apply (Q i u); [lia|exact Hu].
Qed.

Lemma hverdict_more before s0 f f' r : r <> HFuel -> hverdict before s0 f r -> hverdict before s0 f' r.
Proof. destruct r; cbn; auto. congruence. Qed.

Lemma hlaunch_verdict fuel before u m : hverdict before (istart u m) fuel (hlaunch w E size cwd fs big fuel before u m).
Proof.
  unfold hlaunch. cbv zeta. destruct (check w before 0 (i_vs (istart u m))) as [[] fl] eqn:Ck.
  - cbn [hverdict]. split; [reflexivity|]. split; [exact (check_yes _ _ _ _ _ Ck)|]. intros i t Hi. lia.
  - pose proof (check_no _ _ _ _ _ Ck) as (-> & -> & _). destruct (untold _ _ _ _ Ck) as (U & _ & P); [intros i Hi; lia|].
    assert (C : ichain (istart u m)) by constructor.
    assert (Q : hquiet false (istart u m) 1) by (intros i t Hi Hs; replace i with O in * by lia; cbn [ImportModel.isteps] in Hs; injection Hs as <-; exact U).
    pose proof (fun f => hflat_verdict (istart u m) f 0 (istart u m) eq_refl Q P) as V. cbn [Nat.add] in V.
    destruct (hloop fuel false 1 (istart u m)) as [q a|a b c|a b c|] eqn:Lp.
    4: { specialize (V fuel). destruct (hflat fuel 0 false 1 (istart u m)) eqn:X; try exact V.
      all: apply (hloop_flat fuel false 1 (istart u m)) in X; [congruence|exact C|discriminate]. }
    all: destruct (hflat_loop _ _ _ _ _ C Lp ltac:(discriminate)) as (f' & F); specialize (V f'); change (wt (istart u m)) with O in F; rewrite F in V;
      (eapply hverdict_more; [|exact V]; discriminate).
Qed.

Lemma haborted fuel before u m n fl s : hlaunch w E size cwd fs big fuel before u m = HAbort n fl s ->
  isteps n (istart u m) = INext s /\ told before w n (i_vs s) /\ forall i t, (i < n)%nat -> isteps i (istart u m) = INext t -> ~ told before w i (i_vs t).
Proof. intros H. pose proof (hlaunch_verdict fuel before u m) as V. rewrite H in V. exact V. Qed.

Lemma hobeyed before u m n s fuel : isteps n (istart u m) = INext s -> told before w n (i_vs s) -> (n <= fuel)%nat ->
  exists k fl t, (k <= n)%nat /\ hlaunch w E size cwd fs big fuel before u m = HAbort k fl t.
Proof.
  intros H T L. pose proof (hlaunch_verdict fuel before u m) as V. destruct (hlaunch w E size cwd fs big fuel before u m) as [q a|a b c|a b c|]; cbn [hverdict] in V.
  - destruct V as (k & t & A & B & _ & Q). exfalso. destruct (le_lt_dec n k) as [Le|Lt]; [exact (Q n s (proj2 (Nat.lt_succ_r _ _) Le) H T)|].
    destruct (isteps_first n (S k) _ _ H Lt) as (v & U). rewrite (isteps_snoc _ _ _ A), B in U. discriminate.
  - destruct V as (A & B & Q). exists a, b, c. split; [|reflexivity]. destruct (le_lt_dec a n) as [Le|Lt]; [exact Le|]. exfalso. exact (Q n s Lt H T).
  - contradiction.
  - destruct V as (v & A & Q). exfalso. exact (Q n s (proj2 (Nat.lt_succ_r _ _) L) H T).
Qed.

Lemma huntouched before u m n s r fuel : isteps n (istart u m) = INext s -> istep s = IEnd r ->
  (forall i t, (i <= n)%nat -> isteps i (istart u m) = INext t -> ~ told before w i (i_vs t)) -> (n < fuel)%nat ->
  exists fl, hlaunch w E size cwd fs big fuel before u m = HOut r fl.
Proof.
  intros H St Q L. pose proof (hlaunch_verdict fuel before u m) as V. destruct (hlaunch w E size cwd fs big fuel before u m) as [q a|a b c|a b c|]; cbn [hverdict] in V.
  - destruct V as (k & t & A & B & _). exists a. f_equal. destruct (lt_eq_lt_dec k n) as [[Lt|Eq]|Lt].
    + exfalso. destruct (isteps_first n (S k) _ _ H Lt) as (v & U). rewrite (isteps_snoc _ _ _ A), B in U. discriminate.
    + subst k. rewrite H in A. injection A as <-. congruence.
    + exfalso. destruct (isteps_first k (S n) _ _ A Lt) as (v & U). rewrite (isteps_snoc _ _ _ H), St in U. discriminate.
  - destruct V as (A & B & _). exfalso. destruct (le_lt_dec a n) as [Le|Lt]; [exact (Q _ _ Le A B)|].
    destruct (isteps_first a (S n) _ _ A Lt) as (v & U). rewrite (isteps_snoc _ _ _ H), St in U. discriminate.
  - contradiction.
  - destruct V as (v & A & _). exfalso. destruct (isteps_first fuel (S n) _ _ A L) as (z & U). rewrite (isteps_snoc _ _ _ H), St in U. discriminate.
Qed.

(** Once interrupted the runtime stays so. *)
Lemma hflat_flag f : forall d fl n s k fl' t, hflat f d fl n s = HAbort k fl' t -> w_sig w k = true -> fl' = true.
Proof.
  induction f as [|f IH]; intros d fl n s k fl' t H T; [discriminate|]. cbn [hflat] in H. destruct (istep s) as [v|]; try discriminate.
  destruct (_ <? d)%nat; [discriminate|]. destruct (check w fl n (i_vs v)) as [[] fl1] eqn:Ck.
  - injection H as <- <- <-. eapply check_flag; [exact Ck|now right].
  - eapply IH; eassumption.
Qed.
Lemma hstays fuel before u m n fl s : hlaunch w E size cwd fs big fuel before u m = HAbort n fl s -> before = true \/ (exists i, (i <= n)%nat /\ w_sig w i = true) -> fl = true.
Proof.
  intros H T. pose proof (haborted _ _ _ _ _ _ _ H) as (A & _ & Q). unfold hlaunch in H. cbv zeta in H. destruct (check w before 0 (i_vs (istart u m))) as [[] fl1] eqn:Ck.
  - injection H as <- <- <-. eapply check_flag; [exact Ck|]. destruct T as [T|(i & Hi & T)]; [now left|right]. replace i with O in T by lia. exact T.
  - pose proof (check_no _ _ _ _ _ Ck) as (-> & -> & _). destruct T as [T|(i & Hi & T)]; [discriminate|].
    destruct (hflat_loop _ _ _ _ _ (ch_bottom : ichain (istart u m)) H ltac:(discriminate)) as (f' & F).
    destruct (Nat.eq_dec i n) as [->|Ne]; [eapply hflat_flag; eassumption|]. exfalso.
    destruct (isteps_first n i _ _ A Hi) as (v & U). apply (Q i v ltac:(lia) U). right. left. exists i. auto.
Qed.
End Flat.
