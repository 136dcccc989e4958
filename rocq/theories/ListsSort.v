(** A program that sorts a list: it does, whatever the list. *)
From Coq Require Import ZArith List Bool Lia Sorting.Permutation Sorting.Sorted.
From Verif Require Import Base StringModel SeqSpec ValueModel AstModel ExeModel CodegenModel CompSpec CompileModel CompileProofs DepthSpec MapModel ObjModel VmModel VmExamples
  FuelProofs CalcSpec WhileSpec WhileProofs FunSpec ListsSpec ListsProofs.
Import ListNotations.
Open Scope Z_scope.

Definition s_a : list Z := [97].
Definition s_i : list Z := [105].
Definition s_j : list Z := [106].
Definition s_t : list Z := [116].

Definition lit (z : Z) : expr := if z <? 0 then EUn UNeg (EInt (- z)) else EInt z.
Fixpoint lits (zs : list Z) : exprs := match zs with [] => ENil | z :: r => ECons (lit z) (lits r) end.
Definition at_ (e : expr) : expr := ESel (EIdent s_a) e.
Definition prev_j : expr := EBin BSub (EIdent s_j) (EInt 1).
Definition set_ (x : list Z) (e : expr) : stmt := SExpr (EAss (EIdent x) e).

(** while j > 0 and a[j - 1] > a[j]: { t = a[j]; a[j] = a[j - 1]; a[j - 1] = t; j = j - 1; } *)
Definition sinks : stmt :=
  SWhile (EAnd (EBin BGrt (EIdent s_j) (EInt 0)) (EBin BGrt (at_ prev_j) (at_ (EIdent s_j))))
    (SComp (SCons (set_ s_t (at_ (EIdent s_j))) (SCons (SExpr (EAss (at_ (EIdent s_j)) (at_ prev_j))) (SCons (SExpr (EAss (at_ prev_j) (EIdent s_t))) (SCons (set_ s_j prev_j) SNil))))).
(** while a[i] != none: { j = i; ...; i = i + 1; } *)
Definition sorts : stmt :=
  SWhile (EBin BNql (at_ (EIdent s_i)) ENone)
    (SComp (SCons (set_ s_j (EIdent s_i)) (SCons sinks (SCons (set_ s_i (EBin BAdd (EIdent s_i) (EInt 1))) SNil)))).
(** a = [...]; i = 1; ...; return a; *)
Definition sort_program (zs : list Z) : stmts :=
  SCons (set_ s_a (EList (lits zs))) (SCons (set_ s_i (EInt 1)) (SCons sorts (SCons (SReturn (EIdent s_a)) SNil))).

(** An item that sinks to its place. *)
Fixpoint sink (rp : list Z) (y : Z) (q : list Z) : list Z :=
  match rp with
  | u :: r => if u >? y then sink r y (u :: q) else rev rp ++ y :: q
  | [] => y :: q
  end.

Lemma sink_perm : forall rp y q, Permutation (rev rp ++ y :: q) (sink rp y q).
Proof.
  induction rp as [|u r IH]; intros y q; [reflexivity|]. cbn [sink]. destruct (u >? y); [|reflexivity]. rewrite <- IH. cbn [rev]. rewrite <- app_assoc. cbn [app].
  apply Permutation_app_head. apply perm_swap.
Qed.

Lemma sink_app : forall rp y q1 q2, sink rp y (q1 ++ q2) = sink rp y q1 ++ q2.
Proof.
  induction rp as [|u r IH]; intros y q1 q2; [reflexivity|]. cbn [sink]. destruct (u >? y); [exact (IH y (u :: q1) q2)|]. rewrite <- app_assoc. reflexivity.
Qed.

Lemma sorted_middle (p q : list Z) y : StronglySorted Z.le (p ++ q) -> Forall (fun u => u <= y) p -> Forall (fun u => y <= u) q -> StronglySorted Z.le (p ++ y :: q).
Proof.
  induction p as [|u p IH]; cbn [app]; intros S L R.
  - constructor; assumption.
  - inversion S as [|? ? S1 S2]; subst. inversion L; subst. constructor; [auto|]. apply Forall_app in S2. apply Forall_app. split; [apply S2|]. constructor; [assumption|apply S2].
Qed.

Lemma sink_sorted : forall rp y q, StronglySorted Z.le (rev rp ++ q) -> Forall (fun u => y <= u) q -> StronglySorted Z.le (sink rp y q).
Proof.
  induction rp as [|u r IH]; intros y q S F; cbn [sink]; [constructor; assumption|]. cbn [rev] in S |- *. rewrite <- app_assoc in S. cbn [app] in S. pose proof (Zgt_cases u y) as G. destruct (u >? y).
  - apply IH; [exact S|]. constructor; [lia|exact F].
  - rewrite <- app_assoc. cbn [app]. assert (Lu : Forall (fun x => x <= u) (rev r)).
    { clear -S. induction (rev r) as [|w p IHp]; [constructor|]. cbn [app] in S. inversion S as [|? ? S1 S2]; subst. constructor; [|exact (IHp S1)]. apply Forall_app in S2. destruct S2 as [_ S2]. inversion S2; assumption. }
    change (u :: y :: q) with ([u] ++ y :: q). rewrite app_assoc. apply sorted_middle; [rewrite <- app_assoc; exact S| |exact F].
    apply Forall_app. split; [|auto]. apply (Forall_impl _ (P := fun x => x <= u)); [intros; lia|exact Lu].
Qed.

(** * Running it *)
Lemma fits64_in z : - 2 ^ 63 <= z < 2 ^ 63 -> fits64 z = AVal (VInt z).
Proof. intros H. unfold fits64. replace ((- 2 ^ 63 <=? z) && (z <? 2 ^ 63)) with true; [reflexivity|]. symmetry. apply andb_true_iff. rewrite Z.leb_le, Z.ltb_lt. exact H. Qed.
Lemma near_small n : 0 <= n < 2 ^ 31 -> near n = true.
Proof. intros H. unfold near. apply andb_true_iff. rewrite Z.leb_le, Z.ltb_lt. lia. Qed.

Notation ints := (map VInt).

Lemma seq_get_at (p q : list Z) y : seq_get (ints (p ++ y :: q)) (Z.of_nat (length p)) = Some (VInt y).
Proof.
  unfold seq_get, zget. destruct (Z.ltb_spec (Z.of_nat (length p)) 0); [lia|]. rewrite Nat2Z.id, nth_error_map, nth_error_app2, Nat.sub_diag by lia. reflexivity.
Qed.
Lemma seq_set_at (p q : list Z) y z : seq_set (ints (p ++ y :: q)) (Z.of_nat (length p)) (VInt z) = Some (ints (p ++ z :: q)).
Proof.
  unfold seq_set. rewrite map_length, app_length. cbn [length]. destruct (Z.eqb_spec (Z.of_nat (length p)) (Z.of_nat (length p + S (length q)))); [lia|].
  replace ((0 <=? Z.of_nat (length p)) && (Z.of_nat (length p) <? Z.of_nat (length p + S (length q)))) with true by (symmetry; apply andb_true_iff; rewrite Z.leb_le, Z.ltb_lt; lia).
  f_equal. rewrite Nat2Z.id, !map_app. cbn [map]. rewrite firstn_app, skipn_app, map_length.
  rewrite firstn_all2 by (rewrite map_length; lia). rewrite (skipn_all2 (ints p)) by (rewrite map_length; lia).
  replace (length p - length p)%nat with 0%nat by lia. replace (S (length p) - length p)%nat with 1%nat by lia. cbn [firstn skipn app]. rewrite app_nil_r. reflexivity.
Qed.

Lemma says_at s h e i v : s s_a = Some (VRef 0) -> lsays s h e = Told (VInt i, h) -> near i = true -> (exists xs, nth_error h 0 = Some xs /\ seq_get xs i = v) ->
  lsays s h (at_ e) = Told (match v with Some w => w | None => VNone end, h).
Proof. intros Sa Se Ni (xs & Hx & G). unfold at_. cbn [lsays]. rewrite Sa. cbn [tbind fst snd]. rewrite Se. cbn [tbind fst snd picked]. rewrite Ni, Hx. cbn [tbind]. rewrite G. reflexivity. Qed.

Lemma says_prev s h j : s s_j = Some (VInt j) -> 0 <= j < 2 ^ 31 -> lsays s h prev_j = Told (VInt (j - 1), h).
Proof. intros S Hj. unfold prev_j. cbn [lsays]. rewrite S. cbn [tbind fst snd lmeans2 means2 arith tell]. rewrite fits64_in by lia. reflexivity. Qed.

Lemma sinks_once again s h : ldoes again s h sinks =
  tbind (ltest s h (EAnd (EBin BGrt (EIdent s_j) (EInt 0)) (EBin BGrt (at_ prev_j) (at_ (EIdent s_j))))) (fun p => if fst p : bool
    then tbind (ldoes_all again s (snd p) (SCons (set_ s_t (at_ (EIdent s_j))) (SCons (SExpr (EAss (at_ (EIdent s_j)) (at_ prev_j))) (SCons (SExpr (EAss (at_ prev_j) (EIdent s_t))) (SCons (set_ s_j prev_j) SNil)))))
      (fun r => match r with LFell s1 h1 => again s1 h1 sinks | LBroke s1 h1 => Told (LFell s1 h1) | LGave vs h1 => Told (LGave vs h1) end)
    else Told (LFell s (snd p))).
Proof. reflexivity. Qed.

Lemma does_cons again s h t r : ldoes_all again s h (SCons t r) = tbind (ldoes again s h t) (fun q => match q with LFell s1 h1 => ldoes_all again s1 h1 r | _ => Told q end).
Proof. reflexivity. Qed.

Lemma does_set again s h x e v h1 r : lsays s h e = Told (v, h1) -> ldoes_all again s h (SCons (set_ x e) r) = ldoes_all again (put_in s x v) h1 r.
Proof. intros H. rewrite does_cons. change (ldoes again s h (set_ x e)) with (tbind (lsays s h e) (fun p => Told (LFell (put_in s x (fst p)) (snd p)))). rewrite H. reflexivity. Qed.

Lemma does_put again s h x e i v p y q z r : lsays s h e = Told (v, h) -> v = VInt z -> s s_a = Some (VRef 0) -> h = [ints (p ++ y :: q)] -> lsays s h x = Told (VInt i, h) -> i = Z.of_nat (length p) ->
  Z.of_nat (length (p ++ y :: q)) < 2 ^ 30 ->
  ldoes_all again s h (SCons (SExpr (EAss (at_ x) e)) r) = ldoes_all again s [ints (p ++ z :: q)] r.
Proof.
  intros He -> Sa -> Hx -> Sh. rewrite does_cons. unfold at_.
  change (ldoes again s [ints (p ++ y :: q)] (SExpr (EAss (ESel (EIdent s_a) x) e))) with
    (tbind (lsays s [ints (p ++ y :: q)] e) (fun p => tbind (lsays s (snd p) (EIdent s_a)) (fun q => tbind (lsays s (snd q) x) (fun u => tbind (placed (snd u) (fst q) (fst u) (fst p)) (fun h1 => Told (LFell s h1)))))).
  rewrite He. cbn [tbind fst snd]. change (lsays s [ints (p ++ y :: q)] (EIdent s_a)) with (match s s_a with Some v => Told (v, [ints (p ++ y :: q)]) | None => Wrong end). rewrite Sa. cbn [tbind fst snd]. rewrite Hx. cbn [tbind fst snd placed nth_error].
  assert (L : (length p < length (p ++ y :: q))%nat) by (rewrite app_length; cbn; lia).
  rewrite near_small by lia. unfold short. rewrite map_length. replace (Z.of_nat (length (p ++ y :: q)) <? 2 ^ 30) with true by (symmetry; apply Z.ltb_lt; exact Sh). cbn [andb].
  rewrite seq_set_at. reflexivity.
Qed.

Lemma inner_runs : forall rp y q n s, (length rp < n)%nat -> Z.of_nat (length (rev rp ++ y :: q)) < 2 ^ 30 -> s s_a = Some (VRef 0) -> s s_j = Some (VInt (Z.of_nat (length rp))) ->
  exists s', lstmt n s [ints (rev rp ++ y :: q)] sinks = Told (LFell s' [ints (sink rp y q)]) /\ s' s_a = Some (VRef 0) /\ s' s_i = s s_i.
Proof.
  induction rp as [|u r IH]; intros y q n s Hn Sh Sa Sj; (destruct n as [|n]; [lia|]); cbn [lstmt]; rewrite sinks_once.
  - exists s. split; [|auto]. unfold ltest. cbn [lsays]. rewrite Sj. reflexivity.
  - set (h := [ints (rev (u :: r) ++ y :: q)]). set (j := Z.of_nat (length (u :: r))) in *.
    assert (Lr : (length (rev (u :: r) ++ y :: q) = S (S (length r) + length q))%nat) by (rewrite app_length, rev_length; cbn [length]; lia).
    assert (Hj : j = Z.of_nat (length (rev (u :: r)))) by (unfold j; rewrite rev_length; reflexivity).
    assert (Hj1 : j - 1 = Z.of_nat (length (rev r))) by (unfold j; rewrite rev_length; cbn [length]; lia).
    assert (Bj : 0 < j < 2 ^ 30) by (unfold j; cbn [length]; lia).
    assert (Ep : rev (u :: r) ++ y :: q = rev r ++ u :: y :: q) by (cbn [rev]; rewrite <- app_assoc; reflexivity).
    assert (Aj : lsays s h (at_ (EIdent s_j)) = Told (VInt y, h)).
    { apply (says_at s h (EIdent s_j) j (Some (VInt y)) Sa); [cbn [lsays]; rewrite Sj; reflexivity|apply near_small; lia|]. eexists. split; [reflexivity|]. rewrite Hj. apply seq_get_at. }
    assert (Pj : lsays s h prev_j = Told (VInt (j - 1), h)) by (apply says_prev; [exact Sj|lia]).
    assert (Ap : lsays s h (at_ prev_j) = Told (VInt u, h)).
    { apply (says_at s h prev_j (j - 1) (Some (VInt u)) Sa Pj); [apply near_small; lia|]. eexists. split; [reflexivity|]. rewrite Hj1, Ep. apply seq_get_at. }
    assert (T : ltest s h (EAnd (EBin BGrt (EIdent s_j) (EInt 0)) (EBin BGrt (at_ prev_j) (at_ (EIdent s_j)))) = Told (u >? y, h)).
    { unfold ltest. change (lsays s h (EAnd (EBin BGrt (EIdent s_j) (EInt 0)) (EBin BGrt (at_ prev_j) (at_ (EIdent s_j))))) with
        (tbind (lsays s h (EBin BGrt (EIdent s_j) (EInt 0))) (fun p => match fst p with
          | VBool false => Told (VBool false, snd p)
          | VBool true => tbind (lsays s (snd p) (EBin BGrt (at_ prev_j) (at_ (EIdent s_j)))) (fun q => match fst q with VBool r => Told (VBool r, snd q) | _ => Wrong end)
          | _ => Wrong end)).
      replace (lsays s h (EBin BGrt (EIdent s_j) (EInt 0))) with (@Told (value * lists) (VBool true, h)).
      2:{ cbn [lsays]. rewrite Sj. cbn [tbind fst snd lmeans2 means2 order arith bool_answer tell]. replace (j >? 0) with true; [reflexivity|]. symmetry. apply Z.gtb_lt. lia. }
      cbn [tbind fst snd]. change (lsays s h (EBin BGrt (at_ prev_j) (at_ (EIdent s_j)))) with
        (tbind (lsays s h (at_ prev_j)) (fun p => tbind (lsays s (snd p) (at_ (EIdent s_j))) (fun q => tbind (tell (lmeans2 BGrt (fst p) (fst q))) (fun v => Told (v, snd q))))).
      rewrite Ap. cbn [tbind fst snd]. rewrite Aj. reflexivity. }
    rewrite T. cbn [tbind fst snd sink]. destruct (u >? y) eqn:G; [|exists s; auto].
    set (s1 := put_in s s_t (VInt y)). set (s2 := put_in s1 s_j (VInt (j - 1))).
    assert (S1a : s1 s_a = Some (VRef 0)) by exact Sa. assert (S1j : s1 s_j = Some (VInt j)) by exact Sj.
    assert (P1 : forall h', lsays s1 h' prev_j = Told (VInt (j - 1), h')) by (intros h'; apply says_prev; [exact S1j|lia]).
    assert (Ap1 : lsays s1 h (at_ prev_j) = Told (VInt u, h)).
    { apply (says_at s1 h prev_j (j - 1) (Some (VInt u)) S1a (P1 h)); [apply near_small; lia|]. eexists. split; [reflexivity|]. rewrite Hj1, Ep. apply seq_get_at. }
    assert (J1 : forall h', lsays s1 h' (EIdent s_j) = Told (VInt j, h')) by (intros h'; cbn [lsays]; rewrite S1j; reflexivity).
    rewrite (does_set _ _ _ s_t _ _ _ _ Aj). fold s1.
    rewrite (does_put _ s1 h (EIdent s_j) (at_ prev_j) j (VInt u) (rev (u :: r)) y q u _ Ap1 eq_refl S1a eq_refl (J1 h) Hj Sh).
    assert (Ep2 : rev (u :: r) ++ u :: q = rev r ++ u :: u :: q) by (cbn [rev]; rewrite <- app_assoc; reflexivity). rewrite Ep2.
    rewrite (does_put _ s1 _ prev_j (EIdent s_t) (j - 1) (VInt y) (rev r) u (u :: q) y _ eq_refl eq_refl S1a eq_refl (P1 _) Hj1).
    2:{ rewrite app_length, rev_length in *. cbn [length] in *. lia. }
    rewrite (does_set _ _ _ s_j _ _ _ _ (P1 _)). fold s2. cbn [ldoes_all tbind].
    destruct (IH y (u :: q) n s2) as (s' & R & A & B); [cbn [length] in Hn; lia| | | |].
    + rewrite app_length, rev_length in *. cbn [length] in *. lia.
    + exact Sa.
    + unfold s2. rewrite Hj1, rev_length. reflexivity.
    + exists s'. split; [exact R|]. auto.
Qed.

Lemma sorts_once again s h : ldoes again s h sorts =
  tbind (ltest s h (EBin BNql (at_ (EIdent s_i)) ENone)) (fun p => if fst p : bool
    then tbind (ldoes_all again s (snd p) (SCons (set_ s_j (EIdent s_i)) (SCons sinks (SCons (set_ s_i (EBin BAdd (EIdent s_i) (EInt 1))) SNil))))
      (fun r => match r with LFell s1 h1 => again s1 h1 sorts | LBroke s1 h1 => Told (LFell s1 h1) | LGave vs h1 => Told (LGave vs h1) end)
    else Told (LFell s (snd p))).
Proof. reflexivity. Qed.

Lemma test_i s zs i o : s s_a = Some (VRef 0) -> s s_i = Some (VInt i) -> near i = true -> seq_get (ints zs) i = option_map VInt o ->
  ltest s [ints zs] (EBin BNql (at_ (EIdent s_i)) ENone) = Told (match o with Some _ => true | None => false end, [ints zs]).
Proof.
  intros Sa Si Ni G. unfold ltest. change (lsays s [ints zs] (EBin BNql (at_ (EIdent s_i)) ENone)) with
    (tbind (lsays s [ints zs] (at_ (EIdent s_i))) (fun p => tbind (lsays s (snd p) ENone) (fun q => tbind (tell (lmeans2 BNql (fst p) (fst q))) (fun v => Told (v, snd q))))).
  rewrite (says_at s [ints zs] (EIdent s_i) i (option_map VInt o) Sa); [|cbn [lsays]; rewrite Si; reflexivity|exact Ni|eexists; split; [reflexivity|exact G]]. destruct o; reflexivity.
Qed.

Lemma outer_runs : forall q p n s, (length (p ++ q) + length q < n)%nat -> Z.of_nat (length (p ++ q)) < 2 ^ 30 - 1 -> StronglySorted Z.le p ->
  s s_a = Some (VRef 0) -> s s_i = Some (VInt (Z.of_nat (length p))) ->
  exists s' zs, lstmt n s [ints (p ++ q)] sorts = Told (LFell s' [ints zs]) /\ s' s_a = Some (VRef 0) /\ Permutation (p ++ q) zs /\ StronglySorted Z.le zs.
Proof.
  induction q as [|y q IH]; intros p n s Hn Sh So Sa Si; (destruct n as [|n]; [lia|]); cbn [lstmt]; rewrite sorts_once.
  - rewrite app_nil_r in *. rewrite (test_i s p (Z.of_nat (length p)) None Sa Si); [|apply near_small; lia|].
    + exists s, p. auto.
    + unfold seq_get, zget. destruct (Z.ltb_spec (Z.of_nat (length p)) 0); [lia|]. rewrite Nat2Z.id. cbn [option_map]. apply nth_error_None. rewrite map_length. lia.
  - assert (Lp : (length (p ++ y :: q) = S (length p + length q))%nat) by (rewrite app_length; cbn [length]; lia).
    rewrite (test_i s (p ++ y :: q) (Z.of_nat (length p)) (Some y) Sa Si); [|apply near_small; lia|apply seq_get_at]. cbn [tbind fst snd].
    rewrite (does_set _ s _ s_j (EIdent s_i) (VInt (Z.of_nat (length p))) [ints (p ++ y :: q)]) by (cbn [lsays]; rewrite Si; reflexivity).
    set (s1 := put_in s s_j (VInt (Z.of_nat (length p)))). rewrite does_cons. change (ldoes (lstmt n) s1 [ints (p ++ y :: q)] sinks) with (lstmt (S n) s1 [ints (p ++ y :: q)] sinks).
    destruct (inner_runs (rev p) y q (S n) s1) as (s2 & R & A & B); [rewrite rev_length; lia|rewrite rev_involutive; lia|exact Sa|unfold s1; rewrite rev_length; reflexivity|].
    rewrite rev_involutive in R. rewrite R. cbn [tbind]. change q with ([] ++ q) at 1. rewrite sink_app. set (p2 := sink (rev p) y []).
    pose proof (sink_perm (rev p) y []) as Pm. rewrite rev_involutive in Pm. fold p2 in Pm.
    assert (L2 : length p2 = S (length p)) by (rewrite <- (Permutation_length Pm), app_length; cbn [length]; lia).
    assert (Si2 : s2 s_i = Some (VInt (Z.of_nat (length p)))) by (rewrite B; exact Si).
    rewrite (does_set _ s2 _ s_i (EBin BAdd (EIdent s_i) (EInt 1)) (VInt (Z.of_nat (length p2))) [ints (p2 ++ q)]).
    2:{ cbn [lsays]. rewrite Si2. cbn [tbind fst snd lmeans2 means2 arith tell]. rewrite fits64_in by lia. cbn [tell tbind]. do 3 f_equal. lia. }
    cbn [ldoes_all tbind]. destruct (IH p2 n (put_in s2 s_i (VInt (Z.of_nat (length p2))))) as (s' & zs & R' & A' & P' & S').
    + rewrite app_length, L2. cbn [length] in Hn. lia.
    + rewrite app_length, L2. lia.
    + apply sink_sorted; [rewrite rev_involutive, app_nil_r; exact So|constructor].
    + exact A.
    + reflexivity.
    + exists s', zs. split; [exact R'|]. split; [exact A'|]. split; [|exact S']. rewrite <- P'. change (y :: q) with ([y] ++ q). rewrite app_assoc. apply Permutation_app_tail. exact Pm.
Qed.

Definition small (z : Z) : Prop := - 2 ^ 63 < z < 2 ^ 63.

Lemma lit_says s h z : small z -> lsays s h (lit z) = Told (VInt z, h).
Proof.
  intros H. unfold small in H. unfold lit. destruct (Z.ltb_spec z 0); [|reflexivity]. cbn [lsays tbind fst snd means1]. rewrite fits64_in by lia. cbn [tell tbind]. rewrite Z.opp_involutive. reflexivity.
Qed.

Lemma lits_items s : forall zs xs, Forall small zs -> Z.of_nat (length xs + length zs) < 2 ^ 30 -> litems s 0 [ints xs] (lits zs) = Told [ints (xs ++ zs)].
Proof.
  induction zs as [|z zs IH]; intros xs F L; [cbn; rewrite app_nil_r; reflexivity|]. inversion F; subst. cbn [lits].
  change (litems s 0 [ints xs] (ECons (lit z) (lits zs))) with (tbind (lsays s [ints xs] (lit z)) (fun p => let ys := nth 0 (snd p) [] in if short ys then litems s 0 (upd (snd p) 0 (ys ++ [fst p])) (lits zs) else Deep)).
  rewrite lit_says by assumption. cbn [tbind fst snd nth upd]. unfold short. rewrite map_length. cbn [length] in L. replace (Z.of_nat (length xs) <? 2 ^ 30) with true by (symmetry; apply Z.ltb_lt; lia).
  change [VInt z] with (ints [z]). rewrite <- map_app, IH; [rewrite <- app_assoc; reflexivity|assumption|rewrite app_length; cbn [length]; lia].
Qed.

Lemma sort_told zs : Forall small zs -> Z.of_nat (length zs) < 2 ^ 30 - 1 -> exists n ys, ltold (sort_program zs) n = Told (LGave [VRef 0] [ints ys]) /\ Permutation zs ys /\ StronglySorted Z.le ys.
Proof.
  intros F L. set (n := (length zs + length zs + 1)%nat). exists (S n). unfold ltold. cbn [lstmt].
  change (ldoes (lstmt n) nothing [] (SComp (sort_program zs))) with (ldoes_all (lstmt n) nothing [] (sort_program zs)). unfold sort_program.
  rewrite (does_set _ nothing [] s_a (EList (lits zs)) (VRef 0) [ints zs]).
  2:{ change (lsays nothing [] (EList (lits zs))) with (tbind (litems nothing 0 [ints []] (lits zs)) (fun h1 => Told (VRef 0, h1))). rewrite lits_items by (cbn [length]; auto; lia). reflexivity. }
  rewrite (does_set _ _ _ s_i (EInt 1) (VInt 1) [ints zs]) by reflexivity. set (s := put_in (put_in nothing s_a (VRef 0)) s_i (VInt 1)). rewrite does_cons.
  change (ldoes (lstmt n) s [ints zs] sorts) with (lstmt (S n) s [ints zs] sorts).
  assert (R : exists s' ys, lstmt (S n) s [ints zs] sorts = Told (LFell s' [ints ys]) /\ s' s_a = Some (VRef 0) /\ Permutation zs ys /\ StronglySorted Z.le ys).
  { destruct zs as [|z zs].
    - exists s, []. split; [reflexivity|]. split; [reflexivity|]. split; constructor.
    - apply (outer_runs zs [z] (S n) s); [unfold n; cbn [app length]; lia|exact L|repeat constructor|reflexivity|reflexivity]. }
  destruct R as (s' & ys & -> & A & P & S). exists ys. cbn [tbind]. rewrite does_cons.
  change (ldoes (lstmt n) s' [ints ys] (SReturn (EIdent s_a))) with (tbind (tbind (match s' s_a with Some v => Told (v, [ints ys]) | None => Wrong end) (fun p => Told ([fst p], snd p))) (fun p => Told (LGave (fst p) (snd p)))).
  rewrite A. auto.
Qed.

Lemma lits_simple zs : lsimples (lits zs) /\ lnameds (lits zs) = [] /\ forall a, a + 2 <= 16 -> fits_items 16 (lits zs) a = true.
Proof.
  induction zs as [|z zs (A & B & C)]; [cbn; auto|]. cbn [lits lsimples lnameds fits_items]. unfold lit.
  destruct (z <? 0); cbn [lnamed fits_expr lsimple]; (split; [split; [try (split; [discriminate|]); exact I|exact A]|]); (split; [exact B|]); intros a Ha; rewrite C by exact Ha;
    rewrite !andb_true_iff, !Z.leb_le; lia.
Qed.

Lemma sort_runs src zs : text_ok src -> slen src < 2 ^ 26 -> reads src (sort_program zs) -> Forall small zs -> Z.of_nat (length zs) < 2 ^ 30 - 1 ->
  exists x ys, compile src = ROk x /\ Permutation zs ys /\ StronglySorted Z.le ys /\
  forall E cap m, 256 <= cap -> m_pend m = false -> unknown E m [s_a; s_i; s_j; s_t] ->
  exists j l m', steps E cap x j (vm_start m) = SDone [VRef l] m' /\ forall i, - 2 ^ 31 <= i < 2 ^ 31 -> exists m2, select_of E m' (VRef l) (VInt i) = OOk (seq_get (ints ys) i, m2).
Proof.
  intros T L R F Ln. destruct (lits_simple zs) as (A & B & C).
  destruct (lperforms src (sort_program zs) [s_a; s_i; s_j; s_t] T L R) as (x & Cp & H).
  - cbn -[lsimples lits]. intuition discriminate.
  - cbn -[lits lnameds]. rewrite B. intros y. cbn. tauto.
  - split; [repeat constructor; vm_compute; try discriminate; reflexivity|left; cbn; lia].
  - unfold sort_program. cbn [fits_stmts set_ fits_stmt fits_expr tuple_len]. rewrite C by lia. reflexivity.
  - destruct (sort_told zs F Ln) as (n & ys & Q & P & S). exists x, ys. split; [exact Cp|]. split; [exact P|]. split; [exact S|]. intros E cap m Hc Pe Un.
    destruct (H E cap m Hc Pe Un) as [D _]. specialize (D n). rewrite Q in D. destruct D as (j & b & m' & J & Sh). exists j, (b + 0)%nat, m'. split; [exact J|].
    intros i Hi. destruct (Sh 0%nat (ints ys) i eq_refl Hi) as (m2 & G). exists m2. rewrite G. do 2 f_equal. unfold seq_get, zget. destruct (i <? 0); [reflexivity|].
    rewrite nth_error_map. destruct (nth_error ys (Z.to_nat i)); reflexivity.
Qed.
