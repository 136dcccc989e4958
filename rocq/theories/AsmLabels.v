(** The assembler on well-written texts: labels. *)
From Coq Require Import ZArith List Lia Bool String.
From Verif Require Import Base StringModel FloatModel ExeModel ExeSpec ExeProofs AsmModel AsmProofs AsmSpec AsmRound FloatProofs.
From Coq Require Import Floats.SpecFloat.
Import ListNotations.
Open Scope list_scope.
Open Scope Z_scope.

(** * The history of builder calls made for a program *)
Definition ev_name (l : labels) (n : nat) (name : list Z) : labels * nat * list bevent * nat :=
  match find_label l name with Some p => (l, n, [], p) | None => ((name, n) :: l, S n, [EvLabel], n) end.

Definition ev_label (l : labels) (n : nat) (i : Z) (lab : option (list Z)) : labels * nat * list bevent :=
  match lab with None => (l, n, []) | Some m => let '(l', n', e, p) := ev_name l n m in (l', n', e ++ [EvSet p i]) end.

Fixpoint ev_args (l : labels) (n : nat) (ags : list arg) : labels * nat * list bevent * list operand :=
  match ags with
  | [] => (l, n, [], [])
  | a :: r =>
    let '(l1, n1, e1, o) :=
      match a with
      | GInt z => (l, n, [], PInt z)
      | GStr s => (l, n, [], PStr s)
      | GLab m => let '(l', n', e, p) := ev_name l n m in (l', n', e, PProm p)
      | GFlt v => (l, n, [], PFlt v)
      end in
    let '(l2, n2, e2, os) := ev_args l1 n1 r in (l2, n2, e1 ++ e2, o :: os)
  end.

Fixpoint ev_lines (l : labels) (n : nat) (i : Z) (offs : list (Z * Z)) (prog : list line) : labels * list bevent :=
  match prog with
  | [] => (l, [])
  | ln :: r =>
    let '(l1, n1, e1) := ev_label l n i (ln_label ln) in
    let '(l2, n2, e2, os) := ev_args l1 n1 (ln_args ln) in
    let '(l3, e3) := ev_lines l2 n2 (i + 1) (List.tl offs) r in
    (l3, e1 ++ e2 ++ EvEmit (ln_op ln) os (fst (hd (0, 0) offs)) (snd (hd (0, 0) offs)) :: e3)
  end.

Definition ares_of (l : labels) (r : res builder) : ares (labels * builder) :=
  match r with ROk b => AOk (l, b) | RErr => AErr | RUB => AUB end.

Lemma build_app e1 : forall e2 b, build b (e1 ++ e2) = match build b e1 with ROk b' => build b' e2 | RErr => RErr | RUB => RUB end.
Proof. induction e1 as [|e e1 IH]; intros e2 b; cbn [app build]; [reflexivity|]. destruct (bstep b e); auto. Qed.

Lemma ev_name_build l b name : let '(l', n', e, p) := ev_name l (List.length (b_proms b)) name in
  exists b', get_label l b name = (l', b', p) /\ build b e = ROk b' /\ List.length (b_proms b') = n' /\ exeb_count b' = exeb_count b.
Proof.
  unfold ev_name, get_label. destruct (find_label l name) as [p|].
  - exists b. cbn. auto.
  - exists (exeb_label b). cbn. rewrite app_length. cbn. split; [reflexivity|]. split; [reflexivity|]. split; [lia|reflexivity].
Qed.

Lemma ev_label_build l b lab : let '(l', n', e) := ev_label l (List.length (b_proms b)) (exeb_count b) lab in
  step_label l b lab = ares_of l' (build b e) /\
  forall b', build b e = ROk b' -> List.length (b_proms b') = n' /\ exeb_count b' = exeb_count b.
Proof.
  unfold ev_label, step_label. destruct lab as [m|]; [|cbn; split; [reflexivity|intros b' [= <-]; auto]].
  pose proof (ev_name_build l b m) as H. destruct (ev_name l (List.length (b_proms b)) m) as [[[l' n'] e] p].
  destruct H as (b' & H1 & H2 & H3 & H4). unfold set_label. rewrite H1, build_app, H2. cbn [build bstep]. unfold exeb_resolve.
  destruct (nth_error (b_proms b') p); cbn; (split; [reflexivity|]); [|discriminate].
  intros b2 [= <-]. unfold exeb_count in *. cbn. rewrite upd_length, map_length. auto.
Qed.

Lemma ev_args_build ags : forall l b, let '(l', n', e, os) := ev_args l (List.length (b_proms b)) ags in
  exists b', conv_args l b ags = (l', b', os) /\ build b e = ROk b' /\ List.length (b_proms b') = n' /\ exeb_count b' = exeb_count b.
Proof.
  induction ags as [|a ags IH]; intros l b; cbn [ev_args conv_args]; [exists b; cbn; auto|].
  destruct a as [z|s|m|v]; cbn [conv_arg].
  - specialize (IH l b). destruct (ev_args l (List.length (b_proms b)) ags) as [[[l2 n2] e2] os]. destruct IH as (b' & H1 & H2 & H3 & H4).
    exists b'. rewrite H1. cbn [app]. auto.
  - specialize (IH l b). destruct (ev_args l (List.length (b_proms b)) ags) as [[[l2 n2] e2] os]. destruct IH as (b' & H1 & H2 & H3 & H4).
    exists b'. rewrite H1. cbn [app]. auto.
  - pose proof (ev_name_build l b m) as H. destruct (ev_name l (List.length (b_proms b)) m) as [[[l1 n1] e1] p].
    destruct H as (b1 & H1 & H2 & H3 & H4). rewrite H1. subst n1. specialize (IH l1 b1).
    destruct (ev_args l1 (List.length (b_proms b1)) ags) as [[[l2 n2] e2] os]. destruct IH as (b' & I1 & I2 & I3 & I4).
    exists b'. rewrite I1, build_app, H2. split; [reflexivity|]. split; [exact I2|]. split; [exact I3|congruence].
  - specialize (IH l b). destruct (ev_args l (List.length (b_proms b)) ags) as [[[l2 n2] e2] os]. destruct IH as (b' & H1 & H2 & H3 & H4).
    exists b'. rewrite H1. cbn [app]. auto.
Qed.

Lemma append_count b op os off len b' : exeb_append b op os off len = ROk b' -> List.length (b_proms b') = List.length (b_proms b) /\ exeb_count b' = exeb_count b + 1.
Proof.
  unfold exeb_append. destruct (negb _); [discriminate|]. destruct (put_operands _ _ _ _ _) as [[[d c] ss]| |]; try discriminate.
  intros [= <-]. unfold exeb_count. cbn. rewrite app_length. cbn. split; [reflexivity|lia].
Qed.

Lemma ev_lines_build prog : forall l b offs, let '(l', e) := ev_lines l (List.length (b_proms b)) (exeb_count b) offs prog in
  run_lines l b offs prog = ares_of l' (build b e).
Proof.
  induction prog as [|ln prog IH]; intros l b offs; cbn [ev_lines run_lines]; [reflexivity|].
  pose proof (ev_label_build l b (ln_label ln)) as H.
  destruct (ev_label l (List.length (b_proms b)) (exeb_count b) (ln_label ln)) as [[l1 n1] e1]. destruct H as [H1 H2]. rewrite H1.
  destruct (build b e1) as [b1| |] eqn:E1; cbn [ares_of].
  2,3: destruct (ev_args l1 n1 (ln_args ln)) as [[[l2 n2] e2] os]; destruct (ev_lines l2 n2 _ _ prog) as [l3 e3]; rewrite build_app, E1; reflexivity.
  destruct (H2 b1 eq_refl) as [<- H4]. pose proof (ev_args_build (ln_args ln) l1 b1) as H.
  destruct (ev_args l1 (List.length (b_proms b1)) (ln_args ln)) as [[[l2 n2] e2] os]. destruct H as (b2 & H5 & H6 & H7 & H8). rewrite H5.
  destruct (exeb_append b2 (ln_op ln) os (fst (hd (0, 0) offs)) (snd (hd (0, 0) offs))) as [b3| |] eqn:EA.
  - destruct (append_count _ _ _ _ _ _ EA) as [A1 A2]. specialize (IH l2 b3 (List.tl offs)).
    replace (exeb_count b3) with (exeb_count b + 1) in IH by congruence. rewrite A1, H7 in IH.
    destruct (ev_lines l2 n2 (exeb_count b + 1) (List.tl offs) prog) as [l3 e3]. rewrite IH, build_app, E1, build_app, H6.
    cbn [build bstep]. rewrite EA. reflexivity.
  - destruct (ev_lines l2 n2 _ _ prog) as [l3 e3]. rewrite build_app, E1, build_app, H6. cbn [build bstep]. rewrite EA. reflexivity.
  - destruct (ev_lines l2 n2 _ _ prog) as [l3 e3]. rewrite build_app, E1, build_app, H6. cbn [build bstep]. rewrite EA. reflexivity.
Qed.

(** * Labels and promises *)
(** Distinct names have distinct promises, all of them existing. *)
Definition lab_ok (l : labels) (n : nat) : Prop :=
  (forall a p, find_label l a = Some p -> (p < n)%nat) /\
  (forall a b p, find_label l a = Some p -> find_label l b = Some p -> a = b).

Definition extends (l l' : labels) : Prop := forall a p, find_label l a = Some p -> find_label l' a = Some p.

Lemma bytes_eqb_refl a : bytes_eqb a a = true.
Proof. apply bytes_eqb_eq. reflexivity. Qed.

Lemma find_cons a x l : find_label (x :: l) a = if bytes_eqb a (fst x) then Some (snd x) else find_label l a.
Proof. destruct x. reflexivity. Qed.

Lemma ev_name_ok l n name l' n' e p : lab_ok l n -> ev_name l n name = (l', n', e, p) ->
  lab_ok l' n' /\ extends l l' /\ (n <= n')%nat /\ find_label l' name = Some p /\
  (forall a, find_label l' a <> None -> find_label l a <> None \/ a = name) /\
  ((e = [] /\ n' = n) \/ (e = [EvLabel] /\ n' = S n /\ find_label l name = None /\ p = n)).
Proof.
  intros [O1 O2]. unfold ev_name. destruct (find_label l name) as [q|] eqn:E; intros [= <- <- <- <-].
  - repeat split; auto. unfold extends. auto.
  - repeat split.
    + intros a q. rewrite find_cons. cbn [fst snd]. destruct (bytes_eqb a name); [intros [= <-]; lia|]. intros H. specialize (O1 _ _ H). lia.
    + intros a b q. rewrite !find_cons. cbn [fst snd]. destruct (bytes_eqb a name) eqn:Ea, (bytes_eqb b name) eqn:Eb.
      * apply bytes_eqb_eq in Ea, Eb. congruence.
      * intros [= <-] H. specialize (O1 _ _ H). lia.
      * intros H [= <-]. specialize (O1 _ _ H). lia.
      * eauto.
    + intros a q H. rewrite find_cons. cbn [fst snd]. destruct (bytes_eqb a name) eqn:Ea; [|exact H]. apply bytes_eqb_eq in Ea. congruence.
    + lia.
    + rewrite find_cons. cbn [fst snd]. rewrite bytes_eqb_refl. reflexivity.
    + intros a. rewrite find_cons. cbn [fst snd]. destruct (bytes_eqb a name) eqn:Ea; [|auto]. apply bytes_eqb_eq in Ea. auto.
    + right. auto.
Qed.

Definition all_label (e : list bevent) : Prop := Forall (fun x => x = EvLabel) e.

Lemma ev_args_ok ags : forall l n l' n' e os, lab_ok l n -> ev_args l n ags = (l', n', e, os) ->
  lab_ok l' n' /\ extends l l' /\ (n <= n')%nat /\ e = repeat EvLabel (n' - n) /\
  (forall a, find_label l' a <> None -> find_label l a <> None \/ In (GLab a) ags) /\
  (forall a p, find_label l' a = Some p -> find_label l a = Some p \/ (n <= p)%nat).
Proof.
  induction ags as [|a ags IH]; intros l n l' n' e os O; cbn [ev_args].
  - intros [= <- <- <- <-]. rewrite Nat.sub_diag. repeat split; try apply O; auto. unfold extends. auto.
  - destruct a as [z|s|m|v].
    + destruct (ev_args l n ags) as [[[l2 n2] e2] os2] eqn:E. intros [= <- <- <- <-]. destruct (IH _ _ _ _ _ _ O E) as (A & B & C & D & F & G).
      cbn [app]. split; [exact A|]. split; [exact B|]. split; [exact C|]. split; [exact D|]. split; [|exact G]. intros a Ha. destruct (F a Ha); auto. right. right. assumption.
    + destruct (ev_args l n ags) as [[[l2 n2] e2] os2] eqn:E. intros [= <- <- <- <-]. destruct (IH _ _ _ _ _ _ O E) as (A & B & C & D & F & G).
      cbn [app]. split; [exact A|]. split; [exact B|]. split; [exact C|]. split; [exact D|]. split; [|exact G]. intros a Ha. destruct (F a Ha); auto. right. right. assumption.
    + destruct (ev_name l n m) as [[[l1 n1] e1] p] eqn:EN. destruct (ev_name_ok _ _ _ _ _ _ _ O EN) as (O1 & X1 & L1 & F1 & N1 & S1).
      destruct (ev_args l1 n1 ags) as [[[l2 n2] e2] os2] eqn:E. intros [= <- <- <- <-]. destruct (IH _ _ _ _ _ _ O1 E) as (A & B & C & D & F & G).
      split; [exact A|]. split; [intros a q H; apply B, X1, H|]. split; [lia|]. split.
      { rewrite D. destruct S1 as [[-> ->]|[-> [-> _]]]; [reflexivity|]. replace (n2 - n)%nat with (S (n2 - S n)) by lia. reflexivity. }
      split.
      { intros a Ha. destruct (F a Ha) as [H|H]; [|right; right; assumption]. destruct (N1 a H) as [H'| ->]; [auto|]. right. left. reflexivity. }
      intros a q H. destruct (G a q H) as [H'|H']; [|right; lia].
      unfold ev_name in EN. destruct (find_label l m) as [q0|] eqn:Em; injection EN as <- <- <- <-; [auto|].
      rewrite find_cons in H'. cbn [fst snd] in H'. destruct (bytes_eqb a m); [injection H' as <-; right; lia|auto].
    + destruct (ev_args l n ags) as [[[l2 n2] e2] os2] eqn:E. intros [= <- <- <- <-]. destruct (IH _ _ _ _ _ _ O E) as (A & B & C & D & F & G).
      cbn [app]. split; [exact A|]. split; [exact B|]. split; [exact C|]. split; [exact D|]. split; [|exact G]. intros a Ha. destruct (F a Ha); auto. right. right. assumption.
Qed.

(** The operands an argument list is turned into. *)
Definition arg_op (l : labels) (a : arg) (o : operand) : Prop :=
  match a with
  | GInt z => o = PInt z
  | GStr s => o = PStr s
  | GLab m => exists p, o = PProm p /\ find_label l m = Some p
  | GFlt v => o = PFlt v
  end.

Lemma arg_op_extends l l' a o : extends l l' -> arg_op l a o -> arg_op l' a o.
Proof. intros X. destruct a; cbn; auto. intros (p & H1 & H2). exists p. split; [exact H1|apply X, H2]. Qed.

Lemma ev_args_ops ags : forall l n l' n' e os, lab_ok l n -> ev_args l n ags = (l', n', e, os) -> Forall2 (arg_op l') ags os.
Proof.
  induction ags as [|a ags IH]; intros l n l' n' e os O; cbn [ev_args].
  - intros [= <- <- <- <-]. constructor.
  - destruct a as [z|s|m|v].
    + destruct (ev_args l n ags) as [[[l2 n2] e2] os2] eqn:E. intros [= <- <- <- <-]. constructor; [reflexivity|]. eapply IH; eauto.
    + destruct (ev_args l n ags) as [[[l2 n2] e2] os2] eqn:E. intros [= <- <- <- <-]. constructor; [reflexivity|]. eapply IH; eauto.
    + destruct (ev_name l n m) as [[[l1 n1] e1] p] eqn:EN. destruct (ev_name_ok _ _ _ _ _ _ _ O EN) as (O1 & X1 & L1 & F1 & N1 & S1).
      destruct (ev_args l1 n1 ags) as [[[l2 n2] e2] os2] eqn:E. intros [= <- <- <- <-]. constructor; [|eapply IH; eauto].
      destruct (ev_args_ok _ _ _ _ _ _ _ O1 E) as (_ & B & _). exists p. split; [reflexivity|apply B, F1].
    + destruct (ev_args l n ags) as [[[l2 n2] e2] os2] eqn:E. intros [= <- <- <- <-]. constructor; [reflexivity|]. eapply IH; eauto.
Qed.

(** * Values of labels *)
Lemma first_set_labels k E p : first_set (repeat EvLabel k ++ E) p = first_set E p.
Proof. induction k; cbn; auto. Qed.

Lemma same_label_iff a ln : same_label a ln = true <-> ln_label ln = Some a.
Proof. unfold same_label. destruct (ln_label ln) as [m|]; [|split; discriminate]. destruct (list_eq_dec Z.eq_dec a m) as [->|N]; split; congruence. Qed.

Lemma first_set_lines prog : forall l n i offs l' e a p, lab_ok l n -> ev_lines l n i offs prog = (l', e) -> find_label l a = Some p ->
  first_set e p = first_line a i prog.
Proof.
  induction prog as [|ln prog IH]; intros l n i offs l' e a p O; cbn [ev_lines first_line].
  - intros [= <- <-] _. reflexivity.
  - destruct (ev_label l n i (ln_label ln)) as [[l1 n1] e1] eqn:EL. destruct (ev_args l1 n1 (ln_args ln)) as [[[l2 n2] e2] os] eqn:EA.
    destruct (ev_lines l2 n2 (i + 1) (List.tl offs) prog) as [l3 e3] eqn:E3. intros [= <- <-] F.
    assert (T : lab_ok l1 n1 /\ extends l l1 /\ forall E, first_set (e1 ++ E) p = if same_label a ln then Some i else first_set E p).
    { unfold ev_label in EL. unfold same_label. destruct (ln_label ln) as [m|].
      - destruct (ev_name l n m) as [[[l' n'] e'] q] eqn:EN. injection EL as <- <- <-.
        destruct (ev_name_ok _ _ _ _ _ _ _ O EN) as (O1 & X1 & L1 & F1 & N1 & S1). split; [exact O1|]. split; [exact X1|]. intros E.
        assert (first_set ((e' ++ [EvSet q i]) ++ E) p = if Nat.eqb q p then Some i else first_set E p) as ->.
        { destruct S1 as [[-> _]|[-> _]]; reflexivity. }
        destruct (Nat.eqb_spec q p) as [->|N]; destruct (list_eq_dec Z.eq_dec a m) as [->|N']; auto.
        + exfalso. apply N'. destruct O1 as [_ O1]. eapply O1; [apply X1, F|exact F1].
        + exfalso. apply N. apply X1 in F. congruence.
      - injection EL as <- <- <-. split; [exact O|]. split; [intros ? ? H; exact H|]. intros E. reflexivity. }
    destruct T as (O1 & X1 & T). rewrite T. destruct (same_label a ln); [reflexivity|].
    destruct (ev_args_ok _ _ _ _ _ _ _ O1 EA) as (O2 & X2 & L2 & -> & _). rewrite first_set_labels. cbn [first_set].
    eapply IH; [exact O2|exact E3|apply X2, X1, F].
Qed.

Definition li (l : labels) (ls : list (option Z)) (done : list line) : Prop :=
  lab_ok l (List.length ls) /\
  (forall a p, find_label l a = Some p -> nth_error ls p = Some (last_line a 0 done)) /\
  (forall a, find_label l a = None -> last_line a 0 done = None).

Lemma last_line_app a d1 : forall i d2, last_line a i (d1 ++ d2) =
  match last_line a (i + Z.of_nat (List.length d1)) d2 with Some j => Some j | None => last_line a i d1 end.
Proof.
  induction d1 as [|ln d1 IH]; intros i d2; cbn [app last_line List.length].
  - rewrite Z.add_0_r. destruct (last_line a i d2); reflexivity.
  - rewrite IH. replace (i + 1 + Z.of_nat (List.length d1)) with (i + Z.of_nat (S (List.length d1))) by lia.
    destruct (last_line a (i + Z.of_nat (S (List.length d1))) d2); reflexivity.
Qed.

Lemma last_line_snoc a done ln : last_line a 0 (done ++ [ln]) = if same_label a ln then Some (Z.of_nat (List.length done)) else last_line a 0 done.
Proof. rewrite last_line_app. cbn [last_line]. rewrite Z.add_0_l. destruct (same_label a ln); reflexivity. Qed.

Lemma li_labels l ls done l' n' ags e os : li l ls done -> ev_args l (List.length ls) ags = (l', n', e, os) ->
  li l' (ls ++ repeat None (n' - List.length ls)) done /\ List.length (ls ++ repeat (@None Z) (n' - List.length ls)) = n'.
Proof.
  intros (O & V & N) E. destruct (ev_args_ok _ _ _ _ _ _ _ O E) as (O2 & X & L & -> & F & G).
  assert (LE : List.length (ls ++ repeat (@None Z) (n' - List.length ls)) = n') by (rewrite app_length, repeat_length; lia).
  split; [|exact LE]. unfold li. rewrite LE. split; [exact O2|]. split.
  - intros a p H. destruct (find_label l a) as [q|] eqn:Ea.
    + assert (q = p) as -> by (apply X in Ea; congruence). rewrite nth_error_app1 by (destruct O as [O _]; eapply O; exact Ea). apply V. exact Ea.
    + destruct (G a p H) as [H'|H']; [congruence|]. rewrite nth_error_app2 by lia. rewrite (N a Ea).
      destruct O2 as [O2 _]. specialize (O2 _ _ H). rewrite nth_error_repeat by lia. reflexivity.
  - intros a Ha. apply N. destruct (find_label l a) as [q|] eqn:Ea; [|reflexivity]. apply X in Ea. congruence.
Qed.

(** The values of the labels after a history. *)
Fixpoint proms_after (ls : list (option Z)) (evs : list bevent) : list (option Z) :=
  match evs with
  | [] => ls
  | EvLabel :: r => proms_after (ls ++ [None]) r
  | EvSet p v :: r => proms_after (upd ls p (Some v)) r
  | EvEmit _ _ _ _ :: r => proms_after ls r
  end.

Lemma proms_labels k : forall ls E, proms_after ls (repeat EvLabel k ++ E) = proms_after (ls ++ repeat None k) E.
Proof.
  induction k as [|k IH]; intros ls E; cbn [repeat app proms_after]; [rewrite app_nil_r; reflexivity|].
  rewrite IH, <- app_assoc. reflexivity.
Qed.

Lemma proms_build evs : forall b b', build b evs = ROk b' -> b_proms b' = proms_after (b_proms b) evs.
Proof.
  induction evs as [|e evs IH]; intros b b'; cbn [build proms_after]; [intros [= <-]; reflexivity|].
  destruct (bstep b e) as [b1| |] eqn:E; try discriminate. intros H. rewrite (IH _ _ H). destruct e as [|p v|op os off len]; cbn [bstep] in E.
  - injection E as <-. reflexivity.
  - unfold exeb_resolve in E. destruct (nth_error (b_proms b) p); [|discriminate]. injection E as <-. reflexivity.
  - unfold exeb_append in E. destruct (negb _); [discriminate|]. destruct (put_operands _ _ _ _ _) as [[[d c] ss]| |]; try discriminate.
    injection E as <-. reflexivity.
Qed.

Lemma emitted_labels k : forall ls E, emitted ls (repeat EvLabel k ++ E) = emitted (ls ++ repeat None k) E.
Proof.
  induction k as [|k IH]; intros ls E; cbn [repeat app emitted]; [rewrite app_nil_r; reflexivity|].
  rewrite IH, <- app_assoc. reflexivity.
Qed.

Lemma li_label l ls done ln l' n' e : li l ls done -> ev_label l (List.length ls) (Z.of_nat (List.length done)) (ln_label ln) = (l', n', e) ->
  exists ls', li l' ls' (done ++ [ln]) /\ List.length ls' = n' /\ extends l l' /\ (forall E, emitted ls (e ++ E) = emitted ls' E) /\ (forall E, proms_after ls (e ++ E) = proms_after ls' E) /\
    (forall a, find_label l' a <> None -> find_label l a <> None \/ ln_label ln = Some a).
Proof.
  intros (O & V & N). unfold ev_label. destruct (ln_label ln) as [m|] eqn:EL.
  - destruct (ev_name l (List.length ls) m) as [[[l1 n1] e1] q] eqn:EN. intros [= <- <- <-].
    destruct (ev_name_ok _ _ _ _ _ _ _ O EN) as (O1 & X1 & L1 & F1 & N1 & S1).
    assert (SM : forall a, same_label a ln = true <-> a = m).
    { intros a. rewrite same_label_iff, EL. split; congruence. }
    set (ls1 := ls ++ repeat None (n1 - List.length ls)).
    assert (LE : List.length ls1 = n1) by (unfold ls1; rewrite app_length, repeat_length; lia).
    exists (upd ls1 q (Some (Z.of_nat (List.length done)))). split; [|split; [rewrite upd_length; exact LE|split; [exact X1|split; [|split]]]].
    + unfold li. rewrite upd_length, LE. split; [exact O1|]. split.
      * intros a p H. rewrite last_line_snoc. destruct (same_label a ln) eqn:Sa.
        -- apply SM in Sa. subst a. assert (p = q) as -> by congruence. apply nth_error_upd_same. rewrite LE. destruct O1 as [O1 _]. eapply O1; exact H.
        -- assert (a <> m) by (intros ->; rewrite (proj2 (SM m) eq_refl) in Sa; discriminate).
           assert (p <> q) by (intros ->; destruct O1 as [_ O1]; apply H0; eapply O1; eauto).
           rewrite nth_error_upd_other by congruence. unfold ls1. destruct (find_label l a) as [q0|] eqn:Ea.
           ++ assert (q0 = p) as -> by (apply X1 in Ea; congruence). rewrite nth_error_app1 by (destruct O as [O _]; eapply O; exact Ea). apply V. exact Ea.
           ++ destruct (N1 a ltac:(congruence)) as [H2|H2]; congruence.
      * intros a Ha. rewrite last_line_snoc. destruct (same_label a ln) eqn:Sa; [apply SM in Sa; congruence|]. apply N.
        destruct (find_label l a) as [q0|] eqn:Ea; [|reflexivity]. apply X1 in Ea. congruence.
    + intros E. unfold ls1. destruct S1 as [[-> ->]|[-> [-> _]]].
      * rewrite Nat.sub_diag. cbn [repeat app emitted]. rewrite app_nil_r. reflexivity.
      * replace (S (List.length ls) - List.length ls)%nat with 1%nat by lia. reflexivity.
    + intros E. unfold ls1. destruct S1 as [[-> ->]|[-> [-> _]]].
      * rewrite Nat.sub_diag. cbn [repeat app proms_after]. rewrite app_nil_r. reflexivity.
      * replace (S (List.length ls) - List.length ls)%nat with 1%nat by lia. reflexivity.
    + intros a Ha. destruct (N1 a Ha) as [H|H]; [auto|right; congruence].
  - intros [= <- <- <-]. exists ls. split; [|auto 6 using (fun a p (H : find_label l a = Some p) => H)].
    + split; [exact O|]. assert (SM : forall a, same_label a ln = false) by (intros a; unfold same_label; rewrite EL; reflexivity).
      split; intros a; [intros p H|intros H]; rewrite last_line_snoc, SM; auto.
    + split; [reflexivity|]. split; [intros ? ? H; exact H|]. auto.
Qed.

(** * What is emitted *)
Definition dval (tgt : list Z -> option Z) (ty : optype) (a : arg) : option operand :=
  match a with
  | GInt z => Some (PInt z)
  | GStr s => Some (PStr s)
  | GLab m => option_map (fun v => match ty with TIdx => PIdx v | TInt => PInt v | TFlt => PFlt (u64 v) | TStr => PStr [] end) (tgt m)
  | GFlt v => Some (PFlt v)
  end.

Fixpoint dvals (tgt : list Z -> option Z) (tys : list optype) (ags : list arg) : list (option operand) :=
  match tys, ags with
  | ty :: tys', a :: ags' => dval tgt ty a :: dvals tgt tys' ags'
  | _, _ => []
  end.

Fixpoint lines_vals (prog : list line) (k : nat) (rest : list line) : list (opcode * list (option operand)) :=
  match rest with
  | [] => []
  | ln :: r => (ln_op ln, dvals (target prog k) (optypes (ln_op ln)) (ln_args ln)) :: lines_vals prog (S k) r
  end.

Lemma target_split done ln rest m : target (done ++ ln :: rest) (List.length done) m =
  match last_line m 0 (done ++ [ln]) with Some j => Some j | None => first_line m (Z.of_nat (S (List.length done))) rest end.
Proof.
  unfold target. replace (done ++ ln :: rest) with ((done ++ [ln]) ++ rest) by (rewrite <- app_assoc; reflexivity).
  set (d := done ++ [ln]). assert (E : S (List.length done) = List.length d) by (unfold d; rewrite app_length; cbn; lia). rewrite E.
  rewrite firstn_app, skipn_app, firstn_all, skipn_all, Nat.sub_diag. cbn [firstn skipn app]. rewrite app_nil_r. reflexivity.
Qed.

Lemma delivers_dvals tgt l ls future tys : (forall m p, find_label l m = Some p -> 
    (match nth_error ls p with Some (Some v) => Some v | _ => first_set future p end) = tgt m) ->
  forall ags os, Forall2 (arg_op l) ags os -> delivers ls future tys os = dvals tgt tys ags.
Proof.
  intros T. induction tys as [|ty tys IH]; intros ags os F; [reflexivity|]. destruct F as [|a o ags os A F]; [reflexivity|].
  cbn [delivers dvals]. f_equal; [|apply IH; exact F]. destruct a as [z|s|m|v]; cbn in A; [subst o; reflexivity|subst o; reflexivity| |subst o; reflexivity].
  destruct A as (p & -> & H). cbn [deliver dval]. rewrite (T m p H). destruct (tgt m); reflexivity.
Qed.

Lemma emitted_lines rest : forall l ls done offs l' e, li l ls done ->
  ev_lines l (List.length ls) (Z.of_nat (List.length done)) offs rest = (l', e) ->
  emitted ls e = lines_vals (done ++ rest) (List.length done) rest.
Proof.
  induction rest as [|ln rest IH]; intros l ls done offs l' e I; cbn [ev_lines lines_vals].
  - intros [= <- <-]. reflexivity.
  - destruct (ev_label l (List.length ls) (Z.of_nat (List.length done)) (ln_label ln)) as [[l1 n1] e1] eqn:EL.
    destruct (ev_args l1 n1 (ln_args ln)) as [[[l2 n2] e2] os] eqn:EA.
    destruct (ev_lines l2 n2 (Z.of_nat (List.length done) + 1) (List.tl offs) rest) as [l3 e3] eqn:E3. intros [= <- <-].
    destruct (li_label _ _ _ _ _ _ _ I EL) as (ls1 & I1 & Len1 & X1 & EM & _ & _). rewrite EM. subst n1.
    destruct (li_labels _ _ _ _ _ _ _ _ I1 EA) as (I2 & Len2). pose proof I1 as (O1 & _). destruct (ev_args_ok _ _ _ _ _ _ _ O1 EA) as (O2 & X2 & L2 & -> & _).
    rewrite emitted_labels. set (ls2 := ls1 ++ repeat None (n2 - List.length ls1)) in *. cbn [emitted]. f_equal.
    + f_equal. apply (delivers_dvals _ l2); [|exact (ev_args_ops _ _ _ _ _ _ _ O1 EA)]. intros m p H. destruct I2 as (_ & V & _). rewrite (V m p H), target_split.
      destruct (last_line m 0 (done ++ [ln])); [reflexivity|]. rewrite (first_set_lines _ _ _ _ _ _ _ _ _ O2 E3 H). f_equal. lia.
    + rewrite <- Len2 in E3. replace (Z.of_nat (List.length done) + 1) with (Z.of_nat (List.length (done ++ [ln]))) in E3 by (rewrite app_length; cbn; lia).
      rewrite (IH _ _ _ _ _ _ I2 E3). rewrite <- app_assoc. rewrite app_length. cbn [app List.length]. rewrite Nat.add_1_r. reflexivity.
Qed.

Lemma li_nil : li [] [] [].
Proof. repeat split; cbn; try discriminate. Qed.

(** * Types *)
Definition arg_typed (ty : optype) (a : arg) : Prop :=
  match a, ty with GInt _, TInt | GStr _, TStr | GFlt _, TFlt | GLab _, (TIdx | TInt | TFlt) => True | _, _ => False end.
Definition line_typed (ln : line) : Prop := Forall2 arg_typed (optypes (ln_op ln)) (ln_args ln).

Lemma typed_ops l n tys : forall ags os, lab_ok l n -> Forall2 (arg_op l) ags os ->
  (Forall2 (operand_typed n) tys os <-> Forall2 arg_typed tys ags).
Proof.
  induction tys as [|ty tys IH]; intros ags os O F.
  - destruct F as [|a o ags os A F]; split; intros HT; inversion HT; constructor.
  - destruct F as [|a o ags os A F]; [split; intros H; inversion H|].
    assert (T : operand_typed n ty o <-> arg_typed ty a).
    { destruct a as [z|s|m|v]; cbn in A; [subst o|subst o|destruct A as (p & -> & H)|subst o]; destruct ty; cbn; try tauto;
        destruct O as [O _]; specialize (O _ _ H); tauto. }
    specialize (IH ags os O F). split; intros H; inversion H; subst; constructor; tauto.
Qed.

Lemma typed_labels k : forall n E, history_typed n (repeat EvLabel k ++ E) <-> history_typed (n + k) E.
Proof.
  induction k as [|k IH]; intros n E; cbn [repeat app history_typed]; [rewrite Nat.add_0_r; tauto|].
  rewrite IH. replace (S n + k)%nat with (n + S k)%nat by lia. tauto.
Qed.

Lemma typed_lines prog : forall l n i offs l' e, lab_ok l n -> ev_lines l n i offs prog = (l', e) ->
  (history_typed n e <-> Forall line_typed prog).
Proof.
  induction prog as [|ln prog IH]; intros l n i offs l' e O; cbn [ev_lines].
  - intros [= <- <-]. cbn. split; auto.
  - destruct (ev_label l n i (ln_label ln)) as [[l1 n1] e1] eqn:EL. destruct (ev_args l1 n1 (ln_args ln)) as [[[l2 n2] e2] os] eqn:EA.
    destruct (ev_lines l2 n2 (i + 1) (List.tl offs) prog) as [l3 e3] eqn:E3. intros [= <- <-].
    assert (T : lab_ok l1 n1 /\ forall E, history_typed n (e1 ++ E) <-> history_typed n1 E).
    { unfold ev_label in EL. destruct (ln_label ln) as [m|].
      - destruct (ev_name l n m) as [[[l' n'] e'] q] eqn:EN. injection EL as <- <- <-.
        destruct (ev_name_ok _ _ _ _ _ _ _ O EN) as (O1 & X1 & L1 & F1 & N1 & S1). split; [exact O1|]. intros E.
        pose proof O1 as [O1' _]. specialize (O1' _ _ F1). destruct S1 as [[-> ->]|[-> [-> _]]]; cbn [app history_typed]; tauto.
      - injection EL as <- <- <-. split; [exact O|]. intros E. tauto. }
    destruct T as [O1 T]. rewrite T. destruct (ev_args_ok _ _ _ _ _ _ _ O1 EA) as (O2 & X2 & L2 & -> & _).
    rewrite typed_labels. replace (n1 + (n2 - n1))%nat with n2 by lia. cbn [history_typed].
    rewrite (typed_ops _ _ _ _ _ O2 (ev_args_ops _ _ _ _ _ _ _ O1 EA)), (IH _ _ _ _ _ _ O2 E3).
    split; [intros [A B]; constructor; assumption|intros A; inversion A; subst; split; assumption].
Qed.

Lemma args_value_iff tgt tys : forall ags os, args_value tgt tys ags = Some os <-> Forall2 arg_typed tys ags /\ dvals tgt tys ags = map Some os.
Proof.
  induction tys as [|ty tys IH]; intros [|a ags] os; cbn [args_value dvals].
  - split; [intros [= <-]; split; [constructor|reflexivity]|]. intros [_ H]. destruct os; [reflexivity|discriminate].
  - split; [discriminate|]. intros [H _]. inversion H.
  - split; [discriminate|]. intros [H _]. inversion H.
  - assert (V : arg_typed ty a -> arg_value tgt ty a = dval tgt ty a) by (destruct a, ty; cbn; try contradiction; reflexivity).
    assert (V' : arg_value tgt ty a <> None -> arg_typed ty a) by (destruct a, ty; cbn; try tauto).
    split.
    + destruct (arg_value tgt ty a) as [o|]; [|discriminate]. destruct (args_value tgt tys ags) as [os'|] eqn:E; [|discriminate]. intros [= <-].
      apply IH in E. destruct E as [E1 E2]. specialize (V' ltac:(discriminate)). split; [constructor; assumption|]. cbn [map]. rewrite <- (V V'), E2. reflexivity.
    + intros [H1 H2]. inversion H1; subst. destruct os as [|o os]; [discriminate|]. cbn [map] in H2. injection H2 as H2 H3.
      rewrite (V H4), H2. rewrite (proj2 (IH ags os) (conj H6 H3)). reflexivity.
Qed.

(** * The labels at the end *)
Lemma li_lines rest : forall l ls done offs l' e, li l ls done ->
  ev_lines l (List.length ls) (Z.of_nat (List.length done)) offs rest = (l', e) ->
  li l' (proms_after ls e) (done ++ rest) /\
  (forall a, find_label l' a <> None -> find_label l a <> None \/ exists ln, In ln rest /\ (ln_label ln = Some a \/ In (GLab a) (ln_args ln))).
Proof.
  induction rest as [|ln rest IH]; intros l ls done offs l' e I; cbn [ev_lines].
  - intros [= <- <-]. rewrite app_nil_r. split; [exact I|auto].
  - destruct (ev_label l (List.length ls) (Z.of_nat (List.length done)) (ln_label ln)) as [[l1 n1] e1] eqn:EL.
    destruct (ev_args l1 n1 (ln_args ln)) as [[[l2 n2] e2] os] eqn:EA.
    destruct (ev_lines l2 n2 (Z.of_nat (List.length done) + 1) (List.tl offs) rest) as [l3 e3] eqn:E3. intros [= <- <-].
    destruct (li_label _ _ _ _ _ _ _ I EL) as (ls1 & I1 & Len1 & X1 & _ & PM & N1). rewrite PM. subst n1.
    destruct (li_labels _ _ _ _ _ _ _ _ I1 EA) as (I2 & Len2). pose proof I1 as (O1 & _). destruct (ev_args_ok _ _ _ _ _ _ _ O1 EA) as (O2 & X2 & L2 & -> & N2 & _).
    rewrite proms_labels. set (ls2 := ls1 ++ repeat None (n2 - List.length ls1)) in *. cbn [proms_after].
    rewrite <- Len2 in E3. replace (Z.of_nat (List.length done) + 1) with (Z.of_nat (List.length (done ++ [ln]))) in E3 by (rewrite app_length; cbn; lia).
    destruct (IH _ _ _ _ _ _ I2 E3) as [J1 J2]. rewrite <- app_assoc in J1. split; [exact J1|]. intros a Ha.
    destruct (J2 a Ha) as [H|(ln' & H1 & H2)]; [|right; exists ln'; split; [right; exact H1|exact H2]].
    destruct (N2 a H) as [H'|H']; [|right; exists ln; split; [left; reflexivity|auto]].
    destruct (N1 a H') as [H2|H2]; [auto|]. right. exists ln. split; [left; reflexivity|auto].
Qed.

Definition uniq (l : labels) : Prop := forall a p, In (a, p) l -> find_label l a = Some p.

Lemma ev_name_uniq l n name l' n' e p : uniq l -> ev_name l n name = (l', n', e, p) -> uniq l'.
Proof.
  intros U. unfold ev_name. destruct (find_label l name) as [q|] eqn:E; intros [= <- <- <- <-]; [exact U|].
  intros a p [[= <- <-]|H]; rewrite find_cons; cbn [fst snd]; [rewrite bytes_eqb_refl; reflexivity|].
  specialize (U a p H). destruct (bytes_eqb a name) eqn:Ea; [apply bytes_eqb_eq in Ea; congruence|exact U].
Qed.

Lemma ev_args_uniq ags : forall l n l' n' e os, uniq l -> ev_args l n ags = (l', n', e, os) -> uniq l'.
Proof.
  induction ags as [|a ags IH]; intros l n l' n' e os U; cbn [ev_args]; [intros [= <- <- <- <-]; exact U|].
  destruct a as [z|s|m|v].
  - destruct (ev_args l n ags) as [[[l2 n2] e2] os2] eqn:E. intros [= <- <- <- <-]. eapply IH; eauto.
  - destruct (ev_args l n ags) as [[[l2 n2] e2] os2] eqn:E. intros [= <- <- <- <-]. eapply IH; eauto.
  - destruct (ev_name l n m) as [[[l1 n1] e1] p] eqn:EN. destruct (ev_args l1 n1 ags) as [[[l2 n2] e2] os2] eqn:E. intros [= <- <- <- <-].
    eapply IH; [eapply ev_name_uniq; eauto|exact E].
  - destruct (ev_args l n ags) as [[[l2 n2] e2] os2] eqn:E. intros [= <- <- <- <-]. eapply IH; eauto.
Qed.

Lemma ev_lines_uniq prog : forall l n i offs l' e, uniq l -> ev_lines l n i offs prog = (l', e) -> uniq l'.
Proof.
  induction prog as [|ln prog IH]; intros l n i offs l' e U; cbn [ev_lines]; [intros [= <- <-]; exact U|].
  destruct (ev_label l n i (ln_label ln)) as [[l1 n1] e1] eqn:EL. destruct (ev_args l1 n1 (ln_args ln)) as [[[l2 n2] e2] os] eqn:EA.
  destruct (ev_lines l2 n2 (i + 1) (List.tl offs) prog) as [l3 e3] eqn:E3. intros [= <- <-]. eapply IH; [|exact E3]. eapply ev_args_uniq; [|exact EA].
  unfold ev_label in EL. destruct (ln_label ln) as [m|]; [|injection EL as <- <- <-; exact U].
  destruct (ev_name l n m) as [[[l' n'] e'] q] eqn:EN. injection EL as <- <- <-. eapply ev_name_uniq; eauto.
Qed.

(** * Sizes *)
Definition arg_fits (a : arg) : Prop := match a with GInt z => in_i64 z | GStr s => Forall (fun c => 1 <= c < 256) s | GLab _ => True | GFlt v => is_bits v end.

Lemma chars_length s ts : Forall2 writes_char s ts -> (List.length s <= List.length (List.concat ts))%nat.
Proof. induction 1 as [|c t s ts W _ IH]; [cbn; lia|]. cbn [List.concat List.length]. rewrite app_length. destruct W; cbn [List.length]; lia. Qed.

Lemma mul_bits a b : is_bits (f_mul a b).
Proof.
  unfold f_mul, SFmul. destruct (f_decode a) as [s|s| |s m e], (f_decode b) as [s'|s'| |s' m' e']; try (apply round_aux_bits; lia).
  all: unfold is_bits, f_encode, sgn_bit; repeat match goal with |- context [xorb ?a ?b] => destruct (xorb a b) end;
    repeat match goal with s : bool |- _ => destruct s end; change (2 ^ 64) with 18446744073709551616; try change (2 ^ 63) with 9223372036854775808; lia.
Qed.

Lemma arg_size a t : writes_arg a t -> arg_fits a /\ 0 <= arg_bytes a <= Z.of_nat (List.length t).
Proof.
  intros [sg ds H1 H2 H3|s ts F L|n N|sg ds fs H1 H2 H3 H4]; cbn [arg_fits arg_bytes].
  - split; [|rewrite app_length; lia]. assert (0 <= digits_value ds) by (apply (fold_digits_mono ds 0 H1); lia). unfold in_i64. destruct sg; cbn; lia.
  - split; [eapply text_no_nul; exact F|]. cbn [List.length]. rewrite app_length. pose proof (chars_length _ _ F). cbn [List.length]. lia.
  - split; [exact I|lia].
  - split; [apply mul_bits|lia].
Qed.

Definition args_bytes (ags : list arg) : Z := fold_right Z.add 0 (map arg_bytes ags).

Lemma args_size ags t : writes_args ags t -> Forall arg_fits ags /\ 0 <= args_bytes ags <= Z.of_nat (List.length t).
Proof.
  induction 1 as [a t w W B|a t w w' r tr W B B' R [IH1 IH2]]; destruct (arg_size _ _ W) as [A1 A2]; unfold args_bytes in *; cbn [map fold_right].
  - split; [constructor; auto|]. rewrite app_length. lia.
  - split; [constructor; auto|]. rewrite !app_length. cbn [List.length]. rewrite app_length. lia.
Qed.

Lemma line_size ln t : writes_line ln t -> Forall arg_fits (ln_args ln) /\ 0 <= args_bytes (ln_args ln) <= Z.of_nat (List.length t).
Proof.
  intros [lab tl nm op w1 WL I B1|lab tl nm op w1 ags ta WL I B1 NB WA L8]; cbn [ln_args].
  - split; [constructor|]. unfold args_bytes. cbn. lia.
  - destruct (args_size _ _ WA) as [A1 A2]. split; [exact A1|]. rewrite !app_length. lia.
Qed.

Lemma args_bytes_app a b : fold_right Z.add 0 (map arg_bytes (a ++ b)) = args_bytes a + fold_right Z.add 0 (map arg_bytes b).
Proof. unfold args_bytes. induction a; cbn; lia. Qed.

Lemma prog_size prog text : writes prog text -> Forall (fun ln => Forall arg_fits (ln_args ln)) prog /\
  prog_bytes prog <= Z.of_nat (List.length text) /\ (List.length prog <= List.length text)%nat.
Proof.
  unfold prog_bytes. induction 1 as [w B|w ln t B W|w ln t r tr B W R (IH1 & IH2 & IH3)].
  - cbn. split; [constructor|lia].
  - destruct (line_size _ _ W) as [A1 A2]. pose proof (line_nonempty _ _ W). split; [constructor; [exact A1|constructor]|]. cbn [flat_map]. rewrite args_bytes_app, app_length. cbn. lia.
  - destruct (line_size _ _ W) as [A1 A2]. pose proof (line_nonempty _ _ W). split; [constructor; [exact A1|exact IH1]|]. cbn [flat_map]. rewrite args_bytes_app, !app_length. cbn [List.length]. lia.
Qed.

Lemma ops_ok l ags os : Forall2 (arg_op l) ags os -> Forall arg_fits ags -> Forall operand_ok os /\ fold_right Z.add 0 (map string_bytes os) = args_bytes ags.
Proof.
  unfold args_bytes. induction 1 as [|a o ags os A F IH]; intros H; [split; [constructor|reflexivity]|]. inversion H as [|? ? H1 H2]; subst. destruct (IH H2) as [I1 I2].
  cbn [map fold_right]. rewrite I2. destruct a; cbn in A; [subst o|subst o|destruct A as (p & -> & _)|subst o]; cbn; (split; [constructor; [cbn; auto|exact I1]|reflexivity]).
Qed.

Lemma data_labels k E : data_bytes (repeat EvLabel k ++ E) = data_bytes E.
Proof. induction k; cbn; auto. Qed.

Lemma ev_lines_ok prog : forall l n i offs l' e, lab_ok l n -> 0 <= i -> i + Z.of_nat (List.length prog) < 2 ^ 63 ->
  Forall (fun ln => Forall arg_fits (ln_args ln)) prog -> ev_lines l n i offs prog = (l', e) ->
  Forall event_ok e /\ data_bytes e = prog_bytes prog.
Proof.
  unfold prog_bytes. induction prog as [|ln prog IH]; intros l n i offs l' e O Hi Hl Hf; cbn [ev_lines].
  - intros [= <- <-]. split; [constructor|reflexivity].
  - inversion Hf as [|? ? F1 F2]; subst. cbn [List.length] in Hl.
    destruct (ev_label l n i (ln_label ln)) as [[l1 n1] e1] eqn:EL. destruct (ev_args l1 n1 (ln_args ln)) as [[[l2 n2] e2] os] eqn:EA.
    destruct (ev_lines l2 n2 (i + 1) (List.tl offs) prog) as [l3 e3] eqn:E3. intros [= <- <-].
    assert (T : lab_ok l1 n1 /\ Forall event_ok e1 /\ forall E, data_bytes (e1 ++ E) = data_bytes E).
    { unfold ev_label in EL. destruct (ln_label ln) as [m|].
      - destruct (ev_name l n m) as [[[l' n'] e'] q] eqn:EN. injection EL as <- <- <-.
        destruct (ev_name_ok _ _ _ _ _ _ _ O EN) as (O1 & X1 & L1 & _ & N1 & S1). split; [exact O1|].
        assert (event_ok (EvSet q i)) by (cbn; unfold in_i64; lia).
        destruct S1 as [[-> ->]|[-> [-> _]]]; (split; [cbn [app]; repeat (apply Forall_cons; [first [exact I|assumption]|]); apply Forall_nil|reflexivity]).
      - injection EL as <- <- <-. split; [exact O|]. split; [constructor|reflexivity]. }
    destruct T as (O1 & T1 & T2). destruct (ev_args_ok _ _ _ _ _ _ _ O1 EA) as (O2 & X2 & L2 & -> & _).
    destruct (ops_ok _ _ _ (ev_args_ops _ _ _ _ _ _ _ O1 EA) F1) as [P1 P2].
    destruct (IH l2 n2 (i + 1) (List.tl offs) l3 e3 O2 ltac:(lia) ltac:(lia) F2 E3) as [Q1 Q2]. split.
    + apply Forall_app. split; [exact T1|]. apply Forall_app. split; [|constructor; [exact P1|exact Q1]].
      apply Forall_forall. intros x Hx. apply repeat_spec in Hx. subst x. exact I.
    + rewrite T2, data_labels. cbn [data_bytes flat_map]. rewrite args_bytes_app, P2, Q2. reflexivity.
Qed.

(** * Assembling *)
Lemma nth_lines_vals prog rest : forall k j, nth_error (lines_vals prog k rest) j =
  match nth_error rest j with Some ln => Some (ln_op ln, dvals (target prog (k + j)) (optypes (ln_op ln)) (ln_args ln)) | None => None end.
Proof.
  induction rest as [|ln rest IH]; intros k j; [destruct j; reflexivity|]. destruct j as [|j]; cbn [lines_vals nth_error]; [rewrite Nat.add_0_r; reflexivity|].
  rewrite IH. replace (S k + j)%nat with (k + S j)%nat by lia. reflexivity.
Qed.

Lemma line_value_iff prog k op os : line_value prog k = Some (op, os) <->
  exists ln, nth_error prog k = Some ln /\ ln_op ln = op /\ line_typed ln /\ dvals (target prog k) (optypes (ln_op ln)) (ln_args ln) = map Some os.
Proof.
  unfold line_value, line_typed. destruct (nth_error prog k) as [ln|]; [|split; [discriminate|intros (ln & H & _); discriminate]].
  destruct (args_value (target prog k) (optypes (ln_op ln)) (ln_args ln)) as [os'|] eqn:E; cbn [option_map].
  - apply args_value_iff in E. destruct E as [E1 E2]. split.
    + intros [= <- <-]. exists ln. auto.
    + intros (ln' & [= <-] & <- & _ & H). rewrite E2 in H. f_equal. f_equal. clear - H. revert os H. induction os' as [|o os' IH]; intros [|o2 os]; cbn; try discriminate; auto.
      intros [= -> H]. f_equal. auto.
  - split; [discriminate|]. intros (ln' & [= <-] & _ & H1 & H2). rewrite (proj2 (args_value_iff _ _ _ _) (conj H1 H2)) in E. discriminate.
Qed.

Lemma last_line_in a : forall prog i, last_line a i prog = None <-> forall ln, In ln prog -> ln_label ln <> Some a.
Proof.
  induction prog as [|ln prog IH]; intros i; cbn [last_line]; [split; [intros _ ln []|reflexivity]|].
  destruct (last_line a (i + 1) prog) as [j|] eqn:E.
  - split; [discriminate|]. intros H. exfalso. assert (last_line a (i + 1) prog = None); [|congruence]. apply IH. intros l' Hl. apply H. right. exact Hl.
  - destruct (same_label a ln) eqn:S.
    + split; [discriminate|]. intros H. apply same_label_iff in S. exfalso. exact (H ln (or_introl eq_refl) S).
    + split; [|reflexivity]. intros _ l' [<-|Hl]; [|apply (proj1 (IH (i + 1)) E); exact Hl]. intros C. apply same_label_iff in C. congruence.
Qed.

Lemma first_line_in a : forall prog i j, first_line a i prog = Some j -> exists ln, In ln prog /\ ln_label ln = Some a.
Proof.
  induction prog as [|ln prog IH]; intros i j; cbn [first_line]; [discriminate|]. destruct (same_label a ln) eqn:S.
  - intros _. exists ln. split; [left; reflexivity|]. apply same_label_iff. exact S.
  - intros H. destruct (IH _ _ H) as (l' & H1 & H2). exists l'. split; [right; exact H1|exact H2].
Qed.

Lemma target_in prog k a j : target prog k a = Some j -> exists ln, In ln prog /\ ln_label ln = Some a.
Proof.
  unfold target. destruct (last_line a 0 (firstn (S k) prog)) as [j'|] eqn:E.
  - intros _. destruct (Exists_dec (fun ln => ln_label ln = Some a) (firstn (S k) prog)) as [H|H].
    + intros ln. destruct (ln_label ln) as [m|]; [|right; discriminate]. destruct (list_eq_dec Z.eq_dec m a) as [->|N]; [left; reflexivity|right; congruence].
    + apply Exists_exists in H. destruct H as (ln & H1 & H2). exists ln. split; [|exact H2]. rewrite <- (firstn_skipn (S k) prog). apply in_or_app. left. exact H1.
    + exfalso. assert (last_line a 0 (firstn (S k) prog) = None); [|congruence]. apply last_line_in. intros ln H1 H2. apply H. apply Exists_exists. eauto.
  - intros H. destruct (first_line_in _ _ _ _ H) as (ln & H1 & H2). exists ln. split; [|exact H2]. rewrite <- (firstn_skipn (S k) prog). apply in_or_app. right. exact H1.
Qed.

Lemma dvals_in tgt m tys : forall ags os, Forall2 arg_typed tys ags -> dvals tgt tys ags = map Some os -> In (GLab m) ags -> tgt m <> None.
Proof.
  induction tys as [|ty tys IH]; intros ags os F E H; inversion F as [|? a ? ags' A F']; subst; [destruct H|].
  destruct os as [|o os]; [discriminate|]. cbn [dvals map] in E. injection E as E1 E2. destruct H as [->|H]; [|eapply IH; eauto].
  cbn [dval] in E1. destruct (tgt m); [discriminate|]. discriminate.
Qed.

Theorem assembles term prog text : writes prog text -> Z.of_nat (List.length text) < 2 ^ 31 ->
  match assemble term text with
  | AOk (x, bad) => bad = false /\ (forall k, (k < List.length prog)%nat -> line_value prog k <> None) /\
      forall k, exe_fetch x (Z.of_nat k) = ROk (line_value prog k)
  | AErr => exists k, (k < List.length prog)%nat /\ line_value prog k = None
  | _ => False
  end.
Proof.
  intros W L. destruct (prog_size _ _ W) as (Z1 & Z2 & Z3).
  unfold assemble. pose proof (assemble_fine text) as [NU _]. unfold assemble in NU.
  destruct (asm_prog (Z.of_nat (List.length text)) prog text W (S (List.length text)) [] exeb_new ltac:(lia)) as (offs & E). rewrite E in *. clear E.
  pose proof (ev_lines_build prog [] exeb_new offs) as R. change (List.length (b_proms exeb_new)) with 0%nat in R. change (exeb_count exeb_new) with 0 in R.
  destruct (ev_lines [] 0 0 offs prog) as [l' e] eqn:EV. rewrite R in *. clear R.
  pose proof li_nil as LN. pose proof LN as (O & _).
  pose proof (emitted_lines prog [] [] [] offs l' e LN EV) as EM. cbn [app List.length] in EM.
  pose proof (typed_lines prog _ _ _ _ _ _ O EV) as TY.
  destruct (ev_lines_ok prog [] 0%nat 0 offs l' e O ltac:(lia) ltac:(lia) Z1 EV) as [EO DB].
  destruct (li_lines prog [] [] [] offs l' e LN EV) as [LI NM]. cbn [app] in LI.
  pose proof (ev_lines_uniq prog [] 0 0 offs l' e (fun a p (H : In (a, p) []) => match H with end) EV) as UQ.
  pose proof (build_iff e exeb_new) as BI. change (List.length (b_proms exeb_new)) with 0%nat in BI.
  assert (DEC : (forall k, (k < List.length prog)%nat -> line_value prog k <> None) \/ exists k, (k < List.length prog)%nat /\ line_value prog k = None).
  { destruct (Exists_dec (fun k => line_value prog k = None) (seq 0 (List.length prog))) as [H|H].
    - intros k. destruct (line_value prog k); [right; discriminate|left; reflexivity].
    - right. apply Exists_exists in H. destruct H as (k & H1 & H2). apply in_seq in H1. exists k. split; [lia|exact H2].
    - left. intros k Hk C. apply H. apply Exists_exists. exists k. split; [apply in_seq; lia|exact C]. }
  (* when every line has a value, the lines are typed, everything is delivered, and every label has a line *)
  assert (GOOD : (forall k, (k < List.length prog)%nat -> line_value prog k <> None) ->
    Forall line_typed prog /\ Forall (fun x => ~ In None (snd x)) (emitted [] e) /\ forall a, find_label l' a <> None -> last_line a 0 prog <> None).
  { intros H. assert (V : forall k ln, nth_error prog k = Some ln -> line_typed ln /\ exists os, dvals (target prog k) (optypes (ln_op ln)) (ln_args ln) = map Some os).
    { intros k ln Hk. specialize (H k ltac:(apply nth_error_Some; congruence)). destruct (line_value prog k) as [[op os]|] eqn:EK; [|congruence].
      apply line_value_iff in EK. destruct EK as (ln' & H1 & _ & H2 & H3). assert (ln' = ln) as -> by congruence. eauto. }
    split; [|split].
    - apply Forall_forall. intros ln Hln. apply In_nth_error in Hln. destruct Hln as [k Hk]. apply (V k ln Hk).
    - apply Forall_forall. intros x Hx. apply In_nth_error in Hx. destruct Hx as [k Hk]. rewrite EM, nth_lines_vals in Hk. cbn [Nat.add] in Hk.
      destruct (nth_error prog k) as [ln|] eqn:Hl; [|discriminate]. injection Hk as <-. cbn [snd]. destruct (V k ln Hl) as [_ [os ->]].
      rewrite in_map_iff. intros (o & C & _). discriminate.
    - intros a Ha C. destruct (NM a Ha) as [N|(ln & H1 & H2)]; [apply N; reflexivity|].
      assert (X : exists ln', In ln' prog /\ ln_label ln' = Some a).
      { destruct H2 as [H2|H2]; [eauto|]. apply In_nth_error in H1. destruct H1 as [k Hk]. destruct (V k ln Hk) as [T [os D]].
        destruct (target prog k a) as [j|] eqn:ET; [eapply target_in; exact ET|]. exfalso. eapply dvals_in; [exact T|exact D|exact H2|exact ET]. }
      destruct X as (ln' & X1 & X2). exact (proj1 (last_line_in a prog 0) C ln' X1 X2). }
  destruct (build exeb_new e) as [b| |] eqn:EB; cbn [ares_of] in *; [| |congruence].
  2: { destruct DEC as [H|H]; [|exact H]. apply GOOD in H. destruct H as [H _]. apply TY in H. apply BI in H. destruct H as [b' H]. discriminate. }
  pose proof (proms_build _ _ _ EB) as PB. change (b_proms exeb_new) with (@nil (option Z)) in PB.
  assert (TYP : Forall line_typed prog) by (apply TY, BI; eauto).
  pose proof (finalize_iff e b EO EB) as FI.
  destruct (unresolved l' b) eqn:UN.
  { destruct DEC as [H|H]; [|exact H]. exfalso. apply GOOD in H. destruct H as (_ & _ & H).
    unfold unresolved in UN. apply existsb_exists in UN. destruct UN as ([a p] & I1 & I2). cbn [snd] in I2. apply UQ in I1.
    destruct LI as (_ & V & _). rewrite PB, (V a p I1) in I2. specialize (H a ltac:(congruence)). destruct (last_line a 0 prog); [discriminate|congruence]. }
  destruct (exeb_finalize b) as [x| |] eqn:EF.
  - split; [reflexivity|]. pose proof (proj1 FI (ex_intro _ x eq_refl)) as AD.
    assert (VALS : forall k, (k < List.length prog)%nat -> line_value prog k <> None).
    { intros k Hk C. destruct (nth_error prog k) as [ln|] eqn:Hl; [|apply nth_error_None in Hl; lia].
      assert (HE : nth_error (emitted [] e) k = Some (ln_op ln, dvals (target prog k) (optypes (ln_op ln)) (ln_args ln))) by (rewrite EM, nth_lines_vals, Hl; reflexivity).
      apply nth_error_In in HE. unfold all_delivered in AD. rewrite Forall_forall in AD. specialize (AD _ HE). cbn [snd] in AD. apply no_none_map in AD. destruct AD as [os D].
      rewrite Forall_forall in TYP. specialize (TYP ln (nth_error_In _ _ Hl)).
      assert (line_value prog k = Some (ln_op ln, os)); [|congruence]. apply line_value_iff. eauto. }
    split; [exact VALS|]. intros k. pose proof (fetch_spec e b x EO ltac:(lia) EB EF (Z.of_nat k) ltac:(lia)) as FS. rewrite Nat2Z.id, EM, nth_lines_vals in FS. cbn [Nat.add] in FS.
    destruct (nth_error prog k) as [ln|] eqn:Hl.
    + destruct FS as (os & D & ->). f_equal. symmetry. apply line_value_iff. exists ln. rewrite Forall_forall in TYP. specialize (TYP ln (nth_error_In _ _ Hl)). auto.
    + rewrite FS. unfold line_value. rewrite Hl. reflexivity.
  - destruct DEC as [H|H]; [|exact H]. exfalso. apply GOOD in H. destruct H as (_ & H & _). apply FI in H. destruct H as [x H]. discriminate.
  - unfold exeb_finalize in EF. destruct (0 <? b_promc b); discriminate.
Qed.

(** A label given to one line stands for that line everywhere. *)
Lemma last_line_range a : forall prog i j, last_line a i prog = Some j -> exists k ln, j = i + Z.of_nat k /\ nth_error prog k = Some ln /\ ln_label ln = Some a.
Proof.
  induction prog as [|ln prog IH]; intros i j; cbn [last_line]; [discriminate|]. destruct (last_line a (i + 1) prog) as [j'|] eqn:E.
  - intros [= <-]. destruct (IH _ _ E) as (k & l' & H1 & H2 & H3). exists (S k), l'. split; [lia|auto].
  - destruct (same_label a ln) eqn:SL; [|discriminate]. intros [= <-]. exists 0%nat, ln. split; [lia|]. split; [reflexivity|apply same_label_iff; exact SL].
Qed.

Lemma first_line_range a : forall prog i j, first_line a i prog = Some j -> exists k ln, j = i + Z.of_nat k /\ nth_error prog k = Some ln /\ ln_label ln = Some a.
Proof.
  induction prog as [|ln prog IH]; intros i j; cbn [first_line]; [discriminate|]. destruct (same_label a ln) eqn:SL.
  - intros [= <-]. exists 0%nat, ln. split; [lia|]. split; [reflexivity|apply same_label_iff; exact SL].
  - intros E. destruct (IH _ _ E) as (k & l' & H1 & H2 & H3). exists (S k), l'. split; [lia|auto].
Qed.

Lemma first_line_none a : forall prog i, first_line a i prog = None -> forall ln, In ln prog -> ln_label ln <> Some a.
Proof.
  induction prog as [|ln prog IH]; intros i; cbn [first_line]; [intros _ ln []|]. destruct (same_label a ln) eqn:SL; [discriminate|].
  intros H l' [<-|Hl]; [|eapply IH; eauto]. intros C. apply same_label_iff in C. congruence.
Qed.

Lemma once_same : forall prog j k l1 l2 a, labels_once prog -> nth_error prog j = Some l1 -> nth_error prog k = Some l2 ->
  ln_label l1 = Some a -> ln_label l2 = Some a -> j = k.
Proof.
  unfold labels_once. induction prog as [|ln prog IH]; intros j k l1 l2 a ND H1 H2 L1 L2; [destruct j; discriminate|]. cbn [flat_map] in ND.
  assert (IN : forall k l, nth_error prog k = Some l -> ln_label l = Some a -> In a (flat_map (fun ln => match ln_label ln with Some n => [n] | None => [] end) prog)).
  { intros k0 l0 K1 K2. apply in_flat_map. exists l0. split; [eapply nth_error_In; exact K1|]. rewrite K2. left. reflexivity. }
  assert (ND' : NoDup (flat_map (fun ln => match ln_label ln with Some n => [n] | None => [] end) prog)) by (destruct (ln_label ln); [inversion ND; assumption|exact ND]).
  destruct j as [|j], k as [|k]; cbn [nth_error] in *.
  - reflexivity.
  - injection H1 as ->. rewrite L1 in ND. cbn [app] in ND. inversion ND as [|? ? NI _]; subst. exfalso. apply NI. eapply IN; eauto.
  - injection H2 as ->. rewrite L2 in ND. cbn [app] in ND. inversion ND as [|? ? NI _]; subst. exfalso. apply NI. eapply IN; eauto.
  - f_equal. eapply IH; eauto.
Qed.

Theorem target_once prog k j ln a : labels_once prog -> nth_error prog j = Some ln -> ln_label ln = Some a -> target prog k a = Some (Z.of_nat j).
Proof.
  intros ON H1 H2. unfold target. destruct (last_line a 0 (firstn (S k) prog)) as [v|] eqn:E.
  - destruct (last_line_range _ _ _ _ E) as (q & l' & -> & Hq & Hl). f_equal. rewrite Z.add_0_l. f_equal.
    assert (nth_error prog q = Some l').
    { rewrite <- (firstn_skipn (S k) prog). rewrite nth_error_app1 by (apply nth_error_Some; congruence). exact Hq. }
    eapply once_same; eauto.
  - destruct (first_line a (Z.of_nat (S k)) (skipn (S k) prog)) as [v|] eqn:F.
    + destruct (first_line_range _ _ _ _ F) as (q & l' & -> & Hq & Hl). f_equal.
      assert (LK : (S k <= List.length prog)%nat).
      { destruct (Nat.le_gt_cases (S k) (List.length prog)); [assumption|]. rewrite skipn_all2 in Hq by lia. destruct q; discriminate. }
      assert (nth_error prog (S k + q) = Some l').
      { rewrite <- (firstn_skipn (S k) prog). rewrite nth_error_app2; rewrite firstn_length_le by lia; [|lia]. replace (S k + q - S k)%nat with q by lia. exact Hq. }
      assert (S k + q = j)%nat by (eapply once_same; eauto). lia.
    + exfalso. rewrite <- (firstn_skipn (S k) prog) in H1. apply nth_error_In in H1. apply in_app_or in H1. destruct H1 as [H1|H1].
      * exact (proj1 (last_line_in _ _ _) E ln H1 H2).
      * exact (first_line_none _ _ _ F ln H1 H2).
Qed.
