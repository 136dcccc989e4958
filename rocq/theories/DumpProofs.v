(** The listing of a program: proofs. *)
From Coq Require Import ZArith String List Lia Bool.
From Verif Require Import Base StringModel ExeModel ExeSpec ExeProofs AsmModel PreludeSpec PreludeToString ShowModel ShowSpec ShowProofs DumpModel DumpSpec.
From Verif Require GraphRead.
Import ListNotations.
Open Scope list_scope.
Open Scope Z_scope.

(** The instructions of an executable. *)
Definition has_code (x : executable) (cs : list (opcode * list operand)) : Prop := forall i, 0 <= i -> exe_fetch x i = ROk (nth_error cs (Z.to_nat i)).
Definition fits (o : operand) : Prop := match o with PIdx z | PInt z => in_i64 z | PProm _ => False | _ => True end.

Lemma name_of op : exists name, opcode_name op = Some name /\ In (name, op) instr_names.
Proof. destruct op; eexists; (split; [reflexivity|]); cbn; tauto. Qed.

Lemma code_length x cs : has_code x cs -> length (x_body x) = length cs.
Proof.
  intros H. assert (G : forall k, nth_error (x_body x) k = None <-> nth_error cs k = None).
  { intros k. specialize (H (Z.of_nat k) ltac:(lia)). unfold exe_fetch in H. rewrite (proj2 (Z.ltb_ge _ _)), Nat2Z.id in H by lia.
    destruct (nth_error (x_body x) k) as [bi|]; [|injection H as <-; split; reflexivity].
    destruct (fetch_operands _ _ _); [|discriminate H..]. injection H as <-. split; discriminate. }
  pose proof (proj1 (G (length (x_body x))) (proj2 (nth_error_None _ _) (le_n _))) as A. pose proof (proj2 (G (length cs)) (proj2 (nth_error_None _ _) (le_n _))) as B.
  apply nth_error_None in A. apply nth_error_None in B. lia.
Qed.

Section Listing.
Variable pf : Z -> list Z.

Lemma operands_texts os : Forall fits os -> exists t, operand_texts pf os = ROk t /\ operands_listed pf os t.
Proof.
  induction 1 as [|o os F _ (t & Q & IH)]; [exists []; split; [reflexivity|constructor]|]. cbn [operand_texts]. rewrite Q. destruct o as [z|z|b|s|p]; cbn [operand_text fits] in *; try contradiction.
  - eexists. split; [reflexivity|]. rewrite <- app_assoc. constructor; [constructor; apply int_text_shown; exact F|exact IH].
  - eexists. split; [reflexivity|]. rewrite <- app_assoc. constructor; [constructor; apply int_text_shown; exact F|exact IH].
  - eexists. split; [reflexivity|]. rewrite <- app_assoc. constructor; [constructor|exact IH].
  - eexists. split; [reflexivity|]. replace ((91 :: s ++ [93; 32]) ++ t) with ((91 :: s ++ [93]) ++ 32 :: t) by (cbn [app]; rewrite <- !app_assoc; reflexivity). constructor; [constructor|exact IH].
Qed.

Lemma dump_loop_listed x : forall cs i, (forall j, 0 <= j -> exe_fetch x (i + j) = ROk (nth_error cs (Z.to_nat j))) -> 0 <= i -> i + Z.of_nat (length cs) < 2 ^ 63 -> Forall (fun c => Forall fits (snd c)) cs ->
  exists t, dump_loop pf (length cs) i x = ROk t /\ listed pf i cs t.
Proof.
  induction cs as [|[op os] cs IH]; intros i H Hi L F; [exists []; split; [reflexivity|constructor]|]. inversion_clear F as [|? ? F1 F2]. cbn [length snd] in *. cbn [dump_loop].
  pose proof (H 0 ltac:(lia)) as H0. rewrite Z.add_0_r in H0. rewrite H0. cbn [nth_error Z.to_nat].
  destruct (name_of op) as (name & -> & N). destruct (operands_texts os F1) as (t & -> & Lt).
  destruct (IH (i + 1)) as (ts & -> & Ls); [|lia|lia|exact F2|].
  { intros j Hj. replace (i + 1 + j) with (i + (j + 1)) by lia. rewrite H by lia. replace (Z.to_nat (j + 1)) with (S (Z.to_nat j)) by lia. reflexivity. }
  eexists. split; [reflexivity|]. change (bytes_of name ++ [32] ++ t ++ [10] ++ ts) with (bytes_of name ++ 32 :: t ++ 10 :: ts). change [58; 32] with (bytes_of ": ").
  apply l_more; [apply int_text_shown; lia|exact N|exact Lt|exact Ls].
Qed.

Lemma dump_listed x cs : has_code x cs -> Z.of_nat (length cs) < 2 ^ 63 -> Forall (fun c => Forall fits (snd c)) cs -> exists t, dump pf x = ROk t /\ listed pf 0 cs t.
Proof. intros H L F. unfold dump. rewrite (code_length x cs H). apply dump_loop_listed; [intros j Hj; exact (H j Hj)|lia|lia|exact F]. Qed.

(** * What is read back *)
Hypothesis Pf : forall b, ~ In 32 (pf b) /\ ~ In 10 (pf b).

Lemma cut_unique (c : Z) (a b r s : list Z) : ~ In c a -> ~ In c b -> a ++ c :: r = b ++ c :: s -> a = b /\ r = s.
Proof.
  revert b. induction a as [|x a IH]; intros [|y b] Na Nb H.
  - injection H as ->. auto.
  - injection H as -> _. destruct Nb. left. reflexivity.
  - injection H as -> _. destruct Na. left. reflexivity.
  - injection H as -> H. destruct (IH b) as [-> ->]; [intros K; apply Na; right; exact K|intros K; apply Nb; right; exact K|exact H|auto].
Qed.

Lemma decimal_chars z s : decimal z s -> Forall (fun c => 48 <= c <= 57) s.
Proof. induction 1; [constructor; [lia|constructor]|]. apply Forall_app. split; [assumption|]. constructor; [lia|constructor]. Qed.
Lemma shown_chars z s : int_shown z s -> Forall (fun c => 45 <= c <= 57) s.
Proof.
  intros [z' s' D|z' s' _ D]; [|constructor; [lia|]]; apply decimal_chars in D; (eapply Forall_impl; [|exact D]); cbn; intros; lia.
Qed.
Lemma shown_not c z s : int_shown z s -> (c < 45 \/ 57 < c) -> ~ In c s.
Proof. intros H K I. apply shown_chars in H. rewrite Forall_forall in H. specialize (H c I). lia. Qed.
Lemma decimal_inj z w s : decimal z s -> decimal w s -> z = w.
Proof. intros A B. rewrite <- (GraphRead.decimal_value _ _ A). exact (GraphRead.decimal_value _ _ B). Qed.
Lemma shown_inj z w s : int_shown z s -> int_shown w s -> z = w.
Proof.
  intros A B. inversion A as [z1 s1 D1|z1 s1 P1 D1]; inversion B as [z2 s2 D2|z2 s2 P2 D2]; subst.
  - exact (decimal_inj _ _ _ D1 D2).
  - apply decimal_chars in D1. inversion_clear D1. lia.
  - apply decimal_chars in D2. inversion_clear D2. lia.
  - match goal with H : 45 :: _ = 45 :: _ |- _ => injection H as -> | _ => idtac end. f_equal. exact (decimal_inj _ _ _ D1 D2).
Qed.

(** The kind of an operand; a string is the last one. *)
Definition kind_is (ty : optype) (o : operand) : Prop := match o, ty with PIdx _, TIdx | PInt _, TInt | PFlt _, TFlt | PStr _, TStr => True | _, _ => False end.
Fixpoint str_last (tys : list optype) : Prop := match tys with TStr :: r => r = [] | _ :: r => str_last r | [] => True end.
Lemma table_last op : str_last (optypes op).
Proof. destruct op; cbn; auto. Qed.

Lemma operands_inj tys : str_last tys -> forall os1 os2 t1 t2, Forall2 kind_is tys os1 -> Forall2 kind_is tys os2 -> Forall one_line os1 -> Forall one_line os2 ->
  operands_listed pf os1 t1 -> operands_listed pf os2 t2 -> t1 = t2 -> Forall2 (look_alike pf) os1 os2.
Proof.
  induction tys as [|ty tys IH]; intros SL os1 os2 t1 t2 K1 K2 O1 O2 L1 L2 Q; inversion K1 as [|? o1 ? r1 k1 K1' E1 E2]; inversion K2 as [|? o2 ? r2 k2 K2' E3 E4]; subst; [constructor|].
  inversion L1 as [|? u1 ? v1 A1 B1]; inversion L2 as [|? u2 ? v2 A2 B2]; subst. inversion_clear O1 as [|? ? O1a O1b]. inversion_clear O2 as [|? ? O2a O2b].
  destruct ty; destruct o1; try contradiction k1; destruct o2; try contradiction k2; inversion A1; inversion A2; subst; cbn [str_last] in SL.
  1-2: match goal with H1 : int_shown ?a ?s, H2 : int_shown ?b ?t |- _ =>
      destruct (cut_unique 32 s t _ _ (shown_not 32 _ _ H1 ltac:(lia)) (shown_not 32 _ _ H2 ltac:(lia)) ltac:(eassumption)) as [-> ->]; rewrite (shown_inj _ _ _ H1 H2) end;
    constructor; [left; reflexivity|]; eapply IH; eauto.
  - match goal with H : pf _ ++ _ = pf _ ++ _ |- _ => destruct (cut_unique 32 _ _ _ _ (proj1 (Pf _)) (proj1 (Pf _)) H) as [Q1 ->] end.
    constructor; [right; eauto|]. eapply IH; eauto.
  - subst. inversion K1'. inversion K2'. subst. inversion B1. inversion B2. subst.
    match goal with H : (91 :: _) ++ _ = (91 :: _) ++ _ |- _ => cbn [app] in H; injection H as H; rewrite <- !app_assoc in H; apply app_inv_tail in H; subst end.
    constructor; [left; reflexivity|constructor].
Qed.

Lemma operand_no10 o t : one_line o -> operand_listed pf o t -> ~ In 10 t.
Proof.
  intros O L. inversion L; subst; [eapply shown_not; [eassumption|lia]..|apply Pf|]. cbn [one_line] in O. intros [K|K]; [lia|]. apply in_app_iff in K. destruct K as [K|[K|[]]]; [exact (O K)|lia].
Qed.
Lemma operands_no10 os t : Forall one_line os -> operands_listed pf os t -> ~ In 10 t.
Proof.
  intros O L. revert O. induction L; intros O K; [exact K|]. inversion_clear O. apply in_app_iff in K. destruct K as [K|[K|K]]; [eapply operand_no10; eassumption|lia|]. apply IHL; assumption.
Qed.
Definition plain_b (n : list Z) : bool := forallb (fun c => negb (c =? 32) && negb (c =? 10)) n.
Lemma names_plain name op : In (name, op) instr_names -> ~ In 32 (bytes_of name) /\ ~ In 10 (bytes_of name).
Proof.
  assert (A : forallb (fun e => plain_b (bytes_of (fst e))) instr_names = true) by (vm_compute; reflexivity). rewrite forallb_forall in A. intros H. specialize (A _ H). unfold plain_b in A. rewrite forallb_forall in A. cbn [fst] in A.
  split; intros K; specialize (A _ K); discriminate A.
Qed.
Lemma name_opcode name op : In (name, op) instr_names -> opcode_of_name (bytes_of name) = Some op.
Proof.
  assert (A : forallb (fun e => match opcode_of_name (bytes_of (fst e)) with Some o => opcode_eqb o (snd e) | None => false end) instr_names = true) by (vm_compute; reflexivity). rewrite forallb_forall in A.
  intros H. specialize (A _ H). cbn [fst snd] in A. destruct (opcode_of_name (bytes_of name)) as [o|]; [|discriminate A]. unfold opcode_eqb in A. destruct (opcode_dec o op); [congruence|discriminate A].
Qed.

Definition typed (c : opcode * list operand) : Prop := Forall2 kind_is (optypes (fst c)) (snd c).
Definition alike (c d : opcode * list operand) : Prop := fst c = fst d /\ Forall2 (look_alike pf) (snd c) (snd d).

Lemma listed_inj cs : forall i ds t, Forall typed cs -> Forall typed ds -> Forall (fun c => Forall one_line (snd c)) cs -> Forall (fun c => Forall one_line (snd c)) ds ->
  listed pf i cs t -> listed pf i ds t -> Forall2 alike cs ds.
Proof.
  induction cs as [|[op os] cs IH]; intros i [|[op' os'] ds] t T1 T2 O1 O2 L1 L2.
  - constructor.
  - assert (t = []) by (inversion L1; reflexivity). subst t. exfalso. inversion L2 as [|? it ? ? ? ? ? ? ? ? ? ? E1 E2 E3]. destruct it; discriminate.
  - assert (t = []) by (inversion L2; reflexivity). subst t. exfalso. inversion L1 as [|? it ? ? ? ? ? ? ? ? ? ? E1 E2 E3]. destruct it; discriminate.
  - inversion_clear T1 as [|? ? T1a T1b]. inversion_clear T2 as [|? ? T2a T2b]. inversion_clear O1 as [|? ? O1a O1b]. inversion_clear O2 as [|? ? O2a O2b]. cbn [snd] in *.
    inversion L1 as [|? it ? name ? u ? ts I1 N1 U1 R1 E1 E2 E3]. inversion L2 as [|? it' ? name' ? u' ? ts' I2 N2 U2 R2 E4 E5 E6]. subst op0 os0 code op1 os1 code0. rewrite <- E3 in E6. pose proof (int_shown_unique _ _ _ I2 I1) as Qi. subst it'. pose proof (app_inv_head _ _ _ (app_inv_head _ _ _ E6)) as Q.
    destruct (cut_unique 32 _ _ _ _ (proj1 (names_plain _ _ N2)) (proj1 (names_plain _ _ N1)) Q) as [Qn Q2].
    destruct (cut_unique 10 _ _ _ _ (operands_no10 _ _ O2a U2) (operands_no10 _ _ O1a U1) Q2) as [-> ->].
    assert (op' = op) by (apply name_opcode in N1; apply name_opcode in N2; congruence). subst op'.
    constructor; [|exact (IH _ _ _ T1b T2b O1b O2b R1 R2)]. split; [reflexivity|]. exact (operands_inj _ (table_last op) _ _ _ _ T1a T2a O1a O2a U1 U2 eq_refl).
Qed.

(** The listing depends on nothing but the instructions. *)
Lemma operand_alike a b : look_alike pf a b -> operand_text pf a = operand_text pf b.
Proof. intros [->|(p & q & -> & -> & Q)]; [reflexivity|]. cbn. rewrite Q. reflexivity. Qed.
End Listing.
