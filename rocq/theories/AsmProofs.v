(** Proofs about the assembler and about the comparison of executables. *)
From Coq Require Import ZArith List Lia Bool String.
From Verif Require Import Base StringModel FloatModel ExeModel ExeSpec ExeProofs AsmModel TextProofs.
Import ListNotations.
Open Scope list_scope.
Open Scope Z_scope.

(** * Integer operands *)
(** The number a digit string denotes. *)
Definition digits_value (ds : list Z) : Z := fold_left (fun n c => 10 * n + (c - 48)) ds 0.
Definition is_digit (c : Z) : Prop := 48 <= c <= 57.

Lemma isdigit_iff c : isdigit c = true <-> is_digit c.
Proof. unfold isdigit, is_digit. rewrite andb_true_iff, !Z.leb_le. tauto. Qed.

Lemma fold_digits_mono ds : forall n, Forall is_digit ds -> 0 <= n -> n <= fold_left (fun n c => 10 * n + (c - 48)) ds n.
Proof.
  induction ds as [|c ds IH]; intros n Hd Hn; [cbn; lia|].
  inversion Hd as [|? ? H1 H2]; subst. unfold is_digit in H1. cbn [fold_left].
  specialize (IH (10 * n + (c - 48)) H2 ltac:(lia)). lia.
Qed.

(** What may follow a number for it to be an integer operand. *)
Definition ends_int (rest : list Z) : Prop :=
  match rest with
  | [] => True
  | c :: r => ~ is_digit c /\ (c = 46 -> match r with d :: _ => ~ is_digit d | [] => True end)
  end.

Lemma int_loop_spec ds rest : ends_int rest -> forall buf, Forall is_digit ds -> 0 <= buf ->
  buf <= 2^63 - 1 ->
  int_loop buf (ds ++ rest) =
    let n := fold_left (fun n c => 10 * n + (c - 48)) ds buf in
    if n <=? 2^63 - 1 then AOk (n, rest) else AErr.
Proof.
  intros Hr. induction ds as [|c ds IH]; intros buf Hd Hb Hb2.
  - cbn [app fold_left]. replace (buf <=? 2^63 - 1) with true by (symmetry; apply Z.leb_le; lia).
    destruct rest as [|c r]; [reflexivity|]. cbn [int_loop].
    destruct (isdigit c) eqn:E; [|reflexivity]. apply isdigit_iff in E. destruct Hr as [Hr _]. contradiction.
  - inversion Hd as [|? ? H1 H2]; subst. cbn [app int_loop fold_left].
    rewrite (proj2 (isdigit_iff c) H1). unfold is_digit in H1.
    destruct (Z.ltb_spec ((2^63 - 1 - (c - 48)) / 10) buf) as [Hlt|Hge].
    + assert (2^63 - 1 < 10 * buf + (c - 48)).
      { Z.to_euclidean_division_equations. lia. }
      pose proof (fold_digits_mono ds (10 * buf + (c - 48)) H2 ltac:(lia)).
      destruct (Z.leb_spec (fold_left (fun n c => 10 * n + (c - 48)) ds (10 * buf + (c - 48))) (2^63-1)); [lia|reflexivity].
    + assert (10 * buf + (c - 48) <= 2^63 - 1).
      { Z.to_euclidean_division_equations. lia. }
      replace (buf * 10 + (c - 48)) with (10 * buf + (c - 48)) by lia.
      rewrite IH by (assumption || lia). reflexivity.
Qed.

Lemma dot_digit_ends ds rest : Forall is_digit ds -> ends_int rest -> dot_digit (ds ++ rest) = false.
Proof.
  unfold dot_digit. induction 1 as [|c ds Hc _ IH]; intros Hr.
  - cbn [app]. destruct rest as [|c r]; [reflexivity|]. cbn [skip_digits]. destruct Hr as [H1 H2].
    destruct (isdigit c) eqn:E; [apply isdigit_iff in E; contradiction|].
    destruct (Z.eq_dec c 46) as [->|Hne].
    + destruct r as [|d r]; [reflexivity|]. specialize (H2 eq_refl).
      destruct (isdigit d) eqn:Ed; [apply isdigit_iff in Ed; contradiction|reflexivity].
    + repeat (match goal with |- match ?c with _ => _ end = _ => destruct c; try reflexivity; try lia end).
  - cbn [app skip_digits]. rewrite (proj2 (isdigit_iff c) Hc). exact (IH Hr).
Qed.

(** An optional sign character. *)
Inductive sign := SgNone | SgPlus | SgMinus.
Definition sign_text (s : sign) : list Z := match s with SgNone => [] | SgPlus => [43] | SgMinus => [45] end.
Definition sign_value (s : sign) (n : Z) : Z := match s with SgMinus => - n | _ => n end.

Lemma asm_integer sg ds rest l b : Forall is_digit ds -> ds <> [] -> ends_int rest ->
  parse_operand l b (sign_text sg ++ ds ++ rest) =
    if digits_value ds <=? 2^63 - 1 then AOk (l, b, PInt (sign_value sg (digits_value ds)), rest) else AErr.
Proof.
  intros Hd Hne Hr. destruct ds as [|d ds]; [congruence|].
  inversion Hd as [|? ? H1 H2]; subst.
  pose proof (dot_digit_ends _ _ Hd Hr) as Hdot. cbn [app] in Hdot.
  pose proof (int_loop_spec _ _ Hr 0 Hd ltac:(lia) ltac:(lia)) as Hloop. cbn [app] in Hloop.
  pose proof (proj2 (isdigit_iff d) H1) as Hdd. unfold is_digit in H1.
  destruct sg; cbn [sign_text app parse_operand].
  - replace (d =? 34) with false by (symmetry; apply Z.eqb_neq; lia).
    rewrite Hdd. cbn [orb]. rewrite Hdd, Hdot. unfold parse_integer_operand.
    replace (sign_of (d :: ds ++ rest)) with (1, d :: ds ++ rest).
    2:{ unfold sign_of. assert (d <> 43 /\ d <> 45) as [Ha Hb] by lia.
        destruct d as [|p|p]; try reflexivity.
        do 6 (destruct p as [p|p|]; try reflexivity; try lia). }
    rewrite Hloop. unfold digits_value. cbn zeta.
    destruct (_ <=? _); [|reflexivity]. cbn [sign_value]. rewrite Z.mul_1_l. reflexivity.
  - change (43 =? 34) with false. change (isdigit 43) with false. cbn [orb]. change (43 =? 45) with false.
    change (43 =? 43) with true. cbn [orb]. rewrite Hdd, Hdot. unfold parse_integer_operand. cbn [sign_of].
    rewrite Hloop. unfold digits_value. cbn zeta.
    destruct (_ <=? _); [|reflexivity]. cbn [sign_value]. rewrite Z.mul_1_l. reflexivity.
  - change (45 =? 34) with false. change (isdigit 45) with false. cbn [orb]. change (45 =? 45) with true.
    cbn [orb]. rewrite Hdd, Hdot. unfold parse_integer_operand. cbn [sign_of].
    rewrite Hloop. unfold digits_value. cbn zeta.
    destruct (_ <=? _); [|reflexivity]. cbn [sign_value].
    match goal with |- AOk (_, _, PInt ?a, _) = AOk (_, _, PInt ?b, _) => replace a with b by lia end. reflexivity.
Qed.

(** * Comparison of executables *)
Lemma opcode_eqb_eq a b : opcode_eqb a b = true <-> a = b.
Proof. unfold opcode_eqb. destruct (opcode_dec a b); split; congruence. Qed.

Lemma bytes_eqb_eq a : forall b, bytes_eqb a b = true <-> a = b.
Proof.
  induction a as [|x a IH]; intros [|y b]; cbn; try (split; congruence).
  rewrite andb_true_iff, Z.eqb_eq, IH. split; [intros [-> ->]; reflexivity|intros [= -> ->]; auto].
Qed.

(** Operands that agree as far as the comparison looks: integers in their low 32 bits, floats by the C operator [==]. *)
Definition operand_agree (a b : operand) : Prop :=
  match a, b with
  | PIdx x, PIdx y | PInt x, PInt y => wrap32 x = wrap32 y
  | PFlt x, PFlt y => f_eq x y = true
  | PStr x, PStr y => x = y
  | _, _ => False
  end.

Lemma operand_equiv_iff a b : operand_equiv a b = true <-> operand_agree a b.
Proof.
  destruct a, b; cbn; try (split; [discriminate|contradiction]); try (rewrite Z.eqb_eq; tauto); try tauto.
  apply bytes_eqb_eq.
Qed.

Lemma operands_equiv_iff a : forall b, operands_equiv a b = true <-> Forall2 operand_agree a b.
Proof.
  induction a as [|x a IH]; intros [|y b]; cbn; try (split; [discriminate|intros H; inversion H]).
  - split; constructor.
  - rewrite andb_true_iff, operand_equiv_iff, IH. split; [intros []; constructor; assumption|intros H; inversion H; auto].
Qed.

Definition instr_agree (a b : option (opcode * list operand)) : Prop :=
  match a, b with
  | None, None => True
  | Some (o1, v1), Some (o2, v2) => o1 = o2 /\ Forall2 operand_agree v1 v2
  | _, _ => False
  end.

Lemma fetch_past x i : 0 <= i -> exe_fetch x i = ROk None -> forall j, i <= j -> exe_fetch x j = ROk None.
Proof.
  unfold exe_fetch. intros Hi H j Hj. destruct (Z.ltb_spec i 0); [lia|]. destruct (Z.ltb_spec j 0); [lia|].
  destruct (nth_error (x_body x) (Z.to_nat i)) as [bi|] eqn:E.
  - destruct (fetch_operands _ _ _); discriminate.
  - apply nth_error_None in E. replace (nth_error (x_body x) (Z.to_nat j)) with (@None binstr); [reflexivity|].
    symmetry. apply nth_error_None. lia.
Qed.

Lemma equiv_loop_sound x y n : forall i, 0 <= i -> equiv_loop n i x y = ROk true ->
  forall j, i <= j -> exists a b, exe_fetch x j = ROk a /\ exe_fetch y j = ROk b /\ instr_agree a b.
Proof.
  induction n as [|n IH]; intros i Hi H j Hj; cbn [equiv_loop] in H; [discriminate|].
  destruct (exe_fetch x i) as [[[o1 v1]|]| |] eqn:Ex; destruct (exe_fetch y i) as [[[o2 v2]|]| |] eqn:Ey; try discriminate.
  - destruct (opcode_eqb o1 o2) eqn:Eo; [|discriminate]. cbn [negb] in H.
    destruct (operands_equiv v1 v2) eqn:Ev; [|discriminate].
    destruct (Z.eq_dec i j) as [->|].
    + exists (Some (o1, v1)), (Some (o2, v2)). rewrite Ex, Ey. split; [reflexivity|]. split; [reflexivity|].
      split; [apply opcode_eqb_eq; exact Eo|apply operands_equiv_iff; exact Ev].
    + apply (IH (i + 1)); [lia|exact H|lia].
  - exists None, None. rewrite (fetch_past x i Hi Ex j Hj), (fetch_past y i Hi Ey j Hj). cbn. auto.
Qed.

Lemma equiv_sound x y : exe_equiv x y = ROk true ->
  forall j, 0 <= j -> exists a b, exe_fetch x j = ROk a /\ exe_fetch y j = ROk b /\ instr_agree a b.
Proof. intros H j Hj. exact (equiv_loop_sound x y _ 0 (Z.le_refl 0) H j Hj). Qed.

Lemma fetch_some_lt x i r : exe_fetch x i = ROk (Some r) -> i < Z.of_nat (List.length (x_body x)).
Proof.
  unfold exe_fetch. destruct (Z.ltb_spec i 0); [discriminate|].
  destruct (nth_error (x_body x) (Z.to_nat i)) as [bi|] eqn:E; [|discriminate].
  intros _. assert (Z.to_nat i < List.length (x_body x))%nat by (apply nth_error_Some; congruence). lia.
Qed.

Lemma equiv_loop_complete x y n : forall i, 0 <= i -> i <= Z.of_nat (List.length (x_body x)) ->
  Z.of_nat (List.length (x_body x)) < i + Z.of_nat n ->
  (forall j, i <= j -> exists a b, exe_fetch x j = ROk a /\ exe_fetch y j = ROk b /\ instr_agree a b) ->
  equiv_loop n i x y = ROk true.
Proof.
  induction n as [|n IH]; intros i Hi Hle Hn H; [lia|]. cbn [equiv_loop].
  destruct (H i (Z.le_refl i)) as (a & b & Ha & Hb & Hab). rewrite Ha, Hb.
  destruct a as [[o1 v1]|], b as [[o2 v2]|]; cbn in Hab; try contradiction; [|reflexivity].
  destruct Hab as [-> Hv]. rewrite (proj2 (opcode_eqb_eq o2 o2) eq_refl). cbn [negb].
  rewrite (proj2 (operands_equiv_iff v1 v2) Hv).
  pose proof (fetch_some_lt _ _ _ Ha).
  apply IH; [lia|lia|lia|]. intros j Hj. apply H. lia.
Qed.

Lemma equiv_complete x y :
  (forall j, 0 <= j -> exists a b, exe_fetch x j = ROk a /\ exe_fetch y j = ROk b /\ instr_agree a b) ->
  exe_equiv x y = ROk true.
Proof. intros H. unfold exe_equiv. apply equiv_loop_complete; [lia|lia|lia|exact H]. Qed.

(** Operands in the range in which agreement is equality. *)
Definition operand_small (o : operand) : Prop :=
  match o with
  | PIdx x | PInt x => in_int x
  | PFlt x => is_bits x /\ x <> 2^63
  | _ => True
  end.

Lemma agree_small a b : operand_small a -> operand_small b -> operand_agree a b -> a = b.
Proof.
  destruct a, b; cbn; try contradiction; intros Ha Hb H.
  - rewrite (wrap32_id _ Ha), (wrap32_id _ Hb) in H. congruence.
  - rewrite (wrap32_id _ Ha), (wrap32_id _ Hb) in H. congruence.
  - destruct Ha as [Ha Ha0], Hb as [Hb Hb0].
    destruct (f_eq_bits _ _ Ha Hb H) as [->|[[->| ->] [->| ->]]]; try reflexivity; exfalso; auto.
  - congruence.
Qed.

Lemma agrees_small a b : Forall operand_small a -> Forall operand_small b -> Forall2 operand_agree a b -> a = b.
Proof.
  intros Ha Hb H. induction H as [|x y a b Hxy _ IH]; [reflexivity|].
  inversion Ha; inversion Hb; subst. rewrite (agree_small x y) by assumption. f_equal. auto.
Qed.

(** All operands of an executable are in that range. *)
Definition exe_small (x : executable) : Prop :=
  forall i op os, exe_fetch x i = ROk (Some (op, os)) -> Forall operand_small os.

Lemma equiv_sound_small x y : exe_small x -> exe_small y -> exe_equiv x y = ROk true ->
  forall j, 0 <= j -> exe_fetch x j = exe_fetch y j.
Proof.
  intros Hx Hy H j Hj. destruct (equiv_sound x y H j Hj) as (a & b & Ea & Eb & Hab). rewrite Ea, Eb.
  destruct a as [[o1 v1]|], b as [[o2 v2]|]; cbn in Hab; try contradiction; [|reflexivity].
  destruct Hab as [-> Hv]. rewrite (agrees_small v1 v2 (Hx _ _ _ Ea) (Hy _ _ _ Eb) Hv). reflexivity.
Qed.

(** * The assembler never runs out of fuel, and never has undefined behaviour on a terminated text *)
Lemma skip_spaces_len s : (List.length (skip_spaces s) <= List.length s)%nat.
Proof. induction s as [|c s IH]; cbn; [lia|]. destruct (isspace c); cbn; lia. Qed.

Lemma skip_identifier_len s : forall a b, skip_identifier s = (a, b) -> (List.length a + List.length b = List.length s)%nat.
Proof.
  induction s as [|c s IH]; intros a b; cbn; [intros [= <- <-]; reflexivity|].
  destruct (ident_char c); [|intros [= <- <-]; reflexivity].
  destruct (skip_identifier s) as [a' b']. intros [= <- <-]. cbn. rewrite <- (IH _ _ eq_refl). reflexivity.
Qed.

Lemma ident_start_char c : ident_start c = true -> ident_char c = true.
Proof. unfold ident_start, ident_char. destruct (isalpha c), (isdigit c), (c =? 95); cbn; congruence. Qed.

Lemma skip_identifier_pos c s a b : ident_start c = true -> skip_identifier (c :: s) = (a, b) -> (1 <= List.length a)%nat.
Proof.
  intros H. cbn. rewrite (ident_start_char _ H). destruct (skip_identifier s). intros [= <- <-]. cbn. lia.
Qed.

Lemma string_chunk_len s : forall a b, string_chunk s = (a, b) -> (List.length a + List.length b = List.length s)%nat.
Proof.
  induction s as [|c s IH]; intros a b; cbn; [intros [= <- <-]; reflexivity|].
  destruct ((c =? 92) || (c =? 34)); [intros [= <- <-]; reflexivity|].
  destruct (string_chunk s) as [a' b']. intros [= <- <-]. cbn. rewrite <- (IH _ _ eq_refl). reflexivity.
Qed.

Definition fine {A} (P : A -> Prop) (r : ares A) : Prop :=
  match r with AOk a => P a | AErr => True | AUB => False | AFuel => False end.

Lemma string_loop_fine fuel : forall buf s, (List.length s < fuel)%nat ->
  fine (fun p => (List.length (snd p) <= List.length s)%nat) (string_loop fuel buf s).
Proof.
  induction fuel as [|f IH]; intros buf s Hf; [lia|]. cbn [string_loop].
  destruct (string_chunk s) as [chunk r] eqn:E. apply string_chunk_len in E.
  destruct (1024 <? _); [exact I|].
  assert (Hdef : fine (fun p => (List.length (snd p) <= List.length s)%nat) (AOk (buf ++ chunk, r))) by (cbn; lia).
  destruct r as [|c r]; [exact Hdef|].
  destruct (Z.eq_dec c 92) as [->|Hc].
  2:{ destruct c as [|p|p]; try exact Hdef. do 7 (destruct p as [p|p|]; try exact Hdef). congruence. }
  clear Hdef.
  destruct r as [|c r]; [exact I|]. destruct (asm_escape c) as [c'|]; [|exact I].
  destruct (1024 <? _); [exact I|]. cbn [List.length] in E.
  assert (Hrec : fine (fun p => (List.length (snd p) <= List.length s)%nat) (string_loop f ((buf ++ chunk) ++ [c']) r)).
  { specialize (IH ((buf ++ chunk) ++ [c']) r ltac:(lia)).
    destruct (string_loop f ((buf ++ chunk) ++ [c']) r) as [[b' r']| | |]; cbn in *; try exact IH. lia. }
  destruct r as [|d r]; [cbn; lia|].
  destruct (Z.eq_dec d 34) as [->|Hd]; [cbn [List.length] in *; cbn; lia|].
  destruct d as [|p|p]; try exact Hrec. do 6 (destruct p as [p|p|]; try exact Hrec). congruence.
Qed.

Lemma parse_string_fine s :
  fine (fun p => (List.length (snd p) <= List.length s)%nat) (parse_string_operand s).
Proof.
  unfold parse_string_operand. pose proof (string_loop_fine (S (List.length s)) [] s ltac:(lia)) as H.
  destruct (string_loop _ _ _) as [[b [|c r]]| | |]; cbn in *; try exact H; try exact I. lia.
Qed.

Lemma int_loop_fine s : forall buf, fine (fun p => (List.length (snd p) <= List.length s)%nat) (int_loop buf s).
Proof.
  induction s as [|c s IH]; intros buf; [cbn; lia|]. cbn [int_loop].
  destruct (isdigit c); [|cbn; lia]. destruct (_ <? _); [exact I|].
  specialize (IH (buf * 10 + (c - 48))). destruct (int_loop _ s) as [[n r]| | |]; cbn in *; try exact IH. lia.
Qed.

Lemma sign_of_len s : (List.length (snd (sign_of s)) <= List.length s)%nat.
Proof.
  destruct s as [|c r]; [cbn; lia|]. unfold sign_of.
  destruct c as [|p|p]; cbn; try lia. do 6 (destruct p as [p|p|]; cbn; try lia).
Qed.

Lemma float_int_len s : forall buf, (List.length (snd (float_int_loop buf s)) <= List.length s)%nat.
Proof.
  induction s as [|c s IH]; intros buf; cbn [float_int_loop]; [cbn; lia|].
  destruct (c =? 46); [cbn; lia|]. cbn [List.length]. specialize (IH (f_add (f_mul buf (f_of_int 10)) (f_of_int (c - 48)))). lia.
Qed.

Lemma float_frac_len s : forall buf q, (List.length (snd (float_frac_loop buf q s)) <= List.length s)%nat.
Proof.
  induction s as [|c s IH]; intros buf q; cbn [float_frac_loop]; [cbn; lia|].
  destruct (isdigit c); [|cbn; lia]. cbn [List.length].
  set (q' := f_div q (f_of_int 10)). specialize (IH (f_add buf (f_mul q' (f_of_int (c - 48)))) q'). lia.
Qed.

Lemma parse_float_len s : (List.length (snd (parse_float_operand s)) <= List.length s)%nat.
Proof.
  unfold parse_float_operand. pose proof (sign_of_len s) as H1. destruct (sign_of s) as [sg r]. cbn [snd] in H1.
  pose proof (float_int_len r (f_of_int 0)) as H2. destruct (float_int_loop _ r) as [b1 r1]. cbn [snd] in H2.
  pose proof (float_frac_len (tl r1) b1 (f_of_int 1)) as H3. destruct (float_frac_loop _ _ (tl r1)) as [b2 r2].
  cbn [snd] in *. assert (List.length (tl r1) <= List.length r1)%nat by (destruct r1; cbn; lia). lia.
Qed.

Definition labels_ok (l : labels) (b : builder) : Prop := Forall (fun np => (snd np < List.length (b_proms b))%nat) l.

Lemma get_label_ok l b name l' b' p : labels_ok l b -> get_label l b name = (l', b', p) ->
  labels_ok l' b' /\ (p < List.length (b_proms b'))%nat /\ (List.length (b_proms b) <= List.length (b_proms b'))%nat.
Proof.
  unfold get_label. intros Hl. destruct (find_label l name) as [q|] eqn:E.
  - intros [= <- <- <-]. split; [exact Hl|]. split; [|lia].
    clear -E Hl. induction Hl as [|[n0 p0] l H _ IH]; [discriminate|]. cbn in E.
    destruct (bytes_eqb name n0); [injection E as <-; exact H|auto].
  - intros [= <- <- <-]. cbn [exeb_label b_proms]. rewrite app_length. cbn. split; [|lia].
    constructor; [cbn; rewrite app_length; cbn; lia|].
    eapply Forall_impl; [|exact Hl]. intros [n q] Hq. cbn in *. rewrite app_length. lia.
Qed.

Definition op_ok (b : builder) (o : operand) : Prop := match o with PProm p => (p < List.length (b_proms b))%nat | _ => True end.

Lemma parse_operand_fine l b s : labels_ok l b ->
  fine (fun t => let '(l', b', o, r) := t in labels_ok l' b' /\ op_ok b' o /\
     (List.length (b_proms b) <= List.length (b_proms b'))%nat /\ (List.length r <= List.length s)%nat)
    (parse_operand l b s).
Proof.
  intros Hl. destruct s as [|c r]; [exact I|]. cbn [parse_operand].
  destruct (c =? 34).
  { pose proof (parse_string_fine r) as H. destruct (parse_string_operand r) as [[t r']| | |]; cbn in *; try exact H.
    repeat split; try exact Hl; lia. }
  destruct (isdigit c || (c =? 45) || (c =? 43)).
  { set (ds := if isdigit c then c :: r else r). destruct ds as [|d ds']; [exact I|].
    destruct (isdigit d); [|exact I]. destruct (dot_digit _).
    - pose proof (parse_float_len (c :: r)) as H. destruct (parse_float_operand (c :: r)) as [o r'] eqn:E.
      cbn [fine snd] in *. unfold parse_float_operand in E. destruct (sign_of (c :: r)) as [sg r1].
      destruct (float_int_loop _ r1). destruct (float_frac_loop _ _ _). injection E as <- <-.
      cbn [op_ok]. repeat split; try exact Hl; lia.
    - unfold parse_integer_operand. pose proof (sign_of_len (c :: r)) as H. destruct (sign_of (c :: r)) as [sg r1].
      cbn [snd] in H. pose proof (int_loop_fine r1 0) as H2. destruct (int_loop 0 r1) as [[n r']| | |]; cbn [fine snd] in *; try exact H2.
      cbn [op_ok]. repeat split; try exact Hl; lia. }
  destruct (ident_start c); [|exact I].
  destruct (skip_identifier (c :: r)) as [name r'] eqn:E. apply skip_identifier_len in E.
  destruct (get_label l b name) as [[l' b'] p] eqn:Eg. destruct (get_label_ok _ _ _ _ _ _ Hl Eg) as (H1 & H2 & H3).
  cbn [fine]. cbn [op_ok]. repeat split; try assumption. lia.
Qed.

Lemma op_ok_mono b b' o : (List.length (b_proms b) <= List.length (b_proms b'))%nat -> op_ok b o -> op_ok b' o.
Proof. destruct o; cbn; auto. lia. Qed.

Lemma parse_operand_progress l b s l' b' o r : parse_operand l b s = AOk (l', b', o, r) -> s <> [].
Proof. destruct s; [discriminate|congruence]. Qed.

Lemma operands_loop_fine fuel : forall l b ops s, (List.length s < fuel)%nat -> labels_ok l b -> Forall (op_ok b) ops ->
  fine (fun t => let '(l', b', os, r) := t in labels_ok l' b' /\ Forall (op_ok b') os /\
     (List.length (b_proms b) <= List.length (b_proms b'))%nat /\ (List.length r <= List.length s)%nat)
    (operands_loop fuel true l b ops s).
Proof.
  induction fuel as [|f IH]; intros l b ops s Hf Hl Ho; [lia|]. cbn [operands_loop].
  destruct s as [|c s]; [exact I|].
  pose proof (parse_operand_fine l b (c :: s) Hl) as H.
  destruct (parse_operand l b (c :: s)) as [[[[l' b'] o] r]| | |]; cbn [fine] in H; try exact H.
  destruct H as (H1 & H2 & H3 & H4).
  destruct (Nat.eqb (List.length ops) 8); [exact I|].
  assert (Ho' : Forall (op_ok b') (ops ++ [o])).
  { apply Forall_app. split; [|constructor; [exact H2|constructor]].
    eapply Forall_impl; [|exact Ho]. intros a. apply op_ok_mono. exact H3. }
  pose proof (skip_spaces_len r) as Hs. destruct (skip_spaces r) as [|d r'].
  { cbn [fine]. repeat split; try assumption. cbn. lia. }
  cbn [List.length] in Hs.
  destruct (Z.eq_dec d 59) as [->|Hd1]; [cbn [fine]; repeat split; try assumption; cbn [List.length] in *; lia|].
  destruct (Z.eq_dec d 44) as [->|Hd2].
  { pose proof (skip_spaces_len r') as Hs'.
    specialize (IH l' b' (ops ++ [o]) (skip_spaces r') ltac:(cbn [List.length] in *; lia) H1 Ho').
    destruct (operands_loop f true l' b' (ops ++ [o]) (skip_spaces r')) as [[[[l2 b2] os] r2]| | |]; cbn [fine] in *; try exact IH.
    destruct IH as (I1 & I2 & I3 & I4). repeat split; try assumption; lia. }
  destruct d as [|p|p]; try exact I. do 6 (destruct p as [p|p|]; try exact I); congruence.
Qed.

Lemma parse_operands_fine l b s : labels_ok l b ->
  fine (fun t => let '(l', b', os, r) := t in labels_ok l' b' /\ Forall (op_ok b') os /\
     (List.length (b_proms b) <= List.length (b_proms b'))%nat /\ (List.length r <= List.length s)%nat)
    (parse_operands true l b s).
Proof.
  intros Hl. unfold parse_operands. destruct s as [|c s]; [cbn; repeat split; auto; lia|].
  pose proof (operands_loop_fine (S (List.length (c :: s))) l b [] (c :: s) ltac:(lia) Hl (Forall_nil _)) as H.
  destruct (Z.eq_dec c 59) as [->|Hc]; [cbn; repeat split; auto; lia|].
  destruct c as [|p|p]; try exact H. do 6 (destruct p as [p|p|]; try exact H). congruence.
Qed.

Lemma put_operands_no_ub proms tys : forall os data promc,
  Forall (fun o => match o with PProm p => (p < List.length proms)%nat | _ => True end) os ->
  put_operands data promc proms tys os <> RUB.
Proof.
  induction tys as [|ty tys IH]; intros [|o os] data promc Ho; cbn [put_operands]; try discriminate.
  inversion Ho as [|? ? H1 H2]; subst.
  destruct o as [z|z|f|t|p], ty; try discriminate;
    try (match goal with |- context [put_operands ?d ?c proms tys os] =>
           specialize (IH os d c H2); destruct (put_operands d c proms tys os) as [[[? ?] ?]| |]; congruence end);
    (destruct (nth_error proms p) as [[v|]|] eqn:Ep; [| |apply nth_error_None in Ep; lia];
     match goal with |- context [put_operands ?d ?c proms tys os] =>
           specialize (IH os d c H2); destruct (put_operands d c proms tys os) as [[[? ?] ?]| |]; congruence end).
Qed.

Lemma exeb_append_fine b op os off len : Forall (op_ok b) os ->
  exeb_append b op os off len <> RUB /\
  (forall b', exeb_append b op os off len = ROk b' -> b_proms b' = b_proms b).
Proof.
  intros Ho. unfold exeb_append. destruct (negb _); [split; [discriminate|discriminate]|].
  pose proof (put_operands_no_ub (b_proms b) (optypes op) os (b_data b) (b_promc b) Ho) as H.
  destruct (put_operands _ _ _ _ _) as [[[d c] ss]| |]; [|split; discriminate|congruence].
  split; [discriminate|]. intros b' [= <-]. reflexivity.
Qed.

Lemma set_label_fine l b name v : labels_ok l b -> fine (fun t => labels_ok (fst t) (snd t)) (set_label l b name v).
Proof.
  intros Hl. unfold set_label. destruct (get_label l b name) as [[l' b'] p] eqn:E.
  destruct (get_label_ok _ _ _ _ _ _ Hl E) as (H1 & H2 & H3).
  unfold exeb_resolve. destruct (nth_error (b_proms b') p) as [o|] eqn:Ep; [|apply nth_error_None in Ep; lia].
  cbn. unfold labels_ok in *. cbn [b_proms]. rewrite upd_length. exact H1.
Qed.

Lemma parse_label_len c s : fine (fun t => let '(bad, lab, name, orem, r) := t in
    (List.length r <= List.length (c :: s))%nat /\ (name <> [] -> (List.length r < List.length (c :: s))%nat))
   (parse_label_and_opcode (c :: s)).
Proof.
  unfold parse_label_and_opcode. destruct (skip_identifier (c :: s)) as [name r] eqn:E. apply skip_identifier_len in E.
  pose proof (skip_spaces_len r) as H1.
  assert (Hdef : fine (fun t => let '(bad, lab, name, orem, r) := t in
    (List.length r <= List.length (c :: s))%nat /\ (name <> [] -> (List.length r < List.length (c :: s))%nat))
    (AOk (negb (ident_start c), None (A:=list Z), name, List.length (c :: s), skip_spaces r))).
  { cbn [fine]. split; [lia|]. intros Hn. destruct name; [congruence|cbn [List.length] in *; lia]. }
  destruct (skip_spaces r) as [|d r1]; [exact Hdef|].
  destruct (Z.eq_dec d 58) as [->|Hd].
  2:{ destruct d as [|p|p]; try exact Hdef. do 6 (destruct p as [p|p|]; try exact Hdef). congruence. }
  clear Hdef. pose proof (skip_spaces_len r1) as H2. destruct (skip_spaces r1) as [|c' r2]; [exact I|].
  destruct (ident_start c'); [|exact I].
  destruct (skip_identifier (c' :: r2)) as [op r3] eqn:E2. apply skip_identifier_len in E2.
  pose proof (skip_spaces_len r3) as H3. cbn [fine List.length] in *. split; [lia|]. intros _. lia.
Qed.

Lemma opcode_of_name_nonempty name op : opcode_of_name name = Some op -> name <> [].
Proof. intros H ->. discriminate H. Qed.

Lemma asm_loop_fine fuel total : forall bad l b s, (List.length s < fuel)%nat -> labels_ok l b ->
  fine (fun _ => True) (asm_loop fuel true total bad l b s).
Proof.
  induction fuel as [|f IH]; intros bad l b s Hf Hl; [lia|]. cbn [asm_loop].
  pose proof (skip_spaces_len s) as H1. destruct (skip_spaces s) as [|c s1]; [exact I|].
  pose proof (parse_label_len c s1) as H2.
  destruct (parse_label_and_opcode (c :: s1)) as [[[[[bad1 lab] name] orem] r]| | |]; cbn [fine] in H2; try exact H2.
  destruct H2 as [H2 H3].
  assert (H4 : fine (fun t => labels_ok (fst t) (snd t))
            (match lab with None => AOk (l, b) | Some n => set_label l b n (exeb_count b) end)).
  { destruct lab as [n|]; [apply set_label_fine; exact Hl|exact Hl]. }
  destruct (match lab with None => AOk (l, b) | Some n => set_label l b n (exeb_count b) end) as [[l1 b1]| | |]; cbn [fine fst snd] in H4;
    try exact H4.
  destruct (opcode_of_name name) as [op|] eqn:En; [|exact I]. apply opcode_of_name_nonempty in En. specialize (H3 En).
  pose proof (parse_operands_fine l1 b1 r H4) as H5.
  destruct (parse_operands true l1 b1 r) as [[[[l2 b2] ops] r2]| | |]; cbn [fine] in H5; try exact H5.
  destruct H5 as (H5 & H6 & H7 & H8).
  destruct (exeb_append_fine b2 op ops (total - Z.of_nat orem) (Z.of_nat (List.length name)) H6) as [H9 H10].
  destruct (exeb_append b2 op ops (total - Z.of_nat orem) (Z.of_nat (List.length name))) as [b3| |]; [|exact I|congruence].
  apply IH.
  - assert (List.length (tl r2) <= List.length r2)%nat by (destruct r2; cbn; lia). lia.
  - unfold labels_ok. rewrite (H10 b3 eq_refl). exact H5.
Qed.

Lemma assemble_fine s : assemble true s <> AUB /\ assemble true s <> AFuel.
Proof.
  unfold assemble. pose proof (asm_loop_fine (S (List.length s)) (Z.of_nat (List.length s)) false [] exeb_new s ltac:(lia) (Forall_nil _)) as H.
  destruct (asm_loop _ _ _ _ _ _ _) as [[[bad l] b]| | |]; cbn in H; try contradiction; [|split; discriminate].
  destruct (unresolved l b); [split; discriminate|].
  unfold exeb_finalize. destruct (0 <? b_promc b); split; discriminate.
Qed.
