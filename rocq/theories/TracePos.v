(** Where the instructions of an assembled program stand in its text. *)
From Coq Require Import ZArith List Lia Bool String.
From Verif Require Import Base StringModel FloatModel ExeModel AsmModel AsmProofs AsmSpec TraceSpec.
Import ListNotations.
Open Scope list_scope.
Open Scope Z_scope.

Definition suffix (a s : list Z) : Prop := exists p, s = p ++ a.
Lemma suffix_refl s : suffix s s. Proof. exists []. reflexivity. Qed.
Lemma suffix_trans a b c : suffix a b -> suffix b c -> suffix a c.
Proof. intros (p & ->) (q & ->). exists (q ++ p). now rewrite app_assoc. Qed.
Lemma suffix_cons a x s : suffix a s -> suffix a (x :: s). Proof. intros (p & ->). now exists (x :: p). Qed.
Lemma suffix_tl s : suffix (tl s) s. Proof. destruct s; [exists []|exists [z]]; reflexivity. Qed.

Lemma skip_spaces_suffix s : suffix (skip_spaces s) s.
Proof. induction s as [|c r IH]; cbn; [apply suffix_refl|]. destruct (isspace c); [now apply suffix_cons|apply suffix_refl]. Qed.
Lemma skip_identifier_app s : forall a b, skip_identifier s = (a, b) -> s = a ++ b.
Proof.
  induction s as [|c r IH]; cbn; intros a b H; [now inversion H|]. destruct (ident_char c); [|now inversion H].
  destruct (skip_identifier r) as [a' b']. inversion H; subst. cbn. now rewrite (IH a' b eq_refl).
Qed.
Lemma string_chunk_suffix s : forall a b, string_chunk s = (a, b) -> suffix b s.
Proof.
  induction s as [|c r IH]; cbn; intros a b H; [inversion H; apply suffix_refl|]. destruct (_ || _); [inversion H; apply suffix_refl|].
  destruct (string_chunk r) as [a' b']. inversion H; subst. apply suffix_cons. eapply IH. reflexivity.
Qed.
Lemma string_loop_suffix fuel : forall buf s b r, string_loop fuel buf s = AOk (b, r) -> suffix r s.
Proof.
  induction fuel as [|f IH]; intros buf s b r H; [discriminate|]. cbn [string_loop] in H.
  destruct (string_chunk s) as [ch t] eqn:C. apply string_chunk_suffix in C. destruct (_ <? _); [discriminate|].
  assert (D : forall z u b' , t = z :: u -> AOk (b', t) = AOk (b, r) -> suffix r s) by (intros ? ? ? _ I; inversion I; subst; exact C).
  destruct t as [|z u]; [inversion H; subst; exact C|].
  assert (E : z = 92 \/ AOk (buf ++ ch, z :: u) = AOk (b, r)).
  { destruct z as [|p|p]; try (right; exact H). do 7 (destruct p as [p|p|]; try (right; exact H)). left. reflexivity. }
  destruct E as [->|E]; [|eapply D; [reflexivity|exact E]]. clear D. cbn in H.
  destruct u as [|c r2]; [discriminate|]. destruct (asm_escape c) as [c'|]; [|discriminate]. destruct (_ <? _); [discriminate|].
  assert (S2 : suffix r2 s) by (eapply suffix_trans; [|exact C]; exists [92; c]; reflexivity).
  destruct r2 as [|y v]; [inversion H; subst; exact S2|].
  assert (E : AOk (A := list Z * list Z) ((buf ++ ch) ++ [c'], y :: v) = AOk (b, r) \/ string_loop f ((buf ++ ch) ++ [c']) (y :: v) = AOk (b, r)).
  { destruct y as [|p|p]; try (right; exact H). do 6 (destruct p as [p|p|]; try (right; exact H)). left. exact H. }
  destruct E as [E|E]; [inversion E; subst; exact S2|]. eapply suffix_trans; [eapply IH; exact E|exact S2].
Qed.
Lemma int_loop_suffix s : forall buf n r, int_loop buf s = AOk (n, r) -> suffix r s.
Proof.
  induction s as [|c r' IH]; cbn [int_loop]; intros buf n r H; [inversion H; apply suffix_refl|]. destruct (isdigit c); [|inversion H; apply suffix_refl].
  destruct (_ <? _); [discriminate|]. apply suffix_cons. eapply IH. exact H.
Qed.
Lemma sign_of_suffix s : suffix (snd (sign_of s)) s.
Proof.
  destruct s as [|z r]; [apply suffix_refl|]. unfold sign_of.
  destruct z as [|p|p]; try apply suffix_refl. do 6 (destruct p as [p|p|]; try apply suffix_refl); cbn; apply suffix_cons, suffix_refl.
Qed.
Lemma float_int_suffix s : forall buf, suffix (snd (float_int_loop buf s)) s.
Proof. induction s as [|c r IH]; cbn; intros buf; [apply suffix_refl|]. destruct (c =? 46); [apply suffix_refl|]. apply suffix_cons, IH. Qed.
Lemma float_frac_suffix s : forall buf q, suffix (snd (float_frac_loop buf q s)) s.
Proof. induction s as [|c r IH]; cbn; intros buf q; [apply suffix_refl|]. destruct (isdigit c); [|apply suffix_refl]. apply suffix_cons, IH. Qed.
Lemma parse_float_suffix s : suffix (snd (parse_float_operand s)) s.
Proof.
  unfold parse_float_operand. pose proof (sign_of_suffix s) as A. destruct (sign_of s) as [sg r]. cbn in A.
  pose proof (float_int_suffix r (f_of_int 0)) as B. destruct (float_int_loop (f_of_int 0) r) as [b1 r1]. cbn in B.
  pose proof (float_frac_suffix (tl r1) b1 (f_of_int 1)) as D. destruct (float_frac_loop b1 (f_of_int 1) (tl r1)) as [b2 r2]. cbn in *.
  eapply suffix_trans; [exact D|]. eapply suffix_trans; [apply suffix_tl|]. eapply suffix_trans; eassumption.
Qed.

Lemma parse_operand_suffix l b s l' b' o r : parse_operand l b s = AOk (l', b', o, r) -> suffix r s /\ b_code b' = b_code b.
Proof.
  destruct s as [|c t]; [discriminate|]. cbn [parse_operand]. destruct (c =? 34).
  - unfold parse_string_operand. destruct (string_loop _ _ t) as [[bb [|z u]]| | |] eqn:L; try discriminate. intros H. inversion H; subst.
    split; [|reflexivity]. apply suffix_cons. eapply suffix_trans; [|eapply string_loop_suffix; exact L]. exists [z]. reflexivity.
  - destruct (isdigit c || (c =? 45) || (c =? 43)).
    + destruct (if isdigit c then c :: t else t) as [|d u]; [discriminate|]. destruct (isdigit d); [|discriminate]. destruct (dot_digit (d :: u)).
      * pose proof (parse_float_suffix (c :: t)) as F. destruct (parse_float_operand (c :: t)) as [o' r']. intros H. inversion H; subst. split; [exact F|reflexivity].
      * unfold parse_integer_operand. pose proof (sign_of_suffix (c :: t)) as F. destruct (sign_of (c :: t)) as [sg r']. cbn in F.
        destruct (int_loop 0 r') as [[n r2]| | |] eqn:L; try discriminate. intros H. inversion H; subst. split; [|reflexivity].
        eapply suffix_trans; [eapply int_loop_suffix; exact L|exact F].
    + destruct (ident_start c); [|discriminate]. destruct (skip_identifier (c :: t)) as [nm r'] eqn:K. apply skip_identifier_app in K.
      destruct (get_label l b nm) as [[l2 b2] p] eqn:G. intros H. inversion H; subst. split; [exists nm; exact K|].
      unfold get_label in G. destruct (find_label l nm); inversion G; subst; reflexivity.
Qed.

Ltac not_char H z n := destruct z as [|p|p]; try (right; exact H); do n (destruct p as [p|p|]; try (right; exact H)).
Lemma operands_loop_suffix fuel : forall term l b ops s l' b' ops' r, operands_loop fuel term l b ops s = AOk (l', b', ops', r) ->
  suffix r s /\ b_code b' = b_code b.
Proof.
  induction fuel as [|f IH]; intros term l b ops s l' b' ops' r H; [discriminate|]. cbn [operands_loop] in H.
  destruct s as [|c t]; [destruct term; discriminate|]. destruct (parse_operand l b (c :: t)) as [[[[l2 b2] o] r2]| | |] eqn:P; try discriminate.
  apply parse_operand_suffix in P. destruct P as [P1 P2]. destruct (Nat.eqb _ 8); [discriminate|].
  pose proof (skip_spaces_suffix r2) as Q. destruct (skip_spaces r2) as [|z u] eqn:K.
  - inversion H; subst. split; [|exact P2]. eapply suffix_trans; eassumption.
  - assert (Z3 : z = 59 \/ z = 44 \/ (z <> 59 /\ z <> 44)) by lia. destruct Z3 as [->|[->|[N1 N2]]].
    + inversion H; subst. split; [|exact P2]. eapply suffix_trans; eassumption.
    + apply IH in H. destruct H as [H1 H2]. split; [|congruence]. eapply suffix_trans; [exact H1|]. eapply suffix_trans; [apply skip_spaces_suffix|].
      eapply suffix_trans; [|exact P1]. eapply suffix_trans; [|exact Q]. exists [44]. reflexivity.
    + exfalso. destruct z as [|p|p]; try discriminate. do 6 (destruct p as [p|p|]; try discriminate); congruence.
Qed.
Lemma parse_operands_suffix term l b s l' b' ops r : parse_operands term l b s = AOk (l', b', ops, r) -> suffix r s /\ b_code b' = b_code b.
Proof.
  unfold parse_operands. destruct s as [|z u]; [intros H; inversion H; split; [apply suffix_refl|reflexivity]|]. intros H.
  assert (E : AOk (A := labels * builder * list operand * list Z) (l, b, [], z :: u) = AOk (l', b', ops, r) \/
    operands_loop (S (List.length (z :: u))) term l b [] (z :: u) = AOk (l', b', ops, r)).
  { destruct z as [|p|p]; try (right; exact H). do 6 (destruct p as [p|p|]; try (right; exact H)). left. exact H. }
  destruct E as [E|E]; [inversion E; split; [apply suffix_refl|reflexivity]|]. eapply operands_loop_suffix. exact E.
Qed.

Lemma parse_label_suffix s bad lab name rem r : parse_label_and_opcode s = AOk (bad, lab, name, rem, r) ->
  exists pre mid, s = pre ++ name ++ mid /\ rem = List.length (name ++ mid) /\ suffix r mid.
Proof.
  destruct s as [|c t]; [discriminate|]. unfold parse_label_and_opcode. destruct (skip_identifier (c :: t)) as [nm r0] eqn:K.
  apply skip_identifier_app in K. intros H. pose proof (skip_spaces_suffix r0) as Q.
  destruct (skip_spaces r0) as [|z u] eqn:R.
  { inversion H; subst. exists [], r0. cbn [app]. rewrite <- K. repeat split; auto. }
  assert (E : z = 58 \/ AOk (A := bool * option (list Z) * list Z * nat * list Z) (negb (ident_start c), None, nm, List.length (c :: t), z :: u) = AOk (bad, lab, name, rem, r)).
  { destruct z as [|p|p]; try (right; exact H). do 6 (destruct p as [p|p|]; try (right; exact H)). left. reflexivity. }
  destruct E as [->|E].
  - cbn in H. pose proof (skip_spaces_suffix u) as Q2. destruct (skip_spaces u) as [|c' v] eqn:R2; [discriminate|].
    destruct (ident_start c'); [|discriminate]. destruct (skip_identifier (c' :: v)) as [op r2] eqn:K2. apply skip_identifier_app in K2.
    inversion H; subst. destruct Q as (q & Q). destruct Q2 as (q2 & Q2).
    exists (nm ++ q ++ 58 :: q2), r2. rewrite <- K2. split; [|split; [reflexivity|apply skip_spaces_suffix]].
    rewrite K, Q, Q2. repeat rewrite <- app_assoc. reflexivity.
  - inversion E; subst. exists [], r0. cbn [app]. rewrite <- K. repeat split; auto.
Qed.

Lemma ordered_snoc l : forall from stop stop2 i, ordered from stop l -> stop <= bi_off i -> bi_off i + bi_len i <= stop2 -> 0 <= bi_len i ->
  ordered from stop2 (l ++ [i]).
Proof.
  induction l as [|j l IH]; intros from stop stop2 i; cbn [ordered app].
  - lia.
  - intros [A B] C D F. split; [exact A|]. eapply IH; eassumption.
Qed.
Lemma ordered_weaken l : forall from stop stop2, ordered from stop l -> stop <= stop2 -> ordered from stop2 l.
Proof. induction l as [|j l IH]; intros from stop stop2; cbn [ordered]; [lia|]. intros [A B] C. split; [exact A|]. eapply IH; eassumption. Qed.
Lemma ordered_same l l' : forall from stop, map (fun i => (bi_off i, bi_len i)) l = map (fun i => (bi_off i, bi_len i)) l' -> ordered from stop l -> ordered from stop l'.
Proof.
  revert l'. induction l as [|i l IH]; intros [|j l']; try discriminate; intros from stop E; [auto|]. cbn in E. inversion E. cbn [ordered]. intros [A B].
  split; [congruence|]. replace (bi_off j + bi_len j) with (bi_off i + bi_len i) by congruence. now apply IH.
Qed.
Lemma stands_same text i j : bi_op i = bi_op j -> bi_off i = bi_off j -> bi_len i = bi_len j -> stands text i -> stands text j.
Proof. intros A B C (pre & mid & H1 & H2 & H3). exists pre, mid. rewrite <- A, <- B, <- C. auto. Qed.

Lemma set_label_code l b name v l' b' : set_label l b name v = AOk (l', b') ->
  exists p w, b_code b' = map (fill_instr p w) (b_code b) \/ b_code b' = b_code b.
Proof.
  unfold set_label. destruct (get_label l b name) as [[l2 b2] p] eqn:G. assert (C : b_code b2 = b_code b) by (unfold get_label in G; destruct (find_label l name); inversion G; subst; reflexivity).
  unfold exeb_resolve. destruct (nth_error _ p); [|discriminate]. intros H. inversion H; subst. cbn. exists p, v. left. now rewrite C.
Qed.

Lemma find_name_spelled tbl name op : find_name tbl name = Some op -> exists n, In (n, op) tbl /\ name = bytes_of n.
Proof.
  induction tbl as [|[n o] r IH]; cbn; [discriminate|]. destruct (bytes_eqb name (bytes_of n)) eqn:E.
  - intros H. inversion H; subst. apply bytes_eqb_eq in E. exists n. auto.
  - intros H. destruct (IH H) as (n' & A & B). eauto.
Qed.
Lemma instr_names_spelled : Forall (fun p => fst p = spelled (snd p)) instr_names.
Proof. repeat constructor. Qed.
Lemma opcode_of_name_spelled name op : opcode_of_name name = Some op -> name = bytes_of (spelled op).
Proof.
  unfold opcode_of_name. destruct (_ <=? _); [discriminate|]. intros H. apply find_name_spelled in H. destruct H as (n & A & ->).
  pose proof instr_names_spelled as F. rewrite Forall_forall in F. specialize (F _ A). cbn in F. congruence.
Qed.

Lemma asm_loop_places fuel : forall term text total bad l b s bad' l' b', total = Z.of_nat (List.length text) -> suffix s text ->
  Forall (stands text) (b_code b) -> ordered 0 (total - Z.of_nat (List.length s)) (b_code b) ->
  asm_loop fuel term total bad l b s = AOk (bad', l', b') -> Forall (stands text) (b_code b') /\ ordered 0 total (b_code b').
Proof.
  induction fuel as [|f IH]; intros term text total bad l b s bad' l' b' T SU F O H; [discriminate|]. cbn [asm_loop] in H.
  pose proof (skip_spaces_suffix s) as S1. destruct (skip_spaces s) as [|c t] eqn:K.
  { inversion H; subst. split; [exact F|]. eapply ordered_weaken; [exact O|]. lia. }
  destruct (parse_label_and_opcode (c :: t)) as [[[[[bad1 lab] name] rem] r]| | |] eqn:P; try discriminate.
  apply parse_label_suffix in P. destruct P as (pre & mid & P1 & P2 & P3).
  destruct (match lab with None => AOk (l, b) | Some n => set_label l b n (exeb_count b) end) as [[l1 b1]| | |] eqn:L; try discriminate.
  assert (F1 : Forall (stands text) (b_code b1) /\ ordered 0 (total - Z.of_nat (List.length s)) (b_code b1)).
  { destruct lab as [n|]; [|inversion L; subst; auto]. apply set_label_code in L. destruct L as (p & w & [L|L]); rewrite L; [|auto]. split.
    - rewrite Forall_map. eapply Forall_impl; [|exact F]. intros i. apply stands_same; reflexivity.
    - eapply ordered_same; [|exact O]. rewrite map_map. reflexivity. }
  clear F O L. destruct F1 as [F O]. destruct (opcode_of_name name) as [op|] eqn:N; [|discriminate]. apply opcode_of_name_spelled in N.
  destruct (parse_operands term l1 b1 r) as [[[[l2 b2] ops] r2]| | |] eqn:Q; try discriminate. apply parse_operands_suffix in Q. destruct Q as [Q1 Q2].
  unfold exeb_append in H. destruct (negb _); [discriminate|]. destruct (put_operands _ _ _ _ _) as [[[d c2] ss]| |]; try discriminate.
  assert (SS : suffix (c :: t) text) by (eapply suffix_trans; eassumption). destruct SS as (q & SS).
  assert (SL : (List.length (c :: t) <= List.length s)%nat) by (destruct S1 as (x & ->); rewrite app_length; lia).
  assert (SR : suffix (tl r2) mid) by (eapply suffix_trans; [apply suffix_tl|]; eapply suffix_trans; eassumption).
  assert (LR : (List.length (tl r2) <= List.length mid)%nat) by (destruct SR as (x & ->); rewrite app_length; lia).
  assert (TL : total = Z.of_nat (List.length (q ++ pre)) + Z.of_nat (List.length (name ++ mid))).
  { rewrite T, SS, P1. repeat rewrite app_length. lia. }
  eapply IH in H; [exact H|exact T| | |].
  - eapply suffix_trans; [exact SR|]. exists (q ++ pre ++ name). rewrite SS, P1. repeat rewrite <- app_assoc. reflexivity.
  - cbn [b_code]. rewrite Q2. apply Forall_app. split; [exact F|]. constructor; [|constructor].
    exists (q ++ pre), mid. cbn [bi_op bi_off bi_len]. rewrite <- N. split; [rewrite SS, P1; repeat rewrite <- app_assoc; reflexivity|].
    split; [rewrite P2; lia|reflexivity].
  - cbn [b_code]. rewrite Q2. eapply ordered_snoc; [exact O|cbn [bi_off]|cbn [bi_off bi_len]|cbn [bi_len]; lia].
    + assert (SL2 : (rem <= List.length (c :: t))%nat) by (rewrite P1, P2; rewrite (app_length pre); lia). lia.
    + rewrite P2, app_length. lia.
Qed.

Lemma assemble_places term text x bad : assemble term text = AOk (x, bad) -> Forall (stands text) (x_body x) /\ ordered 0 (Z.of_nat (List.length text)) (x_body x).
Proof.
  unfold assemble. destruct (asm_loop _ _ _ _ _ _ _) as [[[bad' l] b]| | |] eqn:A; try discriminate. destruct (unresolved l b); [discriminate|].
  unfold exeb_finalize. destruct (0 <? b_promc b); [discriminate|]. intros H. inversion H; subst. cbn [x_body].
  eapply asm_loop_places in A; [exact A|reflexivity|apply suffix_refl|constructor|cbn; lia].
Qed.
