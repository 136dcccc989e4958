From Coq Require Import ZArith List Lia Bool.
From Verif Require Import Base Utf8Model Utf8Spec.
Import ListNotations.
Open Scope Z_scope.

Ltac Zify.zify_post_hook ::= Z.div_mod_to_equations.

Lemma byte_forall (P : Z -> bool) :
  forallb (fun n => P (Z.of_nat n)) (seq 0 256) = true ->
  forall b, 0 <= b < 256 -> P b = true.
Proof.
  intros H b Hb. rewrite forallb_forall in H.
  specialize (H (Z.to_nat b)). rewrite Z2Nat.id in H by lia.
  apply H. apply in_seq. lia.
Qed.

Lemma high_bit b : is_byte b -> (Z.land b 0x80 =? 0) = (b <? 128).
Proof.
  intros H. apply eqb_prop. revert b H.
  apply (byte_forall (fun b => Bool.eqb (Z.land b 0x80 =? 0) (b <? 128))).
  vm_compute. reflexivity.
Qed.

Lemma aux_bits b : is_byte b -> (Z.land b 0xc0 =? 0x80) = ((128 <=? b) && (b <? 192)).
Proof.
  intros H. apply eqb_prop. revert b H.
  apply (byte_forall (fun b => Bool.eqb (Z.land b 0xc0 =? 0x80) ((128 <=? b) && (b <? 192)))).
  vm_compute. reflexivity.
Qed.

Lemma lor_disjoint a n b : 0 <= n -> 0 <= b < 2^n -> Z.lor (a * 2^n) b = a * 2^n + b.
Proof.
  intros Hn Hb.
  assert (E : Z.land (a * 2^n) b = 0).
  { apply Z.bits_inj'. intros m Hm. rewrite Z.land_spec, Z.bits_0.
    destruct (Z.ltb_spec m n).
    - rewrite Z.mul_pow2_bits_low by lia. reflexivity.
    - destruct (Z.eq_dec b 0) as [->|].
      + rewrite Z.bits_0. apply andb_false_r.
      + rewrite (Z.bits_above_log2 b m); [apply andb_false_r|lia|].
        apply Z.log2_lt_pow2; try lia.
        apply Z.lt_le_trans with (2^n); [lia|]. apply Z.pow_le_mono_r; lia. }
  rewrite <- Z.lxor_lor by exact E. symmetry. apply Z.add_nocarry_lxor. exact E.
Qed.

Lemma land63 x : Z.land x 0x3f = x mod 64.
Proof. change 0x3f with (Z.ones 6). rewrite Z.land_ones by lia. reflexivity. Qed.
Lemma land7 x : Z.land x 0x07 = x mod 8.
Proof. change 0x07 with (Z.ones 3). rewrite Z.land_ones by lia. reflexivity. Qed.
Lemma land15 x : Z.land x 0x0f = x mod 16.
Proof. change 0x0f with (Z.ones 4). rewrite Z.land_ones by lia. reflexivity. Qed.
Lemma land31 x : Z.land x 0x1f = x mod 32.
Proof. change 0x1f with (Z.ones 5). rewrite Z.land_ones by lia. reflexivity. Qed.

Lemma lor_c0 x : 0 <= x < 32 -> Z.lor 0xc0 x = 192 + x.
Proof. intros. change 0xc0 with (6 * 2^5). rewrite lor_disjoint by lia. lia. Qed.
Lemma lor_80 x : 0 <= x < 64 -> Z.lor 0x80 x = 128 + x.
Proof. intros. change 0x80 with (2 * 2^6). rewrite lor_disjoint by lia. lia. Qed.
Lemma lor_e0 x : 0 <= x < 16 -> Z.lor 0xe0 x = 224 + x.
Proof. intros. change 0xe0 with (14 * 2^4). rewrite lor_disjoint by lia. lia. Qed.
Lemma lor_f0 x : 0 <= x < 8 -> Z.lor 0xf0 x = 240 + x.
Proof. intros. change 0xf0 with (30 * 2^3). rewrite lor_disjoint by lia. lia. Qed.

Lemma enc_length c : 1 <= Z.of_nat (length (enc c)) <= 4.
Proof. unfold enc. destruct (c <? 128), (c <? 2048), (c <? 65536); cbn [length]; lia. Qed.

Lemma enc_bytes c : code_point c -> Forall is_byte (enc c).
Proof.
  unfold enc, code_point, is_byte. intros H.
  repeat bcase; repeat constructor; lia.
Qed.

Lemma encode_spec nb c : code_point c ->
  utf8_encode nb c = if nb <? Z.of_nat (length (enc c)) then None else Some (enc c).
Proof.
  unfold utf8_encode, enc, code_point. intros H.
  destruct (Z.ltb_spec c 128); [reflexivity|].
  destruct (Z.ltb_spec c 2048).
  { simpl length. destruct (nb <? Z.of_nat 2) eqn:E; change (Z.of_nat 2) with 2 in E; rewrite E; [reflexivity|].
    rewrite land63, Z.shiftr_div_pow2 by lia. change (2^6) with 64.
    rewrite lor_c0, lor_80 by lia. reflexivity. }
  destruct (Z.ltb_spec c 65536).
  { simpl length. destruct (nb <? Z.of_nat 3) eqn:E; change (Z.of_nat 3) with 3 in E; rewrite E; [reflexivity|].
    rewrite !land63, !Z.shiftr_div_pow2 by lia. change (2^6) with 64. change (2^12) with 4096.
    rewrite lor_e0, !lor_80 by lia. reflexivity. }
  destruct (Z.leb_spec c 0x10ffff); [|lia].
  simpl length. destruct (nb <? Z.of_nat 4) eqn:E; change (Z.of_nat 4) with 4 in E; rewrite E; [reflexivity|].
  rewrite !land63, !Z.shiftr_div_pow2 by lia.
  change (2^6) with 64. change (2^12) with 4096. change (2^18) with 262144.
  rewrite lor_f0, !lor_80 by lia. reflexivity.
Qed.

Lemma encode_out_of_range nb c : 0x10FFFF < c -> utf8_encode nb c = None.
Proof.
  intros H. unfold utf8_encode.
  destruct (Z.ltb_spec c 128); [lia|]. destruct (Z.ltb_spec c 2048); [lia|].
  destruct (Z.ltb_spec c 65536); [lia|]. destruct (Z.leb_spec c 0x10ffff); [lia|reflexivity].
Qed.

(** Arithmetic form of the decoder on bytes. *)
Lemma shl6 x : Z.shiftl x 6 = x * 2^6. Proof. apply Z.shiftl_mul_pow2. lia. Qed.
Lemma shl12 x : Z.shiftl x 12 = x * 2^12. Proof. apply Z.shiftl_mul_pow2. lia. Qed.
Lemma shl18 x : Z.shiftl x 18 = x * 2^18. Proof. apply Z.shiftl_mul_pow2. lia. Qed.

Definition code2 (b0 b1 : Z) := b0 mod 32 * 64 + b1 mod 64.
Definition code3 (b0 b1 b2 : Z) := b0 mod 16 * 4096 + b1 mod 64 * 64 + b2 mod 64.
Definition code4 (b0 b1 b2 b3 : Z) := b0 mod 8 * 262144 + b1 mod 64 * 4096 + b2 mod 64 * 64 + b3 mod 64.

Lemma dec2 b0 b1 :
  Z.lor (Z.shiftl (Z.land b0 0x1f) 6) (Z.land b1 0x3f) = code2 b0 b1.
Proof.
  rewrite shl6, land31, land63, lor_disjoint by lia. reflexivity.
Qed.

Lemma dec3 b0 b1 b2 :
  Z.lor (Z.lor (Z.shiftl (Z.land b0 0x0f) 12) (Z.shiftl (Z.land b1 0x3f) 6)) (Z.land b2 0x3f) = code3 b0 b1 b2.
Proof.
  rewrite shl6, shl12, land15, !land63.
  rewrite (lor_disjoint (b0 mod 16) 12) by lia.
  replace (b0 mod 16 * 2^12 + b1 mod 64 * 2^6) with ((b0 mod 16 * 2^6 + b1 mod 64) * 2^6) by lia.
  rewrite lor_disjoint by lia. unfold code3. lia.
Qed.

Lemma dec4 b0 b1 b2 b3 :
  Z.lor (Z.lor (Z.lor (Z.shiftl (Z.land b0 0x07) 18) (Z.shiftl (Z.land b1 0x3f) 12))
               (Z.shiftl (Z.land b2 0x3f) 6)) (Z.land b3 0x3f) = code4 b0 b1 b2 b3.
Proof.
  rewrite shl6, shl12, shl18, land7, !land63.
  rewrite (lor_disjoint (b0 mod 8) 18) by lia.
  replace (b0 mod 8 * 2^18 + b1 mod 64 * 2^12) with ((b0 mod 8 * 2^6 + b1 mod 64) * 2^12) by lia.
  rewrite lor_disjoint by lia.
  replace ((b0 mod 8 * 2^6 + b1 mod 64) * 2^12 + b2 mod 64 * 2^6)
     with (((b0 mod 8 * 2^6 + b1 mod 64) * 2^6 + b2 mod 64) * 2^6) by lia.
  rewrite lor_disjoint by lia. unfold code4. lia.
Qed.

Lemma decode_enc c rest nb : code_point c -> Z.of_nat (length (enc c)) <= nb ->
  utf8_decode (enc c ++ rest) nb = DOk (Z.of_nat (length (enc c))) c.
Proof.
  unfold code_point. intros Hc Hnb.
  pose proof (enc_length c) as Hl.
  pose proof (enc_bytes c Hc) as HB.
  unfold enc in *. unfold utf8_decode.
  destruct (Z.eqb_spec nb 0); [lia|].
  destruct (Z.ltb_spec c 128).
  { cbn [app]. inversion HB; subst. rewrite high_bit by assumption.
    destruct (Z.ltb_spec c 128); [reflexivity|lia]. }
  destruct (Z.ltb_spec c 2048).
  { cbn [app]. inversion HB; subst. rewrite high_bit by assumption.
    destruct (Z.ltb_spec (192 + c/64) 128); [lia|]. cbn [negb].
    destruct (Z.leb_spec 0xF0 (192 + c/64)); [lia|].
    destruct (Z.leb_spec 0xE0 (192 + c/64)); [lia|].
    destruct (Z.leb_spec 0xC0 (192 + c/64)); [|lia].
    cbn [length] in Hnb. destruct (Z.ltb_spec nb 2); [lia|].
    rewrite dec2. unfold code2. cbn [length]. f_equal. lia. }
  destruct (Z.ltb_spec c 65536).
  { cbn [app]. inversion HB; subst. rewrite high_bit by assumption.
    destruct (Z.ltb_spec (224 + c/4096) 128); [lia|]. cbn [negb].
    destruct (Z.leb_spec 0xF0 (224 + c/4096)); [lia|].
    destruct (Z.leb_spec 0xE0 (224 + c/4096)); [|lia].
    cbn [length] in Hnb. destruct (Z.ltb_spec nb 3); [lia|].
    rewrite dec3. unfold code3.
    assert (E : (224 + c / 4096) mod 16 * 4096 + (128 + c / 64 mod 64) mod 64 * 64 + (128 + c mod 64) mod 64 = c) by lia.
    rewrite E. destruct (Z.ltb_spec 0x10ffff c); [lia|]. reflexivity. }
  { cbn [app]. inversion HB; subst. rewrite high_bit by assumption.
    destruct (Z.ltb_spec (240 + c/262144) 128); [lia|]. cbn [negb].
    destruct (Z.leb_spec 0xF0 (240 + c/262144)); [|lia].
    cbn [length] in Hnb. destruct (Z.ltb_spec nb 4); [lia|].
    rewrite dec4. unfold code4.
    assert (E : (240 + c / 262144) mod 8 * 262144 + (128 + c / 4096 mod 64) mod 64 * 4096 +
                (128 + c / 64 mod 64) mod 64 * 64 + (128 + c mod 64) mod 64 = c) by lia.
    rewrite E. destruct (Z.ltb_spec 0x10ffff c); [lia|]. reflexivity. }
Qed.

(** Decoding stays inside the given bytes. *)
Lemma decode_bounds mem nb : Forall is_byte mem -> 0 <= nb <= Z.of_nat (length mem) ->
  match utf8_decode mem nb with
  | DOk n c => 1 <= n <= 4 /\ n <= nb /\ 0 <= c <= 0x10FFFF
  | DBad => True
  | DUB => False
  end.
Proof.
  intros HB Hnb. unfold utf8_decode.
  destruct (Z.eqb_spec nb 0); [exact I|].
  destruct mem as [|b0 r]; [cbn in Hnb; lia|].
  inversion HB as [|? ? Hb0 HB']; subst.
  rewrite high_bit by assumption. unfold is_byte in Hb0.
  destruct (Z.ltb_spec b0 128); cbn [negb]; [lia|].
  destruct (Z.leb_spec 0xF0 b0).
  { destruct (Z.ltb_spec nb 4); [exact I|].
    destruct r as [|b1 [|b2 [|b3 r]]]; cbn [length] in Hnb; try lia.
    rewrite dec4. unfold code4. bcase; [exact I|]. lia. }
  destruct (Z.leb_spec 0xE0 b0).
  { destruct (Z.ltb_spec nb 3); [exact I|].
    destruct r as [|b1 [|b2 r]]; cbn [length] in Hnb; try lia.
    rewrite dec3. unfold code3. bcase; [exact I|]. lia. }
  destruct (Z.leb_spec 0xC0 b0).
  { destruct (Z.ltb_spec nb 2); [exact I|].
    destruct r as [|b1 r]; cbn [length] in Hnb; try lia.
    rewrite dec2. unfold code2. lia. }
  rewrite land63. lia.
Qed.

Lemma Forall_skipn {A} (P : A -> Prop) n l : Forall P l -> Forall P (skipn n l).
Proof. revert l; induction n; destruct l; simpl; intros; auto. inversion H; auto. Qed.

Lemma skip_ascii_spec mem i n : Forall is_byte mem -> (i + n <= length mem)%nat ->
  exists j, skip_ascii mem i n = Some j /\ (i <= j <= i + n)%nat /\
    (forall k b, (i <= k < j)%nat -> nth_error mem k = Some b -> b < 128) /\
    ((j < i + n)%nat -> exists b, nth_error mem j = Some b /\ 128 <= b).
Proof.
  intros HB. revert i; induction n; intros i Hi; simpl.
  { exists i. split; [reflexivity|]. split; [lia|]. split; intros; lia. }
  destruct (nth_error mem i) as [b|] eqn:E.
  2:{ apply nth_error_None in E. lia. }
  assert (Hb : is_byte b) by (rewrite Forall_forall in HB; apply HB; eapply nth_error_In; eauto).
  rewrite high_bit by assumption.
  destruct (Z.ltb_spec b 128).
  - destruct (IHn (S i)) as (j & Hj1 & Hj2 & Hj3 & Hj4); [lia|].
    exists j. split; [exact Hj1|]. split; [lia|]. split.
    + intros k b' Hk Hk'. destruct (Nat.eq_dec k i) as [->|]; [congruence|].
      apply (Hj3 k); [lia|assumption].
    + intros. apply Hj4. lia.
  - exists i. split; [reflexivity|]. split; [lia|]. split; [intros; lia|].
    intros. exists b. split; [assumption|lia].
Qed.

Lemma strlen_loop_total mem nb : Forall is_byte mem -> (nb <= length mem)%nat ->
  forall fuel i len, (i <= nb)%nat -> (nb - i < fuel)%nat ->
  match utf8_strlen_loop fuel mem nb i len with
  | SLen n => len <= n <= len + (Z.of_nat nb - Z.of_nat i) /\
              ((i < nb)%nat -> len < n)
  | SBad => True
  | SUB | STimeout => False
  end.
Proof.
  intros HB Hnb. induction fuel; intros i len Hi Hf; [lia|].
  cbn [utf8_strlen_loop].
  destruct (Nat.ltb_spec i nb); [|split; [lia|intros; lia]].
  destruct (skip_ascii_spec mem i (nb - i) HB ltac:(lia)) as (j & Hj & Hj2 & _ & _).
  rewrite Hj. destruct (Nat.eqb_spec j nb).
  { subst. split; lia. }
  pose proof (decode_bounds (skipn j mem) (Z.of_nat nb - Z.of_nat j)
     (Forall_skipn _ _ _ HB)) as D.
  rewrite skipn_length in D. specialize (D ltac:(lia)).
  destruct (utf8_decode _ _) as [m c| |]; auto.
  destruct (Z.ltb_spec m 1); [exact I|].
  specialize (IHfuel (j + Z.to_nat m)%nat (len + (Z.of_nat j - Z.of_nat i) + 1) ltac:(lia) ltac:(lia)).
  destruct (utf8_strlen_loop _ _ _ _ _); auto. split; [|intros]; lia.
Qed.

Lemma strlen_total mem nb : Forall is_byte mem -> (nb <= length mem)%nat ->
  utf8_strlen mem nb = SBad \/
  exists n, utf8_strlen mem nb = SLen n /\ 0 <= n <= Z.of_nat nb /\ (n = 0 <-> nb = 0%nat).
Proof.
  intros HB Hnb. unfold utf8_strlen.
  pose proof (strlen_loop_total mem nb HB Hnb (S nb) 0 0 ltac:(lia) ltac:(lia)) as H.
  destruct (utf8_strlen_loop _ _ _ _ _) as [n| | |]; try contradiction; auto.
  right. exists n. split; [reflexivity|]. split; [lia|]. split; intros; lia.
Qed.

Lemma skip_ascii_all mem i n : Forall (fun b => 0 <= b < 128) mem -> (i + n <= length mem)%nat ->
  skip_ascii mem i n = Some (i + n)%nat.
Proof.
  intros HB. revert i; induction n; intros i Hi; simpl.
  { f_equal. lia. }
  destruct (nth_error mem i) as [b|] eqn:E.
  2:{ apply nth_error_None in E. lia. }
  assert (0 <= b < 128) by (rewrite Forall_forall in HB; apply HB; eapply nth_error_In; eauto).
  rewrite high_bit by (unfold is_byte; lia).
  destruct (Z.ltb_spec b 128); [|lia].
  rewrite IHn by lia. f_equal. lia.
Qed.

Lemma strlen_ascii mem : Forall (fun b => 0 <= b < 128) mem ->
  utf8_strlen mem (length mem) = SLen (Z.of_nat (length mem)).
Proof.
  intros HB. unfold utf8_strlen. cbn [utf8_strlen_loop].
  destruct (Nat.ltb_spec 0 (length mem)).
  - rewrite skip_ascii_all by (auto; lia). rewrite Nat.add_0_l, Nat.sub_0_r.
    rewrite Nat.eqb_refl. f_equal. lia.
  - f_equal. lia.
Qed.

(** Text made of encoded code points. *)
Lemma encs_cons c cs : encs (c :: cs) = enc c ++ encs cs.
Proof. reflexivity. Qed.

Lemma encs_app a b : encs (a ++ b) = encs a ++ encs b.
Proof. unfold encs. rewrite map_app, concat_app. reflexivity. Qed.

Lemma encs_bytes cs : Forall code_point cs -> Forall is_byte (encs cs).
Proof.
  induction 1; [constructor|]. rewrite encs_cons. apply Forall_app. split; auto.
  apply enc_bytes; auto.
Qed.

Lemma enc_head_ascii c : code_point c -> c < 128 -> enc c = [c].
Proof. intros. unfold enc. destruct (Z.ltb_spec c 128); [reflexivity|lia]. Qed.

Lemma enc_head_high c : code_point c -> 128 <= c ->
  exists b r, enc c = b :: r /\ 192 <= b < 256 /\ Forall (fun x => 128 <= x < 192) r /\ (1 <= length r)%nat.
Proof.
  unfold code_point, enc. intros.
  repeat bcase; try lia; eexists _, _; (split; [reflexivity|]);
  (split; [lia|]); (split; [repeat constructor; lia| simpl; lia]).
Qed.

Ltac fb := repeat (apply Forall_cons; [first [assumption | unfold is_byte; lia]|]); apply Forall_nil.

(** The lengths the decoder goes by. *)
Lemma lead_len_range b : (1 <= lead_len b <= 4)%nat.
Proof. unfold lead_len. repeat bcase; lia. Qed.

Lemma loose_ne ch : loose_char ch -> exists b r, ch = b :: r /\ is_byte b /\ length ch = lead_len b.
Proof.
  intros (HB & H). destruct ch as [|b r]; [contradiction|].
  exists b, r. inversion HB; subst. split; [reflexivity|]. split; [assumption|]. apply H.
Qed.

Lemma loose_length ch : loose_char ch -> (1 <= length ch <= 4)%nat.
Proof.
  intros H. destruct (loose_ne ch H) as (b & r & -> & _ & Hl). rewrite Hl. apply lead_len_range.
Qed.

Definition decode_code (ch : list Z) : Z :=
  match ch with
  | [b] => if b <? 128 then b else b mod 64
  | [b0; b1] => code2 b0 b1
  | [b0; b1; b2] => code3 b0 b1 b2
  | [b0; b1; b2; b3] => code4 b0 b1 b2 b3
  | _ => 0
  end.

Lemma decode_loose ch rest nb : loose_char ch -> Z.of_nat (length ch) <= nb ->
  utf8_decode (ch ++ rest) nb = DOk (Z.of_nat (length ch)) (decode_code ch).
Proof.
  intros H Hnb. pose proof (loose_length ch H) as Hlen.
  destruct H as (HB & H). destruct ch as [|b0 r]; [contradiction|].
  destruct H as (Hl & H4).
  inversion HB as [|? ? Hb0 HB']; subst.
  unfold utf8_decode. destruct (Z.eqb_spec nb 0); [lia|].
  cbn [app]. rewrite high_bit by assumption.
  unfold is_byte in Hb0. unfold lead_len in Hl.
  destruct (Z.ltb_spec b0 192).
  { destruct r; [|cbn [length] in Hl; lia]. cbn [decode_code length].
    destruct (Z.ltb_spec b0 128); cbn [negb]; [reflexivity|].
    destruct (Z.leb_spec 0xF0 b0); [lia|]. destruct (Z.leb_spec 0xE0 b0); [lia|].
    destruct (Z.leb_spec 0xC0 b0); [lia|]. rewrite land63. reflexivity. }
  destruct (Z.ltb_spec b0 128); [lia|]. cbn [negb].
  destruct (Z.ltb_spec b0 224).
  { destruct r as [|b1 [|]]; cbn [length] in Hl; try lia. cbn [decode_code length app] in *.
    destruct (Z.leb_spec 0xF0 b0); [lia|]. destruct (Z.leb_spec 0xE0 b0); [lia|].
    destruct (Z.leb_spec 0xC0 b0); [|lia]. destruct (Z.ltb_spec nb 2); [lia|].
    rewrite dec2. reflexivity. }
  destruct (Z.ltb_spec b0 240).
  { destruct r as [|b1 [|b2 [|]]]; cbn [length] in Hl; try lia. cbn [decode_code length app] in *.
    destruct (Z.leb_spec 0xF0 b0); [lia|]. destruct (Z.leb_spec 0xE0 b0); [|lia].
    destruct (Z.ltb_spec nb 3); [lia|].
    rewrite dec3. destruct (Z.ltb_spec 0x10ffff (code3 b0 b1 b2)); [unfold code3 in *; lia|]. reflexivity. }
  destruct r as [|b1 [|b2 [|b3 [|]]]]; cbn [length] in Hl; try lia. cbn [decode_code length app] in *.
  destruct (Z.leb_spec 0xF0 b0); [|lia].
  destruct (Z.ltb_spec nb 4); [lia|].
  rewrite dec4. specialize (H4 ltac:(lia)).
  destruct (Z.ltb_spec 0x10ffff (code4 b0 b1 b2 b3)); [unfold code4 in *; lia|]. reflexivity.
Qed.

(** Conversely, what the decoder accepts is a loose character. *)
Lemma decode_ok_loose mem nb n c : Forall is_byte mem -> 0 <= nb <= Z.of_nat (length mem) ->
  utf8_decode mem nb = DOk n c ->
  loose_char (firstn (Z.to_nat n) mem) /\ length (firstn (Z.to_nat n) mem) = Z.to_nat n /\ 1 <= n <= nb.
Proof.
  intros HB Hnb. unfold utf8_decode.
  destruct (Z.eqb_spec nb 0); [discriminate|].
  destruct mem as [|b0 r]; [discriminate|].
  inversion HB as [|? ? Hb0 HB']; subst.
  rewrite high_bit by assumption. unfold is_byte in Hb0.
  assert (One : b0 < 192 -> loose_char [b0]).
  { intros. split; [repeat constructor; unfold is_byte; lia|]. unfold lead_len.
    destruct (Z.ltb_spec b0 192); [|lia]. split; [reflexivity|intros; lia]. }
  destruct (Z.ltb_spec b0 128); cbn [negb].
  { intros [= <- <-]. change (Z.to_nat 1) with 1%nat. cbn [firstn length]. split; [apply One; lia|]. split; [reflexivity|lia]. }
  destruct (Z.leb_spec 0xF0 b0).
  { destruct (Z.ltb_spec nb 4); [discriminate|].
    destruct r as [|b1 [|b2 [|b3 r]]]; try discriminate.
    rewrite dec4. destruct (Z.ltb_spec 0x10ffff (code4 b0 b1 b2 b3)); [discriminate|].
    intros [= <- <-]. change (Z.to_nat 4) with 4%nat. cbn [firstn length].
    split; [|split; [reflexivity|lia]].
    inversion HB' as [|? ? ? HB2]; inversion HB2 as [|? ? ? HB3]; inversion HB3; subst.
    split; [fb|]. unfold lead_len.
    repeat (bcase; try lia). split; [reflexivity|]. intros _. unfold code4 in *. lia. }
  destruct (Z.leb_spec 0xE0 b0).
  { destruct (Z.ltb_spec nb 3); [discriminate|].
    destruct r as [|b1 [|b2 r]]; try discriminate.
    rewrite dec3. destruct (Z.ltb_spec 0x10ffff (code3 b0 b1 b2)); [discriminate|].
    intros [= <- <-]. change (Z.to_nat 3) with 3%nat. cbn [firstn length].
    split; [|split; [reflexivity|lia]].
    inversion HB' as [|? ? ? HB2]; inversion HB2; subst.
    split; [fb|]. unfold lead_len.
    repeat (bcase; try lia). split; [reflexivity|]. intros; lia. }
  destruct (Z.leb_spec 0xC0 b0).
  { destruct (Z.ltb_spec nb 2); [discriminate|].
    destruct r as [|b1 r]; try discriminate.
    intros [= <- <-]. change (Z.to_nat 2) with 2%nat. cbn [firstn length].
    split; [|split; [reflexivity|lia]].
    inversion HB'; subst.
    split; [fb|]. unfold lead_len.
    repeat (bcase; try lia). split; [reflexivity|]. intros; lia. }
  intros [= <- <-]. change (Z.to_nat 1) with 1%nat. cbn [firstn length]. split; [apply One; lia|]. split; [reflexivity|lia].
Qed.

(** Skipping ASCII inside a sequence of loose characters: skips a whole number of characters. *)
Lemma skip_ascii_chars pre chs suf : Forall loose_char chs ->
  exists k, (k <= length chs)%nat /\
    skip_ascii (pre ++ concat chs ++ suf) (length pre) (length (concat chs)) = Some (length pre + k)%nat /\
    length (concat (firstn k chs)) = k.
Proof.
  intros HC. revert pre. induction HC as [|ch chs Hc HC IH]; intros pre.
  { exists 0%nat. simpl. split; [lia|]. split; [f_equal; lia|]. reflexivity. }
  cbn [concat].
  destruct (loose_ne ch Hc) as (b & r & -> & Hb & Hl).
  destruct (Z.ltb_spec b 128).
  - destruct r.
    2:{ unfold lead_len in Hl. destruct (Z.ltb_spec b 192); [cbn [length] in Hl; lia|lia]. }
    destruct (IH (pre ++ [b])) as (k & Hk1 & Hk2 & Hk3).
    exists (S k). split; [simpl; lia|].
    split.
    + rewrite app_length in *. cbn [length Nat.add] in *. cbn [skip_ascii].
      rewrite nth_error_app2 by lia. rewrite Nat.sub_diag. cbn [app nth_error].
      rewrite high_bit by assumption.
      destruct (Z.ltb_spec b 128); [|lia].
      rewrite <- app_assoc in Hk2. cbn [app] in Hk2.
      replace (S (length pre)) with (length pre + 1)%nat by lia.
      rewrite Hk2. f_equal. lia.
    + cbn [firstn concat app length]. lia.
  - exists 0%nat. split; [lia|]. split; [|reflexivity].
    cbn [app length skip_ascii]. rewrite nth_error_app2 by lia. rewrite Nat.sub_diag. cbn [nth_error].
    rewrite high_bit by assumption.
    destruct (Z.ltb_spec b 128); [lia|]. f_equal. lia.
Qed.

Lemma skipn_app_exact {A} (l1 l2 : list A) : skipn (length l1) (l1 ++ l2) = l2.
Proof. rewrite skipn_app, skipn_all, Nat.sub_diag. reflexivity. Qed.

Lemma concat_length_ge chs : Forall loose_char chs -> (length chs <= length (concat chs))%nat.
Proof.
  induction 1; simpl; [lia|]. rewrite app_length. pose proof (loose_length x H). lia.
Qed.

Lemma strlen_loop_chars suf : forall fuel pre chs len,
  Forall loose_char chs -> (length (concat chs) < fuel)%nat ->
  utf8_strlen_loop fuel (pre ++ concat chs ++ suf) (length pre + length (concat chs)) (length pre) len =
  SLen (len + Z.of_nat (length chs)).
Proof.
  induction fuel; intros pre chs len HC Hf; [lia|].
  cbn [utf8_strlen_loop].
  destruct (Nat.ltb_spec (length pre) (length pre + length (concat chs))) as [Hlt|Hge].
  2:{ assert (length chs = 0)%nat by (pose proof (concat_length_ge chs HC); lia). f_equal. lia. }
  replace (length pre + length (concat chs) - length pre)%nat with (length (concat chs)) by lia.
  destruct (skip_ascii_chars pre chs suf HC) as (k & Hk1 & Hk2 & Hk3).
  rewrite Hk2.
  assert (Ecs : chs = firstn k chs ++ skipn k chs) by (symmetry; apply firstn_skipn).
  assert (Elen : length (firstn k chs) = k) by (rewrite firstn_length; lia).
  destruct (skipn k chs) as [|c cs'] eqn:Esk.
  - (* all ASCII *)
    rewrite app_nil_r in Ecs. rewrite <- Ecs in *.
    rewrite Hk3. rewrite Nat.eqb_refl. f_equal. lia.
  - rewrite Ecs in HC. apply Forall_app in HC. destruct HC as [HC1 HC2].
    inversion HC2 as [|? ? Hcp HC3]; subst.
    set (A := concat (firstn k chs)) in *.
    assert (Ebytes : concat chs = A ++ c ++ concat cs').
    { rewrite Ecs at 1. rewrite concat_app. reflexivity. }
    pose proof (loose_length c Hcp) as Lc.
    rewrite Ebytes, !app_length, Hk3 in *.
    destruct (Nat.eqb_spec (length pre + k) (length pre + (k + (length c + length (concat cs'))))); [lia|].
    replace (skipn (length pre + k) (pre ++ (A ++ c ++ concat cs') ++ suf))
       with (c ++ concat cs' ++ suf).
    2:{ replace (length pre + k)%nat with (length (pre ++ A)) by (rewrite app_length; lia).
        replace (pre ++ (A ++ c ++ concat cs') ++ suf)
           with ((pre ++ A) ++ c ++ concat cs' ++ suf) by (rewrite <- !app_assoc; reflexivity).
        rewrite skipn_app_exact. reflexivity. }
    rewrite decode_loose by (auto; lia).
    destruct (Z.ltb_spec (Z.of_nat (length c)) 1); [lia|].
    rewrite Nat2Z.id.
    specialize (IHfuel (pre ++ A ++ c) cs'
                  (len + (Z.of_nat (length pre + k) - Z.of_nat (length pre)) + 1) HC3 ltac:(lia)).
    rewrite !app_length, Hk3 in IHfuel.
    replace (length pre + (k + (length c + length (concat cs'))))%nat
       with (length pre + (k + length c) + length (concat cs'))%nat by lia.
    replace (length pre + k + length c)%nat with (length pre + (k + length c))%nat by lia.
    replace (pre ++ (A ++ c ++ concat cs') ++ suf)
       with ((pre ++ A ++ c) ++ concat cs' ++ suf) by (rewrite <- !app_assoc; reflexivity).
    rewrite IHfuel. f_equal.
    assert (length chs = (k + S (length cs'))%nat) by (rewrite Ecs, app_length, Elen; reflexivity).
    lia.
Qed.

Lemma strlen_chars chs suf : Forall loose_char chs ->
  utf8_strlen (concat chs ++ suf) (length (concat chs)) = SLen (Z.of_nat (length chs)).
Proof.
  intros HC. unfold utf8_strlen.
  pose proof (strlen_loop_chars suf (S (length (concat chs))) [] chs 0 HC ltac:(lia)) as H.
  cbn [app length Nat.add] in H. rewrite H. f_equal.
Qed.

(** Every encoded code point is a loose character. *)
Lemma enc_loose c : code_point c -> loose_char (enc c).
Proof.
  intros Hc. split; [apply enc_bytes; assumption|].
  unfold code_point in Hc. unfold enc, lead_len.
  repeat (bcase; try lia); (split; [reflexivity|intros; lia]).
Qed.

Lemma encs_loose cs : Forall code_point cs -> Forall loose_char (map enc cs).
Proof. induction 1; simpl; constructor; auto. apply enc_loose; auto. Qed.

Lemma strlen_encs cs suf : Forall code_point cs ->
  utf8_strlen (encs cs ++ suf) (length (encs cs)) = SLen (Z.of_nat (length cs)).
Proof.
  intros HC. unfold encs. rewrite strlen_chars by (apply encs_loose; assumption).
  rewrite map_length. reflexivity.
Qed.

Lemma skipn_skipn' {A} (l : list A) i j : skipn i (skipn j l) = skipn (i + j) l.
Proof.
  revert l; induction j; intros; [rewrite Nat.add_0_r; reflexivity|].
  rewrite Nat.add_succ_r. destruct l; simpl; [destruct i; reflexivity|]. apply IHj.
Qed.

(** What is accepted splits into loose characters. *)
Lemma singletons_loose l : Forall (fun b => 0 <= b < 128) l ->
  Forall loose_char (map (fun b => [b]) l) /\ concat (map (fun b => [b]) l) = l.
Proof.
  induction 1; simpl; [split; [constructor|reflexivity]|].
  destruct IHForall as [A B]. split; [|congruence].
  constructor; [|assumption]. split; [repeat constructor; unfold is_byte; lia|].
  unfold lead_len. destruct (Z.ltb_spec x 192); [|lia]. split; [reflexivity|intros; lia].
Qed.

Lemma firstn_skipn_split {A} (l : list A) i j k : (i <= j <= k)%nat ->
  firstn (k - i) (skipn i l) = firstn (j - i) (skipn i l) ++ firstn (k - j) (skipn j l).
Proof.
  intros H. replace (k - i)%nat with ((j - i) + (k - j))%nat by lia.
  replace (skipn j l) with (skipn (j - i) (skipn i l)).
  2:{ rewrite skipn_skipn'. f_equal. lia. }
  generalize (skipn i l) as m. intros m. generalize (j - i)%nat as p, (k - j)%nat as q. clear.
  induction m as [|x m IHm]; intros p q; destruct p; simpl; auto.
  { destruct q; reflexivity. }
  f_equal. apply IHm.
Qed.

Lemma strlen_loop_split mem nb : Forall is_byte mem -> (nb <= length mem)%nat ->
  forall fuel i len n, (i <= nb)%nat ->
  utf8_strlen_loop fuel mem nb i len = SLen n ->
  exists chs, Forall loose_char chs /\ concat chs = firstn (nb - i) (skipn i mem) /\
              n = len + Z.of_nat (length chs).
Proof.
  intros HB Hnb. induction fuel; intros i len n Hi; [discriminate|].
  cbn [utf8_strlen_loop].
  destruct (Nat.ltb_spec i nb).
  2:{ intros [= <-]. exists []. split; [constructor|]. split; [|simpl; lia].
      replace (nb - i)%nat with 0%nat by lia. reflexivity. }
  destruct (skip_ascii_spec mem i (nb - i) HB ltac:(lia)) as (j & Hj & Hj2 & Hj3 & _).
  rewrite Hj.
  assert (HA : Forall (fun b => 0 <= b < 128) (firstn (j - i) (skipn i mem))).
  { apply Forall_forall. intros b Hb. apply In_nth_error in Hb. destruct Hb as (k & Hk).
    assert (Hlt : (k < j - i)%nat).
    { apply nth_error_Some_lt in Hk. rewrite firstn_length in Hk. lia. }
    assert (E : nth_error mem (i + k) = Some b).
    { rewrite <- (firstn_skipn i mem) at 1. rewrite nth_error_app2; rewrite firstn_length; [|lia].
      replace (i + k - Nat.min i (length mem))%nat with k by lia.
      rewrite <- (firstn_skipn (j - i) (skipn i mem)). rewrite nth_error_app1; [assumption|].
      apply nth_error_Some_lt in Hk. assumption. }
    split; [|apply (Hj3 (i + k)%nat); [lia|assumption]].
    rewrite Forall_forall in HB. apply nth_error_In in E. apply HB in E. unfold is_byte in E. lia. }
  destruct (singletons_loose _ HA) as [HL HCt].
  set (S1 := map (fun b : Z => [b]) (firstn (j - i) (skipn i mem))) in *.
  assert (LS1 : length S1 = (j - i)%nat).
  { unfold S1. rewrite map_length, firstn_length, skipn_length. lia. }
  destruct (Nat.eqb_spec j nb).
  { intros [= <-]. subst j. exists S1. split; [assumption|]. split; [assumption|]. lia. }
  destruct (utf8_decode (skipn j mem) (Z.of_nat nb - Z.of_nat j)) as [m c| |] eqn:ED; try discriminate.
  apply decode_ok_loose in ED; [|apply Forall_skipn; assumption|rewrite skipn_length; lia].
  destruct ED as (HLc & HLn & Hm).
  destruct (Z.ltb_spec m 1); [lia|]. intros HE.
  apply IHfuel in HE; [|lia]. destruct HE as (chs & Hchs & Hcat & ->).
  exists (S1 ++ firstn (Z.to_nat m) (skipn j mem) :: chs).
  split; [apply Forall_app; split; [assumption|constructor; assumption]|]. split.
  - rewrite concat_app. cbn [concat]. rewrite HCt, Hcat.
    rewrite (firstn_skipn_split mem i j nb) by lia. f_equal.
    rewrite (firstn_skipn_split mem j (j + Z.to_nat m) nb) by lia. f_equal. f_equal. lia.
  - rewrite app_length. cbn [length]. lia.
Qed.

Lemma strlen_iff mem n : Forall is_byte mem ->
  (utf8_strlen mem (length mem) = SLen n <->
   exists chs, Forall loose_char chs /\ concat chs = mem /\ n = Z.of_nat (length chs)).
Proof.
  intros HB. split.
  - intros H. apply strlen_loop_split in H; [|assumption|lia|lia].
    destruct H as (chs & A & B & C). exists chs. split; [assumption|]. split; [|lia].
    rewrite B. rewrite Nat.sub_0_r. cbn [skipn]. apply firstn_all.
  - intros (chs & A & <- & ->).
    pose proof (strlen_chars chs [] A) as H. rewrite app_nil_r in H. exact H.
Qed.

(** Backwards. *)
Lemma skip_aux_spec pre b r suf : 0 <= b < 256 -> ~ (128 <= b < 192) ->
  Forall (fun x => 128 <= x < 192) r ->
  skip_aux (pre ++ (b :: r) ++ suf) (length pre + length r) = Some (Z.of_nat (length pre)).
Proof.
  intros Hb Hnb Hr. revert suf. induction r as [|x r IH] using rev_ind; intros suf.
  - rewrite Nat.add_0_r.
    destruct (length pre) as [|p] eqn:Ep; cbn [skip_aux].
    + destruct pre; [|discriminate]. cbn [app nth_error].
      rewrite aux_bits by (unfold is_byte; lia).
      destruct (Z.leb_spec 128 b), (Z.ltb_spec b 192); cbn [andb]; try reflexivity; lia.
    + rewrite nth_error_app2 by lia. rewrite Ep, Nat.sub_diag. cbn [app nth_error].
      rewrite aux_bits by (unfold is_byte; lia).
      destruct (Z.leb_spec 128 b), (Z.ltb_spec b 192); cbn [andb]; try reflexivity; lia.
  - apply Forall_app in Hr. destruct Hr as [Hr Hx]. inversion Hx; subst.
    rewrite app_length. cbn [length].
    replace (length pre + (length r + 1))%nat with (S (length pre + length r)) by lia.
    cbn [skip_aux].
    rewrite nth_error_app2 by lia.
    replace (S (length pre + length r) - length pre)%nat with (S (length r)) by lia.
    cbn [app nth_error].
    rewrite <- app_assoc. rewrite nth_error_app2 by lia. rewrite Nat.sub_diag. cbn [app nth_error].
    rewrite aux_bits by (unfold is_byte; lia).
    destruct (Z.leb_spec 128 x), (Z.ltb_spec x 192); cbn [andb]; try lia.
    specialize (IH Hr (x :: suf)).
    cbn [app] in IH. exact IH.
Qed.

Lemma prev_encs pre c suf : code_point c ->
  utf8_prev (pre ++ enc c ++ suf) (length pre + length (enc c)) = PAt (Z.of_nat (length pre)) c.
Proof.
  intros Hc. pose proof (enc_length c) as Lc.
  destruct (Z.ltb_spec c 128).
  - rewrite enc_head_ascii by (auto; lia). cbn [length].
    replace (length pre + 1)%nat with (S (length pre)) by lia. cbn [utf8_prev].
    rewrite nth_error_app2 by lia. rewrite Nat.sub_diag. cbn [app nth_error].
    rewrite high_bit by (unfold is_byte; unfold code_point in Hc; lia).
    destruct (Z.ltb_spec c 128); [reflexivity|lia].
  - destruct (enc_head_high c Hc ltac:(lia)) as (b & r & Hbr & Hb & Hr & Hlr).
    pose proof (decode_enc c suf (Z.of_nat (length (enc c))) Hc ltac:(lia)) as HD.
    rewrite Hbr in *. cbn [length] in *.
    replace (length pre + S (length r))%nat with (S (length pre + length r)) by lia.
    cbn [utf8_prev].
    destruct (nth_error (pre ++ (b :: r) ++ suf) (length pre + length r)) as [bt|] eqn:Et.
    2:{ apply nth_error_None in Et. rewrite !app_length in Et. simpl in Et. lia. }
    assert (Hbt : 128 <= bt < 192).
    { rewrite nth_error_app2 in Et by lia.
      replace (length pre + length r - length pre)%nat with (length r) in Et by lia.
      rewrite nth_error_app1 in Et by (simpl; lia).
      destruct r as [|r0 r']; [simpl in Hlr; lia|].
      cbn [length nth_error] in Et.
      rewrite Forall_forall in Hr. apply Hr. eapply nth_error_In. eauto. }
    rewrite high_bit by (unfold is_byte; lia).
    destruct (Z.ltb_spec bt 128); [lia|].
    rewrite skip_aux_spec by (auto; lia).
    destruct (Z.eqb_spec (Z.of_nat (length pre)) (-1)); [lia|].
    rewrite Nat2Z.id, skipn_app_exact.
    replace (Z.of_nat (length pre + length r) - Z.of_nat (length pre) + 1)
      with (Z.of_nat (S (length r))) by lia.
    rewrite HD.
    destruct (Z.ltb_spec (Z.of_nat (S (length r))) (Z.of_nat (S (length r)))); [lia|]. reflexivity.
Qed.

(** Full backward traversal, as a client loop would do it with utf8_prev: collects the codes until index 0. *)
Fixpoint walk_back (fuel : nat) (mem : list Z) (idx : nat) : option (list Z) :=
  match idx, fuel with
  | O, _ => Some []
  | _, O => None
  | _, S f => match utf8_prev mem idx with
              | PAt i c => match walk_back f mem (Z.to_nat i) with
                           | Some l => Some (c :: l)
                           | None => None
                           end
              | _ => None
              end
  end.

Lemma walk_back_encs cs : Forall code_point cs -> forall suf,
  walk_back (length cs) (encs cs ++ suf) (length (encs cs)) = Some (rev cs).
Proof.
  induction cs as [|c cs IH] using rev_ind; intros HC suf; [reflexivity|].
  apply Forall_app in HC. destruct HC as [HC Hc]. inversion Hc; subst.
  rewrite app_length. cbn [length]. rewrite Nat.add_1_r.
  rewrite encs_app. unfold encs at 2 4. cbn [map concat]. rewrite app_nil_r.
  rewrite app_length, <- app_assoc.
  pose proof (enc_length c) as Lc.
  destruct (length (encs cs) + length (enc c))%nat as [|p] eqn:E; [lia|].
  cbn [walk_back]. rewrite <- E.
  rewrite prev_encs by assumption. rewrite Nat2Z.id.
  rewrite IH by assumption. rewrite rev_app_distr. reflexivity.
Qed.

(** What utf8_prev accepts: exactly the bytes between the index it returns and the one given form one character. *)
Lemma skip_aux_range mem : forall idx, (idx < length mem)%nat ->
  exists h, skip_aux mem idx = Some h /\ -1 <= h <= Z.of_nat idx.
Proof.
  induction idx as [|idx IH]; intros Hi; cbn [skip_aux]; (destruct (nth_error mem _) eqn:E; [|apply nth_error_None in E; lia]).
  - destruct (Z.land z 0xc0 =? 0x80); eexists; (split; [reflexivity|lia]).
  - destruct (Z.land z 0xc0 =? 0x80); [|eexists; split; [reflexivity|lia]].
    destruct (IH ltac:(lia)) as (h & Hh & Hr). exists h. split; [assumption|lia].
Qed.

Lemma prev_sound mem idx : Forall is_byte mem -> (idx <= length mem)%nat ->
  match utf8_prev mem idx with
  | PAt i c => exists j ch, i = Z.of_nat j /\ (j + length ch = idx)%nat /\ firstn idx mem = firstn j mem ++ ch /\ loose_char ch /\
      utf8_decode ch (Z.of_nat (length ch)) = DOk (Z.of_nat (length ch)) c
  | PStart => idx = 0%nat
  | PBad => True
  | PUB => False
  end.
Proof.
  intros HB Hi. destruct idx as [|tail]; [reflexivity|]. cbn [utf8_prev].
  destruct (nth_error mem tail) as [bt|] eqn:Et; [|apply nth_error_None in Et; lia].
  assert (Hbt : is_byte bt) by (rewrite Forall_forall in HB; apply HB; eapply nth_error_In; eassumption).
  rewrite high_bit by assumption.
  assert (Split : forall j, (j <= S tail)%nat -> firstn (S tail) mem = firstn j mem ++ firstn (S tail - j) (skipn j mem)).
  { intros j Hj. pose proof (firstn_skipn_split mem 0 j (S tail) ltac:(lia)) as X. cbn [skipn] in X. rewrite !Nat.sub_0_r in X. exact X. }
  destruct (Z.ltb_spec bt 128).
  - exists tail, [bt]. cbn [length]. split; [reflexivity|]. split; [lia|]. split.
    + rewrite (Split tail) by lia. f_equal. replace (S tail - tail)%nat with 1%nat by lia.
      rewrite <- (firstn_skipn tail mem) in Et. rewrite nth_error_app2 in Et by (rewrite firstn_length; lia).
      rewrite firstn_length in Et. replace (tail - Nat.min tail (length mem))%nat with 0%nat in Et by lia.
      destruct (skipn tail mem); [discriminate|]. cbn in Et |- *. congruence.
    + split; [|unfold utf8_decode; cbn [Z.of_nat]; rewrite high_bit by assumption; destruct (Z.ltb_spec bt 128); [reflexivity|lia]].
      split; [repeat constructor; unfold is_byte in *; lia|]. unfold lead_len. destruct (Z.ltb_spec bt 192); [split; [reflexivity|intros; lia]|lia].
  - destruct (skip_aux_range mem tail ltac:(lia)) as (h & Hh & Hr). rewrite Hh.
    destruct (Z.eqb_spec h (-1)); [exact I|].
    assert (exists j, h = Z.of_nat j) as [j ->] by (exists (Z.to_nat h); lia). rewrite Nat2Z.id.
    assert (HB' : Forall is_byte (skipn j mem)) by (apply Forall_skipn; assumption).
    assert (Hnb : 0 <= Z.of_nat tail - Z.of_nat j + 1 <= Z.of_nat (length (skipn j mem))) by (rewrite skipn_length; lia).
    pose proof (decode_bounds _ _ HB' Hnb) as D.
    destruct (utf8_decode (skipn j mem) (Z.of_nat tail - Z.of_nat j + 1)) as [m c| |] eqn:ED; [|exact I|contradiction].
    destruct D as (D1 & D2 & D3).
    destruct (Z.ltb_spec m (Z.of_nat tail - Z.of_nat j + 1)); [exact I|].
    assert (m = Z.of_nat tail - Z.of_nat j + 1) as -> by lia.
    destruct (decode_ok_loose _ _ _ _ HB' Hnb ED) as (L1 & L2 & _).
    replace (Z.to_nat (Z.of_nat tail - Z.of_nat j + 1)) with (S tail - j)%nat in L1, L2 by lia.
    exists j, (firstn (S tail - j) (skipn j mem)). split; [reflexivity|]. split; [lia|]. split; [apply Split; lia|]. split; [assumption|].
    pose proof (decode_loose _ (skipn (S tail - j) (skipn j mem)) (Z.of_nat (S tail - j)) L1 ltac:(lia)) as X.
    rewrite firstn_skipn in X. replace (Z.of_nat (S tail - j)) with (Z.of_nat tail - Z.of_nat j + 1) in X by lia.
    rewrite ED in X. injection X as X1 X2. rewrite X2.
    pose proof (decode_loose _ [] (Z.of_nat (length (firstn (S tail - j) (skipn j mem)))) L1 ltac:(lia)) as Y. rewrite app_nil_r in Y. exact Y.
Qed.
