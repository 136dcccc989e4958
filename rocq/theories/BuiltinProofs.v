(** Proofs about the native functions of BuiltinModel.v. *)
From Coq Require Import ZArith String List Lia Bool.
From Verif Require Import Base Utf8Model Utf8Spec Utf8Proofs HashModel StringModel TextProofs ValueModel MapModel ListModel ObjModel VmModel
  SysModel SysProofs BuiltinModel.
Import ListNotations.
Open Scope Z_scope.

(** What the interpreter takes for text: a sequence of characters (C08). *)
Definition text (s : list Z) : Prop := exists chs, Forall loose_char chs /\ concat chs = s.

(** The strings short enough for their size to be an [int]. *)
Definition short (s : list Z) : Prop := Z.of_nat (List.length s) < 2^31.

Lemma loose_bytes chs : Forall loose_char chs -> Forall is_byte (concat chs).
Proof. induction 1 as [|c chs [H _] _ IH]; cbn; [constructor|]. apply Forall_app. auto. Qed.

Lemma text_bytes s : text s -> Forall is_byte s.
Proof. intros (chs & H & <-). apply loose_bytes. auto. Qed.

Lemma text_app a b : text a -> text b -> text (a ++ b).
Proof.
  intros (x & Hx & <-) (y & Hy & <-). exists (x ++ y). split; [apply Forall_app; auto|apply concat_app].
Qed.

Lemma text_nil : text [].
Proof. exists []. split; [constructor|reflexivity]. Qed.

Lemma ascii_text s : Forall (fun b => 0 <= b < 128) s -> text s.
Proof.
  induction 1 as [|b s H _ IH]; [apply text_nil|]. apply (text_app [b]); [|exact IH]. exists [[b]]. split; [|reflexivity].
  constructor; [|constructor]. split; [constructor; [unfold is_byte; lia|constructor]|]. cbn. unfold lead_len.
  bcase; [|lia]. split; [reflexivity|lia].
Qed.

Lemma new_string_text s suf : text s -> short s -> new_string (s ++ suf) (Z.of_nat (List.length s)) = OOk (VStr s).
Proof.
  intros (chs & H & <-) L. unfold new_string, short in *. rewrite wrap32_id by (unfold in_int; lia).
  rewrite from_string_chars by auto. reflexivity.
Qed.

Lemma new_string_spec memory n : Forall is_byte memory -> (n <= List.length memory)%nat -> Z.of_nat n < 2^31 ->
  (text (firstn n memory) -> new_string memory (Z.of_nat n) = OOk (VStr (firstn n memory))) /\
  (~ text (firstn n memory) -> new_string memory (Z.of_nat n) = OErr).
Proof.
  intros HB Hn L. split; intros H.
  - destruct H as (chs & HC & E). unfold new_string. rewrite wrap32_id by (unfold in_int; lia).
    assert (Ln : List.length (concat chs) = n) by (rewrite E; apply firstn_length_le; lia).
    rewrite <- (firstn_skipn n memory) at 1. rewrite <- E. rewrite <- Ln at 2. rewrite from_string_chars by auto.
    reflexivity.
  - unfold new_string. rewrite wrap32_id by (unfold in_int; lia).
    destruct (from_string memory (Z.of_nat n)) as [s| |] eqn:E; [|reflexivity|].
    + destruct (from_string_split memory n s HB Hn E) as (chs & HC & HE & _). exfalso. apply H. exists chs. auto.
    + exfalso. revert E. unfold from_string. bcase; [lia|]. rewrite Nat2Z.id. bcase; [lia|].
      destruct (strlen_total memory n HB Hn) as [->|(k & -> & _)]; discriminate.
Qed.

(** ** cat *)

Definition vstrs (ss : list (list Z)) : list value := map VStr ss.

Lemma cat_total_ok ss : forall t, 0 <= t -> t + Z.of_nat (List.length (concat ss)) < 2^32 ->
  cat_total (vstrs ss) t = Some (t + Z.of_nat (List.length (concat ss))).
Proof.
  induction ss as [|s ss IH]; intros t Ht H; cbn in *.
  - rewrite Z.add_0_r. reflexivity.
  - rewrite app_length in *. rewrite u32_id by lia. rewrite IH by lia. f_equal. lia.
Qed.

Lemma cat_copy_ok ss : forall pre post, (List.length (concat ss) <= List.length post)%nat ->
  Z.of_nat (List.length pre) + Z.of_nat (List.length (concat ss)) < 2^32 ->
  cat_copy (vstrs ss) (pre ++ post) (Z.of_nat (List.length pre)) =
    ROk (pre ++ concat ss ++ skipn (List.length (concat ss)) post).
Proof.
  induction ss as [|s ss IH]; intros pre post Hl Hb; cbn in *; [reflexivity|].
  rewrite app_length in *.
  destruct (split_at post (List.length s)) as (a & b & -> & Ha); [lia|]. rewrite app_length in *.
  rewrite put_at by auto. rewrite u32_id by lia. rewrite app_assoc.
  replace (Z.of_nat (List.length pre) + Z.of_nat (List.length s)) with (Z.of_nat (List.length (pre ++ s)))
    by (rewrite app_length; lia).
  rewrite IH; [|lia|rewrite app_length; lia].
  f_equal. rewrite <- !app_assoc. do 3 f_equal. rewrite skipn_app, (skipn_all2 a) by lia. cbn.
  f_equal. lia.
Qed.

Lemma concat_text ss : Forall text ss -> text (concat ss).
Proof. induction 1; cbn; [apply text_nil|apply text_app; auto]. Qed.

Lemma cat_ok ss m : Forall text ss -> short (concat ss) -> bin_cat (vstrs ss) m = OOk ([VStr (concat ss)], m).
Proof.
  intros HT HS. unfold bin_cat. unfold short in HS. rewrite cat_total_ok by lia. rewrite Z.add_0_l.
  set (n := List.length (concat ss)) in *.
  set (size := if 127 <? Z.of_nat n then u32 (Z.of_nat n + 1) else 128).
  assert (Hsz : Z.of_nat n + 1 <= size) by (unfold size; bcase; rewrite ?u32_id by lia; lia).
  pose proof (cat_copy_ok ss [] (repeat 0 (Z.to_nat size))) as C. cbn [app List.length Z.of_nat] in C.
  rewrite C; [|rewrite repeat_length; fold n; lia|fold n; lia]. cbn [of_res obind].
  fold n. destruct (split_at (skipn n (repeat 0 (Z.to_nat size))) 1) as (a & b & Eab & Ha).
  { rewrite skipn_length, repeat_length. lia. }
  rewrite Eab. rewrite put_at by auto. cbn [of_res obind].
  rewrite new_string_text; [reflexivity|apply concat_text; auto|auto].
Qed.

Lemma cat_total_string argv v : In v argv -> (forall s, v <> VStr s) -> forall t, cat_total argv t = None.
Proof.
  induction argv as [|w argv IH]; intros [] N t; subst.
  - destruct v; try reflexivity. exfalso. eapply N. reflexivity.
  - destruct w; try reflexivity. cbn. apply IH; auto.
Qed.

Lemma cat_refused argv v m : In v argv -> (forall s, v <> VStr s) -> bin_cat argv m = OErr.
Proof. intros H N. unfold bin_cat. rewrite (cat_total_string argv v H N). reflexivity. Qed.


(** 2^32 bytes or more in all: the copy leaves the buffer. *)
Lemma cat_copy_over ss : forall buffer w, 0 <= w -> w + Z.of_nat (List.length (concat ss)) < 2^33 ->
  Z.of_nat (List.length buffer) < 2^32 -> Forall short ss ->
  Z.of_nat (List.length buffer) < w + Z.of_nat (List.length (concat ss)) -> w <= Z.of_nat (List.length buffer) ->
  cat_copy (vstrs ss) buffer w = RUB.
Proof.
  induction ss as [|s ss IH]; intros buffer w Hw H33 Hb HS Hover Hle; cbn in *; [lia|].
  rewrite app_length in *. inversion HS as [|? ? HS1 HS2]; subst. unfold short in HS1. unfold put_bytes.
  destruct (Z.ltb_spec w 0); [lia|]. cbn [orb].
  destruct (Z.ltb_spec (Z.of_nat (List.length buffer)) (w + Z.of_nat (List.length s))); [reflexivity|].
  rewrite u32_id by lia. apply IH; auto; try lia; rewrite !app_length, firstn_length, skipn_length; lia.
Qed.

Lemma cat_overflow ss m : Forall short ss ->
  2^32 <= Z.of_nat (List.length (concat ss)) < 2^33 - 1 -> bin_cat (vstrs ss) m = OUB.
Proof.
  intros HS HL. unfold bin_cat.
  assert (T : forall l t, exists t', cat_total (vstrs l) t = Some t' /\ (0 <= t -> t < 2^32 -> 0 <= t' < 2^32)).
  { induction l as [|s l IH]; intros t; [|change (vstrs (s :: l)) with (VStr s :: vstrs l)]; cbn [cat_total].
    - exists t. auto.
    - destruct (IH (u32 (t + Z.of_nat (List.length s)))) as (t' & -> & H). exists t'. split; [reflexivity|].
      intros _ _. pose proof (u32_range (t + Z.of_nat (List.length s))). apply H; lia. }
  destruct (T ss 0) as (t & -> & Ht). specialize (Ht ltac:(lia) ltac:(lia)).
  set (size := if 127 <? t then u32 (t + 1) else 128).
  assert (Hs : 0 <= size < 2^32).
  { unfold size. bcase; [|lia]. pose proof (u32_range (t + 1)). lia. }
  rewrite cat_copy_over; try reflexivity; auto; rewrite ?repeat_length; lia.
Qed.

(** ** slice *)

Lemma slice_args objs s o n :
  parse_args objs (bytes_of "s?i?i") [VStr s; VInt o; VInt n] = OOk [PgStr s; PgInt o; PgInt n].
Proof. reflexivity. Qed.

Lemma skip_terminated s o : (o <= List.length s)%nat -> skipn o (s ++ [0]) = skipn o s ++ [0].
Proof. intros H. rewrite skipn_app. replace (o - List.length s)%nat with O by lia. reflexivity. Qed.

Lemma slice_spec s o n m : Forall is_byte s -> short s -> 0 <= o -> 0 <= n -> o + n <= Z.of_nat (List.length s) ->
  let part := firstn (Z.to_nat n) (skipn (Z.to_nat o) s) in
  (text part -> bin_slice [VStr s; VInt o; VInt n] m = OOk ([VStr part], m)) /\
  (~ text part -> bin_slice [VStr s; VInt o; VInt n] m = OErr).
Proof.
  intros HB HS Ho Hn HL. cbv zeta. unfold bin_slice. rewrite slice_args. cbn [obind]. unfold short in HS.
  assert (H2 : (2^31 : Z) < 2^64) by lia.
  do 2 (bcase; [lia|]). bcase; [lia|]. unfold u64. rewrite Z.mod_small by lia. bcase; [lia|].
  assert (Hb : Forall is_byte (skipn (Z.to_nat o) (s ++ [0]))).
  { rewrite skip_terminated by lia. apply Forall_app. split.
    - rewrite <- (firstn_skipn (Z.to_nat o) s) in HB. apply Forall_app in HB. tauto.
    - constructor; [unfold is_byte; lia|constructor]. }
  destruct (new_string_spec (skipn (Z.to_nat o) (s ++ [0])) (Z.to_nat n)) as [HA HC]; auto.
  { rewrite skipn_length, app_length. cbn. lia. }
  { lia. }
  rewrite Z2Nat.id in * by lia.
  assert (E : firstn (Z.to_nat n) (skipn (Z.to_nat o) (s ++ [0])) = firstn (Z.to_nat n) (skipn (Z.to_nat o) s)).
  { rewrite skip_terminated by lia. rewrite firstn_app, skipn_length.
    replace (Z.to_nat n - (List.length s - Z.to_nat o))%nat with O by lia. cbn. apply app_nil_r. }
  rewrite E in *. split; intros HT; [rewrite HA by auto|rewrite HC by auto]; reflexivity.
Qed.

Lemma slice_refused s o n m : in_i64 o -> in_i64 n -> short s ->
  o < 0 \/ n < 0 \/ Z.of_nat (List.length s) < o + n -> bin_slice [VStr s; VInt o; VInt n] m = OErr.
Proof.
  intros Ho Hn HS H. unfold bin_slice. rewrite slice_args. cbn [obind]. unfold in_i64, short in *.
  bcase; [reflexivity|]. bcase; [reflexivity|]. bcase; [reflexivity|].
  assert (u64 (o + n) = o + n) as -> by (unfold u64; apply Z.mod_small; lia). bcase; [reflexivity|]. lia.
Qed.

Lemma slice_defaults s o m : Forall is_byte s -> short s -> 0 <= o <= Z.of_nat (List.length s) ->
  bin_slice [VStr s; VInt o; VNone] m = bin_slice [VStr s; VInt o; VInt (Z.of_nat (List.length s) - o)] m /\
  bin_slice [VStr s; VNone; VInt o] m = bin_slice [VStr s; VInt 0; VInt o] m.
Proof.
  intros HB HS Ho. unfold bin_slice. unfold short in HS. split.
  - change (parse_args _ _ [VStr s; VInt o; VNone]) with (OOk [PgStr s; PgInt o; PgNone]).
    change (parse_args _ _ [VStr s; VInt o; VInt (Z.of_nat (List.length s) - o)])
      with (OOk [PgStr s; PgInt o; PgInt (Z.of_nat (List.length s) - o)]).
    cbn [obind]. cbv zeta. assert (E : u64 (Z.of_nat (List.length s) - o) = Z.of_nat (List.length s) - o)
      by (unfold u64; apply Z.mod_small; lia). rewrite E.
    destruct (Z.ltb_spec (Z.of_nat (List.length s) - o) 0); [lia|]. reflexivity.
  - reflexivity.
Qed.

(** ** trim *)

(** [t] is [s] without the spaces around it. *)
Definition trimmed (s t : list Z) : Prop :=
  exists a b, s = a ++ t ++ b /\ Forall (eq 32) a /\ Forall (eq 32) b /\
    hd_error t <> Some 32 /\ (forall t', t <> t' ++ [32]).

Lemma drop_spaces_ok body : forall n, (exists i c, (i < n)%nat /\ nth_error body i = Some c /\ c <> 32) ->
  (n <= List.length body)%nat ->
  exists k, drop_spaces body n = Some k /\ (0 < k <= n)%nat /\
    (exists c, nth_error body (k - 1) = Some c /\ c <> 32) /\
    forall i, (k <= i < n)%nat -> nth_error body i = Some 32.
Proof.
  induction n as [|n IH]; intros (i & c & Hi & Hc & N) HL; [lia|]. cbn [drop_spaces].
  destruct (nth_error body n) as [x|] eqn:E; [|apply nth_error_None in E; lia].
  destruct (Z.eqb_spec x 32) as [->|Nx].
  - destruct IH as (k & -> & Hk & Hc2 & Hsp); [|lia|].
    { exists i, c. repeat split; auto. destruct (Nat.eq_dec i n) as [->|]; [congruence|lia]. }
    exists k. split; [reflexivity|]. split; [lia|]. split; [auto|]. intros j Hj.
    destruct (Nat.eq_dec j n) as [->|]; [auto|]. apply Hsp. lia.
  - exists (S n). split; [reflexivity|]. split; [lia|]. split; [|lia]. exists x. rewrite Nat.sub_succ, Nat.sub_0_r. auto.
Qed.

Lemma spaces_nth b : (forall i, (i < List.length b)%nat -> nth_error b i = Some 32) -> Forall (eq 32) b.
Proof.
  intros H. apply Forall_forall. intros x Hx. apply In_nth_error in Hx. destruct Hx as (i & Hi).
  rewrite H in Hi by (apply nth_error_Some; congruence). congruence.
Qed.

(** Cutting spaces off the end of well-formed text leaves well-formed text. *)
Lemma wf_cut cs : Forall code_point cs -> forall t b, encs cs = t ++ b -> Forall (eq 32) b -> exists cs', Forall code_point cs' /\ t = encs cs'.
Proof.
  induction cs as [|c cs IH] using rev_ind; intros HC t b E HB.
  - exists []. split; [constructor|]. cbn in E. destruct t; [reflexivity|discriminate].
  - apply Forall_app in HC. destruct HC as [HC1 HC2]. inversion HC2 as [|? ? Hc _]; subst.
    destruct b as [|b0 b] using rev_ind.
    + exists (cs ++ [c]). split; [apply Forall_app; auto|]. rewrite app_nil_r in E. auto.
    + clear IHb. apply Forall_app in HB. destruct HB as [HB1 HB2]. inversion HB2 as [|? ? H32 _]; subst.
      rewrite encs_app, app_assoc in E. 
      replace (encs [c]) with (enc c) in E by (unfold encs; cbn; rewrite app_nil_r; reflexivity).
      destruct (Z.ltb_spec c 128).
      * rewrite enc_head_ascii in E by auto. apply app_inj_tail in E. destruct E as [E _]. apply (IH HC1 t b E HB1).
      * destruct (enc_head_high c Hc ltac:(lia)) as (h & r & Er & Hh & Hr & Lr). rewrite Er in E.
        destruct (@exists_last _ r) as (r' & z & ->); [destruct r; [cbn in Lr; lia|discriminate]|].
        replace (encs cs ++ h :: r' ++ [z]) with ((encs cs ++ h :: r') ++ [z]) in E by (rewrite <- app_assoc; reflexivity).
        apply app_inj_tail in E. destruct E as [_ E]. apply Forall_app in Hr. destruct Hr as [_ Hr]. inversion Hr. lia.
Qed.

Lemma wf_text cs : Forall code_point cs -> text (encs cs).
Proof. intros H. exists (map enc cs). split; [apply encs_loose; auto|reflexivity]. Qed.

Lemma scalar_points cs : Forall scalar cs -> Forall code_point cs.
Proof. apply Forall_impl. intros a [H _]. exact H. Qed.

Lemma trim_no_leading s m : wf_utf8 s -> short s -> hd_error s <> Some 32 -> exists t,
  bin_trim [VStr s] m = OOk ([VStr t], m) /\ trimmed s t.
Proof.
  intros (cs & HC & Es) HS Hh. apply scalar_points in HC. unfold bin_trim.
  change (parse_args (m_objs m) (bytes_of "s") [VStr s]) with (OOk [PgStr s]). cbn [obind].
  assert (L0 : lead_spaces s = O).
  { destruct s as [|c s]; [reflexivity|]. cbn in *. destruct (Z.eqb_spec c 32); [congruence|reflexivity]. }
  rewrite L0. destruct s as [|c s'].
  - exists []. split; [reflexivity|]. exists [], []. repeat split; try constructor; try discriminate.
    intros t' C. destruct t'; discriminate.
  - set (s := c :: s') in *. change (0 =? List.length s)%nat with false. cbn [skipn].
    destruct (drop_spaces_ok (s ++ [0]) (List.length s)) as (k & -> & Hk & (x & Hx & Nx) & Hsp).
    { exists O, c. cbn. repeat split; [lia|]. cbn in Hh. congruence. }
    { rewrite app_length. lia. }
    assert (E : s = firstn k s ++ skipn k s) by (symmetry; apply firstn_skipn).
    assert (HB : Forall (eq 32) (skipn k s)).
    { apply spaces_nth. intros i Hi. rewrite skipn_length in Hi.
      specialize (Hsp (k + i)%nat ltac:(lia)). rewrite nth_error_app1 in Hsp by lia.
      rewrite E in Hsp. rewrite nth_error_app2 in Hsp by (rewrite firstn_length; lia).
      rewrite firstn_length in Hsp. replace (k + i - Nat.min k (List.length s))%nat with i in Hsp by lia. exact Hsp. }
    destruct (wf_cut cs HC (firstn k s) (skipn k s)) as (cs' & HC' & Et); [congruence|auto|].
    exists (firstn k s). split.
    + rewrite E at 1. rewrite <- app_assoc.
      assert (Lk : List.length (firstn k s) = k) by (apply firstn_length_le; lia).
      rewrite <- Lk at 3. rewrite new_string_text; [reflexivity| |unfold short in *; lia].
      rewrite Et. apply wf_text. auto.
    + exists [], (skipn k s). split; [exact E|]. split; [constructor|]. split; [exact HB|]. split.
      * destruct k; [lia|]. exact Hh.
      * intros t' C. assert (Lk : List.length (firstn k s) = k) by (apply firstn_length_le; lia).
        rewrite C, app_length in Lk. cbn in Lk. rewrite nth_error_app1 in Hx by lia.
        rewrite E, nth_error_app1, C in Hx by (rewrite firstn_length; lia).
        rewrite nth_error_app2 in Hx by lia. replace (k - 1 - List.length t')%nat with O in Hx by lia. cbn in Hx. congruence.
Qed.

Lemma lead_all s : Forall (eq 32) s -> lead_spaces s = List.length s.
Proof. induction 1 as [|c s <- _ IH]; cbn; [reflexivity|]. rewrite IH. reflexivity. Qed.

Lemma trim_spaces s m : Forall (eq 32) s -> bin_trim [VStr s] m = OOk ([VStr []], m) /\ trimmed s [].
Proof.
  intros H. split.
  - unfold bin_trim. change (parse_args (m_objs m) (bytes_of "s") [VStr s]) with (OOk [PgStr s]). cbn [obind].
    rewrite lead_all, Nat.eqb_refl by auto. reflexivity.
  - exists s, []. cbn. rewrite app_nil_r. repeat split; auto; try constructor; try discriminate.
    intros t' C. destruct t'; discriminate.
Qed.

(** A leading space keeps the terminator in the result; two make it read outside of the string. *)
Lemma trim_one_leading s m : hd_error s <> Some 32 -> s <> [] -> text s -> short (32 :: s) ->
  bin_trim [VStr (32 :: s)] m = OOk ([VStr (s ++ [0])], m).
Proof.
  intros Hh Hne HT HS. unfold bin_trim. change (parse_args (m_objs m) (bytes_of "s") [VStr (32 :: s)]) with (OOk [PgStr (32 :: s)]).
  cbn [obind]. assert (L : lead_spaces (32 :: s) = 1%nat).
  { destruct s as [|c s]; [congruence|]. cbn in *. destruct (Z.eqb_spec c 32); [congruence|reflexivity]. }
  rewrite L. destruct s as [|c s]; [congruence|]. set (w := c :: s) in *.
  change (1 =? List.length (32%Z :: w))%nat with false. change (skipn 1 ((32 :: w) ++ [0])) with (w ++ [0]).
  cbn [List.length drop_spaces]. rewrite nth_error_app2, Nat.sub_diag by lia. cbn [nth_error].
  replace (S (List.length w)) with (List.length (w ++ [0])) by (rewrite app_length; cbn; lia).
  change (0 =? 32) with false. cbv iota.
  pose proof (new_string_text (w ++ [0]) []) as N. rewrite app_nil_r in N. rewrite N; [reflexivity| |].
  - apply text_app; auto. apply ascii_text. constructor; [lia|constructor].
  - unfold short in *. rewrite app_length. cbn [List.length] in *. lia.
Qed.

Lemma trim_two_leading s m : ~ Forall (eq 32) s -> (2 <= lead_spaces s)%nat -> bin_trim [VStr s] m = OUB.
Proof.
  intros HN HL. unfold bin_trim. change (parse_args (m_objs m) (bytes_of "s") [VStr s]) with (OOk [PgStr s]). cbn [obind].
  assert (Hlt : (lead_spaces s < List.length s)%nat).
  { clear - HN. induction s as [|c s IH]; [exfalso; apply HN; constructor|]. cbn. destruct (Z.eqb_spec c 32) as [->|]; [|lia].
    enough (lead_spaces s < List.length s)%nat by lia. apply IH. intros C. apply HN. constructor; auto. }
  destruct (Nat.eqb_spec (lead_spaces s) (List.length s)); [lia|].
  assert (E : List.length (skipn (lead_spaces s) (s ++ [0])) = (List.length s + 1 - lead_spaces s)%nat)
    by (rewrite skipn_length, app_length; cbn; lia).
  destruct (List.length s) as [|k] eqn:Es; [lia|]. cbn [drop_spaces].
  destruct (nth_error _ k) as [c|] eqn:En; [|reflexivity]. assert (k < List.length (skipn (lead_spaces s) (s ++ [0%Z])))%nat by (apply nth_error_Some; congruence). lia.
Qed.

(** ** toInt *)

(** The number a string of digits denotes. *)
Definition number (s : list Z) : Z := fold_left (fun a c => a * 10 + (c - 48)) s 0.
Definition digit (c : Z) : Prop := 48 <= c <= 57.

Lemma isdigit_iff c : isdigit c = true <-> digit c.
Proof. unfold isdigit, digit. rewrite andb_true_iff, !Z.leb_le. lia. Qed.

Lemma fold_ge s : forall a, Forall digit s -> 0 <= a -> a <= fold_left (fun a c => a * 10 + (c - 48)) s a.
Proof.
  unfold digit. induction s as [|c s IH]; cbn; intros a H Ha; [lia|]. inversion H; subst.
  specialize (IH (a * 10 + (c - 48)) H3 ltac:(lia)). lia.
Qed.

Lemma toint_digits s : forall a, Forall digit s -> 0 <= a <= i64_max ->
  let n := fold_left (fun a c => a * 10 + (c - 48)) s a in
  toint_loop s a = if n <=? i64_max then inr n else inl true.
Proof.
  induction s as [|c s IH]; intros a H Ha; cbn -[Z.mul Z.sub i64_max Z.leb].
  - bcase; [reflexivity|lia].
  - inversion H as [|? ? Hc Hs]; subst. apply isdigit_iff in Hc as Hd. rewrite Hd. unfold digit in Hc.
    unfold i64_max in *. destruct (Z.ltb_spec ((2 ^ 63 - 1 - (c - 48)) / 10) a) as [Hl|Hl].
    + pose proof (fold_ge s (a * 10 + (c - 48)) Hs ltac:(lia)) as G.
      assert (2 ^ 63 - 1 < a * 10 + (c - 48)) by (Z.to_euclidean_division_equations; lia). bcase; [lia|reflexivity].
    + rewrite IH; auto. Z.to_euclidean_division_equations; lia.
Qed.

Lemma toint_other s : ~ Forall digit s -> forall a, exists b, toint_loop s a = inl b.
Proof.
  induction s as [|c s IH]; intros H a; [exfalso; apply H; constructor|]. cbn [toint_loop].
  destruct (isdigit c) eqn:E; [|eauto]. destruct (_ <? a); [eauto|]. apply IH. intros C. apply H. constructor; auto.
  apply isdigit_iff. auto.
Qed.

Lemma toint_short_other s : ~ Forall digit s -> forall a, 0 <= a ->
  (forall p, (exists q, s = p ++ q) -> Forall digit p -> fold_left (fun a c => a * 10 + (c - 48)) p a <= i64_max) ->
  toint_loop s a = inl false.
Proof.
  induction s as [|c s IH]; intros H a Ha HP; [exfalso; apply H; constructor|]. cbn [toint_loop].
  destruct (isdigit c) eqn:E; [|reflexivity]. apply isdigit_iff in E as Ed.
  pose proof (HP [c] ltac:(exists s; reflexivity) ltac:(constructor; auto)) as H1. cbn [fold_left] in H1. unfold digit in Ed.
  destruct (Z.ltb_spec ((i64_max - (c - 48)) / 10) a) as [Hl|Hl].
  - unfold i64_max in *. exfalso. Z.to_euclidean_division_equations; lia.
  - apply IH; [intros C; apply H; constructor; auto|lia|]. intros p (q & ->) Hp.
    apply (HP (c :: p)); [exists q; reflexivity|constructor; auto].
Qed.

Definition not_an_integer : list Z := bytes_of "String doesn't contain an integer".
Definition an_overflow : list Z := bytes_of "An overflow occurred".

Lemma toint_number s m : s <> [] -> Forall digit s ->
  (number s < 2^31 -> bin_toInt [VStr s] m = OOk ([VInt (number s)], m)) /\
  (number s < 2^63 -> bin_toInt [VStr s] m = OOk ([VInt (wrap32 (number s))], m)) /\
  (2^63 <= number s -> bin_toInt [VStr s] m = OOk ([VNone; VStr an_overflow], m)).
Proof.
  intros Hne H. pose proof (fold_ge s 0 H ltac:(lia)) as G. fold (number s) in G.
  assert (B : bin_toInt [VStr s] m = match toint_loop s 0 with
        | inr z => ret1 m (ret_int z)
        | inl true => none_and "An overflow occurred" m
        | inl false => none_and "String doesn't contain an integer" m
        end).
  { unfold bin_toInt. change (parse_args (m_objs m) (bytes_of "s") [VStr s]) with (OOk [PgStr s]). cbn [obind].
    destruct s as [|c s]; [congruence|]. inversion H as [|? ? Hc _]; subst. apply isdigit_iff in Hc. rewrite Hc. reflexivity. }
  rewrite B, toint_digits by (auto; unfold i64_max; lia). cbv zeta. fold (number s). unfold i64_max.
  bcase; repeat split; intros; try lia; unfold ret1, ret_int; try rewrite wrap32_id by (unfold in_int; lia); reflexivity.
Qed.

Lemma toint_not_number s m : s = [] \/ ~ Forall digit s ->
  (forall p q, s = p ++ q -> Forall digit p -> number p < 2^63) ->
  bin_toInt [VStr s] m = OOk ([VNone; VStr not_an_integer], m).
Proof.
  intros H HP. unfold bin_toInt. change (parse_args (m_objs m) (bytes_of "s") [VStr s]) with (OOk [PgStr s]). cbn [obind].
  destruct s as [|c s]; [reflexivity|]. destruct H as [H|H]; [discriminate|].
  destruct (isdigit c) eqn:E; [|reflexivity].
  rewrite toint_short_other; [reflexivity|auto|lia|]. intros p (q & Eq) Hp. specialize (HP p q Eq Hp).
  unfold number in HP. unfold i64_max. lia.
Qed.

Lemma toint_never_number s m z m' : s = [] \/ ~ Forall digit s -> bin_toInt [VStr s] m <> OOk ([VInt z], m').
Proof.
  intros H. unfold bin_toInt. change (parse_args (m_objs m) (bytes_of "s") [VStr s]) with (OOk [PgStr s]). cbn [obind].
  destruct s as [|c s]; [discriminate|]. destruct H as [H|H]; [discriminate|].
  destruct (isdigit c) eqn:E; [|discriminate]. destruct (toint_other (c :: s) H 0) as ([|] & ->); discriminate.
Qed.
