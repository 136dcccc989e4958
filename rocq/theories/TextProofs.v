From Coq Require Import ZArith List Lia Bool.
From Coq Require Import Floats.SpecFloat.
From Verif Require Import Base Utf8Model Utf8Spec Utf8Proofs HashModel FloatModel StringModel ValueModel.
Import ListNotations.
Open Scope Z_scope.

Lemma firstn_app_exact {A} (a b : list A) : firstn (length a) (a ++ b) = a.
Proof. rewrite firstn_app, firstn_all, Nat.sub_diag. cbn [firstn]. apply app_nil_r. Qed.

Lemma from_string_chars chs suf : Forall loose_char chs ->
  from_string (concat chs ++ suf) (Z.of_nat (length (concat chs))) = ROk (mkstr (Z.of_nat (length chs)) (concat chs)).
Proof.
  intros H. unfold from_string.
  destruct (Z.ltb_spec (Z.of_nat (length (concat chs))) 0); [lia|].
  rewrite Nat2Z.id. rewrite app_length.
  destruct (Nat.ltb_spec (length (concat chs) + length suf) (length (concat chs))); [lia|].
  rewrite strlen_chars by assumption. rewrite firstn_app_exact. reflexivity.
Qed.

Lemma from_string_split mem n s : Forall is_byte mem -> (n <= length mem)%nat ->
  from_string mem (Z.of_nat n) = ROk s ->
  exists chs, Forall loose_char chs /\ concat chs = firstn n mem /\ s = mkstr (Z.of_nat (length chs)) (concat chs).
Proof.
  intros HB Hn. unfold from_string.
  destruct (Z.ltb_spec (Z.of_nat n) 0); [lia|]. rewrite Nat2Z.id.
  destruct (Nat.ltb_spec (length mem) n); [lia|].
  destruct (utf8_strlen mem n) as [c| | |] eqn:E; try discriminate.
  intros [= <-]. apply strlen_loop_split in E; [|assumption|lia|lia].
  destruct E as (chs & A & B & C). rewrite Nat.sub_0_r in B. cbn [skipn] in B.
  exists chs. split; [assumption|]. split; [assumption|]. rewrite B. f_equal. lia.
Qed.

(** Locating a character. *)
Lemma nth_split_chars (chs : list (list Z)) i c : nth_error chs i = Some c ->
  concat chs = concat (firstn i chs) ++ c ++ concat (skipn (S i) chs).
Proof.
  revert i; induction chs as [|x chs IH]; destruct i; simpl; intros H; try discriminate.
  - injection H as ->. reflexivity.
  - rewrite (IH i H). rewrite <- app_assoc. reflexivity.
Qed.

Lemma firstn_S_snoc {A} (l : list A) i c : nth_error l i = Some c -> firstn (S i) l = firstn i l ++ [c].
Proof.
  revert i; induction l; destruct i; simpl; intros H; try discriminate.
  - congruence.
  - f_equal. apply IHl. assumption.
Qed.

Lemma skipn_cons_nth {A} (l : list A) i c : nth_error l i = Some c -> skipn i l = c :: skipn (S i) l.
Proof.
  revert i; induction l; destruct i; cbn [skipn nth_error]; intros H; try discriminate.
  - congruence.
  - apply IHl. assumption.
Qed.

Lemma offset_loop_chars chs cnt : Forall loose_char chs -> forall n k, (n + k <= length chs)%nat ->
  offset_loop (mkstr cnt (concat chs)) n (Z.of_nat (length (concat (firstn k chs)))) =
  Some (Z.of_nat (length (concat (firstn (n + k) chs)))).
Proof.
  intros HC. induction n; intros k Hk; [reflexivity|].
  cbn [offset_loop]. destruct (Z.ltb_spec (Z.of_nat (length (concat (firstn k chs)))) 0); [lia|].
  rewrite Nat2Z.id. unfold s_mem. cbn [s_bytes].
  destruct (nth_error chs k) as [c|] eqn:Ec.
  2:{ apply nth_error_None in Ec. lia. }
  assert (Hc : loose_char c) by (rewrite Forall_forall in HC; apply HC; eapply nth_error_In; eauto).
  pose proof (nth_split_chars chs k c Ec) as Es.
  rewrite Es at 1. rewrite <- !app_assoc, skipn_app_exact.
  rewrite decode_loose; [|assumption|].
  2:{ rewrite Es, !app_length. lia. }
  cbn [dec_ret].
  replace (Z.of_nat (length (concat (firstn k chs))) + Z.of_nat (length c))
    with (Z.of_nat (length (concat (firstn (S k) chs)))).
  2:{ rewrite (firstn_S_snoc _ _ _ Ec), concat_app, app_length. cbn [concat]. rewrite app_nil_r. lia. }
  rewrite IHn by lia. replace (n + S k)%nat with (S n + k)%nat by lia. reflexivity.
Qed.

Lemma all_one_concat (chs : list (list Z)) : Forall loose_char chs -> length chs = length (concat chs) ->
  forall k, (k <= length chs)%nat -> length (concat (firstn k chs)) = k.
Proof.
  induction 1 as [|c chs Hc HC IH]; intros Hl k Hk; cbn [length concat] in *.
  - replace k with 0%nat by lia. reflexivity.
  - rewrite app_length in Hl. pose proof (concat_length_ge chs HC). pose proof (loose_length c Hc).
    destruct k; [reflexivity|]. cbn [firstn concat]. rewrite app_length, IH by lia. lia.
Qed.

Lemma char_offset_chars chs i : Forall loose_char chs -> (i < length chs)%nat ->
  char_index_to_offset (mkstr (Z.of_nat (length chs)) (concat chs)) (Z.of_nat i) =
  Some (Z.of_nat (length (concat (firstn i chs)))).
Proof.
  intros HC Hi. unfold char_index_to_offset. cbn [s_count s_bytes].
  destruct (Z.eqb_spec (Z.of_nat (length chs)) (Z.of_nat (length (concat chs)))).
  - rewrite all_one_concat by (auto; lia). reflexivity.
  - rewrite Nat2Z.id. pose proof (offset_loop_chars chs (Z.of_nat (length chs)) HC i 0 ltac:(lia)) as H.
    cbn [firstn concat length] in H. change (Z.of_nat 0) with 0 in H. rewrite H, Nat.add_0_r. reflexivity.
Qed.

Lemma str_select_chars chs i c : Forall loose_char chs -> Z.of_nat (length chs) < 2^31 ->
  nth_error chs i = Some c ->
  str_select (mkstr (Z.of_nat (length chs)) (concat chs)) (Z.of_nat i) = ROk (mkstr 1 c).
Proof.
  intros HC Hmax Hc. pose proof (nth_error_Some_lt _ _ _ Hc) as Hi.
  unfold str_select. cbn [s_count s_bytes].
  rewrite wrap32_id by (unfold in_int; lia).
  destruct (Z.ltb_spec (Z.of_nat i) 0); [lia|].
  destruct (Z.leb_spec (Z.of_nat (length chs)) (Z.of_nat i)); [lia|]. cbn [orb].
  rewrite char_offset_chars by assumption.
  destruct (Z.ltb_spec (Z.of_nat (length (concat (firstn i chs)))) 0); [lia|].
  rewrite Nat2Z.id. unfold s_mem. cbn [s_bytes].
  assert (Hlc : loose_char c) by (rewrite Forall_forall in HC; apply HC; eapply nth_error_In; eauto).
  pose proof (nth_split_chars chs i c Hc) as Es.
  assert (Esk : skipn (length (concat (firstn i chs))) (concat chs ++ [0]) =
                c ++ concat (skipn (S i) chs) ++ [0]).
  { rewrite Es at 1. rewrite <- !app_assoc, skipn_app_exact. reflexivity. }
  rewrite Esk.
  rewrite decode_loose; [|assumption|rewrite Es, !app_length; lia].
  cbn [dec_ret].
  pose proof (from_string_chars [c] (concat (skipn (S i) chs) ++ [0]) ltac:(constructor; [assumption|constructor])) as HS.
  cbn [concat length] in HS. rewrite app_nil_r in HS. exact HS.
Qed.

Lemma str_select_out s key : in_int key -> (key < 0 \/ s_count s <= key) -> str_select s key = RErr.
Proof.
  intros Hk H. unfold str_select. rewrite wrap32_id by assumption.
  destruct (Z.ltb_spec key 0), (Z.leb_spec (s_count s) key); cbn [orb]; try reflexivity; lia.
Qed.

(** Equality. *)
Lemma strncmp_refl a n : (n <= length a)%nat -> strncmp_eq a a n = true.
Proof.
  revert a; induction n; intros a Hn; [reflexivity|].
  destruct a as [|x a]; cbn [length] in Hn; [lia|]. cbn [strncmp_eq]. rewrite Z.eqb_refl.
  destruct (x =? 0); [reflexivity|]. apply IHn. lia.
Qed.

Lemma strncmp_noz a b sa sb : length a = length b -> ~ In 0 a ->
  strncmp_eq (a ++ sa) (b ++ sb) (length a) = true -> a = b.
Proof.
  revert b; induction a as [|x a IH]; intros b Hl Hz H.
  - destruct b; [reflexivity|discriminate].
  - destruct b as [|y b]; [discriminate|]. cbn [app length strncmp_eq] in H.
    destruct (Z.eqb_spec x y); [|discriminate]. subst y.
    destruct (Z.eqb_spec x 0); [exfalso; apply Hz; left; assumption|].
    f_equal. apply IH; auto. intros Hin. apply Hz. right. assumption.
Qed.

Lemma str_eql_iff a b ca cb : (~ In 0 a \/ ~ In 0 b) ->
  (str_eql (mkstr ca a) (mkstr cb b) = true <-> a = b).
Proof.
  intros Hz. unfold str_eql, s_mem. cbn [s_bytes]. split.
  - intros H. apply andb_true_iff in H. destruct H as [Hl H]. apply Nat.eqb_eq in Hl.
    destruct Hz as [Hz|Hz].
    + eapply strncmp_noz; eauto.
    + symmetry. eapply strncmp_noz with (sa := [0]) (sb := [0]); eauto.
      rewrite Hl in H. clear Hl Hz. revert H. generalize (a ++ [0]) (b ++ [0]) (length b). clear.
      intros l. induction l as [|x l IH]; intros l0 n; destruct n; destruct l0 as [|y l0]; cbn [strncmp_eq];
        try reflexivity; try discriminate.
      rewrite (Z.eqb_sym y x). destruct (Z.eqb_spec x y); [|discriminate]. subst.
      destruct (y =? 0); [reflexivity|]. apply IH.
  - intros <-. rewrite Nat.eqb_refl. cbn [andb]. apply strncmp_refl. rewrite app_length. lia.
Qed.

Lemma strncmp_sym : forall l l0 n, strncmp_eq l l0 n = strncmp_eq l0 l n.
Proof.
  intros l. induction l as [|x l IH]; intros l0 n; destruct n; destruct l0 as [|y l0]; cbn [strncmp_eq];
    try reflexivity.
  rewrite (Z.eqb_sym y x). destruct (Z.eqb_spec x y); [|reflexivity]. subst.
  destruct (y =? 0); [reflexivity|]. apply IH.
Qed.

Lemma strncmp_trans : forall n a b c,
  strncmp_eq a b n = true -> strncmp_eq b c n = true -> strncmp_eq a c n = true.
Proof.
  induction n; intros a b c; cbn [strncmp_eq]; [reflexivity|].
  destruct a as [|x a], b as [|y b], c as [|z c]; try discriminate.
  destruct (Z.eqb_spec x y), (Z.eqb_spec y z); try discriminate; subst.
  rewrite Z.eqb_refl. destruct (z =? 0); [reflexivity|]. apply IHn.
Qed.

Lemma str_eql_refl a : str_eql a a = true.
Proof.
  unfold str_eql. rewrite Nat.eqb_refl. cbn [andb]. apply strncmp_refl.
  unfold s_mem. rewrite app_length. lia.
Qed.

Lemma str_eql_sym a b : str_eql a b = str_eql b a.
Proof.
  unfold str_eql. rewrite Nat.eqb_sym.
  destruct (Nat.eqb_spec (length (s_bytes b)) (length (s_bytes a))) as [E|]; [|reflexivity].
  rewrite E, strncmp_sym. reflexivity.
Qed.

Lemma str_eql_trans a b c : str_eql a b = true -> str_eql b c = true -> str_eql a c = true.
Proof.
  unfold str_eql. intros H1 H2.
  apply andb_true_iff in H1. apply andb_true_iff in H2.
  destruct H1 as [L1 H1], H2 as [L2 H2]. apply Nat.eqb_eq in L1, L2.
  rewrite <- L1 in *. rewrite L2, Nat.eqb_refl in *. cbn [andb].
  eapply strncmp_trans; eauto.
Qed.

(** Floats. *)
Ltac Zify.zify_post_hook ::= Z.div_mod_to_equations.

Lemma f_decode_inj a b : is_bits a -> is_bits b ->
  f_decode a = f_decode b -> f_decode a <> S754_nan -> a = b.
Proof.
  unfold is_bits, f_decode. intros Ha Hb.
  set (ea := (a / 2^52) mod 2048). set (eb := (b / 2^52) mod 2048).
  set (ma := a mod 2^52). set (mb := b mod 2^52).
  assert (Ra : a = (if 2^63 <=? a then 2^63 else 0) + ea * 2^52 + ma).
  { unfold ea, ma. destruct (Z.leb_spec (2^63) a); lia. }
  assert (Rb : b = (if 2^63 <=? b then 2^63 else 0) + eb * 2^52 + mb).
  { unfold eb, mb. destruct (Z.leb_spec (2^63) b); lia. }
  assert (0 <= ma < 2^52) by (unfold ma; apply Z.mod_pos_bound; lia).
  assert (0 <= mb < 2^52) by (unfold mb; apply Z.mod_pos_bound; lia).
  assert (0 <= ea < 2048) by (unfold ea; apply Z.mod_pos_bound; lia).
  assert (0 <= eb < 2048) by (unfold eb; apply Z.mod_pos_bound; lia).
  clearbody ea eb ma mb.
  assert (Key : forall sa sb, sa = sb -> (2^63 <=? a) = sa -> (2^63 <=? b) = sb -> ea = eb -> ma = mb -> a = b).
  { intros sa sb -> Hsa Hsb -> ->. rewrite Ra, Rb, Hsa, Hsb. reflexivity. }
  destruct (Z.eqb_spec ea 0) as [Ea|Ea].
  - destruct ma as [|pa|]; [| |lia];
    (destruct (Z.eqb_spec eb 0) as [Eb|Eb];
      [destruct mb as [|pb|]; [| |lia]; intros E _; try discriminate;
       injection E; intros; eapply Key; try reflexivity; try congruence
      |]).
    + destruct (Z.eqb_spec eb 2047); [destruct (Z.eqb_spec mb 0); discriminate|].
      destruct (mb + 2^52) eqn:X; try discriminate; lia.
    + destruct (Z.eqb_spec eb 2047); [destruct (Z.eqb_spec mb 0); discriminate|].
      destruct (mb + 2^52) eqn:X; try lia. intros E _. injection E. intros. lia.
  - destruct (Z.eqb_spec ea 2047) as [Ea2|Ea2].
    + destruct (Z.eqb_spec ma 0); [|intros E N; congruence].
      destruct (Z.eqb_spec eb 0); [destruct mb; discriminate|].
      destruct (Z.eqb_spec eb 2047).
      * destruct (Z.eqb_spec mb 0); [|discriminate]. intros E _. injection E. intros.
        eapply Key; try reflexivity; try congruence.
      * destruct (mb + 2^52) eqn:X; try discriminate; lia.
    + destruct (ma + 2^52) eqn:X; try lia.
      destruct (Z.eqb_spec eb 0).
      { destruct mb as [|pb|]; [discriminate| |lia]. intros E _. injection E. intros. lia. }
      destruct (Z.eqb_spec eb 2047); [destruct (Z.eqb_spec mb 0); discriminate|].
      destruct (mb + 2^52) eqn:Y; try lia.
      intros E _. injection E. intros. eapply Key; try reflexivity; try congruence; lia.
Qed.

Lemma sfcompare_eq x y : SFcompare x y = Some Eq ->
  x = y \/ ((exists s, x = S754_zero s) /\ (exists s, y = S754_zero s)).
Proof.
  destruct x as [s|s| |s m e], y as [s'|s'| |s' m' e']; cbn [SFcompare]; intros H; try discriminate.
  all: try (destruct s; discriminate); try (destruct s'; discriminate); try (destruct s, s'; discriminate).
  - right. eauto.
  - left. destruct s, s'; try discriminate; reflexivity.
  - destruct s, s'; try discriminate.
    + destruct (Z.compare_spec e e'); try discriminate. injection H as H. left. subst.
      destruct (Pos.compare_cont Eq m m') eqn:E; cbn in H; try discriminate.
      apply Pos.compare_eq in E. subst. reflexivity.
    + destruct (Z.compare_spec e e'); try discriminate. injection H as H. left. subst.
      apply Pos.compare_eq in H. subst. reflexivity.
Qed.

Lemma f_decode_zero b s : is_bits b -> f_decode b = S754_zero s -> f_zero_like b.
Proof.
  unfold is_bits, f_decode, f_zero_like. intros Hb.
  destruct (Z.eqb_spec ((b / 2^52) mod 2048) 0) as [E|E].
  - destruct (b mod 2^52) eqn:M; try discriminate; intros _; lia.
  - destruct (Z.eqb_spec ((b / 2^52) mod 2048) 2047).
    + destruct (_ =? 0); discriminate.
    + destruct (b mod 2^52 + 2^52); discriminate.
Qed.

Lemma f_eq_bits a b : is_bits a -> is_bits b -> f_eq a b = true ->
  a = b \/ (f_zero_like a /\ f_zero_like b).
Proof.
  intros Ha Hb. unfold f_eq, SFeqb.
  destruct (SFcompare (f_decode a) (f_decode b)) as [[| |]|] eqn:E; try discriminate.
  intros _. destruct (sfcompare_eq _ _ E) as [H|[[s H] [s' H']]].
  - left. apply f_decode_inj; auto. intros N. rewrite N in E. discriminate.
  - right. split; eapply f_decode_zero; eauto.
Qed.

Lemma f_eq_refl a : f_decode a <> S754_nan -> f_eq a a = true.
Proof.
  unfold f_eq, SFeqb. destruct (f_decode a) as [s|s| |s m e]; intros H; cbn; try congruence.
  - destruct s; reflexivity.
  - destruct s; rewrite Z.compare_refl; rewrite Pos.compare_refl; reflexivity.
Qed.

Lemma f_eq_sym a b : f_eq a b = f_eq b a.
Proof.
  unfold f_eq, SFeqb.
  destruct (SFcompare (f_decode a) (f_decode b)) as [[| |]|] eqn:E.
  - destruct (sfcompare_eq _ _ E) as [H|[[s H] [s' H']]].
    + rewrite H in *. rewrite E. reflexivity.
    + rewrite H, H'. reflexivity.
  - destruct (SFcompare (f_decode b) (f_decode a)) as [[| |]|] eqn:E2; try reflexivity.
    destruct (sfcompare_eq _ _ E2) as [H|[[s H] [s' H']]]; [rewrite H in *; congruence|].
    rewrite H, H' in E. discriminate.
  - destruct (SFcompare (f_decode b) (f_decode a)) as [[| |]|] eqn:E2; try reflexivity.
    destruct (sfcompare_eq _ _ E2) as [H|[[s H] [s' H']]]; [rewrite H in *; congruence|].
    rewrite H, H' in E. discriminate.
  - destruct (SFcompare (f_decode b) (f_decode a)) as [[| |]|] eqn:E2; try reflexivity.
    destruct (sfcompare_eq _ _ E2) as [H|[[s H] [s' H']]]; [rewrite H in *; congruence|].
    rewrite H, H' in E. discriminate.
Qed.

Lemma f_eq_trans a b c : f_eq a b = true -> f_eq b c = true -> f_eq a c = true.
Proof.
  unfold f_eq, SFeqb.
  destruct (SFcompare (f_decode a) (f_decode b)) as [[| |]|] eqn:E; try discriminate.
  destruct (SFcompare (f_decode b) (f_decode c)) as [[| |]|] eqn:E2; try discriminate.
  intros _ _. destruct (sfcompare_eq _ _ E) as [H|[[s H] [s' H']]].
  - rewrite H, E2. reflexivity.
  - destruct (sfcompare_eq _ _ E2) as [H2|[[s2 H2] [s2' H2']]].
    + rewrite <- H2, E. reflexivity.
    + rewrite H, H2'. reflexivity.
Qed.

(** Values. *)
Lemma tyname_eqb_eq a b : tyname_eqb a b = true <-> a = b.
Proof. destruct a, b; cbn; split; congruence. Qed.

Lemma tyname_eqb_refl a : tyname_eqb a a = true.
Proof. apply tyname_eqb_eq. reflexivity. Qed.

Lemma tyname_eqb_sym a b : tyname_eqb a b = tyname_eqb b a.
Proof. destruct a, b; reflexivity. Qed.

(** Values for which == is defined. *)
Definition comparable (v : value) : Prop :=
  match v with VAny | VRef _ => False | VFloat b => is_bits b /\ f_decode b <> S754_nan | _ => True end.

Lemma compare_refl rt v : comparable v -> obj_compare rt v v = Some true.
Proof.
  intros H. unfold obj_compare. rewrite tyname_eqb_refl. cbn [negb].
  destruct v; cbn in H |- *; try contradiction; auto.
  - destruct b; reflexivity.
  - rewrite Z.eqb_refl. reflexivity.
  - rewrite f_eq_refl by tauto. reflexivity.
  - rewrite str_eql_refl. reflexivity.
  - rewrite tyname_eqb_refl. reflexivity.
Qed.

Lemma compare_sym rt v w : obj_compare rt v w = obj_compare rt w v.
Proof.
  unfold obj_compare. rewrite (tyname_eqb_sym (type_of rt w)).
  destruct (negb _); [reflexivity|].
  destruct v, w; try reflexivity; f_equal.
  - destruct b, b0; reflexivity.
  - apply Z.eqb_sym.
  - apply f_eq_sym.
  - apply str_eql_sym.
  - apply tyname_eqb_sym.
Qed.

Lemma compare_trans rt u v w :
  obj_compare rt u v = Some true -> obj_compare rt v w = Some true -> obj_compare rt u w = Some true.
Proof.
  unfold obj_compare.
  destruct (tyname_eqb (type_of rt u) (type_of rt v)) eqn:E1; cbn [negb]; [|discriminate].
  destruct (tyname_eqb (type_of rt v) (type_of rt w)) eqn:E2; cbn [negb]; [|discriminate].
  apply tyname_eqb_eq in E1, E2. rewrite E1, E2, tyname_eqb_refl. cbn [negb].
  destruct u, v, w; cbn in E1, E2; intros H1 H2; try discriminate; try reflexivity;
    injection H1 as H1; injection H2 as H2; f_equal.
  - destruct b, b0, b1; auto; discriminate.
  - apply Z.eqb_eq in H1, H2. subst. apply Z.eqb_refl.
  - eapply f_eq_trans; eauto.
  - eapply str_eql_trans; eauto.
  - apply tyname_eqb_eq in H1, H2. subst. apply tyname_eqb_refl.
Qed.

Lemma compare_types rt v w : type_of rt v <> type_of rt w -> obj_compare rt v w = Some false.
Proof.
  intros H. unfold obj_compare. destruct (tyname_eqb _ _) eqn:E; [|reflexivity].
  apply tyname_eqb_eq in E. contradiction.
Qed.

(** Hashing. *)
Definition hashable_ok (v : value) : Prop :=
  match v with
  | VNone | VBool _ | VInt _ => True
  | VFloat b => is_bits b /\ ~ f_zero_like b
  | VStr bs => ~ In 0 bs
  | _ => False
  end.

Lemma eq_hash rt v w : hashable_ok v -> hashable_ok w ->
  obj_compare rt v w = Some true -> scalar_hash v = scalar_hash w.
Proof.
  unfold obj_compare. destruct v, w; cbn; intros H1 H2 H; try discriminate; try contradiction; auto.
  - destruct b, b0; try reflexivity; discriminate.
  - injection H as H. apply Z.eqb_eq in H. subst. reflexivity.
  - injection H as H. apply f_eq_bits in H; [|tauto|tauto].
    destruct H as [->|[Hz _]]; [reflexivity|tauto].
  - injection H as H. unfold str_of in H. apply str_eql_iff in H; [|left; assumption]. subst. reflexivity.
Qed.
