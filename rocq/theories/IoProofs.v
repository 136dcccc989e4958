(** Proofs about the library functions of IoModel. *)
From Coq Require Import ZArith String List Lia Bool QArith.
From Coq Require Import Floats.SpecFloat.
From Verif Require Import Base Utf8Model Utf8Spec Utf8Proofs StringModel TextProofs ValueModel MapModel ListModel ObjModel VmModel FloatModel FloatProofs FloatRound
  BufferModel BufferProofs SysModel BuiltinModel BuiltinProofs IoModel.
Import ListNotations.
Open Scope Z_scope.

(** ** random *)

Lemma trunc_sfin lo hi b : sfin lo hi (f_decode b) -> exists z, f_trunc b = Some z /\ lo <= z <= hi.
Proof.
  intros (s & l & h & F & Hl & S1 & S2). unfold f_trunc.
  destruct F as [[-> ->]|(m & e & -> & N & He & L & U)].
  - exists 0. split; [reflexivity|]. destruct s; [destruct (S2 eq_refl)|destruct (S1 eq_refl)]; lia.
  - assert (P : 0 < 2 ^ (- e)) by (apply Z.pow_pos_nonneg; lia).
    assert (B : l <= Zpos m / 2 ^ (- e) <= h).
    { split; [apply Z.div_le_lower_bound; lia|]. apply Z.div_le_upper_bound; lia. }
    destruct (Z.leb_spec 0 e) as [G|G].
    + assert (e = 0) by lia. subst e. change (- 0) with 0 in *. rewrite Z.pow_0_r in *. rewrite Z.div_1_r in B.
      eexists. split; [reflexivity|]. unfold signed. destruct s; [destruct (S2 eq_refl)|destruct (S1 eq_refl)]; lia.
    + eexists. split; [reflexivity|]. unfold signed. destruct s; [destruct (S2 eq_refl)|destruct (S1 eq_refl)].
      * rewrite Z.quot_opp_l by lia. rewrite Z.quot_div_nonneg by lia. lia.
      * rewrite Z.quot_div_nonneg by lia. lia.
Qed.

Lemma of_nat_between z : 0 <= z < 2 ^ 53 -> fin_between false z z (f_decode (f_of_int z)).
Proof.
  intros H. destruct (of_int_between z ltac:(lia)) as (s & F & _ & S). rewrite (S ltac:(lia)) in F.
  rewrite Z.abs_eq in F by lia. exact F.
Qed.

Lemma random_between min max r : - 2 ^ 53 < min -> max < 2 ^ 53 -> 0 <= max - min <= 2 ^ 22 -> 0 <= r <= RAND_MAX ->
  exists z, random_value min max r = OOk z /\ min <= z <= max.
Proof.
  intros Hm HM D R. unfold RAND_MAX in R. set (d := max - min) in *. unfold random_value. fold d.
  unfold i64_min, i64_max. destruct (Z.ltb_spec d (- 2 ^ 63)); [lia|]. destruct (Z.ltb_spec (2 ^ 63 - 1) d); [lia|]. cbn [orb].
  assert (Hdr : d * r < 2 ^ 53).
  { assert (d * r <= 2 ^ 22 * (2 ^ 31 - 1)) by (apply Z.mul_le_mono_nonneg; lia). lia. }
  pose proof (mul_exact d r _ _ ltac:(lia) ltac:(lia) Hdr (of_nat_between d ltac:(lia)) (of_nat_between r ltac:(lia))) as M.
  pose proof (decode_between _ _ _ _ M) as DM.
  assert (V : fin_between false 0 d (SFdiv prec64 emax64 (f_decode (f_mul (f_of_int d) (f_of_int r))) (f_decode (f_of_int RAND_MAX)))).
  { apply (div_between (d * r) RAND_MAX); unfold RAND_MAX; try nia; try lia.
    - unfold f_mul. rewrite DM. exact M.
    - apply of_nat_between. lia. }
  pose proof (decode_between _ _ _ _ V) as DV.
  destruct (of_int_between min ltac:(lia)) as (s & Fm & S1 & S2).
  pose proof (add_between min d _ _ s ltac:(lia) ltac:(lia) ltac:(lia) ltac:(lia) Fm S1 S2 V) as A.
  assert (A' : sfin min (min + d) (f_decode (f_add (f_of_int min) (f_div (f_mul (f_of_int d) (f_of_int r)) (f_of_int RAND_MAX))))).
  { unfold f_add, f_div at 1. rewrite DV, (sfin_decode _ _ _ A). exact A. }
  destruct (trunc_sfin _ _ _ A') as (z & -> & Hz). exists z. split; [|lia]. cbn [to_i64]. unfold i64_min, i64_max.
  destruct (Z.leb_spec (- 2 ^ 63) z); [|lia]. destruct (Z.leb_spec z (2 ^ 63 - 1)); [|lia]. reflexivity.
Qed.

Lemma generate_between objs min max r : in_int min -> in_int max -> 0 <= max - min <= 2 ^ 22 -> 0 <= r <= RAND_MAX ->
  exists z, bin_generate objs r [VInt min; VInt max] = OOk (VInt z) /\ min <= z <= max.
Proof.
  unfold in_int. intros A B C R. destruct (random_between min max r ltac:(lia) ltac:(lia) C R) as (z & E & Hz).
  exists z. split; [|auto]. change (bin_generate objs r [VInt min; VInt max]) with (obind (random_value min max r) (fun z => OOk (ret_int z))).
  rewrite E. cbn [obind]. unfold ret_int. rewrite wrap32_id by (unfold in_int; lia). reflexivity.
Qed.

(** ** floor and ceil *)

(** The number a pattern stands for. *)
Definition fvalue (x : spec_float) : option Q :=
  match x with
  | S754_zero _ => Some 0%Q
  | S754_finite s m e => Some (if 0 <=? e then inject_Z (signed s m * 2 ^ e) else (signed s m # Z.to_pos (2 ^ (- e)))%Q)
  | _ => None
  end.

Lemma floor_value b : match fvalue (f_decode b) with
  | Some q => exists z, f_floor b = Some z /\ (inject_Z z <= q)%Q /\ (q < inject_Z (z + 1))%Q
  | None => f_floor b = None
  end.
Proof.
  unfold fvalue, f_floor. destruct (f_decode b) as [s|s| |s m e]; try reflexivity.
  - exists 0. repeat split; reflexivity || (unfold Qle, Qlt; cbn; lia).
  - eexists. split; [reflexivity|]. destruct (Z.leb_spec 0 e).
    + rewrite <- Zle_Qle, <- Zlt_Qlt. lia.
    + assert (P : 0 < 2 ^ (- e)) by (apply Z.pow_pos_nonneg; lia).
      unfold Qle, Qlt, inject_Z. cbn [Qnum Qden]. rewrite Z2Pos.id by auto.
      pose proof (Z.div_mod (signed s m) (2 ^ (- e)) ltac:(lia)). pose proof (Z.mod_pos_bound (signed s m) (2 ^ (- e)) P). nia.
Qed.

Lemma ceil_value b : match fvalue (f_decode b) with
  | Some q => exists z, f_ceil b = Some z /\ (q <= inject_Z z)%Q /\ (inject_Z (z - 1) < q)%Q
  | None => f_ceil b = None
  end.
Proof.
  unfold fvalue, f_ceil. destruct (f_decode b) as [s|s| |s m e]; try reflexivity.
  - exists 0. repeat split; reflexivity || (unfold Qle, Qlt; cbn; lia).
  - eexists. split; [reflexivity|]. destruct (Z.leb_spec 0 e).
    + rewrite <- Zle_Qle, <- Zlt_Qlt. lia.
    + assert (P : 0 < 2 ^ (- e)) by (apply Z.pow_pos_nonneg; lia).
      unfold Qle, Qlt, inject_Z. cbn [Qnum Qden]. rewrite Z2Pos.id by auto.
      pose proof (Z.div_mod (- signed s m) (2 ^ (- e)) ltac:(lia)). pose proof (Z.mod_pos_bound (- signed s m) (2 ^ (- e)) P). nia.
Qed.

(** Inside of the range of the integers. *)
Definition fits (q : Q) : Prop := (inject_Z i64_min <= q)%Q /\ (q <= inject_Z i64_max)%Q.

Lemma floor_fits b q : fvalue (f_decode b) = Some q -> fits q ->
  exists z, bin_floor [VFloat b] = OOk (VInt z) /\ (inject_Z z <= q)%Q /\ (q < inject_Z (z + 1))%Q.
Proof.
  intros E [A B]. pose proof (floor_value b) as H. rewrite E in H. destruct H as (z & F & H1 & H2).
  exists z. split; [|auto]. cbn [bin_floor]. rewrite F. cbn [to_i64].
  assert (i64_min < z + 1) by (rewrite Zlt_Qlt; eapply Qle_lt_trans; eassumption).
  assert (z <= i64_max) by (rewrite Zle_Qle; eapply Qle_trans; eassumption).
  destruct (Z.leb_spec i64_min z); [|lia]. destruct (Z.leb_spec z i64_max); [|lia]. reflexivity.
Qed.

Lemma ceil_fits b q : fvalue (f_decode b) = Some q -> fits q ->
  exists z, bin_ceil [VFloat b] = OOk (VInt z) /\ (q <= inject_Z z)%Q /\ (inject_Z (z - 1) < q)%Q.
Proof.
  intros E [A B]. pose proof (ceil_value b) as H. rewrite E in H. destruct H as (z & F & H1 & H2).
  exists z. split; [|auto]. cbn [bin_ceil]. rewrite F. cbn [to_i64].
  assert (i64_min <= z) by (rewrite Zle_Qle; eapply Qle_trans; eassumption).
  assert (z - 1 < i64_max) by (rewrite Zlt_Qlt; eapply Qlt_le_trans; eassumption).
  destruct (Z.leb_spec i64_min z); [|lia]. destruct (Z.leb_spec z i64_max); [|lia]. reflexivity.
Qed.

(** An integer converted to a float and back. *)
Lemma floor_of_int z : - 2 ^ 53 < z < 2 ^ 53 ->
  bin_floor [VFloat (f_of_int z)] = OOk (VInt z) /\ bin_ceil [VFloat (f_of_int z)] = OOk (VInt z).
Proof.
  intros H. destruct (of_int_between z H) as (s & F & S1 & S2). cbn [bin_floor bin_ceil]. unfold f_floor, f_ceil.
  destruct F as [[E Z0]|(m & e & E & N & He & L)]; rewrite E.
  - assert (z = 0) by lia. subst z. split; reflexivity.
  - assert (P : 0 < 2 ^ (- e)) by (apply Z.pow_pos_nonneg; lia).
    assert (M : signed s m = z * 2 ^ (- e)).
    { assert (Zpos m = Z.abs z * 2 ^ (- e)) by lia. unfold signed.
      destruct (Z.lt_ge_cases z 0) as [Q|Q]; [rewrite (S1 Q)|rewrite (S2 Q)]; nia. }
    assert (V : (if 0 <=? e then signed s m * 2 ^ e else signed s m / 2 ^ (- e)) = z /\
                (if 0 <=? e then signed s m * 2 ^ e else - (- signed s m / 2 ^ (- e))) = z).
    { rewrite M. destruct (Z.leb_spec 0 e).
      - assert (e = 0) by lia. subst e. change (- 0) with 0. rewrite Z.pow_0_r. lia.
      - rewrite <- Z.mul_opp_l, !Z.div_mul by lia. lia. }
    destruct V as [-> ->]. cbn [to_i64]. unfold i64_min, i64_max.
    destruct (Z.leb_spec (- 2 ^ 63) z); [|lia]. destruct (Z.leb_spec z (2 ^ 63 - 1)); [|lia]. split; reflexivity.
Qed.

(** ** The arguments of the functions of math *)

Lemma math1_total f argv : (exists a r, argv = VFloat a :: r /\ call_math1 f argv = OOk (VFloat (f a))) \/
  ((forall a r, argv <> VFloat a :: r) /\ call_math1 f argv = OErr).
Proof.
  destruct argv as [|v r]; [right; split; [discriminate|reflexivity]|].
  destruct v; try (right; split; [discriminate|reflexivity]). left. eauto.
Qed.

Lemma atan2_total f argv : (exists a b r, argv = VFloat a :: VFloat b :: r /\ call_atan2 f argv = OOk (VFloat (f a b))) \/
  ((forall a b r, argv <> VFloat a :: VFloat b :: r) /\ call_atan2 f argv = OErr).
Proof.
  destruct argv as [|v r]; [right; split; [discriminate|reflexivity]|].
  destruct v; try (right; split; [discriminate|reflexivity]).
  destruct r as [|w r]; [right; split; [discriminate|reflexivity]|].
  destruct w; try (right; split; [discriminate|reflexivity]). left. eauto.
Qed.

Lemma pow_two f argv : List.length argv <> 1%nat ->
  (exists a b r, argv = VFloat a :: VFloat b :: r /\ call_pow f argv = OOk (VFloat (f a b))) \/
  ((forall a b r, argv <> VFloat a :: VFloat b :: r) /\ call_pow f argv = OErr).
Proof.
  intros L. destruct argv as [|v r]; [right; split; [discriminate|reflexivity]|].
  destruct v; try (right; split; [discriminate|reflexivity]).
  destruct r as [|w r]; [cbn in L; lia|].
  destruct w; try (right; split; [discriminate|reflexivity]). left. eauto.
Qed.

(** ** input *)

Lemma firstn_upd {A} (l : list A) i x : (i < List.length l)%nat -> firstn (S i) (upd l i x) = firstn i l ++ [x].
Proof. revert i. induction l as [|a l IH]; intros [|i] H; cbn in *; try lia; [reflexivity|]. f_equal. apply IH. lia. Qed.

Lemma input_line line rest : ~ In 10 line -> forall k maybe size, (size + List.length line <= 255)%nat -> List.length maybe = 256%nat ->
  (List.length line < k)%nat ->
  exists arr, input_loop k (line ++ 10 :: rest) maybe size = OOk (arr, size + List.length line, rest)%nat /\
    List.length arr = 256%nat /\ firstn (size + List.length line) arr = firstn size maybe ++ line.
Proof.
  induction line as [|c line IH]; intros N k maybe size Hs Hm Hk; (destruct k as [|k]; [cbn in Hk; lia|]).
  - exists maybe. cbn [app input_loop getc List.length]. rewrite Z.eqb_refl, Nat.add_0_r, app_nil_r. auto.
  - cbn [app input_loop getc]. cbn [List.length] in *. destruct (Z.eqb_spec c 10) as [E|E]; [exfalso; apply N; left; auto|].
    destruct (Nat.eqb_spec size 255); [lia|].
    destruct (IH (fun H => N (or_intror H)) k (upd maybe size c) (S size)) as (arr & A & B & C); [lia|rewrite upd_length; auto|lia|].
    exists arr. rewrite A. replace (size + S (List.length line))%nat with (S size + List.length line)%nat by lia.
    split; [reflexivity|]. split; [auto|]. rewrite C, firstn_upd by lia. rewrite <- app_assoc. reflexivity.
Qed.

Lemma firstn_upd_past {A} (l : list A) i n x : (n <= i)%nat -> firstn n (upd l i x) = firstn n l.
Proof. revert i n. induction l as [|a l IH]; intros [|i] [|n] H; cbn; try lia; try reflexivity. f_equal. apply IH. lia. Qed.

Lemma Forall_firstn {A} (P : A -> Prop) n l : Forall P l -> Forall P (firstn n l).
Proof. intros H. revert n. induction H; intros [|n]; cbn; constructor; auto. Qed.

Lemma Forall_upd {A} (P : A -> Prop) l i x : Forall P l -> P x -> Forall P (upd l i x).
Proof. intros H Hx. revert i. induction H; intros [|i]; cbn; constructor; auto. Qed.

Lemma input_loop_bytes k : forall stream maybe size arr n rest, Forall is_byte stream -> Forall is_byte maybe ->
  input_loop k stream maybe size = OOk (arr, n, rest) -> Forall is_byte arr.
Proof.
  induction k as [|k IH]; intros stream maybe size arr n rest Hs Hm E; [discriminate|]. cbn [input_loop] in E.
  destruct (getc stream) as [c r] eqn:G.
  assert (Hc : is_byte c /\ Forall is_byte r).
  { destruct stream as [|b s]; injection G as <- <-; [split; [unfold is_byte; lia|constructor]|]. inversion Hs; auto. }
  destruct (c =? 10); [injection E as <- <- <-; auto|]. destruct (size =? 255)%nat; [discriminate|].
  eapply IH; [| |exact E]; [tauto|]. apply Forall_upd; tauto.
Qed.

Lemma input_spec maybe line rest : List.length maybe = 256%nat -> Forall is_byte maybe -> Forall is_byte line -> Forall is_byte rest ->
  ~ In 10 line -> (List.length line <= 255)%nat ->
  (text line -> bin_input maybe (line ++ 10 :: rest) = OOk (VStr line, rest)) /\
  (~ text line -> bin_input maybe (line ++ 10 :: rest) = OErr).
Proof.
  intros Hm Bm Bl Br N L. destruct (input_line line rest N 257 maybe 0 ltac:(lia) Hm ltac:(lia)) as (arr & A & B & C).
  cbn [Nat.add] in A, C. rewrite firstn_O, app_nil_l in C.
  assert (BS : Forall is_byte (line ++ 10 :: rest)).
  { apply Forall_app. split; [exact Bl|]. constructor; [unfold is_byte; lia|exact Br]. }
  pose proof (input_loop_bytes _ _ _ _ _ _ _ BS Bm A) as BA.
  unfold bin_input. rewrite A. cbn [obind].
  assert (F : firstn (List.length line) (upd arr (List.length line) 0) = line) by (rewrite firstn_upd_past by lia; exact C).
  destruct (new_string_spec (upd arr (List.length line) 0) (List.length line)) as [P Q].
  - apply Forall_upd; [auto|unfold is_byte; lia].
  - rewrite upd_length. lia.
  - lia.
  - rewrite F in P, Q. split; intros T; [rewrite (P T)|rewrite (Q T)]; reflexivity.
Qed.

(** Nothing but undefined behaviour after 255 bytes without a newline, or at the end of the stream. *)
Lemma input_long s k : forall maybe size, (List.length s = 256 - size)%nat -> (size <= 255)%nat -> ~ In 10 s -> forall rest,
  (256 - size <= k)%nat -> input_loop k (s ++ rest) maybe size = OUB.
Proof.
  revert k. induction s as [|c s IH]; intros k maybe size L Hs N rest Hk; cbn [List.length] in L; [lia|].
  destruct k as [|k]; [lia|]. cbn [app input_loop getc].
  destruct (Z.eqb_spec c 10) as [E|E]; [exfalso; apply N; left; auto|].
  destruct (Nat.eqb_spec size 255); [reflexivity|]. apply IH; try lia. intros H. apply N. right. auto.
Qed.

Lemma input_long_line maybe line : (256 <= List.length line)%nat -> ~ In 10 (firstn 256 line) -> bin_input maybe line = OUB.
Proof.
  intros L N. unfold bin_input. rewrite <- (firstn_skipn 256 line).
  rewrite input_long; auto; try lia. rewrite firstn_length. lia.
Qed.

Lemma input_eof k : forall maybe size, (size <= 255)%nat -> (256 - size <= k)%nat -> input_loop k [] maybe size = OUB.
Proof.
  induction k as [|k IH]; intros maybe size H Hk; [lia|]. cbn [input_loop getc Z.eqb].
  change (255 =? 10) with false. cbn iota. destruct (Nat.eqb_spec size 255); [reflexivity|]. apply IH; lia.
Qed.

Lemma input_end maybe stream : ~ In 10 stream -> bin_input maybe stream = OUB.
Proof.
  intros N. unfold bin_input.
  assert (G : forall s k maybe size, ~ In 10 s -> (size <= 255)%nat -> (256 - size <= k)%nat -> input_loop k s maybe size = OUB).
  { induction s as [|c s IH]; intros k mb size Ns Hs Hk; [apply input_eof; auto|].
    destruct k as [|k]; [lia|]. cbn [input_loop getc].
    destruct (Z.eqb_spec c 10) as [E|E]; [exfalso; apply Ns; left; auto|].
    destruct (Nat.eqb_spec size 255); [reflexivity|]. apply IH; try lia. intros H. apply Ns. right. auto. }
  rewrite G by (auto; lia). reflexivity.
Qed.

(** The lines of a stream, one call after the other. *)
Definition line_ok (line : list Z) : Prop := text line /\ ~ In 10 line /\ (List.length line <= 255)%nat.

Lemma inputs_spec maybe lines rest : List.length maybe = 256%nat -> Forall is_byte maybe -> Forall line_ok lines -> Forall is_byte rest ->
  inputs (List.length lines) maybe (List.concat (map (fun l => l ++ [10]) lines) ++ rest) = OOk (map VStr lines, rest).
Proof.
  intros Hm Bm H Hr. induction H as [|l lines (T & N & L) H IH]; [reflexivity|].
  cbn [List.length inputs map List.concat]. rewrite <- !app_assoc. cbn [app].
  destruct (input_spec maybe l (List.concat (map (fun l => l ++ [10]) lines) ++ rest) Hm Bm (text_bytes _ T)) as [P _]; auto.
  { apply Forall_app. split; [|auto]. clear IH. induction H as [|l' ls (T' & _) _ IH']; cbn; [constructor|].
    rewrite <- app_assoc. apply Forall_app. split; [apply text_bytes; auto|]. constructor; [unfold is_byte; lia|auto]. }
  rewrite (P T). cbn [obind snd fst]. rewrite IH. reflexivity.
Qed.

(** ** Bytes stored into a buffer *)

Fixpoint sets (v : nat) (i : Z) (bytes : list Z) : list bop :=
  match bytes with [] => [] | b :: r => BSet v i b :: sets v (i + 1) r end.

(** The elements from [i] on are these bytes. *)
Definition holds (st : bstate) (v : nat) (i : Z) (bytes : list Z) : Prop :=
  forall k b, nth_error bytes k = Some b -> buffer_select st v (i + Z.of_nat k) = ROk b.

(** Everything reads as before, except through the cells [lo] to [hi] of one payload. *)
Definition untouched (st st' : bstate) (w : view) (lo hi : Z) : Prop :=
  forall u wu j, get_view st u = Some wu -> in_int j -> (v_pl wu = v_pl w -> ~ lo <= v_off wu + j < hi) ->
    buffer_select st' u j = buffer_select st u j.

Lemma upd_upd {A} (l : list A) i x y : upd (upd l i x) i y = upd l i y.
Proof. revert i. induction l as [|a l IH]; intros [|i]; cbn; try reflexivity. f_equal. apply IH. Qed.

Lemma upd_same {A} (l : list A) i x : nth_error l i = Some x -> upd l i x = l.
Proof. revert i. induction l as [|a l IH]; intros [|i] H; cbn in *; try discriminate; [congruence|]. f_equal. apply IH. auto. Qed.

Lemma skipn_upd_past {A} (l : list A) i n x : (i < n)%nat -> skipn n (upd l i x) = skipn n l.
Proof. revert i n. induction l as [|a l IH]; intros [|i] [|n] H; cbn; try lia; try reflexivity. apply IH. lia. Qed.

Lemma put_bytes_cons body off b bs : 0 <= off -> off + Z.of_nat (List.length (b :: bs)) <= Z.of_nat (List.length body) ->
  put_bytes body off (b :: bs) = put_bytes (upd body (Z.to_nat off) b) (off + 1) bs.
Proof.
  intros H L. cbn [List.length] in L. unfold put_bytes. rewrite upd_length. cbn [List.length].
  destruct (Z.ltb_spec off 0); [lia|]. destruct (Z.ltb_spec (off + 1) 0); [lia|].
  destruct (Z.ltb_spec (Z.of_nat (List.length body)) (off + Z.of_nat (S (List.length bs)))); [lia|].
  destruct (Z.ltb_spec (Z.of_nat (List.length body)) (off + 1 + Z.of_nat (List.length bs))); [lia|]. cbn [orb]. f_equal.
  replace (Z.to_nat (off + 1)) with (S (Z.to_nat off)) by lia. rewrite firstn_upd by lia. rewrite skipn_upd_past by lia.
  rewrite <- app_assoc. cbn [app]. do 3 f_equal. f_equal. lia.
Qed.

Lemma bytes_split b bs : Forall is_byte (b :: bs) -> 0 <= b <= 255 /\ Forall is_byte bs.
Proof. intros H. inversion H as [|? ? A B]. unfold is_byte in A. split; [lia|auto]. Qed.

Lemma sets_spec v w : forall bytes i st p, bwf st -> get_view st v = Some w -> get_pl st (v_pl w) = Some p -> v_len w < 2 ^ 31 ->
  0 <= i -> i + Z.of_nat (List.length bytes) <= v_len w -> Forall is_byte bytes ->
  exists body, put_bytes (p_body p) (v_off w + i) bytes = ROk body /\
    let st' := mkbst (upd (b_pls st) (v_pl w) (Some (mkpl (p_refs p) body))) (b_views st) in
    sane_history st (sets v i bytes) st' /\ bwf st' /\ holds st' v i bytes /\
    untouched st st' w (v_off w + i) (v_off w + i + Z.of_nat (List.length bytes)).
Proof.
  induction bytes as [|b bs IH]; intros i st p W V P Lw Hi HL HB.
  - destruct (b_view _ W _ _ V) as (q & Q & R1 & R2 & R3). rewrite P in Q. injection Q as <-.
    exists (p_body p). split.
    { unfold put_bytes. cbn [List.length] in *. destruct (Z.ltb_spec (v_off w + i) 0); [lia|].
      destruct (Z.ltb_spec (Z.of_nat (List.length (p_body p))) (v_off w + i + Z.of_nat 0)); [lia|]. cbn [orb app].
      rewrite Nat.add_0_r, firstn_skipn. reflexivity. }
    assert (E : mkbst (upd (b_pls st) (v_pl w) (Some (mkpl (p_refs p) (p_body p)))) (b_views st) = st).
    { destruct p as [rf bd]. cbn [p_refs p_body]. rewrite upd_same by (apply get_pl_nth; exact P). destruct st; reflexivity. }
    cbv zeta. rewrite E. split; [apply sh_nil|]. split; [auto|]. split; [intros [|k] ? H; discriminate|].
    intros u wu j _ _ _. reflexivity.
  - cbn [List.length] in HL. destruct (bytes_split _ _ HB) as [Hb HB']. 
    assert (Ki : in_int i) by (unfold in_int; lia).
    destruct (proj2 (insert_wf st v w i b W V Ki)) as (st1 & p' & E1 & P' & VS & W1 & G1 & G2); [lia|].
    rewrite P in P'. injection P' as <-.
    assert (S1 : st1 = mkbst (upd (b_pls st) (v_pl w) (Some (mkpl (p_refs p) (upd (p_body p) (Z.to_nat (v_off w + i)) b)))) (b_views st)).
    { revert E1. unfold buffer_insert. rewrite V, wrap32_id by auto. destruct (_ || _); [discriminate|]. destruct (_ || _); [discriminate|].
      rewrite P. destruct (_ <=? _); [discriminate|]. rewrite land_255 by lia. congruence. }
    assert (V1 : get_view st1 v = Some w) by (unfold get_view in *; rewrite VS; exact V).
    destruct (IH (i + 1) st1 _ W1 V1 G1 Lw ltac:(lia) ltac:(lia) HB') as (body & B1 & B2 & B3 & B4 & B5).
    destruct (b_view _ W _ _ V) as (q & Q & R1 & R2 & R3). rewrite P in Q. injection Q as <-.
    cbn [p_body] in B1. cbn [p_refs] in B2, B3, B4, B5.
    exists body. split.
    { rewrite put_bytes_cons by (cbn [List.length]; lia). rewrite <- Z.add_assoc. exact B1. }
    assert (E : mkbst (upd (b_pls st1) (v_pl w) (Some (mkpl (p_refs p) body))) (b_views st1) =
                mkbst (upd (b_pls st) (v_pl w) (Some (mkpl (p_refs p) body))) (b_views st)).
    { rewrite S1. cbn [b_pls b_views]. rewrite upd_upd. reflexivity. }
    cbv zeta in *. rewrite E in B2, B3, B4, B5. set (st2 := mkbst _ _) in *.
    destruct (write_read st v w i b st1 W V Ki E1) as [RW RO].
    split; [|split; [auto|split]].
    + cbn [sets]. apply sh_cons with st1; [cbn; rewrite V; discriminate| |exact B2]. cbn [bstep]. rewrite E1. reflexivity.
    + intros [|k] c Hc; cbn [nth_error] in Hc.
      * injection Hc as <-. rewrite Z.add_0_r. rewrite (B5 v w i V1 Ki) by (intros _; lia). exact RW.
      * replace (i + Z.of_nat (S k)) with (i + 1 + Z.of_nat k) by lia. apply B4. exact Hc.
    + intros u wu j Hu Hj N. assert (Hu1 : get_view st1 u = Some wu) by (unfold get_view in *; rewrite VS; exact Hu).
      cbn [List.length] in N. rewrite (B5 u wu j Hu1 Hj) by (intros Q; specialize (N Q); lia).
      apply (RO u wu j Hu Hj). intros Q. specialize (N Q). lia.
Qed.

Lemma put_view_spec st v w bytes : bwf st -> get_view st v = Some w -> v_len w < 2 ^ 31 ->
  Z.of_nat (List.length bytes) <= v_len w -> Forall is_byte bytes ->
  exists st', put_view st v bytes = ROk st' /\ sane_history st (sets v 0 bytes) st' /\ bwf st' /\ holds st' v 0 bytes /\
    untouched st st' w (v_off w) (v_off w + Z.of_nat (List.length bytes)).
Proof.
  intros W V Lw HL HB. destruct (b_view _ W _ _ V) as (p & P & R1 & R2 & R3).
  destruct (sets_spec v w bytes 0 st p W V P Lw ltac:(lia) ltac:(lia) HB) as (body & B1 & B2 & B3 & B4 & B5).
  rewrite Z.add_0_r in B1, B5. eexists. unfold put_view. rewrite V, P, B1. split; [reflexivity|]. auto.
Qed.

(** ** files.read, net.recv *)

Definition count_ok (count : option Z) : Prop := match count with Some n => 0 <= n < 2 ^ 31 | None => True end.
(** How many bytes are asked for. *)
Definition wanted (count : option Z) (len : Z) : Z := match count with Some n => Z.min n len | None => len end.

Lemma clamp_ok count len dflt : count_ok count -> (count = None -> dflt = len) -> clamp_count count len dflt = Some (wanted count len).
Proof.
  intros H D. destruct count as [n|]; cbn in *; [|rewrite D; reflexivity]. rewrite wrap32_id by (unfold in_int; lia).
  destruct (Z.ltb_spec n 0); [lia|reflexivity].
Qed.

Lemma wanted_range count len : count_ok count -> 0 <= len -> 0 <= wanted count len <= len.
Proof. destruct count as [n|]; cbn; lia. Qed.

Lemma read_spec st v w count file : bwf st -> get_view st v = Some w -> v_len w < 2 ^ 31 -> count_ok count -> Forall is_byte file ->
  let got := firstn (Z.to_nat (wanted count (v_len w))) file in
  exists st', file_read st v count file = ROk (st', VInt (Z.of_nat (List.length got)), skipn (List.length got) file) /\
    sane_history st (sets v 0 got) st' /\ holds st' v 0 got /\
    untouched st st' w (v_off w) (v_off w + Z.of_nat (List.length got)).
Proof.
  intros W V Lw C HB. destruct (b_view _ W _ _ V) as (p & P & R1 & R2 & R3). pose proof (wanted_range count (v_len w) C R2) as WR.
  set (n := wanted count (v_len w)) in *. intros got.
  assert (LG : Z.of_nat (List.length got) <= n) by (unfold got; rewrite firstn_length; lia).
  destruct (put_view_spec st v w got W V Lw ltac:(lia) ltac:(apply Forall_firstn; exact HB)) as (st' & A & B & _ & D & E).
  exists st'. split; [|auto]. unfold file_read. rewrite V, (clamp_ok count (v_len w) (v_len w) C) by auto. fold n. fold got. rewrite A.
  unfold ret_int. rewrite wrap32_id by (unfold in_int; lia). do 2 f_equal.
  unfold got. rewrite firstn_length. destruct (Nat.le_gt_cases (Z.to_nat n) (List.length file)).
  - rewrite Nat.min_l by lia. reflexivity.
  - rewrite Nat.min_r by lia. rewrite !skipn_all2 by lia. reflexivity.
Qed.

Lemma recv_spec st v w count data err : bwf st -> get_view st v = Some w -> v_len w < 2 ^ 31 -> count_ok count -> Forall is_byte data ->
  let got := firstn (Z.to_nat (wanted count (v_len w))) data in
  exists st', net_recv st v count (Some data) err = ROk (st', [VInt (Z.of_nat (List.length got))], skipn (List.length got) data) /\
    sane_history st (sets v 0 got) st' /\ holds st' v 0 got /\
    untouched st st' w (v_off w) (v_off w + Z.of_nat (List.length got)).
Proof.
  intros W V Lw C HB got. destruct (read_spec st v w count data W V Lw C HB) as (st' & A & B). exists st'. split; [|exact B].
  revert A. unfold file_read, net_recv. rewrite V. destruct (clamp_count _ _ _); [|discriminate].
  destruct (put_view _ _ _); try discriminate. intros A. injection A as -> A2 A3. unfold ret_int. rewrite A2, A3. reflexivity.
Qed.

(** ** files.write, net.send *)

Lemma view_memory_ok st v w : bwf st -> get_view st v = Some w -> exists p, get_pl st (v_pl w) = Some p /\
  view_memory st v = Some (skipn (Z.to_nat (v_off w)) (p_body p), v_len w) /\
  v_len w <= Z.of_nat (List.length (skipn (Z.to_nat (v_off w)) (p_body p))) /\
  Forall is_byte (skipn (Z.to_nat (v_off w)) (p_body p)).
Proof.
  intros W V. destruct (b_view _ W _ _ V) as (p & P & R1 & R2 & R3). exists p. unfold view_memory. rewrite V, P.
  split; [auto|]. split; [auto|]. split; [rewrite skipn_length; lia|]. apply Forall_skipn. apply (b_pl _ W _ _ P).
Qed.

(** The contents of a buffer: what its elements read as. *)
Definition contents (st : bstate) (v : nat) (bytes : list Z) : Prop :=
  buffer_count st v = ROk (Z.of_nat (List.length bytes)) /\ holds st v 0 bytes.

Lemma nth_error_skipn' {A} (l : list A) n k : nth_error (skipn n l) k = nth_error l (n + k).
Proof. revert l. induction n as [|n IH]; intros l; [reflexivity|]. destruct l as [|a l]; [destruct k; reflexivity|]. cbn. apply IH. Qed.

Lemma nth_error_firstn' {A} (l : list A) n k : (k < n)%nat -> nth_error (firstn n l) k = nth_error l k.
Proof. revert n l. induction k as [|k IH]; intros [|n] [|a l] H; cbn; try lia; try reflexivity. apply IH. lia. Qed.

Lemma list_ext {A} (l l' : list A) : (forall k, nth_error l k = nth_error l' k) -> l = l'.
Proof.
  revert l'. induction l as [|a l IH]; intros [|b l'] H; [reflexivity|specialize (H 0%nat); discriminate|specialize (H 0%nat); discriminate|].
  pose proof (H 0%nat) as E. injection E as <-. f_equal. apply IH. intros k. apply (H (S k)).
Qed.

Lemma contents_memory st v w bytes p : bwf st -> get_view st v = Some w -> v_len w < 2 ^ 31 -> get_pl st (v_pl w) = Some p ->
  contents st v bytes -> v_len w = Z.of_nat (List.length bytes) /\
    firstn (List.length bytes) (skipn (Z.to_nat (v_off w)) (p_body p)) = bytes.
Proof.
  intros W V Lw P [C H]. destruct (b_view _ W _ _ V) as (p' & P' & R1 & R2 & R3). rewrite P in P'. injection P' as <-.
  unfold buffer_count in C. rewrite V in C. injection C as C. rewrite wrap32_id in C by (unfold in_int; lia). split; [auto|].
  apply list_ext. intros k. destruct (Nat.lt_ge_cases k (List.length bytes)) as [L|L].
  - rewrite nth_error_firstn' by auto. rewrite nth_error_skipn'.
    destruct (nth_error bytes k) as [b|] eqn:E; [|apply nth_error_None in E; lia].
    specialize (H k b E). rewrite Z.add_0_l in H.
    destruct (proj2 (select_wf st v w (Z.of_nat k) W V ltac:(unfold in_int; lia)) ltac:(lia)) as (q & c & Q1 & Q2 & Q3 & _).
    rewrite P in Q1. injection Q1 as <-. rewrite H in Q3. injection Q3 as <-.
    apply zget_Some in Q2. destruct Q2 as [_ Q2]. rewrite <- Q2. f_equal. lia.
  - rewrite (proj2 (nth_error_None bytes k) L). apply nth_error_None. rewrite firstn_length. lia.
Qed.

Lemma write_spec st v w count file bytes : bwf st -> get_view st v = Some w -> v_len w < 2 ^ 31 -> count_ok count -> contents st v bytes ->
  let sent := firstn (Z.to_nat (wanted count (v_len w))) bytes in
  file_write st v count file = ROk (VInt (Z.of_nat (List.length sent)), file ++ sent).
Proof.
  intros W V Lw C CT sent. destruct (view_memory_ok st v w W V) as (p & P & VM & VL & _).
  destruct (contents_memory st v w bytes p W V Lw P CT) as [LB FB].
  pose proof (wanted_range count (v_len w) C ltac:(lia)) as WR. unfold file_write. rewrite VM.
  rewrite clamp_ok by (auto; intros _; rewrite wrap32_id by (unfold in_int; lia); unfold u64; rewrite Z.mod_small; lia).
  set (n := wanted count (v_len w)) in *. set (mem := skipn (Z.to_nat (v_off w)) (p_body p)) in *.
  destruct (Z.ltb_spec (Z.of_nat (List.length mem)) n); [lia|].
  assert (E : firstn (Z.to_nat n) mem = sent).
  { unfold sent. rewrite <- FB, firstn_firstn. f_equal. lia. }
  assert (LS : Z.of_nat (List.length sent) = n) by (rewrite <- E, firstn_length; lia).
  rewrite E, LS. unfold ret_int. rewrite wrap32_id by (unfold in_int; lia). reflexivity.
Qed.

Lemma send_spec st v w count room sent bytes : bwf st -> get_view st v = Some w -> v_len w < 2 ^ 31 -> count_ok count -> contents st v bytes ->
  let out := firstn room (firstn (Z.to_nat (wanted count (v_len w))) bytes) in
  net_send st v count room sent = ROk ([VInt (Z.of_nat (List.length out))], sent ++ out).
Proof.
  intros W V Lw C CT out. destruct (view_memory_ok st v w W V) as (p & P & VM & VL & _).
  destruct (contents_memory st v w bytes p W V Lw P CT) as [LB FB].
  pose proof (wanted_range count (v_len w) C ltac:(lia)) as WR. unfold net_send. rewrite VM.
  rewrite clamp_ok by auto.
  set (n := wanted count (v_len w)) in *. set (mem := skipn (Z.to_nat (v_off w)) (p_body p)) in *.
  destruct (Z.ltb_spec (Z.of_nat (List.length mem)) n); [lia|].
  assert (E : firstn (Z.to_nat n) mem = firstn (Z.to_nat n) bytes).
  { rewrite <- FB, firstn_firstn. f_equal. lia. }
  rewrite E. fold out. assert (LS : (List.length out <= List.length bytes)%nat) by (unfold out; rewrite !firstn_length; lia).
  unfold ret_int. rewrite wrap32_id by (unfold in_int; lia). reflexivity.
Qed.

(** ** Text *)

Lemma to_string_spec st v w bytes : bwf st -> get_view st v = Some w -> v_len w < 2 ^ 31 -> contents st v bytes ->
  (text bytes -> bin_to_string st v = OOk [VStr bytes]) /\ (~ text bytes -> bin_to_string st v = OOk [VNone; VStr not_utf8]).
Proof.
  intros W V Lw CT. destruct (view_memory_ok st v w W V) as (p & P & VM & VL & VB).
  destruct (contents_memory st v w bytes p W V Lw P CT) as [LB FB].
  unfold bin_to_string. rewrite VM. set (mem := skipn (Z.to_nat (v_off w)) (p_body p)) in *.
  rewrite wrap32_id by (unfold in_int; lia). destruct (Z.ltb_spec (v_len w) 0); [lia|].
  destruct (Z.ltb_spec (Z.of_nat (List.length mem)) (v_len w)); [lia|].
  destruct (new_string_spec mem (List.length bytes) VB ltac:(lia) ltac:(lia)) as [N1 N2]. rewrite FB in N1, N2.
  rewrite LB, Nat2Z.id. split; intros T.
  - specialize (N1 T). rewrite N1. destruct T as (chs & HC & E).
    assert (S1 : utf8_strlen mem (List.length bytes) = SLen (Z.of_nat (List.length chs))).
    { rewrite <- (firstn_skipn (List.length bytes) mem), FB, <- E. apply strlen_chars. exact HC. }
    rewrite S1. reflexivity.
  - destruct (strlen_total mem (List.length bytes) VB ltac:(lia)) as [E|(k & E & _)]; rewrite E.
    + reflexivity.
    + exfalso. specialize (N2 T). revert N2. unfold new_string, from_string. rewrite wrap32_id by (unfold in_int; lia).
      destruct (Z.ltb_spec (Z.of_nat (List.length bytes)) 0); [lia|]. rewrite Nat2Z.id.
      destruct (Nat.ltb_spec (List.length mem) (List.length bytes)); [lia|]. rewrite E. discriminate.
Qed.

Lemma from_string_spec st s : bwf st -> Forall is_byte s -> Z.of_nat (List.length s) < 2 ^ 31 ->
  exists st' v, bin_from_string st s = ROk (st', v) /\ contents st' v s /\
    (exists ops, sane_history st ops st') /\ (exists w, get_view st' v = Some w /\ v_len w = Z.of_nat (List.length s)) /\
    (forall u wu j, get_view st u = Some wu -> in_int j -> buffer_select st' u j = buffer_select st u j).
Proof.
  intros W HB L. set (n := Z.of_nat (List.length s)) in *.
  destruct (new_buffer st n) as [[st1 v]| |] eqn:E.
  2,3: exfalso; revert E; unfold new_buffer; destruct (Z.leb_spec (2 ^ 64) (16 + n)); [lia|discriminate].
  assert (E' : bin_new st n = ROk (st1, v)) by (unfold bin_new, u64; rewrite Z.mod_small by lia; exact E).
  destruct (new_wf st n st1 v W ltac:(lia) E') as (W1 & V1 & -> & G1 & P1).
  set (w := mkview (List.length (b_pls st)) 0 n) in *.
  destruct (put_view_spec st1 (List.length (b_views st)) w s W1 V1 ltac:(cbn; lia) ltac:(cbn; lia) HB) as (st2 & A & B & W2 & D & F).
  exists st2, (List.length (b_views st)). unfold bin_from_string. fold n. rewrite E, A. split; [reflexivity|].
  assert (V2 : get_view st2 (List.length (b_views st)) = Some w).
  { revert A. unfold put_view. rewrite V1. change (v_pl w) with (List.length (b_pls st)). rewrite P1.
    destruct (put_bytes _ _ _); try discriminate. intros A. injection A as <-. exact V1. }
  split; [|split; [|split]].
  - split; [|exact D]. unfold buffer_count. rewrite V2. cbn [v_len w]. rewrite wrap32_id by (unfold in_int; lia). reflexivity.
  - exists (BNew n :: sets (List.length (b_views st)) 0 s). apply sh_cons with st1; [cbn; lia| |exact B]. cbn [bstep]. rewrite E'. reflexivity.
  - exists w. split; [exact V2|reflexivity].
  - intros u wu j Hu Hj. pose proof (G1 u wu Hu) as Hu1. rewrite (F u wu j Hu1 Hj).
    + revert E. unfold new_buffer. destruct (_ <=? _); [discriminate|]. intros E. injection E as <-.
      destruct (b_view _ W _ _ Hu) as (p & P & _). pose proof P as P'. apply get_pl_nth in P'.
      unfold buffer_select. rewrite Hu. unfold get_view in Hu1 |- *. cbn [b_views] in *.
      assert (X : nth_error (b_views st ++ [Some w]) u = Some (Some wu)).
      { revert Hu1. fold w. clear. set (l := b_views st ++ [Some w]). clearbody l. destruct (nth_error l u) as [[?|]|]; intros Hu1; congruence. }
      fold w. rewrite X. destruct (_ || _); [reflexivity|]. rewrite P. unfold get_pl. cbn [b_pls].
      rewrite (nth_error_snoc_old _ _ _ _ P'). reflexivity.
    + intros Q. exfalso. destruct (b_view _ W _ _ Hu) as (p & P & _). apply get_pl_nth in P. apply nth_error_Some_lt in P.
      cbn [v_pl w] in Q. lia.
Qed.

Lemma text_round_trip st s : bwf st -> text s -> short s ->
  exists st' v, bin_from_string st s = ROk (st', v) /\ bin_to_string st' v = OOk [VStr s].
Proof.
  intros W T L. destruct (from_string_spec st s W (text_bytes _ T) L) as (st' & v & A & C & (ops & H) & (w & V & Lw) & _).
  exists st', v. split; [auto|]. unfold short in L. apply (to_string_spec st' v w s); auto; try lia. eapply history_wf; eauto.
Qed.

(** Sizes are cut to 32 bits. *)
Lemma wrap32_cut n k : 0 <= n < 2 ^ 31 -> wrap32 (n + k * 2 ^ 32) = n.
Proof. intros H. unfold wrap32. replace (n + k * 2 ^ 32 + 2 ^ 31) with (n + 2 ^ 31 + k * 2 ^ 32) by lia. rewrite Z.mod_add by lia. rewrite Z.mod_small by lia. lia. Qed.
Lemma wrap32_low n k : - 2 ^ 31 <= n < 0 -> wrap32 (n + k * 2 ^ 32) = n.
Proof. intros H. unfold wrap32. replace (n + k * 2 ^ 32 + 2 ^ 31) with (n + 2 ^ 31 + k * 2 ^ 32) by lia. rewrite Z.mod_add by lia. rewrite Z.mod_small by lia. lia. Qed.

Lemma holds_memory st v w bytes p : bwf st -> get_view st v = Some w -> get_pl st (v_pl w) = Some p -> Z.of_nat (List.length bytes) <= v_len w ->
  Z.of_nat (List.length bytes) <= 2 ^ 31 -> holds st v 0 bytes -> firstn (List.length bytes) (skipn (Z.to_nat (v_off w)) (p_body p)) = bytes.
Proof.
  intros W V P Lw Lb H. destruct (b_view _ W _ _ V) as (p' & P' & R1 & R2 & R3). rewrite P in P'. injection P' as <-.
  apply list_ext. intros k. destruct (Nat.lt_ge_cases k (List.length bytes)) as [L|L].
  - rewrite nth_error_firstn' by auto. rewrite nth_error_skipn'.
    destruct (nth_error bytes k) as [b|] eqn:E; [|apply nth_error_None in E; lia].
    specialize (H k b E). rewrite Z.add_0_l in H.
    destruct (proj2 (select_wf st v w (Z.of_nat k) W V ltac:(unfold in_int; lia)) ltac:(lia)) as (q & c & Q1 & Q2 & Q3 & _).
    rewrite P in Q1. injection Q1 as <-. rewrite H in Q3. injection Q3 as <-.
    apply zget_Some in Q2. destruct Q2 as [_ Q2]. rewrite <- Q2. f_equal. lia.
  - rewrite (proj2 (nth_error_None bytes k) L). apply nth_error_None. rewrite firstn_length. lia.
Qed.

Lemma strlen_memory (bytes rest : list Z) : ~ In 0 bytes -> c_strlen (bytes ++ 0 :: rest) = Some (List.length bytes).
Proof.
  induction bytes as [|c bytes IH]; intros N; [reflexivity|]. cbn [app c_strlen List.length]. cbn in N.
  destruct (Z.eqb_spec c 0); [subst; tauto|]. rewrite IH by tauto. reflexivity.
Qed.

Lemma large_text st v w bytes k : bwf st -> get_view st v = Some w -> v_len w = Z.of_nat (List.length bytes) + k * 2 ^ 32 -> 0 <= k ->
  Z.of_nat (List.length bytes) < 2 ^ 31 -> holds st v 0 bytes ->
  (text bytes -> bin_to_string st v = OOk [VStr bytes]) /\ (~ text bytes -> bin_to_string st v = OOk [VNone; VStr not_utf8]).
Proof.
  intros W V LB Hk Lw CT. destruct (view_memory_ok st v w W V) as (p & P & VM & VL & VB).
  pose proof (holds_memory st v w bytes p W V P ltac:(lia) ltac:(lia) CT) as FB.
  unfold bin_to_string. rewrite VM. set (mem := skipn (Z.to_nat (v_off w)) (p_body p)) in *.
  assert (E1 : wrap32 (v_len w) = Z.of_nat (List.length bytes)) by (rewrite LB; apply wrap32_cut; lia).
  assert (E2 : new_string mem (v_len w) = new_string mem (Z.of_nat (List.length bytes))).
  { unfold new_string. rewrite E1, wrap32_id by (unfold in_int; lia). reflexivity. }
  rewrite E1, E2. destruct (Z.ltb_spec (Z.of_nat (List.length bytes)) 0); [lia|].
  destruct (Z.ltb_spec (Z.of_nat (List.length mem)) (Z.of_nat (List.length bytes))); [lia|].
  destruct (new_string_spec mem (List.length bytes) VB ltac:(lia) ltac:(lia)) as [N1 N2]. rewrite FB in N1, N2.
  rewrite Nat2Z.id. split; intros T.
  - specialize (N1 T). rewrite N1. destruct T as (chs & HC & E).
    assert (S1 : utf8_strlen mem (List.length bytes) = SLen (Z.of_nat (List.length chs))).
    { rewrite <- (firstn_skipn (List.length bytes) mem), FB, <- E. apply strlen_chars. exact HC. }
    rewrite S1. reflexivity.
  - destruct (strlen_total mem (List.length bytes) VB ltac:(lia)) as [E|(j & E & _)]; rewrite E.
    + reflexivity.
    + exfalso. specialize (N2 T). revert N2. unfold new_string, from_string. rewrite wrap32_id by (unfold in_int; lia).
      destruct (Z.ltb_spec (Z.of_nat (List.length bytes)) 0); [lia|]. rewrite Nat2Z.id.
      destruct (Nat.ltb_spec (List.length mem) (List.length bytes)); [lia|]. rewrite E. discriminate.
Qed.

Lemma low_text st v w bytes n k : bwf st -> get_view st v = Some w -> v_len w = n + k * 2 ^ 32 -> - 2 ^ 31 <= n < 0 -> 1 <= k ->
  Z.of_nat (List.length bytes) < 2 ^ 31 -> ~ In 0 bytes -> holds st v 0 (bytes ++ [0]) ->
  (Z.of_nat (List.length bytes) < v_len w) -> 
  (text bytes -> bin_to_string st v = OOk [VStr bytes]) /\ (~ text bytes -> bin_to_string st v = OErr).
Proof.
  intros W V LB Hn Hk Lw NZ CT LL. destruct (view_memory_ok st v w W V) as (p & P & VM & VL & VB).
  pose proof (holds_memory st v w (bytes ++ [0]) p W V P ltac:(rewrite app_length; cbn; lia) ltac:(rewrite app_length; cbn; lia) CT) as FB.
  unfold bin_to_string. rewrite VM. set (mem := skipn (Z.to_nat (v_off w)) (p_body p)) in *.
  assert (E1 : wrap32 (v_len w) = n) by (rewrite LB; apply wrap32_low; lia).
  assert (EM : mem = bytes ++ 0 :: skipn (List.length (bytes ++ [0])) mem).
  { rewrite <- (firstn_skipn (List.length (bytes ++ [0])) mem) at 1. rewrite FB, <- app_assoc. reflexivity. }
  assert (FB' : firstn (List.length bytes) mem = bytes) by (rewrite EM, firstn_app, firstn_all, Nat.sub_diag; cbn; apply app_nil_r).
  assert (E2 : new_string mem (v_len w) = new_string mem (Z.of_nat (List.length bytes))).
  { unfold new_string. rewrite E1, wrap32_id by (unfold in_int; lia). unfold from_string. destruct (Z.ltb_spec n 0); [|lia].
    destruct (Z.ltb_spec (Z.of_nat (List.length bytes)) 0); [lia|]. rewrite Nat2Z.id. rewrite EM at 1. rewrite strlen_memory by assumption. reflexivity. }
  rewrite E1, E2. destruct (Z.ltb_spec n 0); [|lia].
  destruct (new_string_spec mem (List.length bytes) VB ltac:(lia) ltac:(lia)) as [N1 N2]. rewrite FB' in N1, N2.
  split; intros T; [rewrite (N1 T)|rewrite (N2 T)]; reflexivity.
Qed.

(** A buffer written to an empty file and read back into a buffer of the same size. *)
Lemma file_round_trip st a b wa wb bytes : bwf st -> get_view st a = Some wa -> get_view st b = Some wb -> v_len wa < 2 ^ 31 ->
  v_len wb = v_len wa -> contents st a bytes -> Forall is_byte bytes ->
  exists file n st', file_write st a None [] = ROk (n, file) /\ file_read st b None file = ROk (st', n, []) /\ contents st' b bytes.
Proof.
  intros W A B L E C HB. pose proof (write_spec st a wa None [] bytes W A L I C) as WR. cbn zeta in WR.
  destruct (view_memory_ok st a wa W A) as (p & P & _). destruct (contents_memory st a wa bytes p W A L P C) as [LB _].
  cbn [wanted] in WR. rewrite LB, Nat2Z.id, firstn_all in WR. cbn [app] in WR.
  destruct (read_spec st b wb None bytes W B ltac:(lia) I HB) as (st' & R & H & K & _). cbn [wanted] in R, K, H.
  rewrite E, LB, Nat2Z.id, firstn_all, skipn_all in R. rewrite E, LB, Nat2Z.id, firstn_all in K, H.
  exists bytes, (VInt (Z.of_nat (List.length bytes))), st'. split; [exact WR|]. split; [exact R|]. split; [|exact K].
  unfold buffer_count.
  assert (G : get_view st' b = Some wb).
  { revert R. unfold file_read. rewrite B. cbn [clamp_count]. unfold put_view. rewrite B. destruct (get_pl st (v_pl wb)); [|discriminate].
    destruct (put_bytes _ _ _); try discriminate. intros R. injection R as <- _ _. exact B. }
  rewrite G, E, LB, wrap32_id by (unfold in_int; lia). reflexivity.
Qed.

(** ** Where it goes wrong *)

Lemma write_huge st v memory len file : view_memory st v = Some (memory, len) -> Z.of_nat (List.length memory) < 2 ^ 63 -> 2 ^ 31 <= len < 2 ^ 32 ->
  file_write st v None file = RUB.
Proof.
  intros H M L. unfold file_write. rewrite H. cbn [clamp_count].
  assert (E : wrap32 len = len - 2 ^ 32).
  { unfold wrap32. replace (len + 2 ^ 31) with (len - 2 ^ 31 + 1 * 2 ^ 32) by lia. rewrite Z.mod_add by lia. rewrite Z.mod_small by lia. lia. }
  assert (E2 : u64 (wrap32 len) = len - 2 ^ 32 + 2 ^ 64).
  { rewrite E. unfold u64. replace (len - 2 ^ 32) with (len - 2 ^ 32 + 2 ^ 64 + (-1) * 2 ^ 64) by lia. rewrite Z.mod_add by lia. rewrite Z.mod_small by lia. lia. }
  rewrite E2. destruct (Z.ltb_spec (Z.of_nat (List.length memory)) (len - 2 ^ 32 + 2 ^ 64)); [reflexivity|lia].
Qed.

Lemma count_truncated st v w file k : bwf st -> get_view st v = Some w -> v_len w < 2 ^ 31 ->
  file_read st v (Some (k * 2 ^ 32)) file = ROk (st, VInt 0, file).
Proof.
  intros W V L. unfold file_read. rewrite V. cbn [clamp_count].
  assert (E : wrap32 (k * 2 ^ 32) = 0) by (unfold wrap32; rewrite Z.add_comm, Z.mod_add by lia; reflexivity).
  rewrite E. cbn [Z.ltb Z.compare]. destruct (b_view _ W _ _ V) as (p & P & R1 & R2 & R3).
  rewrite Z.min_l by lia. cbn [Z.to_nat firstn skipn].
  unfold put_view. rewrite V, P. unfold put_bytes. cbn [List.length].
  destruct (Z.ltb_spec (v_off w) 0); [lia|]. destruct (Z.ltb_spec (Z.of_nat (List.length (p_body p))) (v_off w + Z.of_nat 0)); [lia|].
  cbn [orb app]. rewrite Nat.add_0_r, firstn_skipn. destruct p as [rf bd]. cbn [p_refs p_body].
  rewrite upd_same by (apply get_pl_nth; exact P). destruct st; reflexivity.
Qed.

Lemma open_other mode : in_int mode -> ~ 0 <= mode <= 3 -> open_mode mode = RUB.
Proof.
  intros H N. unfold open_mode. rewrite wrap32_id by auto.
  destruct (Z.eqb_spec mode 0); [lia|]. destruct (Z.eqb_spec mode 1); [lia|]. destruct (Z.eqb_spec mode 2); [lia|].
  destruct (Z.eqb_spec mode 3); [lia|]. reflexivity.
Qed.

Lemma new_write_huge st n st' v file : bwf st -> 2 ^ 31 <= n < 2 ^ 32 -> bin_new st n = ROk (st', v) -> file_write st' v None file = RUB.
Proof.
  intros W H E. destruct (new_wf st n st' v W ltac:(lia) E) as (_ & V & _ & _ & P).
  apply write_huge with (memory := repeat 0 (Z.to_nat n)) (len := n); [|rewrite repeat_length; lia|exact H].
  unfold view_memory. rewrite V. cbn [v_pl v_off v_len]. rewrite P. reflexivity.
Qed.

Lemma new_succeeds st n : 0 <= n < 2 ^ 63 -> exists st' v, bin_new st n = ROk (st', v).
Proof.
  intros H. unfold bin_new, u64. rewrite Z.mod_small by lia. unfold new_buffer. destruct (Z.leb_spec (2 ^ 64) (16 + n)); [lia|]. eauto.
Qed.

Lemma new_large_text st n : bwf st -> 2 ^ 31 <= n <= 2 ^ 32 -> exists st' v w, bin_new st n = ROk (st', v) /\ get_view st' v = Some w /\ v_len w = n /\
  bin_to_string st' v = OOk [VStr []].
Proof.
  intros W H. destruct (new_succeeds st n ltac:(lia)) as (st' & v & E). destruct (new_wf st n st' v W ltac:(lia) E) as (W' & V & _ & _ & P).
  exists st', v, (mkview (List.length (b_pls st)) 0 n). split; [exact E|]. split; [exact V|]. split; [reflexivity|].
  assert (T : text []) by (exists []; split; constructor). destruct (Z.eq_dec n (2 ^ 32)) as [->|N].
  - apply (large_text st' v _ [] 1 W' V); [reflexivity|lia|cbn; lia|intros k b Hb; destruct k; discriminate|exact T].
  - apply (low_text st' v _ [] (n - 2 ^ 32) 1 W' V); [cbn [v_len]; lia|lia|lia|cbn; lia|auto| |cbn [v_len List.length]; lia|exact T].
    intros k b Hb. destruct k as [|k]; [|destruct k; discriminate]. injection Hb as <-. unfold buffer_select. rewrite V. cbn [v_len v_pl v_off].
    change (wrap32 (0 + Z.of_nat 0)) with 0. destruct (Z.leb_spec n 0); [lia|]. cbn [Z.ltb Z.compare orb]. rewrite P. cbn [p_body].
    change (0 + 0) with 0. unfold zget. cbn [Z.ltb Z.compare]. replace (Z.to_nat n) with (S (Z.to_nat (n - 1))) by lia. reflexivity.
Qed.

Lemma negative_refused st v w n file room arrived err : get_view st v = Some w -> bwf st -> - 2 ^ 31 <= n < 0 ->
  file_read st v (Some n) file = RErr /\ file_write st v (Some n) file = RErr /\
  net_recv st v (Some n) (Some arrived) err = ROk (st, [VNone; VStr negative_count], arrived) /\
  net_send st v (Some n) room file = ROk ([VNone; VStr negative_count], file).
Proof.
  intros V W H. destruct (view_memory_ok st v w W V) as (p & P & VM & _).
  unfold file_read, file_write, net_recv, net_send. rewrite V, VM. cbn [clamp_count].
  rewrite wrap32_id by (unfold in_int; lia). destruct (Z.ltb_spec n 0); [|lia]. auto.
Qed.

Lemma open_known mode : (mode = 0 -> open_mode mode = ROk FRead) /\ (mode = 1 -> open_mode mode = ROk FWritePlus) /\
  (mode = 2 \/ mode = 3 -> open_mode mode = ROk FAppend).
Proof. split; [intros ->; reflexivity|]. split; [intros ->; reflexivity|]. intros [->| ->]; reflexivity. Qed.

Lemma recv_fails st v w count err : get_view st v = Some w -> count_ok count -> net_recv st v count None err = ROk (st, [VNone; VStr err], []).
Proof.
  intros V C. unfold net_recv. rewrite V. destruct count as [n|]; [|reflexivity]. cbn [clamp_count count_ok] in *.
  rewrite wrap32_id by (unfold in_int in *; lia). destruct (Z.ltb_spec n 0); [lia|reflexivity].
Qed.

Lemma generate_spread objs min max r : 2 ^ 63 <= max - min -> bin_generate objs r [VInt min; VInt max] = OUB.
Proof.
  intros H. change (bin_generate objs r [VInt min; VInt max]) with (obind (random_value min max r) (fun z => OOk (ret_int z))).
  unfold random_value. assert (i64_max <? max - min = true) as -> by (apply Z.ltb_lt; unfold i64_max; lia). rewrite orb_true_r. reflexivity.
Qed.
