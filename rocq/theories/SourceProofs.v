(** Sources (source.c): proofs. *)
From Coq Require Import ZArith List Lia Bool.
From Verif Require Import Base StringModel SysModel SysProofs SourceModel.
Import ListNotations.
Open Scope Z_scope.

(** The absolute name of [file]. *)
Definition resolved (cwd : option (list Z)) (file path : list Z) : Prop :=
  (exists r, file = 47 :: r /\ path = file) \/
  (file <> [] /\ (forall r, file <> 47 :: r) /\ exists dir, cwd = Some dir /\ path = dir ++ [47] ++ file /\ Z.of_nat (length path) < 1024).

Lemma cells_app l r : cells (length l) (map Some l ++ r) = Some l.
Proof. induction l as [|c l IH]; cbn; [destruct r; reflexivity|]. rewrite IH. reflexivity. Qed.

Lemma cells_len l r n : n = length l -> cells n (map Some l ++ r) = Some l.
Proof. intros ->. apply cells_app. Qed.

Lemma wrap_mod z : 0 <= z -> 0 <= wrap32 z -> wrap32 z = z mod 2 ^ 32 /\ wrap32 z < 2 ^ 31.
Proof.
  intros Hz. unfold wrap32. change (2 ^ 32) with 4294967296. change (2 ^ 31) with 2147483648.
  Z.div_mod_to_equations. lia.
Qed.

Lemma absolute_is file : (exists r, file = 47 :: r) <-> is_absolute file = true.
Proof.
  split; [intros [r ->]; reflexivity|]. destruct file as [|c r]; cbn; [discriminate|]. intros H. apply Z.eqb_eq in H. subst. eauto.
Qed.

Section File.
Variables (cwd : option (list Z)) (fs : list Z -> option (list Z)) (big : Z).
Hypothesis Hcwd : forall dir, cwd = Some dir -> no_nul dir.

Lemma make_resolved file : no_nul file -> file <> [] ->
  match make_absolute cwd file (repeat 0 1024) with
  | ROk PNull => forall path, ~ resolved cwd file path
  | ROk PSame => forall path, resolved cwd file path <-> path = file
  | ROk (PBuff b) => exists p, c_string b = Some p /\ forall path, resolved cwd file path <-> path = p
  | _ => False
  end.
Proof.
  intros Hf Hn. destruct (path_absolute cwd file (repeat 0 1024) Hcwd Hf) as (A & B & C & D).
  destruct (is_absolute file) eqn:Ab.
  - rewrite (A eq_refl). pose proof (proj2 (absolute_is file) Ab) as [r Hr]. intros path. split.
    + intros [(r' & _ & ->)|(_ & H & _)]; [reflexivity|exfalso; exact (H r Hr)].
    + intros ->. left. exists r. auto.
  - assert (Nr : forall r, file <> 47 :: r) by (intros r ->; cbn in Ab; discriminate).
    assert (Rl : Z.of_nat (length (repeat 0 1024)) = 1024) by (rewrite repeat_length; reflexivity). rewrite Rl in C, D.
    destruct cwd as [dir|] eqn:Ec.
    + destruct (Z_lt_le_dec 1024 (Z.of_nat (length (dir ++ [47] ++ file)) + 1)) as [L|L].
      * rewrite (C eq_refl dir eq_refl L). intros path [(r & -> & _)|(_ & _ & d & Hd & -> & Hl)]; [exact (Nr r eq_refl)|].
        injection Hd as <-. lia.
      * destruct (D eq_refl dir eq_refl L) as (b & Hb & _ & Hc). rewrite Hb. exists (dir ++ [47] ++ file). split; [exact Hc|].
        intros path. split.
        -- intros [(r & -> & _)|(_ & _ & d & Hd & -> & Hl)]; [exfalso; exact (Nr r eq_refl)|]. injection Hd as <-. reflexivity.
        -- intros ->. right. split; [exact Hn|]. split; [exact Nr|]. exists dir. split; [reflexivity|]. split; [reflexivity|lia].
    + rewrite (B eq_refl eq_refl). intros path [(r & -> & _)|(_ & _ & d & Hd & _)]; [exact (Nr r eq_refl)|discriminate].
Qed.

Lemma from_file_path file path : no_nul file -> resolved cwd file path ->
  from_file cwd fs big file =
  match fs path with
  | None => RErr
  | Some content =>
    let size := wrap32 (Z.of_nat (length content)) in
    if size <? 0 then RErr else
    if big <? SIZEOF_SOURCE + Z.of_nat (length path) + size + 2 then RErr else
    ROk (mksource (Some path) (map Some (firstn (Z.to_nat size) content) ++ [Some 0]) size 1 true)
  end.
Proof.
  intros Hf R. assert (Hn : file <> []) by (destruct R as [(r & -> & _)|(H & _)]; [discriminate|exact H]).
  pose proof (make_resolved file Hf Hn) as M. unfold from_file. destruct file as [|c r]; [congruence|].
  destruct (make_absolute cwd (c :: r) (repeat 0 1024)) as [[| |b]| |]; try contradiction.
  - exfalso. exact (M path R).
  - apply M in R. rewrite R. reflexivity.
  - destruct M as (p & -> & M). apply M in R. rewrite R. reflexivity.
Qed.

Lemma from_file_unresolved file : no_nul file -> (forall path, ~ resolved cwd file path) -> from_file cwd fs big file = RErr.
Proof.
  intros Hf N. unfold from_file. destruct file as [|c r]; [reflexivity|].
  pose proof (make_resolved (c :: r) Hf ltac:(discriminate)) as M.
  destruct (make_absolute cwd (c :: r) (repeat 0 1024)) as [[| |b]| |]; try contradiction; [reflexivity| |].
  - exfalso. exact (N (c :: r) (proj2 (M _) eq_refl)).
  - destruct M as (p & _ & M). exfalso. exact (N p (proj2 (M _) eq_refl)).
Qed.

Lemma made path content : 0 <= wrap32 (Z.of_nat (length content)) ->
  let size := wrap32 (Z.of_nat (length content)) in
  let s := mksource (Some path) (map Some (firstn (Z.to_nat size) content) ++ [Some 0]) size 1 true in
  get_text s = Some (firstn (Z.to_nat (Z.of_nat (length content) mod 2 ^ 32)) content) /\ get_after s = Some 0 /\
  get_size s = Z.of_nat (length content) mod 2 ^ 32.
Proof.
  intros P. destruct (wrap_mod (Z.of_nat (length content)) ltac:(lia) P) as [E L].
  assert (B : 0 <= Z.of_nat (length content) mod 2 ^ 32 <= Z.of_nat (length content)).
  { split; [apply Z.mod_pos_bound; lia|apply Z.mod_le; lia]. }
  cbn zeta. rewrite E in *. set (k := Z.of_nat (length content) mod 2 ^ 32) in *.
  assert (G : k mod 2 ^ 32 = k) by (apply Z.mod_small; lia).
  assert (F : length (firstn (Z.to_nat k) content) = Z.to_nat k) by (rewrite firstn_length; lia).
  unfold get_text, get_after, get_size. cbn [s_size s_body]. rewrite G. split; [|split; [|reflexivity]].
  - apply cells_len. symmetry. exact F.
  - rewrite nth_error_app2 by (rewrite map_length; lia). rewrite map_length, F, Nat.sub_diag. reflexivity.
Qed.

Lemma file_ok file path content : no_nul file -> resolved cwd file path -> fs path = Some content ->
  Z.of_nat (length content) < 2 ^ 31 -> SIZEOF_SOURCE + Z.of_nat (length path) + Z.of_nat (length content) + 2 <= big ->
  exists s, from_file cwd fs big file = ROk s /\ get_text s = Some content /\ get_after s = Some 0 /\
    get_name s = Some path /\ get_path s = Some path /\ s_refs s = 1.
Proof.
  intros Hf R F L B. rewrite (from_file_path file path Hf R), F. cbn zeta.
  assert (E : wrap32 (Z.of_nat (length content)) = Z.of_nat (length content)) by (apply wrap32_id; unfold in_int; lia).
  rewrite E. destruct (Z.of_nat (length content) <? 0) eqn:X; [apply Z.ltb_lt in X; lia|].
  destruct (big <? _) eqn:Y; [apply Z.ltb_lt in Y; lia|]. eexists. split; [reflexivity|].
  destruct (made path content ltac:(rewrite E; lia)) as (T & A & _). cbn zeta in T, A. rewrite E in T, A.
  rewrite T, A. split; [|cbn; auto]. f_equal. rewrite Z.mod_small by lia. rewrite Nat2Z.id. apply firstn_all.
Qed.

Lemma file_only file s : no_nul file -> from_file cwd fs big file = ROk s ->
  exists path content, resolved cwd file path /\ fs path = Some content /\ get_name s = Some path /\ get_path s = Some path /\
    s_refs s = 1 /\ get_after s = Some 0 /\ get_size s < 2 ^ 31 /\
    get_text s = Some (firstn (Z.to_nat (Z.of_nat (length content) mod 2 ^ 32)) content).
Proof.
  intros Hf H. destruct file as [|c r] eqn:Ef; [discriminate|]. rewrite <- Ef in *.
  assert (Hn : file <> []) by (rewrite Ef; discriminate). pose proof (make_resolved file Hf Hn) as M.
  assert (X : exists path, resolved cwd file path).
  { destruct (make_absolute cwd file (repeat 0 1024)) as [[| |b]| |] eqn:Em; try contradiction.
    - unfold from_file in H. rewrite Em in H. destruct file; [congruence|discriminate].
    - exists file. apply M. reflexivity.
    - destruct M as (p & _ & M). exists p. apply M. reflexivity. }
  destruct X as [path R]. exists path. rewrite (from_file_path file path Hf R) in H.
  destruct (fs path) as [content|]; [|discriminate]. exists content. cbn zeta in H.
  destruct (wrap32 (Z.of_nat (length content)) <? 0) eqn:X; [discriminate|]. apply Z.ltb_ge in X.
  destruct (big <? _); [discriminate|]. injection H as <-. destruct (made path content X) as (T & A & G). cbn zeta in T, A, G.
  rewrite T, A, G. destruct (wrap_mod (Z.of_nat (length content)) ltac:(lia) X) as [E L]. rewrite E in L.
  repeat split; auto.
Qed.
End File.

(** ** Strings *)
Lemma strncpy_text s r n : no_nul s -> c_strncpy n (s ++ 0 :: r) = Some (firstn n s ++ repeat 0 (n - length s)).
Proof.
  revert n. induction s as [|c s IH]; intros n Hs.
  - destruct n; [reflexivity|]. cbn. reflexivity.
  - destruct n as [|n]; [reflexivity|]. cbn [app c_strncpy firstn length]. destruct (c =? 0) eqn:E.
    + apply Z.eqb_eq in E. subst. exfalso. apply Hs. left. reflexivity.
    + rewrite IH; [|intros K; apply Hs; right; exact K]. reflexivity.
Qed.

Definition name_len (name : option (list Z)) : Z := match name with Some n => Z.of_nat (length n) | None => 0 end.

Lemma string_ok big name s r size : no_nul s -> -1 <= size < 2 ^ 31 -> Z.of_nat (length s) < 2 ^ 31 ->
  let n := if size <? 0 then length s else Z.to_nat size in
  SIZEOF_SOURCE + name_len name + Z.of_nat n + 2 <= big -> big < 2 ^ 64 ->
  exists t, from_string big name (s ++ 0 :: r) size = ROk t /\
    get_text t = Some (firstn n s ++ repeat 0 (n - length s)) /\ get_size t = Z.of_nat n /\ get_name t = name /\ get_path t = None /\
    s_refs t = 1 /\ get_after t = None.
Proof.
  intros Hs Hz L n B Bb. unfold from_string.
  assert (E : (if size <? 0 then match c_strlen (s ++ 0 :: r) with Some n0 => Some (wrap32 (Z.of_nat n0)) | None => None end else Some size)
    = Some (Z.of_nat n)).
  { subst n. destruct (size <? 0) eqn:X.
    - rewrite strlen_app by exact Hs. rewrite wrap32_id by (unfold in_int; lia). reflexivity.
    - apply Z.ltb_ge in X. rewrite Z2Nat.id by lia. reflexivity. }
  rewrite E. fold (name_len name). assert (P : 0 <= name_len name) by (destruct name; cbn; lia).
  assert (N : Z.of_nat n < 2 ^ 31) by (subst n; destruct (size <? 0); lia).
  unfold SIZEOF_SOURCE in *. rewrite Z.mod_small by lia. destruct (big <? _) eqn:Y; [apply Z.ltb_lt in Y; lia|].
  destruct (Z.of_nat n <? 0) eqn:X; [apply Z.ltb_lt in X; lia|]. rewrite Nat2Z.id, strncpy_text by exact Hs.
  eexists. split; [reflexivity|]. unfold get_text, get_after, get_size. cbn [s_size s_body]. rewrite Z.mod_small by lia. rewrite Nat2Z.id.
  assert (F : n = length (firstn n s ++ repeat 0 (n - length s))) by (rewrite app_length, firstn_length, repeat_length; lia).
  split; [apply cells_len; exact F|]. repeat split; auto.
  rewrite nth_error_app2 by (rewrite map_length; lia). rewrite map_length, <- F, Nat.sub_diag. reflexivity.
Qed.

Lemma strncpy_length : forall n m l, c_strncpy n m = Some l -> length l = n.
Proof.
  induction n as [|n IH]; intros m l0; cbn [c_strncpy]; [intros H; injection H as <-; reflexivity|].
  destruct m as [|c m]; [discriminate|]. destruct (c =? 0); [intros H; injection H as <-; cbn; rewrite repeat_length; reflexivity|].
  destruct (c_strncpy n m) eqn:K; [|discriminate]. intros H. injection H as <-. cbn. rewrite (IH _ _ K). reflexivity.
Qed.

Lemma wrap32_range z : wrap32 z < 2 ^ 31.
Proof. unfold wrap32. change (2 ^ 32) with 4294967296. change (2 ^ 31) with 2147483648. Z.div_mod_to_equations. lia. Qed.

Lemma string_after big name mem size t : size < 2 ^ 31 -> from_string big name mem size = ROk t -> get_after t = None.
Proof.
  intros Hz. unfold from_string. destruct (if size <? 0 then _ else _) as [z|] eqn:Ez; [|discriminate].
  assert (Z31 : z < 2 ^ 31).
  { destruct (size <? 0); [|injection Ez as <-; exact Hz]. destruct (c_strlen mem); [|discriminate]. injection Ez as <-. apply wrap32_range. }
  destruct (big <? _); [discriminate|]. destruct (z <? 0) eqn:X; [discriminate|]. apply Z.ltb_ge in X.
  destruct (c_strncpy (Z.to_nat z) mem) as [l|] eqn:Ec; [|discriminate]. intros H. injection H as <-.
  apply strncpy_length in Ec. unfold get_after, get_size. cbn [s_size s_body]. rewrite Z.mod_small by lia.
  rewrite nth_error_app2 by (rewrite map_length; lia). rewrite map_length, Ec, Nat.sub_diag. reflexivity.
Qed.

(** ** References *)
Definition is_copy (o : sop) : bool := match o with SCopy => true | SFree => false end.
Definition copies (ops : list sop) : nat := length (filter is_copy ops).
Definition frees (ops : list sop) : nat := length (filter (fun o => negb (is_copy o)) ops).

Lemma count_app l r : copies (l ++ r) = (copies l + copies r)%nat /\ frees (l ++ r) = (frees l + frees r)%nat.
Proof. unfold copies, frees. rewrite !filter_app, !app_length. auto. Qed.

Lemma ref_held : forall ops r, 0 < r -> r + Z.of_nat (copies ops) < 2 ^ 31 ->
  (forall pre post, ops = pre ++ post -> Z.of_nat (frees pre) < r + Z.of_nat (copies pre)) ->
  ref_run (Some r) ops = ROk (Some (r + Z.of_nat (copies ops) - Z.of_nat (frees ops))).
Proof.
  induction ops as [|o ops IH]; intros r Hr Hb Hp.
  - cbn. f_equal. f_equal. lia.
  - destruct o; cbn [ref_run ref_step].
    + change (copies (SCopy :: ops)) with (S (copies ops)) in *. change (frees (SCopy :: ops)) with (frees ops).
      destruct (r =? 2 ^ 31 - 1) eqn:E; [apply Z.eqb_eq in E; lia|]. rewrite IH; [f_equal; f_equal; lia|lia|lia|].
      intros pre post ->. specialize (Hp (SCopy :: pre) post eq_refl).
      change (copies (SCopy :: pre)) with (S (copies pre)) in Hp. change (frees (SCopy :: pre)) with (frees pre) in Hp. lia.
    + change (copies (SFree :: ops)) with (copies ops) in *. change (frees (SFree :: ops)) with (S (frees ops)).
      pose proof (Hp [SFree] ops eq_refl) as H1. cbn in H1.
      destruct (r - 1 =? 0) eqn:E; [apply Z.eqb_eq in E; lia|]. rewrite IH; [f_equal; f_equal; lia|lia|lia|].
      intros pre post ->. specialize (Hp (SFree :: pre) post eq_refl).
      change (copies (SFree :: pre)) with (copies pre) in Hp. change (frees (SFree :: pre)) with (S (frees pre)) in Hp. lia.
Qed.

Lemma ref_run_app : forall a b r, ref_run r (a ++ b) = match ref_run r a with ROk r' => ref_run r' b | RErr => RErr | RUB => RUB end.
Proof. induction a as [|o a IH]; intros b r; cbn [app ref_run]; [reflexivity|]. destruct (ref_step r o); [apply IH|reflexivity..]. Qed.

(** The source lives as long as there are fewer frees than references were handed out. *)
Lemma ref_alive ops : Z.of_nat (copies ops) < 2 ^ 31 - 1 ->
  (forall pre post, ops = pre ++ post -> (frees pre < 1 + copies pre)%nat) -> exists r, ref_run (Some 1) ops = ROk (Some r) /\ 0 < r.
Proof.
  intros Hb Hp. eexists. split; [apply ref_held; [lia|lia|]|].
  - intros pre post E. specialize (Hp pre post E). lia.
  - specialize (Hp ops [] (eq_sym (app_nil_r ops))). lia.
Qed.

Lemma ref_freed ops : Z.of_nat (copies ops) < 2 ^ 31 - 1 -> ops <> [] ->
  (forall pre post, ops = pre ++ post -> post <> [] -> (frees pre < 1 + copies pre)%nat) -> (frees ops = 1 + copies ops)%nat ->
  ref_run (Some 1) ops = ROk None /\ forall o, ref_run (Some 1) (ops ++ [o]) = RUB.
Proof.
  intros Hb Hn Hp He.
  assert (G : ref_run (Some 1) ops = ROk None).
  { destruct (exists_last Hn) as (pre & o & ->). destruct (count_app pre [o]) as [C F].
    assert (o = SFree). { destruct o; [|reflexivity]. specialize (Hp pre [SCopy] eq_refl ltac:(discriminate)). rewrite C, F in He. cbn in He. lia. }
    subst o. cbn in C, F. rewrite ref_run_app, ref_held.
    - rewrite C, F in He. cbn [ref_run ref_step]. replace (1 + Z.of_nat (copies pre) - Z.of_nat (frees pre) - 1 =? 0) with true; [reflexivity|].
      symmetry. apply Z.eqb_eq. lia.
    - lia.
    - rewrite C in Hb. lia.
    - intros p q ->. specialize (Hp p (q ++ [SFree]) (eq_sym (app_assoc _ _ _)) ltac:(destruct q; discriminate)). lia. }
  split; [exact G|]. intros o. rewrite ref_run_app, G. reflexivity.
Qed.

(** ** Further cases of files *)
Lemma resolved_or cwd file : (exists path, resolved cwd file path) \/ forall path, ~ resolved cwd file path.
Proof.
  destruct file as [|c r]; [right; intros path [(r & H & _)|(H & _)]; congruence|].
  destruct (Z.eq_dec c 47) as [->|Nc]; [left; exists (47 :: r); left; eauto|].
  destruct cwd as [dir|].
  - destruct (Z_lt_le_dec (Z.of_nat (length (dir ++ [47] ++ c :: r))) 1024) as [L|L].
    + left. exists (dir ++ [47] ++ c :: r). right. split; [discriminate|]. split; [intros r' H; congruence|]. exists dir. auto.
    + right. intros path [(r' & H & _)|(_ & _ & d & H & -> & Hl)]; [congruence|]. injection H as <-. lia.
  - right. intros path [(r' & H & _)|(_ & _ & d & H & _)]; congruence.
Qed.

Lemma file_missing cwd fs big file : (forall dir, cwd = Some dir -> no_nul dir) -> no_nul file ->
  (forall path, resolved cwd file path -> fs path = None) -> from_file cwd fs big file = RErr.
Proof.
  intros Hc Hf H. destruct (resolved_or cwd file) as [[path R]|N].
  - rewrite (from_file_path cwd fs big Hc file path Hf R), (H path R). reflexivity.
  - apply from_file_unresolved; assumption.
Qed.

Lemma file_large_any c r : Z.of_nat (length (c :: r)) = 2 ^ 32 + 1 ->
  exists s, from_file None (fun _ => Some (c :: r)) (2 ^ 20) [47; 97] = ROk s /\ get_text s = Some [c].
Proof.
  intros L. assert (W : wrap32 (Z.of_nat (length (c :: r))) = 1) by (rewrite L; reflexivity).
  eexists. split.
  - rewrite (from_file_path None (fun _ => Some (c :: r)) (2 ^ 20)) with (path := [47; 97]).
    + cbn zeta. rewrite W. change (1 <? 0) with false. cbn iota.
      match goal with |- (if ?b then _ else _) = _ => assert (X : b = false) by reflexivity; rewrite X end. reflexivity.
    + discriminate.
    + intros [H|[H|H]]; [discriminate..|exact H].
    + left. exists [97]. auto.
  - reflexivity.
Qed.

Lemma long_list {A} (a : A) z : 0 <= z -> exists l : list A, Z.of_nat (length l) = z.
Proof. intros H. exists (repeat a (Z.to_nat z)). rewrite repeat_length. apply Z2Nat.id. exact H. Qed.

Lemma file_large : exists fs file s content, fs file = Some content /\ from_file None fs (2 ^ 20) file = ROk s /\
  get_text s = Some [120] /\ Z.of_nat (length content) = 2 ^ 32 + 1.
Proof.
  destruct (long_list 121 (2 ^ 32) ltac:(lia)) as [r Hr].
  assert (L : Z.of_nat (length (120 :: r)) = 2 ^ 32 + 1) by (cbn [length]; lia).
  destruct (file_large_any 120 r L) as (s & H & T). exists (fun _ => Some (120 :: r)), [47; 97], s, (120 :: r). auto.
Qed.
