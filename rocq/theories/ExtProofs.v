(** The sizes of the extension blocks against what the collector copies. *)
From Coq Require Import ZArith List Lia Bool.
From Verif Require Import Base Utf8Model SeqSpec StringModel MapModel ListModel MapSpec MapProofs MapProofs2 ListProofs GcModel GcSpec ExtModel.
Import ListNotations.
Open Scope Z_scope.

Lemma map_exts_cover {K V} (hash : K -> Z) cmp num (h : list (K * V)) m : num < 2 ^ 26 -> Z.of_nat (length h) <= 2 ^ 26 ->
  map_inserts hash cmp (new_map num) h = InsOk m -> exists a b c, map_walkexts m = [a; b; c] /\
    a = 4 * Z.of_nat (length (m_mapper m)) /\ 8 * Z.of_nat (length (m_keys m)) <= b /\ 8 * Z.of_nat (length (m_vals m)) <= c.
Proof.
  intros Hn Hl H. apply inserts_weak in H; [|apply new_map_weak; assumption|cbn [m_keys new_map length]; lia].
  destruct H as [(C & Hv & Hc) _]. unfold map_walkexts, sizeof_ref. do 3 eexists. split; [reflexivity|]. unfold msize in *. rewrite Hv. lia.
Qed.

Lemma string_exts_exact mem len s : 0 <= len -> from_string mem len = ROk s -> string_walkexts s = [len + 1].
Proof.
  unfold from_string, string_walkexts. intros H. destruct (Z.ltb_spec len 0); [lia|].
  destruct (Nat.ltb_spec (length mem) (Z.to_nat len)) as [L|L]; [discriminate|].
  destruct (utf8_strlen mem (Z.to_nat len)); try discriminate. intros [= <-]. cbn [s_bytes]. rewrite firstn_length_le by lia. f_equal. lia.
Qed.

Lemma run_cap {A} ops : forall (l : lobj A) s, rep l s -> 8 <= l_cap l -> Forall (fun kv => in_int (fst kv)) ops ->
  Z.of_nat (length s) + Z.of_nat (length ops) <= 2 ^ 30 ->
  exists l' bs, list_run l ops = ROk (l', bs) /\ l_cap l' = Z.of_nat (length (l_cells l')) /\ l_cap l <= l_cap l'.
Proof.
  induction ops as [|[k v] ops IH]; intros l s R Hc HI Hl; cbn [list_run].
  - exists l, []. split; [reflexivity|]. split; [apply R|lia].
  - inversion HI as [|? ? I1 I2]; subst. cbn [fst] in I1. cbn [length] in Hl.
    pose proof (insert_spec l s k v R Hc ltac:(lia) I1) as S1.
    destruct (seq_set s k v) as [s'|] eqn:E.
    + destruct S1 as (l' & E1 & R' & C'). rewrite E1. apply seq_set_length in E.
      destruct (IH l' s' R' ltac:(lia) I2 ltac:(lia)) as (l2 & bs & E2 & R2 & C2). rewrite E2. do 2 eexists. split; [reflexivity|]. split; [exact R2|lia].
    + rewrite S1. destruct (IH l s R Hc I2 ltac:(lia)) as (l2 & bs & E2 & R2 & C2). rewrite E2. do 2 eexists. split; [reflexivity|]. auto.
Qed.

Lemma list_exts_double {A} cap (ops : list (Z * A)) : 0 <= cap -> Forall (fun kv => in_int (fst kv)) ops ->
  Z.of_nat (length ops) <= 2 ^ 30 -> exists l bs b w, list_run (new_list cap) ops = ROk (l, bs) /\
    list_blocks l = [b] /\ list_walkexts l = [w] /\ w = 2 * b /\ 64 <= b.
Proof.
  intros H F L. destruct (run_cap ops (new_list cap) [] (rep_new cap)) as (l & bs & E & R & C); auto.
  { unfold new_list. cbn [l_cap]. destruct (Z.ltb_spec cap 8); lia. }
  assert (8 <= l_cap (new_list (A := A) cap)) by (unfold new_list; cbn [l_cap]; destruct (Z.ltb_spec cap 8); lia).
  exists l, bs. unfold list_blocks, list_walkexts, sizeof_ref, sizeof_object. do 2 eexists. split; [exact E|]. split; [reflexivity|]. split; [reflexivity|]. lia.
Qed.

Lemma list_exts_leave_pool A cap mem n : 8 <= cap <= 2 ^ 25 -> exists off read,
  raw_run (heap_new (sizeof_list + 8 * cap) mem n) (sizeof_list :: list_blocks (new_list (A := A) cap)) =
    [(sizeof_list, PPool 0); (8 * cap, PPool off)] /\
  list_walkexts (new_list (A := A) cap) = [read] /\ sizeof_list + 8 * cap < off + read.
Proof.
  intros H. unfold list_blocks, list_walkexts, new_list. destruct (Z.ltb_spec cap 8); [lia|]. cbn [l_cells l_cap].
  rewrite repeat_length, Z2Nat.id by lia. unfold sizeof_list, sizeof_ref, sizeof_object, heap_new.
  destruct (Z.ltb_spec (32 + 8 * cap) 0); [lia|]. exists 32, (16 * cap). split; [|split; [reflexivity|lia]].
  cbn [raw_run]. unfold raw_malloc. cbn [h_used h_size h_collecting h_total set_space]. change (up8 0) with 0.
  destruct (Z.ltb_spec 2147483647 (0 + 32)); [lia|]. destruct (Z.ltb_spec (32 + 8 * cap) (0 + 32)); [lia|].
  cbn [raw_run set_space h_used h_size h_collecting h_total]. change (up8 (0 + 32)) with 32.
  destruct (Z.ltb_spec 2147483647 (32 + 8 * cap)); [lia|]. destruct (Z.ltb_spec (32 + 8 * cap) (32 + 8 * cap)); [lia|]. reflexivity.
Qed.
