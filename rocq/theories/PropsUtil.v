(** Properties C16, C23-C25: the pointer stack, the arena allocator, the bucket list, promises. *)
From Coq Require Import ZArith List Lia Bool Permutation.
From Verif Require Import Base StringModel UtilModel UtilProofs.
Import ListNotations.
Open Scope Z_scope.

(** ** C16 *)
(** For every capacity and history of pushes and pops (pop counts are unsigned in C), verdicts, size and every readable
    position are those of a bounded list: pushes fail exactly when full, pops of more than there is fail and change nothing. *)
Theorem C16_stack_is_lifo : forall A size (ops : list (sop A)),
  Forall (fun op => match op with SPop n => 0 <= n | _ => True end) ops ->
  let cap := if size <? 0 then 1024 else size in
  exists s, srun (stack_new size) ops = ROk (s, snd (sp_run cap [] ops)) /\
    k_used s = Z.of_nat (length (fst (sp_run cap [] ops))) /\
    forall n, n <= 0 -> stack_top s n = ROk (nth_error (fst (sp_run cap [] ops)) (Z.to_nat (- n))).
Proof. exact @stack_history. Qed.

Example C16_example :
  sp_run 3 [] [SPush 1; SPush 2; SPush 3; SPush 4; SPop 2; SPop 2; SPush 5] =
    ([5; 1], [true; true; true; false; true; false; true]).
Proof. reflexivity. Qed.

(** ** C23 *)
(** For every history of requests and every outcome of the underlying allocator, the blocks handed out are pairwise
    disjoint, lie inside their chunks, start at multiples of 8, and have the requested length. *)
Theorem C23_arena_blocks_disjoint : forall first_size chunk_size (l : list (Z * bool)),
  Forall (fun r => 0 <= fst r) l ->
  let (a, bs) := arena_run (arena_init2 first_size chunk_size) l in
  ForallOrdPairs disjoint (blocks_of bs) /\ Forall (inside (a_chunks a)) (blocks_of bs) /\
  length bs = length l /\
  (forall i b, nth_error bs i = Some (Some b) -> exists ok, nth_error l i = Some (bl_len b, ok)).
Proof.
  intros fs cs l HF. destruct (arena_run_ok l _ [] (arena_init_ok fs cs) HF) as (H1 & H2 & H3).
  destruct (arena_run _ l) as [a bs]. cbn [fst snd app] in *. destruct H1. auto.
Qed.

Theorem C23_arena_in_caller_memory : forall mem_size chunk_size a0 (l : list (Z * bool)),
  arena_init3 mem_size chunk_size = Some a0 -> Forall (fun r => 0 <= fst r) l ->
  let (a, bs) := arena_run a0 l in
  ForallOrdPairs disjoint (blocks_of bs) /\ Forall (inside (a_chunks a)) (blocks_of bs).
Proof.
  intros ms cs a0 l Hi HF. destruct (arena_run_ok l _ [] (arena_init3_ok ms cs a0 Hi) HF) as (H1 & H2 & H3).
  destruct (arena_run a0 l) as [a bs]. cbn [fst snd app] in *. destruct H1. auto.
Qed.

(** A request is refused only when the underlying allocator refused to give a new chunk. *)
Theorem C23_arena_refusal : forall a req, snd (arena_malloc true a req) <> None.
Proof. intros a req. unfold arena_malloc. destruct (_ <? _); discriminate. Qed.

Example C23_example :
  snd (arena_run (arena_init2 100 64) [(10, true); (50, true); (200, false); (3, true); (200, true); (7, true)]) =
  [Some (mkblock 0 8 10); Some (mkblock 0 32 50); None; Some (mkblock 1 8 3); Some (mkblock 2 8 200); Some (mkblock 3 8 7)].
Proof. reflexivity. Qed.

(** ** C24 *)
(** For every history of appends the list holds the concatenation of the data, reports its length, copies it out in full or
    any prefix of it, and the place returned by Append2 holds its data for ever. *)
Theorem C24_bucketlist_is_bytes : forall ops,
  let all := concat (map blop_data ops) in
  exists b ps, blrun blist_new ops = Some (b, ps) /\
    bl_size b = Z.of_nat (length all) /\
    (forall len, blist_copy b len = if len <? 0 then all else firstn (Z.to_nat len) all) /\
    (forall i d p, nth_error ops i = Some (BAppend2 d) -> nth_error ps i = Some (Some p) -> bytes_at b p (length d) = d).
Proof.
  intros ops all. destruct (blrun_spec ops blist_new [] blist_new_full) as (b & ps & E & H & _ & P).
  exists b, ps. split; [exact E|]. split; [apply H|]. split; [|exact P]. intros len. apply blist_copy_spec. exact H.
Qed.

Example C24_example : exists b, blrun blist_new [BAppend [1; 2]; BAppend2 [3; 4; 5]; BAppend []; BAppend [6]] =
    Some (b, [None; Some (0%nat, 2%nat); None; None]) /\ blist_copy b (-1) = [1; 2; 3; 4; 5; 6] /\ blist_copy b 4 = [1; 2; 3; 4].
Proof. eexists. split; [reflexivity|]. split; reflexivity. Qed.
(** A history that crosses bucket boundaries. *)
Example C24_example_large : forall b ps,
  blrun blist_new [BAppend (repeat 7 5000); BAppend2 (repeat 8 5000); BAppend (repeat 9 10)] = Some (b, ps) ->
  bl_size b = 10010 /\ length (bl_init b) = 3%nat /\ ps = [None; Some (2%nat, 0%nat); None].
Proof. intros b ps H. vm_compute in H. injection H as <- <-. vm_compute. auto. Qed.

(** ** C25 *)
(** Subscribing, resolving once and subscribing again, for any disjoint destinations: nothing is written before the
    resolution, afterwards every destination holds the value, no other byte of memory changed, and every callback ran exactly
    once. *)
Theorem C25_promise_delivers : forall (pre post : list (nat * option Z)) data mem log,
  let subs := pre ++ post in
  Forall (in_mem mem (length data)) (map fst subs) ->
  ForallOrdPairs (apart (length data)) (map fst subs) ->
  let (p1, w1) := subscribes promise_new pre (mkpw mem log) in
  let (p2, w2) := promise_resolve p1 data w1 in
  let (p3, w3) := subscribes p2 post w2 in
  w1 = mkpw mem log /\
  (forall d, In d (map fst subs) -> holds (pw_mem w3) d data) /\
  length (pw_mem w3) = length mem /\
  (forall i, (forall d, In d (map fst subs) -> ~ (d <= i < d + length data)%nat) -> nth_error (pw_mem w3) i = nth_error mem i) /\
  (exists cbs, pw_log w3 = log ++ cbs /\
     Permutation cbs (flat_map (fun g => match snd g with Some id => [id] | None => [] end) subs)).
Proof. exact promise_history. Qed.

Example C25_example :
  let mem := repeat 0 12 in let pre := [(0%nat, Some 1); (8%nat, None)] in let post := [(4%nat, Some 2)] in
  Forall (in_mem mem 2) (map fst (pre ++ post)) /\ ForallOrdPairs (apart 2) (map fst (pre ++ post)) /\
  (let (p1, w1) := subscribes promise_new pre (mkpw mem []) in
   let (p2, w2) := promise_resolve p1 [7; 9] w1 in
   snd (subscribes p2 post w2)) = mkpw [7; 9; 0; 0; 7; 9; 0; 0; 7; 9; 0; 0] [1; 2].
Proof.
  split; [repeat constructor; unfold in_mem; cbn; lia|]. split; [repeat constructor; unfold apart; lia|reflexivity].
Qed.

Print Assumptions C16_stack_is_lifo.
Print Assumptions C23_arena_blocks_disjoint.
Print Assumptions C23_arena_in_caller_memory.
Print Assumptions C23_arena_refusal.
Print Assumptions C24_bucketlist_is_bytes.
Print Assumptions C25_promise_delivers.
