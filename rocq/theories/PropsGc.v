(** Properties of the heap and the collector: C19, C20, C21, C22, C58, C62. *)
From Coq Require Import ZArith List Lia Bool Permutation.
From Verif Require Import Base StringModel MapModel ListModel MapSpec ListProofs GcModel ExtModel GcSpec GcProofs GcProofs2 GcProofs3 GcProofs4 ExtProofs.
Import ListNotations.
Open Scope Z_scope.

(** * C19 A collection preserves every reachable object *)
Theorem C19_collection_preserves_reachable : forall dok h born log0 fuel roots h' roots' log,
  history dok h born log0 -> (forall a, In (Some a) roots -> is_obj (h_mem h) a) ->
  collect_garbage dok fuel h roots = GOk (h', roots', true, log) ->
  exists f,
    (forall a b, reach (h_mem h) roots a -> reach (h_mem h) roots b -> f a = f b -> a = b) /\
    (forall a o, h_mem h a = Some (CObj o) -> o_static o = true -> f a = a) /\
    roots' = map (option_map f) roots /\
    (forall a o, reach (h_mem h) roots a -> h_mem h a = Some (CObj o) -> h_mem h' (f a) = Some (CObj (rename f o))).
Proof. exact gc_preserves. Qed.
Print Assumptions C19_collection_preserves_reachable.

(** A collection always comes to an end without touching anything but objects, and it succeeds whenever what is alive fits in the
    pool and no destructor of a dead object fails. *)
Theorem C19_collection_succeeds : forall dok h born log0 fuel roots,
  history dok h born log0 -> (forall a, In (Some a) roots -> is_obj (h_mem h) a) -> (h_next h + 3 <= fuel)%nat ->
  exists h' roots' ok log, collect_garbage dok fuel h roots = GOk (h', roots', ok, log) /\
    (forall live, (forall a, In a live <-> reach (h_mem h) roots a /\ dynamic (h_mem h) a) ->
       total_cost (h_mem h) live <= h_size h -> (forall d, dok d = true) -> ok = true).
Proof. exact gc_succeeds. Qed.
Print Assumptions C19_collection_succeeds.

(** * C20 Finalizers run exactly once, and only on unreachable objects *)
Theorem C20_finalizers_exactly_once : forall dok h born log,
  history dok h born log -> exists rest, heap_free h = GOk rest /\ Permutation (log ++ rest) born.
Proof. exact gc_once. Qed.
Print Assumptions C20_finalizers_exactly_once.

Theorem C20_collection_finalizes_the_unreachable : forall dok h born log0 fuel roots h' roots' log,
  history dok h born log0 -> (forall a, In (Some a) roots -> is_obj (h_mem h) a) ->
  collect_garbage dok fuel h roots = GOk (h', roots', true, log) ->
  exists dead, NoDup dead /\
    (forall a, In a dead <-> ~ reach (h_mem h) roots a /\ exists o, h_mem h a = Some (CObj o) /\ o_static o = false /\ o_dtor o = true) /\
    Permutation (map Some log) (map (fun a => option_map o_data (get_obj h a)) dead).
Proof. exact gc_finalizes. Qed.
Print Assumptions C20_collection_finalizes_the_unreachable.

(** * C21 A collection reclaims all garbage *)
Theorem C21_collection_reclaims_garbage : forall dok h born log0 fuel roots h' roots' log,
  history dok h born log0 -> (forall a, In (Some a) roots -> is_obj (h_mem h) a) ->
  collect_garbage dok fuel h roots = GOk (h', roots', true, log) ->
  exists live, NoDup live /\ (forall a, In a live <-> reach (h_mem h) roots a /\ dynamic (h_mem h) a) /\
    h_objcount h' = Z.of_nat (length live) /\ h_used h' <= total_cost (h_mem h) live /\
    (exists live', NoDup live' /\ length live' = length live /\ forall b, dynamic (h_mem h') b <-> In b live') /\
    (forall b, dynamic (h_mem h') b -> reach (h_mem h') roots' b).
Proof. exact gc_reclaims. Qed.
Print Assumptions C21_collection_reclaims_garbage.

(** * C22 Heap blocks do not overlap *)
Theorem C22_blocks_disjoint : forall h sizes,
  0 <= h_used h <= h_size h -> h_size h <= 2 ^ 29 -> Forall (fun s => 0 <= s <= 2 ^ 29) sizes ->
  Forall (fun x => snd x <> PUB /\ (snd x = PRefused -> h_collecting h = true) /\ (snd x = POflow -> h_collecting h = false)) (raw_run h sizes) /\
  Forall (fun b => h_used h <= fst b /\ fst b mod 8 = 0 /\ fst b + snd b <= h_size h) (pool_blocks (raw_run h sizes)) /\
  ForallOrdPairs apart (pool_blocks (raw_run h sizes)).
Proof. exact (fun h sizes => raw_run_spec sizes h). Qed.
Print Assumptions C22_blocks_disjoint.

(** * Examples *)
(** Collecting with root 2: the cycle moves, the third object is finalized. *)
Example C19_example :
  match collect_garbage (fun _ => true) 10 ex_h4 [Some 2%nat; None; Some 0%nat] with
  | GOk (h', roots', ok, log) =>
    ok = true /\ roots' = [Some 4%nat; None; Some 0%nat] /\ log = [13] /\ h_objcount h' = 2 /\
    get_obj h' 4 = Some (ex_o [Some 5%nat; Some 0%nat] 12 false) /\ get_obj h' 5 = Some (ex_o [Some 4%nat] 11 true) /\
    get_obj h' 0 = get_obj ex_h4 0 /\ get_obj h' 1 = None /\ h_pend h' = [5%nat] /\ heap_free h' = GOk [11]
  | _ => False
  end.
Proof. vm_compute. repeat split. Qed.

Example C20_example : exists rest, heap_free ex_h4 = GOk rest /\ Permutation ([] ++ rest) [13; 11].
Proof. apply (C20_finalizers_exactly_once (fun _ => true)). apply ex_history. Qed.

Example C21_example : exists h' roots' log,
  collect_garbage (fun _ => true) 10 ex_h4 [Some 1%nat] = GOk (h', roots', true, log) /\ h_used h' = 109 /\ h_objcount h' = 2.
Proof. do 3 eexists. split; [vm_compute; reflexivity|]. split; reflexivity. Qed.

Example C22_example : raw_run (heap_new 64 ex_mem 1) [5; 17; 100; 16; 9] = [(5, PPool 0); (17, PPool 8); (100, POflow); (16, PPool 32); (9, PPool 48)].
Proof. reflexivity. Qed.

(** * C58 A collection that runs out of memory leaves references and finalizers in order *)
(** False of the code. Two reachable finalizable objects do not fit in a pool of 64 bytes; the first root is moved, the second is
    refused. Its destructor is then called although it is reachable, and called a second time when the heap is freed. *)
Theorem C58_failed_collection_refuted :
  ~ (forall dok h born log0 fuel roots h' roots' log, history dok h born log0 -> (forall a, In (Some a) roots -> is_obj (h_mem h) a) ->
       collect_garbage dok fuel h roots = GOk (h', roots', false, log) ->
       exists rest, heap_free h' = GOk rest /\ Permutation (log0 ++ log ++ rest) born).
Proof. exact gc_failed_witness. Qed.
Print Assumptions C58_failed_collection_refuted.

(** With the roots visited in the other order, freeing the heap runs a destructor on a block that is not an object any more. *)
Theorem C58_free_after_failed_collection_refuted : exists h' roots' log,
  collect_garbage (fun _ => true) 10 bad_h2 [Some 2%nat; Some 1%nat] = GOk (h', roots', false, log) /\ heap_free h' = GUB.
Proof. do 3 eexists. split; [vm_compute; reflexivity|]. reflexivity. Qed.
Print Assumptions C58_free_after_failed_collection_refuted.

(** * C62 The collector copies the blocks an object owns, and no more *)
(** What is copied of a map, in every state that stores can reach, is the mapper and room for every key and every value. *)
Theorem C62_maps_partial : forall K V (hash : K -> Z) cmp num (h : list (K * V)) m, num < 2 ^ 26 -> Z.of_nat (length h) <= 2 ^ 26 ->
  map_inserts hash cmp (new_map num) h = InsOk m -> exists a b c, map_walkexts m = [a; b; c] /\
    a = 4 * Z.of_nat (length (m_mapper m)) /\ 8 * Z.of_nat (length (m_keys m)) <= b /\ 8 * Z.of_nat (length (m_vals m)) <= c.
Proof. exact @map_exts_cover. Qed.
Print Assumptions C62_maps_partial.

(** What is copied of a string is its body and the terminator: the [len + 1] bytes that were asked for. *)
Theorem C62_strings_partial : forall mem len s, 0 <= len -> from_string mem len = ROk s -> string_walkexts s = [len + 1].
Proof. exact string_exts_exact. Qed.
Print Assumptions C62_strings_partial.

(** For a list, twice the size of its array is read, in every state that stores can reach. *)
Theorem C62_lists_refuted : forall A cap (ops : list (Z * A)), 0 <= cap -> Forall (fun kv => in_int (fst kv)) ops ->
  Z.of_nat (length ops) <= 2 ^ 30 -> exists l bs b w, list_run (new_list cap) ops = ROk (l, bs) /\
    list_blocks l = [b] /\ list_walkexts l = [w] /\ w = 2 * b /\ 64 <= b.
Proof. exact @list_exts_double. Qed.
Print Assumptions C62_lists_refuted.

(** And the array can be the last block of the pool, whatever its size: then the bytes read are outside of the pool. *)
Theorem C62_lists_leave_the_pool_refuted : forall A cap mem n, 8 <= cap <= 2 ^ 25 -> exists off read,
  raw_run (heap_new (sizeof_list + 8 * cap) mem n) (sizeof_list :: list_blocks (new_list (A := A) cap)) =
    [(sizeof_list, PPool 0); (8 * cap, PPool off)] /\
  list_walkexts (new_list (A := A) cap) = [read] /\ sizeof_list + 8 * cap < off + read.
Proof. exact list_exts_leave_pool. Qed.
Print Assumptions C62_lists_leave_the_pool_refuted.

Example C62_example :
  raw_run (heap_new 96 ex_mem 1) (sizeof_list :: list_blocks (new_list (A := Z) 8)) = [(32, PPool 0); (64, PPool 32)] /\
  list_walkexts (new_list (A := Z) 8) = [128] /\
  (match map_inserts (fun k => k) (fun a b => Some (a =? b)) (new_map (-1)) [(1, 1); (2, 2); (3, 3); (4, 4); (5, 5); (6, 6)] with
   | InsOk m => map_walkexts m | _ => [] end) = [64; 80; 80] /\
  (match from_string [104; 195; 168; 0] (-1) with ROk s => string_walkexts s | _ => [] end) = [4].
Proof. vm_compute. auto. Qed.
