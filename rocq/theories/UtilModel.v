(** Models of src/lib/utils/stack.c, bpalloc.c, bucketlist.c and promise.c. *)
From Coq Require Import ZArith List Lia Bool.
From Verif Require Import Base StringModel.
Import ListNotations.
Open Scope Z_scope.

(** * stack.c *)
(** stack.c:36-41 xStack; [k_body] is the array of [size] cells ([None] = not yet written). *)
Record stack (A : Type) := mkstack { k_size : Z; k_used : Z; k_body : list (option A) }.
Arguments mkstack {A}. Arguments k_size {A}. Arguments k_used {A}. Arguments k_body {A}.

(** stack.c:43-59 Stack_New. *)
Definition stack_new {A} (size : Z) : stack A :=
  let size := if size <? 0 then 1024 else size in
  mkstack size 0 (repeat None (Z.to_nat size)).

(** stack.c:61-72 Stack_Top ([n] is 0 or negative): [ROk None] = NULL. *)
Definition stack_top {A} (s : stack A) (n : Z) : res (option A) :=
  if k_used s =? 0 then ROk None else
  if k_used s + n - 1 <? 0 then ROk None else
  match zget (k_body s) (k_used s + n - 1) with Some (Some x) => ROk (Some x) | _ => RUB end.

(** stack.c:88-95 Stack_Pop ([n] is unsigned). *)
Definition stack_pop {A} (s : stack A) (n : Z) : option (stack A) :=
  if k_used s <? n then None else Some (mkstack (k_size s) (k_used s - n) (k_body s)).

(** stack.c:97-108 Stack_Push. *)
Definition stack_push {A} (s : stack A) (x : A) : res (option (stack A)) :=
  if k_used s =? k_size s then ROk None else
  if Z.of_nat (length (k_body s)) <=? k_used s then RUB else
  ROk (Some (mkstack (k_size s) (k_used s + 1) (upd (k_body s) (Z.to_nat (k_used s)) (Some x)))).

(** * bpalloc.c *)
(** bpalloc.c:43-56 xBPAlloc; [a_chunks] are the body sizes of the chunks, the current one (tail) first. Simplification: sizes
    stay below 2^31 so the [int] sums do not overflow. *)
Record arena := mkarena { a_min : Z; a_size : Z; a_used : Z; a_chunks : list Z }.

(** bpalloc.c:43-58: A block: chunk number (counted from the first chunk), offset in the body of the chunk, length. *)
Record block := mkblock { bl_chunk : nat; bl_off : Z; bl_len : Z }.

(** bpalloc.c:70-112 BPAlloc_Init2: the first chunk has [first_size] usable bytes (8 more are allocated). *)
Definition arena_init2 (first_size chunk_size : Z) : arena :=
  let cs := if chunk_size <? 0 then 4096 else chunk_size in
  let fs := if first_size <? 0 then cs else first_size in
  mkarena cs fs 0 [fs].

(** bpalloc.c:114-157 BPAlloc_Init3 in caller memory of [mem_size] bytes: sizeof(BPAlloc) = 56, sizeof(BPAllocChunk) = 8,
    PADDING = 8. *)
Definition arena_init3 (mem_size chunk_size : Z) : option arena :=
  let cs := if chunk_size <? 0 then 4096 else chunk_size in
  if mem_size <? 56 + 8 + 8 then None else Some (mkarena cs (mem_size - 56 - 8) 0 [mem_size - 56 - 8]).

(** bpalloc.c:189-190 and 209-210: rounding up to a multiple of 8. *)
Definition align8 (x : Z) : Z := if x mod 8 =? 0 then x else x - x mod 8 + 8.

(** bpalloc.c:186-231 BPAlloc_Malloc; [ok] = the chunk allocator succeeds if it is called. *)
Definition arena_malloc (ok : bool) (a : arena) (req : Z) : arena * option block :=
  let used := align8 (a_used a + 8) in
  if a_size a <? used + req then
    let cs := Z.max (a_min a) (req + 8) in
    if ok then
      let used' := align8 8 in
      (mkarena (a_min a) cs (used' + req) (cs :: a_chunks a), Some (mkblock (length (a_chunks a)) used' req))
    else (mkarena (a_min a) (a_size a) used (a_chunks a), None)
  else (mkarena (a_min a) (a_size a) (used + req) (a_chunks a),
        Some (mkblock (length (a_chunks a) - 1) used req)).

(** bpalloc.c:186-231: A history of requests: (request size, chunk allocator succeeds). *)
Fixpoint arena_run (a : arena) (l : list (Z * bool)) : arena * list (option block) :=
  match l with
  | [] => (a, [])
  | (req, ok) :: r =>
    let (a1, b) := arena_malloc ok a req in
    let (a2, bs) := arena_run a1 r in (a2, b :: bs)
  end.

(** * bucketlist.c *)
(** bucketlist.c:38-45 Bucket: capacity and the bytes used so far. *)
Record bucket := mkbucket { bk_size : Z; bk_data : list Z }.
(** bucketlist.c:47-52 xBucketList: the buckets before the tail, the tail, and the total size. Allocation succeeds
    (simplification). *)
Record blist := mkblist { bl_init : list bucket; bl_tail : bucket; bl_size : Z }.

(** bucketlist.c:54-74 BucketList_New. *)
Definition blist_new : blist := mkblist [] (mkbucket 4096 []) 0.

(** bucketlist.c:83-96 make_bucket and append_bucket. *)
Definition add_bucket (b : blist) (size : Z) : blist :=
  mkblist (bl_init b ++ [bl_tail b]) (mkbucket size []) (bl_size b).

(** bucketlist.c:109-184: Append bytes to the tail bucket (the memcpy / memset and the update of [used]). *)
Definition tail_write (b : blist) (bytes : list Z) : blist :=
  mkblist (bl_init b) (mkbucket (bk_size (bl_tail b)) (bk_data (bl_tail b) ++ bytes)) (bl_size b).

(** bucketlist.c:105-152 BucketList_Append, the loop; [data] = what is not copied yet. *)
Fixpoint append_loop (fuel : nat) (b : blist) (data : list Z) : option blist :=
  match fuel with
  | O => None
  | S f =>
    match data with
    | [] => Some b
    | _ =>
      let left := bk_size (bl_tail b) - Z.of_nat (length (bk_data (bl_tail b))) in
      let b1 := if left =? 0 then add_bucket b 4096 else b in
      let copying := Z.to_nat (Z.min (Z.of_nat (length data)) left) in
      append_loop f (tail_write b1 (firstn copying data)) (skipn copying data)
    end
  end.

(** bucketlist.c:109-151: BucketList_Append: [data = None] means that many zero bytes (data == NULL). *)
Definition blist_append (fuel : nat) (b : blist) (data : list Z) : option blist :=
  match append_loop fuel b data with
  | Some b' => Some (mkblist (bl_init b') (bl_tail b') (bl_size b' + Z.of_nat (length data)))
  | None => None
  end.

(** bucketlist.c:154-187 BucketList_Append2: also the place of the new bytes (bucket number, offset). *)
Definition blist_append2 (b : blist) (data : list Z) : blist * (nat * nat) :=
  let n := Z.of_nat (length data) in
  let b1 := if bk_size (bl_tail b) <? Z.of_nat (length (bk_data (bl_tail b))) + n
            then add_bucket b (Z.max 4096 n) else b in
  let b2 := tail_write b1 data in
  (mkblist (bl_init b2) (bl_tail b2) (bl_size b2 + n), (length (bl_init b1), length (bk_data (bl_tail b1)))).

(** bucketlist.c:186-208 BucketList_Copy: bytes written to [dest], given the buckets from the head. *)
Fixpoint copy_loop (buckets : list bucket) (len : Z) : list Z :=
  match buckets with
  | [] => []
  | k :: r =>
    if len <=? 0 then [] else
    let copying := Z.min len (Z.of_nat (length (bk_data k))) in
    firstn (Z.to_nat copying) (bk_data k) ++ copy_loop r (len - copying)
  end.
(** bucketlist.c:186-208 BucketList_Copy. *)
Definition blist_copy (b : blist) (len : Z) : list Z :=
  copy_loop (bl_init b ++ [bl_tail b]) (if len <? 0 then bl_size b else len).

(** * promise.c *)
(** promise.c:85-141: Writing [bytes] at [addr] (memcpy); memory is a list of bytes. *)
Definition mem_write (mem : list Z) (addr : nat) (bytes : list Z) : list Z :=
  firstn addr mem ++ bytes ++ skipn (addr + length bytes) mem.

(** promise.c:36-50 xPromise and its gap list: [Some data] when set; a gap is a destination and an optional callback id. *)
Record promise := mkpromise { pr_value : option (list Z); pr_gaps : list (nat * option Z) }.

(** promise.c:52-67 Promise_New. *)
Definition promise_new : promise := mkpromise None [].

(** promise.c:36-50: The world: memory and the log of callbacks that ran. *)
Record pworld := mkpw { pw_mem : list Z; pw_log : list Z }.

(** promise.c:36-50, the callback of a Gap. *)
Definition run_cb (cb : option Z) (log : list Z) : list Z :=
  match cb with Some id => log ++ [id] | None => log end.

(** promise.c:91-105, the loop over the gaps. *)
Fixpoint fill_gaps (gaps : list (nat * option Z)) (data : list Z) (w : pworld) : pworld :=
  match gaps with
  | [] => w
  | (dest, cb) :: r => fill_gaps r data (mkpw (mem_write (pw_mem w) dest data) (run_cb cb (pw_log w)))
  end.

(** promise.c:85-108 Promise_Resolve. *)
Definition promise_resolve (p : promise) (data : list Z) (w : pworld) : promise * pworld :=
  (mkpromise (Some data) [], fill_gaps (pr_gaps p) data w).

(** promise.c:115-141 Promise_Subscribe2 (allocation succeeds). *)
Definition promise_subscribe (p : promise) (dest : nat) (cb : option Z) (w : pworld) : promise * pworld :=
  match pr_value p with
  | None => (mkpromise None ((dest, cb) :: pr_gaps p), w)
  | Some data => (p, mkpw (mem_write (pw_mem w) dest data) (run_cb cb (pw_log w)))
  end.

(** promise.c:108-141: A sequence of subscriptions. *)
Fixpoint subscribes (p : promise) (subs : list (nat * option Z)) (w : pworld) : promise * pworld :=
  match subs with
  | [] => (p, w)
  | (d, cb) :: r => let (p', w') := promise_subscribe p d cb w in subscribes p' r w'
  end.
