(** Model of src/lib/objects/heap.c: the heap, its allocator and the moving collector. *)
From Coq Require Import ZArith List Lia Bool.
From Verif Require Import Base.
Import ListNotations.
Open Scope Z_scope.

(** An object (objects.h:43-46 Object plus what its TypeObject says about it). Objects are named by natural numbers: the
    identity of the memory block that holds them (that blocks do not overlap is property C22). [o_size] = type->size,
    [o_exts] = the sizes its walkexts method passes to the callback (extension blocks, with NULL ones left out), [o_refs] = the
    reference slots its walk method visits, in order, wherever they are stored (in the object or in an extension block, which
    is copied verbatim by memcpy), [o_data] = all other contents, [o_dtor] = type->free is not NULL. *)
Record obj := mkobj { o_type : nat; o_static : bool; o_size : Z; o_exts : list Z; o_refs : list (option nat); o_data : Z; o_dtor : bool }.

(** A block: an object, or a MovedObject left behind (objects.h:50-53, Object_MOVED line 86). *)
Inductive cell := CObj (o : obj) | CMoved (b : nat).

(** heap.c:93-116 xHeap. [h_next] = first block name never used; [h_oldnext] = its value when the running collection started
    (blocks named below it are in old_body/old_oflow). *)
Record heap := mkheap {
  h_mem : nat -> option cell; h_next : nat; h_size : Z; h_used : Z; h_total : Z; h_objcount : Z; h_pend : list nat;
  h_collecting : bool; h_failed : bool; h_moved : Z; h_oldnext : nat }.

(** heap.c:120-152 Heap_New; [mem] = the static objects, with names below [n]. *)
Definition heap_new (size : Z) (mem : nat -> option cell) (n : nat) : heap :=
  mkheap mem n (if size <? 0 then 65536 else size) 0 0 0 [] false false 0 0.

(** heap.c:452-529, a write to a block. *)
Definition set_mem (h : heap) (a : nat) (c : cell) : heap :=
  mkheap (fun x => if Nat.eqb x a then Some c else h_mem h x) (h_next h) (h_size h) (h_used h) (h_total h) (h_objcount h)
    (h_pend h) (h_collecting h) (h_failed h) (h_moved h) (h_oldnext h).
(** heap.c:452-529, collection_failed = true. *)
Definition set_failed (h : heap) : heap :=
  mkheap (h_mem h) (h_next h) (h_size h) (h_used h) (h_total h) (h_objcount h) (h_pend h) (h_collecting h) true (h_moved h)
    (h_oldnext h).
(** heap.c:280-356, the fields used and total. *)
Definition set_space (h : heap) (used total : Z) : heap :=
  mkheap (h_mem h) (h_next h) (h_size h) used total (h_objcount h) (h_pend h) (h_collecting h) (h_failed h) (h_moved h)
    (h_oldnext h).

(** heap.c:280-356: Result of Heap_RawMalloc: a block in the pool at an offset, an overflow block, refusal, signed overflow of used + size. *)
Inductive place := PPool (off : Z) | POflow | PRefused | PUB.

(** heap.c:288-291: rounding [used] up to a multiple of 8. *)
Definition up8 (x : Z) : Z := if x mod 8 =? 0 then x else x - x mod 8 + 8.

(** heap.c:280-329 Heap_RawMalloc. [total] is not checked for overflow (simplification). *)
Definition raw_malloc (h : heap) (size : Z) : heap * place :=
  let used := up8 (h_used h) in
  let padding := used - h_used h in
  if 2147483647 <? used + size then (h, PUB) else
  if h_size h <? used + size then
    if h_collecting h then (set_space h used (h_total h), PRefused)
    else (set_space h used (h_total h + (size + padding)), POflow)
  else (set_space h (used + size) (h_total h + (size + padding)), PPool used).

(** heap.c:209-278 Heap_Malloc of an object with contents [o] (filled in by the caller of Heap_Malloc). The growth of the array
    of pending destructors always succeeds (simplification). *)
Definition heap_malloc (h : heap) (o : obj) : option (heap * nat) :=
  match raw_malloc h (o_size o) with
  | (_, PUB) => None
  | (_, PRefused) => None
  | (h1, _) =>
    let a := h_next h1 in
    Some (mkheap (fun x => if Nat.eqb x a then Some (CObj o) else h_mem h1 x) (S a) (h_size h1) (h_used h1) (h_total h1)
      (h_objcount h1 + 1) (if o_dtor o then h_pend h1 ++ [a] else h_pend h1) (h_collecting h1) (h_failed h1) (h_moved h1)
      (h_oldnext h1), a)
  end.

(** heap.c:331-356 Heap_StartCollection. *)
Definition start_collection (h : heap) : heap :=
  mkheap (h_mem h) (h_next h) (h_size h) 0 0 (h_objcount h) (h_pend h) true false 0 (h_next h).

(** heap.c:427-529: Outcome of the collector: a result, an access to memory that is not an object, or out of fuel. *)
Inductive gres (A : Type) := GOk (x : A) | GUB | GFuel.
Arguments GOk {A}. Arguments GUB {A}. Arguments GFuel {A}.

(** heap.c:427-450 Heap_CollectExtension, for each extension in turn (Object_WalkExtensions, objects.c:297-301). *)
Fixpoint walk_exts (h : heap) (sizes : list Z) : gres heap :=
  match sizes with
  | [] => GOk h
  | s :: r =>
    if h_failed h then walk_exts h r else
    match raw_malloc h s with
    | (_, PUB) => GUB
    | (h1, PRefused) => walk_exts (set_failed h1) r
    | (h1, _) => walk_exts h1 r
    end
  end.

(** heap.c:452-529, the object behind a pointer. *)
Definition get_obj (h : heap) (a : nat) : option obj := match h_mem h a with Some (CObj o) => Some o | _ => None end.
(** heap.c:452-529, the object is moved with its type. *)
Definition with_type (o : obj) (t : nat) : obj :=
  mkobj t (o_static o) (o_size o) (o_exts o) (o_refs o) (o_data o) (o_dtor o).
(** objects.c:290-295, the slots the walk method visits. *)
Definition with_refs (o : obj) (rs : list (option nat)) : obj :=
  mkobj (o_type o) (o_static o) (o_size o) (o_exts o) rs (o_data o) (o_dtor o).

(** objects.c:290-296 Object_WalkReferences: each slot of the object is read, collected and written back. *)
Fixpoint walk_refs (cr : heap -> option nat -> gres (heap * option nat)) (h : heap) (b : nat) (is : list nat) : gres heap :=
  match is with
  | [] => GOk h
  | i :: r =>
    match get_obj h b with
    | Some o =>
      match nth_error (o_refs o) i with
      | Some slot =>
        match cr h slot with
        | GOk (h1, slot') =>
          match get_obj h1 b with
          | Some o1 => walk_refs cr (set_mem h1 b (CObj (with_refs o1 (upd (o_refs o1) i slot')))) b r
          | None => GUB
          end
        | GUB => GUB
        | GFuel => GFuel
        end
      | None => GUB
      end
    | None => GUB
    end
  end.

(** heap.c:509-528: type, extensions and children of the object at its (possibly new) location. *)
Definition collect_children (cr : heap -> option nat -> gres (heap * option nat)) (h : heap) (b : nat) : gres heap :=
  match get_obj h b with
  | None => GUB
  | Some o =>
    let after_type :=
      if Nat.eqb (o_type o) b then GOk h else
      match cr h (Some (o_type o)) with
      | GOk (h1, Some t) =>
        match get_obj h1 b with Some o1 => GOk (set_mem h1 b (CObj (with_type o1 t))) | None => GUB end
      | GOk (_, None) => GUB
      | GUB => GUB
      | GFuel => GFuel
      end in
    match after_type with
    | GOk h1 =>
      match walk_exts h1 (o_exts o) with
      | GOk h2 => walk_refs cr h2 b (seq 0 (length (o_refs o)))
      | GUB => GUB
      | GFuel => GFuel
      end
    | GUB => GUB
    | GFuel => GFuel
    end
  end.

(** heap.c:452-530 Heap_CollectReference: new heap and new contents of the slot. The C recursion is unbounded (simplification:
    the C stack does not overflow). *)
Fixpoint collect (fuel : nat) (h : heap) (r : option nat) : gres (heap * option nat) :=
  match fuel with
  | O => GFuel
  | S f =>
    match r with
    | None => GOk (h, None)
    | Some a =>
      if h_failed h then GOk (h, Some a) else
      match h_mem h a with
      | None => GUB
      | Some (CMoved b) => GOk (h, Some b)
      | Some (CObj o) =>
        if o_static o then
          match collect_children (collect f) h a with GOk h1 => GOk (h1, Some a) | GUB => GUB | GFuel => GFuel end
        else
          match raw_malloc h (o_size o) with
          | (_, PUB) => GUB
          | (h1, PRefused) => GOk (set_failed h1, Some a)
          | (h1, _) =>
            let b := h_next h1 in
            let h2 := mkheap (fun x => if Nat.eqb x b then Some (CObj o) else if Nat.eqb x a then Some (CMoved b) else h_mem h1 x)
              (S b) (h_size h1) (h_used h1) (h_total h1) (h_objcount h1) (h_pend h1) (h_collecting h1) (h_failed h1)
              (h_moved h1 + 1) (h_oldnext h1) in
            match collect_children (collect f) h2 b with GOk h3 => GOk (h3, Some b) | GUB => GUB | GFuel => GFuel end
          end
      end
    end
  end.

(** runtime.c:728-758: the root slots in the order visited (builtins, locals and closures of the frames, stack). *)
Fixpoint collect_roots (fuel : nat) (h : heap) (roots : list (option nat)) : gres (heap * list (option nat)) :=
  match roots with
  | [] => GOk (h, [])
  | r :: rs =>
    match collect fuel h r with
    | GOk (h1, r') => match collect_roots fuel h1 rs with GOk (h2, rs') => GOk (h2, r' :: rs') | GUB => GUB | GFuel => GFuel end
    | GUB => GUB
    | GFuel => GFuel
    end
  end.

(** heap.c:358-398 callDestructors: the new pending list, the contents of the destroyed objects in the order of their
    destruction, and the verdict. [err] = an error has already been reported to heap->error (by a refused allocation of this
    collection); [dok] tells which destructors succeed. The removed entry is replaced by the last one; after a failure (line
    376-377) the entry stays. The shrinking of the array is left out. *)
Fixpoint call_destructors (err : bool) (dok : Z -> bool) (fuel : nat) (mem : nat -> option cell) (pend : list nat) (i : nat)
  (log : list Z) : gres (list nat * list Z * bool) :=
  match fuel with
  | O => GFuel
  | S f =>
    match nth_error pend i with
    | None => GOk (pend, log, true)
    | Some a =>
      match mem a with
      | None => GUB
      | Some (CMoved b) => call_destructors err dok f mem (upd pend i b) (S i) log
      | Some (CObj o) =>
        if negb err && dok (o_data o) then
          call_destructors err dok f mem (removelast (upd pend i (last pend 0%nat))) i (log ++ [o_data o])
        else GOk (pend, log ++ [o_data o], false)
      end
    end
  end.

(** heap.c:410-425 Heap_StopCollection: the blocks of the old body and the old overflow list are freed, static objects stay;
    when a destructor fails nothing is freed and the heap stays in the collecting state (line 414-415). *)
Definition stop_collection (dok : Z -> bool) (h : heap) : gres (heap * bool * list Z) :=
  match call_destructors (h_failed h) dok (S (length (h_pend h))) (h_mem h) (h_pend h) 0 [] with
  | GOk (pend, log, true) =>
    let mem a := if Nat.ltb a (h_oldnext h)
                 then match h_mem h a with Some (CObj o) => if o_static o then Some (CObj o) else None | _ => None end
                 else h_mem h a in
    GOk (mkheap mem (h_next h) (h_size h) (h_used h) (h_total h) (h_moved h) pend false (h_failed h) (h_moved h) (h_oldnext h),
      negb (h_failed h), log)
  | GOk (pend, log, false) =>
    GOk (mkheap (h_mem h) (h_next h) (h_size h) (h_used h) (h_total h) (h_objcount h) pend (h_collecting h) (h_failed h)
      (h_moved h) (h_oldnext h), false, log)
  | GUB => GUB
  | GFuel => GFuel
  end.

(** runtime.c:728-758 Runtime_CollectGarbage: heap, roots, verdict and destroyed objects. *)
Definition collect_garbage (dok : Z -> bool) (fuel : nat) (h : heap) (roots : list (option nat))
  : gres (heap * list (option nat) * bool * list Z) :=
  match collect_roots fuel (start_collection h) roots with
  | GOk (h1, roots') =>
    match stop_collection dok h1 with
    | GOk (h2, ok, log) => GOk (h2, roots', ok, log)
    | GUB => GUB
    | GFuel => GFuel
    end
  | GUB => GUB
  | GFuel => GFuel
  end.

(** heap.c:153-186 Heap_Free: the destructor of every pending entry is called on its block (errors are ignored); a block that is
    not an object any more (freed, or a MovedObject, whose third word is not the object's first field) is an error. *)
Fixpoint free_pend (mem : nat -> option cell) (pend : list nat) : gres (list Z) :=
  match pend with
  | [] => GOk []
  | a :: r =>
    match mem a with
    | Some (CObj o) => match free_pend mem r with GOk l => GOk (o_data o :: l) | GUB => GUB | GFuel => GFuel end
    | _ => GUB
    end
  end.
(** heap.c:154-187 Heap_Free. *)
Definition heap_free (h : heap) : gres (list Z) := free_pend (h_mem h) (h_pend h).
