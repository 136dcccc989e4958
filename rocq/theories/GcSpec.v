(** Specification of garbage collection: reachability, renaming, well-formed heaps. *)
From Coq Require Import ZArith List Lia Bool.
From Verif Require Import Base GcModel.
Import ListNotations.
Open Scope Z_scope.

(** Objects reachable from the roots through types and reference slots. *)
Inductive reach (mem : nat -> option cell) (roots : list (option nat)) : nat -> Prop :=
| reach_root : forall a, In (Some a) roots -> reach mem roots a
| reach_type : forall a o, reach mem roots a -> mem a = Some (CObj o) -> reach mem roots (o_type o)
| reach_ref : forall a o b, reach mem roots a -> mem a = Some (CObj o) -> In (Some b) (o_refs o) -> reach mem roots b.

(** An object with every reference renamed and everything else unchanged. *)
Definition rename (f : nat -> nat) (o : obj) : obj :=
  mkobj (f (o_type o)) (o_static o) (o_size o) (o_exts o) (map (option_map f) (o_refs o)) (o_data o) (o_dtor o).

Definition is_obj (mem : nat -> option cell) (a : nat) : Prop := exists o, mem a = Some (CObj o).
(** A live block of the collected heap (not a static object). *)
Definition dynamic (mem : nat -> option cell) (a : nat) : Prop := exists o, mem a = Some (CObj o) /\ o_static o = false.

(** Heap states between collections. Static objects are the type objects and the singletons none, true, false, any: they have no
    reference slots and their type is a static object that is its own type (objects.c:39-60 t_type). *)
Record hwf (h : heap) : Prop := {
  w_lt : forall a c, h_mem h a = Some c -> (a < h_next h)%nat;
  w_obj : forall a c, h_mem h a = Some c -> is_obj (h_mem h) a;
  w_type : forall a o, h_mem h a = Some (CObj o) -> is_obj (h_mem h) (o_type o);
  w_refs : forall a o b, h_mem h a = Some (CObj o) -> In (Some b) (o_refs o) -> is_obj (h_mem h) b;
  w_static : forall a o, h_mem h a = Some (CObj o) -> o_static o = true ->
     o_refs o = [] /\ o_exts o = [] /\ o_dtor o = false /\
     exists ot, h_mem h (o_type o) = Some (CObj ot) /\ o_static ot = true /\ o_type ot = o_type o;
  w_size : 0 <= h_size h <= 2 ^ 29;
  w_sizes : forall a o, h_mem h a = Some (CObj o) -> 0 <= o_size o <= 2 ^ 29 /\ Forall (fun s => 0 <= s <= 2 ^ 29) (o_exts o);
  w_pend : NoDup (h_pend h);
  w_pend_iff : forall a, In a (h_pend h) <-> exists o, h_mem h a = Some (CObj o) /\ o_static o = false /\ o_dtor o = true;
  w_coll : h_collecting h = false
}.

(** Space needed to copy an object: itself and its extension blocks, each with at most 7 bytes of padding. *)
Definition copy_cost (o : obj) : Z := (o_size o + 7) + fold_right (fun s n => (s + 7) + n) 0 (o_exts o).
Definition cost_at (mem : nat -> option cell) (a : nat) : Z := match mem a with Some (CObj o) => copy_cost o | _ => 0 end.
Definition total_cost (mem : nat -> option cell) (l : list nat) : Z := fold_right (fun a s => cost_at mem a + s) 0 l.

(** What a program does to the heap between collections. [born] = contents of the objects with a finalizer created so far, [log] =
    contents of those finalized so far. Objects are filled in when created and their references can be overwritten later; the
    finalizable contents of an object (stream, payload, executable) never change. *)
Definition static_heap (mem : nat -> option cell) (n : nat) : Prop :=
  forall a c, mem a = Some c -> (a < n)%nat /\ exists o, c = CObj o /\ o_static o = true /\ o_refs o = [] /\ o_exts o = [] /\
    o_dtor o = false /\ 0 <= o_size o <= 2 ^ 29 /\
    exists ot, mem (o_type o) = Some (CObj ot) /\ o_static ot = true /\ o_type ot = o_type o.

Definition obj_ok (h : heap) (o : obj) : Prop :=
  o_static o = false /\ is_obj (h_mem h) (o_type o) /\ (forall b, In (Some b) (o_refs o) -> is_obj (h_mem h) b) /\
  0 <= o_size o <= 2 ^ 29 /\ Forall (fun s => 0 <= s <= 2 ^ 29) (o_exts o).

Inductive history (dok : Z -> bool) : heap -> list Z -> list Z -> Prop :=
| hi_new : forall size mem n, size <= 2 ^ 29 -> static_heap mem n -> history dok (heap_new size mem n) [] []
| hi_alloc : forall h born log o h' a, history dok h born log -> obj_ok h o -> heap_malloc h o = Some (h', a) ->
    history dok h' (if o_dtor o then o_data o :: born else born) log
| hi_write : forall h born log a o o', history dok h born log -> h_mem h a = Some (CObj o) -> o_static o = false ->
    obj_ok h o' -> o_dtor o' = o_dtor o -> (o_dtor o = true -> o_data o' = o_data o) ->
    history dok (set_mem h a (CObj o')) born log
| hi_collect : forall h born log roots fuel h' roots' l, history dok h born log ->
    (forall a, In (Some a) roots -> is_obj (h_mem h) a) ->
    collect_garbage dok fuel h roots = GOk (h', roots', true, l) -> history dok h' born (log ++ l).

(** Consecutive requests to Heap_RawMalloc. *)
Fixpoint raw_run (h : heap) (sizes : list Z) : list (Z * place) :=
  match sizes with
  | [] => []
  | s :: r => let (h1, p) := raw_malloc h s in (s, p) :: raw_run h1 r
  end.
(** The pool blocks handed out, as (offset, size). *)
Definition pool_blocks (l : list (Z * place)) : list (Z * Z) :=
  flat_map (fun x => match x with (s, PPool off) => [(off, s)] | _ => [] end) l.
Definition apart (x y : Z * Z) : Prop := fst x + snd x <= fst y \/ fst y + snd y <= fst x.
