(** Extension blocks: what the objects ask the heap for, and what their walkexts methods have the collector copy. *)
From Coq Require Import ZArith List Lia Bool.
From Verif Require Import Base StringModel MapModel ListModel.
Import ListNotations.
Open Scope Z_scope.

(** objects.h:45-48 Object: a pointer and an unsigned int, padded. *)
Definition sizeof_object : Z := 16.
(** objects.h:45-48, a pointer to an Object on a 64-bit machine. *)
Definition sizeof_ref : Z := 8.
(** o_list.c:36-40 ListObject: Object, two ints, a pointer. *)
Definition sizeof_list : Z := 32.
(** o_map.c:35-41 MapObject: Object, two ints, three pointers. *)
Definition sizeof_map : Z := 48.
(** o_string.c:38-43 StringObject: Object, two ints, a pointer. *)
Definition sizeof_string : Z := 32.

(** o_list.c:149-172 Object_NewList and 237-254 grow: the size of the block [vals], whose entries are [l_cells]. *)
Definition list_blocks {A} (l : lobj A) : list Z := [sizeof_ref * Z.of_nat (length (l_cells l))].
(** o_list.c:197-202 walkexts: sizeof(Object), not sizeof(Object* ). *)
Definition list_walkexts {A} (l : lobj A) : list Z := [sizeof_object * l_cap l].

(** o_map.c:204-215 walkexts: the blocks [mapper], [keys], [vals]; Object_NewMap (155-191) and grow (270-328) ask for these sizes. *)
Definition map_walkexts {K V} (m : hmap K V) : list Z :=
  [4 * msize m; sizeof_ref * calc_capacity (msize m); sizeof_ref * calc_capacity (msize m)].

(** o_string.c:231-236 walkexts: the block [body], allocated by Object_FromString (137-171). *)
Definition string_walkexts (s : strobj) : list Z := [Z.of_nat (length (s_bytes s)) + 1].
