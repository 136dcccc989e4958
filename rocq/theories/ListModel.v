(** Model of src/lib/objects/o_list.c. *)
From Coq Require Import ZArith List Lia Bool.
From Verif Require Import Base StringModel.
Import ListNotations.
Open Scope Z_scope.

Section ListObj.
Context {A : Type}.

(** o_list.c:36-40 ListObject. [l_cells] is the array [vals] ([None] = never written); its length is the number of cells
    allocated, [l_cap] and [l_count] are the C fields. *)
Record lobj := mklobj { l_cap : Z; l_count : Z; l_cells : list (option A) }.

(** o_list.c:149-172 Object_NewList. *)
Definition new_list (capacity : Z) : lobj :=
  let cap := if capacity <? 8 then 8 else capacity in
  mklobj cap 0 (repeat None (Z.to_nat cap)).

(** o_list.c:256-296: A write [vals[i] = v]. *)
Definition cell_write (cells : list (option A)) (i : Z) (v : A) : res (list (option A)) :=
  if (i <? 0) || (Z.of_nat (length cells) <=? i) then RUB else ROk (upd cells (Z.to_nat i) (Some v)).

(** o_list.c:204-230: A read [vals[i]]; reading a cell never written is undefined. *)
Definition cell_read (cells : list (option A)) (i : Z) : res A :=
  match zget cells i with Some (Some v) => ROk v | _ => RUB end.

(** o_list.c:204-230 select_, for an integer key (64-bit); the key is converted to [int] (line 219). *)
Definition list_select (l : lobj) (key : Z) : res A :=
  let idx := wrap32 key in
  if (idx <? 0) || (l_count l <=? idx) then RErr else cell_read (l_cells l) idx.

(** o_list.c:245-248, the copy loop of grow, for [n] more elements from index [i]. *)
Fixpoint copy_cells (n : nat) (i : Z) (src dst : list (option A)) : res (list (option A)) :=
  match n with
  | O => ROk dst
  | S n' =>
    match zget src i with
    | None => RUB
    | Some c =>
      if Z.of_nat (length dst) <=? i then RUB else copy_cells n' (i + 1) src (upd dst (Z.to_nat i) c)
    end
  end.

(** o_list.c:232-254 calc_new_capacity, grow. *)
Definition list_grow (l : lobj) : res lobj :=
  let cap := wrap32 (l_cap l * 2) in
  match copy_cells (Z.to_nat (l_count l)) 0 (l_cells l) (repeat None (Z.to_nat cap)) with
  | ROk cells => ROk (mklobj cap (l_count l) cells)
  | RErr => RErr
  | RUB => RUB
  end.

(** o_list.c:256-296 insert, for an integer key; the key is converted to [int] (line 273). *)
Definition list_insert (l : lobj) (key : Z) (v : A) : res lobj :=
  let idx := wrap32 key in
  if (idx <? 0) || (l_count l <? idx) then RErr else
  if idx =? l_count l then
    match (if l_count l =? l_cap l then list_grow l else ROk l) with
    | ROk l' =>
      match cell_write (l_cells l') (l_count l') v with
      | ROk cells => ROk (mklobj (l_cap l') (l_count l' + 1) cells)
      | RErr => RErr | RUB => RUB
      end
    | RErr => RErr | RUB => RUB
    end
  else
    match cell_write (l_cells l) idx v with
    | ROk cells => ROk (mklobj (l_cap l) (l_count l) cells)
    | RErr => RErr | RUB => RUB
    end.

(** o_list.c:298-303 count. *)
Definition list_count (l : lobj) : Z := l_count l.

(** o_list.c:174-187 Object_NewList2. *)
Definition new_list2 (items : list A) : lobj :=
  let l := new_list (Z.of_nat (length items)) in
  mklobj (l_cap l) (Z.of_nat (length items)) (map Some items ++ skipn (length items) (l_cells l)).

(** o_list.c:131-137, the loop of copy; [cp] is Object_Copy on elements. *)
Fixpoint copy_list_loop (cp : A -> res A) (n : nat) (i : Z) (src dst : list (option A)) : res (list (option A)) :=
  match n with
  | O => ROk dst
  | S n' =>
    match cell_read src i with
    | ROk v =>
      match cp v with
      | ROk v' =>
        match cell_write dst i v' with
        | ROk dst' => copy_list_loop cp n' (i + 1) src dst'
        | RErr => RErr | RUB => RUB
        end
      | RErr => RErr | RUB => RUB
      end
    | RErr => RErr | RUB => RUB
    end
  end.

(** o_list.c:124-142 copy. *)
Definition list_copy (cp : A -> res A) (l : lobj) : res lobj :=
  let l2 := new_list (l_count l) in
  match copy_list_loop cp (Z.to_nat (l_count l)) 0 (l_cells l) (l_cells l2) with
  | ROk cells => ROk (mklobj (l_cap l2) (l_count l) cells)
  | RErr => RErr | RUB => RUB
  end.

(** o_list.c:107-122 hash: [None] when an element has no hash; the sum wraps (signed overflow, two's complement assumed). *)
Definition list_hash (h : A -> option Z) (elems : list A) : option Z :=
  fold_left (fun acc v => match acc, h v with Some a, Some b => Some (wrap32 (a + b)) | _, _ => None end) elems (Some 0).

(** o_list.c:256-296: A history of stores: the final list and, per store, whether it was accepted. *)
Fixpoint list_run (l : lobj) (ops : list (Z * A)) : res (lobj * list bool) :=
  match ops with
  | [] => ROk (l, [])
  | (k, v) :: r =>
    match list_insert l k v with
    | ROk l' => match list_run l' r with ROk (l2, bs) => ROk (l2, true :: bs) | RErr => RErr | RUB => RUB end
    | RErr => match list_run l r with ROk (l2, bs) => ROk (l2, false :: bs) | RErr => RErr | RUB => RUB end
    | RUB => RUB
    end
  end.

End ListObj.
Arguments lobj : clear implicits.

(** o_list.c:330-345, the loop of Object_NewListOfConsecutiveIntegers. *)
Fixpoint consec_loop (n : nat) (i first : Z) (l : lobj Z) : res (lobj Z) :=
  match n with
  | O => ROk l
  | S n' =>
    match list_insert l i (if first =? 0 then i else first + i) with
    | ROk l' => consec_loop n' (i + 1) first l'
    | RErr => RErr | RUB => RUB
    end
  end.

(** o_list.c:320-347 Object_NewListOfConsecutiveIntegers. *)
Definition consecutive (first last : Z) : res (lobj Z) :=
  let count := last - first + 1 in
  consec_loop (Z.to_nat count) 0 first (new_list count).

(** o_list.c:97-105 keysof. *)
Definition list_keysof {A} (l : lobj A) : res (lobj Z) := consecutive 0 (l_count l - 1).
