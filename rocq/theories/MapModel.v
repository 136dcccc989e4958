(** Model of src/lib/objects/o_map.c: the open-addressing hash map.
    The functions are generic in the key and value types; [hash] is Object_Hash (a 32-bit signed integer) and [cmp] is
    Object_Compare ([None] = error reported). [fuel] bounds the probe loops; running out of it is the explicit
    outcome [..Timeout]. *)
From Coq Require Import ZArith List Lia Bool.
From Verif Require Import Base.
Import ListNotations.
Open Scope Z_scope.

Section Map.
Context {K V : Type}.
Variable hash : K -> Z.
Variable cmp : K -> K -> option bool.

(** o_map.c:35-41 MapObject: [count] is the length of [m_keys]; only the first [count] cells of the key and value arrays
    are represented. *)
Record hmap := mkmap { m_mapper : list Z; m_keys : list K; m_vals : list V }.

(** o_map.c:35-41: [map->mapper_size]. *)
Definition msize (m : hmap) : Z := Z.of_nat (length (m_mapper m)).

(** o_map.c:105-108 calc_capacity: [mapper_size * 2.0 / 3.0] truncated; for a power of two the division is never exact,
    so rounding in floating point cannot reach the next integer and the result is the floor. *)
Definition calc_capacity (mapper_size : Z) : Z := mapper_size * 2 / 3.

(** o_map.c:164-166, the loop of Object_NewMap that picks the mapper size. *)
Fixpoint new_mapper_size (fuel : nat) (size num : Z) : Z :=
  match fuel with
  | O => size
  | S f => if calc_capacity size <? num then new_mapper_size f (size * 2) num else size
  end.

(** o_map.c:155-191 Object_NewMap ([num] < 0 means 0; the loop doubles at most 30 times for an [int]). *)
Definition new_map (num : Z) : hmap :=
  let size := new_mapper_size 30 8 (if num <? 0 then 0 else num) in
  mkmap (repeat (-1) (Z.to_nat size)) [] [].

(** The next probe in select_ (o_map.c:262-263) and insert (o_map.c:388-389): [pert] is unsigned. The product is an [int]
    in C; it cannot overflow for tables of fewer than 2^28 slots (simplification: larger tables not considered). *)
Definition probe_u (mask : Z) (st : Z * Z) : Z * Z :=
  let (i, pert) := st in
  let pert' := Z.shiftr pert 5 in
  (Z.land (u32 (i * 5 + pert' + 1)) mask, pert').

(** The next probe in grow (o_map.c:317-318): [pert] and [mask] are signed ints. *)
Definition probe_s (mask : Z) (st : Z * Z) : Z * Z :=
  let (j, pert) := st in
  let pert' := Z.shiftr pert 5 in
  (Z.land (wrap32 (j * 5 + pert' + 1)) mask, pert').

(** o_map.c:217-268 and 330-394: Result of the probe loop shared by select_ and insert. *)
Inductive slot := Found (k : nat) | Free (i : nat) | SlotErr | SlotUB | SlotTimeout.

(** o_map.c:234-264 (select_) and o_map.c:351-390 (insert): the two loops walk the same probe sequence and differ only
    in what they do when they stop. *)
Fixpoint find_loop (fuel : nat) (m : hmap) (key : K) (st : Z * Z) : slot :=
  match fuel with
  | O => SlotTimeout
  | S f =>
    match zget (m_mapper m) (fst st) with
    | None => SlotUB
    | Some k =>
      if k =? -1 then Free (Z.to_nat (fst st)) else
      match zget (m_keys m) k with
      | None => SlotUB
      | Some key' =>
        match cmp key key' with
        | Some true => Found (Z.to_nat k)
        | None => SlotErr
        | Some false => find_loop f m key (probe_u (msize m - 1) st)
        end
      end
    end
  end.

(** o_map.c:228-232 and 345-349: start of the probe sequence. *)
Definition start_u (m : hmap) (h : Z) : Z * Z :=
  (Z.land (u32 h) (msize m - 1), u32 h).

(** o_map.c:230-262, the loop while(1): The probe sequence becomes periodic after 7 steps with period [msize]: this fuel is enough whenever a free slot exists
    (lemma [find_no_timeout]), and if it is not enough the C loop never ends. *)
Definition probe_fuel (m : hmap) : nat := (length (m_mapper m) + 8)%nat.

(** o_map.c:217-268 and 330-394, the probe loop. *)
Definition find_slot (m : hmap) (key : K) : slot :=
  find_loop (probe_fuel m) m key (start_u m (hash key)).

(** o_map.c:217-268: Result of select_: [SelNone]: NULL without error. *)
Inductive selres := SelVal (v : V) | SelNone | SelErr | SelUB | SelTimeout.

(** o_map.c:217-268 select_. *)
Definition map_select (m : hmap) (key : K) : selres :=
  match find_slot m key with
  | Found k => match nth_error (m_vals m) k with Some v => SelVal v | None => SelUB end
  | Free _ => SelNone
  | SlotErr => SelErr
  | SlotUB => SelUB
  | SlotTimeout => SelTimeout
  end.

(** o_map.c:306-319, the loop of grow that looks for a free slot. *)
Fixpoint rehash_loop (fuel : nat) (mapper : list Z) (mask : Z) (st : Z * Z) : slot :=
  match fuel with
  | O => SlotTimeout
  | S f =>
    match zget mapper (fst st) with
    | None => SlotUB
    | Some k => if k =? -1 then Free (Z.to_nat (fst st)) else rehash_loop f mapper mask (probe_s mask st)
    end
  end.

(** o_map.c:294-320: re-insertion of the keys [i, i+1, ...]. *)
Fixpoint rehash_all (fuel : nat) (mapper : list Z) (mask : Z) (i : nat) (keys : list K) : option (list Z) + unit :=
  match keys with
  | [] => inl (Some mapper)
  | key :: rest =>
    let h := hash key in
    match rehash_loop fuel mapper mask (Z.land h mask, h) with
    | Free j => rehash_all fuel (upd mapper j (Z.of_nat i)) mask (S i) rest
    | SlotTimeout => inr tt
    | _ => inl None
    end
  end.

(** o_map.c:270-394: Result of grow / insert. *)
Inductive insres := InsOk (m : hmap) | InsErr | InsUB | InsTimeout.

(** o_map.c:270-328 grow. [fuel] bounds each inner search loop. *)
Definition grow_fuel (fuel : nat) (m : hmap) : insres :=
  let n := (2 * length (m_mapper m))%nat in
  match rehash_all fuel (repeat (-1) n) (Z.of_nat n - 1) 0 (m_keys m) with
  | inl (Some mapper) => InsOk (mkmap mapper (m_keys m) (m_vals m))
  | inl None => InsUB
  | inr _ => InsTimeout
  end.

(** o_map.c:270-328. *)
Definition grow (m : hmap) : insres := grow_fuel (2 * length (m_mapper m) + 8) m.

(** o_map.c:351-393, the store part of insert; [copy_key] is the key as copied by Object_Copy (o_map.c:358). *)
Definition put (m : hmap) (key copy_key : K) (val : V) : insres :=
  match find_slot m key with
  | Found k => InsOk (mkmap (m_mapper m) (m_keys m) (upd (m_vals m) k val))
  | Free i => InsOk (mkmap (upd (m_mapper m) i (Z.of_nat (length (m_keys m)))) (m_keys m ++ [copy_key]) (m_vals m ++ [val]))
  | SlotErr => InsErr
  | SlotUB => InsUB
  | SlotTimeout => InsTimeout
  end.

(** o_map.c:330-394 insert (for keys whose copy is the key itself, which holds for all scalar keys). *)
Definition map_insert (m : hmap) (key : K) (val : V) : insres :=
  if Z.of_nat (length (m_keys m)) =? calc_capacity (msize m) then
    match grow m with
    | InsOk m' => put m' key key val
    | r => r
    end
  else put m key key val.

(** o_map.c:396-401 count. *)
Definition map_count (m : hmap) : Z := Z.of_nat (length (m_keys m)).

(** o_map.c:70-78 keysof. *)
Definition map_keys (m : hmap) : list K := m_keys m.

(** o_map.c:330-394: A history of stores. *)
Fixpoint map_inserts (m : hmap) (l : list (K * V)) : insres :=
  match l with
  | [] => InsOk m
  | (k, v) :: r => match map_insert m k v with
                   | InsOk m' => map_inserts m' r
                   | e => e
                   end
  end.

End Map.
Arguments hmap : clear implicits.
Arguments selres : clear implicits.
Arguments insres : clear implicits.
