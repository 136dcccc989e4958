(** The heap of objects as the interpreter uses it, and the object operations (src/lib/objects/objects.c) on it.
    Simplifications: the store is unbounded and never collected (C19 justifies leaving the collector out; running out
    of memory is out of scope); buffers, files, directories and the contents of static maps are abstract ([env]); the
    operations that recurse through objects (hash, copy, type test) are given enough fuel for every acyclic structure,
    and running out of it is the explicit outcome [OLoop] (the C recursion would not end). *)
From Coq Require Import ZArith List Lia Bool.
From Verif Require Import Base HashModel FloatModel StringModel ValueModel MapModel ListModel.
Import ListNotations.
Open Scope Z_scope.

(** objects.c:108-301: Outcomes: a value; an error reported; undefined behaviour; unbounded recursion or looping inside one operation;
    out of evaluation fuel (only used by the evaluator of SrcModel). *)
Inductive out (A : Type) := OOk (a : A) | OErr | OUB | OLoop | OFuel.
Arguments OOk {A} a. Arguments OErr {A}. Arguments OUB {A}. Arguments OLoop {A}. Arguments OFuel {A}.

(** objects.c:108-301, the early returns after a failed call. *)
Definition obind {A B} (x : out A) (f : A -> out B) : out B :=
  match x with OOk a => f a | OErr => OErr | OUB => OUB | OLoop => OLoop | OFuel => OFuel end.

(** objects.c:108-301. *)
Definition of_res {A} (x : res A) : out A := match x with ROk a => OOk a | RErr => OErr | RUB => OUB end.

(** Objects that are references: o_list.c:36-40, o_map.c:35-41, o_closure.c:34-38, run.c:30-39 FunctionObject,
    run.c:196-205 NativeFunctionObject, o_nullable.c, o_sum.c, o_staticmap.c:55-59.
    A function's fields (executable, index, argc) are replaced by a handle [code] into the table of function codes of the
    running state, so that the same store serves the bytecode interpreter and the evaluator of SrcModel. *)
Inductive hobj :=
| OList (l : lobj value)
| OMap (m : hmap value value)
| OClosure (prev : option value) (vars : value)
| OFun (code : nat) (closure : value)
| ONative (id : nat) (argc : Z)
| ONullable (item : value)
| OSum (a b : value)
| OSMap (id : nat)
| OForeign (t : tyname) (id : nat).

(** error.h:46-54: The store, and the [occurred] flag of the interpreter's Error structure (error.h) for errors that were reported by an
    operation that nevertheless went on. *)
Record mem := mkmem { m_objs : list hobj; m_pend : bool }.

(** error.h:46-54, the field [occurred]. *)
Definition set_pend (m : mem) (p : bool) : mem := mkmem (m_objs m) p.

(** objects.c:84-90 Object_GetType. *)
Definition hobj_type (o : hobj) : tyname :=
  match o with
  | OList _ => TyList | OMap _ => TyMap | OClosure _ _ => TyClosure | OFun _ _ => TyFun | ONative _ _ => TyNFun
  | ONullable _ => TyNullable | OSum _ _ => TySum | OSMap _ => TySMap | OForeign t _ => t
  end.

(** objects.c:84-90 Object_GetType. *)
Definition rt_of (objs : list hobj) (l : nat) : tyname :=
  match nth_error objs l with Some o => hobj_type o | None => TyNone end.

(** Heap_Malloc (heap.c:209-278): a new object at a fresh location. *)
Definition alloc (m : mem) (o : hobj) : value * mem :=
  (VRef (length (m_objs m)), mkmem (m_objs m ++ [o]) (m_pend m)).

(** o_list.c:256-296, o_map.c:330-394, a write to an object. *)
Definition set_obj (m : mem) (l : nat) (o : hobj) : mem := mkmem (upd (m_objs m) l o) (m_pend m).

(** runtime.c:74-90: Everything outside the modelled part: natives (src/lib/builtins), selection from static maps, selection from and insertion
    into the remaining types, and the object runtime->builtins. *)
Record env := mkenv {
  e_native : nat -> list value -> mem -> out (list value * mem);
  e_smap : nat -> value -> mem -> out (option value * mem);
  e_fselect : tyname -> nat -> value -> mem -> out (option value * mem);
  e_finsert : tyname -> nat -> value -> value -> mem -> out mem;
  e_builtins : option value
}.

(** ** Object_Hash (objects.c:108-114). A type without a hash function: call through a NULL pointer. *)

(** The sum loops of o_list.c:107-122 and o_map.c:137-148 (signed overflow: two's complement assumed). *)
Fixpoint hash_sum (h : value -> out Z) (vs : list value) (acc : Z) : out Z :=
  match vs with
  | [] => OOk acc
  | v :: r => obind (h v) (fun z => hash_sum h r (wrap32 (acc + z)))
  end.

(** o_list.c:107-122: The values held by a list: its first [count] cells (a cell never written is not a value). *)
Fixpoint some_all {A} (l : list (option A)) : option (list A) :=
  match l with
  | [] => Some []
  | Some a :: r => match some_all r with Some x => Some (a :: x) | None => None end
  | None :: _ => None
  end.
(** o_list.c:107-122. *)
Definition list_items (l : lobj value) : option (list value) := some_all (firstn (Z.to_nat (l_count l)) (l_cells l)).

(** objects.c:108-114 Object_Hash, o_list.c:107-122, o_map.c:137-148, o_staticmap.c:81-85. *)
Fixpoint obj_hash (n : nat) (objs : list hobj) (v : value) : out Z :=
  match v with
  | VRef l =>
    match n with
    | O => OLoop
    | S n' =>
      match nth_error objs l with
      | Some (OList lo) =>
        match list_items lo with
        | Some vs => hash_sum (obj_hash n' objs) vs 0
        | None => OUB
        end
      | Some (OMap mo) => obind (hash_sum (obj_hash n' objs) (m_keys mo) 0) (hash_sum (obj_hash n' objs) (m_vals mo))
      | Some (OSMap _) => OOk 0
      | _ => OUB
      end
    end
  | _ => match scalar_hash v with Some z => OOk z | None => OUB end
  end.

(** objects.c:108-114, bound on the C recursion: a deeper one meets an object twice and never ends. *)
Definition depth (objs : list hobj) : nat := S (length objs).
(** objects.c:108-114 Object_Hash. *)
Definition hash_of (objs : list hobj) (v : value) : out Z := obj_hash (depth objs) objs v.
(** objects.c:108-114 Object_Hash, when it is known to answer. *)
Definition hash_or0 (objs : list hobj) (v : value) : Z := match hash_of objs v with OOk z => z | _ => 0 end.

(** Object_Compare as the probe loops of o_map.c use it (lines 245-258, 369-384): after a comparison that is not true, an error
    already pending stops the search. *)
Definition map_cmp (m : mem) (a b : value) : option bool :=
  match obj_compare (rt_of (m_objs m)) a b with
  | Some true => Some true
  | Some false => if m_pend m then None else Some false
  | None => None
  end.

(** o_map.c:217-268 select_ on the store. *)
Definition map_sel (m : mem) (mo : hmap value value) (key : value) : out (option value * mem) :=
  obind (hash_of (m_objs m) key) (fun _ =>
  match map_select (hash_or0 (m_objs m)) (map_cmp m) mo key with
  | SelVal v => OOk (Some v, m)
  | SelNone => OOk (None, m)
  | SelErr => OOk (None, set_pend m true)
  | SelUB => OUB
  | SelTimeout => OLoop
  end).

(** All the hashes grow (o_map.c:294-320) recomputes exist. *)
Fixpoint hashes_ok (objs : list hobj) (ks : list value) : out unit :=
  match ks with
  | [] => OOk tt
  | k :: r => obind (hash_of objs k) (fun _ => hashes_ok objs r)
  end.

(** o_map.c:330-394 insert on the store, for the map object at [l]; [cp] is Object_Copy. *)
Definition map_store (cp : mem -> value -> out (value * mem)) (m : mem) (l : nat) (mo : hmap value value)
           (key val : value) : out mem :=
  let hash := hash_or0 (m_objs m) in
  obind (if map_count mo =? calc_capacity (msize mo) then
           obind (hashes_ok (m_objs m) (m_keys mo)) (fun _ =>
           match grow hash mo with InsOk mo' => OOk mo' | InsErr => OErr | InsUB => OUB | InsTimeout => OLoop end)
         else OOk mo) (fun mo' =>
  obind (hash_of (m_objs m) key) (fun _ =>
  let putk m2 key' :=
    match put hash (map_cmp m) mo' key key' val with
    | InsOk mo2 => OOk (set_obj m2 l (OMap mo2))
    | InsErr => OErr | InsUB => OUB | InsTimeout => OLoop
    end in
  match find_slot hash (map_cmp m) mo' key with
  | Free _ => obind (cp m key) (fun r => putk (snd r) (fst r))
  | _ => putk m key
  end)).

(** o_list.c:131-137, the loop of copy: each element is copied, and an error pending stops the copy. *)
Fixpoint copy_all (cp : mem -> value -> out (value * mem)) (m : mem) (vs : list value) : out (list value * mem) :=
  match vs with
  | [] => OOk ([], m)
  | v :: r =>
    obind (cp m v) (fun x =>
    if m_pend (snd x) then OErr else
    obind (copy_all cp (snd x) r) (fun y => OOk (fst x :: fst y, snd y)))
  end.

(** o_map.c:116-132, the loop of copy: the copies of key and value are inserted, which copies the key again. *)
Fixpoint copy_pairs (cp : mem -> value -> out (value * mem)) (m : mem) (l : nat) (kvs : list (value * value)) : out mem :=
  match kvs with
  | [] => OOk m
  | (k, v) :: r =>
    obind (cp m k) (fun k2 =>
    obind (cp (snd k2) v) (fun v2 =>
    match nth_error (m_objs (snd v2)) l with
    | Some (OMap mo) => obind (map_store cp (snd v2) l mo (fst k2) (fst v2)) (fun m2 => copy_pairs cp m2 l r)
    | _ => OUB
    end))
  end.

(** Object_Copy (objects.c:116-131): a type without copy is an error. *)
Fixpoint obj_copy (n : nat) (m : mem) (v : value) : out (value * mem) :=
  match v with
  | VRef l =>
    match n with
    | O => OLoop
    | S n' =>
      match nth_error (m_objs m) l with
      | Some (OList lo) =>
        match list_items lo with
        | Some vs =>
          let (v2, m2) := alloc m (OList (new_list (l_count lo))) in
          obind (copy_all (obj_copy n') m2 vs) (fun x =>
          OOk (v2, set_obj (snd x) (length (m_objs m)) (OList (new_list2 (fst x)))))
        | None => OUB
        end
      | Some (OMap mo) =>
        let (v2, m2) := alloc m (OMap (new_map (map_count mo))) in
        obind (copy_pairs (obj_copy n') m2 (length (m_objs m)) (combine (m_keys mo) (m_vals mo))) (fun m3 => OOk (v2, m3))
      | Some (OSMap _) => OOk (v, m)
      | Some _ => OErr
      | None => OUB
      end
    end
  | VType _ | VAny => OErr
  | _ => OOk (v, m)
  end.
(** objects.c:116-131 Object_Copy. *)
Definition copy_of (m : mem) (v : value) : out (value * mem) := obj_copy (depth (m_objs m)) m v.

(** o_list.c:204-230, o_string.c:92-116 with the key still an object: a key that is not an integer is an error. Reported
    errors set the flag and give NULL. *)
Definition keyed (m : mem) (key : value) (f : Z -> res value) : out (option value * mem) :=
  match key with
  | VInt i =>
    match f i with
    | ROk v => OOk (Some v, m)
    | RErr => OOk (None, set_pend m true)
    | RUB => OUB
    end
  | _ => OOk (None, set_pend m true)
  end.

(** Object_Select (objects.c:171-187): [None] = NULL; a type without select reports an error. The chain of closures
    (o_closure.c:66-79) is followed with fuel. *)
Fixpoint obj_select (E : env) (n : nat) (m : mem) (col key : value) : out (option value * mem) :=
  match col with
  | VRef l =>
    match nth_error (m_objs m) l with
    | Some (OList lo) => keyed m key (list_select lo)
    | Some (OMap mo) => map_sel m mo key
    | Some (OClosure prev vars) =>
      match n with
      | O => OLoop
      | S n' =>
        obind (obj_select E n' m vars key) (fun r =>
        if m_pend (snd r) then OOk (None, snd r) else
        match fst r, prev with
        | None, Some p => obj_select E n' (snd r) p key
        | _, _ => OOk r
        end)
      end
    | Some (OSMap id) => e_smap E id key m
    | Some (OForeign t id) => e_fselect E t id key m
    | Some _ => OOk (None, set_pend m true)
    | None => OUB
    end
  | VStr bs => keyed m key (fun i => match str_select (str_of bs) i with
                                     | ROk s => ROk (VStr (s_bytes s)) | RErr => RErr | RUB => RUB end)
  | _ => OOk (None, set_pend m true)
  end.
(** objects.c:171-187 Object_Select. *)
Definition select_of (E : env) (m : mem) (col key : value) : out (option value * mem) :=
  obj_select E (depth (m_objs m)) m col key.

(** Object_Insert (objects.c:207-223). *)
Definition insert_of (E : env) (m : mem) (col key val : value) : out mem :=
  match col with
  | VRef l =>
    match nth_error (m_objs m) l with
    | Some (OList lo) =>
      match key with
      | VInt i => match list_insert lo i val with ROk lo' => OOk (set_obj m l (OList lo')) | RErr => OErr | RUB => OUB end
      | _ => OErr
      end
    | Some (OMap mo) => map_store copy_of m l mo key val
    | Some (OForeign t id) => e_finsert E t id key val m
    | Some _ => OErr
    | None => OUB
    end
  | _ => OErr
  end.

(** ** Object_IsTypeOf (objects.c:101-106) *)

(** o_list.c:76-93 and o_map.c:87-102: the pattern's items against the items selected from the value. [sel i] selects the
    counterpart of the i-th item. *)
Fixpoint match_all (rec : bool -> value -> value -> out (bool * bool)) (sel : bool -> value -> out (option value * bool))
         (pend : bool) (kvs : list (value * value)) : out (bool * bool) :=
  match kvs with
  | [] => OOk (true, pend)
  | (k, t) :: r =>
    obind (sel pend k) (fun x =>
    match fst x with
    | None => OOk (false, snd x)
    | Some v2 =>
      obind (rec (snd x) t v2) (fun y =>
      if fst y then match_all rec sel (snd y) r else OOk y)
    end)
  end.

(** Numbered items: the keys Object_FromInt(i) of o_list.c:78. *)
Definition number_items (vs : list value) : list (value * value) :=
  combine (map (fun i => VInt (Z.of_nat i)) (seq 0 (length vs))) vs.

(** objects.c:171-187: Object_Select on a list or map, with the flag. *)
Definition sel_flag (m : mem) (o : hobj) (pend : bool) (key : value) : out (option value * bool) :=
  match o with
  | OList lo => obind (keyed (set_pend m pend) key (list_select lo)) (fun r => OOk (fst r, m_pend (snd r)))
  | OMap mo => obind (map_sel (set_pend m pend) mo key) (fun r => OOk (fst r, m_pend (snd r)))
  | _ => OUB
  end.

(** Result: whether [v] is of type [typ], and the new value of the flag. objects.c:54-59 (types), o_any.c:45-56,
    o_nullable.c:49-59, o_sum.c:51-60, o_list.c:69-95, o_map.c:80-103; other objects are not types: false. *)
Fixpoint is_type_of (n : nat) (m : mem) (pend : bool) (typ v : value) : out (bool * bool) :=
  match typ with
  | VType t => OOk (tyname_eqb (type_of (rt_of (m_objs m)) v) t, pend)
  | VAny => OOk (true, pend)
  | VRef l =>
    match n with
    | O => OLoop
    | S n' =>
      match nth_error (m_objs m) l with
      | Some (ONullable item) =>
        match v with VNone => OOk (true, pend) | _ => is_type_of n' m pend item v end
      | Some (OSum a b) =>
        obind (is_type_of n' m pend a v) (fun r =>
        if fst r then OOk r else is_type_of n' m (snd r) b v)
      | Some (OList lo) =>
        match v with
        | VRef l2 =>
          match nth_error (m_objs m) l2 with
          | Some (OList lo2) =>
            match list_items lo with
            | Some vs => match_all (is_type_of n' m) (sel_flag m (OList lo2)) pend (number_items vs)
            | None => OUB
            end
          | _ => OOk (false, pend)
          end
        | _ => OOk (false, pend)
        end
      | Some (OMap mo) =>
        match v with
        | VRef l2 =>
          match nth_error (m_objs m) l2 with
          | Some (OMap mo2) => match_all (is_type_of n' m) (sel_flag m (OMap mo2)) pend (combine (m_keys mo) (m_vals mo))
          | _ => OOk (false, pend)
          end
        | _ => OOk (false, pend)
        end
      | Some _ => OOk (false, pend)
      | None => OUB
      end
    end
  | _ => OOk (false, pend)
  end.

(** objects.c:101-106: Fuel: the number of pairs (type, value) of references, plus what the non-references need. *)
Definition type_depth (objs : list hobj) : nat := (S (length objs) * S (length objs) + 1)%nat.
(** objects.c:101-106 Object_IsTypeOf. *)
Definition is_type (m : mem) (typ v : value) : out (bool * mem) :=
  obind (is_type_of (type_depth (m_objs m)) m (m_pend m) typ v) (fun r => OOk (fst r, set_pend m (snd r))).
