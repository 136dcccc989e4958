(** Properties C01-C03: maps. [vhash] and [obj_compare] are the hash and equality of the language's values. *)
From Coq Require Import ZArith List Lia Bool.
From Verif Require Import Base Utf8Model HashModel FloatModel StringModel ValueModel TextProofs
  MapModel MapSpec ProbeProofs MapProofs MapProofs2.
Import ListNotations.
Open Scope Z_scope.

(** ** C01: reading gives the last value stored. *)
(** Any hash and any key equality: the full claim for keys with non-negative hashes, or for histories whose different keys, before
    the last store, are fewer than the table first holds (however often they are stored under). Missing w.r.t. the full statement: growth with keys of negative hash (refuted below). *)
Theorem C01_map_last_stored_partial : forall rt V num (h : list (value * V)),
  small_history veqb num h -> tame vhash veqb num h -> Forall (fun kv => good_key (fst kv)) h ->
  exists m, map_inserts vhash (obj_compare rt) (new_map num) h = InsOk m /\
    forall k, good_key k -> map_select vhash (obj_compare rt) m k =
       match last_stored veqb h k with Some v => SelVal v | None => SelNone end.
Proof.
  intros rt V num h A B C. destruct (value_map_history rt num h A B C) as (m & D & E & _). exists m. auto.
Qed.

Theorem C01_map_generic_partial : forall K V (hash : K -> Z) cmp eqb (good : K -> Prop),
  (forall a b, good a -> good b -> cmp a b = Some (eqb a b)) ->
  (forall a, good a -> eqb a a = true) ->
  (forall a b, good a -> good b -> eqb a b = eqb b a) ->
  (forall a b c, good a -> good b -> good c -> eqb a b = true -> eqb b c = true -> eqb a c = true) ->
  (forall a b, good a -> good b -> eqb a b = true -> hash a = hash b) ->
  (forall a, good a -> in_int (hash a)) ->
  forall num (h : list (K * V)), small_history eqb num h -> tame hash eqb num h -> Forall (fun kv => good (fst kv)) h ->
  exists m, map_inserts hash cmp (new_map num) h = InsOk m /\
    (forall k, good k -> map_select hash cmp m k =
       match last_stored eqb h k with Some v => SelVal v | None => SelNone end).
Proof.
  intros K V hash cmp eqb good A B C D E F num h H1 H2 H3.
  destruct (map_history hash cmp eqb good A B C D E F num h H1 H2 H3) as (m & X & Y & _). exists m. auto.
Qed.

(** Seven integer keys with non-negative hashes: growth happens, and the hypotheses hold. *)
Example C01_example :
  let h := map (fun k => (VInt k, k)) [8; 1; 4; 17; 18; 8; 33; 24; 35] in
  Forall (fun kv => 0 <= vhash (fst kv)) h /\ Forall (fun kv => good_key (fst kv)) h /\ small_history veqb (-1) h /\
  calc_capacity (msize (new_map (K := value) (V := Z) (-1))) < Z.of_nat (length (firsts veqb (map fst h))).
Proof.
  cbv zeta. split; [repeat constructor; vm_compute; discriminate|].
  split; [repeat constructor|]. split; [split; vm_compute; congruence|]. vm_compute. reflexivity.
Qed.

(** Four keys with negative hashes, stored under again and again. *)
Example C01_example_again : let h := map (fun k => (VInt k, k)) [27; 5; 11; 100; 27; 5; 11; 100; 27; 27; 100] in
  small_history veqb (-1) h /\ tame vhash veqb (-1) h /\ ~ Forall (fun kv => 0 <= vhash (fst kv)) h /\ distinct veqb h = 4%nat.
Proof.
  cbv zeta. split; [split; vm_compute; congruence|]. split; [right; vm_compute; reflexivity|]. split; [|vm_compute; reflexivity].
  intros F. rewrite Forall_forall in F. cut (0 <= vhash (VInt 27)); [vm_compute; congruence|]. apply (F (VInt 27, 27)). left. reflexivity.
Qed.

(** Storing under 1, 5, 8, 11, 27, 100 loses key 27. *)
Theorem C01_map_last_stored_refuted : exists (h : list (value * Z)) k m,
  map_inserts vhash (obj_compare (fun _ => TyList)) (new_map (-1)) h = InsOk m /\
  last_stored veqb h (VInt k) = Some k /\
  map_select vhash (obj_compare (fun _ => TyList)) m (VInt k) = SelNone.
Proof. exact lost_key. Qed.

(** ** C02: termination. *)
(** Lookups terminate in every state reached by stores, for arbitrary hash function, comparison and keys. *)
Theorem C02_lookup_terminates : forall K V (hash : K -> Z) cmp num (h : list (K * V)) m key,
  num < 2 ^ 26 -> Z.of_nat (length h) <= 2 ^ 26 ->
  map_inserts hash cmp (new_map num) h = InsOk m ->
  map_select hash cmp m key <> SelTimeout /\ map_select hash cmp m key <> SelUB.
Proof. exact @reachable_lookup_ends. Qed.

(** Stores terminate when the table need not grow. *)
Theorem C02_store_terminates_partial : forall K V (hash : K -> Z) cmp num (h : list (K * V)) m key v,
  num < 2 ^ 26 -> Z.of_nat (length h) <= 2 ^ 26 ->
  map_inserts hash cmp (new_map num) h = InsOk m -> map_count m <> calc_capacity (msize m) ->
  map_insert hash cmp m key v <> InsTimeout /\ map_insert hash cmp m key v <> InsUB.
Proof. exact @reachable_store_ends. Qed.

Example C02_example : exists m, map_inserts vhash (obj_compare (fun _ => TyList)) (new_map (-1)) (intkeys [1; 5; 8; 11; 27; 100]) = InsOk m /\
  map_count m <> calc_capacity (msize m) /\ msize m = 16.
Proof. eexists. split; [vm_compute; reflexivity|]. split; vm_compute; [discriminate|reflexivity]. Qed.

(** After storing under "d", "i", "j", "o", "y", the next new key makes the growth loop run for ever. *)
Theorem C02_store_terminates_refuted : exists m,
  map_inserts vhash (obj_compare (fun _ => TyList)) (new_map (-1)) (strkeys [100; 105; 106; 111; 121]) = InsOk m /\
  map_count m = calc_capacity (msize m) /\
  forall F, grow_fuel vhash F m = InsTimeout.
Proof. exists hang_map. exact growth_hangs. Qed.

(** ** C03: keys and count. *)
Theorem C03_map_keys_partial : forall rt V num (h : list (value * V)),
  small_history veqb num h -> tame vhash veqb num h -> Forall (fun kv => good_key (fst kv)) h ->
  exists m, map_inserts vhash (obj_compare rt) (new_map num) h = InsOk m /\
    map_keys m = firsts veqb (map fst h) /\
    map_count m = Z.of_nat (length (firsts veqb (map fst h))).
Proof.
  intros rt V num h A B C. destruct (value_map_history rt num h A B C) as (m & D & _ & _ & E & F).
  exists m. rewrite <- a_stores_fst, <- E. split; [assumption|]. split; [reflexivity|]. rewrite E, map_length. assumption.
Qed.

Example C03_example : firsts veqb (map VInt [3; 1; 3; 2; 1]) = map VInt [3; 1; 2].
Proof. reflexivity. Qed.

(** A key lost by growth is listed twice once stored again. *)
Theorem C03_map_keys_refuted : exists (h : list (value * Z)) m,
  map_inserts vhash (obj_compare (fun _ => TyList)) (new_map (-1)) h = InsOk m /\
  map_keys m = map VInt [1; 5; 8; 11; 27; 100; 27].
Proof. exact dup_key. Qed.

Print Assumptions C01_map_last_stored_partial.
Print Assumptions C01_map_generic_partial.
Print Assumptions C01_map_last_stored_refuted.
Print Assumptions C02_lookup_terminates.
Print Assumptions C02_store_terminates_partial.
Print Assumptions C02_store_terminates_refuted.
Print Assumptions C03_map_keys_partial.
Print Assumptions C03_map_keys_refuted.
