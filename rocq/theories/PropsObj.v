(** Properties C33-C35 (arithmetic and comparison) and C37, C38 (type tests). *)
From Coq Require Import ZArith List Lia Bool.
From Coq Require Import Floats.SpecFloat.
From Verif Require Import Base FloatModel StringModel ValueModel ExeModel MapModel ListModel ArithModel ArithProofs
  ObjModel ObjSpec ObjProofs TextProofs VmModel.
Import ListNotations.
Open Scope Z_scope.

(** ** C33: integer arithmetic is exact when the result fits. Missing: when it does not fit the code reports nothing (the C
    operation is undefined), see the refutation. *)
Theorem C33_exact_when_it_fits_partial : forall x y,
  (in_i64 (x + y) -> math_op OP_ADD (VInt x) (VInt y) = ROk (VInt (x + y))) /\
  (in_i64 (x - y) -> math_op OP_SUB (VInt x) (VInt y) = ROk (VInt (x - y))) /\
  (in_i64 (x * y) -> math_op OP_MUL (VInt x) (VInt y) = ROk (VInt (x * y))) /\
  (in_i64 (- x) -> neg_op (VInt x) = ROk (VInt (- x))).
Proof. intros x y. repeat split; intros H; exact (int_res_in _ H). Qed.

(** Whenever the operators deliver an integer, it is the exact one. *)
Theorem C33_never_wrong : forall x y z,
  (math_op OP_ADD (VInt x) (VInt y) = ROk (VInt z) -> z = x + y) /\
  (math_op OP_SUB (VInt x) (VInt y) = ROk (VInt z) -> z = x - y) /\
  (math_op OP_MUL (VInt x) (VInt y) = ROk (VInt z) -> z = x * y) /\
  (neg_op (VInt x) = ROk (VInt z) -> z = - x).
Proof.
  intros x y z. cbn. unfold int_res.
  repeat split; match goal with |- (if ?c then _ else _) = _ -> _ => destruct c; congruence end.
Qed.

Theorem C33_overflow_refuted : exists x y, in_i64 x /\ in_i64 y /\ ~ in_i64 (x + y) /\
  math_op OP_ADD (VInt x) (VInt y) = RUB /\ math_op OP_MUL (VInt x) (VInt y) = RUB /\
  math_op OP_SUB (VInt (- x)) (VInt y) = RUB /\ neg_op (VInt (- x - 1)) = RUB.
Proof.
  exists (2^63 - 1), 2. unfold in_i64. split; [lia|]. split; [lia|]. split; [lia|].
  split; [vm_compute; reflexivity|]. split; [vm_compute; reflexivity|].
  split; vm_compute; reflexivity.
Qed.

(** An integer beside a float is converted; anything else is an error. *)
Definition is_num (v : value) : bool := match v with VInt _ | VFloat _ => true | _ => false end.
Theorem C33_mixed_and_errors : forall op x y v w, In op [OP_ADD; OP_SUB; OP_MUL; OP_DIV] ->
  math_op op (VInt x) (VFloat y) = math_op op (VFloat (f_of_int x)) (VFloat y) /\
  math_op op (VFloat y) (VInt x) = math_op op (VFloat y) (VFloat (f_of_int x)) /\
  (is_num v && is_num w = false -> math_op op v w = RErr) /\
  (is_num v = false -> neg_op v = RErr).
Proof.
  intros op x y v w _. split; [reflexivity|]. split; [reflexivity|]. split.
  - destruct v, w; cbn; intros H; try discriminate; reflexivity.
  - destruct v; cbn; intros H; try discriminate; reflexivity.
Qed.

Example C33_example : math_op OP_MUL (VInt (-3037000500)) (VInt 3037000499) = ROk (VInt (-9223372033963249500)) /\
  math_op OP_ADD (VInt 1) (VFloat (f_of_int 2)) = ROk (VFloat (f_of_int 3)) /\ math_op OP_ADD (VInt 1) VNone = RErr.
Proof. vm_compute. auto. Qed.

(** ** C34: division and remainder. Missing: remainder by zero and -2^63 by -1, see the refutation. *)
Theorem C34_division_law_partial : forall a b, in_i64 a -> in_i64 b -> b <> 0 -> ~ (a = - 2^63 /\ b = -1) ->
  exists q r, math_op OP_DIV (VInt a) (VInt b) = ROk (VInt q) /\ mod_op (VInt a) (VInt b) = ROk (VInt r) /\
    a = q * b + r /\ Z.abs r < Z.abs b /\ 0 <= r * a.
Proof. exact division_law. Qed.

(** Division by any of the zeros is a reported error, whatever is divided. *)
Theorem C34_division_by_zero : forall v w, w = VInt 0 \/ w = VFloat 0 \/ w = VFloat (2^63) -> math_op OP_DIV v w = RErr.
Proof. intros v w [->|[->| ->]]; destruct v; reflexivity. Qed.

(** Division by any other float is the division of IEEE 754. *)
Theorem C34_float_division : forall x y, is_bits y -> y <> 0 -> y <> 2^63 ->
  math_op OP_DIV (VFloat x) (VFloat y) = ROk (VFloat (f_div x y)).
Proof.
  intros x y Hy H1 H2. cbn [math_op math_flt]. destruct (f_eq y 0) eqn:E; [|reflexivity].
  apply f_eq_bits in E; [|exact Hy|red; lia]. destruct E as [E|[[E|E] _]]; contradiction.
Qed.
Example C34_float_example : math_op OP_DIV (VFloat (f_of_int (-3))) (VFloat (f_of_int 2)) = ROk (VFloat (f_div (f_of_int (-3)) (f_of_int 2))) /\
  f_add (f_div (f_of_int (-3)) (f_of_int 2)) (f_div (f_of_int (-3)) (f_of_int 2)) = f_of_int (-3) /\
  math_op OP_DIV (VInt 1) (VFloat (2^63)) = RErr.
Proof. vm_compute. auto. Qed.

Theorem C34_never_crashes_refuted : mod_op (VInt 7) (VInt 0) = RUB /\
  math_op OP_DIV (VInt (- 2^63)) (VInt (-1)) = RUB /\ mod_op (VInt (- 2^63)) (VInt (-1)) = RUB.
Proof. vm_compute. auto. Qed.

Example C34_example : math_op OP_DIV (VInt (-7)) (VInt 2) = ROk (VInt (-3)) /\ mod_op (VInt (-7)) (VInt 2) = ROk (VInt (-1)).
Proof. vm_compute. auto. Qed.

(** ** C35: order. [answers] collects what the five operators say about a pair. *)
Theorem C35_integers : forall rt x y z,
  (exists lt eq gt, answers rt (VInt x) (VInt y) lt eq gt /\ exactly_one lt eq gt) /\
  (rel_op OP_LSS (VInt x) (VInt y) = ROk true -> rel_op OP_LSS (VInt y) (VInt z) = ROk true ->
   rel_op OP_LSS (VInt x) (VInt z) = ROk true).
Proof. intros rt x y z. split; [apply int_answers|apply int_lt_trans]. Qed.

Theorem C35_floats_partial : forall rt x y z, f_decode x <> S754_nan -> f_decode y <> S754_nan ->
  (exists lt eq gt, answers rt (VFloat x) (VFloat y) lt eq gt /\ exactly_one lt eq gt) /\
  (rel_op OP_LSS (VFloat x) (VFloat y) = ROk true -> rel_op OP_LSS (VFloat y) (VFloat z) = ROk true ->
   rel_op OP_LSS (VFloat x) (VFloat z) = ROk true).
Proof. intros rt x y z Hx Hy. split; [apply flt_answers; assumption|apply flt_lt_trans]. Qed.

(** Between an integer and a float: 1 <= 1.0 holds although neither 1 < 1.0 nor 1 == 1.0; and <= is not transitive. *)
Theorem C35_mixed_refuted : forall rt,
  (exists x f, rel_op OP_LEQ (VInt x) (VFloat f) = ROk true /\ rel_op OP_LSS (VInt x) (VFloat f) = ROk false /\
               obj_compare rt (VInt x) (VFloat f) = Some false) /\
  (exists x f y, rel_op OP_LEQ (VInt x) (VFloat f) = ROk true /\ rel_op OP_LEQ (VFloat f) (VInt y) = ROk true /\
                 rel_op OP_LEQ (VInt x) (VInt y) = ROk false).
Proof.
  intros rt. split.
  - exists 1, (f_of_int 1). vm_compute. auto.
  - exists (2^53 + 1), (f_of_int (2^53)), (2^53). vm_compute. auto.
Qed.

Example C35_example : answers (fun _ => TyNone) (VInt (-5)) (VInt 3) true false false /\
  answers (fun _ => TyNone) (VFloat (f_of_int 3)) (VFloat (f_of_int 3)) false true false.
Proof. unfold answers. vm_compute. auto 20. Qed.

(** ** C37: type expressions. A positive answer is right; a negative answer is right unless an error was reported on the way. *)
Theorem C37_positive : forall m typ v m', is_type m typ v = OOk (true, m') -> fits (m_objs m) typ v.
Proof. exact test_sound. Qed.

Theorem C37_negative_partial : forall m typ v m', is_type m typ v = OOk (false, m') -> m_pend m' = false ->
  ~ fits (m_objs m) typ v.
Proof. exact test_complete. Qed.

(** Type objects, any, nullable and sum types: the test always answers, and exactly. *)
Theorem C37_plain_exact : forall m typ v, refs_before (m_objs m) -> plain_type (m_objs m) typ ->
  exists b m', is_type m typ v = OOk (b, m') /\ (b = true <-> fits (m_objs m) typ v).
Proof. intros m typ v H1 H2. destruct (plain_test m typ v H1 H2) as (b & E & F). exists b, m. auto. Qed.

(** The full claim fails: a failed alternative inside a pattern disturbs the rest of the same test. Pattern
    [ [int,int] | List, {8: int} ] and value [ [1], {0: 1, 8: 2} ]. *)
Definition C37_map (kvs : list (value * value)) : hobj :=
  match map_inserts (hash_or0 []) (map_cmp (mkmem [] false)) (new_map 0) kvs with InsOk m => OMap m | _ => OSMap 0 end.
Definition C37_objs : list hobj :=
  [OList (new_list2 [VType TyInt; VType TyInt]); OSum (VRef 0) (VType TyList); C37_map [(VInt 8, VType TyInt)];
   OList (new_list2 [VRef 1; VRef 2]);
   OList (new_list2 [VInt 1]); C37_map [(VInt 0, VInt 1); (VInt 8, VInt 2)]; OList (new_list2 [VRef 4; VRef 5])].

Theorem C37_exact_refuted : exists objs typ v m', fits objs typ v /\
  is_type (mkmem objs false) typ v = OOk (false, m').
Proof.
  exists C37_objs, (VRef 3), (VRef 6). eexists. split; [|vm_compute; reflexivity].
  eapply fits_list; [vm_compute; reflexivity|vm_compute; reflexivity|vm_compute; reflexivity|].
  intros [|[|i]] t H; cbn in H.
  - injection H as <-. exists (VRef 4). split; [constructor; vm_compute; reflexivity|].
    eapply fits_sum_right; [vm_compute; reflexivity|]. constructor. reflexivity.
  - injection H as <-. exists (VRef 5). split; [constructor; vm_compute; reflexivity|].
    eapply fits_map; [vm_compute; reflexivity|vm_compute; reflexivity|].
    intros k t Hk. vm_compute in Hk. destruct Hk as [Hk|[]]. injection Hk as <- <-.
    exists (VInt 2). split; [constructor; vm_compute; reflexivity|constructor; reflexivity].
  - destruct i; discriminate.
Qed.

Example C37_example : exists m, m_objs m = C37_objs /\ refs_before C37_objs /\ plain_type C37_objs (VType TyList) /\
  is_type m (VRef 1) (VRef 4) = OOk (true, mkmem C37_objs true) /\
  is_type m (VRef 0) (VRef 6) = OOk (false, mkmem C37_objs false) /\
  is_type m (VRef 2) (VRef 5) = OOk (true, mkmem C37_objs false).
Proof.
  exists (mkmem C37_objs false). split; [reflexivity|]. split.
  - intros l. do 7 (destruct l as [|l]; [vm_compute; first [exact I|intros k [H|H]; inversion H; subst; lia]|]). destruct l; exact I.
  - split; [constructor|]. split; [vm_compute; reflexivity|]. split; vm_compute; reflexivity.
Qed.

(** ** C38: a test leaves the state as it was. True of plain type expressions. *)
Theorem C38_plain_leaves_nothing_partial : forall m typ v, refs_before (m_objs m) -> plain_type (m_objs m) typ ->
  exists b, is_type m typ v = OOk (b, m).
Proof. intros m typ v H1 H2. destruct (plain_test m typ v H1 H2) as (b & E & F). exists b. exact E. Qed.

(** False in general: after the test (which succeeds) a key of a map can no longer be found. *)
Theorem C38_undisturbed_refuted : exists m typ v mo key w m', m_pend m = false /\
  map_sel m mo key = OOk (Some w, m) /\
  is_type m typ v = OOk (true, m') /\ exists m2, map_sel m' mo key = OOk (None, m2).
Proof.
  exists (mkmem C37_objs false), (VRef 1), (VRef 4),
    (match C37_map [(VInt 0, VInt 1); (VInt 8, VInt 2)] with OMap m => m | _ => new_map 0 end), (VInt 8), (VInt 2), (mkmem C37_objs true).
  split; [reflexivity|]. split; [vm_compute; reflexivity|]. split; [vm_compute; reflexivity|].
  exists (mkmem C37_objs true). vm_compute. reflexivity.
Qed.

(** A selection that fails inside the interpreter answers none and leaves no error behind, whatever the state it started in; what
    it answers does not depend on an error that was pending. *)
Theorem C38_selection_leaves_nothing : forall E m col key v m', select_or_none E m col key = OOk (v, m') ->
  m_pend m' = m_pend m /\ forall b, select_or_none E (set_pend m b) col key = OOk (v, set_pend m' b).
Proof.
  intros E m col key v m'. unfold select_or_none. cbn [set_pend m_pend m_objs].
  destruct (select_of E (set_pend m false) col key) as [[r m2]| | | |] eqn:Q; cbn [obind fst snd]; try discriminate.
  intros H. injection H as <- <-. split; [reflexivity|]. intros b. change (set_pend (set_pend m b) false) with (set_pend m false).
  rewrite Q. reflexivity.
Qed.

(** Example: index 3 of a list of two elements, with and without an error pending before. *)
Example C38_selection_example : forall E b, select_or_none E (mkmem [OList (new_list2 [VInt 7; VInt 8])] b) (VRef 0) (VInt 3) =
  OOk (VNone, mkmem [OList (new_list2 [VInt 7; VInt 8])] b) /\
  (forall E m, m = mkmem [OList (new_list2 [VInt 7; VInt 8])] false -> select_of E m (VRef 0) (VInt 3) = OOk (None, set_pend m true)).
Proof. intros E b. split; [reflexivity|]. intros E' m ->. reflexivity. Qed.

Definition C38_objs : list hobj := [ONullable (VType TyInt); OSum (VRef 0) (VType TyString)].
Example C38_example : refs_before C38_objs /\ plain_type C38_objs (VRef 1) /\
  is_type (mkmem C38_objs false) (VRef 1) VNone = OOk (true, mkmem C38_objs false) /\
  is_type (mkmem C38_objs false) (VRef 1) (VStr [104]) = OOk (true, mkmem C38_objs false) /\
  is_type (mkmem C38_objs false) (VRef 1) (VBool true) = OOk (false, mkmem C38_objs false).
Proof.
  split.
  - intros l. destruct l as [|[|[|l]]]; cbn; intros; try exact I; try discriminate.
    destruct H as [H|H]; inversion H; lia.
  - split; [|split; [vm_compute; reflexivity|split; vm_compute; reflexivity]].
    eapply plain_sum; [reflexivity| |constructor]. eapply plain_null; [reflexivity|constructor].
Qed.

Print Assumptions C33_exact_when_it_fits_partial.
Print Assumptions C33_never_wrong.
Print Assumptions C33_overflow_refuted.
Print Assumptions C33_mixed_and_errors.
Print Assumptions C34_division_law_partial.
Print Assumptions C34_division_by_zero.
Print Assumptions C34_float_division.
Print Assumptions C34_never_crashes_refuted.
Print Assumptions C35_integers.
Print Assumptions C35_floats_partial.
Print Assumptions C35_mixed_refuted.
Print Assumptions C37_positive.
Print Assumptions C37_negative_partial.
Print Assumptions C37_plain_exact.
Print Assumptions C37_exact_refuted.
Print Assumptions C38_plain_leaves_nothing_partial.
Print Assumptions C38_undisturbed_refuted.
Print Assumptions C38_selection_leaves_nothing.
