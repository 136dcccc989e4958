(** Specification of type expressions: which values fit them. *)
From Coq Require Import ZArith List Bool.
From Verif Require Import Base StringModel ValueModel MapModel ListModel ObjModel.
Import ListNotations.
Open Scope Z_scope.

(** [v] is what reading [col[key]] gives, without any error. *)
Inductive reads (objs : list hobj) : hobj -> value -> value -> Prop :=
| reads_list lo i v : list_select lo i = ROk v -> reads objs (OList lo) (VInt i) v
| reads_map mo k v : map_sel (mkmem objs false) mo k = OOk (Some v, mkmem objs false) -> reads objs (OMap mo) k v.

(** [fits typ v]: the meaning of type expressions as union types and element-wise patterns. *)
Inductive fits (objs : list hobj) : value -> value -> Prop :=
| fits_type t v : type_of (rt_of objs) v = t -> fits objs (VType t) v
| fits_any v : fits objs VAny v
| fits_null_none l item : nth_error objs l = Some (ONullable item) -> fits objs (VRef l) VNone
| fits_null_item l item v : nth_error objs l = Some (ONullable item) -> fits objs item v -> fits objs (VRef l) v
| fits_sum_left l a b v : nth_error objs l = Some (OSum a b) -> fits objs a v -> fits objs (VRef l) v
| fits_sum_right l a b v : nth_error objs l = Some (OSum a b) -> fits objs b v -> fits objs (VRef l) v
| fits_list l lo ts l2 lo2 : nth_error objs l = Some (OList lo) -> list_items lo = Some ts ->
    nth_error objs l2 = Some (OList lo2) ->
    (forall i t, nth_error ts i = Some t -> exists v, reads objs (OList lo2) (VInt (Z.of_nat i)) v /\ fits objs t v) ->
    fits objs (VRef l) (VRef l2)
| fits_map l mo l2 mo2 : nth_error objs l = Some (OMap mo) -> nth_error objs l2 = Some (OMap mo2) ->
    (forall k t, In (k, t) (combine (m_keys mo) (m_vals mo)) -> exists v, reads objs (OMap mo2) k v /\ fits objs t v) ->
    fits objs (VRef l) (VRef l2).

(** Type expressions made of type objects, "any", nullable and sum types only. *)
Inductive plain_type (objs : list hobj) : value -> Prop :=
| plain_t t : plain_type objs (VType t)
| plain_any : plain_type objs VAny
| plain_null l item : nth_error objs l = Some (ONullable item) -> plain_type objs item -> plain_type objs (VRef l)
| plain_sum l a b : nth_error objs l = Some (OSum a b) -> plain_type objs a -> plain_type objs b -> plain_type objs (VRef l).
