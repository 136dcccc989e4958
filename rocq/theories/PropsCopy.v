(** Property C61: a copy shares no list and no map with the original. *)
From Coq Require Import ZArith List Lia Bool.
From Verif Require Import Base FloatModel StringModel ValueModel TextProofs MapModel ListModel ListProofs ObjModel MapProofs2 CopyProofs.
Import ListNotations.
Open Scope Z_scope.

(** [tree objs n v]: [v] is made of scalars, lists, maps with pairwise different scalar keys (CopyProofs), nested at most [n] deep.
    [copied objs objs' b v v']: [v'], read in [objs'], has the shape and the scalars of [v], read in [objs], and every list and map
    of it is at [b] or later. The conclusion holds of every later heap [objs''] in which the new objects are still there, whatever
    has been done to the old ones; and the old objects are still there. *)
Theorem C61_a_copy_is_new : forall m v n, m_pend m = false -> tree (m_objs m) n v ->
  exists v' m', copy_of m v = OOk (v', m') /\ m_pend m' = false /\
    (forall l o, nth_error (m_objs m) l = Some o -> nth_error (m_objs m') l = Some o) /\
    forall objs'', (forall l o, (length (m_objs m) <= l)%nat -> nth_error (m_objs m') l = Some o -> nth_error objs'' l = Some o) ->
      copied (m_objs m) objs'' (length (m_objs m)) v v'.
Proof.
  intros m v n HP T. destruct (copy_of_ok m v n HP T) as (v' & m' & E & P & (new & X) & C).
  exists v', m'. split; [exact E|]. split; [exact P|]. split.
  - intros l o H. rewrite X. rewrite nth_error_app1; [exact H|]. apply nth_error_Some. rewrite H. discriminate.
  - intros objs'' H. eapply copied_more; [exact C|apply le_n|exact H].
Qed.

(** [[1, "a"], {7: [1, "a"]}], where the two inner lists are one object. *)
Definition C61_map : hmap value value := mkmap [-1; -1; -1; -1; -1; 0; -1; -1] [VInt 7] [VRef 0].
Definition C61_objs : list hobj :=
  [OList (new_list2 [VInt 1; VStr [97]]); OMap C61_map; OList (new_list2 [VRef 0; VRef 1])].
Example C61_example : tree C61_objs 3 (VRef 2) /\
  match copy_of (mkmem C61_objs false) (VRef 2) with
  | OOk (v', m') => v' = VRef 3 /\ skipn 3 (m_objs m') =
      [OList (new_list2 [VRef 4; VRef 5]); OList (new_list2 [VInt 1; VStr [97]]);
       OMap (mkmap (m_mapper C61_map) [VInt 7] [VRef 6]); OList (new_list2 [VInt 1; VStr [97]])]
  | _ => False
  end.
Proof.
  split.
  - assert (G : good_key (VInt 7)) by (repeat split).
    unfold C61_objs. cbn [tree nth_error]. exists [VRef 0; VRef 1]. split; [apply rep_new2|]. constructor; [|constructor; [|constructor]].
    + exists [VInt 1; VStr [97]]. split; [apply rep_new2|]. repeat constructor.
    + unfold C61_map. cbn [m_keys m_vals]. split; [apply Forall_cons; [exact G|apply Forall_nil]|]. split; [reflexivity|]. split; [reflexivity|]. split.
      * intros i j a b NE Hi Hj. exfalso. apply NE. assert (Q : forall k x, nth_error [VInt 7] k = Some x -> k = 0%nat).
        { intros [|[|k]] x; [reflexivity|discriminate|discriminate]. }
        rewrite (Q i a Hi), (Q j b Hj). reflexivity.
      * constructor; [|constructor]. exists [VInt 1; VStr [97]]. split; [apply rep_new2|]. repeat constructor.
  - vm_compute. split; reflexivity.
Qed.

Print Assumptions C61_a_copy_is_new.
