(** Lists and maps as keys: C76; indices that are not numbers: C05. *)
From Coq Require Import ZArith String List Bool Permutation.
From Verif Require Import Base StringModel FloatModel ValueModel ParseExamples MapModel ListModel ListProofs ExeModel ObjModel VmModel VmExamples CompileModel
  CopyProofs HashSpec HashProofs.
Import ListNotations.
Open Scope Z_scope.

(** * C76 *)
(** The hash of a list or map is the sum of the hashes of the scalars in it, at whatever depth they are. *)
Theorem C76_hash_of_content : forall objs l ls s, leaves objs (VRef l) ls -> hsum ls s -> hash_of objs (VRef l) = OOk (wrap32 s).
Proof. exact hash_leaves. Qed.

(** So two lists or maps with the same scalars hash alike, in whatever order and nesting they hold them. *)
Theorem C76_hash_alike : forall objs objs' l l' ls ls' s, leaves objs (VRef l) ls -> leaves objs' (VRef l') ls' -> Permutation ls ls' -> hsum ls s ->
  hash_of objs (VRef l) = hash_of objs' (VRef l').
Proof. exact hash_perm. Qed.

(** A copy hashes like the original. *)
Theorem C76_copy_hashes_alike : forall m n l ls s, m_pend m = false -> tree (m_objs m) n (VRef l) -> leaves (m_objs m) (VRef l) ls -> hsum ls s ->
  exists v' m', copy_of m (VRef l) = OOk (v', m') /\ hash_of (m_objs m') v' = hash_of (m_objs m) (VRef l).
Proof. intros m n l ls s. exact (hash_copy m (VRef l) n l ls s eq_refl). Qed.

(** Copying changes no object, and a value with a type or a function in it is not copied. *)
Theorem C76_copy_changes_nothing : forall m v v' m' l o, copy_of m v = OOk (v', m') -> nth_error (m_objs m) l = Some o -> nth_error (m_objs m') l = Some o.
Proof. exact copy_of_keeps. Qed.
Theorem C76_copy_refused : forall m v r, uncopied (m_objs m) v -> copy_of m v <> OOk r.
Proof. exact copy_of_refused. Qed.

(** The claim "what is stored under a list or map is found under it": it never is. *)
Theorem C76_never_found : forall E m l mo k r m', nth_error (m_objs m) l = Some (OMap mo) -> is_collection (m_objs m) k ->
  select_of E m (VRef l) k = OOk (r, m') -> r = None.
Proof. exact never_found. Qed.
Theorem C76_found_refuted :
  (exists m m' l k v, insert_of env0 m (VRef l) k v = OOk m' /\ is_collection (m_objs m') k /\ m_pend m' = false /\
     select_of env0 m' (VRef l) k = OOk (None, set_pend m' true)) /\
  (exists x, compile (bytes "m = {}; k = [1]; m[k] = 2; return m[k];") = ROk x /\ outcome (steps env0 1000 x 60 (vm_start mem0)) = SDone [VNone] mem0) /\
  (exists x, compile (bytes "m = {}; k = [1]; m[k] = 2; m[k] = 3; return 1;") = ROk x /\ steps env0 1000 x 60 (vm_start mem0) = SErr).
Proof.
  split; [|split].
  - exists (mkmem [OMap (new_map 0); OList (new_list2 [VInt 1])] false).
    match goal with |- exists m', _ => let c := eval vm_compute in (insert_of env0 (mkmem [OMap (new_map 0); OList (new_list2 [VInt 1])] false) (VRef 0) (VRef 1) (VInt 2)) in
      match c with OOk ?y => exists y end end.
    exists 0%nat, (VRef 1), (VInt 2). split; [vm_compute; reflexivity|]. split.
    + exists 1%nat. eexists. split; [reflexivity|]. split; [reflexivity|exact I].
    + split; vm_compute; reflexivity.
  - match goal with |- exists x, compile ?t = _ /\ _ => let c := eval vm_compute in (compile t) in match c with ROk ?y => exists y end end.
    split; vm_compute; reflexivity.
  - match goal with |- exists x, compile ?t = _ /\ _ => let c := eval vm_compute in (compile t) in match c with ROk ?y => exists y end end.
    split; vm_compute; reflexivity.
Qed.

(** [[1, "a"], [7]] and ["a", {7: 1}]; a list with a type; a map whose value is a function. *)
Definition C76_map : hmap value value := mkmap [-1; -1; -1; -1; -1; 0; -1; -1] [VInt 7] [VInt 1].
Definition C76_objs : list hobj :=
  [OList (new_list2 [VInt 1; VStr [97]]); OList (new_list2 [VInt 7]); OList (new_list2 [VRef 0; VRef 1]);
   OMap C76_map; OList (new_list2 [VStr [97]; VRef 3]); OList (new_list2 [VInt 1; VType TyInt]); OMap (mkmap (m_mapper C76_map) [VInt 7] [VRef 5])].
Example C76_example : leaves C76_objs (VRef 2) [VInt 1; VStr [97]; VInt 7] /\ leaves C76_objs (VRef 4) [VStr [97]; VInt 7; VInt 1] /\
  Permutation [VInt 1; VStr [97]; VInt 7] [VStr [97]; VInt 7; VInt 1] /\ (exists s, hsum [VInt 1; VStr [97]; VInt 7] s) /\
  hash_of C76_objs (VRef 2) = hash_of C76_objs (VRef 4) /\ hash_of C76_objs (VRef 2) <> OOk 0 /\ tree C76_objs 2 (VRef 2) /\
  uncopied C76_objs (VRef 5) /\ uncopied C76_objs (VRef 6) /\ is_collection C76_objs (VRef 3).
Proof.
  assert (A : leaves C76_objs (VRef 2) [VInt 1; VStr [97]; VInt 7]).
  { eapply lf_list; [reflexivity|apply rep_new2|].
    change [VInt 1; VStr [97]; VInt 7] with ([VInt 1; VStr [97]] ++ [VInt 7] ++ []). constructor; [|constructor; [|constructor]].
    - eapply lf_list; [reflexivity|apply rep_new2|]. change [VInt 1; VStr [97]] with ([VInt 1] ++ [VStr [97]] ++ []). repeat (constructor; try exact I).
    - eapply lf_list; [reflexivity|apply rep_new2|]. change [VInt 7] with ([VInt 7] ++ []). repeat (constructor; try exact I). }
  assert (B : leaves C76_objs (VRef 4) [VStr [97]; VInt 7; VInt 1]).
  { eapply lf_list; [reflexivity|apply rep_new2|]. change [VStr [97]; VInt 7; VInt 1] with ([VStr [97]] ++ [VInt 7; VInt 1] ++ []).
    constructor; [now constructor|]. constructor; [|constructor]. eapply lf_map; [reflexivity|]. cbn [m_keys m_vals C76_map app].
    change [VInt 7; VInt 1] with ([VInt 7] ++ [VInt 1] ++ []). repeat (constructor; try exact I). }
  assert (P : Permutation [VInt 1; VStr [97]; VInt 7] [VStr [97]; VInt 7; VInt 1]) by (exact (Permutation_cons_append [VStr [97]; VInt 7] (VInt 1))).
  assert (H : exists s, hsum [VInt 1; VStr [97]; VInt 7] s).
  { eexists. constructor; [vm_compute; reflexivity|]. constructor; [vm_compute; reflexivity|]. constructor; [vm_compute; reflexivity|]. constructor. }
  split; [exact A|]. split; [exact B|]. split; [exact P|]. split; [exact H|]. split; [destruct H as (s & H); exact (hash_perm _ _ _ _ _ _ _ A B P H)|].
  split; [vm_compute; discriminate|]. split.
  { cbn [tree nth_error C76_objs]. exists [VRef 0; VRef 1]. split; [apply rep_new2|]. constructor; [|constructor; [|constructor]].
    - exists [VInt 1; VStr [97]]. split; [apply rep_new2|]. repeat constructor.
    - exists [VInt 7]. split; [apply rep_new2|]. repeat constructor. }
  assert (U : uncopied C76_objs (VRef 5)) by (eapply un_list; [reflexivity|apply rep_new2|right; left; reflexivity|constructor]).
  split; [exact U|]. split; [eapply un_val; [reflexivity|left; reflexivity|exact U]|]. exists 3%nat. eexists. split; [reflexivity|]. split; [reflexivity|exact I].
Qed.

(** * C05 *)
(** A list or string is indexed by integers only: anything else is an error, and nothing is stored. *)
Theorem C05_other_kinds_rejected : forall E m col k v,
  (exists s, col = VStr s) \/ (exists l lo, col = VRef l /\ nth_error (m_objs m) l = Some (OList lo)) -> (forall i, k <> VInt i) ->
  (exists m', select_of E m col k = OOk (None, m') /\ m_pend m' = true /\ m_objs m' = m_objs m) /\ insert_of E m col k v = OErr.
Proof. intros E m col k v C K. split; [exact (select_other_key E m col k C K)|exact (insert_other_key E m col k v C K)]. Qed.
Example C05_other_kinds_example : (forall i, VStr [49] <> VInt i) /\ nth_error C76_objs 2 = Some (OList (new_list2 [VRef 0; VRef 1])) /\
  select_of env0 (mkmem C76_objs false) (VRef 2) (VStr [49]) = OOk (None, mkmem C76_objs true).
Proof. split; [discriminate|]. split; vm_compute; reflexivity. Qed.

Print Assumptions C76_hash_of_content.
Print Assumptions C76_hash_alike.
Print Assumptions C76_copy_hashes_alike.
Print Assumptions C76_copy_changes_nothing.
Print Assumptions C76_copy_refused.
Print Assumptions C76_never_found.
Print Assumptions C76_found_refuted.
Print Assumptions C05_other_kinds_rejected.
