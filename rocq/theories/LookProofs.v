(** Looking at values and looking up built-in names: proofs for C77. *)
From Coq Require Import ZArith List Lia Bool String.
From Verif Require Import Base Utf8Model Utf8Spec Utf8Proofs StringModel ValueModel TextProofs MapModel ListModel ListProofs ObjModel VmModel BuiltinModel BuiltinProofs
  SysProofs PreludeVisit LookSpec.
Import ListNotations.
Open Scope Z_scope.

Lemma encs_cons c cs : encs (c :: cs) = enc c ++ encs cs.
Proof. reflexivity. Qed.
Lemma ord_first c cs m : Forall code_point (c :: cs) -> short (encs (c :: cs)) -> bin_ord [VStr (encs (c :: cs))] m = OOk ([VInt c], m).
Proof.
  intros H S. inversion H; subst. unfold bin_ord, short in *. rewrite encs_cons in *. pose proof (enc_length c) as L. rewrite app_length in *.
  replace (List.length (enc c) + List.length (encs cs) =? 0)%nat with false by (symmetry; apply Nat.eqb_neq; lia).
  rewrite wrap32_id by (unfold in_int; lia). rewrite <- app_assoc. rewrite decode_enc by (assumption || lia). reflexivity.
Qed.
Lemma ord_refused v m : v = VStr [] \/ (forall s, v <> VStr s) -> bin_ord [v] m = OErr.
Proof. intros [->|H]; [reflexivity|]. destruct v; try reflexivity. exfalso. eapply H. reflexivity. Qed.

Lemma chr_ok c m : code_point c -> bin_chr [VInt c] m = OOk ([VStr (enc c)], m).
Proof.
  intros H. unfold bin_chr. unfold code_point in H. rewrite wrap32_id by (unfold in_int; lia). rewrite u32_id by lia.
  rewrite encode_spec by assumption. pose proof (enc_length c). destruct (Z.ltb_spec 32 (Z.of_nat (List.length (enc c)))); [lia|].
  assert (T : text (enc c)) by (exists [enc c]; split; [constructor; [now apply enc_loose|constructor]|cbn; apply app_nil_r]).
  rewrite <- (app_nil_r (enc c)) at 1. rewrite (new_string_text (enc c) []); [reflexivity|exact T|unfold short; lia].
Qed.
Lemma chr_refused z m : in_int z -> ~ code_point z -> bin_chr [VInt z] m = OErr.
Proof.
  intros H C. unfold bin_chr. rewrite wrap32_id by assumption. rewrite encode_out_of_range; [reflexivity|].
  unfold code_point, in_int in *. unfold u32. destruct (Z_lt_le_dec z 0); [|rewrite Z.mod_small; lia].
  replace (z mod 2 ^ 32) with (z + 2 ^ 32); [lia|]. apply Z.mod_unique with (-1); lia.
Qed.
Lemma chr_kind v m : (forall z, v <> VInt z) -> bin_chr [v] m = OErr.
Proof. intros H. destruct v; try reflexivity. exfalso. eapply H. reflexivity. Qed.

Lemma str_of_encs cs : Forall code_point cs -> s_count (str_of (encs cs)) = Z.of_nat (List.length cs).
Proof.
  intros H. unfold str_of. cbn [s_count]. pose proof (strlen_encs cs [] H) as L. rewrite app_nil_r in L. now rewrite L.
Qed.

Lemma count_string other cs m : Forall code_point cs -> m_pend m = false -> bin_count other [VStr (encs cs)] m = OOk ([VInt (Z.of_nat (List.length cs))], m).
Proof. intros H P. unfold bin_count. rewrite P, str_of_encs by assumption. reflexivity. Qed.
Lemma count_list other l vs m : is_list m l vs -> m_pend m = false -> bin_count other [VRef l] m = OOk ([VInt (Z.of_nat (List.length vs))], m).
Proof. intros (lo & H & R) P. unfold bin_count. rewrite H, P. destruct R as (-> & _). reflexivity. Qed.
Lemma count_map other l mo m : nth_error (m_objs m) l = Some (OMap mo) -> m_pend m = false ->
  bin_count other [VRef l] m = OOk ([VInt (Z.of_nat (List.length (m_keys mo)))], m).
Proof. intros H P. unfold bin_count. rewrite H, P. reflexivity. Qed.
Lemma count_refused other v m : (forall s, v <> VStr s) -> (forall l, v <> VRef l) -> bin_count other [v] m = OErr.
Proof. intros A B. destruct v; try reflexivity; exfalso; [eapply A|eapply B]; reflexivity. Qed.

Definition numbers (n : nat) : list value := map (fun i => VInt (Z.of_nat i)) (seq 0 n).
Lemma nth_last {A} (l : list A) x : nth_error (l ++ [x]) (List.length l) = Some x.
Proof. rewrite nth_error_app2, Nat.sub_diag by lia. reflexivity. Qed.

Lemma consecutive_ok n : Z.of_nat n <= 2 ^ 30 -> exists l', consecutive 0 (Z.of_nat n - 1) = ROk l' /\ rep l' (map Z.of_nat (seq 0 n)).
Proof.
  intros H. pose proof (keysof_spec (new_list2 (repeat 0 n)) (repeat 0 n) (rep_new2 _)) as K. rewrite repeat_length in K. specialize (K H).
  unfold list_keysof in K. destruct (rep_new2 (repeat 0 n)) as (C & _). rewrite C, repeat_length in K. exact K.
Qed.

Lemma ints_list_ok n : Z.of_nat n <= 2 ^ 30 -> exists lo, ints_list (consecutive 0 (Z.of_nat n - 1)) = OOk (OList lo) /\ rep lo (numbers n).
Proof.
  intros H. destruct (consecutive_ok n H) as (l' & E & R). eexists. unfold ints_list. rewrite E. cbn [of_res obind]. split; [reflexivity|].
  apply (rep_map VInt) in R. rewrite map_map in R. exact R.
Qed.

Lemma keysof_string other cs m : Forall code_point cs -> Z.of_nat (List.length cs) <= 2 ^ 30 ->
  exists m', bin_keysof other [VStr (encs cs)] m = OOk ([VRef (List.length (m_objs m))], m') /\ is_list m' (List.length (m_objs m)) (numbers (List.length cs)) /\
    (forall l o, nth_error (m_objs m) l = Some o -> nth_error (m_objs m') l = Some o).
Proof.
  intros H B. unfold bin_keysof. rewrite str_of_encs by assumption. destruct (ints_list_ok _ B) as (lo & E & R). rewrite E. cbn [obind alloc ret1].
  eexists. split; [reflexivity|]. split; [exists lo; split; [apply nth_last|exact R]|]. intros l o Hl. cbn [m_objs]. rewrite nth_error_app1; [exact Hl|].
  apply nth_error_Some. congruence.
Qed.
Lemma keysof_list other l vs m : is_list m l vs -> Z.of_nat (List.length vs) <= 2 ^ 30 ->
  exists m', bin_keysof other [VRef l] m = OOk ([VRef (List.length (m_objs m))], m') /\ is_list m' (List.length (m_objs m)) (numbers (List.length vs)) /\
    (forall l o, nth_error (m_objs m) l = Some o -> nth_error (m_objs m') l = Some o).
Proof.
  intros (lo & H & C & _) B. unfold bin_keysof. rewrite H. unfold list_keysof. rewrite C. destruct (ints_list_ok _ B) as (lk & E & R). rewrite E.
  cbn [obind alloc ret1]. eexists. split; [reflexivity|]. split; [exists lk; split; [apply nth_last|exact R]|]. intros k o Hl. cbn [m_objs].
  rewrite nth_error_app1; [exact Hl|]. apply nth_error_Some. congruence.
Qed.
Lemma keysof_map other l mo m : nth_error (m_objs m) l = Some (OMap mo) ->
  exists m', bin_keysof other [VRef l] m = OOk ([VRef (List.length (m_objs m))], m') /\ is_list m' (List.length (m_objs m)) (m_keys mo) /\
    (forall l o, nth_error (m_objs m) l = Some o -> nth_error (m_objs m') l = Some o).
Proof.
  intros H. unfold bin_keysof. rewrite H. cbn [obind alloc ret1]. eexists. split; [reflexivity|]. split.
  - exists (new_list2 (map_keys mo)). split; [apply nth_last|apply rep_new2].
  - intros k o Hl. cbn [m_objs]. rewrite nth_error_app1; [exact Hl|]. apply nth_error_Some. congruence.
Qed.

(** * Names *)
Lemma name_is_self name : name_is (bytes_of name) name = true.
Proof. unfold name_is. apply strncmp_refl. rewrite app_length. cbn. lia. Qed.
Lemma strncmp_names : forall a b, no_nul a -> no_nul b -> strncmp_eq (a ++ [0]) (b ++ [0]) (S (List.length b)) = true -> a = b.
Proof.
  induction a as [|x a IH]; intros [|y b] Na Nb H; try reflexivity.
  - exfalso. cbn [app List.length strncmp_eq] in H. destruct (Z.eqb_spec 0 y) as [<-|]; [|discriminate]. apply Nb. now left.
  - exfalso. cbn [app List.length strncmp_eq] in H. destruct (Z.eqb_spec x 0) as [->|]; [|discriminate]. apply Na. now left.
  - cbn [app List.length] in H. change (strncmp_eq (x :: a ++ [0]) (y :: b ++ [0]) (S (S (List.length b)))) with
      (if x =? y then (if x =? 0 then true else strncmp_eq (a ++ [0]) (b ++ [0]) (S (List.length b))) else false) in H.
    destruct (Z.eqb_spec x y) as [->|]; [|discriminate]. destruct (Z.eqb_spec y 0) as [->|]; [exfalso; apply Na; now left|].
    f_equal. apply IH; [intros I; apply Na; now right|intros I; apply Nb; now right|exact H].
Qed.
Lemma name_is_iff s name : no_nul s -> no_nul (bytes_of name) -> name_is s name = true <-> s = bytes_of name.
Proof. intros A B. split; [apply strncmp_names; assumption|intros ->; apply name_is_self]. Qed.

Lemma slot_of_known tbl s : no_nul s -> Forall (fun e => no_nul (bytes_of (fst e))) tbl ->
  (slot_of tbl s <> None <-> exists name, In name (map fst tbl) /\ s = bytes_of name).
Proof.
  intros H F. induction F as [|[name sl] tbl Hn F IH]; cbn [slot_of map fst].
  - split; [congruence|intros (name & [] & _)].
  - pose proof (name_is_iff s name H Hn) as I. destruct (name_is s name).
    + split; [intros _; exists name; split; [now left|now apply I]|discriminate].
    + rewrite IH. split; intros (x & A & B); exists x; (split; [|exact B]).
      * now right.
      * destruct A as [<-|A]; [|exact A]. assert (false = true) by now apply I. discriminate.
Qed.

Lemma names_no_nul : Forall (fun e => no_nul (bytes_of (fst e))) bins_basic.
Proof. repeat (constructor; [unfold no_nul; cbn; intuition discriminate|]). constructor. Qed.

Theorem known E s m : no_nul s ->
  ((exists name, In name known_names /\ s = bytes_of name) -> exists v m', smap_select E 0 (VStr s) m = OOk (Some v, m')) /\
  (~ (exists name, In name known_names /\ s = bytes_of name) -> smap_select E 0 (VStr s) m = OOk (None, m)).
Proof.
  intros H. pose proof (slot_of_known bins_basic s H names_no_nul) as K. change (map fst bins_basic) with known_names in K.
  unfold smap_select. cbn [Nat.eqb]. destruct (slot_of bins_basic s) as [sl|].
  - split; [intros _; destruct (slot_value m sl) as [v m']; eauto|]. intros N. exfalso. apply N, K. discriminate.
  - split; [|auto]. intros X. exfalso. apply K in X. congruence.
Qed.

(** * Types and their names *)
Definition named (t : tyname) : bool := match t with TyFun | TyNFun | TyClosure | TyAny | TySMap => false | _ => true end.
Lemma typename_names E v m : named (type_of (rt_of (m_objs m)) v) = true ->
  exists s, bin_typename [v] m = OOk ([VStr s], m) /\ bin_type [v] m = OOk ([VType (type_of (rt_of (m_objs m)) v)], m) /\
    smap_select E 0 (VStr s) m = OOk (Some (VType (type_of (rt_of (m_objs m)) v)), m).
Proof.
  unfold bin_typename, bin_type. destruct (type_of (rt_of (m_objs m)) v); try discriminate; intros _.
  all: match goal with |- context [type_name ?t] => exists (bytes_of (type_name t)) end.
  all: split; [vm_compute; reflexivity|]; split; vm_compute; reflexivity.
Qed.
