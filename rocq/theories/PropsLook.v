(** Looking at values and looking up built-in names: C77. *)
From Coq Require Import ZArith List Lia Bool String.
From Verif Require Import Base Utf8Model Utf8Spec StringModel FloatModel ValueModel ParseExamples MapModel ListModel ListProofs ExeModel ObjModel VmModel VmExamples
  BuiltinModel BuiltinProofs SysProofs CompileModel LookSpec LookProofs.
Import ListNotations.
Open Scope Z_scope.

(** * C77 *)
(** The functions below are the ones a program reaches under these names. *)
Theorem C77_functions : forall E, found_under E 5 "ord" 1 bin_ord /\ found_under E 5 "chr" 1 bin_chr /\ found_under E 0 "count" 1 (bin_count (e_native E N_count)) /\
  found_under E 0 "keysof" 1 (bin_keysof (e_native E N_keysof)) /\ found_under E 0 "type" 1 bin_type /\ found_under E 0 "typename" 1 bin_typename.
Proof. intros E. repeat split; intros m; eexists; (split; [reflexivity|reflexivity]). Qed.

(** [ord] gives the first character of a text. *)
Theorem C77_ord : forall c cs m, Forall code_point (c :: cs) -> short (encs (c :: cs)) -> bin_ord [VStr (encs (c :: cs))] m = OOk ([VInt c], m).
Proof. exact ord_first. Qed.
Theorem C77_ord_refused : forall v m, v = VStr [] \/ (forall s, v <> VStr s) -> bin_ord [v] m = OErr.
Proof. exact ord_refused. Qed.

(** [chr] gives the text with that one character; [ord] undoes it. *)
Theorem C77_chr : forall c m, code_point c -> bin_chr [VInt c] m = OOk ([VStr (enc c)], m) /\ bin_ord [VStr (enc c)] m = OOk ([VInt c], m).
Proof.
  intros c m H. split; [exact (chr_ok c m H)|]. rewrite <- (app_nil_r (enc c)). apply (ord_first c [] m); [now constructor|].
  unfold short, encs. cbn [map List.concat]. rewrite app_nil_r. pose proof (Utf8Proofs.enc_length c). lia.
Qed.
(** A number of 32 bits that is no character is refused; a wider one is cut to 32 bits first. *)
Theorem C77_chr_refused_partial : forall v m, (forall z, v = VInt z -> in_int z /\ ~ code_point z) -> bin_chr [v] m = OErr.
Proof.
  intros v m H. destruct v; try (apply chr_kind; discriminate). destruct (H z eq_refl). now apply chr_refused.
Qed.
Theorem C77_chr_refused_refuted : exists z m, in_i64 z /\ ~ code_point z /\ bin_chr [VInt z] m = OOk ([VStr [65]], m).
Proof. exists (2 ^ 32 + 65), mem0. split; [unfold in_i64; lia|]. split; [unfold code_point; lia|vm_compute; reflexivity]. Qed.

(** [count]: characters of a text, items of a list, keys of a map. *)
Theorem C77_count : forall other m, m_pend m = false ->
  (forall cs, Forall code_point cs -> bin_count other [VStr (encs cs)] m = OOk ([VInt (Z.of_nat (List.length cs))], m)) /\
  (forall l vs, is_list m l vs -> bin_count other [VRef l] m = OOk ([VInt (Z.of_nat (List.length vs))], m)) /\
  (forall l mo, nth_error (m_objs m) l = Some (OMap mo) -> bin_count other [VRef l] m = OOk ([VInt (Z.of_nat (List.length (m_keys mo)))], m)) /\
  (forall v, (forall s, v <> VStr s) -> (forall l, v <> VRef l) -> bin_count other [v] m = OErr).
Proof.
  intros other m P. split; [intros cs H; now apply count_string|]. split; [intros l vs H; now apply count_list|].
  split; [intros l mo H; now apply count_map|]. intros v A B. now apply count_refused.
Qed.

(** [keysof]: a new list of the positions of the characters or of the items, or of the keys in their order. *)
Theorem C77_keysof : forall other m v ks,
  (exists cs, v = VStr (encs cs) /\ Forall code_point cs /\ Z.of_nat (List.length cs) <= 2 ^ 30 /\ ks = map (fun i => VInt (Z.of_nat i)) (seq 0 (List.length cs))) \/
  (exists l vs, v = VRef l /\ is_list m l vs /\ Z.of_nat (List.length vs) <= 2 ^ 30 /\ ks = map (fun i => VInt (Z.of_nat i)) (seq 0 (List.length vs))) \/
  (exists l mo, v = VRef l /\ nth_error (m_objs m) l = Some (OMap mo) /\ ks = m_keys mo) ->
  exists m', bin_keysof other [v] m = OOk ([VRef (List.length (m_objs m))], m') /\ is_list m' (List.length (m_objs m)) ks /\
    (forall l o, nth_error (m_objs m) l = Some o -> nth_error (m_objs m') l = Some o).
Proof.
  intros other m v ks [(cs & -> & H & B & ->)|[(l & vs & -> & H & B & ->)|(l & mo & -> & H & ->)]];
    [exact (keysof_string other cs m H B)|exact (keysof_list other l vs m H B)|exact (keysof_map other l mo m H)].
Qed.

(** [typename] gives the name under which a program finds the type that [type] gives. *)
Theorem C77_typename_partial : forall E v m t, type_of (rt_of (m_objs m)) v = t -> ~ In t [TyFun; TyNFun; TyClosure; TyAny; TySMap] ->
  exists s, bin_typename [v] m = OOk ([VStr s], m) /\ bin_type [v] m = OOk ([VType t], m) /\ smap_select E 0 (VStr s) m = OOk (Some (VType t), m).
Proof.
  intros E v m t <- H. apply typename_names. destruct (type_of _ v); try reflexivity; exfalso; apply H; cbn; auto 6.
Qed.
(** The type of functions has a name that finds nothing. *)
Theorem C77_typename_refuted : exists v m s, bin_typename [v] m = OOk ([VStr s], m) /\ bin_type [v] m = OOk ([VType TyNFun], m) /\
  forall E, smap_select E 0 (VStr s) m = OOk (None, m).
Proof. exists (VRef 0), (mkmem [ONative 0 1] false), (bytes_of "native function"). repeat split; vm_compute; reflexivity. Qed.
Theorem C77_type_names : forall m,
  bin_typename [VNone] m = OOk ([VStr (bytes_of "None")], m) /\ bin_typename [VAny] m = OOk ([VStr (bytes_of "AnyType")], m) /\
  (forall b, bin_typename [VBool b] m = OOk ([VStr (bytes_of "bool")], m)) /\ (forall z, bin_typename [VInt z] m = OOk ([VStr (bytes_of "int")], m)) /\
  (forall z, bin_typename [VFloat z] m = OOk ([VStr (bytes_of "float")], m)) /\ (forall s, bin_typename [VStr s] m = OOk ([VStr (bytes_of "String")], m)) /\
  (forall t, bin_typename [VType t] m = OOk ([VStr (bytes_of "Type")], m)).
Proof. intros m. repeat split; intros; vm_compute; reflexivity. Qed.

(** A program finds exactly the names of the list [known_names], if the name has no zero byte in it. *)
Theorem C77_names_partial : forall E s m, no_nul s ->
  ((exists name, In name known_names /\ s = bytes_of name) -> exists v m', smap_select E 0 (VStr s) m = OOk (Some v, m')) /\
  (~ (exists name, In name known_names /\ s = bytes_of name) -> smap_select E 0 (VStr s) m = OOk (None, m)).
Proof. exact known. Qed.
(** With a zero byte only what is before it counts; and a name that is not in [string] makes the search leave its table. *)
Theorem C77_names_refuted :
  (forall E m, smap_select E 0 (VStr (bytes_of "int" ++ 0 :: bytes_of "x")) m = OOk (Some (VType TyInt), m)) /\
  (forall E s m, no_nul s -> ~ In s (map bytes_of ["ord"; "chr"; "cat"; "trim"; "slice"; "toInt"]%string) -> smap_select E 5 (VStr s) m = OUB) /\
  (exists x, compile (bytes "return string.length;") = ROk x /\
     steps (std_env env0 (Some (VRef 0))) 1000 x 20 (vm_start (mkmem [OSMap 0] false)) = VmModel.SUB).
Proof.
  split; [intros; vm_compute; reflexivity|]. split.
  - intros E s m H N. unfold smap_select. cbn [Nat.eqb]. pose proof (slot_of_known bins_string s H) as K.
    assert (F : Forall (fun e => no_nul (bytes_of (fst e))) bins_string) by (repeat (constructor; [unfold no_nul; cbn; intuition discriminate|]); constructor).
    specialize (K F). destruct (slot_of bins_string s) as [sl|]; [|reflexivity]. exfalso. apply N.
    destruct K as (K & _). destruct K as (name & I & ->); [discriminate|]. apply in_map. exact I.
  - match goal with |- exists x, compile ?t = _ /\ _ => let c := eval vm_compute in (compile t) in match c with ROk ?y => exists y end end.
    split; vm_compute; reflexivity.
Qed.

Definition C77_mem : mem := mkmem [OList (new_list2 [VInt 7; VNone]); OMap (mkmap [-1; -1; -1; -1; -1; 0; -1; -1] [VInt 7] [VRef 0])] false.
Example C77_example : Forall code_point [8364; 97] /\ short (encs [8364; 97]) /\ bin_ord [VStr (encs [8364; 97])] C77_mem = OOk ([VInt 8364], C77_mem) /\
  is_list C77_mem 0 [VInt 7; VNone] /\ bin_count (fun _ _ => OUB) [VStr (encs [8364; 97])] C77_mem = OOk ([VInt 2], C77_mem) /\
  (exists m', bin_keysof (fun _ _ => OUB) [VStr (encs [8364; 97])] C77_mem = OOk ([VRef 2], m') /\ is_list m' 2 [VInt 0; VInt 1]) /\
  type_of (rt_of (m_objs C77_mem)) (VRef 1) = TyMap /\ no_nul (bytes_of "prin") /\ smap_select env0 0 (VStr (bytes_of "prin")) C77_mem = OOk (None, C77_mem) /\
  in_int (-5) /\ ~ code_point (-5) /\ ~ In (bytes_of "length") (map bytes_of ["ord"; "chr"; "cat"; "trim"; "slice"; "toInt"]%string).
Proof.
  assert (F : Forall code_point [8364; 97]) by (repeat (constructor; [unfold code_point; lia|]); constructor).
  assert (L : is_list C77_mem 0 [VInt 7; VNone]) by (eexists; split; [reflexivity|apply rep_new2]).
  split; [exact F|]. split; [vm_compute; reflexivity|]. split; [vm_compute; reflexivity|]. split; [exact L|]. split; [vm_compute; reflexivity|].
  split; [destruct (keysof_string (fun _ _ => OUB) [8364; 97] C77_mem F ltac:(cbn; lia)) as (m' & A & B & _); exists m'; split; [exact A|exact B]|].
  split; [reflexivity|]. split; [unfold no_nul; cbn; intuition discriminate|]. split; [vm_compute; reflexivity|]. split; [unfold in_int; lia|].
  split; [unfold code_point; lia|]. cbn. intuition discriminate.
Qed.

Print Assumptions C77_functions.
Print Assumptions C77_ord.
Print Assumptions C77_ord_refused.
Print Assumptions C77_chr.
Print Assumptions C77_chr_refused_partial.
Print Assumptions C77_chr_refused_refuted.
Print Assumptions C77_count.
Print Assumptions C77_keysof.
Print Assumptions C77_typename_partial.
Print Assumptions C77_typename_refuted.
Print Assumptions C77_type_names.
Print Assumptions C77_names_partial.
Print Assumptions C77_names_refuted.
