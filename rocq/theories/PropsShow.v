(** Printing: C73. *)
From Coq Require Import ZArith String List Bool Lia.
From Verif Require Import Base StringModel ValueModel MapModel ListModel ObjModel BuiltinModel ShowModel ShowSpec ShowProofs.
Import ListNotations.
Open Scope string_scope.
Open Scope list_scope.
Open Scope Z_scope.

(** * C73 *)
(** Printing ends for all values, cyclic or not, writes their texts one after the other and leaves no flag set. *)
Theorem C73_prints : forall ff fb objs, heap_closed objs -> forall argv, Forall (good_val objs) argv ->
  exists ts, bin_print ff fb objs argv = OOk (List.concat ts, repeat false (List.length objs)) /\ Forall2 (shows ff fb objs true []) argv ts.
Proof. exact print_values. Qed.
Theorem C73_one_text : forall ff fb objs v t t', heap_closed objs -> good_val objs v ->
  shows ff fb objs true [] v t -> shows ff fb objs true [] v t' -> t' = t.
Proof. intros ff fb objs v t t' HC G S S'. exact (proj1 (shows_unique ff fb objs) [] v t S HC G t' S'). Qed.
(** Without cycles the text is the whole structure, however much is shared. *)
Theorem C73_full : forall ff fb objs, heap_closed objs -> forall argv, Forall (good_val objs) argv -> Forall (acyclic objs) argv ->
  exists ts, bin_print ff fb objs argv = OOk (List.concat ts, repeat false (List.length objs)) /\ Forall2 (shows ff fb objs false []) argv ts.
Proof. exact print_full. Qed.
(** A string is written up to its first NUL only. *)
Theorem C73_strings : forall ff fb objs s, ~ In 0 s -> bin_print ff fb objs [VStr s] = OOk (s, repeat false (List.length objs)).
Proof. intros ff fb objs s N. cbn. rewrite (str_text_all s N), app_nil_r. reflexivity. Qed.
Theorem C73_nul_refuted : forall ff fb objs s r, ~ In 0 s -> bin_print ff fb objs [VStr (s ++ 0 :: r)] = OOk (s, repeat false (List.length objs)).
Proof. intros ff fb objs s r N. cbn. rewrite (str_text_nul s r N), app_nil_r. reflexivity. Qed.
Theorem C73_buffers : forall bytes rest, Z.of_nat (List.length bytes) < 2 ^ 31 -> Forall (fun b => 0 <= b < 256) bytes ->
  exists ts, print_bytes (bytes ++ rest) (Z.of_nat (List.length bytes)) = ROk (bytes_of "[" ++ join (bytes_of ", ") ts ++ bytes_of "]") /\
    Forall2 byte_shown bytes ts.
Proof. exact bytes_ok. Qed.
Theorem C73_bytes_read_back : forall b b' t, byte_shown b t -> byte_shown b' t -> b = b'.
Proof. exact byte_inj. Qed.
(** A buffer of 2^31 bytes is printed as an empty one. *)
Theorem C73_large_buffer_refuted : forall bytes, Z.of_nat (List.length bytes) = 2 ^ 31 -> print_bytes bytes (Z.of_nat (List.length bytes)) = ROk (bytes_of "[]").
Proof. exact bytes_large. Qed.

(** The list at 0 holds -12, itself, and twice the list at 1, which holds a string. *)
Example C73_example :
  let objs := [OList (mklobj 4 4 [Some (VInt (-12)); Some (VRef 0); Some (VRef 1); Some (VRef 1)]);
               OList (mklobj 1 1 [Some (VStr (bytes_of "ab"))]); OFun 0 VNone; OSum (VType TyInt) (VRef 4); ONullable (VType TyList)] in
  let none := repeat false 5 in
  bin_print (fun _ => []) (fun _ => []) objs [VRef 0] = OOk (bytes_of "[-12, ..., [ab], [ab]]", none) /\
  bin_print (fun _ => []) (fun _ => []) objs [VRef 1; VRef 2; VNone; VRef 3] = OOk (bytes_of "[ab]<function is unprintable>noneint | ?List", none) /\
  heap_closed objs /\ acyclic objs (VRef 1) /\
  print_bytes [255; 10; 3; 9] 3 = ROk (bytes_of "[FF, 0A, 03]").
Proof.
  cbv zeta. split; [vm_compute; reflexivity|]. split; [vm_compute; reflexivity|]. split; [|split].
  - intros l o H. destruct l as [|[|[|[|[|l]]]]]; [| | | | |destruct l; discriminate]; injection H as <-;
      (split; [intros lo E; try discriminate; injection E as <-; eexists; reflexivity|]); intros v Hv; cbn in Hv.
    + destruct Hv as (vs & E & Hv). injection E as <-. cbn in Hv. repeat destruct Hv as [<-|Hv]; cbn; try lia; contradiction.
    + destruct Hv as (vs & E & Hv). injection E as <-. cbn in Hv. repeat destruct Hv as [<-|Hv]; cbn; try lia; try exact I; contradiction.
    + contradiction.
    + destruct Hv as [->| ->]; cbn; [exact I|lia].
    + subst. exact I.
  - constructor. intros l (o & H & K). cbn in H. injection H as <-. destruct K as (vs & E & K). injection E as <-. destruct K as [K|[]]. discriminate.
  - vm_compute. reflexivity.
Qed.
Print Assumptions C73_prints.
Print Assumptions C73_one_text.
Print Assumptions C73_full.
Print Assumptions C73_strings.
Print Assumptions C73_nul_refuted.
Print Assumptions C73_buffers.
Print Assumptions C73_bytes_read_back.
Print Assumptions C73_large_buffer_refuted.
