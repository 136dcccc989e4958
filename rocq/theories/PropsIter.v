(** Properties of the iterators of the prelude: C52. *)
From Coq Require Import ZArith String List Bool Lia.
From Verif Require Import Base ValueModel ListModel ListProofs MapModel MapSpec MapProofs MapProofs2 ObjModel AstModel CodegenModel VmModel SrcModel BuiltinModel LexModel ParseModel
  PreludeModel PreludeRun PreludeUser PreludeNext PreludeVisit.
Import ListNotations.
Open Scope Z_scope.

(** * C52 *)
(** Lists: makeIterator(l), then [n] calls it->next(), whatever [n] and the elements. *)
Theorem C52_lists : forall E f st s lo vs, with_prelude st -> nth_error (m_objs (t_mem st)) s = Some (OList lo) -> rep lo vs ->
  Z.of_nat (length vs) <= 2 ^ 30 -> (2 <= f)%nat ->
  exists it st', call (UE E) (run_call_n (UE E) f) (VRef 38) [VRef s] 1 st = OOk ([it], st') /\ with_prelude st' /\
  forall n, visit E f it n st' = OOk (map (fun i => match nth_error vs i with
    Some v => [v; VInt (Z.of_nat i); VInt (Z.of_nat i)] | None => [VNone; VNone; VNone] end) (seq 0 n)).
Proof. exact iterate_list. Qed.
(** Maps filled by a history of stores. Missing: maps that grew with keys of negative hash (refuted below), floating point zeros, lists
    and maps as keys; and maps with an entry "iter", which makeIterator calls instead. *)
Theorem C52_maps_partial : forall E f st s num h mo, with_prelude st -> nth_error (m_objs (t_mem st)) s = Some (OMap mo) -> filled num h mo ->
  the_value h (VStr (bytes_of "iter")) = VNone -> (2 <= f)%nat ->
  exists it st', call (UE E) (run_call_n (UE E) f) (VRef 38) [VRef s] 1 st = OOk ([it], st') /\ with_prelude st' /\
  forall n, visit E f it n st' = OOk (map (fun i => match nth_error (firsts veqb (map fst h)) i with
    Some k => [the_value h k; k; VInt (Z.of_nat i)] | None => [VNone; VNone; VNone] end) (seq 0 n)).
Proof. exact iterate_map. Qed.
(** [call_next] is the call it->next() with three results wanted. *)
Theorem C52_next_is_the_method : forall E f name sc st it, eval (UE E) (run_call_n (UE E) f) MVal (EIdent name) [] sc st = OOk ([it], st) ->
  eval (UE E) (run_call_n (UE E) f) (MCall 3) (ECall (EArw (EIdent name) (EStr (bytes_of "next"))) ENil) [] sc st = call_next E f it st.
Proof. exact next_expr. Qed.
(** A map that lost a key when it grew: its iterator gives none for a key that was stored. *)
Theorem C52_maps_refuted : exists (h : list (value * value)) mo it st' rs,
  map_inserts vhash (obj_compare (fun _ => TyList)) (new_map (-1)) h = InsOk mo /\
  call (UE no_env) (run_call_n (UE no_env) 9) (VRef 38) [VRef (length P)] 1 (mkst (mkmem (P ++ [OMap mo]) false) C) = OOk ([it], st') /\
  visit no_env 9 it 6 st' = OOk rs /\
  nth_error rs 4 = Some [VNone; VInt 27; VInt 4] /\ last_stored veqb h (VInt 27) = Some (VInt 27).
Proof.
  exists (map (fun k => (VInt k, VInt k)) [1; 5; 8; 11; 27; 100]). eexists. eexists. eexists. eexists.
  split; [vm_compute; reflexivity|]. split; [vm_compute; reflexivity|]. split; [vm_compute; reflexivity|]. split; vm_compute; reflexivity.
Qed.

(** The program  it = makeIterator([7, 8]); a, b, c = it->next(); a, b, c = it->next(); d, e, f = it->next(); return a, b, c, d, e, f;  *)
Example C52_example :
  match parse false (bytes_of "it = makeIterator([7, 8]); a, b, c = it->next(); a, b, c = it->next(); d, e, f = it->next(); return a, b, c, d, e, f;") with
  | POk root _ => match run_user no_env 20 root with OOk (rs, _) => rs | _ => [] end
  | _ => []
  end = [VInt 8; VInt 1; VInt 1; VNone; VNone; VNone].
Proof. vm_compute. reflexivity. Qed.
(** The hypotheses hold: a list of two elements, and a map filled with three stores, one of which replaces a value. *)
Example C52_lists_example : exists lo, with_prelude (mkst (mkmem (P ++ [OList lo]) false) C) /\ rep lo [VInt 7; VStr (bytes_of "x")] /\
  nth_error (P ++ [OList lo]) (length P) = Some (OList lo).
Proof.
  exists (new_list2 [VInt 7; VStr (bytes_of "x")]). split; [|split].
  - exists [OList (new_list2 [VInt 7; VStr (bytes_of "x")])], []. rewrite app_nil_r. reflexivity.
  - apply rep_new2.
  - rewrite nth_error_app2 by lia. rewrite Nat.sub_diag. reflexivity.
Qed.
Example C52_maps_example : exists mo, filled (-1) [(VInt 3, VNone); (VBool true, VInt 9); (VInt 3, VInt 4)] mo /\
  firsts veqb [VInt 3; VBool true; VInt 3] = [VInt 3; VBool true] /\
  the_value [(VInt 3, VNone); (VBool true, VInt 9); (VInt 3, VInt 4)] (VInt 3) = VInt 4.
Proof.
  eexists. split; [|split; vm_compute; reflexivity]. split; [split; vm_compute; congruence|].
  split; [right; vm_compute; reflexivity|]. split; [repeat constructor|]. vm_compute. reflexivity.
Qed.
Example C52_method_example : exists sc st it,
  eval (UE no_env) (run_call_n (UE no_env) 5) MVal (EIdent (bytes_of "makeIterator")) [] sc st = OOk ([it], st).
Proof. exists USc, U0, (VRef 38). vm_compute. reflexivity. Qed.

Print Assumptions C52_lists.
Print Assumptions C52_maps_partial.
Print Assumptions C52_next_is_the_method.
Print Assumptions C52_maps_refuted.
