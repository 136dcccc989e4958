(** Properties of the functions of the prelude: C51. *)
From Coq Require Import ZArith String List Bool Lia.
From Verif Require Import Base ValueModel MapModel ObjModel AstModel SrcModel BuiltinModel LexModel ParseModel PreludeModel PreludeRun PreludeSpec
  PreludeToString PreludeUser.
Import ListNotations.
Open Scope Z_scope.

(** * C51 *)
(** For 0 <= z < 10^18. Missing: the other integers, for which the statement is false. *)
Theorem C51_toString_partial : forall E n z, 0 <= z < 10 ^ 18 -> (22 <= n)%nat -> exists s st,
  run_user E n (return_call (bytes_of "toString") (ECons (EInt z) ENil)) = OOk ([VStr s], st) /\ decimal z s.
Proof. exact toString_int. Qed.
(** The same for a call made at any moment of a program. *)
Theorem C51_toString_anywhere_partial : forall E f z st, with_prelude st -> 0 <= z < 10 ^ 18 -> (21 <= f)%nat -> exists s st',
  call (UE E) (run_call_n (UE E) f) (VRef 40) [VInt z] 1 st = OOk ([VStr s], st') /\ decimal z s /\ with_prelude st'.
Proof. exact toString_anywhere. Qed.
(** Every negative integer is refused with an error. *)
Theorem C51_negative_refuted : forall E n z, z < 0 -> (22 <= n)%nat ->
  run_user E n (return_call (bytes_of "toString") (ECons (EInt z) ENil)) = OErr.
Proof. intros E n z Hz. exact (toString_int_bad E n z true Hz). Qed.
(** From 10^18 on, a multiplication overflows. *)
Theorem C51_large_refuted : forall E n z, 10 ^ 18 <= z < 2^63 -> (22 <= n)%nat ->
  run_user E n (return_call (bytes_of "toString") (ECons (EInt z) ENil)) = OUB.
Proof. intros E n z Hz. exact (toString_int_bad E n z false Hz). Qed.
(** The text of a number is unique: [decimal] is a function. *)
Theorem C51_text_unique : forall z s t, decimal z s -> decimal z t -> s = t.
Proof. exact decimal_unique. Qed.
Example C51_example : exists st, run_user no_env 30 (return_call (bytes_of "toString") (ECons (EInt 90210) ENil)) =
  OOk ([VStr (bytes_of "90210")], st) /\
  exists rest, parse false (bytes_of "return toString(90210);") = POk (return_call (bytes_of "toString") (ECons (EInt 90210) ENil)) rest.
Proof. eexists. split; [vm_compute; reflexivity|]. eexists. vm_compute. reflexivity. Qed.
Example C51_anywhere_example : with_prelude (mkst (mkmem (P ++ [OMap (new_map (-1)); OSum (VType TyInt) (VType TyFloat)]) false) C).
Proof. exists [OMap (new_map (-1)); OSum (VType TyInt) (VType TyFloat)], []. rewrite app_nil_r. reflexivity. Qed.
Example C51_refuted_example :
  run_user no_env 30 (return_call (bytes_of "toString") (ECons (EInt (-5)) ENil)) = OErr /\
  run_user no_env 30 (return_call (bytes_of "toString") (ECons (EInt (10 ^ 18 + 7)) ENil)) = OUB.
Proof. split; vm_compute; reflexivity. Qed.
Example C51_decimal_example : decimal 90210 (bytes_of "90210") /\ ~ decimal 90210 (bytes_of "090210").
Proof.
  assert (D : decimal 90210 (bytes_of "90210")).
  { apply (dec_more 9021 (bytes_of "9021") 0); try lia. apply (dec_more 902 (bytes_of "902") 1); try lia.
    apply (dec_more 90 (bytes_of "90") 2); try lia. apply (dec_more 9 (bytes_of "9") 0); try lia. apply (dec_digit 9); lia. }
  split; [exact D|]. intros H. discriminate (C51_text_unique _ _ _ D H).
Qed.

Print Assumptions C51_toString_partial.
Print Assumptions C51_toString_anywhere_partial.
Print Assumptions C51_negative_refuted.
Print Assumptions C51_large_refuted.
Print Assumptions C51_text_unique.
