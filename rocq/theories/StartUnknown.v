(** C78's programs after the prelude: for C79. *)
From Coq Require Import ZArith String List Lia Bool.
From Verif Require Import BuiltinModel SysProofs LookSpec LookProofs.
From Verif Require Import Base ValueModel ObjModel VmModel SrcModel PreludeModel PreludeRun PreludeUser ScopeSpec ScopeProofs WhileProofs StartSpec StartProofs.
Import ListNotations.
Open Scope Z_scope.

Lemma unknown_prelude E st X : with_prelude st ->
  (forall x, In x X -> ident x /\ ~ exists name, In name (known_names ++ prelude_names) /\ x = bytes_of name) -> unknown (UE E) (t_mem st) X.
Proof.
  intros (extra & cx & ->) HX m' x Hx Pe K. destruct (HX x Hx) as [Id N].
  refine (proj2 (proj2 (names_prelude E m' x Pe _ Id)) N). intros k o H. apply K. cbn [t_mem]. apply has_app. exact H.
Qed.
