(** Where the names of types mean types: for C91. *)
From Coq Require Import ZArith String List Lia Bool.
From Verif Require Import BuiltinModel SysProofs LookSpec LookProofs.
From Verif Require Import Base ValueModel ObjModel VmModel SrcModel AstModel PreludeModel PreludeRun PreludeUser ScopeSpec ScopeProofs WhileProofs StartSpec StartProofs
  FunSpec FunProofs.
Import ListNotations.
Open Scope Z_scope.

(** * The names of types in the builtins *)
Lemma kind_cases (P : list Z -> kind -> Prop) : Forall (fun e => P (letters (fst e)) (snd e)) kinds -> forall x k, kind_of x = Some k -> P x k.
Proof.
  intros F x k. unfold kind_of. destruct (find _ kinds) as [e|] eqn:Q; [|discriminate]. intros [= <-]. apply find_some in Q. destruct Q as [Hin Q].
  destruct (list_eq_dec _ _ _) as [D|]; [|discriminate]. rewrite Forall_forall in F. specialize (F e Hin). rewrite D in F. exact F.
Qed.
Lemma kind_select E m x k : kind_of x = Some k -> smap_select E 0 (VStr x) m = OOk (Some (kind_value k), m).
Proof. revert x k. apply kind_cases. repeat (apply Forall_cons; [reflexivity|]). apply Forall_nil. Qed.
Lemma kind_of_ident x k : kind_of x = Some k -> ident x.
Proof. revert x k. apply kind_cases. repeat (apply Forall_cons; [split; [repeat constructor; discriminate|vm_compute; reflexivity]|]). apply Forall_nil. Qed.
Lemma types_std E m KT b : nth_error (m_objs m) b = Some (OSMap 0) -> knows_types (std_env E (Some (VRef b))) m KT.
Proof.
  intros Hb m' x k Hx Hk Pm K. cbn [get_in std_env e_builtins]. unfold select_of.
  assert (Q : forall n, obj_select (std_env E (Some (VRef b))) n m' (VRef b) (VStr x) = OOk (Some (kind_value k), m')).
  { intros n. destruct n; cbn [obj_select]; rewrite (K _ _ Hb); cbn [std_env e_smap]; exact (kind_select E m' x k Hk). }
  rewrite Q. reflexivity.
Qed.

Lemma types_prelude E st KT : with_prelude st -> knows_types (UE E) (t_mem st) KT.
Proof.
  intros (extra & cx & ->) m' x k Hx Hk Pe K.
  assert (Hp : has_prelude m') by (intros i o H; apply K; cbn [t_mem]; apply has_app; exact H).
  change (e_builtins (UE E)) with (Some (VRef B)). cbn [get_in]. rewrite name_select, (kind_select E m' x k Hk); auto. exact (kind_of_ident x k Hk).
Qed.
