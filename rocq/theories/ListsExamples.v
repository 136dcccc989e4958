(** Programs for the examples of PropsLists.v. *)
From Coq Require Import ZArith String List Bool Lia Sorting.Permutation Sorting.Sorted.
From Verif Require Import BuiltinModel SysProofs LookSpec MapProofs2 ScopeProofs.
From Verif Require Import Base StringModel FloatModel AstModel LexModel ParseModel ParseExamples ExeModel ValueModel MapModel ObjModel VmModel VmExamples
  CompSpec DepthSpec CodegenModel CompileModel CompileProofs CalcSpec CalcExamples FuelProofs WhileSpec WhileProofs WhileExamples FunSpec ListsSpec ListsProofs ListsSort.
From Verif Require FunExamples.
Import ListNotations.
Open Scope Z_scope.

(** Two names of a list, a list in a list, the characters of a string, an item that is not there. *)
Definition src_alias : list Z := bytes "a = [1, [2, 3], 'noja']; b = a; b[1][2] = 4; a[3] = a[2][3]; c = b[1]; return a, c[2], b[3], a[9];".
(** A list that contains itself. *)
Definition src_knot : list Z := bytes "a = []; a[0] = a; a[1] = 7; return a[0][0][0][1], a;".
(** Two lists cannot be compared; an item cannot be put beyond the end. *)
Definition src_equal : list Z := bytes "a = [1]; b = a; return a == b;".
Definition src_gap : list Z := bytes "a = [1]; a[2] = 3; return a;".
Definition src_sort : list Z :=
  bytes "a = [31, -41, 59, 26, -53, 58, 97, 93, 23]; i = 1; while a[i] != none: { j = i; while j > 0 and a[j - 1] > a[j]: { t = a[j]; a[j] = a[j - 1]; a[j - 1] = t; j = j - 1; } i = i + 1; } return a;".
Definition src_count : list Z := bytes "a = [0]; do a[0] = a[0] * 2; while a[0] == 0;".
(** An index that does not fit 32 bits. *)
Definition src_far : list Z := bytes "a = [7]; return a[4294967296];".

Definition stmts_of (src : list Z) : stmts := match parse true src with POk (SComp ss) _ => ss | _ => SNil end.
Definition alias : stmts := Eval vm_compute in stmts_of src_alias.
Definition knot : stmts := Eval vm_compute in stmts_of src_knot.
Definition equal : stmts := Eval vm_compute in stmts_of src_equal.
Definition gap : stmts := Eval vm_compute in stmts_of src_gap.
Definition count : stmts := Eval vm_compute in stmts_of src_count.
Definition far : stmts := Eval vm_compute in stmts_of src_far.

Definition v_a : list Z := [97].
Definition v_b : list Z := [98].
Definition v_c : list Z := [99].

Ltac abc_few := apply FunExamples.few_b_ok; vm_compute; reflexivity.
Ltac lists_fine := cbn -[chars]; intuition (try discriminate; chars_solve).

Definition count_body : stmt := SExpr (EAss (ESel (EIdent v_a) (EInt 0)) (EBin BMul (ESel (EIdent v_a) (EInt 0)) (EInt 2))).
Definition count_loop : stmt := SDo count_body (EBin BEql (ESel (EIdent v_a) (EInt 0)) (EInt 0)).
Lemma count_ever n : forall s, s v_a = Some (VRef 0) -> lstmt n s [[VInt 0]] count_loop = Unfinished.
Proof.
  induction n as [|n IH]; intros s Hs; [reflexivity|]. cbn [lstmt].
  change (ldoes (lstmt n) s [[VInt 0]] count_loop) with
    (tbind (ldoes (lstmt n) s [[VInt 0]] count_body) (fun r => match r with
      | LFell s1 h1 => tbind (ltest s1 h1 (EBin BEql (ESel (EIdent v_a) (EInt 0)) (EInt 0))) (fun p => if fst p : bool then lstmt n s1 (snd p) count_loop else Told (LFell s1 (snd p)))
      | LBroke s1 h1 => Told (LFell s1 h1) | LGave vs h1 => Told (LGave vs h1) end)).
  assert (Q : ldoes (lstmt n) s [[VInt 0]] count_body = Told (LFell s [[VInt 0]])) by (unfold count_body; cbn [ldoes lsays]; rewrite Hs; reflexivity).
  assert (T : ltest s [[VInt 0]] (EBin BEql (ESel (EIdent v_a) (EInt 0)) (EInt 0)) = Told (true, [[VInt 0]])) by (unfold ltest; cbn [lsays]; rewrite Hs; reflexivity).
  rewrite Q. cbn [tbind]. rewrite T. cbn [tbind fst snd]. apply IH, Hs.
Qed.
Lemma count_unfinished n : ltold count n = Unfinished.
Proof.
  destruct n as [|n]; [reflexivity|]. unfold ltold. cbn [lstmt].
  change (ldoes (lstmt n) nothing [] (SComp count)) with (ldoes_all (lstmt n) nothing [] (SCons (set_ v_a (EList (ECons (EInt 0) ENil))) (SCons count_loop SNil))).
  rewrite (does_set _ nothing [] v_a _ (VRef 0) [[VInt 0]]) by reflexivity. rewrite does_cons.
  change (ldoes (lstmt n) (put_in nothing v_a (VRef 0)) [[VInt 0]] count_loop) with (lstmt (S n) (put_in nothing v_a (VRef 0)) [[VInt 0]] count_loop). rewrite count_ever; reflexivity.
Qed.
