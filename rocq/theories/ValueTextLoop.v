(** toString of a list that contains itself never ends: proofs for C83. *)
From Coq Require Import ZArith String List Lia Bool.
From Verif Require Import Base StringModel ValueModel MapModel ListModel ListProofs ExeModel ObjModel AstModel CodegenModel
  VmModel SrcModel BuiltinModel BuiltinProofs PreludeModel PreludeRun PreludeProofs PreludeText PreludeToString PreludeUser PreludeIter PreludeNext
  StartSpec StartProofs TextSpec ValueText.
Import ListNotations.
Open Scope Z_scope.
Opaque P C TOP.
Ltac frames ::= first [exact gets_tos|exact sets_tos|exact gets_sfl|exact sets_sfl].

Section Fuel.
Variable E : env.
Let E' := UE E.
Section Ac.
Variable ac : params -> stmt -> list value -> value -> sst -> out (list value * sst).
Lemma z_ass1 m lhs rhs xs sc st : tuple_len lhs = 1 -> eval E' ac MVal rhs [] sc st = OFuel -> eval E' ac m (EAss lhs rhs) xs sc st = OFuel.
Proof. intros H0 H1. cbn [eval]. rewrite H0. cbn [Z.eqb Pos.eqb]. rewrite H1. reflexivity. Qed.
Lemma z_args e r sc st xs st1 : eval_args E' ac r sc st = OOk (xs, st1) -> eval E' ac MVal e [] sc st1 = OFuel -> eval_args E' ac (ECons e r) sc st = OFuel.
Proof.
  intros H1 H2. change (eval_args E' ac (ECons e r) sc st) with
    (obind (eval_args E' ac r sc st) (fun '(xs, s1) => obind (eval E' ac MVal e [] sc s1) (fun '(x, s2) => OOk (x ++ xs, s2)))).
  rewrite H1. cbn [obind]. rewrite H2. reflexivity.
Qed.
Lemma z_args2 e r sc st : eval_args E' ac r sc st = OFuel -> eval_args E' ac (ECons e r) sc st = OFuel.
Proof.
  intros H1. change (eval_args E' ac (ECons e r) sc st) with
    (obind (eval_args E' ac r sc st) (fun '(xs, s1) => obind (eval E' ac MVal e [] sc s1) (fun '(x, s2) => OOk (x ++ xs, s2)))).
  rewrite H1. reflexivity.
Qed.
Lemma call_eq m f args zs sc st : is_arw f = false -> eval E' ac m (ECall f args) zs sc st = obind (eval_args E' ac args sc st) (fun '(xs, s1) =>
    obind (eval E' ac MVal f [] sc s1) (fun '(x, s2) => match x with [fn] => call E' ac fn xs (returns_of m) s2 | _ => OUB end)).
Proof. intros H. destruct f; try discriminate H; reflexivity. Qed.
Lemma z_callargs m f args zs sc st : is_arw f = false -> eval_args E' ac args sc st = OFuel -> eval E' ac m (ECall f args) zs sc st = OFuel.
Proof. intros H0 H1. rewrite call_eq, H1 by exact H0. reflexivity. Qed.
Lemma z_call m f args zs sc st st1 st2 xs fn : is_arw f = false -> eval_args E' ac args sc st = OOk (xs, st1) ->
  eval E' ac MVal f [] sc st1 = OOk ([fn], st2) -> call E' ac fn xs (returns_of m) st2 = OFuel -> eval E' ac m (ECall f args) zs sc st = OFuel.
Proof. intros H0 H1 H2 H3. rewrite call_eq, H1 by exact H0. cbn [obind]. rewrite H2. exact H3. Qed.
Lemma z_fun NS sz vs extra tail cx l code clo ps body args want : nth_error P l = Some (OFun code (VRef clo)) ->
  nth_error C code = Some (ps, body) ->
  ac ps body (adjust (params_len ps) args) (VRef clo) (Out (extra ++ OMap (L NS sz vs) :: tail) cx) = OFuel ->
  call E' ac (VRef l) args want (St NS sz vs extra tail cx) = OFuel.
Proof.
  intros H0 H1 H2. rewrite Out_St in H2. unfold call.
  assert (nth_error (m_objs (t_mem (St NS sz vs extra tail cx))) l = Some (OFun code (VRef clo))) as -> by (apply nth_pre; assumption).
  assert (nth_error (t_codes (St NS sz vs extra tail cx)) code = Some (ps, body)) as -> by (apply nth_pre; assumption).
  rewrite H2. reflexivity.
Qed.
End Ac.
Variable n : nat.
Let ac := run_call_n E' n.
Let as_ := run_stmt_n E' n.
Notation rs := (run_stmt E' as_ ac).
Notation rss := (run_stmts E' as_ ac).
Lemma z_expr e sc st : eval E' ac MVal e [] sc st = OFuel -> rs (SExpr e) sc st = OFuel.
Proof. intros H. cbn [run_stmt]. rewrite H. reflexivity. Qed.
Lemma z_ret e sc st : eval E' ac MRets e [] sc st = OFuel -> rs (SReturn e) sc st = OFuel.
Proof. intros H. cbn [run_stmt]. rewrite H. reflexivity. Qed.
Lemma z_while c w sc st st1 : eval E' ac MVal c [] sc st = OOk ([VBool true], st1) -> rs w sc st1 = OFuel -> rs (SWhile c w) sc st = OFuel.
Proof. intros H H1. cbn [run_stmt]. rewrite H. cbn [obind]. rewrite H1. reflexivity. Qed.
Lemma z_stop s r sc st : rs s sc st = OFuel -> rss (SCons s r) sc st = OFuel.
Proof.
  intros H. change (rss (SCons s r) sc st) with (obind (rs s sc st) (fun '(g, s1) => match g with SigNext => rss r sc s1 | _ => OOk (g, s1) end)).
  rewrite H. reflexivity.
Qed.
Lemma z_run NS ps body args c extra cx st1 :
  bind_params E' ac ps args (Sc extra c) (St NS 8 [] extra [] cx) = OOk st1 -> rs body (Sc extra c) st1 = OFuel ->
  run_call_n E' (S n) ps body args (VRef c) (Out extra cx) = OFuel.
Proof.
  intros H1 H2.
  change (run_call_n E' (S n) ps body args (VRef c) (Out extra cx)) with (run_call E' as_ ac ps body args (VRef c) (Out extra cx)).
  unfold run_call.
  rewrite (surjective_pairing (alloc (t_mem (Out extra cx)) (OMap (new_map (-1))))), (new_locals P C NS extra cx).
  change (fst (alloc (t_mem (Out extra cx)) (OMap (new_map (-1))))) with (VRef (length (P ++ extra))).
  change (put_mem (Out extra cx) (t_mem (St NS 8 [] extra [] cx))) with (St NS 8 [] extra [] cx).
  fold (Sc extra c). rewrite H1. cbn [obind]. rewrite H2. reflexivity.
Qed.
End Fuel.

Section Self.
Variables (E : env) (cx : list (params * stmt)) (objs : list hobj) (l : nat) (lo : lobj value) (rest : list value).
Hypotheses (Hl : nth_error objs l = Some (OList lo)) (R : rep lo (VRef l :: rest)) (Hn : Z.of_nat (length rest) < 2 ^ 30).

Lemma sfl_self f extra : ext objs extra ->
  (forall f' extra', (f' < f)%nat -> ext objs extra' -> run_call_n (UE E) f' (fst fn_tos) (snd fn_tos) [VRef l; VNone] (VRef 39) (Out extra' cx) = OFuel) ->
  run_call_n (UE E) f (fst fn_sfl) (snd fn_sfl) [VRef l] (VRef 28) (Out extra cx) = OFuel.
Proof.
  intros He IH. destruct f as [|f]; [reflexivity|].
  pose proof (IH f (extra ++ OMap (L NS_sfl 8 [VRef l; VStr [91]; VInt 0]) :: [ONative N_count 1]) ltac:(lia) ltac:(now apply ext_app)) as A.
  unfold fn_sfl. cbn [fst snd]. eapply (z_run E f NS_sfl).
  - eapply r_par; [apply r_par0|split; [value_name b_List n_List|]|put].
    eapply is_kind; [apply nth_mid; exact (He _ _ Hl)|reflexivity|left; reflexivity].
  - apply s_comp. eapply s_next.
    { eapply s_expr. eapply r_ass1; [reflexivity|str|put]. }
    eapply s_next.
    { eapply s_expr. eapply r_ass1; [reflexivity|apply r_int|put]. }
    eapply z_stop. eapply z_while.
    { eapply r_op; [get| |].
      - eapply r_call; [reflexivity|eapply r_args; [apply r_args0|get]|native_name b_count n_count|eapply count_ok; [exact (He _ _ Hl)|exact R]].
      - apply (o_lss _ _ _ true). cbn [length]. lia. }
    apply s_comp. eapply z_stop. eapply z_expr. eapply z_ass1; [reflexivity|]. eapply z_callargs; [reflexivity|]. eapply z_args2. eapply z_args; [apply r_args0|].
    eapply z_call; [reflexivity| | |].
    + eapply r_args; [apply r_args0|]. eapply r_sel; [exact I|get|get|].
      eapply (in_list _ _ _ _ _ 0%nat); [apply nth_mid; exact (He _ _ Hl)|exact R|cbn [length]; lia|reflexivity].
    + value_name b_tos n_tos.
    + eapply z_fun; [vm_compute; reflexivity| |exact A]. vm_compute. reflexivity.
Qed.

Lemma tos_self : forall f extra, ext objs extra -> run_call_n (UE E) f (fst fn_tos) (snd fn_tos) [VRef l; VNone] (VRef 39) (Out extra cx) = OFuel.
Proof.
  induction f as [f IH] using (well_founded_induction Wf_nat.lt_wf). intros extra He. destruct f as [|f]; [reflexivity|].
  assert (Ht : has_type extra (VRef l) TyList) by exact (type_at _ _ _ _ _ He Hl eq_refl).
  pose proof (sfl_self f (tos_extra extra (VRef l) TyList) ltac:(now apply ext_app)) as A. specialize (A ltac:(intros f' e' Hf He'; apply IH; [lia|exact He'])).
  unfold fn_tos. cbn [fst snd]. eapply (z_run E f NS_tos).
  - tos_head Ht.
  - apply s_comp. tos_type Ht. no_bin b_None n_None. no_bin b_int n_int. no_bin b_float n_float.
    eapply z_stop. eapply s_if_t; [eapply r_op; [get|value_name b_List n_List|reflexivity]|].
    eapply z_ret. eapply z_call; [reflexivity|eapply r_args; [apply r_args0|get]|glob g_sfl|].
    eapply z_fun; [vm_compute; reflexivity| |exact A]. vm_compute. reflexivity.
Qed.
End Self.

Lemma toString_self E f st l lo rest : with_prelude st -> nth_error (m_objs (t_mem st)) l = Some (OList lo) -> rep lo (VRef l :: rest) ->
  Z.of_nat (length rest) < 2 ^ 30 -> call_named E f "toString" [VRef l] st = OFuel.
Proof.
  intros (extra & cx & ->) Hl R Hn. cbn [t_mem m_objs] in *.
  change (mkst (mkmem (P ++ extra) false) (C ++ cx)) with (Out extra cx).
  found_call 40%nat 12%nat 39%nat fn_tos. change (adjust (params_len (fst fn_tos)) [VRef l]) with [VRef l; VNone].
  rewrite (tos_self E cx (P ++ extra) l lo rest Hl R Hn f extra); [reflexivity|]. intros k o X. exact X.
Qed.
