(** A user program, run after the prelude, that calls one of the functions of the prelude. *)
From Coq Require Import ZArith String List Bool Lia.
From Verif Require Import Base ValueModel MapModel ObjModel AstModel CodegenModel VmModel SrcModel BuiltinModel PreludeModel PreludeRun PreludeProofs PreludeText
  PreludeSpec PreludeToString.
Import ListNotations.
Open Scope Z_scope.

(** The tree of [return name(args);]. *)
Definition return_call (name : list Z) (args : exprs) : stmt := SComp (SCons (SReturn (ECall (EIdent name) args)) SNil).

Notation U0 := (Out [OMap (new_map (-1))] []).
Notation USc := (mksc (VRef (List.length P)) None).

Lemma user_run E n root : (1 <= n)%nat -> run_user E n root =
  obind (run_stmt_n (UE E) n root USc U0) (fun r => let (g, st) := r in body_results g [VRef (List.length P)] st).
Proof.
  intros Hn. destruct (start_ok E n Hn) as (st & H1 & H2 & H3 & H4).
  unfold run_user. rewrite H1. cbn [obind].
  rewrite (surjective_pairing (plug (t_mem st) (VRef 36) (VRef 0))), H2, H3, H4.
  unfold Out. rewrite app_nil_r. reflexivity.
Qed.

Definition named (name : list Z) (l : nat) : Prop := forall E ac, eval (UE E) ac MVal (EIdent name) [] USc U0 = OOk ([VRef l], U0).
Lemma u_tos : named (b "toString") 40. Proof. intros E ac. vm_compute. reflexivity. Qed.

Lemma user_call E n name es args l code clo ps body : named name l ->
  (forall ac, eval_args (UE E) ac es USc U0 = OOk (args, U0)) ->
  nth_error P l = Some (OFun code (VRef clo)) -> nth_error C code = Some (ps, body) ->
  run_user E (S n) (return_call name es) =
  obind (run_call_n (UE E) n ps body (adjust (params_len ps) args) (VRef clo) U0)
    (fun r => let (vs, st) := r in obind (results 1 vs) (fun ws => if m_pend (t_mem st) then OErr else OOk (ws, st))).
Proof.
  intros Hn Ha Hl Hc. rewrite user_run by lia.
  change (run_stmt_n (UE E) (S n) (return_call name es) USc U0)
    with (obind (obind (obind (eval_args (UE E) (run_call_n (UE E) n) es USc U0) (fun '(xs, st1) =>
      obind (eval (UE E) (run_call_n (UE E) n) MVal (EIdent name) [] USc st1) (fun '(x, st2) =>
        match x with [fn] => call (UE E) (run_call_n (UE E) n) fn xs 1 st2 | _ => OUB end)))
      (fun '(vs, st1) => OOk (SigRet vs, st1)))
      (fun '(g, st1) => match g with SigNext => OOk (SigNext, st1) | _ => OOk (g, st1) end)).
  rewrite Ha. cbn [obind]. rewrite Hn. cbn [obind]. unfold call at 1.
  assert (nth_error (m_objs (t_mem U0)) l = Some (OFun code (VRef clo))) as -> by (apply nth_pre; assumption).
  assert (nth_error (t_codes U0) code = Some (ps, body)) as -> by (apply nth_pre; assumption).
  destruct (run_call_n (UE E) n ps body (adjust (params_len ps) args) (VRef clo) U0) as [[vs st]| | | |]; cbn [obind]; try reflexivity.
  destruct (results 1 vs) as [ws| | | |]; reflexivity.
Qed.

Lemma arg_int E ac z : eval_args (UE E) ac (ECons (EInt z) ENil) USc U0 = OOk ([VInt z], U0).
Proof. reflexivity. Qed.

Lemma toString_int E n z : 0 <= z < 10 ^ 18 -> (22 <= n)%nat -> exists s st,
  run_user E n (return_call (b "toString") (ECons (EInt z) ENil)) = OOk ([VStr s], st) /\ decimal z s.
Proof.
  intros Hz Hn. destruct n as [|[|n]]; try lia.
  destruct (magnitude_exists z) as [i Hi]; [lia|].
  destruct (tos_ok E n z i [OMap (new_map (-1))] []) as [t A]; [assumption|assumption|lia|].
  eexists. eexists. split.
  - rewrite (user_call E (S n) _ _ [VInt z] 40 12 39 (fst fn_tos) (snd fn_tos) u_tos (fun ac => arg_int E ac z)) by (vm_compute; reflexivity).
    change (adjust (params_len (fst fn_tos)) [VInt z]) with [VInt z; VNone]. rewrite A. reflexivity.
  - apply digs_decimal; [rewrite Z2Nat.id by apply Hi; assumption|lia].
Qed.

Lemma toString_int_bad E n z (k : bool) : (if k then z < 0 else 10 ^ 18 <= z < 2^63) -> (22 <= n)%nat ->
  run_user E n (return_call (b "toString") (ECons (EInt z) ENil)) = bad k.
Proof.
  intros Hz Hn. destruct n as [|[|n]]; try lia.
  assert (A : run_call_n (UE E) (S n) (fst fn_tos) (snd fn_tos) [VInt z; VNone] (VRef 39) U0 = bad k) by (apply tos_bad; [assumption|lia]).
  rewrite (user_call E (S n) _ _ [VInt z] 40 12 39 (fst fn_tos) (snd fn_tos) u_tos (fun ac => arg_int E ac z)) by (vm_compute; reflexivity).
  change (adjust (params_len (fst fn_tos)) [VInt z]) with [VInt z; VNone]. rewrite A. apply bad_bind.
Qed.

(** The state of a runtime in which the prelude has been run: what the prelude made is still there. *)
Definition with_prelude (st : sst) : Prop := exists extra cx, st = mkst (mkmem (P ++ extra) false) (C ++ cx).

Lemma toString_anywhere E f z st : with_prelude st -> 0 <= z < 10 ^ 18 -> (21 <= f)%nat -> exists s st',
  call (UE E) (run_call_n (UE E) f) (VRef 40) [VInt z] 1 st = OOk ([VStr s], st') /\ decimal z s /\ with_prelude st'.
Proof.
  intros (extra & cx & ->) Hz Hf. destruct f as [|f]; [lia|].
  destruct (magnitude_exists z) as [i Hi]; [lia|].
  destruct (tos_ok E f z i extra cx) as [t A]; [assumption|assumption|lia|].
  exists (digs (Z.to_nat i) z), (Out (extra ++ t) cx). split; [|split].
  - unfold call. cbn [t_mem m_objs t_codes].
    rewrite (nth_pre hobj P extra 40 (OFun 12 (VRef 39))) by (vm_compute; reflexivity).
    rewrite (nth_pre _ C cx 12 fn_tos) by (vm_compute; reflexivity).
    rewrite (surjective_pairing fn_tos). change (adjust (params_len (fst fn_tos)) [VInt z]) with [VInt z; VNone].
    change (mkst (mkmem (P ++ extra) false) (C ++ cx)) with (Out extra cx). rewrite A. reflexivity.
  - apply digs_decimal; [rewrite Z2Nat.id by apply Hi; assumption|lia].
  - exists (extra ++ t), cx. reflexivity.
Qed.
