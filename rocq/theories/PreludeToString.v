(** toString of the prelude, and where it fails. *)
From Coq Require Import ZArith String List Lia Bool.
From Verif Require Import Base HashModel Utf8Model StringModel ValueModel MapModel ListModel ExeModel ArithModel ObjModel AstModel CodegenModel
  VmModel SrcModel BuiltinModel BuiltinProofs PreludeModel PreludeRun PreludeProofs PreludeText PreludeSpec.
Import ListNotations.
Open Scope Z_scope.
Opaque P C TOP.

(** * The digits are the decimal representation *)
Lemma digs_last : forall j t, 0 <= t -> digs (S j) t = digs j (t / 10) ++ [48 + t mod 10].
Proof.
  induction j as [|j IH]; intros t Ht.
  - cbn [digs app]. change (10 ^ Z.of_nat 1) with 10. reflexivity.
  - change (digs (S (S j)) t) with ((48 + t / 10 ^ Z.of_nat (S (S j))) :: digs (S j) (t mod 10 ^ Z.of_nat (S (S j)))).
    assert (0 < 10 ^ Z.of_nat (S j)) by (apply Z.pow_pos_nonneg; lia).
    assert (E1 : 10 ^ Z.of_nat (S (S j)) = 10 * 10 ^ Z.of_nat (S j))
      by (replace (Z.of_nat (S (S j))) with (Z.of_nat (S j) + 1) by lia; rewrite ten_succ by lia; lia).
    rewrite IH by (apply Z.mod_pos_bound; lia).
    change (digs (S j) (t / 10)) with ((48 + t / 10 / 10 ^ Z.of_nat (S j)) :: digs j ((t / 10) mod 10 ^ Z.of_nat (S j))).
    cbn [app]. rewrite E1. set (p := 10 ^ Z.of_nat (S j)) in *. clearbody p.
    rewrite Z.div_div by lia. f_equal.
    assert (Em : (t mod (10 * p)) = 10 * ((t / 10) mod p) + t mod 10) by (rewrite Z.rem_mul_r by lia; lia).
    rewrite Em. pose proof (Z.mod_pos_bound t 10).
    f_equal.
    + f_equal. symmetry. apply Z.div_unique with (r := t mod 10); lia.
    + f_equal. f_equal. symmetry. apply Z.mod_unique with (q := (t / 10) mod p); lia.
Qed.

Lemma digs_decimal : forall j n, magnitude n (Z.of_nat j) -> 0 <= n -> decimal n (digs j n).
Proof.
  induction j as [|j IH]; intros n (_ & Hu & Hl) Hn.
  - cbn [digs]. apply dec_digit. cbn in Hu. lia.
  - rewrite digs_last by lia. destruct Hl as [Hl|Hl]; [lia|].
    replace (Z.of_nat (S j)) with (Z.of_nat j + 1) in * by lia. rewrite ten_succ in * by lia. rewrite ten_succ in Hu by lia.
    assert (0 < 10 ^ Z.of_nat j) by (apply Z.pow_pos_nonneg; lia).
    rewrite (Z.div_mod n 10) at 1 by lia. apply dec_more.
    + assert (10 ^ Z.of_nat j <= n / 10) by (apply Z.div_le_lower_bound; lia). lia.
    + apply IH; [|apply Z.div_pos; lia]. split; [lia|]. rewrite ten_succ by lia. split.
      * apply Z.div_lt_upper_bound; lia.
      * right. apply Z.div_le_lower_bound; lia.
    + pose proof (Z.mod_pos_bound n 10). lia.
Qed.

Lemma magnitude_exists n : 0 <= n < 10 ^ 19 -> exists i, magnitude n i.
Proof.
  intros Hn. destruct (Z.eq_dec n 0) as [->|Hz]; [exists 0; unfold magnitude; cbn; lia|].
  assert (forall k, (forall i, 0 <= i < Z.of_nat k -> ~ magnitude n i) -> 10 ^ Z.of_nat k <= n \/ exists i, magnitude n i) as X.
  { induction k as [|k IH]; intros H; [left; cbn; lia|].
    destruct IH as [IH|IH]; [intros i Hi; apply H; lia| |right; assumption].
    destruct (Z.lt_ge_cases n (10 ^ Z.of_nat (S k))) as [G|G]; [|left; assumption].
    right. exists (Z.of_nat k). split; [lia|]. split; [|right; assumption].
    replace (Z.of_nat k + 1) with (Z.of_nat (S k)) by lia. assumption. }
  assert (forall k, (exists i, magnitude n i) \/ 10 ^ Z.of_nat k <= n) as Y.
  { induction k as [|k IH]; [right; cbn; lia|]. destruct IH as [IH|IH]; [left; assumption|].
    destruct (Z.lt_ge_cases n (10 ^ Z.of_nat (S k))) as [G|G]; [|right; assumption].
    left. exists (Z.of_nat k). split; [lia|]. split; [|right; assumption].
    replace (Z.of_nat k + 1) with (Z.of_nat (S k)) by lia. assumption. }
  destruct (Y 19%nat) as [?|Y']; [assumption|]. change (Z.of_nat 19) with 19 in Y'. lia.
Qed.

(** * toString *)
Lemma n_float E : absent E (b "float"). Proof. top. Qed.
Lemma b_type E : builtin E (b "type") VRef [ONative N_type 1]. Proof. smap. Qed.
Lemma b_None E : builtin E (b "None") (fun _ => VType TyNone) []. Proof. intros r. rewrite app_nil_r. vm_compute. reflexivity. Qed.

Lemma r_pardef E ac name d r args sc st st1 st2 st3 v2 :
  bind_params E ac r args sc st = OOk st1 -> m_pend (t_mem st1) = false ->
  eval E ac MVal d [] sc st1 = OOk ([v2], st2) -> eval E ac MTgt (EIdent name) [v2] sc st2 = OOk ([v2], st3) ->
  bind_params E ac (ACons name ONo (OYes d) r) (VNone :: args) sc st = OOk st3.
Proof.
  intros H1 Hp H2 H3. cbn [bind_params]. rewrite H1. cbn [obind]. unfold compare_op. cbn [type_of obj_compare]. rewrite Hp.
  cbn -[eval set_var]. rewrite H2. cbn [obind].
  cbn [eval] in H3. destruct (set_var E (t_mem st2) (sc_locals sc) name v2) as [mm| | | |] eqn:Es; try discriminate H3.
  cbn [obind] in H3. injection H3 as <-. reflexivity.
Qed.

Lemma tos_ok E f n i extra cx : 0 <= n < 10 ^ 18 -> magnitude n i -> (20 <= f)%nat -> exists t,
  run_call_n (UE E) (S f) (fst fn_tos) (snd fn_tos) [VInt n; VNone] (VRef 39) (Out extra cx) =
  OOk ([VStr (digs (Z.to_nat i) n)], Out (extra ++ t) cx).
Proof.
  intros Hn Hm Hf. destruct f as [|f]; [lia|].
  destruct (int_ok E f n i (extra ++ OMap (L NS_tos 8 [VBool true; VInt n; VType TyInt]) :: [ONative N_type 1]) cx) as [t A]; auto; [lia|].
  eexists. unfold fn_tos. cbn [fst snd].
  etransitivity.
  { eapply (c_run P C B E (S f) NS_tos).
    - eapply r_par with (typ := VNone); [eapply r_pardef; [apply r_par0|reflexivity|reflexivity|put]|reflexivity|put].
    - apply s_comp. eapply s_next.
      { eapply s_expr. eapply r_ass1; [reflexivity| |].
        - eapply r_call; [reflexivity| | |].
          + eapply r_args; [apply r_args0|get].
          + native_name b_type n_type.
          + eapply k_new; reflexivity.
        - put. }
      eapply s_next.
      { eapply s_if_f. eapply r_op; [get|value_name b_None n_None|reflexivity]. }
      eapply s_stop. eapply s_if_t.
      { eapply r_op; [get|value_name b_int n_int|reflexivity]. }
      eapply s_ret. eapply r_call; [reflexivity| | |].
      + eapply r_args; [apply r_args0|get].
      + glob g_sfi.
      + eapply k_fun; [vm_compute; reflexivity|vm_compute; reflexivity|exact A|reflexivity].
    - reflexivity. }
  reflexivity.
Qed.

(** * Failures *)
(** An error ([true]) or undefined behaviour. *)
Definition bad {A} (k : bool) : out A := if k then OErr else OUB.
Lemma bad_bind {A B} k (f : A -> out B) : obind (bad k) f = bad k.
Proof. destruct k; reflexivity. Qed.

Section Bad.
Variable E : env.
Variable k : bool.
Let E' := UE E.
Section Ac.
Variable ac : params -> stmt -> list value -> value -> sst -> out (list value * sst).

Lemma x_op m op a c xs sc st st1 st2 v w : eval E' ac MVal a [] sc st = OOk ([v], st1) -> eval E' ac MVal c [] sc st1 = OOk ([w], st2) ->
  binary_op (binop_code op) (t_mem st2) v w = bad k -> eval E' ac m (EBin op a c) xs sc st = bad k.
Proof. intros H1 H2 H3. cbn [eval]. rewrite H1. cbn [obind]. rewrite H2. cbn [obind]. rewrite H3. apply bad_bind. Qed.
Lemma x_op2 m op a c xs sc st st1 v : eval E' ac MVal a [] sc st = OOk ([v], st1) -> eval E' ac MVal c [] sc st1 = bad k ->
  eval E' ac m (EBin op a c) xs sc st = bad k.
Proof. intros H1 H2. cbn [eval]. rewrite H1. cbn [obind]. rewrite H2. apply bad_bind. Qed.
Lemma x_assn m lhs rhs xs sc st : tuple_len lhs <> 1 -> eval E' ac (MCall (tuple_len lhs)) rhs [] sc st = bad k ->
  eval E' ac m (EAss lhs rhs) xs sc st = bad k.
Proof. intros H0 H1. cbn [eval]. rewrite (proj2 (Z.eqb_neq _ _) H0). rewrite H1. apply bad_bind. Qed.
Lemma x_ass1 m lhs rhs xs sc st : tuple_len lhs = 1 -> eval E' ac MVal rhs [] sc st = bad k ->
  eval E' ac m (EAss lhs rhs) xs sc st = bad k.
Proof. intros H0 H1. cbn [eval]. rewrite H0. cbn [Z.eqb Pos.eqb]. rewrite H1. apply bad_bind. Qed.
Lemma x_call m f args zs sc st st1 st2 xs fn : is_arw f = false -> eval_args E' ac args sc st = OOk (xs, st1) ->
  eval E' ac MVal f [] sc st1 = OOk ([fn], st2) -> call E' ac fn xs (returns_of m) st2 = bad k ->
  eval E' ac m (ECall f args) zs sc st = bad k.
Proof.
  intros H0 H1 H2 H3.
  assert (eval E' ac m (ECall f args) zs sc st = obind (eval_args E' ac args sc st) (fun '(xs, s1) =>
    obind (eval E' ac MVal f [] sc s1) (fun '(x, s2) => match x with [fn] => call E' ac fn xs (returns_of m) s2 | _ => OUB end))) as ->
    by (destruct f; try discriminate H0; reflexivity).
  rewrite H1. cbn [obind]. rewrite H2. cbn [obind]. exact H3.
Qed.
Lemma x_fun NS sz vs extra tail cx l code clo ps body args want : nth_error P l = Some (OFun code (VRef clo)) ->
  nth_error C code = Some (ps, body) ->
  ac ps body (adjust (params_len ps) args) (VRef clo) (Out (extra ++ OMap (L NS sz vs) :: tail) cx) = bad k ->
  call E' ac (VRef l) args want (St NS sz vs extra tail cx) = bad k.
Proof.
  intros H0 H1 H2. rewrite Out_St in H2. unfold call.
  assert (nth_error (m_objs (t_mem (St NS sz vs extra tail cx))) l = Some (OFun code (VRef clo))) as -> by (apply nth_pre; assumption).
  assert (nth_error (t_codes (St NS sz vs extra tail cx)) code = Some (ps, body)) as -> by (apply nth_pre; assumption).
  rewrite H2. apply bad_bind.
Qed.
Lemma x_new NS sz vs extra tail cx id argc args want :
  native E id (if argc <? 0 then args else adjust argc args) (t_mem (St NS sz vs extra (tail ++ [ONative id argc]) cx)) = bad k ->
  call E' ac (VRef (length (P ++ extra ++ OMap (L NS sz vs) :: tail))) args want (St NS sz vs extra (tail ++ [ONative id argc]) cx) = bad k.
Proof.
  intros H1. unfold call.
  assert (nth_error (m_objs (t_mem (St NS sz vs extra (tail ++ [ONative id argc]) cx))) (length (P ++ extra ++ OMap (L NS sz vs) :: tail))
    = Some (ONative id argc)) as -> by apply nth_last.
  unfold E', UE, std_env. cbn [e_native]. rewrite H1. apply bad_bind.
Qed.
End Ac.

Variable n : nat.
Let ac := run_call_n E' n.
Let as_ := run_stmt_n E' n.
Notation rs := (run_stmt E' as_ ac).
Notation rss := (run_stmts E' as_ ac).
Lemma x_expr e sc st : eval E' ac MVal e [] sc st = bad k -> rs (SExpr e) sc st = bad k.
Proof. intros H. cbn [run_stmt]. rewrite H. apply bad_bind. Qed.
Lemma x_ret e sc st : eval E' ac MRets e [] sc st = bad k -> rs (SReturn e) sc st = bad k.
Proof. intros H. cbn [run_stmt]. rewrite H. apply bad_bind. Qed.
Lemma x_while c w sc st : eval E' ac MVal c [] sc st = bad k -> rs (SWhile c w) sc st = bad k.
Proof. intros H. cbn [run_stmt]. rewrite H. apply bad_bind. Qed.
Lemma x_stop s r sc st : rs s sc st = bad k -> rss (SCons s r) sc st = bad k.
Proof.
  intros H. change (rss (SCons s r) sc st) with (obind (rs s sc st) (fun '(g, s1) => match g with SigNext => rss r sc s1 | _ => OOk (g, s1) end)).
  rewrite H. apply bad_bind.
Qed.
Lemma x_run NS ps body args c extra cx st1 :
  bind_params E' ac ps args (Sc extra c) (St NS 8 [] extra [] cx) = OOk st1 ->
  rs body (Sc extra c) st1 = bad k ->
  run_call_n E' (S n) ps body args (VRef c) (Out extra cx) = bad k.
Proof.
  intros H1 H2.
  change (run_call_n E' (S n) ps body args (VRef c) (Out extra cx)) with (run_call E' as_ ac ps body args (VRef c) (Out extra cx)).
  unfold run_call.
  rewrite (surjective_pairing (alloc (t_mem (Out extra cx)) (OMap (new_map (-1))))), (new_locals P C NS extra cx).
  change (fst (alloc (t_mem (Out extra cx)) (OMap (new_map (-1))))) with (VRef (length (P ++ extra))).
  change (put_mem (Out extra cx) (t_mem (St NS 8 [] extra [] cx))) with (St NS 8 [] extra [] cx).
  fold (Sc extra c). rewrite H1. cbn [obind]. rewrite H2. apply bad_bind.
Qed.
End Bad.

(** getIntegerMagnitude refuses negative numbers and overflows on those above 10^18. *)
Lemma mag_neg E f n extra cx : n < 0 ->
  run_call_n (UE E) (S f) (fst fn_mag) (snd fn_mag) [VInt n] (VRef 18) (Out extra cx) = bad true.
Proof.
  intros Hn. unfold fn_mag. cbn [fst snd].
  eapply (x_run E true f NS_mag).
  - eapply r_par; [apply r_par0|split; [value_name b_int n_int|reflexivity]|put].
  - apply s_comp. eapply x_stop. eapply x_expr. eapply x_call; [reflexivity| | |].
    + eapply r_args; [apply r_args0|]. eapply r_op; [get|apply r_int|apply (o_geq _ _ _ false); split; [discriminate|lia]].
    + native_name b_assert n_assert.
    + apply x_new. reflexivity.
Qed.

Lemma mag_big E f n extra cx : 10 ^ 18 <= n < 2^63 -> (18 <= f)%nat ->
  run_call_n (UE E) (S f) (fst fn_mag) (snd fn_mag) [VInt n] (VRef 18) (Out extra cx) = bad false.
Proof.
  intros Hn Hf. unfold fn_mag. cbn [fst snd].
  eapply (x_run E false f NS_mag).
  - eapply r_par; [apply r_par0|split; [value_name b_int n_int|reflexivity]|put].
  - apply s_comp. eapply s_next.
    { eapply s_expr. eapply r_call; [reflexivity| | |].
      - eapply r_args; [apply r_args0|]. eapply r_op; [get|apply r_int|apply (o_geq _ _ _ true)]. lia.
      - native_name b_assert n_assert.
      - eapply k_new; reflexivity. }
    eapply s_next. { eapply s_expr. eapply r_ass1; [reflexivity|apply r_int|put]. }
    eapply s_next. { eapply s_expr. eapply r_ass1; [reflexivity|apply r_int|put]. }
    eapply x_stop.
    assert (Hk : exists k g, f = (k + g)%nat /\ Z.of_nat k = 18) by (exists 18%nat, (f - 18)%nat; split; [lia|reflexivity]).
    destruct Hk as (k & g & -> & Hz).
    etransitivity; [apply (mag_steps E n extra _ cx k g 0); [lia|right; rewrite Hz; exact (proj1 Hn)|lia]|].
    rewrite Hz. unfold mag_loop, st_mag. change (0 + 18) with 18. eapply x_while. eapply x_op2; [get|].
    eapply x_op; [get|apply r_int|]. reflexivity.
Qed.

Lemma int_bad E f n (k : bool) extra cx : (if k then n < 0 else 10 ^ 18 <= n < 2^63) -> (19 <= f)%nat ->
  run_call_n (UE E) (S f) (fst fn_int) (snd fn_int) [VInt n] (VRef 20) (Out extra cx) = bad k.
Proof.
  intros Hn Hf. destruct f as [|f]; [lia|].
  assert (M : run_call_n (UE E) (S f) (fst fn_mag) (snd fn_mag) [VInt n] (VRef 18) (Out (extra ++ OMap (L NS_int 8 [VInt n; VBool k]) :: []) cx) = bad k)
    by (destruct k; [now apply mag_neg|apply mag_big; [assumption|lia]]).
  unfold fn_int. cbn [fst snd].
  eapply (x_run E k (S f) NS_int).
  - eapply r_par; [apply r_par0|split; [value_name b_int n_int|reflexivity]|put].
  - apply s_comp. eapply s_next.
    { eapply s_expr. eapply r_ass1; [reflexivity|eapply r_op; [get|apply r_int|apply (o_lss _ _ _ k)]|put].
      destruct k; split; try discriminate; lia. }
    eapply x_stop. eapply x_expr. eapply x_assn; [discriminate|].
    eapply x_call; [reflexivity| | |].
    + eapply r_args; [apply r_args0|get].
    + glob g_mag.
    + eapply x_fun; [vm_compute; reflexivity|vm_compute; reflexivity|exact M].
Qed.

Lemma tos_bad E f n (k : bool) extra cx : (if k then n < 0 else 10 ^ 18 <= n < 2^63) -> (20 <= f)%nat ->
  run_call_n (UE E) (S f) (fst fn_tos) (snd fn_tos) [VInt n; VNone] (VRef 39) (Out extra cx) = bad k.
Proof.
  intros Hn Hf. destruct f as [|f]; [lia|].
  assert (A : run_call_n (UE E) (S f) (fst fn_int) (snd fn_int) [VInt n] (VRef 20)
    (Out (extra ++ OMap (L NS_tos 8 [VBool true; VInt n; VType TyInt]) :: [ONative N_type 1]) cx) = bad k)
    by (apply int_bad; [assumption|lia]).
  unfold fn_tos. cbn [fst snd].
  eapply (x_run E k (S f) NS_tos).
  - eapply r_par with (typ := VNone); [eapply r_pardef; [apply r_par0|reflexivity|reflexivity|put]|reflexivity|put].
  - apply s_comp. eapply s_next.
    { eapply s_expr. eapply r_ass1; [reflexivity| |].
      - eapply r_call; [reflexivity| | |].
        + eapply r_args; [apply r_args0|get].
        + native_name b_type n_type.
        + eapply k_new; reflexivity.
      - put. }
    eapply s_next.
    { eapply s_if_f. eapply r_op; [get|value_name b_None n_None|reflexivity]. }
    eapply x_stop. eapply s_if_t.
    { eapply r_op; [get|value_name b_int n_int|reflexivity]. }
    eapply x_ret. eapply x_call; [reflexivity| | |].
    + eapply r_args; [apply r_args0|get].
    + glob g_sfi.
    + eapply x_fun; [vm_compute; reflexivity|vm_compute; reflexivity|exact A].
Qed.

Lemma decimal_pos z s : decimal z s -> 0 <= z.
Proof. induction 1; lia. Qed.
Lemma decimal_unique z s t : decimal z s -> decimal z t -> s = t.
Proof.
  intros H. revert t. induction H as [d Hd|q s d Hq Hs IH Hd]; intros t Ht; inversion Ht as [d' Hd' E1 E2|q' s' d' Hq' Hs' Hd' E1 E2]; subst; try lia.
  - reflexivity.
  - change (10 * q' + d' = 10 * q + d) in E1. assert (q' = q /\ d' = d) as [-> ->] by lia. f_equal. apply IH; assumption.
Qed.
