(** stringFromInteger and toString of the prelude. *)
From Coq Require Import ZArith String List Lia Bool.
From Verif Require Import Base HashModel Utf8Model StringModel ValueModel MapModel ListModel ExeModel ArithModel ObjModel AstModel CodegenModel
  VmModel SrcModel BuiltinModel BuiltinProofs PreludeModel PreludeRun PreludeProofs.
Import ListNotations.
Open Scope Z_scope.
Opaque P C TOP.

Lemma g_num E : found E (b "Numeric") (VRef 7). Proof. top. Qed.
Lemma b_abs E : builtin E (b "abs") (fun _ => VRef 48) []. Proof. intros r. rewrite app_nil_r. vm_compute. reflexivity. Qed.

(** * abs *)
Lemma abs_ok E n extra cx z : - 2^63 < z < 2^63 -> exists t,
  run_call_n (UE E) (S n) (fst fn_abs) (snd fn_abs) [VInt z] (VRef 47) (Out extra cx) = OOk ([VInt (Z.abs z)], Out (extra ++ t) cx).
Proof.
  intros Hz. eexists. unfold fn_abs. cbn [fst snd].
  etransitivity.
  { eapply (c_run P C B E n NS_abs).
    - eapply r_par; [apply r_par0|split; [glob g_num|vm_compute; reflexivity]|put].
    - apply s_comp. destruct (Z.ltb_spec z 0).
      + eapply s_stop. eapply s_if_t.
        { eapply r_op; [get|apply r_int|apply o_lss; lia]. }
        eapply s_ret. eapply r_un; [get|]. cbn [unop_code unary_op neg_op]. rewrite int_res_ok by lia.
        replace (- z) with (Z.abs z) by lia. reflexivity.
      + eapply s_next.
        { eapply s_if_f. eapply r_op; [get|apply r_int|apply o_lss; lia]. }
        eapply s_stop. eapply s_ret. rewrite Z.abs_eq by lia. get.
    - reflexivity. }
  reflexivity.
Qed.

(** * getIntegerMagnitude *)
Definition mag_loop := Eval vm_compute in
  match snd fn_mag with SComp (SCons _ (SCons _ (SCons _ (SCons w _)))) => w | s => s end.
Definition st_mag n i extra tail cx := St NS_mag 8 [VInt n; VInt i; VInt (10 ^ i)] extra tail cx.

Lemma ten_succ i : 0 <= i -> 10 ^ (i + 1) = 10 ^ i * 10.
Proof. intros H. rewrite Z.pow_add_r by lia. reflexivity. Qed.

Lemma mag_cond E f n i extra tail cx (r : bool) : 0 <= i -> 10 ^ (i + 1) < 2^63 -> (r = true <-> n >= 10 ^ (i + 1)) ->
  eval (UE E) (run_call_n (UE E) f) MVal
    (EBin BGeq (EIdent (b "n")) (EBin BMul (EIdent (b "powr")) (EInt 10))) [] (Sc extra 18) (st_mag n i extra tail cx) =
  OOk ([VBool r], st_mag n i extra tail cx).
Proof.
  intros Hi Hp Hr. assert (0 < 10 ^ i) by (apply Z.pow_pos_nonneg; lia). rewrite ten_succ in * by lia. unfold st_mag.
  eapply r_op; [get|eapply r_op; [get|apply r_int|apply o_mul; clear Hr; set (p := 10 ^ i) in *; clearbody p; lia]|]. apply o_geq. exact Hr.
Qed.

Lemma mag_step E f n i extra tail cx : 0 <= i -> 10 ^ (i + 1) <= n -> n < 2^63 ->
  run_stmt (UE E) (run_stmt_n (UE E) (S f)) (run_call_n (UE E) (S f)) mag_loop (Sc extra 18) (st_mag n i extra tail cx) =
  run_stmt (UE E) (run_stmt_n (UE E) f) (run_call_n (UE E) f) mag_loop (Sc extra 18) (st_mag n (i + 1) extra tail cx).
Proof.
  intros Hi Hp Hn. assert (0 < 10 ^ i) by (apply Z.pow_pos_nonneg; lia). assert (i < 10 ^ i) by (apply Z.pow_gt_lin_r; lia).
  assert (10 ^ (i + 1) = 10 ^ i * 10) by (now apply ten_succ).
  unfold mag_loop at 1. eapply s_while_t.
  - apply (mag_cond E (S f) n i); lia.
  - apply s_comp. unfold st_mag. eapply s_next.
    { eapply s_expr. eapply r_ass1; [reflexivity|eapply r_op; [apply r_int|get|apply o_mul]|put].
      lia. }
    eapply s_next; [|apply s_nil].
    { eapply s_expr. eapply r_ass1; [reflexivity|eapply r_op; [apply r_int|get|apply o_add]|put]. lia. }
  - unfold st_mag. rewrite (Z.add_comm i 1). rewrite Z.pow_add_r by lia. reflexivity.
Qed.

Lemma mag_steps E n extra tail cx k : forall f i, 0 <= i -> k = 0%nat \/ 10 ^ (i + Z.of_nat k) <= n -> n < 2^63 ->
  run_stmt (UE E) (run_stmt_n (UE E) (k + f)) (run_call_n (UE E) (k + f)) mag_loop (Sc extra 18) (st_mag n i extra tail cx) =
  run_stmt (UE E) (run_stmt_n (UE E) f) (run_call_n (UE E) f) mag_loop (Sc extra 18) (st_mag n (i + Z.of_nat k) extra tail cx).
Proof.
  induction k as [|k IH]; intros f i Hi Hp Hn.
  - cbn [Nat.add Z.of_nat]. rewrite Z.add_0_r. reflexivity.
  - destruct Hp as [Hp|Hp]; [discriminate Hp|].
    cbn [Nat.add]. rewrite Nat2Z.inj_succ in *. rewrite mag_step; [|lia| |lia].
    + rewrite IH; [|lia| |lia]; [do 2 f_equal; lia|]. right.
      replace (i + 1 + Z.of_nat k) with (i + Z.succ (Z.of_nat k)) by lia. assumption.
    + etransitivity; [|exact Hp]. apply Z.pow_le_mono_r; lia.
Qed.

(** The magnitude of a number: how many times it can be divided by ten. *)
Definition magnitude (n i : Z) : Prop := 0 <= i /\ n < 10 ^ (i + 1) /\ (i = 0 \/ 10 ^ i <= n).

Lemma mag_ok E f n i extra cx : 0 <= n < 10 ^ 18 -> magnitude n i -> (18 <= f)%nat -> exists t,
  run_call_n (UE E) (S f) (fst fn_mag) (snd fn_mag) [VInt n] (VRef 18) (Out extra cx) = OOk ([VInt i; VInt (10 ^ i)], Out (extra ++ t) cx).
Proof.
  intros Hn (Hi & Hu & Hl) Hf.
  assert (Hi17 : i <= 17).
  { destruct Hl as [->|Hl]; [lia|]. destruct (Z.le_gt_cases i 17) as [|G]; [assumption|].
    pose proof (Z.pow_le_mono_r 10 18 i). lia. }
  assert (Hb : 10 ^ (i + 1) < 2^63) by (pose proof (Z.pow_le_mono_r 10 (i + 1) 18); lia).
  eexists. unfold fn_mag. cbn [fst snd].
  etransitivity.
  { eapply (c_run P C B E f NS_mag).
    - eapply r_par; [apply r_par0|split; [value_name b_int n_int|reflexivity]|put].
    - apply s_comp. eapply s_next.
      { eapply s_expr. eapply r_call; [reflexivity| | |].
        - eapply r_args; [apply r_args0|]. eapply r_op; [get|apply r_int|apply (o_geq _ _ _ true)]. lia.
        - native_name b_assert n_assert.
        - eapply k_new; reflexivity. }
      eapply s_next. { eapply s_expr. eapply r_ass1; [reflexivity|apply r_int|put]. }
      eapply s_next. { eapply s_expr. eapply r_ass1; [reflexivity|apply r_int|put]. }
      eapply s_next.
      { replace f with (Z.to_nat i + (f - Z.to_nat i))%nat by lia.
        etransitivity; [apply (mag_steps E n extra _ cx (Z.to_nat i) (f - Z.to_nat i) 0); [lia| |lia]|].
        - rewrite Z2Nat.id by lia. rewrite Z.add_0_l. destruct Hl as [Hz|Hz]; [left; rewrite Hz; reflexivity|right; exact Hz].
        - rewrite Z2Nat.id by lia. rewrite Z.add_0_l. unfold mag_loop. eapply s_while_f. apply mag_cond; try lia. }
      unfold st_mag. eapply s_stop. eapply s_ret. eapply r_pair; get.
    - reflexivity. }
  reflexivity.
Qed.

(** * stringFromInteger *)
Lemma r_assn E ac m lhs rhs xs sc st st1 st2 vs ws : tuple_len lhs <> 1 ->
  eval E ac (MCall (tuple_len lhs)) rhs [] sc st = OOk (vs, st1) ->
  eval E ac MTgt lhs vs sc st1 = OOk (ws, st2) -> eval E ac m (EAss lhs rhs) xs sc st = OOk (ws, st2).
Proof.
  intros H0 H1 H2. cbn [eval]. rewrite (proj2 (Z.eqb_neq _ _) H0). rewrite H1. cbn [obind]. exact H2.
Qed.
Lemma r_tgt2 E ac x y v w xs ys sc st st1 st2 : eval E ac MTgt (EIdent y) [w] sc st = OOk (xs, st1) ->
  eval E ac MTgt (EIdent x) [v] sc st1 = OOk (ys, st2) ->
  eval E ac MTgt (EPair (EIdent x) (EIdent y)) [v; w] sc st = OOk (ys, st2).
Proof.
  intros H1 H2.
  change (eval E ac MTgt (EPair (EIdent x) (EIdent y)) [v; w] sc st) with
    (obind (eval E ac MTgt (EIdent y) [w] sc st) (fun '(_, s1) => eval E ac MTgt (EIdent x) [v] sc s1)).
  rewrite H1. exact H2.
Qed.

Definition int_loop := Eval vm_compute in
  match snd fn_int with SComp (SCons _ (SCons _ (SCons _ (SCons _ (SCons w _))))) => w | s => s end.
(** The digits of t, the leading one being worth 10^j. *)
Fixpoint digs (j : nat) (t : Z) : list Z :=
  match j with
  | O => [48 + t]
  | S j' => (48 + t / 10 ^ Z.of_nat j) :: digs j' (t mod 10 ^ Z.of_nat j)
  end.

Definition st_int n neg magn p t s dg extra tail cx :=
  St NS_int 16 ([VInt n; neg; VInt p; magn; VInt t; VStr s] ++ dg) extra tail cx.

Lemma text_digs s : Forall digit s -> text s.
Proof. intros H. apply ascii_text. eapply Forall_impl; [|exact H]. unfold digit. intros; lia. Qed.

Lemma int_step E f n neg magn j t s dg extra tail cx : 0 <= t < 10 ^ (Z.of_nat j + 1) -> (j <= 17)%nat ->
  Forall digit s -> (length s <= 30)%nat -> (length dg <= 1)%nat -> exists d' tail',
  run_stmt (UE E) (run_stmt_n (UE E) (S f)) (run_call_n (UE E) (S f)) int_loop (Sc extra 20)
    (st_int n neg magn (10 ^ Z.of_nat j) t s dg extra tail cx) =
  run_stmt (UE E) (run_stmt_n (UE E) f) (run_call_n (UE E) f) int_loop (Sc extra 20)
    (st_int n neg magn (10 ^ Z.of_nat j / 10) (t mod 10 ^ Z.of_nat j) (s ++ [48 + t / 10 ^ Z.of_nat j]) [d'] extra (tail ++ tail') cx).
Proof.
  intros Ht Hj Hs Hl Hd.
  assert (H0 : 0 < 10 ^ Z.of_nat j) by (apply Z.pow_pos_nonneg; lia).
  assert (H17 : 10 ^ Z.of_nat j <= 10 ^ 17) by (apply Z.pow_le_mono_r; lia).
  rewrite ten_succ in Ht by lia. set (p := 10 ^ Z.of_nat j) in *. clearbody p.
  assert (Hdg : 0 <= t / p <= 9).
  { split; [apply Z.div_pos; lia|]. assert (t / p < 10) by (apply Z.div_lt_upper_bound; lia). lia. }
  destruct (digit_ok E f (extra ++ OMap (L NS_int 16 [VInt n; neg; VInt p; magn; VInt (t mod p); VStr s; VInt (t / p)]) :: tail) cx (t / p) Hdg) as [t' Hd'].
  exists (VInt (t / p)), t'.
  unfold int_loop at 1. eapply s_while_t with (st1 := st_int n neg magn p t s dg extra tail cx).
  - destruct dg as [|d [|? ?]]; [| |cbn in Hd; lia]; unfold st_int; cbn [app]; (eapply r_op; [get|apply r_int|apply o_geq; split; [intros _; lia|reflexivity]]).
  - apply s_comp.
    eapply s_next with (st1 := st_int n neg magn p t s [VInt (t / p)] extra tail cx).
    { destruct dg as [|d [|? ?]]; [| |cbn in Hd; lia]; unfold st_int; cbn [app]; eapply s_expr;
      (eapply r_ass1; [reflexivity|eapply r_op; [get|get|apply o_div; lia]|put]). }
    unfold st_int; cbn [app]. eapply s_next.
    { eapply s_expr. eapply r_ass1; [reflexivity|eapply r_op; [get|get|apply o_mod; lia]|put]. }
    eapply s_next.
    { eapply s_expr. eapply r_ass1; [reflexivity| |].
      - eapply r_call; [reflexivity| | |].
        + eapply r_args.
          * eapply r_args; [apply r_args0|]. eapply r_call; [reflexivity| | |].
            -- eapply r_args; [apply r_args0|get].
            -- glob g_sfd.
            -- eapply k_fun; [vm_compute; reflexivity|vm_compute; reflexivity|exact Hd'|reflexivity].
          * get.
        + glob g_cat.
        + eapply k_native; [vm_compute; reflexivity| |].
          * apply (cat_ok [s; [48 + t / p]]); [constructor; [now apply text_digs|constructor; [apply text_digs; repeat constructor; lia|constructor]]|].
            unfold short. cbn [concat]. rewrite !app_length. cbn [length]. lia.
          * reflexivity.
      - put. }
    eapply s_next; [|apply s_nil].
    { eapply s_expr. eapply r_ass1; [reflexivity|eapply r_op; [get|apply r_int|apply o_div; lia]|put]. }
  - unfold st_int. reflexivity.
Qed.

Lemma int_loop_end E f n neg magn t s dg extra tail cx : (length dg <= 1)%nat ->
  run_stmt (UE E) (run_stmt_n (UE E) f) (run_call_n (UE E) f) int_loop (Sc extra 20) (st_int n neg magn 0 t s dg extra tail cx) =
  OOk (SigNext, st_int n neg magn 0 t s dg extra tail cx).
Proof.
  intros Hd. unfold int_loop. eapply s_while_f.
  destruct dg as [|d [|? ?]]; [| |cbn in Hd; lia]; unfold st_int; cbn [app];
    (eapply r_op; [get|apply r_int|apply o_geq; split; [discriminate|lia]]).
Qed.

Lemma digs_length j : forall t, length (digs j t) = S j.
Proof. induction j; intros t; cbn [digs length]; auto. Qed.

Lemma digs_digit j : forall t, 0 <= t < 10 ^ (Z.of_nat j + 1) -> Forall digit (digs j t).
Proof.
  induction j as [|j IH]; intros t Ht; cbn [digs].
  - repeat constructor; cbn in Ht; lia.
  - assert (0 < 10 ^ Z.of_nat (S j)) by (apply Z.pow_pos_nonneg; lia). rewrite ten_succ in Ht by lia.
    constructor.
    + unfold digit. assert (0 <= t / 10 ^ Z.of_nat (S j)) by (apply Z.div_pos; lia).
      assert (t / 10 ^ Z.of_nat (S j) < 10) by (apply Z.div_lt_upper_bound; lia). lia.
    + apply IH. replace (Z.of_nat j + 1) with (Z.of_nat (S j)) by lia. apply Z.mod_pos_bound. assumption.
Qed.

Lemma int_loop_ok E n neg magn extra cx : forall j f t s dg tail, (j < f)%nat -> 0 <= t < 10 ^ (Z.of_nat j + 1) -> (j <= 17)%nat ->
  Forall digit s -> (length s + j <= 30)%nat -> (length dg <= 1)%nat -> exists t' d' tail',
  run_stmt (UE E) (run_stmt_n (UE E) f) (run_call_n (UE E) f) int_loop (Sc extra 20)
    (st_int n neg magn (10 ^ Z.of_nat j) t s dg extra tail cx) =
  OOk (SigNext, st_int n neg magn 0 t' (s ++ digs j t) [d'] extra (tail ++ tail') cx).
Proof.
  induction j as [|j IH]; intros f t s dg tail Hf Ht Hj Hs Hl Hd; (destruct f as [|f]; [lia|]).
  - destruct (int_step E f n neg magn 0 t s dg extra tail cx) as (d1 & tl1 & ->); auto; [lia|].
    change (10 ^ Z.of_nat 0) with 1. change (1 / 10) with 0. rewrite Z.div_1_r.
    rewrite int_loop_end by (cbn; lia). do 3 eexists. reflexivity.
  - destruct (int_step E f n neg magn (S j) t s dg extra tail cx) as (d1 & tl1 & ->); auto; [lia|].
    assert (H0 : 0 < 10 ^ Z.of_nat (S j)) by (apply Z.pow_pos_nonneg; lia).
    replace (10 ^ Z.of_nat (S j) / 10) with (10 ^ Z.of_nat j)
      by (replace (Z.of_nat (S j)) with (Z.of_nat j + 1) by lia; rewrite ten_succ by lia; rewrite Z.div_mul by lia; reflexivity).
    assert (HD : Forall digit (digs (S j) t)) by (now apply digs_digit).
    cbn [digs] in HD. pose proof (Forall_inv HD) as Hx.
    destruct (IH f (t mod 10 ^ Z.of_nat (S j)) (s ++ [48 + t / 10 ^ Z.of_nat (S j)]) [d1] (tail ++ tl1)) as (t2 & d2 & tl2 & E2);
      try lia; auto.
    + apply Forall_app. split; [assumption|]. constructor; [assumption|constructor].
    + rewrite app_length. cbn [length]. lia.
    + rewrite E2. exists t2, d2, (tl1 ++ tl2).
      cbn [digs]. rewrite <- !app_assoc. reflexivity.
Qed.

Lemma int_ok E f n i extra cx : 0 <= n < 10 ^ 18 -> magnitude n i -> (19 <= f)%nat -> exists t,
  run_call_n (UE E) (S f) (fst fn_int) (snd fn_int) [VInt n] (VRef 20) (Out extra cx) = OOk ([VStr (digs (Z.to_nat i) n)], Out (extra ++ t) cx).
Proof.
  intros Hn Hm Hf. destruct f as [|f]; [lia|].
  pose proof Hm as (Hi & Hu & Hlo).
  assert (Hi17 : i <= 17).
  { destruct Hlo as [->|Hlo]; [lia|]. destruct (Z.le_gt_cases i 17) as [|G]; [assumption|].
    pose proof (Z.pow_le_mono_r 10 18 i). lia. }
  destruct (mag_ok E f n i (extra ++ OMap (L NS_int 8 [VInt n; VBool false]) :: []) cx) as [t1 M]; auto; [lia|].
  destruct (abs_ok E f (extra ++ OMap (L NS_int 8 [VInt n; VBool false; VInt (10 ^ i); VInt i]) :: t1) cx n) as [t2 A]; [lia|].
  rewrite Z.abs_eq in A by lia.
  destruct (int_loop_ok E n (VBool false) (VInt i) extra cx (Z.to_nat i) (S f) n [] [] (t1 ++ t2))
    as (t' & d' & t3 & W); try (cbn [length]; lia); auto.
  { rewrite Z2Nat.id by lia. lia. }
  rewrite Z2Nat.id in W by lia. cbn [app] in W. unfold st_int in W at 1. cbn [app] in W.
  eexists. unfold fn_int. cbn [fst snd].
  etransitivity.
  { eapply (c_run P C B E (S f) NS_int).
    - eapply r_par; [apply r_par0|split; [value_name b_int n_int|reflexivity]|put].
    - apply s_comp. eapply s_next.
      { eapply s_expr. eapply r_ass1; [reflexivity|eapply r_op; [get|apply r_int|apply (o_lss _ _ _ false); split; [discriminate|lia]]|put]. }
      eapply s_next.
      { eapply s_expr. eapply r_assn; [discriminate| |].
        - eapply r_call; [reflexivity| | |].
          + eapply r_args; [apply r_args0|get].
          + glob g_mag.
          + eapply k_fun; [vm_compute; reflexivity|vm_compute; reflexivity|exact M|reflexivity].
        - eapply r_tgt2; [put|put]. }
      eapply s_next.
      { eapply s_expr. eapply r_ass1; [reflexivity| |].
        - eapply r_call; [reflexivity| | |].
          + eapply r_args; [apply r_args0|get].
          + value_name b_abs n_abs.
          + eapply k_fun; [vm_compute; reflexivity|vm_compute; reflexivity|exact A|reflexivity].
        - put. }
      eapply s_next.
      { eapply s_expr. eapply r_ass1; [reflexivity|apply r_str; reflexivity|put]. }
      eapply s_next. { exact W. }
      eapply s_next.
      { eapply s_if_f. unfold st_int. cbn [app]. get. }
      eapply s_stop. eapply s_ret.
      unfold st_int. cbn [app]. get.
    - reflexivity. }
  reflexivity.
Qed.
