(** isCallable, append and integerFromDigit of the prelude: proofs for C79. *)
From Coq Require Import ZArith String List Lia Bool.
From Verif Require Import SysProofs LookSpec LookProofs.
From Verif Require Import Base Utf8Model Utf8Spec StringModel ValueModel MapModel MapSpec MapProofs MapProofs2 ListModel SeqSpec ListProofs ExeModel ArithModel FloatModel ObjModel AstModel CodegenModel
  VmModel SrcModel BuiltinModel BuiltinProofs PreludeModel PreludeRun PreludeProofs PreludeText PreludeToString PreludeUser PreludeIter PreludeVisit
  ScopeSpec ScopeProofs StartSpec StartProofs.
Import ListNotations.
Open Scope Z_scope.
Opaque P C TOP.

Lemma Out_grown extra t cx : grown_from (t_mem (Out extra cx)) (t_mem (Out (extra ++ t) cx)).
Proof. exists t. unfold PreludeRun.Out. cbn [t_mem m_objs m_pend]. rewrite app_assoc. auto. Qed.

(** * isCallable *)
Definition callable (m : mem) (v : value) : bool :=
  match v with VRef l => match nth_error (m_objs m) l with Some (OFun _ _) | Some (ONative _ _) => true | _ => false end | _ => false end.
Lemma call_type extra v : is_type (mkmem (P ++ extra) false) (VRef 8) v =
  OOk (tyname_eqb (type_of (rt_of (P ++ extra)) v) TyFun || tyname_eqb (type_of (rt_of (P ++ extra)) v) TyNFun, mkmem (P ++ extra) false).
Proof. apply is_sum. apply nth_pre. vm_compute. reflexivity. Qed.

Lemma isCallable_type E f v st : with_prelude st -> within (t_mem st) v -> (1 <= f)%nat -> exists st',
  call_named E f "isCallable" [v] st =
    OOk ([VBool (tyname_eqb (type_of (rt_of (m_objs (t_mem st))) v) TyFun || tyname_eqb (type_of (rt_of (m_objs (t_mem st))) v) TyNFun)], st') /\
  grown_from (t_mem st) (t_mem st').
Proof.
  intros (extra & cx & ->) W Hf. destruct f as [|f]; [lia|]. change (mkst (mkmem (P ++ extra) false) (C ++ cx)) with (Out extra cx).
  change (within (t_mem (Out extra cx)) v) in W.
  set (r := tyname_eqb (type_of (rt_of (m_objs (t_mem (Out extra cx)))) v) TyFun || tyname_eqb (type_of (rt_of (m_objs (t_mem (Out extra cx)))) v) TyNFun).
  assert (A : exists t, run_call_n (UE E) (S f) (fst fn_call) (snd fn_call) [v] (VRef 43) (Out extra cx) = OOk ([VBool r], Out (extra ++ t) cx)).
  { eexists. unfold fn_call. cbn [fst snd]. etransitivity.
    { eapply (c_run P C B E f NS_x).
      - eapply r_par with (typ := VNone); [apply r_par0|reflexivity|put].
      - eapply s_ret. eapply r_call; [reflexivity| | |].
        + eapply r_args; [eapply r_args; [apply r_args0|get]|glob g_Callable].
        + native_name b_istypeof n_istypeof.
        + eapply k_new with (rs := [VBool r]); [|reflexivity]. cbn [Z.ltb Z.compare].
          change (native E N_istypeof (adjust 2 [VRef 8; v])) with (bin_istypeof [VRef 8; v]). unfold bin_istypeof.
          unfold PreludeRun.St at 1. cbn [t_mem]. rewrite call_type. cbn [obind fst snd]. rewrite app_assoc. rewrite type_more by exact W.
          fold r. rewrite <- app_assoc. reflexivity.
      - reflexivity. }
    reflexivity. }
  destruct A as [t A]. exists (Out (extra ++ t) cx). split; [|apply Out_grown].
  found_call 44%nat 14%nat 43%nat fn_call. change (adjust (params_len (fst fn_call)) [v]) with [v]. rewrite A. reflexivity.
Qed.

(** * append *)
Lemma c_next E n NS ps body args c extra cx st1 st2 :
  bind_params (UE E) (run_call_n (UE E) n) ps args (Sc extra c) (St NS 8 [] extra [] cx) = OOk st1 ->
  run_stmt (UE E) (run_stmt_n (UE E) n) (run_call_n (UE E) n) body (Sc extra c) st1 = OOk (SigNext, st2) -> m_pend (t_mem st2) = false ->
  run_call_n (UE E) (S n) ps body args (VRef c) (Out extra cx) = OOk ([], st2).
Proof.
  intros H1 H2 H3. change (run_call_n (UE E) (S n) ps body args (VRef c) (Out extra cx)) with (run_call (UE E) (run_stmt_n (UE E) n) (run_call_n (UE E) n) ps body args (VRef c) (Out extra cx)).
  unfold run_call.
  rewrite (surjective_pairing (alloc (t_mem (Out extra cx)) (OMap (new_map (-1))))), (new_locals P C NS extra cx).
  change (fst (alloc (t_mem (Out extra cx)) (OMap (new_map (-1))))) with (VRef (List.length (P ++ extra))).
  change (put_mem (Out extra cx) (t_mem (St NS 8 [] extra [] cx))) with (St NS 8 [] extra [] cx).
  fold (Sc extra c). rewrite H1. cbn [obind]. rewrite H2. cbn [obind]. unfold body_results. rewrite H3. reflexivity.
Qed.

Lemma P_no_list l lo : nth_error P l <> Some (OList lo).
Proof.
  intros H. assert (X : forallb (fun o => match o with OList _ => false | _ => true end) P = true) by (vm_compute; reflexivity).
  rewrite forallb_forall in X. apply nth_error_In in H. specialize (X _ H). discriminate.
Qed.

Lemma append_ok E n e1 lo lo' e2 cx v vs : rep lo vs -> list_insert lo (Z.of_nat (List.length vs)) v = ROk lo' -> exists t,
  run_call_n (UE E) (S n) (fst fn_app) (snd fn_app) [VRef (List.length (P ++ e1)); v] (VRef 45) (Out (e1 ++ OList lo :: e2) cx) =
  OOk ([], Out ((e1 ++ OList lo' :: e2) ++ t) cx).
Proof.
  intros R I. set (l := List.length (P ++ e1)).
  assert (Hl : forall y, nth_error (P ++ (e1 ++ OList lo :: e2) ++ y) l = Some (OList lo)).
  { intros y. unfold l. replace (P ++ (e1 ++ OList lo :: e2) ++ y) with ((P ++ e1) ++ OList lo :: e2 ++ y) by (rewrite <- !app_assoc; reflexivity).
    rewrite nth_error_app2 by lia. now rewrite Nat.sub_diag. }
  assert (Hu : forall y, upd (P ++ (e1 ++ OList lo :: e2) ++ y) l (OList lo') = P ++ (e1 ++ OList lo' :: e2) ++ y).
  { intros y. unfold l. replace (P ++ (e1 ++ OList lo :: e2) ++ y) with (P ++ e1 ++ OList lo :: (e2 ++ y)) by (rewrite <- !app_assoc; reflexivity).
    rewrite upd_loc. rewrite <- !app_assoc. reflexivity. }
  eexists. unfold fn_app. cbn [fst snd]. etransitivity.
  { eapply (c_next E n NS_app).
    - eapply r_par; [eapply r_par with (typ := VNone); [apply r_par0|reflexivity|put]|split; [value_name b_List n_List|]|put].
      unfold is_type, type_depth. destruct (_ * _ + 1)%nat; cbn [is_type_of type_of obind fst snd]; unfold rt_of; unfold PreludeRun.St; cbn [t_mem m_objs]; rewrite Hl; reflexivity.
    - eapply s_expr. eapply r_ass1; [reflexivity|get|]. eapply r_setsel.
      + get.
      + eapply r_call; [reflexivity| | |].
        * eapply r_args; [apply r_args0|get].
        * native_name b_count n_count.
        * eapply k_new with (rs := [VInt (Z.of_nat (List.length vs))]); [|reflexivity]. cbn [Z.ltb Z.compare].
          change (native E N_count (adjust 1 [VRef l])) with (bin_count (e_native E N_count) [VRef l]). unfold bin_count, PreludeRun.St. cbn [t_mem m_objs m_pend].
          rewrite Hl. rewrite (proj1 R). reflexivity.
      + unfold insert_of, PreludeRun.St. cbn [t_mem m_objs]. rewrite Hl, I. reflexivity.
    - reflexivity. }
  unfold put_mem, set_obj, PreludeRun.Out, PreludeRun.St. cbn [t_mem t_codes m_objs m_pend]. rewrite Hu. rewrite <- !app_assoc. reflexivity.
Qed.

Lemma append_call E f st l lo vs v : with_prelude st -> (1 <= f)%nat -> nth_error (m_objs (t_mem st)) l = Some (OList lo) -> rep lo vs -> 8 <= l_cap lo -> Z.of_nat (List.length vs) < 2 ^ 30 ->
  exists st' lo', call_named E f "append" [VRef l; v] st = OOk ([VNone], st') /\ with_prelude st' /\ nth_error (m_objs (t_mem st')) l = Some (OList lo') /\ rep lo' (vs ++ [v]) /\ 8 <= l_cap lo' /\
  forall k o, k <> l -> nth_error (m_objs (t_mem st)) k = Some o -> nth_error (m_objs (t_mem st')) k = Some o.
Proof.
  intros (extra & cx & ->) Hf Hl R Hc Hn. destruct f as [|f]; [lia|]. cbn [t_mem m_objs] in Hl.
  destruct (Nat.lt_ge_cases l (List.length P)) as [Q|Q]; [rewrite nth_error_app1 in Hl by exact Q; exfalso; exact (P_no_list _ _ Hl)|].
  rewrite nth_error_app2 in Hl by exact Q. destruct (nth_error_split _ _ Hl) as (e1 & e2 & -> & L1).
  assert (l = List.length (P ++ e1)) as -> by (rewrite app_length; lia). clear Hl L1 Q.
  pose proof (insert_spec lo vs (Z.of_nat (List.length vs)) v R Hc Hn) as S. unfold seq_set in S.
  destruct (Z.ltb_spec (Z.of_nat (List.length vs)) 0); [lia|]. rewrite Z.eqb_refl in S. cbn [orb] in S.
  destruct S as (lo' & I & R' & Hc'); [unfold in_int; lia|].
  destruct (append_ok E f e1 lo lo' e2 cx v vs R I) as [t A].
  exists (Out ((e1 ++ OList lo' :: e2) ++ t) cx), lo'.
  change (mkst (mkmem (P ++ e1 ++ OList lo :: e2) false) (C ++ cx)) with (Out (e1 ++ OList lo :: e2) cx).
  split; [|split; [|split; [|split; [exact R'|split; [lia|]]]]].
  - found_call 46%nat 15%nat 45%nat fn_app. change (adjust (params_len (fst fn_app)) [VRef (List.length (P ++ e1)); v]) with [VRef (List.length (P ++ e1)); v]. rewrite A. reflexivity.
  - eexists. eexists. reflexivity.
  - unfold PreludeRun.Out. cbn [t_mem m_objs]. rewrite <- !app_assoc. cbn [app]. rewrite app_assoc, nth_error_app2 by lia. now rewrite Nat.sub_diag.
  - intros k o Hk. unfold PreludeRun.Out. cbn [t_mem m_objs]. intros H0. rewrite app_assoc in H0.
    replace (P ++ (e1 ++ OList lo' :: e2) ++ t) with ((P ++ e1) ++ OList lo' :: (e2 ++ t)) by (rewrite <- !app_assoc; reflexivity).
    destruct (Nat.lt_ge_cases k (List.length (P ++ e1))) as [Q|Q].
    + rewrite nth_error_app1 in * by exact Q. exact H0.
    + rewrite nth_error_app2 in * by exact Q. destruct (k - List.length (P ++ e1))%nat as [|d] eqn:D; [lia|]. cbn [nth_error] in *. apply nth_pre. exact H0.
Qed.

Lemma append_other E f st v w : with_prelude st -> (1 <= f)%nat -> within (t_mem st) v -> type_of (rt_of (m_objs (t_mem st))) v <> TyList ->
  call_named E f "append" [v; w] st = OErr.
Proof.
  intros (extra & cx & ->) Hf W N. destruct f as [|f]; [lia|]. change (mkst (mkmem (P ++ extra) false) (C ++ cx)) with (Out extra cx).
  found_call 46%nat 15%nat 45%nat fn_app. change (adjust (params_len (fst fn_app)) [v; w]) with [v; w].
  assert (run_call_n (UE E) (S f) (fst fn_app) (snd fn_app) [v; w] (VRef 45) (Out extra cx) = bad true) as ->; [|reflexivity].
  unfold fn_app. cbn [fst snd]. eapply (x_runp E f NS_app). eapply x_par; [eapply r_par with (typ := VNone); [apply r_par0|reflexivity|put]|value_name b_List n_List|].
  unfold is_type, type_depth. unfold PreludeRun.St. cbn [t_mem m_objs m_pend] in *. destruct (_ * _ + 1)%nat; cbn [is_type_of obind fst snd m_objs];
    rewrite app_assoc, type_more by exact W; rewrite tyname_neq by exact N; rewrite <- ?app_assoc; reflexivity.
Qed.

(** * integerFromDigit *)
Lemma g_ord' E : found E (b "ord") (VRef 13). Proof. exact (g_ord E). Qed.
Lemma n_String E : absent E (b "String"). Proof. top. Qed.
Lemma b_String E : builtin E (b "String") (fun _ => VType TyString) []. Proof. intros r. rewrite app_nil_r. vm_compute. reflexivity. Qed.
Lemma n_error E : absent E (b "error"). Proof. top. Qed.
Lemma b_error E : builtin E (b "error") VRef [ONative N_error 1]. Proof. smap. Qed.

Section Or.
Variable E : env.
Variable ac : params -> stmt -> list value -> value -> sst -> out (list value * sst).
Notation ev := (eval (UE E) ac).
Lemma r_or_t m a c xs sc st st1 : ev MVal a [] sc st = OOk ([VBool true], st1) -> ev m (EOr a c) xs sc st = OOk ([VBool true], st1).
Proof. intros H. cbn [eval]. rewrite H. reflexivity. Qed.
Lemma r_or_f m a c y xs sc st st1 st2 : ev MVal a [] sc st = OOk ([VBool false], st1) -> ev MVal c [] sc st1 = OOk ([VBool y], st2) ->
  ev m (EOr a c) xs sc st = OOk ([VBool y], st2).
Proof. intros H H1. cbn [eval]. rewrite H. cbn [obind]. rewrite H1. reflexivity. Qed.
End Or.
Lemma o_sub m x y : - 2^63 <= x - y < 2^63 -> binary_op (binop_code BSub) m (VInt x) (VInt y) = OOk (VInt (x - y), m).
Proof. intros H. cbn [binop_code binary_op math_op math_int]. rewrite int_res_ok by assumption. reflexivity. Qed.
Lemma o_grt m x y r : (r = true <-> x > y) -> binary_op (binop_code BGrt) m (VInt x) (VInt y) = OOk (VBool r, m).
Proof. intros H. cbn. destruct (Z.ltb_spec y x); destruct r; try reflexivity; exfalso; destruct H; lia. Qed.

Lemma ord_zero m : bin_ord [VStr (b "0")] m = OOk ([VInt 48], m).
Proof. reflexivity. Qed.

Definition ifd_ass := Eval vm_compute in match snd fn_ifd with SComp (SCons (SExpr e) _) => e | _ => ENone end.

Lemma ifd_par E n extra cx s : bind_params (UE E) (run_call_n (UE E) n) (fst fn_ifd) [VStr s] (Sc extra 41) (St NS_ifd 8 [] extra [] cx) =
  OOk (St NS_ifd 8 [VStr s] extra [] cx).
Proof.
  unfold fn_ifd. cbn [fst]. eapply r_par; [apply r_par0|split; [value_name b_String n_String|]|put].
  unfold is_type, type_depth. destruct (_ * _ + 1)%nat; reflexivity.
Qed.

Lemma ifd_diff E n extra cx c cs m xs : Forall code_point (c :: cs) -> short (encs (c :: cs)) ->
  eval (UE E) (run_call_n (UE E) n) m ifd_ass xs (Sc extra 41) (St NS_ifd 8 [VStr (encs (c :: cs))] extra [] cx) =
  OOk ([VInt (c - 48)], St NS_ifd 8 [VStr (encs (c :: cs)); VInt (c - 48)] extra [] cx).
Proof.
  intros F S. pose proof (ord_first c cs) as O. assert (Hc : code_point c) by (inversion F; assumption). unfold code_point in Hc.
  unfold ifd_ass. eapply r_ass1.
  - reflexivity.
  - eapply r_op.
    + eapply r_call; [reflexivity|eapply r_args; [apply r_args0|get]|glob g_ord|].
      eapply k_native with (rs := [VInt c]); [vm_compute; reflexivity| |reflexivity]. cbn [Z.ltb Z.compare]. exact (O _ F S).
    + eapply r_call; [reflexivity|eapply r_args; [apply r_args0|apply r_str; vm_compute; reflexivity]|glob g_ord|].
      eapply k_native with (rs := [VInt 48]); [vm_compute; reflexivity|reflexivity|reflexivity].
    + apply o_sub. lia.
  - put.
Qed.

Lemma ifd_call E f st c cs : with_prelude st -> (1 <= f)%nat -> Forall code_point (c :: cs) -> short (encs (c :: cs)) -> 48 <= c <= 57 -> exists st',
  call_named E f "integerFromDigit" [VStr (encs (c :: cs))] st = OOk ([VInt (c - 48)], st') /\ grown_from (t_mem st) (t_mem st').
Proof.
  intros (extra & cx & ->) Hf F Sh Hc. destruct f as [|f]; [lia|]. change (mkst (mkmem (P ++ extra) false) (C ++ cx)) with (Out extra cx).
  pose proof (ifd_par E f extra cx (encs (c :: cs))) as Pa. pose proof (ifd_diff E f extra cx c cs MVal [] F Sh) as D. set (s := encs (c :: cs)) in *. clearbody s.
  assert (A : exists t, run_call_n (UE E) (S f) (fst fn_ifd) (snd fn_ifd) [VStr s] (VRef 41) (Out extra cx) = OOk ([VInt (c - 48)], Out (extra ++ t) cx)).
  { eexists. etransitivity.
    { eapply (c_run P C B E f NS_ifd).
      - exact Pa.
      - unfold fn_ifd. cbn [snd]. apply s_comp. eapply s_next; [eapply s_expr; exact D|].
        eapply s_next.
        { eapply s_if_f. eapply r_or_f.
          - eapply r_op; [get|apply r_int|apply (o_lss _ _ _ false); split; [discriminate|lia]].
          - eapply r_op; [get|apply r_int|apply (o_grt _ _ _ false); split; [discriminate|lia]]. }
        eapply s_stop. eapply s_ret. get.
      - reflexivity. }
    reflexivity. }
  destruct A as [t A]. exists (Out (extra ++ t) cx). split; [|apply Out_grown].
  found_call 42%nat 13%nat 41%nat fn_ifd. change (adjust (params_len (fst fn_ifd)) [VStr s]) with [VStr s]. rewrite A. reflexivity.
Qed.

Lemma ifd_no_digit E f st c cs : with_prelude st -> (1 <= f)%nat -> Forall code_point (c :: cs) -> short (encs (c :: cs)) -> ~ 48 <= c <= 57 ->
  call_named E f "integerFromDigit" [VStr (encs (c :: cs))] st = OErr.
Proof.
  intros (extra & cx & ->) Hf F Sh Hc. destruct f as [|f]; [lia|]. change (mkst (mkmem (P ++ extra) false) (C ++ cx)) with (Out extra cx).
  pose proof (ifd_par E f extra cx (encs (c :: cs))) as Pa. pose proof (ifd_diff E f extra cx c cs MVal [] F Sh) as D. set (s := encs (c :: cs)) in *. clearbody s.
  found_call 42%nat 13%nat 41%nat fn_ifd. change (adjust (params_len (fst fn_ifd)) [VStr s]) with [VStr s].
  assert (run_call_n (UE E) (S f) (fst fn_ifd) (snd fn_ifd) [VStr s] (VRef 41) (Out extra cx) = bad true) as ->; [|reflexivity].
  eapply (x_run E true f NS_ifd); [exact Pa|]. unfold fn_ifd. cbn [snd]. apply s_comp. eapply s_next; [eapply s_expr; exact D|].
  eapply x_stop. destruct (Z.lt_ge_cases c 48) as [L|L].
  - eapply s_if_t; [eapply r_or_t; eapply r_op; [get|apply r_int|apply (o_lss _ _ _ true); split; [lia|reflexivity]]|].
    eapply x_expr. eapply x_call; [reflexivity|eapply r_args; [apply r_args0|apply r_str; vm_compute; reflexivity]|native_name b_error n_error|].
    apply x_new. reflexivity.
  - eapply s_if_t; [eapply r_or_f; [eapply r_op; [get|apply r_int|apply (o_lss _ _ _ false); split; [discriminate|lia]]|
      eapply r_op; [get|apply r_int|apply (o_grt _ _ _ true); split; [lia|reflexivity]]]|].
    eapply x_expr. eapply x_call; [reflexivity|eapply r_args; [apply r_args0|apply r_str; vm_compute; reflexivity]|native_name b_error n_error|].
    apply x_new. reflexivity.
Qed.

Lemma x_op1 E ac k m op a c xs sc st : eval (UE E) ac MVal a [] sc st = bad k -> eval (UE E) ac m (EBin op a c) xs sc st = bad k.
Proof. intros H. cbn [eval]. rewrite H. apply bad_bind. Qed.
Lemma x_native E ac k NS sz vs extra tail cx l id argc args want : nth_error P l = Some (ONative id argc) ->
  native E id (if argc <? 0 then args else adjust argc args) (t_mem (St NS sz vs extra tail cx)) = bad k ->
  call (UE E) ac (VRef l) args want (St NS sz vs extra tail cx) = bad k.
Proof.
  intros H0 H1. unfold call.
  assert (nth_error (m_objs (t_mem (St NS sz vs extra tail cx))) l = Some (ONative id argc)) as -> by (apply nth_pre; assumption).
  unfold UE, std_env. cbn [e_native]. rewrite H1. apply bad_bind.
Qed.
Lemma ifd_other E f st v : with_prelude st -> (1 <= f)%nat -> within (t_mem st) v -> v = VStr [] \/ type_of (rt_of (m_objs (t_mem st))) v <> TyString ->
  call_named E f "integerFromDigit" [v] st = OErr.
Proof.
  intros (extra & cx & ->) Hf W N. destruct f as [|f]; [lia|]. change (mkst (mkmem (P ++ extra) false) (C ++ cx)) with (Out extra cx).
  found_call 42%nat 13%nat 41%nat fn_ifd. change (adjust (params_len (fst fn_ifd)) [v]) with [v].
  assert (run_call_n (UE E) (S f) (fst fn_ifd) (snd fn_ifd) [v] (VRef 41) (Out extra cx) = bad true) as ->; [|reflexivity].
  destruct N as [->|N].
  - eapply (x_run E true f NS_ifd); [apply ifd_par|]. unfold fn_ifd. cbn [snd]. apply s_comp. eapply x_stop. eapply x_expr. eapply x_ass1; [reflexivity|].
    eapply x_op1. eapply x_call; [reflexivity|eapply r_args; [apply r_args0|get]|glob g_ord|].
    eapply x_native; [vm_compute; reflexivity|reflexivity].
  - unfold fn_ifd. cbn [fst snd]. eapply (x_runp E f NS_ifd). eapply x_par; [apply r_par0|value_name b_String n_String|].
    unfold is_type, type_depth. unfold PreludeRun.St. cbn [t_mem m_objs m_pend] in *. destruct (_ * _ + 1)%nat; cbn [is_type_of obind fst snd m_objs];
      rewrite app_assoc, type_more by exact W; rewrite tyname_neq by exact N; rewrite <- ?app_assoc; reflexivity.
Qed.

(** * The names of C78 in the interpreter as it starts *)
Lemma start_state E n : (1 <= n)%nat -> exists v st c m, start_run E n = OOk ([v], st) /\ plug (t_mem st) v (VRef 0) = (c, m) /\ UE E = std_env E (Some c) /\
  with_prelude (mkst m (t_codes st)).
Proof.
  intros Hn. destruct (start_ok E n Hn) as (st & H1 & H2 & H3 & H4). exists (VRef 36), st, (VRef B), (mkmem P false). split; [exact H1|]. split; [|split].
  - rewrite (surjective_pairing (plug (t_mem st) (VRef 36) (VRef 0))), H2, H3. reflexivity.
  - reflexivity.
  - exists [], []. rewrite H4, !app_nil_r. reflexivity.
Qed.
