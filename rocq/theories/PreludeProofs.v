(** The functions of the prelude that turn integers into text (C51). *)
From Coq Require Import ZArith String List Lia Bool.
From Verif Require Import Base HashModel Utf8Model StringModel ValueModel MapModel ListModel ExeModel ArithModel ObjModel AstModel CodegenModel
  VmModel SrcModel BuiltinModel BuiltinProofs PreludeModel PreludeRun.
Import ListNotations.
Open Scope Z_scope.

Notation St := (PreludeRun.St P C).
Notation Sc := (PreludeRun.Sc P).
Notation Out := (PreludeRun.Out P C).

(** The closure objects of the prelude. *)
Definition pclo (c : nat) : Prop := nth_error P c = Some (OClosure None (VRef 1)).
Definition TOP : hmap value value := Eval vm_compute in match nth_error P 1 with Some (OMap m) => m | _ => new_map 0 end.

Lemma sel_clo E objs c T key : nth_error objs c = Some (OClosure None (VRef 1)) -> nth_error objs 1 = Some (OMap T) ->
  obj_select E (depth objs) (mkmem objs false) (VRef c) key =
  obind (map_sel (mkmem objs false) T key) (fun x => if m_pend (snd x) then OOk (None, snd x) else OOk x).
Proof.
  intros H H1. unfold depth. cbn [obj_select m_objs]. rewrite H. rewrite (sel_map _ _ _ 1 T) by exact H1.
  destruct (map_sel (mkmem objs false) T key) as [[x y]| | | |]; try reflexivity. cbn [obind fst snd].
  destruct (m_pend y); [reflexivity|]. destruct x; reflexivity.
Qed.

Lemma nth_pre (A : Type) (p r : list A) c x : nth_error p c = Some x -> nth_error (p ++ r) c = Some x.
Proof. intros H. rewrite nth_error_app1; [assumption|]. apply nth_error_Some. rewrite H. discriminate. Qed.

Lemma P_top : nth_error P 1 = Some (OMap TOP).
Proof. vm_compute. reflexivity. Qed.

Lemma sel_pclo E c r key : pclo c ->
  obj_select (UE E) (depth (P ++ r)) (mkmem (P ++ r) false) (VRef c) key =
  obind (map_sel (mkmem (P ++ r) false) TOP key) (fun x => if m_pend (snd x) then OOk (None, snd x) else OOk x).
Proof. intros H. apply sel_clo; apply nth_pre; [exact H|exact P_top]. Qed.

Opaque P C TOP.

Definition found (E : env) (name : list Z) (v : value) : Prop := forall c r, pclo c ->
  obj_select (UE E) (depth (P ++ r)) (mkmem (P ++ r) false) (VRef c) (VStr name) = OOk (Some v, mkmem (P ++ r) false).
Definition absent (E : env) (name : list Z) : Prop := forall c r, pclo c ->
  obj_select (UE E) (depth (P ++ r)) (mkmem (P ++ r) false) (VRef c) (VStr name) = OOk (None, mkmem (P ++ r) false).
Definition builtin (E : env) (name : list Z) (v : nat -> value) (new : list hobj) : Prop := forall r,
  obj_select (UE E) (depth (P ++ r)) (mkmem (P ++ r) false) (VRef B) (VStr name) =
  OOk (Some (v (length (P ++ r))), mkmem ((P ++ r) ++ new) false).

Lemma top_sel E name x : (forall r, map_sel (mkmem r false) TOP (VStr name) = OOk (x, mkmem r false)) ->
  forall c r, pclo c -> obj_select (UE E) (depth (P ++ r)) (mkmem (P ++ r) false) (VRef c) (VStr name) = OOk (x, mkmem (P ++ r) false).
Proof. intros H c r Hc. rewrite sel_pclo by assumption. rewrite H. reflexivity. Qed.

Ltac top := refine (top_sel _ _ _ _); intros r; vm_compute; reflexivity.
Ltac smap := intros r; vm_compute; reflexivity.

Notation b := bytes_of.
Lemma g_chr E : found E (b "chr") (VRef 11). Proof. top. Qed.
Lemma g_ord E : found E (b "ord") (VRef 13). Proof. top. Qed.
Lemma g_cat E : found E (b "cat") (VRef 15). Proof. top. Qed.
Lemma g_sfd E : found E (b "stringFromDigit") (VRef 17). Proof. top. Qed.
Lemma g_mag E : found E (b "getIntegerMagnitude") (VRef 19). Proof. top. Qed.
Lemma g_sfi E : found E (b "stringFromInteger") (VRef 21). Proof. top. Qed.
Lemma n_assert E : absent E (b "assert"). Proof. top. Qed.
Lemma n_int E : absent E (b "int"). Proof. top. Qed.
Lemma n_abs E : absent E (b "abs"). Proof. top. Qed.
Lemma n_type E : absent E (b "type"). Proof. top. Qed.
Lemma n_None E : absent E (b "None"). Proof. top. Qed.
Lemma b_assert E : builtin E (b "assert") VRef [ONative N_assert (-1)]. Proof. smap. Qed.
Lemma b_int E : builtin E (b "int") (fun _ => VType TyInt) []. Proof. intros r. rewrite app_nil_r. vm_compute. reflexivity. Qed.
Definition fn_digit := Eval vm_compute in nth 1 C (ANil, SBreak).
Definition fn_mag := Eval vm_compute in nth 2 C (ANil, SBreak).
Definition fn_int := Eval vm_compute in nth 3 C (ANil, SBreak).
Definition fn_tos := Eval vm_compute in nth 12 C (ANil, SBreak).
Definition fn_abs := Eval vm_compute in nth 16 C (ANil, SBreak).

Section Fn.
Variable E : env.
Let E' := UE E.

Lemma i_glob ac NS sz vs extra tail cx c m name v xs : found E name v -> reads m -> misses NS name ->
  room sz (length vs) -> (length vs <= length NS)%nat -> pclo c ->
  eval E' ac m (EIdent name) xs (Sc extra c) (St NS sz vs extra tail cx) = OOk ([v], St NS sz vs extra tail cx).
Proof. intros F M R1 R2 R3 Hc. apply r_glob; auto. Qed.

Lemma i_bin ac NS sz vs extra tail cx c m name v new xs : builtin E name v new -> absent E name -> reads m -> misses NS name ->
  room sz (length vs) -> (length vs <= length NS)%nat -> pclo c ->
  eval E' ac m (EIdent name) xs (Sc extra c) (St NS sz vs extra tail cx) =
  OOk ([v (length (P ++ extra ++ OMap (L NS sz vs) :: tail))], St NS sz vs extra (tail ++ new) cx).
Proof. intros F A M R1 R2 R3 Hc. apply r_bin; auto. Qed.

Lemma i_bin0 ac NS sz vs extra tail cx c m name v xs : builtin E name (fun _ => v) [] -> absent E name -> reads m -> misses NS name ->
  room sz (length vs) -> (length vs <= length NS)%nat -> pclo c ->
  eval E' ac m (EIdent name) xs (Sc extra c) (St NS sz vs extra tail cx) = OOk ([v], St NS sz vs extra tail cx).
Proof. intros. rewrite <- (app_nil_r tail) at 2. eapply (i_bin ac) with (v := fun _ => v); eauto. Qed.

Lemma i_set ac NS sz vs extra tail cx c name i v sz' vs' : sets NS ->
  room sz (length vs) -> (length vs <= length NS)%nat -> nth_error NS i = Some name -> (i <= length vs)%nat ->
  sz' = grown sz (length vs) -> vs' = put_at vs i v ->
  eval E' ac MTgt (EIdent name) [v] (Sc extra c) (St NS sz vs extra tail cx) = OOk ([v], St NS sz' vs' extra tail cx).
Proof. intros G R Hl Hn Hv -> ->. now apply r_set. Qed.

Lemma nth_last (a r : list hobj) x c o : nth_error (a ++ r ++ x :: c ++ [o]) (length (a ++ r ++ x :: c)) = Some o.
Proof.
  replace (a ++ r ++ x :: c ++ [o]) with ((a ++ r ++ x :: c) ++ [o]) by (rewrite <- !app_assoc; reflexivity).
  rewrite nth_error_app2 by lia. rewrite Nat.sub_diag. reflexivity.
Qed.

Lemma k_new ac NS sz vs extra tail cx id argc args want rs ws :
  native E id (if argc <? 0 then args else adjust argc args) (t_mem (St NS sz vs extra (tail ++ [ONative id argc]) cx)) =
    OOk (rs, t_mem (St NS sz vs extra (tail ++ [ONative id argc]) cx)) ->
  results want rs = OOk ws ->
  call E' ac (VRef (length (P ++ extra ++ OMap (L NS sz vs) :: tail))) args want (St NS sz vs extra (tail ++ [ONative id argc]) cx) =
    OOk (ws, St NS sz vs extra (tail ++ [ONative id argc]) cx).
Proof.
  intros H1 H2. eapply (r_call_native B) in H2; [..|exact H1]; [exact H2|]. unfold PreludeRun.St. cbn [t_mem m_objs]. apply nth_last.
Qed.

Lemma k_native ac NS sz vs extra tail cx l id argc args want rs ws : nth_error P l = Some (ONative id argc) ->
  native E id (if argc <? 0 then args else adjust argc args) (t_mem (St NS sz vs extra tail cx)) =
    OOk (rs, t_mem (St NS sz vs extra tail cx)) ->
  results want rs = OOk ws ->
  call E' ac (VRef l) args want (St NS sz vs extra tail cx) = OOk (ws, St NS sz vs extra tail cx).
Proof.
  intros H0 H1 H2. eapply (r_call_native B) in H2; [..|exact H1]; [exact H2|]. unfold PreludeRun.St. cbn [t_mem m_objs]. now apply nth_pre.
Qed.

(** A call of another prelude function: it leaves the variables alone and extends the store. *)
Lemma k_fun ac NS sz vs extra tail cx l code clo ps body args want rs ws t : nth_error P l = Some (OFun code (VRef clo)) ->
  nth_error C code = Some (ps, body) ->
  ac ps body (adjust (params_len ps) args) (VRef clo) (Out (extra ++ OMap (L NS sz vs) :: tail) cx) =
    OOk (rs, Out ((extra ++ OMap (L NS sz vs) :: tail) ++ t) cx) ->
  results want rs = OOk ws ->
  call E' ac (VRef l) args want (St NS sz vs extra tail cx) = OOk (ws, St NS sz vs extra (tail ++ t) cx).
Proof.
  intros H0 H1 H2 H3. rewrite Out_St_app in H2. rewrite Out_St in H2.
  eapply r_call_fun; [| |exact H2|exact H3].
  - unfold PreludeRun.St. cbn [t_mem m_objs]. apply nth_pre; eassumption.
  - unfold PreludeRun.St. cbn [t_codes]. apply nth_pre; eassumption.
Qed.
End Fn.

Definition NS_digit := Eval vm_compute in [b "digit"].
Definition NS_mag := Eval vm_compute in [b "n"; b "magn"; b "powr"].
Definition NS_int := Eval vm_compute in [b "n"; b "negative"; b "power"; b "_"; b "temp"; b "text"; b "digit"].
Definition NS_abs := Eval vm_compute in [b "n"].
Definition NS_tos := Eval vm_compute in [b "can_use_method"; b "value"; b "T"].

Lemma gets_digit : gets NS_digit. Proof. frame_get. Qed.
Lemma sets_digit : sets NS_digit. Proof. frame_set. Qed.
Lemma gets_mag : gets NS_mag. Proof. frame_get. Qed.
Lemma sets_mag : sets NS_mag. Proof. frame_set. Qed.
Lemma gets_int : gets NS_int. Proof. frame_get. Qed.
Lemma sets_int : sets NS_int. Proof. frame_set. Qed.
Lemma gets_abs : gets NS_abs. Proof. frame_get. Qed.
Lemma sets_abs : sets NS_abs. Proof. frame_set. Qed.
Lemma gets_tos : gets NS_tos. Proof. frame_get. Qed.
Lemma sets_tos : sets NS_tos. Proof. frame_set. Qed.

Ltac frames := first [exact gets_digit|exact sets_digit|exact gets_mag|exact sets_mag|exact gets_int|exact sets_int
  |exact gets_abs|exact sets_abs|exact gets_tos|exact sets_tos].
Ltac rooms := unfold room; cbn [length]; lia.
Ltac len := cbn [length]; vm_compute; lia.
Ltac get_i k := eapply r_get with (i := k); [exact I|frames|rooms|len|reflexivity|reflexivity].
Ltac get := first [get_i 0%nat|get_i 1%nat|get_i 2%nat|get_i 3%nat|get_i 4%nat|get_i 5%nat|get_i 6%nat].
Ltac put_i k := eapply i_set with (i := k); [frames|rooms|len|reflexivity|cbn [length]; lia
  |cbn [length grown Nat.eqb]; reflexivity|cbn [put_at length Nat.ltb Nat.leb upd app]; reflexivity].
Ltac put := first [put_i 0%nat|put_i 1%nat|put_i 2%nat|put_i 3%nat|put_i 4%nat|put_i 5%nat|put_i 6%nat].
Ltac clo := unfold pclo; vm_compute; reflexivity.
Ltac glob L := eapply i_glob; [exact (L _)|exact I|frame_miss|rooms|len|clo].
Ltac native_name L A := eapply i_bin; [exact (L _)|exact (A _)|exact I|frame_miss|rooms|len|clo].

Ltac par tac := eapply r_par; [first [apply r_par0|idtac]|tac|put].
Ltac op := eapply r_op.

Lemma int_res_ok z : - 2^63 <= z < 2^63 -> int_res z = ROk (VInt z).
Proof. intros H. unfold int_res. rewrite (proj2 (Z.leb_le (- 2^63) z)) by lia. rewrite (proj2 (Z.ltb_lt z (2^63))) by lia. reflexivity. Qed.
Lemma o_add m x y : - 2^63 <= x + y < 2^63 -> binary_op (binop_code BAdd) m (VInt x) (VInt y) = OOk (VInt (x + y), m).
Proof. intros H. cbn [binop_code binary_op math_op math_int]. rewrite int_res_ok by assumption. reflexivity. Qed.
Lemma o_mul m x y : - 2^63 <= x * y < 2^63 -> binary_op (binop_code BMul) m (VInt x) (VInt y) = OOk (VInt (x * y), m).
Proof. intros H. cbn [binop_code binary_op math_op math_int]. rewrite int_res_ok by assumption. reflexivity. Qed.
Lemma o_div m x y : 0 <= x < 2^63 -> 0 < y -> binary_op (binop_code BDiv) m (VInt x) (VInt y) = OOk (VInt (x / y), m).
Proof.
  intros H Hy. cbn [binop_code binary_op math_op math_int]. rewrite (proj2 (Z.eqb_neq y 0)) by lia.
  rewrite Z.quot_div_nonneg by lia. rewrite int_res_ok; [reflexivity|].
  pose proof (Z.div_pos x y). pose proof (Z.div_le_upper_bound x y x). nia.
Qed.
Lemma o_mod m x y : 0 <= x < 2^63 -> 0 < y -> binary_op (binop_code BMod) m (VInt x) (VInt y) = OOk (VInt (x mod y), m).
Proof.
  intros H Hy. cbn [binop_code binary_op mod_op]. rewrite (proj2 (Z.eqb_neq y 0)) by lia.
  rewrite Z.quot_div_nonneg by lia. rewrite Z.rem_mod_nonneg by lia.
  pose proof (Z.div_pos x y). pose proof (Z.div_le_upper_bound x y x).
  rewrite (proj2 (Z.leb_le (- 2^63) (x / y))) by nia. rewrite (proj2 (Z.ltb_lt (x / y) (2^63))) by nia. reflexivity.
Qed.
Lemma o_geq m x y r : (r = true <-> x >= y) -> binary_op (binop_code BGeq) m (VInt x) (VInt y) = OOk (VBool r, m).
Proof. intros H. cbn. destruct (Z.leb_spec y x); destruct r; try reflexivity; exfalso; destruct H; lia. Qed.
Lemma o_leq m x y r : (r = true <-> x <= y) -> binary_op (binop_code BLeq) m (VInt x) (VInt y) = OOk (VBool r, m).
Proof. intros H. cbn. destruct (Z.leb_spec x y); destruct r; try reflexivity; exfalso; destruct H; lia. Qed.
Lemma o_lss m x y r : (r = true <-> x < y) -> binary_op (binop_code BLss) m (VInt x) (VInt y) = OOk (VBool r, m).
Proof. intros H. cbn. destruct (Z.ltb_spec x y); destruct r; try reflexivity; exfalso; destruct H; lia. Qed.

Ltac value_name L A := eapply i_bin0; [exact (L _)|exact (A _)|exact I|frame_miss|rooms|len|clo].

Lemma chr_ascii z m : 0 <= z < 128 -> bin_chr [VInt z] m = OOk ([VStr [z]], m).
Proof.
  intros H. unfold bin_chr. rewrite wrap32_id by (unfold in_int; lia). rewrite u32_id by lia. unfold utf8_encode.
  rewrite (proj2 (Z.ltb_lt z 128)) by lia. change (32 <? 1) with false. cbv iota.
  pose proof (new_string_text [z] []) as N. cbn [app] in N. rewrite N; [reflexivity| |].
  - apply ascii_text. constructor; [lia|constructor].
  - unfold short. cbn [List.length]. lia.
Qed.

Lemma digit_ok E n extra cx d : 0 <= d <= 9 -> exists t,
  run_call_n (UE E) (S n) (fst fn_digit) (snd fn_digit) [VInt d] (VRef 16) (Out extra cx) = OOk ([VStr [48 + d]], Out (extra ++ t) cx).
Proof.
  intros Hd. eexists. unfold fn_digit. cbn [fst snd].
  etransitivity.
  { eapply (c_run P C B E n NS_digit).
    - eapply r_par; [apply r_par0|split; [value_name b_int n_int|reflexivity]|put].
    - apply s_comp. eapply s_next.
      { eapply s_expr. eapply r_call; [reflexivity| | |].
        - eapply r_args; [apply r_args0|]. eapply r_and with (x := true) (y := true); [| |discriminate].
          + eapply r_op; [get|apply r_int|]. apply o_geq; lia.
          + intros _. eapply r_op; [get|apply r_int|]. apply o_leq; lia.
        - native_name b_assert n_assert.
        - eapply k_new; reflexivity. }
      eapply s_stop. eapply s_ret. eapply r_call; [reflexivity| | |].
      + eapply r_args; [apply r_args0|]. eapply r_op.
        * eapply r_call; [reflexivity| | |].
          -- eapply r_args; [apply r_args0|]. apply r_str. reflexivity.
          -- glob g_ord.
          -- eapply k_native; [vm_compute; reflexivity|vm_compute; reflexivity|reflexivity].
        * get.
        * apply o_add. lia.
      + glob g_chr.
      + eapply k_native; [vm_compute; reflexivity|apply chr_ascii; lia|reflexivity].
    - reflexivity. }
  reflexivity.
Qed.
