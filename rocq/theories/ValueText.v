(** toString of lists, maps and other values: proofs for C83. *)
From Coq Require Import ZArith String List Lia Bool.
From Verif Require Import Base HashModel Utf8Model StringModel ValueModel MapModel MapSpec ListModel ListProofs ExeModel ArithModel ObjModel AstModel CodegenModel
  VmModel SrcModel BuiltinModel BuiltinProofs PreludeModel PreludeRun PreludeProofs PreludeText PreludeSpec PreludeToString PreludeUser PreludeIter PreludeNext PreludeVisit
  ShowSpec StartSpec StartProofs TextSpec.
Import ListNotations.
Open Scope Z_scope.

(** start.noja:93-105 stringFromList and 107-126 stringFromMap, as compiled in PreludeModel.v, with their loops and their variables. *)
Definition fn_sfl := Eval vm_compute in nth 7 C (ANil, SBreak).
Definition fn_sfm := Eval vm_compute in nth 8 C (ANil, SBreak).
Definition sfl_loop := Eval vm_compute in match snd fn_sfl with SComp (SCons _ (SCons _ (SCons w _))) => w | s => s end.
Definition sfm_loop := Eval vm_compute in
  match snd fn_sfm with SComp (SCons _ (SCons _ (SCons (SIfElse _ _ (SComp (SCons _ (SCons _ (SCons _ (SCons w _))))))  _))) => w | s => s end.
Definition sfm_if := Eval vm_compute in match sfm_loop with SWhile _ (SComp (SCons _ (SCons _ (SCons i _)))) => i | s => s end.
Definition NS_sfl := Eval vm_compute in [b "list"; b "s"; b "i"].
Definition NS_sfm := Eval vm_compute in [b "can_use_method"; b "map"; b "s"; b "has_method"; b "i"; b "keys"].
Opaque P C TOP.
Lemma gets_sfl : gets NS_sfl. Proof. frame_get. Qed.
Lemma sets_sfl : sets NS_sfl. Proof. frame_set. Qed.
Lemma gets_sfm : gets NS_sfm. Proof. frame_get. Qed.
Lemma sets_sfm : sets NS_sfm. Proof. frame_set. Qed.
Ltac frames ::= first [exact gets_tos|exact sets_tos|exact gets_sfl|exact sets_sfl|exact gets_sfm|exact sets_sfm].

Lemma g_sfl E : found E (b "stringFromList") (VRef 29). Proof. top. Qed.
Lemma g_sfm E : found E (b "stringFromMap") (VRef 31). Proof. top. Qed.
Lemma g_Func E : found E (b "Func") (VType TyFun). Proof. top. Qed.
Lemma g_NFunc E : found E (b "NFunc") (VType TyNFun). Proof. top. Qed.
Lemma n_Type E : absent E (b "Type"). Proof. top. Qed.
Lemma n_String E : absent E (b "String"). Proof. top. Qed.
Lemma n_tos E : absent E (b "toString"). Proof. top. Qed.
Lemma n_typename E : absent E (b "typename"). Proof. top. Qed.
Lemma n_error E : absent E (b "error"). Proof. top. Qed.
Ltac named := let r := fresh in intros r; rewrite app_nil_r; vm_compute; reflexivity.
Lemma b_float E : builtin E (b "float") (fun _ => VType TyFloat) []. Proof. named. Qed.
Lemma b_Type E : builtin E (b "Type") (fun _ => VType TyType) []. Proof. named. Qed.
Lemma b_String E : builtin E (b "String") (fun _ => VType TyString) []. Proof. named. Qed.
Lemma b_tos E : builtin E (b "toString") (fun _ => VRef 40) []. Proof. named. Qed.
Lemma b_typename E : builtin E (b "typename") VRef [ONative N_typename 1]. Proof. smap. Qed.
Lemma b_error E : builtin E (b "error") VRef [ONative N_error 1]. Proof. smap. Qed.

Lemma Forall2_weaken {A B} (R S : A -> B -> Prop) l m : (forall x y, R x y -> S x y) -> Forall2 R l m -> Forall2 S l m.
Proof. induction 2; constructor; auto. Qed.

(** * Lists *)
Definition ext (objs extra : list hobj) : Prop := forall l o, nth_error objs l = Some o -> nth_error (P ++ extra) l = Some o.
Lemma ext_app objs extra r : ext objs extra -> ext objs (extra ++ r).
Proof. intros H l o X. rewrite app_assoc. apply nth_pre. now apply H. Qed.

(** With [N] calls and turns of loops, toString turns [v] into [s]. *)
Definition saying (E : env) (objs : list hobj) (N : nat) (v : value) (s : list Z) : Prop := text s /\
  forall f extra cx, (N <= f)%nat -> ext objs extra -> short s -> exists t,
  run_call_n (UE E) f (fst fn_tos) (snd fn_tos) [v; VNone] (VRef 39) (Out extra cx) = OOk ([VStr s], Out (extra ++ t) cx).
Lemma saying_more E objs N M v s : (N <= M)%nat -> saying E objs N v s -> saying E objs M v s.
Proof. intros H [A B]. split; [exact A|]. intros f extra cx Hf. apply B. lia. Qed.

Definition sep := bytes_of ", ".
Lemma text_sep : text sep. Proof. apply ascii_text. repeat constructor; discriminate. Qed.
Lemma short_len (s t : list Z) : (length s <= length t)%nat -> short t -> short s.
Proof. unfold short. lia. Qed.
Lemma join_length ss : (2 * length ss <= length (join sep ss) + 2)%nat.
Proof.
  induction ss as [|s ss IH]; [cbn; lia|]. destruct ss as [|s' ss]; [cbn [join length]; lia|].
  change (join sep (s :: s' :: ss)) with (s ++ sep ++ join sep (s' :: ss)). rewrite !app_length. change (length sep) with 2%nat.
  remember (s' :: ss) as r. cbn [length]. lia.
Qed.

Lemma cat2 E ac NS sz ws extra tail cx s t : text s -> text t -> short (s ++ t) ->
  call (UE E) ac (VRef 15) [VStr s; VStr t] 1 (St NS sz ws extra tail cx) = OOk ([VStr (s ++ t)], St NS sz ws extra tail cx).
Proof.
  intros A B0 Hs. eapply k_native with (rs := [VStr (s ++ t)]); [vm_compute; reflexivity| |reflexivity].
  change (bin_cat (vstrs [s; t]) (t_mem (St NS sz ws extra tail cx)) = OOk ([VStr (s ++ t)], t_mem (St NS sz ws extra tail cx))).
  replace (s ++ t) with (concat [s; t]) by (cbn [concat]; now rewrite app_nil_r). apply (cat_ok [s; t]).
  - repeat constructor; assumption.
  - cbn [concat]. now rewrite app_nil_r.
Qed.

Lemma k_tos E f objs N NS sz ws extra tail cx v s : saying E objs N v s -> (N <= f)%nat -> ext objs extra -> short s -> exists t,
  call (UE E) (run_call_n (UE E) f) (VRef 40) [v] 1 (St NS sz ws extra tail cx) = OOk ([VStr s], St NS sz ws extra (tail ++ t) cx).
Proof.
  intros [_ H] Hf He Hs. destruct (H f (extra ++ OMap (L NS sz ws) :: tail) cx Hf (ext_app _ _ _ He) Hs) as [t A]. exists t.
  eapply k_fun; [vm_compute; reflexivity| |exact A|reflexivity]. vm_compute. reflexivity.
Qed.

Section ListLoop.
Variables (E : env) (objs : list hobj) (N : nat) (extra : list hobj) (cx : list (params * stmt)) (l : nat) (lo : lobj value) (all : list value).
Hypotheses (Hl : nth_error (P ++ extra) l = Some (OList lo)) (R : rep lo all) (Hn : Z.of_nat (length all) <= 2 ^ 30) (He : ext objs extra).

Lemma sfl_steps : forall vs ss, Forall2 (saying E objs N) vs ss -> forall pre s tail f, all = pre ++ vs -> text s ->
  short (s ++ join sep ss) -> (N + length vs <= f)%nat -> exists tail',
  run_stmt (UE E) (run_stmt_n (UE E) f) (run_call_n (UE E) f) sfl_loop (Sc extra 28) (St NS_sfl 8 [VRef l; VStr s; VInt (Z.of_nat (length pre))] extra tail cx) =
  OOk (SigNext, St NS_sfl 8 [VRef l; VStr (s ++ join sep ss); VInt (Z.of_nat (length all))] extra tail' cx).
Proof.
  induction 1 as [|v t vs ss Hv F IH]; intros pre s tail f -> Ht Hs Hf.
  - rewrite app_nil_r in *. cbn [join]. rewrite app_nil_r. eexists. unfold sfl_loop. eapply s_while_f.
    eapply r_op; [get| |].
    + eapply r_call; [reflexivity| | |].
      * eapply r_args; [apply r_args0|get].
      * native_name b_count n_count.
      * eapply count_ok; [exact Hl|exact R].
    + apply (o_lss _ _ _ false). split; [discriminate|lia].
  - assert (St_ : text t) by apply Hv.
    assert (Sh : short t /\ short (s ++ t)).
    { split; (eapply short_len; [|exact Hs]); rewrite !app_length; destruct ss; cbn [join]; rewrite ?app_length; lia. }
    destruct f as [|f]; [cbn [length] in Hf; lia|].
    destruct (k_tos E (S f) objs N NS_sfl 8 [VRef l; VStr s; VInt (Z.of_nat (length pre))] extra (tail ++ [ONative N_count 1]) cx v t Hv) as [t1 A]; [lia|exact He|apply Sh|].
    assert (Hi : nth_error (pre ++ v :: vs) (length pre) = Some v) by (rewrite nth_error_app2 by lia; now rewrite Nat.sub_diag).
    assert (Ln : (length (pre ++ [v])) = S (length pre)) by (rewrite app_length; cbn [length]; lia).
    destruct vs as [|w vs].
    + inversion F; subst. clear F.
      specialize (IH (pre ++ [v]) (s ++ t) (((tail ++ [ONative N_count 1]) ++ t1) ++ [ONative N_count 1]) f). rewrite <- app_assoc in IH. specialize (IH eq_refl).
      destruct IH as [tail' B0]; [apply text_app; assumption|cbn [join]; rewrite app_nil_r; apply Sh|cbn [length] in *; lia|].
      exists tail'. etransitivity; [|etransitivity; [exact B0|cbn [join]; rewrite app_nil_r; reflexivity]].
      unfold sfl_loop at 1. eapply s_while_t.
      * eapply r_op; [get| |].
        -- eapply r_call; [reflexivity|eapply r_args; [apply r_args0|get]|native_name b_count n_count|eapply count_ok; [exact Hl|exact R]].
        -- apply (o_lss _ _ _ true). rewrite app_length. cbn [length]. lia.
      * apply s_comp. eapply s_next.
        { eapply s_expr. eapply r_ass1; [reflexivity| |].
          - eapply r_call; [reflexivity| | |].
            + eapply r_args; [eapply r_args; [apply r_args0|]|].
              * eapply r_call; [reflexivity| | |exact A].
                -- eapply r_args; [apply r_args0|]. eapply r_sel; [exact I|get|get|].
                   eapply in_list; [apply nth_mid; exact Hl|exact R|exact Hn|exact Hi].
                -- value_name b_tos n_tos.
              * get.
            + glob g_cat.
            + apply cat2; [assumption|assumption|apply Sh].
          - put. }
        eapply s_next.
        { eapply s_expr. eapply r_ass1; [reflexivity|eapply r_op; [get|apply r_int|apply o_add; rewrite app_length in Hn; cbn [length] in Hn; lia]|put]. }
        eapply s_next; [|apply s_nil].
        eapply s_if_f. eapply r_op; [get| |].
        -- eapply r_call; [reflexivity|eapply r_args; [apply r_args0|get]|native_name b_count n_count|eapply count_ok; [exact Hl|exact R]].
        -- apply (o_lss _ _ _ false). split; [discriminate|]. rewrite app_length. cbn [length]. lia.
      * rewrite Ln. replace (Z.of_nat (length pre) + 1) with (Z.of_nat (S (length pre))) by lia. reflexivity.
    + inversion F as [|? ? ? ? Fa Fb]; subst. rename l' into ss'. rename y into t'.
      assert (Sh2 : short ((s ++ t) ++ sep)).
      { eapply short_len; [|exact Hs]. change (join sep (t :: t' :: ss')) with (t ++ sep ++ join sep (t' :: ss')). rewrite !app_length. lia. }
      specialize (IH (pre ++ [v]) ((s ++ t) ++ sep) (((tail ++ [ONative N_count 1]) ++ t1) ++ [ONative N_count 1]) f). rewrite <- !app_assoc in IH. specialize (IH eq_refl).
      destruct IH as [tail' B0]; [repeat apply text_app; auto using text_sep|exact Hs|cbn [length] in *; lia|].
      exists tail'. etransitivity; [|etransitivity; [exact B0|]].
      2:{ change (join sep (t :: t' :: ss')) with (t ++ sep ++ join sep (t' :: ss')). reflexivity. }
      unfold sfl_loop at 1. eapply s_while_t.
      * eapply r_op; [get| |].
        -- eapply r_call; [reflexivity|eapply r_args; [apply r_args0|get]|native_name b_count n_count|eapply count_ok; [exact Hl|exact R]].
        -- apply (o_lss _ _ _ true). rewrite app_length. cbn [length]. lia.
      * apply s_comp. eapply s_next.
        { eapply s_expr. eapply r_ass1; [reflexivity| |].
          - eapply r_call; [reflexivity| | |].
            + eapply r_args; [eapply r_args; [apply r_args0|]|].
              * eapply r_call; [reflexivity| | |exact A].
                -- eapply r_args; [apply r_args0|]. eapply r_sel; [exact I|get|get|].
                   eapply in_list; [apply nth_mid; exact Hl|exact R|exact Hn|exact Hi].
                -- value_name b_tos n_tos.
              * get.
            + glob g_cat.
            + apply cat2; [assumption|assumption|apply Sh].
          - put. }
        eapply s_next.
        { eapply s_expr. eapply r_ass1; [reflexivity|eapply r_op; [get|apply r_int|apply o_add; rewrite app_length in Hn; cbn [length] in Hn; lia]|put]. }
        eapply s_next; [|apply s_nil].
        eapply s_if_t. 
        { eapply r_op; [get| |].
          - eapply r_call; [reflexivity|eapply r_args; [apply r_args0|get]|native_name b_count n_count|eapply count_ok; [exact Hl|exact R]].
          - apply (o_lss _ _ _ true). rewrite app_length. cbn [length]. lia. }
        eapply s_expr. eapply r_ass1; [reflexivity| |].
        -- eapply r_call; [reflexivity| | |].
           ++ eapply r_args; [eapply r_args; [apply r_args0|]|]; [str|get].
           ++ glob g_cat.
           ++ apply cat2; [apply text_app; assumption|apply text_sep|exact Sh2].
        -- put.
      * rewrite Ln. replace (Z.of_nat (length pre) + 1) with (Z.of_nat (S (length pre))) by lia. rewrite <- !app_assoc. reflexivity.
Qed.
End ListLoop.

Lemma is_kind objs l o t : nth_error objs l = Some o -> kind_of o = t -> t = TyList \/ t = TyMap ->
  is_type (mkmem objs false) (VType t) (VRef l) = OOk (true, mkmem objs false).
Proof.
  intros H <- K. unfold is_type, type_depth. rewrite Nat.add_1_r. cbn [is_type_of m_objs m_pend]. rewrite (kind_type _ _ _ H K).
  destruct K as [-> | ->]; reflexivity.
Qed.

Lemma text_join ss : Forall text ss -> text (join sep ss).
Proof.
  induction 1 as [|s ss A F IH]; [apply text_nil|]. destruct ss as [|t ss]; [exact A|].
  change (join sep (s :: t :: ss)) with (s ++ sep ++ join sep (t :: ss)). repeat apply text_app; auto using text_sep.
Qed.
Lemma Forall2_text E objs N vs ss : Forall2 (saying E objs N) vs ss -> Forall text ss.
Proof. induction 1 as [|v s vs ss [A _] _ IH]; constructor; assumption. Qed.
Lemma Forall2_len {A B} (R : A -> B -> Prop) l m : Forall2 R l m -> length l = length m.
Proof. induction 1; cbn [length]; auto. Qed.

Lemma sfl_ok E objs N l lo vs ss f extra cx : nth_error objs l = Some (OList lo) -> rep lo vs -> Forall2 (saying E objs N) vs ss -> ext objs extra ->
  short (bytes_of "[" ++ join sep ss ++ bytes_of "]") -> (N + length vs <= f)%nat -> exists t,
  run_call_n (UE E) (S f) (fst fn_sfl) (snd fn_sfl) [VRef l] (VRef 28) (Out extra cx) =
  OOk ([VStr (bytes_of "[" ++ join sep ss ++ bytes_of "]")], Out (extra ++ t) cx).
Proof.
  intros Hl R F He Hs Hf.
  assert (T1 : text [91]) by (apply ascii_text; repeat constructor; discriminate).
  assert (T2 : text [93]) by (apply ascii_text; repeat constructor; discriminate).
  pose proof (text_join _ (Forall2_text _ _ _ _ _ F)) as T3.
  change (bytes_of "[") with [91] in *. change (bytes_of "]") with [93] in *.
  assert (Hn : Z.of_nat (length vs) <= 2 ^ 30).
  { pose proof (join_length ss) as J. rewrite <- (Forall2_len _ _ _ F) in J. unfold short in Hs. rewrite !app_length in Hs. cbn [length] in Hs. lia. }
  destruct (sfl_steps E objs N extra cx l lo vs (He _ _ Hl) R Hn He vs ss F [] [91] [] f eq_refl T1) as [tail A]; [|exact Hf|].
  { eapply short_len; [|exact Hs]. rewrite !app_length. lia. }
  eexists. unfold fn_sfl. cbn [fst snd]. etransitivity.
  { eapply (c_run P C B E f NS_sfl).
    - eapply r_par; [apply r_par0|split; [value_name b_List n_List|]|put].
      eapply is_kind; [apply nth_mid; exact (He _ _ Hl)|reflexivity|left; reflexivity].
    - apply s_comp. eapply s_next.
      { eapply s_expr. eapply r_ass1; [reflexivity|str|put]. }
      eapply s_next.
      { eapply s_expr. eapply r_ass1; [reflexivity|apply r_int|put]. }
      eapply s_next; [exact A|].
      eapply s_next.
      { eapply s_expr. eapply r_ass1; [reflexivity| |].
        - eapply r_call; [reflexivity| | |].
          + eapply r_args; [eapply r_args; [apply r_args0|]|]; [str|get].
          + glob g_cat.
          + apply cat2; [apply text_app; assumption|exact T2|rewrite <- app_assoc; exact Hs].
        - put. }
      eapply s_stop. eapply s_ret. get.
    - reflexivity. }
  reflexivity.
Qed.

(** * Maps *)
Lemma cat4 E ac NS sz ws extra tail cx s t u v : text s -> text t -> text u -> text v -> short (s ++ t ++ u ++ v) ->
  call (UE E) ac (VRef 15) [VStr s; VStr t; VStr u; VStr v] 1 (St NS sz ws extra tail cx) = OOk ([VStr (s ++ t ++ u ++ v)], St NS sz ws extra tail cx).
Proof.
  intros A1 A2 A3 A4 Hs. eapply k_native with (rs := [VStr (s ++ t ++ u ++ v)]); [vm_compute; reflexivity| |reflexivity].
  change (bin_cat (vstrs [s; t; u; v]) (t_mem (St NS sz ws extra tail cx)) = OOk ([VStr (s ++ t ++ u ++ v)], t_mem (St NS sz ws extra tail cx))).
  replace (s ++ t ++ u ++ v) with (concat [s; t; u; v]) by (cbn [concat]; now rewrite app_nil_r). apply cat_ok.
  - repeat constructor; assumption.
  - cbn [concat]. now rewrite app_nil_r.
Qed.
Lemma count_in E ac NS sz ws extra tail cx l lo (ks : list value) :
  nth_error (P ++ extra ++ OMap (L NS sz ws) :: tail ++ [ONative N_count 1]) l = Some (OList lo) -> rep lo ks ->
  call (UE E) ac (VRef (length (P ++ extra ++ OMap (L NS sz ws) :: tail))) [VRef l] 1 (St NS sz ws extra (tail ++ [ONative N_count 1]) cx) =
  OOk ([VInt (Z.of_nat (length ks))], St NS sz ws extra (tail ++ [ONative N_count 1]) cx).
Proof.
  intros H K. eapply k_new with (rs := [_]); [|reflexivity].
  change (native E N_count (if 1 <? 0 then [VRef l] else adjust 1 [VRef l])) with (bin_count (e_native E N_count) [VRef l]).
  unfold bin_count, ret1, PreludeRun.St. cbn [t_mem m_objs m_pend]. rewrite H. destruct K as [-> _]. reflexivity.
Qed.

Definition colon := bytes_of ": ".
Lemma text_colon : text colon. Proof. apply ascii_text. repeat constructor; discriminate. Qed.

Lemma text_entries ks vs : Forall text ks -> Forall text vs -> text (join sep (entries ks vs)).
Proof.
  intros A1 A2. apply text_join. unfold entries. 
  rewrite Forall_forall in *. intros x Hx. apply in_map_iff in Hx. destruct Hx as ([a c] & <- & Hx). cbn [fst snd].
  repeat apply text_app; auto using text_colon; [apply A1; eapply in_combine_l; eassumption|apply A2; eapply in_combine_r; eassumption].
Qed.

Section MapLoop.
Variables (E : env) (objs : list hobj) (N : nat) (extra : list hobj) (cx : list (params * stmt)) (l kl : nat) (o : hobj) (all allv : list value) (lk : lobj value).
Hypotheses (Hl : nth_error (P ++ extra) l = Some o) (K : collection E o all allv lk) (He : ext objs extra).
Definition listed (tail : list hobj) : Prop := forall sz ws y, nth_error (P ++ extra ++ OMap (L NS_sfm sz ws) :: tail ++ y) kl = Some (OList lk).
Lemma listed_more tail t : listed tail -> listed (tail ++ t).
Proof. intros H sz ws y. rewrite <- app_assoc. apply H. Qed.
Lemma listed_at tail sz ws : listed tail -> nth_error (P ++ extra ++ OMap (L NS_sfm sz ws) :: tail) kl = Some (OList lk).
Proof. intros H. pose proof (H sz ws []) as X. rewrite app_nil_r in X. exact X. Qed.
Definition frame s i := [VBool true; VRef l; VStr s; VBool false; VInt (Z.of_nat i); VRef kl].

Ltac count_keys Ht := eapply r_call; [reflexivity|eapply r_args; [apply r_args0|get]|native_name b_count n_count|
  eapply count_in; [apply (listed_at _ _ _ (listed_more _ _ Ht))|exact (c_rep _ _ _ _ _ K)]].

Lemma sfm_steps : forall ks kts, Forall2 (saying E objs N) ks kts -> forall vs vts, Forall2 (saying E objs N) vs vts -> length ks = length vs ->
  forall pre prev s tail f, all = pre ++ ks -> allv = prev ++ vs -> length pre = length prev -> text s ->
  short (s ++ join sep (entries kts vts)) -> (N + length ks <= f)%nat -> listed tail -> exists tail',
  run_stmt (UE E) (run_stmt_n (UE E) f) (run_call_n (UE E) f) sfm_loop (Sc extra 30) (St NS_sfm 16 (frame s (length pre)) extra tail cx) =
  OOk (SigNext, St NS_sfm 16 (frame (s ++ join sep (entries kts vts)) (length all)) extra tail' cx).
Proof.
  induction 1 as [|k kt ks kts Hk F IH]; intros vs vts FV Hlen pre prev s tail f Ea Eb Hp Ht Hs Hf HT.
  - destruct vs; [|discriminate]. inversion FV; subst vts. rewrite app_nil_r in Ea. subst pre. cbn [entries combine map join]. rewrite app_nil_r.
    eexists. unfold sfm_loop, frame. eapply s_while_f.
    eapply r_op; [get|count_keys HT|].
    apply (o_lss _ _ _ false). split; [discriminate|lia].
  - inversion FV as [|v vt vs' vts' Hv FV' E1 E2]; subst vs vts; [discriminate|].
    assert (Tk : text kt) by apply Hk. assert (Tv : text vt) by apply Hv.
    assert (Ee : entries (kt :: kts) (vt :: vts') = (kt ++ colon ++ vt) :: entries kts vts') by reflexivity.
    rewrite Ee in *.
    set (s1 := s ++ kt ++ colon ++ vt) in *.
    assert (Sh : short kt /\ short vt /\ short s1).
    { unfold s1. repeat split; (eapply short_len; [|exact Hs]); destruct (entries kts vts'); cbn [join]; rewrite ?app_length; lia. }
    assert (Ik : nth_error all (length pre) = Some k) by (rewrite Ea, nth_error_app2 by lia; now rewrite Nat.sub_diag).
    assert (Iv : nth_error allv (length pre) = Some v) by (rewrite Eb, Hp, nth_error_app2 by lia; now rewrite Nat.sub_diag).
    pose proof (c_sel _ _ _ _ _ K _ _ _ Ik Iv) as Sel.
    pose proof (c_small _ _ _ _ _ K) as Sm. pose proof (c_rep _ _ _ _ _ K) as Rk.
    destruct f as [|f]; [cbn [length] in Hf; lia|].
    destruct (k_tos E (S f) objs N NS_sfm 16 (frame s (length pre)) extra (tail ++ [ONative N_count 1]) cx v vt Hv) as [t1 A1]; [lia|exact He|apply Sh|].
    destruct (k_tos E (S f) objs N NS_sfm 16 (frame s (length pre)) extra ((tail ++ [ONative N_count 1]) ++ t1) cx k kt Hk) as [t2 A2]; [lia|exact He|apply Sh|].
    assert (Ln : (length (pre ++ [k])) = S (length pre)) by (rewrite app_length; cbn [length]; lia).
    assert (Ln' : (length (prev ++ [v])) = S (length prev)) by (rewrite app_length; cbn [length]; lia).
    set (tl3 := ((tail ++ [ONative N_count 1]) ++ t1) ++ t2) in *.
    assert (HT1 : listed (tail ++ [ONative N_count 1])) by now apply listed_more.
    assert (HT2 : listed ((tail ++ [ONative N_count 1]) ++ t1)) by now apply listed_more.
    assert (HT3 : listed tl3) by (unfold tl3; now apply listed_more).
    assert (La : length all = (length pre + S (length ks))%nat) by (rewrite Ea, app_length; reflexivity).
    set (s2 := match ks with [] => s1 | _ => s1 ++ sep end).
    assert (T1 : text s1) by (unfold s1; repeat apply text_app; auto using text_colon).
    assert (T2 : text s2) by (unfold s2; destruct ks; [exact T1|apply text_app; auto using text_sep]).
    assert (S2 : short s2 /\ s2 ++ join sep (entries kts vts') = s ++ join sep ((kt ++ colon ++ vt) :: entries kts vts')).
    { unfold s2. destruct F as [|k' kt' ks kts Hk' F].
      - split; [apply Sh|]. cbn [entries combine map join]. rewrite app_nil_r. reflexivity.
      - inversion FV' as [|v' vt' vs'' vts'' Hv' FV'' E1 E2]; subst vs' vts'; [discriminate|].
        change (entries (kt' :: kts) (vt' :: vts'')) with ((kt' ++ colon ++ vt') :: entries kts vts'') in *.
        set (r := (kt' ++ colon ++ vt') :: entries kts vts'') in *.
        assert (J : join sep ((kt ++ colon ++ vt) :: r) = (kt ++ colon ++ vt) ++ sep ++ join sep r) by reflexivity. rewrite J in *. split.
        + eapply short_len; [|exact Hs]. unfold s1. rewrite !app_length. lia.
        + unfold s1. rewrite <- !app_assoc. reflexivity. }
    destruct S2 as [S2 J2].
    assert (IfS : run_stmt (UE E) (run_stmt_n (UE E) (S f)) (run_call_n (UE E) (S f)) sfm_if (Sc extra 30) (St NS_sfm 16 (frame s1 (S (length pre))) extra tl3 cx) =
      OOk (SigNext, St NS_sfm 16 (frame s2 (S (length pre))) extra (tl3 ++ [ONative N_count 1]) cx)).
    { unfold sfm_if, frame. destruct ks as [|k' ks]; cbn [length] in La.
      - eapply s_if_f. eapply r_op; [get|count_keys HT3|]. apply (o_lss _ _ _ false). split; [discriminate|lia].
      - eapply s_if_t.
        { eapply r_op; [get|count_keys HT3|]. apply (o_lss _ _ _ true). lia. }
        eapply s_expr. eapply r_ass1; [reflexivity| |].
        + eapply r_call; [reflexivity| | |].
          * eapply r_args; [eapply r_args; [apply r_args0|]|]; [str|get].
          * glob g_cat.
          * apply cat2; [exact T1|apply text_sep|exact S2].
        + put. }
    specialize (IH vs' vts' FV' ltac:(now injection Hlen) (pre ++ [k]) (prev ++ [v]) s2 (tl3 ++ [ONative N_count 1]) f).
    specialize (IH ltac:(rewrite <- app_assoc; exact Ea) ltac:(rewrite <- app_assoc; exact Eb) ltac:(lia) T2).
    destruct IH as [tail' B0]; [rewrite J2; exact Hs|cbn [length] in *; lia|now apply listed_more|].
    exists tail'. rewrite J2, Ln in B0. etransitivity; [|exact B0].
    unfold sfm_loop at 1. unfold frame in A1, A2, IfS |- *. eapply s_while_t.
    + eapply r_op; [get|count_keys HT|]. apply (o_lss _ _ _ true). lia.
    + apply s_comp. eapply s_next.
      { eapply s_expr. eapply r_ass1; [reflexivity| |].
        - eapply r_call; [reflexivity| | |].
          + eapply r_args; [eapply r_args; [eapply r_args; [eapply r_args; [apply r_args0|]|]|]|].
            * eapply r_call; [reflexivity| | |exact A1].
              -- eapply r_args; [apply r_args0|]. eapply r_sel; [exact I|get| |].
                 ++ eapply r_sel; [exact I|get|get|].
                    eapply in_list; [apply (listed_at _ _ _ HT1)|exact Rk|exact Sm|exact Ik].
                 ++ apply Sel. apply nth_mid. exact Hl.
              -- value_name b_tos n_tos.
            * str.
            * eapply r_call; [reflexivity| | |exact A2].
              -- eapply r_args; [apply r_args0|]. eapply r_sel; [exact I|get|get|].
                 eapply in_list; [apply (listed_at _ _ _ HT2)|exact Rk|exact Sm|exact Ik].
              -- value_name b_tos n_tos.
            * get.
          + glob g_cat.
          + apply cat4; [assumption|assumption|apply text_colon|assumption|apply Sh].
        - put. }
      eapply s_next.
      { eapply s_expr. eapply r_ass1; [reflexivity|eapply r_op; [get|apply r_int|apply o_add; lia]|put]. }
      eapply s_next; [|apply s_nil].
      replace (Z.of_nat (length pre) + 1) with (Z.of_nat (S (length pre))) by lia. exact IfS.
    + reflexivity.
Qed.
End MapLoop.

Lemma tos_good : MapProofs2.good_key (VStr (b "toString")).
Proof.
  split; [|split].
  - cbn. intuition discriminate.
  - exact I.
  - split; [|vm_compute; reflexivity]. repeat constructor; unfold is_byte; vm_compute; discriminate.
Qed.

Lemma r_pardef2 E ac name d r args sc st st1 st3 x :
  bind_params E ac r args sc st = OOk st1 -> eval E ac MTgt (EIdent name) [VBool x] sc st1 = OOk ([VBool x], st3) -> m_pend (t_mem st1) = false ->
  bind_params E ac (ACons name ONo (OYes d) r) (VBool x :: args) sc st = OOk st3.
Proof.
  intros H1 H3 Hp. cbn [bind_params]. rewrite H1. cbn [obind]. unfold compare_op. cbn [type_of obj_compare]. rewrite Hp.
  cbn -[eval set_var]. cbn [eval] in H3. destruct (set_var E (t_mem st1) (sc_locals sc) name (VBool x)) as [mm| | | |] eqn:Es; try discriminate H3.
  cbn [obind] in H3. injection H3 as <-. reflexivity.
Qed.

Lemma sfm_ok E objs N l num h mo ks vs f extra cx : nth_error objs l = Some (OMap mo) -> filled num h mo -> the_value h (VStr (bytes_of "toString")) = VNone ->
  Forall2 (saying E objs N) (firsts MapProofs2.veqb (map fst h)) ks -> Forall2 (saying E objs N) (map (the_value h) (firsts MapProofs2.veqb (map fst h))) vs -> ext objs extra ->
  short (bytes_of "{" ++ join sep (entries ks vs) ++ bytes_of "}") -> (N + length (firsts MapProofs2.veqb (map fst h)) <= f)%nat -> exists t,
  run_call_n (UE E) (S f) (fst fn_sfm) (snd fn_sfm) [VRef l; VBool true] (VRef 30) (Out extra cx) =
  OOk ([VStr (bytes_of "{" ++ join sep (entries ks vs) ++ bytes_of "}")], Out (extra ++ t) cx).
Proof.
  intros Hl Fi Hm FK FV He Hs Hf.
  assert (T1 : text [123]) by (apply ascii_text; repeat constructor; discriminate).
  assert (T2 : text [125]) by (apply ascii_text; repeat constructor; discriminate).
  assert (T3 : text (join sep (entries ks vs))).
  { apply text_entries; eapply Forall2_text; eassumption. }
  change (bytes_of "{") with [123] in *. change (bytes_of "}") with [125] in *.
  destruct (map_collection E num h mo Fi) as [lk K].
  pose proof (filled_answers E num h mo _ Fi tos_good) as Hmeth. change (b "toString") with (bytes_of "toString") in Hmeth. rewrite Hm in Hmeth.
  set (kl := S (length (P ++ extra ++ OMap (L NS_sfm 8 [VBool true; VRef l; VStr [123]; VBool false; VInt 0]) :: [ONative N_istypeof 2]))).
  set (tail0 := [ONative N_istypeof 2] ++ [ONative N_keysof 1] ++ [OList lk]).
  assert (HT : listed extra kl lk tail0).
  { intros sz ws y. unfold kl, tail0.
    replace (P ++ extra ++ OMap (L NS_sfm sz ws) :: ([ONative N_istypeof 2] ++ [ONative N_keysof 1] ++ [OList lk]) ++ y) with
      ((P ++ extra ++ [OMap (L NS_sfm sz ws); ONative N_istypeof 2; ONative N_keysof 1]) ++ OList lk :: y) by (rewrite <- !app_assoc; reflexivity).
    rewrite nth_error_app2 by (rewrite !app_length; cbn [length]; lia).
    replace (_ - _)%nat with 0%nat by (rewrite !app_length; cbn [length]; lia). reflexivity. }
  destruct (sfm_steps E objs N extra cx l kl (OMap mo) _ _ lk (He _ _ Hl) K He _ ks FK _ vs FV (c_len _ _ _ _ _ K) [] [] [123] tail0 f eq_refl eq_refl eq_refl T1) as [tail A]; [|exact Hf|exact HT|].
  { eapply short_len; [|exact Hs]. rewrite !app_length. lia. }
  eexists. unfold fn_sfm. cbn [fst snd]. etransitivity.
  { eapply (c_run P C B E f NS_sfm).
    - eapply r_par.
      + eapply r_pardef2; [apply r_par0|put|reflexivity].
      + split; [value_name b_Map n_Map|].
        eapply is_kind; [apply nth_mid; exact (He _ _ Hl)|reflexivity|right; reflexivity].
      + put.
    - apply s_comp. eapply s_next.
      { eapply s_expr. eapply r_ass1; [reflexivity|apply r_none|put]. }
      eapply s_next.
      { eapply s_expr. eapply r_ass1; [reflexivity| |].
        - eapply r_call; [reflexivity| | |].
          + eapply r_args; [eapply r_args; [apply r_args0|]|].
            * eapply r_sel; [exact I|get|str|]. apply Hmeth. apply nth_mid. exact (He _ _ Hl).
            * glob g_Callable.
          + native_name b_istypeof n_istypeof.
          + eapply k_new with (rs := [VBool false]); [|reflexivity].
            change (native E N_istypeof (if 2 <? 0 then [VRef 8; VNone] else adjust 2 [VRef 8; VNone])) with (bin_istypeof [VRef 8; VNone]).
            unfold bin_istypeof, PreludeRun.St. cbn [t_mem]. rewrite not_callable. reflexivity.
        - put. }
      eapply s_next.
      { eapply s_ife_f.
        { eapply r_and with (x := true); [get| |discriminate]. intros _. get. }
        apply s_comp. eapply s_next.
        { eapply s_expr. eapply r_ass1; [reflexivity|str|put]. }
        eapply s_next.
        { eapply s_expr. eapply r_ass1; [reflexivity|apply r_int|put]. }
        eapply s_next.
        { eapply s_expr. eapply r_ass1; [reflexivity| |].
          - eapply r_call; [reflexivity|eapply r_args; [apply r_args0|get]|native_name b_keysof n_keysof|].
            eapply keysof_ok; [exact (He _ _ Hl)|exact K].
          - put. }
        eapply s_next; [exact A|].
        eapply s_next; [|apply s_nil].
        eapply s_expr. eapply r_ass1; [reflexivity| |].
        - eapply r_call; [reflexivity| | |].
          + eapply r_args; [eapply r_args; [apply r_args0|]|]; [str|unfold frame; get].
          + unfold frame; glob g_cat.
          + apply cat2; [apply text_app; assumption|exact T2|rewrite <- app_assoc; exact Hs].
        - unfold frame; put. }
      eapply s_stop. eapply s_ret. get.
    - reflexivity. }
  reflexivity.
Qed.

(** * toString *)
Lemma type_any E ac NS sz ws extra tail cx v t : (forall r, type_of (rt_of ((P ++ extra) ++ r)) v = t) ->
  call (UE E) ac (VRef (length (P ++ extra ++ OMap (L NS sz ws) :: tail))) [v] 1 (St NS sz ws extra (tail ++ [ONative N_type 1]) cx) =
  OOk ([VType t], St NS sz ws extra (tail ++ [ONative N_type 1]) cx).
Proof.
  intros H. eapply k_new with (rs := [_]); [|reflexivity].
  change (native E N_type (if 1 <? 0 then [v] else adjust 1 [v])) with (bin_type [v]).
  unfold bin_type, ret1, PreludeRun.St. cbn [t_mem m_objs]. rewrite app_assoc, H. reflexivity.
Qed.
Lemma type_at objs extra l o t : ext objs extra -> nth_error objs l = Some o -> type_of (rt_of [o]) (VRef 0) = t -> forall r, type_of (rt_of ((P ++ extra) ++ r)) (VRef l) = t.
Proof. intros He Hl H r. cbn [type_of] in *. unfold rt_of in *. rewrite (nth_pre _ _ _ _ _ (He _ _ Hl)). exact H. Qed.

Ltac tos_head Ht := eapply r_par with (typ := VNone); [eapply r_pardef; [apply r_par0|reflexivity|reflexivity|put]|reflexivity|put].
Ltac tos_type Ht := eapply s_next; [eapply s_expr; eapply r_ass1; [reflexivity|eapply r_call; [reflexivity|eapply r_args; [apply r_args0|get]|native_name b_type n_type|apply (type_any _ _ _ _ _ _ _ _ _ _ Ht)]|put]|].
Ltac no_bin L A := eapply s_next; [eapply s_if_f; eapply r_op; [get|value_name L A|reflexivity]|].
Ltac no_glob L := eapply s_next; [eapply s_if_f; eapply r_op; [get|glob L|reflexivity]|].
Ltac yes_bin L A := eapply s_stop; eapply s_if_t; [eapply r_op; [get|value_name L A|reflexivity]|].
Ltac yes_glob L := eapply s_stop; eapply s_if_t; [eapply r_op; [get|glob L|reflexivity]|].
Ltac start_tos := unfold fn_tos; cbn [fst snd]; etransitivity; [eapply (c_run P C B _ _ NS_tos)|].

Section Tos.
Variables (E : env) (f : nat) (extra : list hobj) (cx : list (params * stmt)) (v : value).
Definition tos (s : list Z) : Prop := exists t,
  run_call_n (UE E) (S f) (fst fn_tos) (snd fn_tos) [v; VNone] (VRef 39) (Out extra cx) = OOk ([VStr s], Out (extra ++ t) cx).
Definition has_type (t : tyname) : Prop := forall r, type_of (rt_of ((P ++ extra) ++ r)) v = t.

Lemma tos_none : has_type TyNone -> tos (b "none").
Proof.
  intros Ht. eexists. start_tos.
  - tos_head Ht.
  - apply s_comp. tos_type Ht. yes_bin b_None n_None. eapply s_ret. str.
  - reflexivity.
  - reflexivity.
Qed.
Lemma tos_type_ : has_type TyType -> tos (b "Type").
Proof.
  intros Ht. eexists. start_tos.
  - tos_head Ht.
  - apply s_comp. tos_type Ht. no_bin b_None n_None. no_bin b_int n_int. no_bin b_float n_float. no_bin b_List n_List. no_bin b_Map n_Map.
    yes_bin b_Type n_Type. eapply s_ret. eapply r_call; [reflexivity|eapply r_args; [apply r_args0|get]|native_name b_typename n_typename|].
    eapply k_new with (rs := [VStr (b "Type")]); reflexivity.
  - reflexivity.
  - reflexivity.
Qed.
Lemma tos_fun : has_type TyFun -> tos (b "Func").
Proof.
  intros Ht. eexists. start_tos.
  - tos_head Ht.
  - apply s_comp. tos_type Ht. no_bin b_None n_None. no_bin b_int n_int. no_bin b_float n_float. no_bin b_List n_List. no_bin b_Map n_Map.
    no_bin b_Type n_Type. yes_glob g_Func. eapply s_ret. str.
  - reflexivity.
  - reflexivity.
Qed.
Lemma tos_nfun : has_type TyNFun -> tos (b "NFunc").
Proof.
  intros Ht. eexists. start_tos.
  - tos_head Ht.
  - apply s_comp. tos_type Ht. no_bin b_None n_None. no_bin b_int n_int. no_bin b_float n_float. no_bin b_List n_List. no_bin b_Map n_Map.
    no_bin b_Type n_Type. no_glob g_Func. yes_glob g_NFunc. eapply s_ret. str.
  - reflexivity.
  - reflexivity.
Qed.
Lemma tos_str s : v = VStr s -> tos s.
Proof.
  intros Hv. assert (Ht : has_type TyString) by (unfold has_type; rewrite Hv; reflexivity). unfold tos. rewrite <- Hv. eexists. start_tos.
  - tos_head Ht.
  - apply s_comp. tos_type Ht. no_bin b_None n_None. no_bin b_int n_int. no_bin b_float n_float. no_bin b_List n_List. no_bin b_Map n_Map.
    no_bin b_Type n_Type. no_glob g_Func. no_glob g_NFunc. yes_bin b_String n_String. eapply s_ret. get.
  - reflexivity.
  - reflexivity.
Qed.
Definition tos_extra T := extra ++ OMap (L NS_tos 8 [VBool true; v; VType T]) :: [ONative N_type 1].
Lemma tos_list s t : has_type TyList ->
  run_call_n (UE E) f (fst fn_sfl) (snd fn_sfl) [v] (VRef 28) (Out (tos_extra TyList) cx) = OOk ([VStr s], Out (tos_extra TyList ++ t) cx) -> tos s.
Proof.
  intros Ht A. eexists. start_tos.
  - tos_head Ht.
  - apply s_comp. tos_type Ht. no_bin b_None n_None. no_bin b_int n_int. no_bin b_float n_float. yes_bin b_List n_List.
    eapply s_ret. eapply r_call; [reflexivity|eapply r_args; [apply r_args0|get]|glob g_sfl|].
    eapply k_fun; [vm_compute; reflexivity|vm_compute; reflexivity|exact A|reflexivity].
  - reflexivity.
  - reflexivity.
Qed.
Lemma tos_map s t : has_type TyMap ->
  run_call_n (UE E) f (fst fn_sfm) (snd fn_sfm) [v; VBool true] (VRef 30) (Out (tos_extra TyMap) cx) = OOk ([VStr s], Out (tos_extra TyMap ++ t) cx) -> tos s.
Proof.
  intros Ht A. eexists. start_tos.
  - tos_head Ht.
  - apply s_comp. tos_type Ht. no_bin b_None n_None. no_bin b_int n_int. no_bin b_float n_float. no_bin b_List n_List. yes_bin b_Map n_Map.
    eapply s_ret. eapply r_call; [reflexivity|eapply r_args; [eapply r_args; [apply r_args0|get]|get]|glob g_sfm|].
    eapply k_fun; [vm_compute; reflexivity|vm_compute; reflexivity|exact A|reflexivity].
  - reflexivity.
  - reflexivity.
Qed.
End Tos.

(** What has no text is refused. *)
Lemma o_type m t u : m_pend m = false -> binary_op (binop_code BEql) m (VType t) (VType u) = OOk (VBool (tyname_eqb t u), m).
Proof. intros H. cbn [binop_code binary_op]. unfold compare_op. cbn [obj_compare]. cbn. rewrite H. reflexivity. Qed.

Ltac skip_bin L A Hno := eapply s_next; [eapply s_if_f; eapply r_op; [get|value_name L A|rewrite o_type by reflexivity; rewrite Hno by (cbn; tauto); reflexivity]|].
Ltac skip_glob L Hno := eapply s_next; [eapply s_if_f; eapply r_op; [get|glob L|rewrite o_type by reflexivity; rewrite Hno by (cbn; tauto); reflexivity]|].


Lemma tos_refused E f extra cx v t : has_type extra v t -> ~ In t told ->
  run_call_n (UE E) (S f) (fst fn_tos) (snd fn_tos) [v; VNone] (VRef 39) (Out extra cx) = OErr.
Proof.
  intros Ht Hn.
  assert (Hno : forall u, In u told -> tyname_eqb t u = false).
  { intros u Hu. destruct (tyname_eqb t u) eqn:Q; [|reflexivity]. exfalso. apply Hn. assert (t = u) as -> by (destruct t, u; (reflexivity || discriminate)). exact Hu. }
  change OErr with (bad (A := list value * sst) true). unfold fn_tos. cbn [fst snd].
  eapply (x_run E true f NS_tos).
  - tos_head Ht.
  - apply s_comp. tos_type Ht. skip_bin b_None n_None Hno. skip_bin b_int n_int Hno. skip_bin b_float n_float Hno. skip_bin b_List n_List Hno. skip_bin b_Map n_Map Hno.
    skip_bin b_Type n_Type Hno. skip_glob g_Func Hno. skip_glob g_NFunc Hno. skip_bin b_String n_String Hno.
    eapply x_stop. eapply x_expr. eapply x_call; [reflexivity| | |].
    + eapply r_args; [apply r_args0|]. eapply r_call; [reflexivity| | |].
      * eapply r_args; [eapply r_args; [eapply r_args; [apply r_args0|]|]|].
        -- str.
        -- eapply r_call; [reflexivity|eapply r_args; [apply r_args0|get]|native_name b_typename n_typename|].
           eapply k_new with (rs := [VStr (b (type_name t))]); [|reflexivity].
           change (native E N_typename (if 1 <? 0 then [v] else adjust 1 [v])) with (bin_typename [v]).
           unfold bin_typename, ret1, PreludeRun.St. cbn [t_mem m_objs]. rewrite app_assoc, Ht. destruct t; reflexivity.
        -- str.
      * glob g_cat.
      * eapply k_native with (rs := [VStr (concat [b "Don't know how to convert "; b (type_name t); b " to a string"])]); [vm_compute; reflexivity| |reflexivity].
        apply (cat_ok [b "Don't know how to convert "; b (type_name t); b " to a string"]).
        -- assert (Asc : forall s, forallb (fun c => (0 <=? c) && (c <? 128)) s = true -> text s).
           { intros s H. apply ascii_text. rewrite forallb_forall in H. apply Forall_forall. intros x Hx. specialize (H x Hx). lia. }
           repeat constructor; apply Asc; try reflexivity. destruct t; reflexivity.
        -- destruct t; vm_compute; reflexivity.
    + native_name b_error n_error.
    + apply x_new. reflexivity.
Qed.

Lemma said_saying E objs : (forall v s, said objs v s -> exists N, saying E objs N v s) /\
  (forall vs ss, said_all objs vs ss -> exists N, Forall2 (saying E objs N) vs ss).
Proof.
  assert (A0 : forall v s, text s -> (forall f extra cx, ext objs extra -> short s -> tos E f extra cx v s) -> exists N, saying E objs N v s).
  { intros v s T H. exists 1%nat. split; [exact T|]. intros f extra cx Hf He Hs. destruct f as [|f]; [lia|]. exact (H f extra cx He Hs). }
  assert (Asc : forall s, forallb (fun c => (0 <=? c) && (c <? 128)) s = true -> text s).
  { intros s H. apply ascii_text. rewrite forallb_forall in H. apply Forall_forall. intros x Hx. specialize (H x Hx). lia. }
  apply said_both.
  - apply A0; [now apply Asc|]. intros. now apply tos_none.
  - intros z s Hz D. pose proof (decimal_pos _ _ D) as Hp. destruct (magnitude_exists z) as [i Hi]; [lia|].
    assert (digs (Z.to_nat i) z = s) as <-.
    { eapply decimal_unique; [|exact D]. apply digs_decimal; [rewrite Z2Nat.id by apply Hi; assumption|lia]. }
    exists 21%nat. split.
    + apply text_digs. apply digs_digit. rewrite Z2Nat.id by apply Hi. split; [lia|apply Hi].
    + intros f extra cx Hf He Hs. destruct f as [|f]; [lia|]. apply tos_ok; [lia|exact Hi|lia].
  - intros s T. apply A0; [exact T|]. intros. now apply tos_str.
  - intros t. apply A0; [now apply Asc|]. intros. now apply tos_type_.
  - intros l c clo Hl. apply A0; [now apply Asc|]. intros. apply tos_fun. exact (type_at _ _ _ _ _ ltac:(eassumption) Hl eq_refl).
  - intros l id argc Hl. apply A0; [now apply Asc|]. intros. apply tos_nfun. exact (type_at _ _ _ _ _ ltac:(eassumption) Hl eq_refl).
  - intros l lo vs ss Hl R _ [N F]. exists (N + length vs + 2)%nat. split.
    + repeat apply text_app; try now apply Asc. apply text_join. eapply Forall2_text; exact F.
    + intros f extra cx Hf He Hs. destruct f as [|[|f]]; try lia.
      destruct (sfl_ok E objs N l lo vs ss f (tos_extra extra (VRef l) TyList) cx Hl R F) as [t A]; [now apply ext_app|exact Hs|lia|].
      eapply tos_list; [exact (type_at _ _ _ _ _ He Hl eq_refl)|exact A].
  - intros l num h mo ks vs Hl Fi Hm _ [N1 F1] _ [N2 F2].
    assert (G1 : Forall2 (saying E objs (N1 + N2)) (firsts MapProofs2.veqb (map fst h)) ks).
    { eapply Forall2_weaken; [|exact F1]. intros v s. apply saying_more. lia. }
    assert (G2 : Forall2 (saying E objs (N1 + N2)) (map (the_value h) (firsts MapProofs2.veqb (map fst h))) vs).
    { eapply Forall2_weaken; [|exact F2]. intros v s. apply saying_more. lia. }
    exists (N1 + N2 + length (firsts MapProofs2.veqb (map fst h)) + 2)%nat. split.
    + repeat apply text_app; try now apply Asc. apply text_entries; eapply Forall2_text; eassumption.
    + intros f extra cx Hf He Hs. destruct f as [|[|f]]; try lia.
      destruct (sfm_ok E objs (N1 + N2) l num h mo ks vs f (tos_extra extra (VRef l) TyMap) cx Hl Fi Hm G1 G2) as [t A]; [now apply ext_app|exact Hs|lia|].
      eapply tos_map; [exact (type_at _ _ _ _ _ He Hl eq_refl)|exact A].
  - exists 0%nat. constructor.
  - intros v s vs ss _ [N1 F1] _ [N2 F2]. exists (N1 + N2)%nat. constructor.
    + eapply saying_more; [|exact F1]. lia.
    + eapply Forall2_weaken; [|exact F2]. intros w t. apply saying_more. lia.
Qed.

Lemma toString_said E st v s : with_prelude st -> said (m_objs (t_mem st)) v s -> short s -> exists N, forall f, (N <= f)%nat -> exists st',
  call_named E f "toString" [v] st = OOk ([VStr s], st') /\ with_prelude st' /\ grown_from (t_mem st) (t_mem st').
Proof.
  intros (extra & cx & ->) D Hs. cbn [t_mem m_objs] in D. destruct (proj1 (said_saying E _) v s D) as (N & _ & H).
  exists N. intros f Hf. destruct (H f extra cx Hf) as [t A]; [intros l o X; exact X|exact Hs|].
  exists (Out (extra ++ t) cx). change (mkst (mkmem (P ++ extra) false) (C ++ cx)) with (Out extra cx). split; [|split].
  - found_call 40%nat 12%nat 39%nat fn_tos. change (adjust (params_len (fst fn_tos)) [v]) with [v; VNone]. rewrite A. reflexivity.
  - exists (extra ++ t), cx. reflexivity.
  - exists t. unfold PreludeRun.Out. cbn [t_mem m_objs m_pend]. rewrite app_assoc. split; reflexivity.
Qed.

Lemma toString_refused E f st v : with_prelude st -> within (t_mem st) v -> ~ In (type_of (rt_of (m_objs (t_mem st))) v) told -> (1 <= f)%nat ->
  call_named E f "toString" [v] st = OErr.
Proof.
  intros (extra & cx & ->) Hw Hn Hf. destruct f as [|f]; [lia|]. cbn [t_mem m_objs] in *.
  change (mkst (mkmem (P ++ extra) false) (C ++ cx)) with (Out extra cx).
  found_call 40%nat 12%nat 39%nat fn_tos. change (adjust (params_len (fst fn_tos)) [v]) with [v; VNone].
  rewrite (tos_refused E f extra cx v (type_of (rt_of (P ++ extra)) v)); [reflexivity| |exact Hn].
  intros r. apply type_more. exact Hw.
Qed.
