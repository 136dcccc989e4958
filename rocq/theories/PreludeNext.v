(** The method next of the iterators of the prelude (C52). *)
From Coq Require Import ZArith String List Lia Bool.
From Verif Require Import Base StringModel ValueModel MapModel ListModel SeqSpec ListProofs ExeModel ArithModel ObjModel AstModel CodegenModel
  VmModel SrcModel BuiltinModel BuiltinProofs PreludeModel PreludeRun PreludeProofs PreludeText PreludeToString PreludeIter.
Import ListNotations.
Open Scope Z_scope.

(** * Names seen from the closure of next *)
Lemma sel_clo_n E n objs c T key : nth_error objs c = Some (OClosure None (VRef 1)) -> nth_error objs 1 = Some (OMap T) ->
  obj_select E (S n) (mkmem objs false) (VRef c) key = obj_select E (depth objs) (mkmem objs false) (VRef c) key.
Proof.
  intros H H1. rewrite (sel_clo E objs c T) by assumption. cbn [obj_select m_objs]. rewrite H. rewrite (sel_map _ _ _ 1 T) by exact H1.
  destruct (map_sel (mkmem objs false) T key) as [[x y]| | | |]; try reflexivity. cbn [obind fst snd].
  destruct (m_pend y); [reflexivity|]. destruct x; reflexivity.
Qed.

Lemma P_len r : exists n, length (P ++ r) = S n.
Proof.
  destruct (length (P ++ r)) eqn:X; [|eauto]. apply length_zero_iff_nil in X. apply app_eq_nil in X. destruct X as [X _].
  assert (nth_error P 1 = None) by (rewrite X; reflexivity). rewrite P_top in H. discriminate.
Qed.

Lemma P_34 : pclo 34. Proof. clo. Qed.

Definition chain r c fr s := nth_error (P ++ r) c = Some (OClosure (Some (VRef 34)) (VRef fr)) /\
  nth_error (P ++ r) fr = Some (OMap (L NS_mgi 8 [VRef s])).

Lemma chain_miss E n objs c p fr s T name : length objs = S n -> nth_error objs c = Some (OClosure (Some (VRef p)) (VRef fr)) ->
  nth_error objs fr = Some (OMap (L NS_mgi 8 [VRef s])) -> nth_error objs p = Some (OClosure None (VRef 1)) -> nth_error objs 1 = Some (OMap T) ->
  misses NS_mgi name ->
  obj_select E (depth objs) (mkmem objs false) (VRef c) (VStr name) = obj_select E (depth objs) (mkmem objs false) (VRef p) (VStr name).
Proof.
  intros Hl H1 H2 H3 H4 [_ M]. unfold depth at 1. cbn [obj_select m_objs]. rewrite H1. rewrite (sel_map _ _ (mkmem objs false) fr _ _ H2).
  rewrite M by (first [rooms|len]). cbn [obind fst snd m_pend].
  rewrite Hl. rewrite (sel_clo_n _ _ _ p T) by assumption. reflexivity.
Qed.
Lemma chain_sel E r c fr s name : chain r c fr s -> misses NS_mgi name ->
  obj_select (UE E) (depth (P ++ r)) (mkmem (P ++ r) false) (VRef c) (VStr name) =
  obj_select (UE E) (depth (P ++ r)) (mkmem (P ++ r) false) (VRef 34) (VStr name).
Proof.
  intros [H1 H2] M. destruct (P_len r) as [n Hn].
  exact (chain_miss (UE E) n (P ++ r) c 34 fr s TOP name Hn H1 H2 (nth_pre _ _ _ _ _ P_34) (nth_pre _ _ _ _ _ P_top) M).
Qed.

Lemma chain_hit E objs c p fr s : nth_error objs c = Some (OClosure (Some (VRef p)) (VRef fr)) ->
  nth_error objs fr = Some (OMap (L NS_mgi 8 [VRef s])) ->
  obj_select E (depth objs) (mkmem objs false) (VRef c) (VStr (b "set")) = OOk (Some (VRef s), mkmem objs false).
Proof.
  intros H1 H2. unfold depth at 1. cbn [obj_select m_objs]. rewrite H1. rewrite (sel_map _ _ (mkmem objs false) fr _ _ H2).
  destruct (gets_mgi objs 8%nat [VRef s] 0%nat (b "set")) as [_ G]; [rooms|len|reflexivity|]. rewrite G. reflexivity.
Qed.
Lemma chain_set E r c fr s : chain r c fr s ->
  obj_select (UE E) (depth (P ++ r)) (mkmem (P ++ r) false) (VRef c) (VStr (b "set")) = OOk (Some (VRef s), mkmem (P ++ r) false).
Proof. intros [H1 H2]. exact (chain_hit (UE E) (P ++ r) c 34 fr s H1 H2). Qed.

Lemma chain_app extra c fr s f tail : chain extra c fr s -> chain (extra ++ f :: tail) c fr s.
Proof. intros [H1 H2]. split; apply nth_mid; assumption. Qed.

Section Names.
Variable E : env.
Variable ac : params -> stmt -> list value -> value -> sst -> out (list value * sst).
Lemma c_glob NS sz vs extra tail cx c fr s m name v xs : found E name v -> chain extra c fr s -> misses NS_mgi name -> reads m -> misses NS name ->
  room sz (length vs) -> (length vs <= length NS)%nat ->
  eval (UE E) ac m (EIdent name) xs (Sc extra c) (St NS sz vs extra tail cx) = OOk ([v], St NS sz vs extra tail cx).
Proof.
  intros F H M Hr Mn R Hl. apply r_clo; try assumption. cbv zeta.
  change (std_env E (Some (VRef B))) with (UE E). rewrite (chain_sel E _ _ _ _ _ (chain_app _ _ _ _ _ _ H) M). apply F. apply P_34.
Qed.
Lemma c_bin NS sz vs extra tail cx c fr s m name v new xs : builtin E name v new -> absent E name -> chain extra c fr s -> misses NS_mgi name ->
  reads m -> misses NS name -> room sz (length vs) -> (length vs <= length NS)%nat ->
  eval (UE E) ac m (EIdent name) xs (Sc extra c) (St NS sz vs extra tail cx) =
  OOk ([v (length (P ++ extra ++ OMap (L NS sz vs) :: tail))], St NS sz vs extra (tail ++ new) cx).
Proof.
  intros F A H M Hr Mn R Hl. apply r_clo_bin; try assumption. cbv zeta. change (std_env E (Some (VRef B))) with (UE E). split.
  - rewrite (chain_sel E _ _ _ _ _ (chain_app _ _ _ _ _ _ H) M). apply A. apply P_34.
  - apply F.
Qed.
Lemma c_set NS sz vs extra tail cx c fr s m xs : chain extra c fr s -> reads m -> misses NS (b "set") -> room sz (length vs) -> (length vs <= length NS)%nat ->
  eval (UE E) ac m (EIdent (b "set")) xs (Sc extra c) (St NS sz vs extra tail cx) = OOk ([VRef s], St NS sz vs extra tail cx).
Proof.
  intros H Hr Mn R Hl. apply r_clo; try assumption. cbv zeta. change (std_env E (Some (VRef B))) with (UE E). eapply chain_set. apply chain_app. exact H.
Qed.
End Names.

(** * The test of the parameter of next *)
Definition it_map s kl j fn : hmap value value := L NS_it 8 [VRef s; VRef kl; j; VRef fn].
Definition idx (j : option nat) : value := match j with Some i => VInt (Z.of_nat i) | None => VNone end.

Lemma is_iterator objs it s kl j fn o lk code clo pat nl : length objs <> 0%nat -> nth_error objs 8 = Some (OSum (VType TyFun) (VType TyNFun)) ->
  nth_error objs it = Some (OMap (it_map s kl (idx j) fn)) -> nth_error objs s = Some o -> (kind_of o = TyList \/ kind_of o = TyMap) ->
  nth_error objs kl = Some (OList lk) -> nth_error objs fn = Some (OFun code (VRef clo)) ->
  nth_error objs pat = Some (OMap (L NS_it 8 [VType (kind_of o); VType TyList; VRef nl; VRef 8])) ->
  nth_error objs nl = Some (ONullable (VType TyInt)) ->
  is_type (mkmem objs false) (VRef pat) (VRef it) = OOk (true, mkmem objs false).
Proof.
  intros Hl P8 Hit Hs Ho Hk Hf Hp Hn. unfold is_type.
  assert (X : exists n, type_depth objs = S (S (S n))).
  { exists (type_depth objs - 3)%nat. unfold type_depth. nia. }
  destruct X as [n X]. cbn [m_objs m_pend]. rewrite X. clear X.
  assert (G : forall i name v, nth_error NS_it i = Some name -> nth_error [VRef s; VRef kl; idx j; VRef fn] i = Some v ->
    sel_flag (mkmem objs false) (OMap (it_map s kl (idx j) fn)) false (VStr name) = OOk (Some v, false)).
  { intros i name v Hi Hv. cbn [sel_flag]. unfold set_pend. cbn [m_objs].
    destruct (gets_it objs 8%nat [VRef s; VRef kl; idx j; VRef fn] i name) as [_ Y]; [rooms|len|exact Hi|].
    unfold it_map. rewrite Y, Hv. reflexivity. }
  assert (T1 : is_type_of (S (S n)) (mkmem objs false) false (VType (kind_of o)) (VRef s) = OOk (true, false)).
  { cbn [is_type_of m_objs]. rewrite (kind_type _ _ _ Hs Ho). destruct Ho as [-> | ->]; reflexivity. }
  assert (T2 : is_type_of (S (S n)) (mkmem objs false) false (VType TyList) (VRef kl) = OOk (true, false)).
  { cbn [is_type_of m_objs]. rewrite (kind_type _ _ _ Hk) by (left; reflexivity). reflexivity. }
  assert (T3 : is_type_of (S (S n)) (mkmem objs false) false (VRef nl) (idx j) = OOk (true, false)).
  { cbn [is_type_of m_objs]. rewrite Hn. destruct j; reflexivity. }
  assert (T4 : is_type_of (S (S n)) (mkmem objs false) false (VRef 8) (VRef fn) = OOk (true, false)).
  { cbn [is_type_of m_objs]. rewrite P8. cbn [is_type_of m_objs type_of]. unfold rt_of. rewrite Hf. reflexivity. }
  replace (is_type_of (S (S (S n))) (mkmem objs false) false (VRef pat) (VRef it)) with
    (match_all (is_type_of (S (S n)) (mkmem objs false)) (sel_flag (mkmem objs false) (OMap (it_map s kl (idx j) fn))) false
      [(VStr (b "set"), VType (kind_of o)); (VStr (b "keys"), VType TyList); (VStr (b "index"), VRef nl); (VStr (b "next"), VRef 8)]).
  2:{ symmetry. remember (S (S n)) as n2. cbn [is_type_of m_objs]. rewrite Hp, Hit. reflexivity. }
  cbn [match_all].
  rewrite (G 0%nat (b "set") (VRef s)) by reflexivity. cbn [obind fst snd]. rewrite T1. cbn [obind fst snd].
  rewrite (G 1%nat (b "keys") (VRef kl)) by reflexivity. cbn [obind fst snd]. rewrite T2. cbn [obind fst snd].
  rewrite (G 2%nat (b "index") (idx j)) by reflexivity. cbn [obind fst snd]. rewrite T3. cbn [obind fst snd].
  rewrite (G 3%nat (b "next") (VRef fn)) by reflexivity. cbn [obind fst snd]. rewrite T4. reflexivity.
Qed.

(** * The parts of next *)
Record iterator (E : env) (ext : list hobj) (cx : list (params * stmt)) (it s : nat) (o : hobj) (ks vs : list value) (lk : lobj value)
    (kl fn code clo fr : nat) (j : option nat) : Prop := {
  i_it : nth_error (P ++ ext) it = Some (OMap (it_map s kl (idx j) fn));
  i_ge : (length P <= it)%nat;
  i_set : nth_error (P ++ ext) s = Some o;
  i_ne : s <> it;
  i_kl : nth_error (P ++ ext) kl = Some (OList lk);
  i_fn : nth_error (P ++ ext) fn = Some (OFun code (VRef clo));
  i_code : nth_error (C ++ cx) code = Some fn_next;
  i_chain : chain ext clo fr s;
  i_coll : collection E o ks vs lk;
  i_j : match j with Some i => (i < length ks)%nat | None => True end
}.

Lemma o_eql m x y : m_pend m = false -> binary_op (binop_code BEql) m (VInt x) (VInt y) = OOk (VBool (x =? y), m).
Proof. intros H. cbn [binop_code binary_op]. unfold compare_op. cbn [obj_compare]. cbn. rewrite H. reflexivity. Qed.

Lemma count_ok E ac NS sz ws extra tail cx l lo (ks : list value) : nth_error (P ++ extra) l = Some (OList lo) -> rep lo ks ->
  call (UE E) ac (VRef (length (P ++ extra ++ OMap (L NS sz ws) :: tail))) [VRef l] 1 (St NS sz ws extra (tail ++ [ONative N_count 1]) cx) =
  OOk ([VInt (Z.of_nat (length ks))], St NS sz ws extra (tail ++ [ONative N_count 1]) cx).
Proof.
  intros H K. eapply k_new with (rs := [_]); [|reflexivity].
  change (native E N_count (if 1 <? 0 then [VRef l] else adjust 1 [VRef l])) with (bin_count (e_native E N_count) [VRef l]).
  unfold bin_count, ret1, PreludeRun.St. cbn [t_mem m_objs m_pend]. rewrite (nth_mid _ _ _ _ _ _ H). destruct K as [-> _]. reflexivity.
Qed.

Lemma field E ac ext cx c sz ws tail m xs it s kl j fn i name v : reads m -> nth_error (P ++ ext) it = Some (OMap (it_map s kl j fn)) ->
  room sz (length ws) -> (length ws <= 4)%nat -> nth_error ws 0 = Some (VRef it) ->
  nth_error NS_it i = Some name -> nth_error [VRef s; VRef kl; j; VRef fn] i = Some v ->
  eval (UE E) ac m (ESel (EIdent (b "iter")) (EStr name)) xs (Sc ext c) (St NS_next sz ws ext tail cx) = OOk ([v], St NS_next sz ws ext tail cx).
Proof.
  intros Hm Hit R Hl Hw Hi Hv.
  destruct (gets_it (P ++ ext ++ OMap (L NS_next sz ws) :: tail) 8%nat [VRef s; VRef kl; j; VRef fn] i name) as [Hs Y]; [rooms|len|exact Hi|].
  eapply r_sel; [assumption| |apply r_str; exact Hs|].
  - eapply r_get with (i := 0%nat); [exact I|exact gets_next|exact R|exact Hl|reflexivity|exact Hw].
  - unfold select_or_none, select_of, set_pend, PreludeRun.St. cbn [t_mem m_objs].
    rewrite (sel_map _ _ (mkmem (P ++ ext ++ OMap (L NS_next sz ws) :: tail) false) it _ _ (nth_mid _ _ _ _ _ _ Hit)).
    unfold it_map. rewrite Y, Hv. reflexivity.
Qed.

Lemma nth_plus {A} (a t : list A) k : nth_error (a ++ t) (length a + k) = nth_error t k.
Proof. rewrite nth_error_app2 by lia. f_equal. lia. Qed.

Definition next_ps := Eval vm_compute in fst fn_next.
Definition next_body := Eval vm_compute in match snd fn_next with SComp ss => ss | _ => SNil end.
Definition next_index (j : option nat) : Z := match j with Some i => Z.of_nat i + 1 | None => 0 end.

Lemma iter_bind E f ext cx it s o ks vs lk kl fn code clo fr j : iterator E ext cx it s o ks vs lk kl fn code clo fr j -> exists tail,
  bind_params (UE E) (run_call_n (UE E) (S f)) next_ps [VRef it] (Sc ext clo) (St NS_next 8 [] ext [] cx) =
  OOk (St NS_next 8 [VRef it] ext tail cx).
Proof.
  intros H. destruct H as [Hit Hge Hs Hne Hkl Hfn Hcode Hch Hco Hj].
  set (n2 := length (P ++ ext ++ OMap (L NS_next 8 []) :: [ONative N_type 1])).
  exists ([ONative N_type 1] ++ gi_new n2 (VType (kind_of o))). unfold next_ps.
  eapply r_par; [apply r_par0|split|].
  - eapply r_call; [reflexivity| | |].
    + eapply r_args; [apply r_args0|]. eapply r_call; [reflexivity| | |].
      * eapply r_args; [apply r_args0|]. eapply c_set; [exact Hch|exact I|frame_miss|rooms|len].
      * eapply c_bin; [exact (b_type E)|exact (n_type E)|exact Hch|frame_miss|exact I|frame_miss|rooms|len].
      * eapply type_ok; [exact Hs|apply Hco].
    + eapply c_glob; [exact (g_gi E)|exact Hch|frame_miss|exact I|frame_miss|rooms|len].
    + eapply k_fun; [vm_compute; reflexivity|vm_compute; reflexivity| |].
      * change (adjust (params_len _) [VType (kind_of o)]) with [VType (kind_of o)].
        exact (gi_ok E f (VType (kind_of o)) (ext ++ OMap (L NS_next 8 []) :: [ONative N_type 1]) cx).
      * reflexivity.
  - change ([] ++ [ONative N_type 1]) with [ONative N_type 1]. fold n2.
    eapply (is_iterator (P ++ ext ++ OMap (L NS_next 8 []) :: [ONative N_type 1] ++ gi_new n2 (VType (kind_of o)))).
    + destruct (P_len (ext ++ OMap (L NS_next 8 []) :: [ONative N_type 1] ++ gi_new n2 (VType (kind_of o)))) as [k Hk].
      rewrite Hk. discriminate.
    + apply nth_pre. exact P_8.
    + apply nth_mid. exact Hit.
    + apply nth_mid. exact Hs.
    + apply Hco.
    + apply nth_mid. exact Hkl.
    + apply nth_mid. exact Hfn.
    + replace (P ++ ext ++ OMap (L NS_next 8 []) :: [ONative N_type 1] ++ gi_new n2 (VType (kind_of o))) with
        ((P ++ ext ++ OMap (L NS_next 8 []) :: [ONative N_type 1]) ++ gi_new n2 (VType (kind_of o))) by (rewrite <- !app_assoc; reflexivity).
      unfold n2 at 2. rewrite nth_plus. reflexivity.
    + replace (P ++ ext ++ OMap (L NS_next 8 []) :: [ONative N_type 1] ++ gi_new n2 (VType (kind_of o))) with
        ((P ++ ext ++ OMap (L NS_next 8 []) :: [ONative N_type 1]) ++ gi_new n2 (VType (kind_of o))) by (rewrite <- !app_assoc; reflexivity).
      unfold n2 at 2. rewrite nth_plus. reflexivity.
  - put.
Qed.

Section Body.
Variable E : env.
Variable f : nat.
Notation rss := (run_stmts (UE E) (run_stmt_n (UE E) f) (run_call_n (UE E) f)).
Variables (ext : list hobj) (cx : list (params * stmt)) (it s : nat) (o : hobj) (ks vs : list value) (lk : lobj value) (kl fn code clo fr : nat) (j : option nat).
Hypothesis H : iterator E ext cx it s o ks vs lk kl fn code clo fr j.

Lemma H_count ws tail : room 8 (length ws) -> (length ws <= 4)%nat -> nth_error ws 0 = Some (VRef it) ->
  eval (UE E) (run_call_n (UE E) f) MVal (ECall (EIdent (b "count")) (ECons (ESel (EIdent (b "iter")) (EStr (b "keys"))) ENil)) [] (Sc ext clo)
    (St NS_next 8 ws ext tail cx) =
  OOk ([VInt (Z.of_nat (length ks))], St NS_next 8 ws ext (tail ++ [ONative N_count 1]) cx).
Proof.
  intros R Hl Hw. destruct H as [Hit Hge Hs Hne Hkl Hfn Hcode Hch Hco Hj].
  eapply r_call; [reflexivity| | |].
  - eapply r_args; [apply r_args0|]. eapply field with (i := 1%nat); try eassumption; try exact I; reflexivity.
  - eapply c_bin; [exact (b_count E)|exact (n_count E)|exact Hch|frame_miss|exact I|frame_miss|exact R|exact Hl].
  - eapply count_ok; [exact Hkl|apply Hco].
Qed.

Lemma small : Z.of_nat (length ks) <= 2 ^ 30.
Proof. apply (c_small _ _ _ _ _ (i_coll _ _ _ _ _ _ _ _ _ _ _ _ _ _ _ H)). Qed.

Lemma head tail rest x : (forall tail', rss rest (Sc ext clo) (St NS_next 8 [VRef it; VInt (next_index j)] ext tail' cx) = x tail') ->
  exists tail', rss (match next_body with SCons a (SCons b _) => SCons a (SCons b rest) | s => s end) (Sc ext clo) (St NS_next 8 [VRef it] ext tail cx) = x tail'.
Proof.
  intros X. pose proof H as HH. destruct HH as [Hit Hge Hs Hne Hkl Hfn Hcode Hch Hco Hj]. pose proof small as Hsm. pose proof H_count as HC.
  unfold next_body. destruct j as [i|] eqn:Ej.
  - eexists. eapply s_next.
    { eapply s_expr. eapply r_ass1; [reflexivity| |].
      - eapply field with (i := 2%nat); try exact Hit; try exact I; try reflexivity; [rooms|cbn; lia].
      - cbn [idx]. put. }
    eapply s_next; [|apply X].
    eapply s_ife_f.
    { eapply r_op; [get|apply r_none|reflexivity]. }
    apply s_comp. eapply s_next; [|apply s_nil].
    eapply s_if_t.
    { eapply r_op; [get| |].
      - apply HC; [rooms|cbn; lia|reflexivity].
      - apply (o_lss _ _ _ true). lia. }
    eapply s_expr. eapply r_ass1; [reflexivity| |].
    + eapply r_op; [get|apply r_int|apply o_add; lia].
    + cbn [next_index]. put.
  - eexists. eapply s_next.
    { eapply s_expr. eapply r_ass1; [reflexivity| |].
      - eapply field with (i := 2%nat); try exact Hit; try exact I; try reflexivity; [rooms|cbn; lia].
      - cbn [idx]. put. }
    eapply s_next; [|apply X].
    eapply s_ife_t.
    { eapply r_op; [get|apply r_none|reflexivity]. }
    eapply s_expr. eapply r_ass1; [reflexivity|apply r_int|cbn [next_index]; put].
Qed.

Lemma finished tail : next_index j = Z.of_nat (length ks) -> exists tail',
  rss (match next_body with SCons _ (SCons _ r) => r | s => s end) (Sc ext clo) (St NS_next 8 [VRef it; VInt (next_index j)] ext tail cx) =
  OOk (SigRet [VNone], St NS_next 8 [VRef it; VInt (next_index j)] ext tail' cx).
Proof.
  intros Hj. unfold next_body. eexists. eapply s_stop. eapply s_if_t.
  - eapply r_op; [get|apply H_count; [rooms|cbn; lia|reflexivity]|].
    rewrite o_eql by reflexivity. rewrite Hj, Z.eqb_refl. reflexivity.
  - eapply s_ret. apply r_none.
Qed.
End Body.

Lemma upd_in {A} (a e t : list A) i x : (length a <= i < length (a ++ e))%nat -> upd (a ++ e ++ t) i x = a ++ upd e (i - length a) x ++ t.
Proof.
  intros Hi. revert i Hi. induction a as [|y a IH]; intros i Hi.
  - cbn [app length Nat.sub] in *. rewrite Nat.sub_0_r. revert i Hi. induction e as [|z e IHe]; intros i Hi; [cbn in Hi; lia|].
    destruct i as [|i]; [reflexivity|]. cbn [app upd]. f_equal. apply IHe. cbn in Hi. lia.
  - cbn [length app] in *. destruct i as [|i]; [lia|]. cbn [upd app Nat.sub]. f_equal. apply IH. lia.
Qed.
Lemma upd_in0 {A} (a e : list A) i x : (length a <= i < length (a ++ e))%nat -> a ++ upd e (i - length a) x = upd (a ++ e) i x.
Proof. intros Hi. pose proof (upd_in a e [] i x Hi) as U. rewrite !app_nil_r in U. now symmetry. Qed.

Definition moved (ext : list hobj) it s kl fn (i : Z) : list hobj := upd ext (it - length P) (OMap (it_map s kl (VInt i) fn)).
Lemma moved_len ext it s kl fn i : length (moved ext it s kl fn i) = length ext.
Proof. apply upd_length. Qed.

Lemma it_differs s s' kl j fn : L NS_mgi 8 [VRef s'] <> it_map s kl j fn.
Proof. intros X. apply (f_equal m_keys) in X. vm_compute in X. discriminate X. Qed.

Lemma iter_moved E ext cx it s o ks vs lk kl fn code clo fr j i : iterator E ext cx it s o ks vs lk kl fn code clo fr j -> (i < length ks)%nat ->
  iterator E (moved ext it s kl fn (Z.of_nat i)) cx it s o ks vs lk kl fn code clo fr (Some i).
Proof.
  intros [Hit Hge Hs Hne Hkl Hfn Hcode [Hc1 Hc2] Hco Hj] Hi.
  assert (Hlt : (it < length (P ++ ext))%nat) by (apply nth_error_Some; rewrite Hit; discriminate).
  assert (K : forall l x, nth_error (P ++ ext) l = Some x -> l <> it -> nth_error (P ++ moved ext it s kl fn (Z.of_nat i)) l = Some x).
  { intros l x Hl Hn. unfold moved. rewrite upd_in0 by lia. rewrite nth_error_upd_other by lia. exact Hl. }
  assert (D : forall l x, nth_error (P ++ ext) l = Some x -> (forall m, x = OMap m -> m <> it_map s kl (idx j) fn) -> l <> it).
  { intros l x Hl Hx ->. rewrite Hit in Hl. injection Hl as <-. now apply (Hx _ eq_refl). }
  constructor; try assumption.
  - unfold moved. rewrite upd_in0 by lia. rewrite nth_error_upd_same by lia. reflexivity.
  - now apply K.
  - apply K; [assumption|]. eapply D; [exact Hkl|discriminate].
  - apply K; [assumption|]. eapply D; [exact Hfn|discriminate].
  - split; apply K; try assumption.
    + eapply D; [exact Hc1|discriminate].
    + eapply D; [exact Hc2|]. intros m X. injection X as <-. apply it_differs.
Qed.

Lemma Sc_moved ext it s kl fn i c : Sc (moved ext it s kl fn i) c = Sc ext c.
Proof. unfold PreludeRun.Sc. rewrite !app_length, moved_len. reflexivity. Qed.

Lemma store_index E NS sz ws ext tail cx it s kl j fn i : (length P <= it)%nat -> nth_error (P ++ ext) it = Some (OMap (it_map s kl j fn)) ->
  insert_of (UE E) (t_mem (St NS sz ws ext tail cx)) (VRef it) (VStr (b "index")) (VInt i) =
  OOk (t_mem (St NS sz ws (moved ext it s kl fn i) tail cx)).
Proof.
  intros Hge Hit. unfold insert_of, PreludeRun.St. cbn [t_mem m_objs]. rewrite (nth_mid _ _ _ _ _ _ Hit).
  destruct (sets_it (P ++ ext ++ OMap (L NS sz ws) :: tail) 8%nat [VRef s; VRef kl; j; VRef fn] 2%nat (b "index") it (VInt i)) as [_ Y];
    [rooms|len|reflexivity|cbn; lia|].
  unfold it_map. rewrite Y. cbn [put_at length Nat.ltb Nat.leb upd grown Nat.eqb].
  assert (Hlt : (it < length (P ++ ext))%nat) by (apply nth_error_Some; rewrite Hit; discriminate).
  rewrite upd_in by lia. reflexivity.
Qed.

Lemma in_list E objs l lo (ks : list value) i k : nth_error objs l = Some (OList lo) -> rep lo ks -> Z.of_nat (length ks) <= 2 ^ 30 ->
  nth_error ks i = Some k -> select_or_none E (mkmem objs false) (VRef l) (VInt (Z.of_nat i)) = OOk (k, mkmem objs false).
Proof.
  intros Hl R Hk Hi. unfold select_or_none, select_of, set_pend, depth. cbn [m_objs obj_select]. rewrite Hl. unfold keyed.
  assert (i < length ks)%nat by (apply nth_error_Some; rewrite Hi; discriminate).
  rewrite (select_spec lo ks) by (try assumption; unfold in_int; lia).
  unfold seq_get, zget. rewrite (proj2 (Z.ltb_ge _ _)) by lia. rewrite Nat2Z.id, Hi. reflexivity.
Qed.

Lemma goes_on E f ext cx it s o ks vs lk kl fn code clo fr j i k v tail : iterator E ext cx it s o ks vs lk kl fn code clo fr j ->
  next_index j = Z.of_nat i -> nth_error ks i = Some k -> nth_error vs i = Some v -> exists tail' ws,
  run_stmts (UE E) (run_stmt_n (UE E) f) (run_call_n (UE E) f) (match next_body with SCons _ (SCons _ r) => r | s => s end) (Sc ext clo)
    (St NS_next 8 [VRef it; VInt (next_index j)] ext tail cx) =
  OOk (SigRet [v; k; VInt (Z.of_nat i)], St NS_next 8 ws (moved ext it s kl fn (Z.of_nat i)) tail' cx).
Proof.
  intros H Hj Hk Hv. rewrite Hj.
  assert (Hi : (i < length ks)%nat) by (apply nth_error_Some; rewrite Hk; discriminate).
  pose proof (iter_moved _ _ _ _ _ _ _ _ _ _ _ _ _ _ _ i H Hi) as H2.
  pose proof (small _ _ _ _ _ _ _ _ _ _ _ _ _ _ _ H) as Hsm.
  unfold next_body. exists (tail ++ [ONative N_count 1]), [VRef it; VInt (Z.of_nat i); k; v]. eapply s_next.
  { eapply s_if_f. eapply r_op; [get| |].
    - eapply (H_count E f _ _ _ _ _ _ _ _ _ _ _ _ _ _ H); [rooms|cbn; lia|reflexivity].
    - rewrite o_eql by reflexivity. rewrite (proj2 (Z.eqb_neq _ _)) by lia. reflexivity. }
  eapply s_next.
  { eapply s_expr. eapply r_ass1; [reflexivity|get|].
    eapply r_setsel; [get|str|].
    apply store_index with (j := idx j); [apply H|apply H]. }
  match goal with |- context [put_mem (PreludeRun.St _ _ ?a ?b ?c _ ?d ?e) (t_mem (PreludeRun.St _ _ _ _ _ ?x _ _))] =>
    change (put_mem _ _) with (St a b c x d e) end.
  rewrite <- (Sc_moved ext it s kl fn (Z.of_nat i) clo).
  destruct H2 as [Hit Hge Hs Hne Hkl Hfn Hcode Hch Hco Hj2].
  eapply s_next.
  { eapply s_expr. eapply r_ass1; [reflexivity| |].
    - eapply r_sel; [exact I| | |].
      + eapply field with (i := 1%nat); try exact Hit; try exact I; try reflexivity; [rooms|cbn; lia].
      + get.
      + eapply (in_list (UE E) (P ++ moved ext it s kl fn (Z.of_nat i) ++ _)); [apply nth_mid; exact Hkl|apply Hco|exact Hsm|exact Hk].
    - put. }
  eapply s_next.
  { eapply s_expr. eapply r_ass1; [reflexivity| |].
    - eapply r_sel; [exact I| | |].
      + eapply field with (i := 0%nat); try exact Hit; try exact I; try reflexivity; [rooms|cbn; lia].
      + get.
      + apply (c_sel _ _ _ _ _ Hco i k v Hk Hv (P ++ moved ext it s kl fn (Z.of_nat i) ++ _)). apply nth_mid. exact Hs.
    - put. }
  eapply s_stop. eapply s_ret. eapply r_pair with (xs := [v; k]) (ys := [VInt (Z.of_nat i)]); [eapply r_pair with (xs := [v]) (ys := [k]); get|get].
Qed.

(** * A call of next *)
Lemma next_ok E f ext cx it s o ks vs lk kl fn code clo fr j i k v : iterator E ext cx it s o ks vs lk kl fn code clo fr j ->
  next_index j = Z.of_nat i -> nth_error ks i = Some k -> nth_error vs i = Some v -> exists t,
  run_call_n (UE E) (S (S f)) (fst fn_next) (snd fn_next) [VRef it] (VRef clo) (Out ext cx) =
  OOk ([v; k; VInt (Z.of_nat i)], Out (moved ext it s kl fn (Z.of_nat i) ++ t) cx).
Proof.
  intros H Hj Hk Hv. destruct (iter_bind E f _ _ _ _ _ _ _ _ _ _ _ _ _ _ H) as [t0 Hb].
  assert (X : exists t ws, run_stmts (UE E) (run_stmt_n (UE E) (S f)) (run_call_n (UE E) (S f)) next_body (Sc ext clo) (St NS_next 8 [VRef it] ext t0 cx) =
    OOk (SigRet [v; k; VInt (Z.of_nat i)], St NS_next 8 ws (moved ext it s kl fn (Z.of_nat i)) t cx)).
  { pose proof (fun tail => goes_on E (S f) _ _ _ _ _ _ _ _ _ _ _ _ _ _ i k v tail H Hj Hk Hv) as G.
    destruct (head E (S f) _ _ _ _ _ _ _ _ _ _ _ _ _ _ H t0 (match next_body with SCons _ (SCons _ r) => r | s => s end) _ (fun _ => eq_refl)) as [t1 X].
    destruct (G t1) as (t & ws & Y). exists t, ws. rewrite <- Y. exact X. }
  destruct X as (t & ws & X). exists (OMap (L NS_next 8 ws) :: t).
  exact (c_run P C B E (S f) NS_next _ _ _ _ _ _ _ _ _ Hb (s_comp B E (S f) _ _ _ _ X) eq_refl).
Qed.

Lemma next_done E f ext cx it s o ks vs lk kl fn code clo fr j : iterator E ext cx it s o ks vs lk kl fn code clo fr j ->
  next_index j = Z.of_nat (length ks) -> exists t,
  run_call_n (UE E) (S (S f)) (fst fn_next) (snd fn_next) [VRef it] (VRef clo) (Out ext cx) = OOk ([VNone], Out (ext ++ t) cx).
Proof.
  intros H Hj. destruct (iter_bind E f _ _ _ _ _ _ _ _ _ _ _ _ _ _ H) as [t0 Hb].
  destruct (head E (S f) _ _ _ _ _ _ _ _ _ _ _ _ _ _ H t0 (match next_body with SCons _ (SCons _ r) => r | s => s end) _ (fun _ => eq_refl)) as [t1 X].
  destruct (finished E (S f) _ _ _ _ _ _ _ _ _ _ _ _ _ _ H t1 Hj) as [t Y]. rewrite Y in X.
  exists (OMap (L NS_next 8 [VRef it; VInt (next_index j)]) :: t).
  exact (c_run P C B E (S f) NS_next _ _ _ _ _ _ _ _ _ Hb (s_comp B E (S f) _ _ _ _ X) eq_refl).
Qed.

(** * it->next() *)
(** What SrcModel.v does for the call [it->next()] with three results wanted. *)
Definition call_next (E : env) (f : nat) (it : value) (st : sst) : out (list value * sst) :=
  obind (select_or_none (UE E) (t_mem st) it (VStr (b "next"))) (fun r =>
  call (UE E) (run_call_n (UE E) f) (fst r) [it] 3 (put_mem st (snd r))).

Lemma iter_more E ext cx it s o ks vs lk kl fn code clo fr j t : iterator E ext cx it s o ks vs lk kl fn code clo fr j ->
  iterator E (ext ++ t) cx it s o ks vs lk kl fn code clo fr j.
Proof.
  intros [Hit Hge Hs Hne Hkl Hfn Hcode [Hc1 Hc2] Hco Hj].
  constructor; try assumption; try (rewrite app_assoc; apply nth_pre; assumption).
  split; rewrite app_assoc; apply nth_pre; assumption.
Qed.

Lemma sel_next E ext cx it s kl j fn : nth_error (P ++ ext) it = Some (OMap (it_map s kl j fn)) ->
  select_or_none (UE E) (t_mem (Out ext cx)) (VRef it) (VStr (b "next")) = OOk (VRef fn, t_mem (Out ext cx)).
Proof.
  intros Hit. unfold select_or_none, select_of, set_pend, PreludeRun.Out. cbn [t_mem m_objs].
  rewrite (sel_map _ _ (mkmem (P ++ ext) false) it _ _ Hit). unfold it_map.
  destruct (gets_it (P ++ ext) 8%nat [VRef s; VRef kl; j; VRef fn] 3%nat (b "next")) as [_ Y]; [rooms|len|reflexivity|].
  rewrite Y. reflexivity.
Qed.

(** What the next call of next gives. *)
Definition item (ks vs : list value) (i : nat) : list value :=
  match nth_error vs i, nth_error ks i with
  | Some v, Some k => [v; k; VInt (Z.of_nat i)]
  | _, _ => [VNone; VNone; VNone]
  end.
Definition position (j : option nat) : nat := match j with Some i => S i | None => 0 end.
Definition after (n : nat) (j : option nat) : option nat := if (position j <? n)%nat then Some (position j) else j.

Lemma step E f ext cx it s o ks vs lk kl fn code clo fr j : iterator E ext cx it s o ks vs lk kl fn code clo fr j -> exists ext',
  call_next E (S (S f)) (VRef it) (Out ext cx) = OOk (item ks vs (position j), Out ext' cx) /\
  iterator E ext' cx it s o ks vs lk kl fn code clo fr (after (length ks) j).
Proof.
  intros H. pose proof H as HH. destruct HH as [Hit Hge Hs Hne Hkl Hfn Hcode Hch Hco Hj].
  assert (Hx : next_index j = Z.of_nat (position j)) by (destruct j; cbn [next_index position]; lia).
  unfold call_next. rewrite (sel_next E ext cx it s kl _ fn Hit). cbn [obind fst snd].
  change (put_mem (Out ext cx) (t_mem (Out ext cx))) with (Out ext cx).
  assert (Ccall : forall rs st', run_call_n (UE E) (S (S f)) (fst fn_next) (snd fn_next) [VRef it] (VRef clo) (Out ext cx) = OOk (rs, st') ->
    call (UE E) (run_call_n (UE E) (S (S f))) (VRef fn) [VRef it] 3 (Out ext cx) = obind (results 3 rs) (fun ws => OOk (ws, st'))).
  { intros rs st' R. unfold call. change (m_objs (t_mem (Out ext cx))) with (P ++ ext). rewrite Hfn.
    change (t_codes (Out ext cx)) with (C ++ cx). rewrite Hcode. rewrite (surjective_pairing fn_next).
    change (adjust (params_len (fst fn_next)) [VRef it]) with [VRef it]. rewrite R. reflexivity. }
  unfold after, item. destruct (Nat.ltb_spec (position j) (length ks)) as [Hlt|Hge2].
  - destruct (nth_error ks (position j)) as [k|] eqn:Ek; [|apply nth_error_None in Ek; lia].
    destruct (nth_error vs (position j)) as [v|] eqn:Ev; [|apply nth_error_None in Ev; rewrite <- (c_len _ _ _ _ _ Hco) in Ev; lia].
    destruct (next_ok E f _ _ _ _ _ _ _ _ _ _ _ _ _ _ _ k v H Hx Ek Ev) as [t R].
    exists (moved ext it s kl fn (Z.of_nat (position j)) ++ t). split.
    + rewrite (Ccall _ _ R). reflexivity.
    + apply iter_more. eapply iter_moved; [exact H|exact Hlt].
  - assert (Hp : position j = length ks) by (destruct j; cbn [position] in *; lia).
    assert (nth_error ks (position j) = None) as -> by (apply nth_error_None; lia).
    destruct (next_done E f _ _ _ _ _ _ _ _ _ _ _ _ _ _ H) as [t R]; [rewrite Hx, Hp; reflexivity|].
    exists (ext ++ t). split.
    + rewrite (Ccall _ _ R). destruct (nth_error vs (position j)); reflexivity.
    + now apply iter_more.
Qed.

(** [n] calls of next. *)
Fixpoint visit (E : env) (f : nat) (it : value) (n : nat) (st : sst) : out (list (list value)) :=
  match n with
  | O => OOk []
  | S n' => obind (call_next E f it st) (fun r => obind (visit E f it n' (snd r)) (fun rs => OOk (fst r :: rs)))
  end.

Lemma visits E f n : forall ext cx it s o ks vs lk kl fn code clo fr j, iterator E ext cx it s o ks vs lk kl fn code clo fr j ->
  visit E (S (S f)) (VRef it) n (Out ext cx) = OOk (map (item ks vs) (seq (position j) n)).
Proof.
  induction n as [|n IH]; intros ext cx it s o ks vs lk kl fn code clo fr j H; [reflexivity|].
  cbn [visit seq map]. destruct (step E f _ _ _ _ _ _ _ _ _ _ _ _ _ _ H) as (ext' & R & H'). rewrite R. cbn [obind fst snd].
  rewrite (IH _ _ _ _ _ _ _ _ _ _ _ _ _ _ H'). cbn [obind]. do 2 f_equal. unfold after.
  destruct (Nat.ltb_spec (position j) (length ks)) as [Hlt|Hge]; [reflexivity|].
  (* past the end every item is none *)
  assert (Q : forall i, (length ks <= i)%nat -> item ks vs i = [VNone; VNone; VNone]).
  { intros i Hi. unfold item. rewrite (proj2 (nth_error_None ks i) Hi). now destruct (nth_error vs i). }
  clear - Q Hge. assert (Z : forall m a, (length ks <= a)%nat -> map (item ks vs) (seq a m) = repeat [VNone; VNone; VNone] m).
  { induction m as [|m IH]; intros a Ha; [reflexivity|]. cbn [seq map repeat]. rewrite Q by lia. f_equal. apply IH. lia. }
  rewrite !Z by lia. reflexivity.
Qed.
