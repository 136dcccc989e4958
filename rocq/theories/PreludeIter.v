(** The iterators of the prelude (C52). *)
From Coq Require Import ZArith String List Lia Bool.
From Verif Require Import Base StringModel ValueModel MapModel ListModel ListProofs ExeModel ArithModel ObjModel AstModel CodegenModel
  VmModel SrcModel BuiltinModel BuiltinProofs PreludeModel PreludeRun PreludeProofs PreludeText PreludeToString.
Import ListNotations.
Open Scope Z_scope.

Section More.
Variable P : list hobj.
Variable C : list (params * stmt).
Variable B : nat.
Notation St := (PreludeRun.St P C).
Notation Sc := (PreludeRun.Sc P).

Section Rules.
Variable E : env.
Variable ac : params -> stmt -> list value -> value -> sst -> out (list value * sst).
Let E' := std_env E (Some (VRef B)).
Notation ev := (eval E' ac).

(** Names found in the closure [c] of the memory as it is. *)
Lemma r_clo NS sz vs extra tail cx c m name v xs : reads m -> misses NS name ->
  room sz (length vs) -> (length vs <= length NS)%nat ->
  (let o := P ++ extra ++ OMap (L NS sz vs) :: tail in
   obj_select E' (depth o) (mkmem o false) (VRef c) (VStr name) = OOk (Some v, mkmem o false)) ->
  ev m (EIdent name) xs (Sc extra c) (St NS sz vs extra tail cx) = OOk ([v], St NS sz vs extra tail cx).
Proof.
  intros Hm [Hs G] R Hl Hv. cbv zeta in Hv.
  assert (X : get_var E' (t_mem (St NS sz vs extra tail cx)) (sc_locals (Sc extra c)) (sc_clo (Sc extra c)) name =
    OOk (Some v, t_mem (St NS sz vs extra tail cx))).
  { unfold get_var. rewrite Hs. cbn [obind get_in]. unfold PreludeRun.St, PreludeRun.Sc. cbn [t_mem sc_locals sc_clo]. unfold select_of.
    erewrite sel_map by (cbn [m_objs]; apply nth_loc). rewrite (G _ sz vs R Hl). cbn [obind fst snd m_objs].
    rewrite Hv. reflexivity. }
  destruct m; try (now destruct Hm); cbn [eval]; rewrite X; reflexivity.
Qed.

(** Names found in runtime->builtins only. *)
Lemma r_clo_bin NS sz vs extra tail cx c m name v new xs : reads m -> misses NS name ->
  room sz (length vs) -> (length vs <= length NS)%nat ->
  (let o := P ++ extra ++ OMap (L NS sz vs) :: tail in
   obj_select E' (depth o) (mkmem o false) (VRef c) (VStr name) = OOk (None, mkmem o false) /\
   obj_select E' (depth o) (mkmem o false) (VRef B) (VStr name) = OOk (Some v, mkmem (o ++ new) false)) ->
  ev m (EIdent name) xs (Sc extra c) (St NS sz vs extra tail cx) = OOk ([v], St NS sz vs extra (tail ++ new) cx).
Proof.
  intros Hm [Hs G] R Hl [Hv Hb].
  assert (X : get_var E' (t_mem (St NS sz vs extra tail cx)) (sc_locals (Sc extra c)) (sc_clo (Sc extra c)) name =
    OOk (Some v, t_mem (St NS sz vs extra (tail ++ new) cx))).
  { unfold get_var. rewrite Hs. cbn [obind get_in]. unfold PreludeRun.St, PreludeRun.Sc. cbn [t_mem sc_locals sc_clo]. unfold select_of.
    erewrite sel_map by (cbn [m_objs]; apply nth_loc). rewrite (G _ sz vs R Hl). cbn [obind fst snd m_objs].
    rewrite Hv. cbn [obind fst snd m_objs]. unfold E', std_env in *. cbn [e_builtins] in *.
    rewrite Hb. cbn [obind fst]. rewrite <- !app_assoc. reflexivity. }
  destruct m; try (now destruct Hm); cbn [eval]; rewrite X; reflexivity.
Qed.

Lemma r_sel m a k xs sc st st1 st2 col key v : reads m -> ev MVal a [] sc st = OOk ([col], st1) -> ev MVal k [] sc st1 = OOk ([key], st2) ->
  select_or_none E' (t_mem st2) col key = OOk (v, t_mem st2) -> ev m (ESel a k) xs sc st = OOk ([v], st2).
Proof.
  intros Hm H1 H2 H3. cbn [eval]. rewrite H1. cbn [obind]. rewrite H2. cbn [obind]. rewrite H3.
  destruct m; try (now destruct Hm); destruct st2; reflexivity.
Qed.
Lemma r_setsel a k sc st st1 st2 col key v mm : ev MVal a [] sc st = OOk ([col], st1) -> ev MVal k [] sc st1 = OOk ([key], st2) ->
  insert_of E' (t_mem st2) col key v = OOk mm -> ev MTgt (ESel a k) [v] sc st = OOk ([v], put_mem st2 mm).
Proof. intros H1 H2 H3. cbn [eval]. rewrite H1. cbn [obind]. rewrite H2. cbn [obind]. rewrite H3. reflexivity. Qed.

(** Map literals. *)
Lemma r_map m ps xs sc st st1 : 
  eval_pairs E' ac (VRef (length (m_objs (t_mem st)))) ps sc
    (put_mem st (mkmem (m_objs (t_mem st) ++ [OMap (new_map (wrap32 (pairs_len ps)))]) (m_pend (t_mem st)))) = OOk st1 ->
  ev m (EMap ps) xs sc st = OOk ([VRef (length (m_objs (t_mem st)))], st1).
Proof.
  intros H. change (ev m (EMap ps) xs sc st) with
    (let (l, mm) := alloc (t_mem st) (OMap (new_map (wrap32 (pairs_len ps)))) in
     obind (eval_pairs E' ac l ps sc (put_mem st mm)) (fun st1 => OOk ([l], st1))).
  unfold alloc. rewrite H. reflexivity.
Qed.
Lemma r_pairs0 l sc st : eval_pairs E' ac l PNil sc st = OOk st.
Proof. reflexivity. Qed.
Lemma r_mapL m ps xs c NS sz vs extra tail cx NM st1 : new_map (wrap32 (pairs_len ps)) = L NM 8 [] ->
  eval_pairs E' ac (VRef (length (P ++ extra ++ OMap (L NS sz vs) :: tail))) ps (Sc extra c) (St NS sz vs extra (tail ++ [OMap (L NM 8 [])]) cx) = OOk st1 ->
  ev m (EMap ps) xs (Sc extra c) (St NS sz vs extra tail cx) = OOk ([VRef (length (P ++ extra ++ OMap (L NS sz vs) :: tail))], st1).
Proof.
  intros H0 H. apply r_map. rewrite H0. rewrite <- H. unfold put_mem, PreludeRun.St. cbn [t_mem t_codes m_objs m_pend].
  rewrite <- !app_assoc. reflexivity.
Qed.
Lemma r_pairs l k e r sc st st1 st2 key v st2' st3 : ev MVal k [] sc st = OOk ([key], st1) -> ev MVal e [] sc st1 = OOk ([v], st2) ->
  insert_of E' (t_mem st2) l key v = OOk (t_mem st2') -> t_codes st2' = t_codes st2 -> eval_pairs E' ac l r sc st2' = OOk st3 ->
  eval_pairs E' ac l (PCons k e r) sc st = OOk st3.
Proof.
  intros H1 H2 H3 H5 H4. change (eval_pairs E' ac l (PCons k e r) sc st) with
    (obind (ev MVal k [] sc st) (fun '(x, s1) => obind (ev MVal e [] sc s1) (fun '(y, s2) =>
     match x, y with [key], [v] => obind (insert_of E' (t_mem s2) l key v) (fun mm => eval_pairs E' ac l r sc (put_mem s2 mm)) | _, _ => OUB end))).
  rewrite H1. cbn [obind]. rewrite H2. cbn [obind]. rewrite H3. cbn [obind].
  replace (put_mem st2 (t_mem st2')) with st2'; [exact H4|]. unfold put_mem. rewrite <- H5. now destruct st2'.
Qed.
(** Storing into a map allocated since the call. *)
Lemma i_lit NS sz vs extra t0 t1 cx NM sm ws i name v : sets NM -> room sm (length ws) -> (length ws <= length NM)%nat ->
  nth_error NM i = Some name -> (i <= length ws)%nat ->
  insert_of E' (t_mem (St NS sz vs extra (t0 ++ OMap (L NM sm ws) :: t1) cx)) (VRef (length (P ++ extra ++ OMap (L NS sz vs) :: t0))) (VStr name) v =
  OOk (t_mem (St NS sz vs extra (t0 ++ OMap (L NM (grown sm (length ws)) (put_at ws i v)) :: t1) cx)).
Proof.
  intros G R Hl Hn Hi. unfold PreludeRun.St. cbn [t_mem].
  assert (X : forall o, P ++ extra ++ OMap (L NS sz vs) :: (t0 ++ o :: t1) = (P ++ extra ++ OMap (L NS sz vs) :: t0) ++ [] ++ o :: t1)
    by (intros o; rewrite <- !app_assoc; reflexivity).
  rewrite !X. unfold insert_of. cbn [m_objs].
  replace (length (P ++ extra ++ OMap (L NS sz vs) :: t0)) with (length ((P ++ extra ++ OMap (L NS sz vs) :: t0) ++ [])) by (now rewrite app_nil_r).
  rewrite nth_loc.
  destruct (G ((P ++ extra ++ OMap (L NS sz vs) :: t0) ++ [] ++ OMap (L NM sm ws) :: t1) sm ws i name
    (length ((P ++ extra ++ OMap (L NS sz vs) :: t0) ++ [])) v R Hl Hn Hi) as [_ Hg].
  rewrite Hg. now rewrite upd_loc.
Qed.
Lemma i_lit' NS sz vs extra t0 t1 cx NM sm ws i name v sm' ws' : sets NM -> room sm (length ws) -> (length ws <= length NM)%nat ->
  nth_error NM i = Some name -> (i <= length ws)%nat -> sm' = grown sm (length ws) -> ws' = put_at ws i v ->
  insert_of E' (t_mem (St NS sz vs extra (t0 ++ OMap (L NM sm ws) :: t1) cx)) (VRef (length (P ++ extra ++ OMap (L NS sz vs) :: t0))) (VStr name) v =
  OOk (t_mem (St NS sz vs extra (t0 ++ OMap (L NM sm' ws') :: t1) cx)).
Proof. intros G R Hl Hn Hi -> ->. now apply i_lit. Qed.
(** A function literal. *)
Lemma r_fun m ps body xs NS sz vs extra tail cx c :
  ev m (EFun ps body) xs (Sc extra c) (St NS sz vs extra tail cx) =
  OOk ([VRef (S (length (P ++ extra ++ OMap (L NS sz vs) :: tail)))],
       St NS sz vs extra (tail ++ [OClosure (Some (VRef c)) (VRef (length (P ++ extra))); OFun (length (C ++ cx)) (VRef (length (P ++ extra ++ OMap (L NS sz vs) :: tail)))])
         (cx ++ [(ps, body)])).
Proof.
  change (ev m (EFun ps body) xs (Sc extra c) (St NS sz vs extra tail cx)) with
    (let (fn, st1) := new_function (Sc extra c) (St NS sz vs extra tail cx) ps body in OOk ([fn], st1)).
  unfold new_function, alloc. cbn [m_objs m_pend]. unfold PreludeRun.St, PreludeRun.Sc. cbn [t_mem t_codes m_objs m_pend sc_clo sc_locals].
  rewrite app_length. cbn [length]. rewrite Nat.add_1_r.
  rewrite <- !app_assoc. reflexivity.
Qed.
Lemma r_nlb m a v xs sc st NS sz vs extra tail cx : ev MVal a [] sc st = OOk ([v], St NS sz vs extra tail cx) ->
  ev m (EUn UNlb a) xs sc st =
  OOk ([VRef (length (P ++ extra ++ OMap (L NS sz vs) :: tail))], St NS sz vs extra (tail ++ [ONullable v]) cx).
Proof.
  intros H. cbn [eval]. rewrite H. cbn [obind unop_code unary_op alloc]. unfold put_mem, PreludeRun.St. cbn [t_mem t_codes m_objs m_pend].
  rewrite <- !app_assoc. reflexivity.
Qed.
(** A native that allocates, just looked up. *)
Lemma r_native NS sz vs extra tail cx id argc args want rs ws new :
  native E id (if argc <? 0 then args else adjust argc args) (t_mem (St NS sz vs extra (tail ++ [ONative id argc]) cx)) =
    OOk (rs, t_mem (St NS sz vs extra (tail ++ [ONative id argc] ++ new) cx)) ->
  results want rs = OOk ws ->
  call E' ac (VRef (length (P ++ extra ++ OMap (L NS sz vs) :: tail))) args want (St NS sz vs extra (tail ++ [ONative id argc]) cx) =
    OOk (ws, St NS sz vs extra (tail ++ [ONative id argc] ++ new) cx).
Proof.
  intros H1 H2. eapply (r_call_native B E ac) in H2; [..|exact H1]; [exact H2|].
  unfold PreludeRun.St. cbn [t_mem m_objs]. apply nth_last.
Qed.
End Rules.
End More.

Definition NS_it := Eval vm_compute in [b "set"; b "keys"; b "index"; b "next"].
Definition NS_gi := Eval vm_compute in [b "T"].
Definition NS_mgi := Eval vm_compute in [b "set"].
Definition NS_next := Eval vm_compute in [b "iter"; b "index"; b "key"; b "val"].
Definition NS_mi := Eval vm_compute in [b "can_use_method"; b "set"].
Lemma gets_it : gets NS_it. Proof. frame_get. Qed.
Lemma sets_it : sets NS_it. Proof. frame_set. Qed.
Lemma gets_gi : gets NS_gi. Proof. frame_get. Qed.
Lemma sets_gi : sets NS_gi. Proof. frame_set. Qed.
Lemma gets_mgi : gets NS_mgi. Proof. frame_get. Qed.
Lemma sets_mgi : sets NS_mgi. Proof. frame_set. Qed.
Lemma gets_next : gets NS_next. Proof. frame_get. Qed.
Lemma sets_next : sets NS_next. Proof. frame_set. Qed.
Lemma gets_mi : gets NS_mi. Proof. frame_get. Qed.
Lemma sets_mi : sets NS_mi. Proof. frame_set. Qed.
Ltac frames ::= first [exact gets_it|exact sets_it|exact gets_gi|exact sets_gi|exact gets_mgi|exact sets_mgi
  |exact gets_next|exact sets_next|exact gets_mi|exact sets_mi].

Definition fn_gi := Eval vm_compute in nth 9 C (ANil, SBreak).
Definition fn_mgi := Eval vm_compute in nth 10 C (ANil, SBreak).
Definition fn_mi := Eval vm_compute in nth 11 C (ANil, SBreak).
Definition fn_next := Eval vm_compute in
  match snd fn_mgi with
  | SReturn (EMap (PCons _ _ (PCons _ _ (PCons _ _ (PCons _ (EFun ps body) _))))) => (ps, body)
  | s => (ANil, s)
  end.

Lemma g_Callable E : found E (b "Callable") (VRef 8). Proof. top. Qed.
Lemma g_Collection E : found E (b "Collection") (VRef 9). Proof. top. Qed.
Lemma g_gi E : found E (b "GenericIterator") (VRef 33). Proof. top. Qed.
Lemma g_mgi E : found E (b "makeGenericIterator") (VRef 35). Proof. top. Qed.
Lemma n_List E : absent E (b "List"). Proof. top. Qed.
Lemma n_Map E : absent E (b "Map"). Proof. top. Qed.
Lemma n_keysof E : absent E (b "keysof"). Proof. top. Qed.
Lemma n_count E : absent E (b "count"). Proof. top. Qed.
Lemma n_istypeof E : absent E (b "istypeof"). Proof. top. Qed.
Lemma b_List E : builtin E (b "List") (fun _ => VType TyList) []. Proof. intros r. rewrite app_nil_r. vm_compute. reflexivity. Qed.
Lemma b_Map E : builtin E (b "Map") (fun _ => VType TyMap) []. Proof. intros r. rewrite app_nil_r. vm_compute. reflexivity. Qed.
Lemma b_keysof E : builtin E (b "keysof") VRef [ONative N_keysof 1]. Proof. smap. Qed.
Lemma b_count E : builtin E (b "count") VRef [ONative N_count 1]. Proof. smap. Qed.
Lemma b_istypeof E : builtin E (b "istypeof") VRef [ONative N_istypeof 2]. Proof. smap. Qed.

(** * GenericIterator *)
Definition gi_new (n : nat) (T : value) : list hobj :=
  [OMap (L NS_gi 8 [T]); OMap (L NS_it 8 [T; VType TyList; VRef (n + 2); VRef 8]); ONullable (VType TyInt)].

Ltac lit k := eapply i_lit' with (t0 := []) (i := k); [frames|rooms|len|reflexivity|cbn [length]; lia
  |cbn [length grown Nat.eqb]; reflexivity|cbn [put_at length Nat.ltb Nat.leb upd app]; reflexivity].
Ltac str := apply r_str; vm_compute; reflexivity.

Lemma gi_ok E f T extra cx :
  run_call_n (UE E) (S f) (fst fn_gi) (snd fn_gi) [T] (VRef 32) (Out extra cx) =
  OOk ([VRef (length (P ++ extra) + 1)], Out (extra ++ gi_new (length (P ++ extra)) T) cx).
Proof.
  unfold fn_gi. cbn [fst snd].
  etransitivity.
  { eapply (c_run P C B E f NS_gi).
    - eapply r_par with (typ := VNone); [apply r_par0|reflexivity|put].
    - eapply s_ret. eapply r_mapL with (NM := NS_it); [reflexivity|].
      eapply r_pairs; [str|get|lit 0%nat|reflexivity|].
      eapply r_pairs; [str|value_name b_List n_List|lit 1%nat|reflexivity|].
      eapply r_pairs; [str|eapply r_nlb; value_name b_int n_int|lit 2%nat|reflexivity|].
      eapply r_pairs; [str|glob g_Callable|lit 3%nat|reflexivity|].
      apply r_pairs0.
    - reflexivity. }
  unfold gi_new, PreludeRun.Out, PreludeRun.St. rewrite !app_length. cbn [app length].
  repeat f_equal; try lia.
Qed.

(** * Collections *)
Definition kind_of (o : hobj) : tyname := match o with OList _ => TyList | OMap _ => TyMap | _ => TyNone end.
Definition answers (E : env) (o : hobj) (k v : value) : Prop := forall objs l, nth_error objs l = Some o ->
  select_or_none E (mkmem objs false) (VRef l) k = OOk (v, mkmem objs false).
(** [lk] is the list of the keys of [o]. *)
Definition has_keys (o : hobj) (lk : lobj value) : Prop := forall other objs l, nth_error objs l = Some o ->
  bin_keysof other [VRef l] (mkmem objs false) = OOk ([VRef (length objs)], mkmem (objs ++ [OList lk]) false).
Record collection (E : env) (o : hobj) (ks vs : list value) (lk : lobj value) : Prop := {
  c_kind : kind_of o = TyList \/ kind_of o = TyMap;
  c_len : length ks = length vs;
  c_sel : forall i k v, nth_error ks i = Some k -> nth_error vs i = Some v -> answers (UE E) o k v;
  c_keys : has_keys o lk;
  c_rep : rep lk ks;
  c_small : Z.of_nat (length ks) <= 2 ^ 30
}.

Lemma P_9 : nth_error P 9 = Some (OSum (VType TyList) (VType TyMap)). Proof. vm_compute. reflexivity. Qed.
Lemma P_8 : nth_error P 8 = Some (OSum (VType TyFun) (VType TyNFun)). Proof. vm_compute. reflexivity. Qed.

Lemma kind_type m l o : nth_error m l = Some o -> kind_of o = TyList \/ kind_of o = TyMap -> type_of (rt_of m) (VRef l) = kind_of o.
Proof. intros H1 H2. cbn [type_of rt_of]. unfold rt_of. rewrite H1. destruct o; cbn in H2 |- *; destruct H2; try discriminate; reflexivity. Qed.

Lemma is_collection r l o : nth_error (P ++ r) l = Some o -> kind_of o = TyList \/ kind_of o = TyMap ->
  is_type (mkmem (P ++ r) false) (VRef 9) (VRef l) = OOk (true, mkmem (P ++ r) false).
Proof.
  intros H1 H2. unfold is_type, type_depth. rewrite Nat.add_1_r. cbn [is_type_of m_objs m_pend].
  rewrite (nth_pre _ _ _ _ _ P_9). cbn [is_type_of].
  destruct (_ * _)%nat; cbn [is_type_of m_objs]; rewrite (kind_type _ _ _ H1 H2); destruct H2 as [-> | ->]; reflexivity.
Qed.

Lemma nth_mid (a extra : list hobj) f tail l o : nth_error (a ++ extra) l = Some o -> nth_error (a ++ extra ++ f :: tail) l = Some o.
Proof. intros H. rewrite app_assoc. now apply nth_pre. Qed.

Lemma keysof_ok E ac NS sz ws extra tail cx s o ks vs lk : nth_error (P ++ extra) s = Some o -> collection E o ks vs lk ->
  call (UE E) ac (VRef (length (P ++ extra ++ OMap (L NS sz ws) :: tail))) [VRef s] 1 (St NS sz ws extra (tail ++ [ONative N_keysof 1]) cx) =
  OOk ([VRef (S (length (P ++ extra ++ OMap (L NS sz ws) :: tail)))], St NS sz ws extra (tail ++ [ONative N_keysof 1] ++ [OList lk]) cx).
Proof.
  intros Hs K. eapply r_native with (rs := [_]); [|reflexivity].
  change (native E N_keysof (if 1 <? 0 then [VRef s] else adjust 1 [VRef s])) with (bin_keysof (e_native E N_keysof) [VRef s]).
  unfold PreludeRun.St. cbn [t_mem].
  rewrite (c_keys _ _ _ _ _ K _ _ _ (nth_mid _ _ _ _ _ _ Hs)).
  rewrite <- !app_assoc. cbn [app]. rewrite <- !app_assoc. cbn [app]. do 3 f_equal. f_equal. rewrite !app_length. cbn [length]. rewrite app_length. cbn [length]. lia.
Qed.

(** * makeGenericIterator *)
Definition mgi_new (n s code : nat) (lk : lobj value) : list hobj :=
  [OMap (L NS_mgi 8 [VRef s]); OMap (L NS_it 8 [VRef s; VRef (n + 3); VNone; VRef (n + 5)]); ONative N_keysof 1; OList lk;
   OClosure (Some (VRef 34)) (VRef n); OFun code (VRef (n + 4))].

Lemma mgi_ok E f s o ks vs lk extra cx : nth_error (P ++ extra) s = Some o -> collection E o ks vs lk ->
  run_call_n (UE E) (S f) (fst fn_mgi) (snd fn_mgi) [VRef s] (VRef 34) (Out extra cx) =
  OOk ([VRef (length (P ++ extra) + 1)], Out (extra ++ mgi_new (length (P ++ extra)) s (length (C ++ cx)) lk) (cx ++ [fn_next])).
Proof.
  intros Hs K. unfold fn_mgi. cbn [fst snd].
  etransitivity.
  { eapply (c_run P C B E f NS_mgi).
    - eapply r_par; [apply r_par0|split; [glob g_Collection|]|put].
      apply is_collection with (o := o); [rewrite app_assoc; apply nth_pre; exact Hs|apply K].
    - eapply s_ret. eapply r_mapL with (NM := NS_it); [reflexivity|].
      eapply r_pairs; [str|get|lit 0%nat|reflexivity|].
      eapply r_pairs; [str| | | |].
      { eapply r_call; [reflexivity| | |].
        - eapply r_args; [apply r_args0|get].
        - native_name b_keysof n_keysof.
        - eapply keysof_ok; eassumption. }
      { lit 1%nat. }
      { reflexivity. }
      eapply r_pairs; [str|apply r_none|lit 2%nat|reflexivity|].
      eapply r_pairs; [str|apply r_fun|lit 3%nat|reflexivity|].
      apply r_pairs0.
    - reflexivity. }
  unfold mgi_new, PreludeRun.Out, PreludeRun.St. rewrite !app_length. cbn [app length].
  repeat f_equal; try lia.
Qed.

(** * makeIterator *)
Definition no_method (E : env) (o : hobj) : Prop := kind_of o = TyMap -> answers (UE E) o (VStr (b "iter")) VNone.

Lemma type_ok E ac NS sz ws extra tail cx l o : nth_error (P ++ extra) l = Some o -> kind_of o = TyList \/ kind_of o = TyMap ->
  call (UE E) ac (VRef (length (P ++ extra ++ OMap (L NS sz ws) :: tail))) [VRef l] 1 (St NS sz ws extra (tail ++ [ONative N_type 1]) cx) =
  OOk ([VType (kind_of o)], St NS sz ws extra (tail ++ [ONative N_type 1]) cx).
Proof.
  intros H K. eapply k_new with (rs := [_]); [|reflexivity].
  change (native E N_type (if 1 <? 0 then [VRef l] else adjust 1 [VRef l])) with (bin_type [VRef l]).
  unfold bin_type, ret1, PreludeRun.St. cbn [t_mem m_objs]. rewrite (kind_type _ _ _ (nth_mid _ _ _ _ _ _ H) K). reflexivity.
Qed.

Lemma not_callable r : is_type (mkmem (P ++ r) false) (VRef 8) VNone = OOk (false, mkmem (P ++ r) false).
Proof.
  unfold is_type, type_depth. rewrite Nat.add_1_r. cbn [is_type_of m_objs m_pend].
  rewrite (nth_pre _ _ _ _ _ P_8). cbn [is_type_of]. destruct (_ * _)%nat; reflexivity.
Qed.

Lemma mi_ok E f s o ks vs lk extra cx : nth_error (P ++ extra) s = Some o -> collection E o ks vs lk -> no_method E o -> exists t,
  let n := length (P ++ extra ++ t) in
  run_call_n (UE E) (S (S f)) (fst fn_mi) (snd fn_mi) [VRef s; VNone] (VRef 37) (Out extra cx) =
  OOk ([VRef (n + 1)], Out ((extra ++ t) ++ mgi_new n s (length (C ++ cx)) lk) (cx ++ [fn_next])).
Proof.
  intros Hs K Hm.
  assert (D : kind_of o = TyList \/ kind_of o = TyMap) by apply K.
  destruct D as [D|D].
  - exists (OMap (L NS_mi 8 [VBool true; VRef s]) :: [ONative N_type 1]). cbv zeta.
    pose proof (mgi_ok E f s o ks vs lk (extra ++ OMap (L NS_mi 8 [VBool true; VRef s]) :: [ONative N_type 1]) cx) as A.
    specialize (A (nth_mid _ _ _ _ _ _ Hs) K).
    unfold fn_mi. cbn [fst snd].
    etransitivity.
    { eapply (c_run P C B E (S f) NS_mi).
      - eapply r_par; [eapply r_pardef; [apply r_par0|reflexivity|reflexivity|put]|split; [glob g_Collection|]|put].
        apply is_collection with (o := o); [apply nth_mid; exact Hs|apply K].
      - apply s_comp. eapply s_next.
        { eapply s_if_f. eapply r_and with (x := false); [|discriminate|split; reflexivity].
          eapply r_and with (x := true); [get| |discriminate]. intros _.
          eapply r_op.
          + eapply r_call; [reflexivity| | |].
            * eapply r_args; [apply r_args0|get].
            * native_name b_type n_type.
            * eapply type_ok; [exact Hs|apply K].
          + value_name b_Map n_Map.
          + rewrite D. reflexivity. }
        eapply s_stop. eapply s_ret. eapply r_call; [reflexivity| | |].
        + eapply r_args; [apply r_args0|get].
        + glob g_mgi.
        + eapply r_call_fun; [apply nth_pre; vm_compute; reflexivity|apply nth_pre; vm_compute; reflexivity| |].
          * cbn [adjust]. exact A. 
          * reflexivity.
      - reflexivity. }
    reflexivity.
  - exists (OMap (L NS_mi 8 [VBool true; VRef s]) :: [ONative N_type 1] ++ [ONative N_istypeof 2]). cbv zeta.
    pose proof (mgi_ok E f s o ks vs lk (extra ++ OMap (L NS_mi 8 [VBool true; VRef s]) :: [ONative N_type 1] ++ [ONative N_istypeof 2]) cx) as A.
    specialize (A (nth_mid _ _ _ _ _ _ Hs) K).
    unfold fn_mi. cbn [fst snd].
    etransitivity.
    { eapply (c_run P C B E (S f) NS_mi).
      - eapply r_par; [eapply r_pardef; [apply r_par0|reflexivity|reflexivity|put]|split; [glob g_Collection|]|put].
        apply is_collection with (o := o); [apply nth_mid; exact Hs|apply K].
      - apply s_comp. eapply s_next.
        { eapply s_if_f. eapply r_and with (x := true); [|intros _|discriminate].
          - eapply r_and with (x := true); [get| |discriminate]. intros _.
            eapply r_op.
            + eapply r_call; [reflexivity| | |].
              * eapply r_args; [apply r_args0|get].
              * native_name b_type n_type.
              * eapply type_ok; [exact Hs|apply K].
            + value_name b_Map n_Map.
            + rewrite D. reflexivity.
          - eapply r_call; [reflexivity| | |].
            + eapply r_args; [eapply r_args; [apply r_args0|]|].
              * eapply r_sel; [exact I|get|str|]. apply (Hm D). apply nth_mid. exact Hs.
              * glob g_Callable.
            + native_name b_istypeof n_istypeof.
            + eapply k_new with (rs := [VBool false]); [|reflexivity].
              change (native E N_istypeof (if 2 <? 0 then [VRef 8; VNone] else adjust 2 [VRef 8; VNone])) with (bin_istypeof [VRef 8; VNone]).
              unfold bin_istypeof, PreludeRun.St. cbn [t_mem]. rewrite not_callable. reflexivity. }
        eapply s_stop. eapply s_ret. eapply r_call; [reflexivity| | |].
        + eapply r_args; [apply r_args0|get].
        + glob g_mgi.
        + eapply r_call_fun; [apply nth_pre; vm_compute; reflexivity|apply nth_pre; vm_compute; reflexivity| |].
          * cbn [adjust]. exact A.
          * reflexivity.
      - reflexivity. }
    reflexivity.
Qed.
