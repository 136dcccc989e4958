(** Symbolic execution of the prelude functions: rules for expressions and statements of SrcModel.v in a frame whose variables
    are known by name and order. *)
From Coq Require Import ZArith String List Lia Bool.
From Verif Require Import Base HashModel StringModel ValueModel MapModel ListModel ExeModel ArithModel ObjModel AstModel CodegenModel
  VmModel SrcModel BuiltinModel PreludeModel.
Import ListNotations.
Open Scope Z_scope.

Definition no_env : env := mkenv (fun _ _ _ => OErr) (fun _ _ _ => OErr) (fun _ _ _ _ => OErr) (fun _ _ _ _ _ => OErr) None.

(** The store and the codes the prelude leaves, with the closure made by plug at the end of the store. *)
Definition prelude := Eval vm_compute in
  match start_run no_env 10 with
  | OOk (v :: _, st) => (m_objs (snd (plug (t_mem st) v (VRef 0))), t_codes st)
  | _ => ([], [])
  end.
Definition P : list hobj := Eval cbv [prelude fst] in fst prelude.
Definition C : list (params * stmt) := Eval cbv [prelude snd] in snd prelude.
Definition B : nat := Eval vm_compute in Nat.pred (length P).

Lemma start_ok E n : (1 <= n)%nat ->
  exists st, start_run E n = OOk ([VRef 36], st) /\ snd (plug (t_mem st) (VRef 36) (VRef 0)) = mkmem P false /\
  fst (plug (t_mem st) (VRef 36) (VRef 0)) = VRef B /\ t_codes st = C.
Proof.
  destruct n as [|n]; [lia|]. intros _.
  eexists. split; [vm_compute; reflexivity|]. split; [reflexivity|]. split; reflexivity.
Qed.

Definition UE (E : env) : env := std_env E (Some (VRef B)).

(** A frame whose variables are the first names of [NS], with values [vs]; the index table has [sz] slots. *)
Definition mapper_of (NS : list (list Z)) (sz k : nat) : list Z :=
  match map_inserts (hash_or0 []) (map_cmp (mkmem [] false)) (mkmap (repeat (-1) sz) [] [])
          (map (fun x => (VStr x, VNone)) (firstn k NS)) with
  | InsOk m => m_mapper m
  | _ => []
  end.
Definition L (NS : list (list Z)) (sz : nat) (vs : list value) : hmap value value :=
  mkmap (mapper_of NS sz (length vs)) (map VStr (firstn (length vs) NS)) vs.

(** The table doubles when an assignment finds it full. *)
Definition grown (sz k : nat) : nat := if (k =? match sz with 8 => 5 | _ => 10 end)%nat then (2 * sz)%nat else sz.
Definition room (sz k : nat) : Prop := (sz = 8 /\ k <= 5 \/ sz = 16 /\ k <= 9)%nat.

(** What the variables of a frame answer, whatever their values: computed for each list of names. *)
Definition gets (NS : list (list Z)) : Prop :=
  forall objs sz vs i name, room sz (length vs) -> (length vs <= length NS)%nat -> nth_error NS i = Some name ->
  vstring name = OOk (VStr name) /\
  map_sel (mkmem objs false) (L NS sz vs) (VStr name) = OOk (nth_error vs i, mkmem objs false).
Definition misses (NS : list (list Z)) (name : list Z) : Prop :=
  vstring name = OOk (VStr name) /\
  forall objs sz vs, room sz (length vs) -> (length vs <= length NS)%nat ->
  map_sel (mkmem objs false) (L NS sz vs) (VStr name) = OOk (None, mkmem objs false).
Definition put_at (vs : list value) (i : nat) (v : value) : list value :=
  if (i <? length vs)%nat then upd vs i v else vs ++ [v].
Definition sets (NS : list (list Z)) : Prop :=
  forall objs sz vs i name l v, room sz (length vs) -> (length vs <= length NS)%nat -> nth_error NS i = Some name -> (i <= length vs)%nat ->
  vstring name = OOk (VStr name) /\
  map_store copy_of (mkmem objs false) l (L NS sz vs) (VStr name) v =
  OOk (mkmem (upd objs l (OMap (L NS (grown sz (length vs)) (put_at vs i v)))) false).

Ltac frame_vals tac :=
  match goal with
  | vs_ : list value, Hr_ : room ?sz_ (length ?vs_), Hl_ : (length ?vs_ <= _)%nat |- _ =>
    destruct Hr_ as [[-> Hr_]|[-> Hr_]];
    repeat (destruct vs_ as [|? vs_]; [tac|]; try (exfalso; cbn in Hl_; cbn in Hr_; lia))
  end.
Ltac frame_get :=
  intros objs_ sz_ vs_ i_ name_ Hr_ Hl_ Hi_;
  repeat (destruct i_ as [|i_]; [injection Hi_ as <-; frame_vals ltac:(split; vm_compute; reflexivity) |]);
  destruct i_; discriminate Hi_.
Ltac frame_set :=
  intros objs_ sz_ vs_ i_ name_ l_ v_ Hr_ Hl_ Hi_ Hv_;
  repeat (destruct i_ as [|i_]; [injection Hi_ as <-;
    frame_vals ltac:(first [split; vm_compute; reflexivity | exfalso; cbn in Hv_; lia]) |]);
  destruct i_; discriminate Hi_.
Ltac frame_miss :=
  split; [vm_compute; reflexivity|];
  intros objs_ sz_ vs_ Hr_ Hl_; frame_vals ltac:(vm_compute; reflexivity).

Lemma sel_map E n m l mo key : nth_error (m_objs m) l = Some (OMap mo) -> obj_select E n m (VRef l) key = map_sel m mo key.
Proof. intros H. destruct n; cbn [obj_select]; rewrite H; reflexivity. Qed.

Section Any.
(** The store and codes of the prelude, and the builtins, arbitrary. *)
Variable P : list hobj.
Variable C : list (params * stmt).
Variable B : nat.

(** The state inside a call of a prelude function: the store before the call, the variables of the call, what was allocated since. *)
Definition St NS sz vs extra tail cx : sst := mkst (mkmem (P ++ extra ++ OMap (L NS sz vs) :: tail) false) (C ++ cx).
Definition Sc extra (c : nat) : scope := mksc (VRef (length (P ++ extra))) (Some (VRef c)).
(** The state outside. *)
Definition Out extra cx : sst := mkst (mkmem (P ++ extra) false) (C ++ cx).

Lemma Out_St NS sz vs extra tail cx : Out (extra ++ OMap (L NS sz vs) :: tail) cx = St NS sz vs extra tail cx.
Proof. reflexivity. Qed.
Lemma Out_St_app NS sz vs extra tail t cx : Out ((extra ++ OMap (L NS sz vs) :: tail) ++ t) cx = St NS sz vs extra (tail ++ t) cx.
Proof. unfold Out, St. rewrite <- !app_assoc. reflexivity. Qed.

Lemma nth_loc {A} (a b : list A) x c : nth_error (a ++ b ++ x :: c) (length (a ++ b)) = Some x.
Proof. rewrite app_assoc. rewrite nth_error_app2 by lia. rewrite Nat.sub_diag. reflexivity. Qed.
Lemma upd_loc {A} (a b : list A) x y c : upd (a ++ b ++ x :: c) (length (a ++ b)) y = a ++ b ++ y :: c.
Proof.
  rewrite app_assoc. rewrite (app_assoc a b (y :: c)). generalize (a ++ b) as l. clear a b.
  induction l as [|h t IH]; cbn [upd app length]; [reflexivity|]. now rewrite IH.
Qed.
Lemma app_one (a b : list hobj) x c o : (a ++ b ++ x :: c) ++ [o] = a ++ b ++ x :: (c ++ [o]).
Proof. rewrite <- !app_assoc. reflexivity. Qed.

Section Rules.
Variable E : env.
Variable again_call : params -> stmt -> list value -> value -> sst -> out (list value * sst).
Let E' := std_env E (Some (VRef B)).
Notation ev := (eval E' again_call).

Definition reads (m : mode) : Prop := match m with MTgt => False | _ => True end.

Lemma r_get NS sz vs extra tail cx c m name i v xs : reads m -> gets NS ->
  room sz (length vs) -> (length vs <= length NS)%nat -> nth_error NS i = Some name -> nth_error vs i = Some v ->
  ev m (EIdent name) xs (Sc extra c) (St NS sz vs extra tail cx) = OOk ([v], St NS sz vs extra tail cx).
Proof.
  intros Hm G R Hl Hn Hv.
  destruct (G (P ++ extra ++ OMap (L NS sz vs) :: tail) sz vs i name R Hl Hn) as [Hs Hg].
  assert (X : get_var E' (t_mem (St NS sz vs extra tail cx)) (sc_locals (Sc extra c)) (sc_clo (Sc extra c)) name =
    OOk (Some v, t_mem (St NS sz vs extra tail cx))).
  { unfold get_var. rewrite Hs. cbn [obind get_in]. unfold St, Sc. cbn [t_mem sc_locals]. unfold select_of.
    erewrite sel_map by (cbn [m_objs]; apply nth_loc). rewrite Hg, Hv. reflexivity. }
  destruct m; try (now destruct Hm); cbn [eval]; rewrite X; reflexivity.
Qed.

Lemma r_set NS sz vs extra tail cx c name i v : sets NS ->
  room sz (length vs) -> (length vs <= length NS)%nat -> nth_error NS i = Some name -> (i <= length vs)%nat ->
  ev MTgt (EIdent name) [v] (Sc extra c) (St NS sz vs extra tail cx) =
  OOk ([v], St NS (grown sz (length vs)) (put_at vs i v) extra tail cx).
Proof.
  intros G R Hl Hn Hv.
  destruct (G (P ++ extra ++ OMap (L NS sz vs) :: tail) sz vs i name (length (P ++ extra)) v R Hl Hn Hv) as [Hs Hg].
  cbn [eval]. unfold set_var. rewrite Hs. cbn [obind]. unfold insert_of. unfold St at 1, Sc. cbn [t_mem sc_locals m_objs].
  rewrite nth_loc. unfold St at 1. cbn [t_mem]. rewrite Hg. cbn [obind]. unfold put_mem, St. cbn [t_codes].
  now rewrite upd_loc.
Qed.

(** Names found in the closure of the prelude: [c] is one of its closure objects. *)
Lemma r_glob NS sz vs extra tail cx c m name v xs : reads m -> misses NS name ->
  room sz (length vs) -> (length vs <= length NS)%nat ->
  (forall r, obj_select E' (depth (P ++ r)) (mkmem (P ++ r) false) (VRef c) (VStr name) = OOk (Some v, mkmem (P ++ r) false)) ->
  ev m (EIdent name) xs (Sc extra c) (St NS sz vs extra tail cx) = OOk ([v], St NS sz vs extra tail cx).
Proof.
  intros Hm [Hs G] R Hl Hv.
  assert (X : get_var E' (t_mem (St NS sz vs extra tail cx)) (sc_locals (Sc extra c)) (sc_clo (Sc extra c)) name =
    OOk (Some v, t_mem (St NS sz vs extra tail cx))).
  { unfold get_var. rewrite Hs. cbn [obind get_in]. unfold St, Sc. cbn [t_mem sc_locals sc_clo]. unfold select_of.
    erewrite sel_map by (cbn [m_objs]; apply nth_loc). rewrite (G _ sz vs R Hl). cbn [obind fst snd m_objs].
    rewrite Hv. reflexivity. }
  destruct m; try (now destruct Hm); cbn [eval]; rewrite X; reflexivity.
Qed.

(** Names found in runtime->builtins. *)
Lemma r_bin NS sz vs extra tail cx c m name v new xs : reads m -> misses NS name ->
  room sz (length vs) -> (length vs <= length NS)%nat ->
  (forall r, obj_select E' (depth (P ++ r)) (mkmem (P ++ r) false) (VRef c) (VStr name) = OOk (None, mkmem (P ++ r) false)) ->
  (forall r, obj_select E' (depth (P ++ r)) (mkmem (P ++ r) false) (VRef B) (VStr name) =
     OOk (Some (v (length (P ++ r))), mkmem ((P ++ r) ++ new) false)) ->
  ev m (EIdent name) xs (Sc extra c) (St NS sz vs extra tail cx) =
  OOk ([v (length (P ++ extra ++ OMap (L NS sz vs) :: tail))], St NS sz vs extra (tail ++ new) cx).
Proof.
  intros Hm [Hs G] R Hl Hv Hb.
  assert (X : get_var E' (t_mem (St NS sz vs extra tail cx)) (sc_locals (Sc extra c)) (sc_clo (Sc extra c)) name =
    OOk (Some (v (length (P ++ extra ++ OMap (L NS sz vs) :: tail))), t_mem (St NS sz vs extra (tail ++ new) cx))).
  { unfold get_var. rewrite Hs. cbn [obind get_in]. unfold St, Sc. cbn [t_mem sc_locals sc_clo]. unfold select_of.
    erewrite sel_map by (cbn [m_objs]; apply nth_loc). rewrite (G _ sz vs R Hl). cbn [obind fst snd m_objs].
    rewrite Hv. cbn [obind fst snd m_objs]. unfold E', std_env in *. cbn [e_builtins] in *.
    rewrite Hb. cbn [obind fst]. rewrite <- !app_assoc. reflexivity. }
  destruct m; try (now destruct Hm); cbn [eval]; rewrite X; reflexivity.
Qed.

Lemma r_int m z xs sc st : ev m (EInt z) xs sc st = OOk ([VInt z], st).
Proof. reflexivity. Qed.
Lemma r_none m xs sc st : ev m ENone xs sc st = OOk ([VNone], st).
Proof. reflexivity. Qed.
Lemma r_str m s xs sc st : vstring s = OOk (VStr s) -> ev m (EStr s) xs sc st = OOk ([VStr s], st).
Proof. intros H. cbn [eval]. rewrite H. reflexivity. Qed.

Lemma r_op m op a b xs sc st st1 st2 v w r : ev MVal a [] sc st = OOk ([v], st1) -> ev MVal b [] sc st1 = OOk ([w], st2) ->
  binary_op (binop_code op) (t_mem st2) v w = OOk (r, t_mem st2) ->
  ev m (EBin op a b) xs sc st = OOk ([r], st2).
Proof. intros H1 H2 H3. cbn [eval]. rewrite H1. cbn [obind]. rewrite H2. cbn [obind]. rewrite H3. destruct st2. reflexivity. Qed.

Lemma r_un m op a xs sc st st1 v r : ev MVal a [] sc st = OOk ([v], st1) ->
  unary_op (unop_code op) (t_mem st1) v = OOk (r, t_mem st1) ->
  ev m (EUn op a) xs sc st = OOk ([r], st1).
Proof. intros H1 H3. cbn [eval]. rewrite H1. cbn [obind]. rewrite H3. destruct st1. reflexivity. Qed.

Lemma r_and m a b x y xs sc st st1 st2 : ev MVal a [] sc st = OOk ([VBool x], st1) ->
  (x = true -> ev MVal b [] sc st1 = OOk ([VBool y], st2)) -> (x = false -> st2 = st1 /\ y = false) ->
  ev m (EAnd a b) xs sc st = OOk ([VBool y], st2).
Proof.
  intros H1 H2 H3. cbn [eval]. rewrite H1. cbn [obind]. destruct x.
  - rewrite H2 by reflexivity. reflexivity.
  - destruct (H3 eq_refl) as [-> ->]. reflexivity.
Qed.

Lemma r_ass1 m lhs rhs xs sc st st1 st2 v : tuple_len lhs = 1 -> ev MVal rhs [] sc st = OOk ([v], st1) ->
  ev MTgt lhs [v] sc st1 = OOk ([v], st2) -> ev m (EAss lhs rhs) xs sc st = OOk ([v], st2).
Proof. intros H0 H1 H2. cbn [eval]. rewrite H0. cbn [Z.eqb Pos.eqb]. rewrite H1. cbn [obind]. exact H2. Qed.

Lemma r_pair a b xs ys sc st st1 st2 zs : ev MRets a [] sc st = OOk (xs, st1) -> ev MRets b [] sc st1 = OOk (ys, st2) ->
  ev MRets (EPair a b) zs sc st = OOk (xs ++ ys, st2).
Proof. intros H1 H2. cbn [eval]. rewrite H1. cbn [obind]. rewrite H2. reflexivity. Qed.

Lemma r_args0 sc st : eval_args E' again_call ENil sc st = OOk ([], st).
Proof. reflexivity. Qed.
Lemma r_args e r sc st st1 st2 xs v : eval_args E' again_call r sc st = OOk (xs, st1) -> ev MVal e [] sc st1 = OOk ([v], st2) ->
  eval_args E' again_call (ECons e r) sc st = OOk (v :: xs, st2).
Proof.
  intros H1 H2.
  change (eval_args E' again_call (ECons e r) sc st) with
    (obind (eval_args E' again_call r sc st) (fun '(xs, s1) => obind (ev MVal e [] sc s1) (fun '(x, s2) => OOk (x ++ xs, s2)))).
  rewrite H1. cbn [obind]. rewrite H2. reflexivity.
Qed.

Definition is_arw (f : expr) : bool := match f with EArw _ _ => true | _ => false end.
Lemma r_call m f args zs sc st st1 st2 st3 xs fn rs : is_arw f = false -> eval_args E' again_call args sc st = OOk (xs, st1) ->
  ev MVal f [] sc st1 = OOk ([fn], st2) -> call E' again_call fn xs (returns_of m) st2 = OOk (rs, st3) ->
  ev m (ECall f args) zs sc st = OOk (rs, st3).
Proof.
  intros H0 H1 H2 H3.
  assert (ev m (ECall f args) zs sc st = obind (eval_args E' again_call args sc st) (fun '(xs, s1) =>
    obind (ev MVal f [] sc s1) (fun '(x, s2) => match x with [fn] => call E' again_call fn xs (returns_of m) s2 | _ => OUB end))) as ->
    by (destruct f; try discriminate H0; reflexivity).
  rewrite H1. cbn [obind]. rewrite H2. cbn [obind]. exact H3.
Qed.

(** Calls. *)
Lemma r_call_fun l code clo ps body args want st rs vs st1 :
  nth_error (m_objs (t_mem st)) l = Some (OFun code clo) -> nth_error (t_codes st) code = Some (ps, body) ->
  again_call ps body (adjust (params_len ps) args) clo st = OOk (rs, st1) -> results want rs = OOk vs ->
  call E' again_call (VRef l) args want st = OOk (vs, st1).
Proof. intros H1 H2 H3 H4. unfold call. rewrite H1, H2, H3. cbn [obind]. rewrite H4. reflexivity. Qed.

Lemma r_call_native l id argc args want st rs vs mm :
  nth_error (m_objs (t_mem st)) l = Some (ONative id argc) ->
  native E id (if argc <? 0 then args else adjust argc args) (t_mem st) = OOk (rs, mm) -> results want rs = OOk vs ->
  call E' again_call (VRef l) args want st = OOk (vs, put_mem st mm).
Proof. intros H1 H2 H3. unfold call. rewrite H1. unfold E', std_env. cbn [e_native]. rewrite H2. cbn [obind]. rewrite H3. reflexivity. Qed.

(** Parameters. *)
Lemma r_par0 sc st : bind_params E' again_call ANil [] sc st = OOk st.
Proof. reflexivity. Qed.
Lemma r_par name ty r args sc st st1 st2 st3 v typ :
  bind_params E' again_call r args sc st = OOk st1 ->
  match ty with
  | ONo => st2 = st1
  | OYes t => ev MVal t [] sc st1 = OOk ([typ], st2) /\ is_type (t_mem st2) typ v = OOk (true, t_mem st2)
  end ->
  ev MTgt (EIdent name) [v] sc st2 = OOk ([v], st3) ->
  bind_params E' again_call (ACons name ty ONo r) (v :: args) sc st = OOk st3.
Proof.
  intros H1 H2 H3. cbn [bind_params]. rewrite H1. cbn [obind].
  cbn [eval] in H3. destruct (set_var E' (t_mem st2) (sc_locals sc) name v) as [mm| | | |] eqn:Es; try discriminate H3.
  cbn [obind] in H3. injection H3 as <-.
  destruct ty as [|t].
  - subst st2. cbn [obind]. rewrite Es. reflexivity.
  - destruct H2 as [H2 H4]. rewrite H2. cbn [obind]. rewrite H4. cbn [obind].
    replace (put_mem st2 (t_mem st2)) with st2 by (now destruct st2). rewrite Es. reflexivity.
Qed.
End Rules.

Section Stmts.
Variable E : env.
Variable n : nat.
Let E' := std_env E (Some (VRef B)).
Let ac := run_call_n E' n.
Let as_ := run_stmt_n E' n.
Notation rs := (run_stmt E' as_ ac).
Notation rss := (run_stmts E' as_ ac).
Notation ev := (eval E' ac).

Lemma s_expr e sc st st1 vs : ev MVal e [] sc st = OOk (vs, st1) -> rs (SExpr e) sc st = OOk (SigNext, st1).
Proof. intros H. cbn [run_stmt]. rewrite H. reflexivity. Qed.
Lemma s_ret e sc st st1 vs : ev MRets e [] sc st = OOk (vs, st1) -> rs (SReturn e) sc st = OOk (SigRet vs, st1).
Proof. intros H. cbn [run_stmt]. rewrite H. reflexivity. Qed.
Lemma s_if_t c t sc st st1 r : ev MVal c [] sc st = OOk ([VBool true], st1) -> rs t sc st1 = r -> rs (SIf c t) sc st = r.
Proof. intros H H1. cbn [run_stmt]. rewrite H. exact H1. Qed.
Lemma s_if_f c t sc st st1 : ev MVal c [] sc st = OOk ([VBool false], st1) -> rs (SIf c t) sc st = OOk (SigNext, st1).
Proof. intros H. cbn [run_stmt]. rewrite H. reflexivity. Qed.
Lemma s_ife_t c t f sc st st1 r : ev MVal c [] sc st = OOk ([VBool true], st1) -> rs t sc st1 = r -> rs (SIfElse c t f) sc st = r.
Proof. intros H H1. cbn [run_stmt]. rewrite H. exact H1. Qed.
Lemma s_ife_f c t f sc st st1 r : ev MVal c [] sc st = OOk ([VBool false], st1) -> rs f sc st1 = r -> rs (SIfElse c t f) sc st = r.
Proof. intros H H1. cbn [run_stmt]. rewrite H. exact H1. Qed.
Lemma s_while_f c b sc st st1 : ev MVal c [] sc st = OOk ([VBool false], st1) -> rs (SWhile c b) sc st = OOk (SigNext, st1).
Proof. intros H. cbn [run_stmt]. rewrite H. reflexivity. Qed.
Lemma s_while_t c b sc st st1 st2 r : ev MVal c [] sc st = OOk ([VBool true], st1) -> rs b sc st1 = OOk (SigNext, st2) ->
  as_ (SWhile c b) sc st2 = r -> rs (SWhile c b) sc st = r.
Proof. intros H H1 H2. cbn [run_stmt]. rewrite H. cbn [obind]. rewrite H1. cbn [obind]. exact H2. Qed.
Lemma s_comp ss sc st r : rss ss sc st = r -> rs (SComp ss) sc st = r.
Proof. intros H. exact H. Qed.
Lemma s_nil sc st : rss SNil sc st = OOk (SigNext, st).
Proof. reflexivity. Qed.
Lemma s_next s r sc st st1 x : rs s sc st = OOk (SigNext, st1) -> rss r sc st1 = x -> rss (SCons s r) sc st = x.
Proof.
  intros H H1. change (rss (SCons s r) sc st) with (obind (rs s sc st) (fun '(g, s1) => match g with SigNext => rss r sc s1 | _ => OOk (g, s1) end)).
  rewrite H. exact H1.
Qed.
Lemma s_stop s r sc st st1 vs : rs s sc st = OOk (SigRet vs, st1) -> rss (SCons s r) sc st = OOk (SigRet vs, st1).
Proof.
  intros H . change (rss (SCons s r) sc st) with (obind (rs s sc st) (fun '(g, s1) => match g with SigNext => rss r sc s1 | _ => OOk (g, s1) end)).
  rewrite H. reflexivity.
Qed.

(** A call of a prelude function. *)
Lemma new_locals NS extra cx : snd (alloc (t_mem (Out extra cx)) (OMap (new_map (-1)))) = t_mem (St NS 8 [] extra [] cx).
Proof. unfold Out, St, alloc. cbn [t_mem m_objs m_pend snd]. rewrite <- app_assoc. reflexivity. Qed.

Lemma c_run NS ps body args c extra cx st1 st2 vs :
  bind_params E' ac ps args (Sc extra c) (St NS 8 [] extra [] cx) = OOk st1 ->
  rs body (Sc extra c) st1 = OOk (SigRet vs, st2) -> m_pend (t_mem st2) = false ->
  run_call_n E' (S n) ps body args (VRef c) (Out extra cx) = OOk (vs, st2).
Proof.
  intros H1 H2 H3. change (run_call_n E' (S n) ps body args (VRef c) (Out extra cx)) with (run_call E' as_ ac ps body args (VRef c) (Out extra cx)).
  unfold run_call.
  destruct (alloc (t_mem (Out extra cx)) (OMap (new_map (-1)))) as [loc mm] eqn:Ea.
  assert (mm = t_mem (St NS 8 [] extra [] cx)) as -> by (rewrite <- new_locals, Ea; reflexivity).
  assert (loc = VRef (length (P ++ extra))) as -> by (unfold alloc in Ea; injection Ea as <- _; reflexivity).
  change (put_mem (Out extra cx) (t_mem (St NS 8 [] extra [] cx))) with (St NS 8 [] extra [] cx).
  fold (Sc extra c). rewrite H1. cbn [obind]. rewrite H2. cbn [obind]. unfold body_results. rewrite H3. reflexivity.
Qed.
End Stmts.
End Any.
