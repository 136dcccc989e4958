(** The names and the small functions of the prelude: proofs for C79. *)
From Coq Require Import ZArith SpecFloat String List Lia Bool.
From Verif Require Import SysProofs LookSpec LookProofs.
From Verif Require Import Base StringModel ValueModel MapModel MapSpec MapProofs MapProofs2 ListModel ListProofs ExeModel ArithModel FloatModel ObjModel AstModel CodegenModel
  VmModel SrcModel BuiltinModel BuiltinProofs PreludeModel PreludeRun PreludeProofs PreludeText PreludeToString PreludeUser PreludeIter PreludeVisit
  ScopeSpec ScopeProofs StartSpec.
Import ListNotations.
Open Scope Z_scope.

(** * Names *)
Definition M36 : hmap value value := Eval vm_compute in match nth_error P 36 with Some (OMap m) => m | _ => new_map 0 end.
Definition H36 : list (value * value) := Eval vm_compute in combine (m_keys M36) (m_vals M36).

Lemma P_ret : nth_error P 36 = Some (OMap M36). Proof. vm_compute. reflexivity. Qed.
Lemma P_clo : nth_error P B = Some (OClosure (Some (VRef 36)) (VRef 0)). Proof. vm_compute. reflexivity. Qed.
Lemma P_bas : nth_error P 0 = Some (OSMap 0). Proof. vm_compute. reflexivity. Qed.

Lemma filled36 : filled 13 H36 M36.
Proof.
  split; [|split; [|split]].
  - split; vm_compute; reflexivity.
  - right. vm_compute. reflexivity.
  - unfold H36. repeat constructor; cbn; try (intuition discriminate); try (unfold is_byte; vm_compute; intuition discriminate).
  - vm_compute. reflexivity.
Qed.
Opaque P C TOP.

Definition has_prelude (m : mem) : Prop := forall k o, nth_error P k = Some o -> nth_error (m_objs m) k = Some o.

Lemma has_app extra : has_prelude (mkmem (P ++ extra) false).
Proof. intros k o H. apply nth_pre. exact H. Qed.

Lemma ident_no_nul x : ident x -> no_nul x.
Proof. intros [F _] H. rewrite Forall_forall in F. specialize (F 0 H). lia. Qed.

Lemma smap_pend E s m v m' : smap_select E 0 (VStr s) m = OOk (v, m') -> m_pend m' = m_pend m.
Proof.
  unfold smap_select. cbn [Nat.eqb]. destruct (slot_of bins_basic s) as [sl|]; [|intros H; now injection H as _ <-].
  destruct sl; cbn; intros H; injection H as _ <-; reflexivity.
Qed.

Section Names.
Variables (E : env) (m : mem) (x : list Z).
Hypotheses (Pe : m_pend m = false) (Hp : has_prelude m) (Id : ident x).

Lemma name_select : select_of (UE E) m (VRef B) (VStr x) =
  obind (smap_select E 0 (VStr x) m) (fun r => match fst r with None => map_sel (snd r) M36 (VStr x) | _ => OOk r end).
Proof.
  unfold select_of, depth. cbn [obj_select]. rewrite (Hp _ _ P_clo).
  destruct (length (m_objs m)) as [|n] eqn:L; [pose proof (Hp _ _ P_bas) as Q; destruct (m_objs m); discriminate|].
  cbn [obj_select]. rewrite (Hp _ _ P_bas). cbn [UE std_env e_smap].
  destruct (known E x m (ident_no_nul x Id)) as [K1 K2].
  destruct (smap_select E 0 (VStr x) m) as [[v m']| | | |] eqn:Q; try reflexivity. cbn [obind fst snd].
  rewrite (smap_pend E x m v m' Q), Pe. destruct v as [v|]; [reflexivity|].
  assert (m' = m) as ->.
  { revert Q. unfold smap_select. cbn [Nat.eqb]. destruct (slot_of bins_basic x); [|intros Q; now injection Q].
    destruct (slot_value m s). discriminate. }
  rewrite (Hp _ _ P_ret). reflexivity.
Qed.

(** A name of the basic builtins means the basic builtin, whatever the prelude made of it. *)
Lemma name_basic : (exists name, In name known_names /\ x = bytes_of name) -> exists v m',
  smap_select E 0 (VStr x) m = OOk (Some v, m') /\ get_in (UE E) m [e_builtins (UE E)] (VStr x) = OOk (Some v, m').
Proof.
  intros K. destruct (proj1 (known E x m (ident_no_nul x Id)) K) as (v & m' & Q). exists v, m'. split; [exact Q|].
  change (e_builtins (UE E)) with (Some (VRef B)). cbn [get_in]. rewrite name_select, Q. reflexivity.
Qed.
Lemma name_other : ~ (exists name, In name known_names /\ x = bytes_of name) ->
  get_in (UE E) m [e_builtins (UE E)] (VStr x) = OOk (last_stored veqb H36 (VStr x), m).
Proof.
  intros K. pose proof (proj2 (known E x m (ident_no_nul x Id)) K) as Q.
  change (e_builtins (UE E)) with (Some (VRef B)). cbn [get_in]. rewrite name_select, Q. cbn [obind fst snd].
  destruct (filled_sel 13 H36 M36 filled36) as [_ S]. rewrite (S m (VStr x) Pe (ident_good x Id)). cbn [obind fst snd].
  destruct (last_stored veqb H36 (VStr x)); reflexivity.
Qed.
End Names.

Lemma prelude_idents : Forall (fun name => ident (bytes_of name)) prelude_names.
Proof. repeat constructor; vm_compute; try discriminate; reflexivity. Qed.

Lemma prelude_keys : map fst H36 = map (fun name => VStr (bytes_of name)) prelude_names.
Proof. reflexivity. Qed.

Lemma stored_none h k : Forall (fun kv => veqb k (fst kv) = false) h -> last_stored (V := value) veqb h k = None.
Proof.
  unfold last_stored. intros F. assert (G : forall acc : option value, fold_left (fun acc kv => if veqb k (fst kv) then Some (snd kv) else acc) h acc = acc).
  { induction F as [|kv h A F IH]; intros acc; cbn [fold_left]; [reflexivity|]. rewrite A. apply IH. }
  apply G.
Qed.
Lemma stored_some h k : Exists (fun kv => veqb k (fst kv) = true) h -> exists v, last_stored (V := value) veqb h k = Some v.
Proof.
  unfold last_stored. assert (G : forall h acc, acc <> None \/ Exists (fun kv => veqb k (fst kv) = true) h ->
    exists v : value, fold_left (fun acc kv => if veqb k (fst kv) then Some (snd kv) else acc) h acc = Some v).
  { clear h. induction h as [|kv h IH]; intros acc H; cbn [fold_left].
    - destruct H as [H|H]; [destruct acc; [eauto|congruence]|inversion H].
    - apply IH. destruct (veqb k (fst kv)) eqn:Q; [left; discriminate|]. destruct H as [H|H]; [now left|]. inversion H; subst; [congruence|now right]. }
  intros H. apply G. now right.
Qed.

Lemma names_prelude E m x : m_pend m = false -> has_prelude m -> ident x ->
  ((exists name, In name known_names /\ x = bytes_of name) -> exists v m',
    smap_select E 0 (VStr x) m = OOk (Some v, m') /\ get_in (UE E) m [e_builtins (UE E)] (VStr x) = OOk (Some v, m')) /\
  ((exists name, In name prelude_names /\ x = bytes_of name) -> exists v, get_in (UE E) m [e_builtins (UE E)] (VStr x) = OOk (Some v, m)) /\
  (~ (exists name, In name (known_names ++ prelude_names) /\ x = bytes_of name) ->
    get_in (UE E) m [e_builtins (UE E)] (VStr x) = OOk (None, m)).
Proof.
  intros Pe Hp Id. split; [|split].
  - intros K. exact (name_basic E m x Pe Hp Id K).
  - intros (name & Hin & ->). rewrite name_other; auto.
    + destruct (stored_some H36 (VStr (bytes_of name))) as [v Q]; [|rewrite Q; eauto].
      assert (Hm : In (VStr (bytes_of name)) (map fst H36)) by (rewrite prelude_keys; now apply (in_map (fun n => VStr (bytes_of n)))).
      apply in_map_iff in Hm. destruct Hm as (kv & A & Hk). apply Exists_exists. exists kv. split; [exact Hk|]. rewrite A. apply veqb_refl, ident_good, Id.
    + intros (other & Ho & Eq). revert Hin Ho Eq. clear. intros Hin Ho.
      assert (X : forallb (fun a => forallb (fun c => negb (name_eqb (bytes_of a) (bytes_of c))) known_names) prelude_names = true) by (vm_compute; reflexivity).
      rewrite forallb_forall in X. specialize (X _ Hin). rewrite forallb_forall in X. specialize (X _ Ho). intros Eq. unfold name_eqb in X.
      destruct (list_eq_dec Z.eq_dec (bytes_of name) (bytes_of other)); [discriminate|contradiction].
  - intros N. rewrite name_other; auto.
    + f_equal. f_equal. apply stored_none. apply Forall_forall. intros kv Hk. destruct (veqb (VStr x) (fst kv)) eqn:Q; [|reflexivity]. exfalso. apply N.
      assert (Hm : In (fst kv) (map fst H36)) by now apply in_map. rewrite prelude_keys in Hm. apply in_map_iff in Hm. destruct Hm as (name & A & Hn).
      exists name. split; [apply in_or_app; now right|]. rewrite <- A in Q. rewrite ident_veqb in Q; auto.
      * unfold name_eqb in Q. destruct (list_eq_dec Z.eq_dec x (bytes_of name)); [assumption|discriminate].
      * pose proof prelude_idents as F. rewrite Forall_forall in F. now apply F.
    + intros (name & A & Q). apply N. exists name. split; [apply in_or_app; now left|exact Q].
Qed.

(** What is plugged later does not hide what was there before. *)
Lemma plug_basic E m v b x : nth_error (m_objs m) b = Some (OSMap 0) -> m_pend m = false -> ident x ->
  (exists name, In name known_names /\ x = bytes_of name) ->
  let (c, m1) := plug m v (VRef b) in exists w m2, smap_select E 0 (VStr x) m1 = OOk (Some w, m2) /\
  get_in (std_env E (Some c)) m1 [Some c] (VStr x) = OOk (Some w, m2).
Proof.
  intros Hb Pe Id K. unfold plug, alloc. cbn [get_in]. unfold select_of, depth. cbn [obj_select m_objs].
  rewrite nth_error_app2 by lia. rewrite Nat.sub_diag. cbn [nth_error].
  assert (Lb : (b < length (m_objs m))%nat) by (apply nth_error_Some; congruence).
  rewrite app_length. cbn [length]. rewrite Nat.add_1_r. cbn [obj_select m_objs]. rewrite nth_error_app1 by exact Lb. rewrite Hb. cbn [std_env e_smap].
  destruct (proj1 (known E x (mkmem (m_objs m ++ [OClosure (Some v) (VRef b)]) (m_pend m)) (ident_no_nul x Id)) K) as (w & m' & Q).
  exists w, m'. split; [exact Q|]. rewrite Q. cbn [obind fst snd]. rewrite (smap_pend E _ _ _ _ Q). cbn [m_pend]. rewrite Pe. reflexivity.
Qed.

(** * Calls by name *)
Lemma call_found E f name args extra cx l code clo ps body : ident (bytes_of name) ->
  (exists c, In c prelude_names /\ bytes_of name = bytes_of c) -> last_stored veqb H36 (VStr (bytes_of name)) = Some (VRef l) ->
  nth_error P l = Some (OFun code (VRef clo)) -> nth_error C code = Some (ps, body) ->
  call_named E f name args (Out extra cx) =
  obind (run_call_n (UE E) f ps body (adjust (params_len ps) args) (VRef clo) (Out extra cx)) (fun r => obind (results 1 (fst r)) (fun ws => OOk (ws, snd r))).
Proof.
  intros Id Hn Hs Hl Hc. unfold call_named.
  assert (G : get_in (UE E) (t_mem (Out extra cx)) [e_builtins (UE E)] (VStr (bytes_of name)) = OOk (Some (VRef l), t_mem (Out extra cx))).
  { rewrite name_other; [rewrite Hs; reflexivity|reflexivity|apply has_app|exact Id|].
    intros (other & Ho & Eq). destruct Hn as (c & Hin & Ec).
    assert (X : forallb (fun a => forallb (fun c => negb (name_eqb (bytes_of a) (bytes_of c))) known_names) prelude_names = true) by (vm_compute; reflexivity).
    rewrite forallb_forall in X. specialize (X _ Hin). rewrite forallb_forall in X. specialize (X _ Ho). unfold name_eqb in X.
    destruct (list_eq_dec Z.eq_dec (bytes_of c) (bytes_of other)); [discriminate|congruence]. }
  rewrite G. cbn [obind fst snd]. unfold call.
  assert (nth_error (m_objs (t_mem (put_mem (Out extra cx) (t_mem (Out extra cx))))) l = Some (OFun code (VRef clo))) as -> by (apply nth_pre; assumption).
  assert (nth_error (t_codes (put_mem (Out extra cx) (t_mem (Out extra cx)))) code = Some (ps, body)) as -> by (apply nth_pre; assumption).
  change (put_mem (Out extra cx) (t_mem (Out extra cx))) with (Out extra cx).
  destruct (run_call_n _ _ _ _ _ _ _) as [[rs st]| | | |]; reflexivity.
Qed.
Ltac found_call l code clo f := 
  rewrite (call_found _ _ _ _ _ _ l code clo (fst f) (snd f)); [| |eexists; split; [|reflexivity]; cbn; tauto|vm_compute; reflexivity|vm_compute; reflexivity|vm_compute; reflexivity];
  [|repeat constructor; vm_compute; try discriminate; reflexivity].

Definition fn_ifd := Eval vm_compute in nth 13 C (ANil, SBreak).
Definition fn_call := Eval vm_compute in nth 14 C (ANil, SBreak).
Definition fn_app := Eval vm_compute in nth 15 C (ANil, SBreak).
Definition fn_min := Eval vm_compute in nth 17 C (ANil, SBreak).
Definition fn_max := Eval vm_compute in nth 18 C (ANil, SBreak).
Definition NS_ifd := Eval vm_compute in [b "char"; b "res"].
Definition NS_x := Eval vm_compute in [b "x"].
Definition NS_app := Eval vm_compute in [b "item"; b "array"].
Definition NS_min := Eval vm_compute in [b "y"; b "x"].
Lemma gets_ifd : gets NS_ifd. Proof. frame_get. Qed.
Lemma sets_ifd : sets NS_ifd. Proof. frame_set. Qed.
Lemma gets_x : gets NS_x. Proof. frame_get. Qed.
Lemma sets_x : sets NS_x. Proof. frame_set. Qed.
Lemma gets_app : gets NS_app. Proof. frame_get. Qed.
Lemma sets_app : sets NS_app. Proof. frame_set. Qed.
Lemma gets_min : gets NS_min. Proof. frame_get. Qed.
Lemma sets_min : sets NS_min. Proof. frame_set. Qed.
Ltac frames ::= first [exact gets_abs|exact sets_abs|exact gets_ifd|exact sets_ifd|exact gets_x|exact sets_x|exact gets_app|exact sets_app|exact gets_min|exact sets_min].

(** * The sum types of the prelude *)
Lemma is_sum objs t a c v : nth_error objs t = Some (OSum (VType a) (VType c)) ->
  is_type (mkmem objs false) (VRef t) v = OOk (tyname_eqb (type_of (rt_of objs) v) a || tyname_eqb (type_of (rt_of objs) v) c, mkmem objs false).
Proof.
  intros H. unfold is_type, type_depth. cbn [m_objs m_pend].
  assert (G : forall k, is_type_of (S (S k)) (mkmem objs false) false (VRef t) v =
    OOk (tyname_eqb (type_of (rt_of objs) v) a || tyname_eqb (type_of (rt_of objs) v) c, false)).
  { intros k. cbn [is_type_of m_objs]. rewrite H. cbn [is_type_of obind fst snd m_objs]. destruct (tyname_eqb (type_of (rt_of objs) v) a); reflexivity. }
  destruct objs as [|o objs]; [destruct t; discriminate|]. cbn [length Nat.mul Nat.add]. rewrite G. reflexivity.
Qed.
Lemma type_more objs r v : (match v with VRef l => (l < length objs)%nat | _ => True end) -> type_of (rt_of (objs ++ r)) v = type_of (rt_of objs) v.
Proof. destruct v; try reflexivity. intros H. cbn [type_of]. unfold rt_of. now rewrite nth_error_app1. Qed.

(** * abs *)
Lemma num_type extra v : is_type (mkmem (P ++ extra) false) (VRef 7) v =
  OOk (tyname_eqb (type_of (rt_of (P ++ extra)) v) TyInt || tyname_eqb (type_of (rt_of (P ++ extra)) v) TyFloat, mkmem (P ++ extra) false).
Proof. apply is_sum. apply nth_pre. vm_compute. reflexivity. Qed.

Lemma x_par E ac name t r args sc st0 st st1 v typ : bind_params (UE E) ac r args sc st0 = OOk st ->
  eval (UE E) ac MVal t [] sc st = OOk ([typ], st1) -> is_type (t_mem st1) typ v = OOk (false, t_mem st1) ->
  bind_params (UE E) ac (ACons name (OYes t) ONo r) (v :: args) sc st0 = bad true.
Proof. intros H0 H1 H2. cbn [bind_params]. rewrite H0. cbn [obind]. rewrite H1. cbn [obind]. rewrite H2. reflexivity. Qed.
Lemma x_runp E n NS ps body args c extra cx :
  bind_params (UE E) (run_call_n (UE E) n) ps args (Sc extra c) (St NS 8 [] extra [] cx) = bad true ->
  run_call_n (UE E) (S n) ps body args (VRef c) (Out extra cx) = bad true.
Proof.
  intros H1.
  change (run_call_n (UE E) (S n) ps body args (VRef c) (Out extra cx)) with (run_call (UE E) (run_stmt_n (UE E) n) (run_call_n (UE E) n) ps body args (VRef c) (Out extra cx)).
  unfold run_call.
  rewrite (surjective_pairing (alloc (t_mem (Out extra cx)) (OMap (new_map (-1))))), (new_locals P C NS extra cx).
  change (fst (alloc (t_mem (Out extra cx)) (OMap (new_map (-1))))) with (VRef (length (P ++ extra))).
  change (put_mem (Out extra cx) (t_mem (St NS 8 [] extra [] cx))) with (St NS 8 [] extra [] cx).
  fold (Sc extra c). rewrite H1. reflexivity.
Qed.

Lemma x_un E ac k m op a xs sc st st1 v : eval (UE E) ac MVal a [] sc st = OOk ([v], st1) -> unary_op (unop_code op) (t_mem st1) v = bad k ->
  eval (UE E) ac m (EUn op a) xs sc st = bad k.
Proof. intros H1 H2. cbn [eval]. rewrite H1. cbn [obind]. rewrite H2. apply bad_bind. Qed.

Lemma abs_call E f z st : with_prelude st -> - 2^63 < z < 2^63 -> (1 <= f)%nat -> exists st',
  call_named E f "abs" [VInt z] st = OOk ([VInt (Z.abs z)], st') /\ grown_from (t_mem st) (t_mem st').
Proof.
  intros (extra & cx & ->) Hz Hf. destruct f as [|f]; [lia|]. change (mkst (mkmem (P ++ extra) false) (C ++ cx)) with (Out extra cx).
  destruct (abs_ok E f extra cx z Hz) as [t A]. exists (Out (extra ++ t) cx). split.
  - found_call 48%nat 16%nat 47%nat fn_abs. change (adjust (params_len (fst fn_abs)) [VInt z]) with [VInt z]. rewrite A. reflexivity.
  - exists t. unfold PreludeRun.Out. cbn [t_mem m_objs m_pend]. rewrite app_assoc. auto.
Qed.

Lemma abs_min E f st : with_prelude st -> (1 <= f)%nat -> call_named E f "abs" [VInt (- 2^63)] st = OUB.
Proof.
  intros (extra & cx & ->) Hf. destruct f as [|f]; [lia|]. change (mkst (mkmem (P ++ extra) false) (C ++ cx)) with (Out extra cx).
  found_call 48%nat 16%nat 47%nat fn_abs. change (adjust (params_len (fst fn_abs)) [VInt (- 2^63)]) with [VInt (- 2^63)].
  assert (run_call_n (UE E) (S f) (fst fn_abs) (snd fn_abs) [VInt (- 2^63)] (VRef 47) (Out extra cx) = bad false) as ->; [|reflexivity].
  unfold fn_abs. cbn [fst snd]. eapply (x_run E false f NS_abs).
  - eapply r_par; [apply r_par0|split; [glob g_num|apply num_type]|put].
  - apply s_comp. eapply x_stop. eapply s_if_t.
    { eapply r_op; [get|apply r_int|apply o_lss; vm_compute; intuition congruence]. }
    eapply x_ret. eapply x_un; [get|reflexivity].
Qed.

Lemma abs_flt E f a st : with_prelude st -> (1 <= f)%nat -> exists st',
  call_named E f "abs" [VFloat a] st = OOk ([VFloat (if f_lt a (f_of_int 0) then f_neg a else a)], st') /\ grown_from (t_mem st) (t_mem st').
Proof.
  intros (extra & cx & ->) Hf. destruct f as [|f]; [lia|]. change (mkst (mkmem (P ++ extra) false) (C ++ cx)) with (Out extra cx).
  assert (A : exists t, run_call_n (UE E) (S f) (fst fn_abs) (snd fn_abs) [VFloat a] (VRef 47) (Out extra cx) =
    OOk ([VFloat (if f_lt a (f_of_int 0) then f_neg a else a)], Out (extra ++ t) cx)).
  { destruct (f_lt a (f_of_int 0)) eqn:Q; eexists; unfold fn_abs; cbn [fst snd]; etransitivity.
    - eapply (c_run P C B E f NS_abs).
      + eapply r_par; [apply r_par0|split; [glob g_num|apply num_type]|put].
      + apply s_comp. eapply s_stop. eapply s_if_t.
        { eapply r_op; [get|apply r_int|]. cbn [binop_code binary_op rel_op rel_flt]. rewrite Q. reflexivity. }
        eapply s_ret. eapply r_un; [get|]. reflexivity.
      + reflexivity.
    - reflexivity.
    - eapply (c_run P C B E f NS_abs).
      + eapply r_par; [apply r_par0|split; [glob g_num|apply num_type]|put].
      + apply s_comp. eapply s_next.
        { eapply s_if_f. eapply r_op; [get|apply r_int|]. cbn [binop_code binary_op rel_op rel_flt]. rewrite Q. reflexivity. }
        eapply s_stop. eapply s_ret. get.
      + reflexivity.
    - reflexivity. }
  destruct A as [t A]. exists (Out (extra ++ t) cx). split.
  - found_call 48%nat 16%nat 47%nat fn_abs. change (adjust (params_len (fst fn_abs)) [VFloat a]) with [VFloat a]. rewrite A. reflexivity.
  - exists t. unfold PreludeRun.Out. cbn [t_mem m_objs m_pend]. rewrite app_assoc. auto.
Qed.

Lemma tyname_neq a c : a <> c -> tyname_eqb a c = false.
Proof. destruct a, c; try reflexivity; congruence. Qed.

Lemma abs_other E f v st : with_prelude st -> (1 <= f)%nat -> within (t_mem st) v ->
  type_of (rt_of (m_objs (t_mem st))) v <> TyInt -> type_of (rt_of (m_objs (t_mem st))) v <> TyFloat -> call_named E f "abs" [v] st = OErr.
Proof.
  intros (extra & cx & ->) Hf W N1 N2. destruct f as [|f]; [lia|]. change (mkst (mkmem (P ++ extra) false) (C ++ cx)) with (Out extra cx).
  found_call 48%nat 16%nat 47%nat fn_abs. change (adjust (params_len (fst fn_abs)) [v]) with [v].
  assert (run_call_n (UE E) (S f) (fst fn_abs) (snd fn_abs) [v] (VRef 47) (Out extra cx) = bad true) as ->; [|reflexivity].
  unfold fn_abs. cbn [fst snd]. eapply (x_runp E f NS_abs). eapply x_par; [apply r_par0|glob g_num|].
  unfold PreludeRun.St. cbn [t_mem]. rewrite num_type. f_equal. f_equal. cbn [t_mem m_objs] in N1, N2.
  rewrite app_assoc. rewrite type_more by (destruct v; cbn in W; auto). now rewrite !tyname_neq.
Qed.

(** The sign bit. *)
Lemma neg_bits a : is_bits a -> is_bits (f_neg a).
Proof. unfold is_bits, f_neg. intros H. destruct (Z.leb_spec (2^63) a); lia. Qed.
Lemma neg_decode a : is_bits a -> f_decode (f_neg a) = SFopp (f_decode a).
Proof.
  unfold is_bits, f_neg, f_decode. intros H.
  assert (M : forall x, (x + 2^63) mod 2^52 = x mod 2^52).
  { intros x. change (2^63) with (2048 * 2^52). now rewrite Z_mod_plus_full. }
  assert (D : forall x, ((x + 2^63) / 2^52) mod 2048 = (x / 2^52) mod 2048).
  { intros x. change (2^63) with (2048 * 2^52). rewrite Z_div_plus_full by (vm_compute; discriminate). replace (x / 2^52 + 2048) with (x / 2^52 + 1 * 2048) by lia. now rewrite Z_mod_plus_full. }
  destruct (Z.leb_spec (2^63) a).
  - assert (Q : (2^63 <=? a - 2^63) = false) by (apply Z.leb_gt; lia). rewrite Q.
    specialize (M (a - 2^63)). specialize (D (a - 2^63)). replace (a - 2^63 + 2^63) with a in * by lia. rewrite <- M, <- D.
    destruct ((a / 2^52) mod 2048 =? 0); [destruct (a mod 2^52); reflexivity|]. destruct ((a / 2^52) mod 2048 =? 2047); [destruct (a mod 2^52 =? 0); reflexivity|].
    destruct (a mod 2^52 + 2^52); reflexivity.
  - assert (Q : (2^63 <=? a + 2^63) = true) by (apply Z.leb_le; lia). rewrite Q, M, D.
    destruct ((a / 2^52) mod 2048 =? 0); [destruct (a mod 2^52); reflexivity|]. destruct ((a / 2^52) mod 2048 =? 2047); [destruct (a mod 2^52 =? 0); reflexivity|].
    destruct (a mod 2^52 + 2^52); reflexivity.
Qed.

Lemma abs_float E f a st : with_prelude st -> (1 <= f)%nat -> is_bits a -> f_decode a <> S754_zero true -> exists c st',
  call_named E f "abs" [VFloat a] st = OOk ([VFloat c], st') /\ is_bits c /\ f_decode c = SFabs (f_decode a) /\ grown_from (t_mem st) (t_mem st').
Proof.
  intros W Hf Ha N. destruct (abs_flt E f a st W Hf) as (st' & H & G). eexists. exists st'. split; [exact H|].
  change (f_of_int 0) with 0. unfold f_lt. change (f_decode 0) with (S754_zero false).
  split; [|split; [|exact G]].
  - destruct (SFltb _ _); [now apply neg_bits|exact Ha].
  - destruct (SFltb (f_decode a) (S754_zero false)) eqn:Q.
    + rewrite neg_decode by exact Ha. destruct (f_decode a) as [[]|[]| |[] m e]; try discriminate; reflexivity.
    + destruct (f_decode a) as [[]|[]| |[] m e]; try discriminate; try reflexivity. congruence.
Qed.
Lemma abs_zero E f st : with_prelude st -> (1 <= f)%nat -> exists st', f_decode (2^63) = S754_zero true /\
  call_named E f "abs" [VFloat (2^63)] st = OOk ([VFloat (2^63)], st').
Proof.
  intros W Hf. destruct (abs_flt E f (2^63) st W Hf) as (st' & H & G). exists st'. split; [reflexivity|]. rewrite H. reflexivity.
Qed.

(** * min and max *)
Definition pick_ps := fst fn_min.
Definition pick_body (op : binop) : stmt :=
  SComp (SCons (SIf (EBin op (EIdent (b "x")) (EIdent (b "y"))) (SReturn (EIdent (b "x")))) (SCons (SReturn (EIdent (b "y"))) SNil)).

Lemma pick_true E n op x y c extra cx : (forall m, binary_op (binop_code op) m x y = OOk (VBool true, m)) -> exists t,
  run_call_n (UE E) (S n) pick_ps (pick_body op) [x; y] (VRef c) (Out extra cx) = OOk ([x], Out (extra ++ t) cx).
Proof.
  intros H. eexists. etransitivity.
  { eapply (c_run P C B E n NS_min).
    - eapply r_par with (typ := VNone); [eapply r_par with (typ := VNone); [apply r_par0|reflexivity|put]|reflexivity|put].
    - apply s_comp. eapply s_stop. eapply s_if_t; [eapply r_op; [get|get|apply H]|]. eapply s_ret. get.
    - reflexivity. }
  reflexivity.
Qed.
Lemma pick_false E n op x y c extra cx : (forall m, binary_op (binop_code op) m x y = OOk (VBool false, m)) -> exists t,
  run_call_n (UE E) (S n) pick_ps (pick_body op) [x; y] (VRef c) (Out extra cx) = OOk ([y], Out (extra ++ t) cx).
Proof.
  intros H. eexists. etransitivity.
  { eapply (c_run P C B E n NS_min).
    - eapply r_par with (typ := VNone); [eapply r_par with (typ := VNone); [apply r_par0|reflexivity|put]|reflexivity|put].
    - apply s_comp. eapply s_next; [eapply s_if_f; eapply r_op; [get|get|apply H]|]. eapply s_stop. eapply s_ret. get.
    - reflexivity. }
  reflexivity.
Qed.
Lemma x_if E k n c t sc st : eval (UE E) (run_call_n (UE E) n) MVal c [] sc st = bad k ->
  run_stmt (UE E) (run_stmt_n (UE E) n) (run_call_n (UE E) n) (SIf c t) sc st = bad k.
Proof. intros H. cbn [run_stmt]. rewrite H. apply bad_bind. Qed.
Lemma pick_bad E n op x y c extra cx k : (forall m, binary_op (binop_code op) m x y = bad k) ->
  run_call_n (UE E) (S n) pick_ps (pick_body op) [x; y] (VRef c) (Out extra cx) = bad k.
Proof.
  intros H. eapply (x_run E k n NS_min).
  - eapply r_par with (typ := VNone); [eapply r_par with (typ := VNone); [apply r_par0|reflexivity|put]|reflexivity|put].
  - apply s_comp. eapply x_stop. eapply x_if. eapply x_op; [get|get|apply H].
Qed.

(** What [min] and [max] do: the operator decides. *)
Definition picks (op : opcode) (x y : value) (run : out (list value * sst)) (m : mem) : Prop :=
  match rel_op op x y with
  | ROk r => exists st', run = OOk ([if r then x else y], st') /\ grown_from m (t_mem st')
  | RErr => run = OErr
  | RUB => run = OUB
  end.
Lemma pick_call E n op oc x y extra cx c name : binop_code op = oc -> oc = OP_LSS \/ oc = OP_GRT ->
  call_named E (S n) name [x; y] (Out extra cx) = obind (run_call_n (UE E) (S n) pick_ps (pick_body op) [x; y] (VRef c) (Out extra cx)) (fun r => obind (results 1 (fst r)) (fun ws => OOk (ws, snd r))) ->
  picks oc x y (call_named E (S n) name [x; y] (Out extra cx)) (t_mem (Out extra cx)).
Proof.
  intros Ho Hc ->.
  assert (Hb : forall m, binary_op (binop_code op) m x y = obind (of_res (rel_op oc x y)) (fun r => OOk (VBool r, m))) by (intros m; rewrite Ho; destruct Hc as [-> | ->]; reflexivity).
  unfold picks. destruct (rel_op oc x y) as [[|]| |]; cbn [of_res obind] in Hb.
  - destruct (pick_true E n op x y c extra cx Hb) as [t A]. rewrite A. eexists. split; [reflexivity|].
    exists t. unfold PreludeRun.Out. cbn [fst snd t_mem m_objs m_pend]. rewrite app_assoc. auto.
  - destruct (pick_false E n op x y c extra cx Hb) as [t A]. rewrite A. eexists. split; [reflexivity|].
    exists t. unfold PreludeRun.Out. cbn [fst snd t_mem m_objs m_pend]. rewrite app_assoc. auto.
  - rewrite (pick_bad E n op x y c extra cx true Hb). reflexivity.
  - rewrite (pick_bad E n op x y c extra cx false Hb). reflexivity.
Qed.
Lemma min_call E f x y st : with_prelude st -> (1 <= f)%nat -> picks OP_LSS x y (call_named E f "min" [x; y] st) (t_mem st).
Proof.
  intros (extra & cx & ->) Hf. destruct f as [|f]; [lia|]. change (mkst (mkmem (P ++ extra) false) (C ++ cx)) with (Out extra cx).
  apply (pick_call E f BLss OP_LSS x y extra cx 49 "min"); [reflexivity|now left|]. found_call 50%nat 17%nat 49%nat fn_min. reflexivity.
Qed.
Lemma max_call E f x y st : with_prelude st -> (1 <= f)%nat -> picks OP_GRT x y (call_named E f "max" [x; y] st) (t_mem st).
Proof.
  intros (extra & cx & ->) Hf. destruct f as [|f]; [lia|]. change (mkst (mkmem (P ++ extra) false) (C ++ cx)) with (Out extra cx).
  apply (pick_call E f BGrt OP_GRT x y extra cx 51 "max"); [reflexivity|now right|]. found_call 52%nat 18%nat 51%nat fn_max. reflexivity.
Qed.

Lemma min_ints E f x y st : with_prelude st -> (1 <= f)%nat -> exists st', call_named E f "min" [VInt x; VInt y] st = OOk ([VInt (Z.min x y)], st') /\ grown_from (t_mem st) (t_mem st').
Proof.
  intros W Hf. destruct (min_call E f (VInt x) (VInt y) st W Hf) as (st' & H & G). exists st'. split; [|exact G]. rewrite H.
  do 4 f_equal. cbn [rel_op rel_int]. destruct (Z.ltb_spec x y); f_equal; lia.
Qed.
Lemma max_ints E f x y st : with_prelude st -> (1 <= f)%nat -> exists st', call_named E f "max" [VInt x; VInt y] st = OOk ([VInt (Z.max x y)], st') /\ grown_from (t_mem st) (t_mem st').
Proof.
  intros W Hf. destruct (max_call E f (VInt x) (VInt y) st W Hf) as (st' & H & G). exists st'. split; [|exact G]. rewrite H.
  do 4 f_equal. cbn [rel_op rel_int]. destruct (Z.ltb_spec y x); f_equal; lia.
Qed.
