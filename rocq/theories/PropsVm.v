(** Properties C27-C32 (compiled programs on the machine) and C39 (variables). *)
From Coq Require Import ZArith List Lia Bool String.
From Verif Require Import Base StringModel ValueModel MapModel MapSpec MapProofs MapProofs2 ListModel ExeModel ArithModel ObjModel AstModel CodegenModel FrameModel
  VmModel SrcModel CompSpec RunProofs BalanceSpec BalanceProofs ScopeSpec ScopeProofs LogicProofs CallProofs VmExamples.
Import ListNotations.
Open Scope Z_scope.

(** ** C27: jump targets and function entries are instruction indices, and no run reports an internal inconsistency. *)
Theorem C27_targets_valid : forall root x, compiled root x ->
  forall i op ops t, 0 <= i -> exe_fetch x i = ROk (Some (op, ops)) -> In (PIdx t) ops ->
  exists op' ops', exe_fetch x t = ROk (Some (op', ops')).
Proof. intros root x Hx i op ops t Hi Hf Ht. exact (targets root x Hx i op ops t Hf Hi Ht). Qed.

Theorem C27_never_invalid : forall root x, compiled root x ->
  forall E cap m j, steps E cap x j (vm_start m) <> SBad.
Proof. intros root x Hx E cap m j. exact (never_bad E cap root x Hx m j). Qed.

Example C27_example : compiled prog1 (exe_of prog1) /\
  exe_fetch (exe_of prog1) 0 = ROk (Some (OP_PUSHFUN, [PIdx 2; PInt 2; PStr (str "add")])) /\
  exe_fetch (exe_of prog1) 2 = ROk (Some (OP_ASS, [PStr (str "b")])).
Proof. split; [exact prog1_compiled|]. split; vm_compute; reflexivity. Qed.

(** ** C28: a number of values [D i] belongs to every instruction index such that every instruction finds its operands, leaves what
    its successors expect, RETURN n finds exactly n values and EXIT none; and every state of every run has that number. *)
Theorem C28_balanced : forall root x, compiled root x ->
  exists D, (forall pc op ops, 0 <= pc -> exe_fetch x pc = ROk (Some (op, ops)) -> flow D pc op ops) /\
    forall E cap m j s, steps E cap x j (vm_start m) = SNext s ->
      0 <= f_pc (v_cur s) /\ Z.of_nat (List.length (f_stack (v_cur s))) = D (f_pc (v_cur s)).
Proof. intros root x Hx. exact (compiled_balanced root x Hx). Qed.

(** In particular a function's return instruction finds exactly the values it returns, and the program's end none. *)
Theorem C28_returns_exactly : forall root x, compiled root x ->
  forall E cap m j s n, steps E cap x j (vm_start m) = SNext s ->
    (exe_fetch x (f_pc (v_cur s)) = ROk (Some (OP_RETURN, [PInt n])) -> Z.of_nat (List.length (f_stack (v_cur s))) = n) /\
    (exe_fetch x (f_pc (v_cur s)) = ROk (Some (OP_EXIT, [])) -> f_stack (v_cur s) = []).
Proof.
  intros root x Hx E cap m j s n Hs. destruct (compiled_balanced root x Hx) as (D & Hflow & Hrun).
  destruct (Hrun E cap m j s Hs) as [Hpc Hd]. split; intros Hf; specialize (Hflow _ _ _ Hpc Hf); cbn in Hflow.
  - lia.
  - destruct (f_stack (v_cur s)); [reflexivity|]. cbn in Hd. lia.
Qed.

Example C28_example : compiled prog_scopes (exe_of prog_scopes) /\
  exists j s, steps env0 100 (exe_of prog_scopes) j (vm_start mem0) = SNext s /\
    exe_fetch (exe_of prog_scopes) (f_pc (v_cur s)) = ROk (Some (OP_RETURN, [PInt 3])) /\
    f_stack (v_cur s) = [VInt 9; VInt 7; VInt 1] /\ List.length (v_rest s) = 2%nat.
Proof.
  split; [exact prog_scopes_compiled|]. exists 27%nat.
  destruct (steps env0 100 (exe_of prog_scopes) 27 (vm_start mem0)) as [s| | | | | |] eqn:Es; try (vm_compute in Es; discriminate Es).
  exists s. split; [reflexivity|]. vm_compute in Es. injection Es as <-. vm_compute. auto.
Qed.

(** ** C29: the machine does what direct evaluation of the tree does, unless it reports a limit. *)
Theorem C29_simulates : forall root x, compiled root x -> forall E cap m n,
  (exists j, steps E cap x j (vm_start m) = SLimit) \/
  match run_program E n root m with
  | OOk (rets, st) => exists j, steps E cap x j (vm_start m) = SDone rets (t_mem st)
  | OErr => exists j, steps E cap x j (vm_start m) = SErr
  | OUB => exists j, steps E cap x j (vm_start m) = SUB
  | OLoop => exists j, steps E cap x j (vm_start m) = SLoop
  | OFuel => (exists j, steps E cap x j (vm_start m) = SLoop) \/ exists s, steps E cap x n (vm_start m) = SNext s
  end.
Proof. intros root x Hx E cap m n. exact (runs E cap root x Hx m n). Qed.

(** Conversely, what a run of the machine ends with is what evaluation gives, with any amount of fuel from some point on. *)
Theorem C29_evaluates : forall root x, compiled root x -> forall E cap m j r,
  steps E cap x j (vm_start m) = r -> (forall t, r <> SNext t) -> r <> SLimit -> r <> SLoop -> forall n, (j <= n)%nat ->
  match run_program E n root m with
  | OOk (rets, st) => r = SDone rets (t_mem st)
  | OErr => r = SErr
  | OUB => r = SUB
  | _ => False
  end.
Proof. intros root x Hx E cap m j r H1 H2 H3 H4 n Hn. exact (run_evaluates E cap root x Hx m j r H1 H2 H3 H4 n Hn). Qed.

Example C29_example : compiled prog1 (exe_of prog1) /\
  outcome (steps env0 100 (exe_of prog1) 200 (vm_start mem0)) = SDone [VInt 3; VInt 7] mem0 /\
  match run_program env0 50 prog1 mem0 with OOk (rets, _) => rets = [VInt 3; VInt 7] | _ => False end.
Proof. split; [exact prog1_compiled|]. split; vm_compute; reflexivity. Qed.

(** ** C30: short circuit. [keep] = true is and, false is or. The code of the left operand ends at [qa] with its value on top; that of
    the right operand goes from [pb] to [qb]. Only the value [keep] on the left leads to [pb]; any other boolean leads past [qb] to
    the end with that boolean; a value that is not a boolean is an error. The value of the right operand at [qb] is treated alike. *)
Theorem C30_short_circuit : forall E cap x (keep : bool) a b pos,
  let e := if keep then EAnd a b else EOr a b in
  let qa := pos + size_expr MVal a in
  let pb := qa + 1 in
  let qb := pb + size_expr MVal b in
  let fin := pos + size_expr MVal e in
  has_code x pos (comp_expr MVal e pos) ->
  has_code x pos (comp_expr MVal a pos) /\ has_code x pb (comp_expr MVal b pb) /\
  (forall s v st, f_pc (v_cur s) = qa -> f_stack (v_cur s) = v :: st -> within cap s ->
     match v with
     | VBool r =>
       if Bool.eqb r keep then step E cap x s = SNext (at_pc s pb st)
       else exists mid, step E cap x s = SNext (at_pc s mid st) /\ qb <= mid < fin /\
              step E cap x (at_pc s mid st) = SNext (at_pc s fin (VBool r :: st))
     | _ => step E cap x s = SErr
     end) /\
  (forall s v st, f_pc (v_cur s) = qb -> f_stack (v_cur s) = v :: st -> within cap s ->
     match v with
     | VBool r => exists n, steps E cap x n s = SNext (at_pc s fin (VBool r :: st))
     | _ => step E cap x s = SErr
     end).
Proof. intros E cap x keep a b pos. exact (logic_code E cap x keep a b pos). Qed.

Example C30_example : let e := EAnd (EBin BEql (var "i") (EInt 3)) (EUn UNot EFalse) in
  has_code (exe_of prog1) 27 (comp_expr MVal e 27).
Proof.
  cbv zeta. split; [lia|]. split; [vm_compute; reflexivity|]. intros k i Hk.
  do 10 (destruct k as [|k]; [vm_compute in Hk; injection Hk as <-; vm_compute; reflexivity|]).
  exfalso. revert Hk. vm_compute. destruct k; discriminate.
Qed.

(** ** C31: a call starts a frame of its own with one value per parameter: argument i, or none. Its variables are a new, empty map. *)
Theorem C31_arguments : forall E cap s l c clo entry argc args want s',
  nth_error (m_objs (v_mem s)) l = Some (OFun c clo) -> nth_error (v_codes s) c = Some (entry, argc) -> 0 <= argc ->
  do_call E cap s (VRef l) args want = SNext s' ->
  f_pc (v_cur s') = entry /\ v_rest s' = v_cur s :: v_rest s /\
  (forall i, nth_error (rev (f_stack (v_cur s'))) i = if Z.of_nat i <? argc then Some (nth i args VNone) else None) /\
  f_locals (v_cur s') = VRef (List.length (m_objs (v_mem s))) /\ vars (v_mem s') (List.length (m_objs (v_mem s))) [] /\
  forall k, (k < List.length (m_objs (v_mem s)))%nat -> nth_error (m_objs (v_mem s')) k = nth_error (m_objs (v_mem s)) k.
Proof.
  intros E cap s l c clo entry argc args want s' H1 H2 H3 H4.
  destruct (call_starts E cap s l c clo entry argc args want s' H1 H2 H3 H4) as (A & B & C & D).
  rewrite A, D. cbn [f_pc f_stack f_locals m_objs]. split; [reflexivity|]. split; [exact B|].
  split; [intros i; rewrite rev_involutive; apply adjust_nth; exact H3|]. split; [reflexivity|]. split.
  - eexists. cbn [m_objs]. rewrite nth_error_app2, Nat.sub_diag by lia. split; reflexivity.
  - intros k Hk. apply nth_error_app1. exact Hk.
Qed.

(** The code of the parameters then binds name i to value i. Missing: parameters with a default value or a type (their expressions
    are covered by C29), and more than five parameters if one of the names has a negative hash (see C39). *)
Theorem C31_parameters_partial : forall E cap x ps vals i pos s l,
  plain ps -> NoDup (names ps) -> Forall ident (names ps) ->
  Z.of_nat (List.length (names ps)) <= 5 -> List.length vals = List.length (names ps) ->
  has_code x pos (comp_params i ps pos) -> f_pc (v_cur s) = pos -> f_stack (v_cur s) = rev vals -> f_locals (v_cur s) = VRef l ->
  m_pend (v_mem s) = false -> vars (v_mem s) l [] ->
  exists n s' h, steps E cap x n s = SNext s' /\ f_pc (v_cur s') = pos + size_params ps /\ f_stack (v_cur s') = [] /\
    f_locals (v_cur s') = VRef l /\ vars (v_mem s') l h /\
    (forall k name, nth_error (names ps) k = Some name -> assigned h name = Some (nth k vals VNone)) /\
    (forall k, k <> l -> nth_error (m_objs (v_mem s')) k = nth_error (m_objs (v_mem s)) k).
Proof.
  intros E cap x ps vals i pos s l Hpl Hnd Hid H5 Hlen Hcode Hpc Hst Hloc Hp Hv.
  destruct (bind_code E cap x ps vals i pos [] s l [] Hpl Hlen Hcode Hpc) as (n & s' & S1 & C1 & R1 & K1 & P1 & V1 & O1); auto.
  - rewrite app_nil_r. exact Hst.
  - cbn [app]. split; [|split].
    + apply Forall_rev. apply Forall_forall. intros [nm v] Hin. apply in_combine_l in Hin. rewrite Forall_forall in Hid. exact (Hid _ Hin).
    + pose proof (distinct_length name_eqb (removelast (rev (combine (names ps) vals)))) as D. pose proof (removelast_length (rev (combine (names ps) vals))) as Q.
      rewrite rev_length, combine_length in Q. lia.
    + left. pose proof (distinct_length name_eqb (removelast (rev (combine (names ps) vals)))) as D. pose proof (removelast_length (rev (combine (names ps) vals))) as Q.
      rewrite rev_length, combine_length in Q. lia.
  - exists n, s', (rev (combine (names ps) vals)). rewrite C1. cbn [f_pc f_stack f_locals].
    split; [exact S1|]. split; [reflexivity|]. split; [reflexivity|]. split; [reflexivity|]. split; [exact V1|]. split; [|exact O1].
    intros k name Hk. eapply bound_value; try eassumption.
    rewrite <- (nth_error_nth' vals VNone); [reflexivity|].
    assert (k < List.length (names ps))%nat by (apply nth_error_Some; congruence). lia.
Qed.

(** When a call ends, the caller's stack receives, first value lowest, the values the callee returned, as many as it asked for,
    filled up with none. *)
Theorem C31_results : forall cap s caller rest s', v_rest s = caller :: rest -> 0 <= f_want (v_cur s) ->
  finish cap s = SNext s' ->
  v_mem s' = v_mem s /\ v_rest s' = rest /\
  exists vs, v_cur s' = mkfr (f_pc caller) (rev vs ++ f_stack caller) (f_locals caller) (f_clo caller) (f_want caller) /\
    forall i, nth_error vs i = if Z.of_nat i <? f_want (v_cur s) then Some (nth i (rev (f_stack (v_cur s))) VNone) else None.
Proof. intros cap s caller rest s' H1 H2 H3. exact (call_returns cap s caller rest s' H1 H2 H3). Qed.

(** A call of a function with two parameters with one argument and one too many, and the return of three values where two and four
    are wanted. *)
Example C31_example :
  let m := mkmem [OFun 0 (VRef 1); OClosure None (VRef 2); OMap (new_map (-1))] false in
  let s want := mkvs m [(2, 2)] (mkfr 7 [VInt 5] (VRef 2) None want) [] in
  (match do_call env0 100 (s 0) (VRef 0) [VInt 1] 1 with SNext s' => f_stack (v_cur s') = [VNone; VInt 1] | _ => False end) /\
  (match do_call env0 100 (s 0) (VRef 0) [VInt 1; VInt 2; VInt 3] 1 with SNext s' => f_stack (v_cur s') = [VInt 2; VInt 1] | _ => False end) /\
  let r want := mkvs m [(2, 2)] (mkfr 3 [VInt 30; VInt 20; VInt 10] (VRef 2) None want) [v_cur (s 0)] in
  (match finish 100 (r 2) with SNext s' => f_stack (v_cur s') = [VInt 20; VInt 10; VInt 5] | _ => False end) /\
  (match finish 100 (r 4) with SNext s' => f_stack (v_cur s') = [VNone; VInt 30; VInt 20; VInt 10; VInt 5] | _ => False end) /\
  has_code (exe_of prog1) 2 (comp_params 0 (ACons (str "a") ONo ONo (ACons (str "b") ONo ONo ANil)) 2) /\
  Forall ident (names (ACons (str "a") ONo ONo (ACons (str "b") ONo ONo ANil))).
Proof.
  cbv zeta. split; [vm_compute; reflexivity|]. split; [vm_compute; reflexivity|]. split; [vm_compute; reflexivity|].
  split; [vm_compute; reflexivity|]. split.
  - split; [lia|]. split; [vm_compute; reflexivity|]. intros k i Hk.
    do 4 (destruct k as [|k]; [vm_compute in Hk; injection Hk as <-; vm_compute; reflexivity|]).
    exfalso. revert Hk. vm_compute. destruct k; discriminate.
  - repeat constructor; vm_compute; congruence.
Qed.

(** ** C32: with at most eight values delivered nothing is lost or undefined: the call ends with the caller continuing or with a
    reported limit (or the error that is pending). *)
Theorem C32_delivered_partial : forall cap s caller rest, v_rest s = caller :: rest -> m_pend (v_mem s) = false ->
  0 <= f_want (v_cur s) -> Z.min (Z.of_nat (List.length (f_stack (v_cur s)))) (f_want (v_cur s)) <= 8 ->
  finish cap s = SLimit \/
  exists s' vs, finish cap s = SNext s' /\ f_stack (v_cur s') = rev vs ++ f_stack caller /\
    firstn (Z.to_nat (f_want (v_cur s))) (rev (f_stack (v_cur s))) = firstn (List.length (f_stack (v_cur s))) vs.
Proof.
  intros cap s caller rest Hr Hp Hw H8. exact (delivered cap s caller rest Hr Hp Hw H8).
Qed.

(** Nine returned values that are all asked for are not delivered: what the caller gets is undefined. *)
Theorem C32_nine_values_refuted : exists root x, compiled root x /\ forall E m cap,
  m = mem0 -> cap = 1024 -> exists j, steps E cap x j (vm_start m) = SUB.
Proof.
  exists prog9, (exe_of prog9). split; [exact prog9_compiled|]. intros E m cap -> ->. exists 16%nat. vm_compute. reflexivity.
Qed.

Example C32_example : let m := mkmem [OMap (new_map (-1))] false in
  let callee want := mkvs m [] (mkfr 3 [VInt 30; VInt 20; VInt 10] (VRef 0) None want) [mkfr 9 [VBool true] (VRef 0) None 0] in
  (match finish 100 (callee 2) with SNext s' => f_stack (v_cur s') = [VInt 20; VInt 10; VBool true] | _ => False end).
Proof. vm_compute. reflexivity. Qed.

(** ** C39: an assignment changes the variables of the running function only, whatever the state. *)
Theorem C39_assignment_is_local : forall E cap x s name l mo s', ident name ->
  exe_fetch x (f_pc (v_cur s)) = ROk (Some (OP_ASS, [PStr name])) ->
  f_locals (v_cur s) = VRef l -> nth_error (m_objs (v_mem s)) l = Some (OMap mo) ->
  step E cap x s = SNext s' ->
  (forall k, k <> l -> nth_error (m_objs (v_mem s')) k = nth_error (m_objs (v_mem s)) k) /\
  v_rest s' = v_rest s /\ f_stack (v_cur s') = f_stack (v_cur s).
Proof.
  intros E cap x s name l mo s' Hn Hf Hl Hm. rewrite (step_fetch E cap x s _ _ Hf). unfold exec. cbn [with_pc v_cur f_stack f_locals v_mem].
  destruct (f_stack (v_cur s)) as [|v st] eqn:Es; [discriminate|]. rewrite Hl. unfold lift.
  destruct (set_var E (v_mem s) (VRef l) name v) as [m'| | | |] eqn:Ev; try discriminate. intros [= <-].
  destruct (set_var_local E _ l mo name v m' Hn Hm Ev) as (A & B & C). cbn [with_mem v_mem v_rest v_cur f_stack]. rewrite ?Es. auto.
Qed.

(** An assignment appends to the history of assignments of the running function. Missing: an assignment in a scope that already
    has five different names, one of them with a negative hash (refuted below). Assigning to four names may be repeated for ever. *)
Theorem C39_assignment_partial : forall E cap x s name l h v st, ident name ->
  exe_fetch x (f_pc (v_cur s)) = ROk (Some (OP_ASS, [PStr name])) ->
  f_locals (v_cur s) = VRef l -> f_stack (v_cur s) = v :: st -> m_pend (v_mem s) = false ->
  vars (v_mem s) l h -> tame_scope (h ++ [(name, v)]) ->
  exists s', step E cap x s = SNext s' /\ vars (v_mem s') l (h ++ [(name, v)]) /\
    (forall k hk, k <> l -> vars (v_mem s) k hk -> vars (v_mem s') k hk).
Proof.
  intros E cap x s name l h v st Hn Hf Hl Hs Hp Hv Ht. rewrite (step_fetch E cap x s _ _ Hf). unfold exec.
  cbn [with_pc v_cur f_stack f_locals v_mem]. rewrite Hs, Hl.
  destruct (set_var_vars E (v_mem s) l h name v Hp Hv Ht) as (m' & A & B & C & D & F). rewrite A. cbn [lift].
  eexists. split; [reflexivity|]. cbn [with_mem v_mem]. split; [exact B|]. intros k hk Hk (mo & Ho & Hi). exists mo.
  rewrite (F k Hk). auto.
Qed.

(** Reading a name: the last value assigned to it by the running function, else by the nearest enclosing definition, else the builtin,
    else an error. The same restriction on the scopes. *)
Theorem C39_lookup_partial : forall E cap x s name l h cs hs, ident name ->
  exe_fetch x (f_pc (v_cur s)) = ROk (Some (OP_PUSHVAR, [PStr name])) ->
  f_locals (v_cur s) = VRef l -> m_pend (v_mem s) = false -> vars (v_mem s) l h -> tame_scope h ->
  chain (v_mem s) (f_clo (v_cur s)) cs hs ->
  match visible (h :: hs) name with
  | Some v => step E cap x s = SLimit \/ exists s', step E cap x s = SNext s' /\ f_stack (v_cur s') = v :: f_stack (v_cur s) /\ v_mem s' = v_mem s
  | None =>
    match e_builtins E with
    | None => step E cap x s = SErr
    | Some b =>
      forall v m', select_of E (v_mem s) b (VStr name) = OOk (v, m') ->
      match v with
      | Some w => step E cap x s = SLimit \/ exists s', step E cap x s = SNext s' /\ f_stack (v_cur s') = w :: f_stack (v_cur s)
      | None => step E cap x s = SErr
      end
    end
  end.
Proof.
  intros E cap x s name l h cs hs Hn Hf Hl Hp Hv Ht Hc. rewrite (step_fetch E cap x s _ _ Hf). unfold exec.
  cbn [with_pc v_cur f_stack f_locals f_clo v_mem]. rewrite Hl.
  rewrite (get_var_scopes E (v_mem s) l h _ cs hs name Hp Hn Hv Ht Hc).
  destruct (visible (h :: hs) name) as [v|].
  - cbn [lift fst snd]. unfold npush, vpush. destruct (_ || _); [left; reflexivity|]. right. eexists. split; [reflexivity|]. split; reflexivity.
  - cbn [get_in]. destruct (e_builtins E) as [b|]; [|reflexivity]. intros v m' Hb. rewrite Hb. cbn [obind fst snd].
    destruct v as [w|]; cbn [lift fst snd]; [|reflexivity].
    unfold npush, vpush. destruct (_ || _); [left; reflexivity|]. right. eexists. split; [reflexivity|]. reflexivity.
Qed.

(** The program d = 1; i = 2; j = 3; o = 4; y = 5; z = 6; never ends: the sixth assignment hangs. *)
Theorem C39_six_variables_refuted : exists root x, compiled root x /\
  forall E, exists j, steps E 1024 x j (vm_start mem0) = SLoop.
Proof. exists prog_six, (exe_of prog_six). split; [exact prog_six_compiled|]. intros E. exists 40%nat. vm_compute. reflexivity. Qed.

(** A hundred assignments to four names, two of which have negative hashes. *)
Example C39_example_names : let h := List.concat (repeat [(str "d", VInt 1); (str "i", VInt 2); (str "j", VNone); (str "o", VInt 3)] 25) in
  tame_scope h /\ List.length h = 100%nat /\ ~ Forall (fun nv => 0 <= vhash (VStr (fst nv))) h /\ assigned h (str "i") = Some (VInt 2).
Proof.
  cbv zeta. split; [|split; [reflexivity|split; [|vm_compute; reflexivity]]].
  - split; [|split; [vm_compute; reflexivity|left; vm_compute; reflexivity]].
    apply Forall_forall. intros nv H. assert (X : Forall (fun nv => ident (fst nv)) [(str "d", VInt 1); (str "i", VInt 2); (str "j", VNone); (str "o", VInt 3)])
      by (repeat constructor; vm_compute; congruence).
    apply in_concat in H. destruct H as (l & Hl & Hn). apply repeat_spec in Hl. subst l. rewrite Forall_forall in X. apply X. exact Hn.
  - intros F. rewrite Forall_forall in F. cut (0 <= vhash (VStr (str "d"))); [vm_compute; congruence|]. apply (F (str "d", VInt 1)). left. reflexivity.
Qed.

(** Inside g of prog_scopes: own variable, the parameter of the enclosing function, a global; then the enclosing function's variable
    that g's assignment did not touch. *)
Example C39_example : outcome (steps env0 100 (exe_of prog_scopes) 100 (vm_start mem0)) = SDone [VInt 1; VInt 7; VInt 9; VInt 5] mem0.
Proof. vm_compute. reflexivity. Qed.
Example C39_example_hypotheses :
  exists s h, steps env0 100 (exe_of prog_scopes) 26 (vm_start mem0) = SNext s /\
    exe_fetch (exe_of prog_scopes) (f_pc (v_cur s)) = ROk (Some (OP_PUSHVAR, [PStr (str "p")])) /\ ident (str "p") /\
    f_locals (v_cur s) = VRef 6 /\ vars (v_mem s) 6 h /\ tame_scope h /\
    exists cs hs, chain (v_mem s) (f_clo (v_cur s)) cs hs /\ visible (h :: hs) (str "p") = Some (VInt 9).
Proof.
  destruct (steps env0 100 (exe_of prog_scopes) 26 (vm_start mem0)) as [s| | | | | |] eqn:Es; try (vm_compute in Es; discriminate Es).
  exists s, [(str "y", VInt 7)]. split; [reflexivity|]. vm_compute in Es. injection Es as <-.
  split; [vm_compute; reflexivity|]. split; [split; [repeat constructor; vm_compute; congruence|vm_compute; reflexivity]|].
  split; [reflexivity|]. split; [eexists; split; vm_compute; reflexivity|].
  split; [split; [repeat constructor; vm_compute; congruence|split; [vm_compute; congruence|left; vm_compute; congruence]]|].
  exists [4%nat; 1%nat], [[(str "p", VInt 9); (str "y", VInt 5); (str "g", VRef 5)]; [(str "x", VInt 1); (str "f", VRef 2)]].
  split; [|vm_compute; reflexivity].
  econstructor; [vm_compute; reflexivity|eexists; split; vm_compute; reflexivity| |econstructor; [vm_compute; reflexivity|eexists; split; vm_compute; reflexivity| |constructor]].
  all: split; [repeat constructor; vm_compute; congruence|split; [vm_compute; congruence|left; vm_compute; congruence]].
Qed.

Print Assumptions C27_targets_valid.
Print Assumptions C27_never_invalid.
Print Assumptions C28_balanced.
Print Assumptions C28_returns_exactly.
Print Assumptions C29_simulates.
Print Assumptions C29_evaluates.
Print Assumptions C30_short_circuit.
Print Assumptions C31_arguments.
Print Assumptions C31_parameters_partial.
Print Assumptions C31_results.
Print Assumptions C32_delivered_partial.
Print Assumptions C32_nine_values_refuted.
Print Assumptions C39_assignment_is_local.
Print Assumptions C39_assignment_partial.
Print Assumptions C39_lookup_partial.
Print Assumptions C39_six_variables_refuted.
