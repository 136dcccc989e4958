(** A program that imports a file and returns what it gives: proofs. *)
From Coq Require Import ZArith String List Lia Bool.
From Verif Require Import Base StringModel AstModel ValueModel MapModel ListModel ExeModel ArithModel ObjModel FrameModel SysModel SourceModel
  LexModel ParseModel CodegenModel CompileModel BuiltinModel SysProofs SourceProofs LookSpec LookProofs VmModel LimitSpec LimitProofs.
From Verif Require Import CompSpec CodegenProofs3 RunProofs BalanceProofs DepthSpec DepthProofs CallProofs BuiltinProofs NetSpec NetProofs
  CompileProofs CalcSpec FuelProofs WhileSpec WhileProofs ImportModel ImportProofs ImportMore ImportTold.
Import ListNotations.
Open Scope Z_scope.

(** [return import('…');] *)
Definition importer (file : list Z) : stmts := SCons (SReturn (ECall (EIdent (bytes_of "import")) (ECons (EStr file) ENil))) SNil.

Section Main.
Variables (E0 : env) (size : Z) (cwd : option (list Z)) (fs : list Z -> option (list Z)) (big : Z).
Hypothesis Hsize : 256 <= size.
Notation E := (std_env E0 (Some (VRef 0))).
Notation istep := (istep E size cwd fs big).
Notation isteps := (isteps E size cwd fs big).
Notation env_of := (env_of E cwd).
Notation load := (load cwd fs big).

Variables (src file : list Z) (path : option (list Z)) (m : mem) (x : executable).
Hypothesis T : text_ok src.
Hypothesis L : slen src < 2 ^ 26.
Hypothesis R : reads src (importer file).
Hypothesis Cx : compile src = ROk x.
Hypothesis Pf : plain_text file.
Hypothesis Hm : nth_error (m_objs m) 0 = Some (OSMap 0).
Hypothesis Hp : m_pend m = false.
Let u0 := mkprog x path.

(** The store when the import starts. *)
Definition ready_mem : mem := mkmem (m_objs m ++ [OMap (new_map (-1)); ONative N_import 1]) false.

Lemma main_fetch : exe_fetch x 0 = ROk (Some (OP_PUSHSTR, [PStr file])) /\ exe_fetch x 1 = ROk (Some (OP_PUSHVAR, [PStr (bytes_of "import")])) /\
  exe_fetch x 2 = ROk (Some (OP_CALL, [PInt 1; PInt 1])) /\ exe_fetch x 3 = ROk (Some (OP_RETURN, [PInt 1])).
Proof.
  destruct (compile_good src _ T L R eq_refl) as (x' & C' & Cd). assert (x' = x) by congruence. subst x'.
  destruct Cd as (H1 & H2 & H3 & evs & H4 & H5 & H6). destruct (program_fetch _ evs H2 H4 H5 H6) as (x' & Hx' & Hfetch & _). rewrite H1 in Hx'. injection Hx' as <-.
  rewrite !Hfetch by lia. repeat split.
Qed.

Definition main_state : istate :=
  let loc := VRef (length (m_objs m)) in
  mkis (mkvs ready_mem [] (mkfr 2 [VRef (S (length (m_objs m))); VStr file] loc None 0) []) [] u0 true [].

Lemma main_ready : isteps 2 (istart u0 m) = INext main_state.
Proof.
  destruct main_fetch as (F0 & F1 & _). rewrite isteps_S.
  assert (S1 : istep (istart u0 m) = INext (mkis (mkvs (mkmem (m_objs m ++ [OMap (new_map (-1))]) (m_pend m)) [] (mkfr 1 [VStr file] (VRef (length (m_objs m))) None 0) []) [] u0 true [])).
  { rewrite istep_eq. assert (K : sort_at (istart u0 m) = KPlain) by (unfold sort_at; cbn [istart i_prog i_vs vm_start alloc v_cur f_pc p_exe u0]; rewrite F0; reflexivity). rewrite K.
    unfold vstep, step. cbn [istart i_prog i_vs vm_start alloc v_cur f_pc p_exe u0]. rewrite F0. unfold exec. cbv zeta. cbn [with_pc v_mem v_codes v_cur v_rest f_pc f_stack f_locals f_clo f_want].
    rewrite (vstring_plain file Pf). cbn [lift]. unfold npush, vpush. cbn [v_cur f_stack length]. rewrite values_used. cbn -[Z.leb new_map]. rewrite (proj2 (Z.leb_gt _ _)) by (unfold MAX_FRAME_STACK; lia). rewrite (proj2 (Z.leb_gt _ _)) by lia. reflexivity. }
  rewrite S1, isteps_S. match goal with |- context [istep ?i] => set (i1 := i) end.
  assert (S2 : istep i1 = INext main_state); [|rewrite S2; reflexivity].
  rewrite istep_eq. assert (K : sort_at i1 = KPlain) by (unfold sort_at; cbn [i1 i_prog i_vs v_cur f_pc p_exe u0]; rewrite F1; reflexivity). rewrite K.
  unfold vstep, step. cbn [i1 i_prog i_vs v_cur f_pc p_exe u0]. rewrite F1. unfold exec. cbv zeta. cbn [with_pc v_mem v_codes v_cur v_rest f_pc f_stack f_locals f_clo f_want].
  unfold get_var. assert (Vs : vstring (bytes_of "import") = OOk (VStr (bytes_of "import"))) by (vm_compute; reflexivity). rewrite Vs. cbn [obind get_in].
  assert (G1 : select_of (env_of u0) (mkmem (m_objs m ++ [OMap (new_map (-1))]) (m_pend m)) (VRef (length (m_objs m))) (VStr (bytes_of "import")) = OOk (None, mkmem (m_objs m ++ [OMap (new_map (-1))]) (m_pend m))).
  { unfold select_of. destruct (depth _); cbn [obj_select m_objs]; rewrite nth_error_app2, Nat.sub_diag by lia; vm_compute; reflexivity. }
  rewrite G1. cbn [fst snd obind]. change (e_builtins (env_of u0)) with (Some (VRef 0)). cbn [get_in].
  assert (G2 : select_of (env_of u0) (mkmem (m_objs m ++ [OMap (new_map (-1))]) (m_pend m)) (VRef 0) (VStr (bytes_of "import")) = OOk (Some (VRef (S (length (m_objs m)))), ready_mem)).
  { unfold select_of. destruct (m_objs m) as [|o r] eqn:O; [discriminate Hm|]. injection Hm as ->. 
    destruct (depth _); cbn [obj_select m_objs nth_error app e_smap env_of std_env ImportModel.env_of].
    all: unfold smap_select; cbn [Nat.eqb]; assert (Sl : slot_of bins_basic (bytes_of "import") = Some (SlFun N_import 1)) by (vm_compute; reflexivity).
    all: rewrite Sl; cbn [slot_value alloc m_objs m_pend]; unfold ready_mem; rewrite Hp, O; cbn [app length]; rewrite app_length, <- !app_assoc; cbn [length app]; rewrite Nat.add_1_r; reflexivity. }
  rewrite G2. cbn [fst snd lift obind]. unfold npush, vpush. rewrite values_used. cbn -[Z.leb new_map]. rewrite (proj2 (Z.leb_gt _ _)) by (unfold MAX_FRAME_STACK; lia). rewrite (proj2 (Z.leb_gt _ _)) by lia. reflexivity.
Qed.

Lemma done_calm Ev c y t rets m' : step Ev c y t = SDone rets m' -> m_pend m' = false.
Proof.
  unfold step. intros H. destruct (exe_fetch _ _) as [[[op ops]|]| |]; try discriminate. destruct t as [mm cc [pc st lo cl wa] rest]. unfold with_pc, exec in H. cbv zeta in H.
  cbn [v_mem v_codes v_cur v_rest f_pc f_stack f_locals f_clo f_want] in *.
  assert (G : forall t, finish c t = SDone rets m' -> m_pend m' = false).
  { intros t G. unfold finish in G. destruct (m_pend (v_mem t)) eqn:P; [discriminate|]. destruct (v_rest t); [injection G as _ <-; exact P|]. apply lift_done in G. destruct G as (? & _ & G). destruct (vpushes _ _ _); discriminate G. }
  destruct op; repeat match goal with
  | H : (match ?x with _ => _ end) = SDone _ _ |- _ => destruct x eqn:?; try discriminate
  | H : lift _ _ = SDone _ _ |- _ => apply lift_done in H; destruct H as (? & ? & H)
  | H : do_call _ _ _ _ _ _ = SDone _ _ |- _ => unfold do_call in H
  | H : npush _ _ _ = SDone _ _ |- _ => unfold npush in H
  end; try discriminate; try (eapply G; eassumption).
Qed.

Lemma steps_calm Ev c y n : forall t rets m', steps Ev c y n t = SDone rets m' -> m_pend m' = false.
Proof.
  induction n as [|n IH]; intros t rets m' H; [discriminate|]. cbn [steps] in H. destruct (step Ev c y t) as [t'|r mm| | | | |] eqn:S; try discriminate; [exact (IH _ _ _ H)|].
  injection H as -> ->. exact (done_calm _ _ _ _ _ _ S).
Qed.

Section Lib.
Variables (u : program) (root : stmt).
Hypothesis Ld : load u0 file = ROk u.
Hypothesis Cd : compiled root (p_exe u).
Hypothesis Cf : callfree_stmt root = true.

Lemma main_does j :
  match steps (env_of u) size (p_exe u) j (vm_start ready_mem) with
  | SNext _ => exists i, isteps (3 + j) (istart u0 m) = INext i
  | SDone rets m' => exists k, isteps k (istart u0 m) = IEnd (SDone [hd VNone rets] m')
  | r => isteps (3 + j) (istart u0 m) = IEnd r
  end.
Proof.
  destruct main_fetch as (_ & _ & F2 & F3).
  assert (Rc : reached E size cwd fs big u0 m main_state) by (exists 2%nat; exact main_ready). destruct (reached_kept E size cwd fs big Hsize u0 m main_state Rc) as (C & W & _).
  assert (Hl : nth_error (m_objs (v_mem (i_vs main_state))) (S (length (m_objs m))) = Some (ONative N_import 1)).
  { cbn [main_state i_vs v_mem ready_mem m_objs]. rewrite nth_error_app2 by lia. replace (S (length (m_objs m)) - length (m_objs m))%nat with 1%nat by lia. reflexivity. }
  assert (Dm : depth_of main_state <= 12) by (cbn; lia).
  pose proof (import_flat E size cwd fs big Hsize u root Cd Cf main_state 1 1 (S (length (m_objs m))) [VStr file] [] file W F2 eq_refl eq_refl ltac:(lia) ltac:(lia) Hl eq_refl (proj2 (proj2 Pf)) Ld eq_refl eq_refl Dm j) as H.
  change (v_mem (i_vs main_state)) with ready_mem in H. replace (3 + j)%nat with (2 + S j)%nat by lia.
  assert (Go : forall k, isteps (2 + k) (istart u0 m) = isteps k main_state) by (intros k; rewrite isteps_add, main_ready; reflexivity).
  destruct (steps _ _ _ j _) as [s|rets m'| | | | |] eqn:Q; rewrite ?Go; try exact H.
  destruct H as (k & cs & ps & H). exists (2 + (k + 1))%nat. rewrite Go, isteps_add, H.
  assert (Rs : results 1 rets = OOk [hd VNone rets]).
  { unfold results, MAX_RETS. destruct rets as [|v [|w r]]; try reflexivity. replace (Z.min (vlen (v :: w :: r)) 1) with 1 by (cbn [length]; lia).
    change (8 <? 1) with false. cbn iota. replace (Z.to_nat (1 - vlen (v :: w :: r))) with 0%nat by (cbn [length]; lia). reflexivity. }
  rewrite Rs. cbn [length app rev]. change (Z.of_nat 1 + Z.of_nat 0 <=? 16) with true. cbn iota. rewrite isteps_S, istep_eq.
  change (f_pc (v_cur (i_vs main_state)) + 1) with 3. change (i_prog main_state) with u0. change (i_imp main_state) with true. change (i_rest main_state) with (@nil below). change (v_rest (i_vs main_state)) with (@nil vframe).
  match goal with |- context [sort_at ?i] => assert (K : sort_at i = KLast) by (unfold sort_at; cbn [i_prog i_vs v_cur f_pc p_exe u0]; rewrite F3; reflexivity) end. rewrite K.
  cbn [i_imp i_rest List.tl i_vs]. unfold shorter. cbn [v_rest]. unfold vstep, step. cbn [i_prog v_cur f_pc p_exe u0]. rewrite F3. unfold exec. cbv zeta. cbn [with_pc v_mem v_codes v_cur v_rest f_pc f_stack f_locals f_clo f_want].
  unfold finish, with_pc. cbn [v_mem v_cur f_stack v_rest]. rewrite (steps_calm _ _ _ _ _ _ _ Q). reflexivity.
Qed.
End Lib.

Lemma names_unknown u X : (forall y, In y X -> no_nul y /\ ~ exists name, In name known_names /\ y = bytes_of name) -> unknown (env_of u) ready_mem X.
Proof.
  intros HX m' y Hy Pm K. cbn [get_in]. change (e_builtins (env_of u)) with (Some (VRef 0)). unfold select_of.
  assert (Hb : nth_error (m_objs m') 0 = Some (OSMap 0)) by (apply K; unfold ready_mem; cbn [m_objs]; destruct (m_objs m); [discriminate Hm|exact Hm]).
  assert (Q : forall n, obj_select (env_of u) n m' (VRef 0) (VStr y) = OOk (None, m')).
  { intros n. destruct (HX y Hy) as [N U]. destruct n; cbn [obj_select]; rewrite Hb; exact (proj2 (LookProofs.known E0 y m' N) U). }
  rewrite Q. reflexivity.
Qed.

Lemma env_short u : short_of_fuel (env_of u) -> short_of_fuel E.
Proof.
  intros [(id & args & mm & H)|H]; [left|right; exact H]. cbn [ImportModel.env_of e_native] in H.
  assert (V : forall s, give_string s mm <> OFuel) by (intros s; unfold give_string, vstring; destruct (StringModel.from_string (s ++ [0]) (-1)); discriminate).
  destruct (id =? N_cwd)%nat; [|destruct (id =? N_folder)%nat; [|destruct (id =? N_location)%nat; [|eauto]]]; exfalso.
  - unfold bin_cwd in H. destruct (c_getcwd _ _) as [[b|]| |]; try discriminate H. destruct (c_string b); [exact (V _ H)|discriminate H].
  - unfold bin_folder in H. destruct (p_path u); [|discriminate H]. destruct (popped _); [|discriminate H]. unfold new_string in H. match type of H with context [StringModel.from_string ?a ?b] => destruct (StringModel.from_string a b) end; discriminate H.
  - unfold bin_location in H. destruct (p_path u); [exact (V _ H)|discriminate H].
Qed.

Lemma env_select u mm v k : select_of (env_of u) mm v k = select_of E mm v k.
Proof.
  unfold select_of. generalize (depth (m_objs mm)). intros n. revert mm v k. induction n as [|n IH]; intros mm v k; cbn [obj_select]; [reflexivity|]. destruct v; try reflexivity.
  destruct (nth_error _ l) as [[]|]; try reflexivity. rewrite IH. destruct (obj_select E n mm vars k) as [[o m1]| | | |]; try reflexivity. cbn [obind fst snd].
  destruct (m_pend m1); [reflexivity|]. destruct o; [reflexivity|]. destruct prev; [apply IH|reflexivity].
Qed.

(** A file of assignments, conditionals and loops (C78), imported. *)
Lemma main_performs full text ss X : load u0 file = match compile text with ROk y => ROk (mkprog y (Some full)) | RErr => RErr | RUB => RUB end ->
  text_ok text -> slen text < 2 ^ 26 -> reads text ss -> cores false ss -> incl (mentions_all ss) X -> few X -> fits_stmts 16 ss = true ->
  (forall y, In y X -> no_nul y /\ ~ exists name, In name known_names /\ y = bytes_of name) ->
  (forall r, does_all nothing ss r ->
    match r with
    | Falls s => exists k l m', isteps k (istart u0 m) = IEnd (SDone [VRef l] m') /\ forall y, In y X -> select_of E m' (VRef l) (VStr y) = OOk (s y, m')
    | Gives vs => exists k m', isteps k (istart u0 m) = IEnd (SDone [hd VNone vs] m')
    | Fails => exists k, isteps k (istart u0 m) = IEnd SErr
    | Lost => exists k, isteps k (istart u0 m) = IEnd VmModel.SUB
    | Breaks _ => False
    end) /\
  (~ short_of_fuel E -> ~ (exists r, does_all nothing ss r) -> forall k, exists i, isteps k (istart u0 m) = INext i).
Proof.
  intros Hload Tt Lt Rt C I Fw Ft HX. destruct (proj2 core_ok ss false C Ft) as [OK Cf].
  destruct (performs text ss X Tt Lt Rt C I Fw Ft) as (y & Cy & P). rewrite Cy in Hload. set (u := mkprog y (Some full)) in *.
  destruct (compile_good text ss Tt Lt Rt OK) as (y' & Cy' & Cd). assert (y' = y) by congruence. subst y'.
  pose proof (main_does u (SComp ss) Hload Cd Cf) as M. destruct (P (env_of u) size ready_mem Hsize eq_refl (names_unknown u X HX)) as [P1 P2]. change (p_exe u) with y in M. split.
  - intros r D. specialize (P1 r D). destruct r as [s|s|vs| |].
    + destruct P1 as (j & l & m' & J & S). specialize (M j). rewrite J in M. destruct M as [k M]. exists k, l, m'. split; [exact M|]. intros z Hz. rewrite <- (env_select u). exact (S z Hz).
    + exact P1.
    + destruct P1 as (j & m' & J). specialize (M j). rewrite J in M. destruct M as [k M]. eauto.
    + destruct P1 as (j & J). specialize (M j). rewrite J in M. eauto.
    + destruct P1 as (j & J). specialize (M j). rewrite J in M. eauto.
  - intros Sh Nd k. assert (Sh' : ~ short_of_fuel (env_of u)) by (intros H; exact (Sh (env_short u H))). destruct (P2 Sh' Nd k) as [s J]. specialize (M k). rewrite J in M. destruct M as [i M].
    destruct (isteps k (istart u0 m)) as [i'|r] eqn:Q; [eauto|]. rewrite (isteps_end E size cwd fs big k (3 + k) _ r ltac:(lia) Q) in M. discriminate M.
Qed.
End Main.
