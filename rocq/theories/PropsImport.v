(** Programs that import files: C93. *)
From Coq Require Import ZArith String List Bool Lia.
From Verif Require Import Base StringModel FloatModel AstModel LexModel ParseModel ParseExamples ExeModel ValueModel MapModel ObjModel SysModel SourceModel SysProofs SourceProofs BuiltinModel LookSpec
  VmModel VmExamples LimitSpec CompSpec DepthSpec CodegenModel CompileModel CompileProofs CalcSpec FuelProofs WhileSpec WhileProofs WhileExamples BuiltinProofs NetSpec NetProofs
  ImportModel ImportProofs ImportMore ImportTold ImportMain ImportExamples.
Import ListNotations.
Open Scope Z_scope.

(** * C93 *)
(** The machine of ImportModel.v runs several programs: one frame per call or import, each with the executable it runs.
    [reached … u m i]: the run that starts with the program [u] passes the state [i]. *)

(** ** Which file *)
(** A relative name is looked up in the folder of the importing script ([folder_spec], C60), or the working directory if it has none. *)
Theorem C93_file : forall cwd fs big u file f full, (forall dir, cwd = Some dir -> dir <> [] /\ no_nul dir) ->
  folder_spec cwd (p_path u) f -> no_nul f -> no_nul file -> (exists f', f = 47 :: f') -> full = (if is_absolute file then file else f ++ file) ->
  (1024 <= Z.of_nat (length full) -> load cwd fs big u file = RErr) /\
  (Z.of_nat (length full) < 1024 ->
    (fs full = None -> load cwd fs big u file = RErr) /\
    (forall text, fs full = Some text -> Z.of_nat (length text) < 2 ^ 31 -> SIZEOF_SOURCE + Z.of_nat (length full) + Z.of_nat (length text) + 2 <= big ->
      load cwd fs big u file = match compile text with ROk x => ROk (mkprog x (Some full)) | RErr => RErr | RUB => RUB end)).
Proof. intros cwd fs big u file f full H. exact (load_is cwd fs big H u file f full). Qed.

Example C93_example_file : exists u x, main_of src_lib = Some u /\ compile (bytes "return 42;") = ROk x /\ load home files (2 ^ 20) u (bytes "lib") = ROk (mkprog x (Some (bytes "/p/lib"))).
Proof.
  destruct (main_of src_lib) as [u|] eqn:M; [|vm_compute in M; discriminate]. destruct (compile (bytes "return 42;")) as [x| |] eqn:X; [|vm_compute in X; discriminate..].
  exists u, x. split; [reflexivity|]. split; [reflexivity|].
  assert (P : p_path u = Some (bytes "/p/m")) by (unfold main_of in M; destruct (compile src_lib); try discriminate; injection M as <-; reflexivity).
  destruct (C93_file home files (2 ^ 20) u (bytes "lib") (bytes "/p/") (bytes "/p/lib")) as [_ H].
  - intros dir [= <-]. split; [discriminate|]. vm_compute. intuition discriminate.
  - rewrite P. exists (bytes "m"). split; [reflexivity|]. split; [exists (bytes "/p"); reflexivity|]. vm_compute. intuition discriminate.
  - vm_compute. intuition discriminate.
  - vm_compute. intuition discriminate.
  - eexists. reflexivity.
  - reflexivity.
  - destruct (H ltac:(vm_compute; reflexivity)) as [_ H2]. rewrite (H2 (bytes "return 42;")), X; [reflexivity|vm_compute; reflexivity..|vm_compute; discriminate].
Qed.

(** ** Imports that fail *)
(** [depth_of]: the number of frames, of which there are 16. *)
Theorem C93_fails : forall E size cwd fs big i argc want l args st,
  exe_fetch (p_exe (i_prog i)) (f_pc (v_cur (i_vs i))) = ROk (Some (OP_CALL, [PInt argc; PInt want])) ->
  f_stack (v_cur (i_vs i)) = VRef l :: args ++ st -> Z.of_nat (length args) = argc -> argc <= 32 -> - 2 ^ 31 <= want < 2 ^ 31 ->
  nth_error (m_objs (v_mem (i_vs i))) l = Some (ONative N_import 1) ->
  (16 <= depth_of i -> istep E size cwd fs big i = IEnd SLimit) /\
  (depth_of i <= 15 ->
    match hd_error args with
    | Some (VStr file) => ~ In 0 file ->
        match load cwd fs big (i_prog i) file with
        | ROk _ => depth_of i = 15 -> istep E size cwd fs big i = IEnd SLimit
        | RErr => istep E size cwd fs big i = IEnd SErr
        | RUB => istep E size cwd fs big i = IEnd VmModel.SUB
        end
    | _ => istep E size cwd fs big i = IEnd SErr
    end).
Proof. exact import_all. Qed.

Example C93_example_fails : run_main 200 src_none = Some AErr /\ run_main 200 src_bad = Some AErr /\ run_main 200 src_int = Some AErr /\ run_main 200 src_self = Some ALimit.
Proof. exact (conj runs_none (conj runs_bad (conj runs_int runs_self))). Qed.

(** ** Imports that work *)
(** The file is run as a program of its own ([alone]: with nothing below it, in the store as it is); as long as it needs at most
    [13 - depth_of i] frames, the import does what that program does, and then the importing program goes on with the results it asked for. *)
Theorem C93_alone : forall E size cwd fs big u0 m0 i argc want l args st file u, 256 <= size -> reached E size cwd fs big u0 m0 i ->
  exe_fetch (p_exe (i_prog i)) (f_pc (v_cur (i_vs i))) = ROk (Some (OP_CALL, [PInt argc; PInt want])) ->
  f_stack (v_cur (i_vs i)) = VRef l :: args ++ st -> Z.of_nat (length args) = argc -> argc <= 32 -> - 2 ^ 31 <= want < 2 ^ 31 ->
  nth_error (m_objs (v_mem (i_vs i))) l = Some (ONative N_import 1) ->
  hd_error args = Some (VStr file) -> ~ In 0 file -> load cwd fs big (i_prog i) file = ROk u ->
  forall j, shallow E size cwd fs big (13 - depth_of i) j (alone (v_codes (i_vs i)) (i_codes i) u (v_mem (i_vs i))) ->
  match isteps E size cwd fs big j (alone (v_codes (i_vs i)) (i_codes i) u (v_mem (i_vs i))) with
  | INext ia =>
      (exists i', isteps E size cwd fs big (S j) i = INext i' /\ v_mem (i_vs i') = v_mem (i_vs ia) /\ v_cur (i_vs i') = v_cur (i_vs ia) /\ i_prog i' = i_prog ia) /\
      forall rets m', istep E size cwd fs big ia = IEnd (SDone rets m') ->
      exists cs ps, isteps E size cwd fs big (S (S j)) i =
        match results want rets with
        | OOk vs => if Z.of_nat (length vs) + Z.of_nat (length st) <=? 16 then
            INext (mkis (mkvs m' (v_codes (i_vs i) ++ cs) (mkfr (f_pc (v_cur (i_vs i)) + 1) (rev vs ++ st) (f_locals (v_cur (i_vs i))) (f_clo (v_cur (i_vs i))) (f_want (v_cur (i_vs i)))) (v_rest (i_vs i)))
                        (i_codes i ++ ps) (i_prog i) (i_imp i) (i_rest i))
            else IEnd SLimit
        | _ => IEnd VmModel.SUB
        end
  | IEnd (SDone _ _) => True
  | IEnd r => isteps E size cwd fs big (S j) i = IEnd r
  end.
Proof.
  intros E size cwd fs big u0 m0 i argc want l args st file u Hs R F St Na Ha Hw Hl Hf Hz Ld j Sh. destruct (reached_kept E size cwd fs big Hs u0 m0 i R) as (_ & W & _).
  destruct (isteps E size cwd fs big j _) as [ia|r] eqn:Q.
  - split.
    + eexists. split; [exact (import_running E size cwd fs big Hs i argc want l args st file u W F St Na Ha Hw Hl Hf Hz Ld j ia Q Sh)|]. repeat split.
    + intros rets m' D. exact (import_returns E size cwd fs big Hs i argc want l args st file u W F St Na Ha Hw Hl Hf Hz Ld j ia rets m' Q D Sh).
  - destruct r; try exact I; apply (import_fails E size cwd fs big Hs i argc want l args st file u W F St Na Ha Hw Hl Hf Hz Ld j _ Q); try exact Sh; discriminate.
Qed.

Example C93_example_alone : exists u0 i u, reached std0 256 home files (2 ^ 20) u0 mem_std i /\
  exe_fetch (p_exe (i_prog i)) (f_pc (v_cur (i_vs i))) = ROk (Some (OP_CALL, [PInt 1; PInt 1])) /\ f_stack (v_cur (i_vs i)) = VRef 2 :: [VStr (bytes "lib")] ++ [] /\
  nth_error (m_objs (v_mem (i_vs i))) 2 = Some (ONative N_import 1) /\ load home files (2 ^ 20) (i_prog i) (bytes "lib") = ROk u /\
  forall j, shallow std0 256 home files (2 ^ 20) (13 - depth_of i) j (alone (v_codes (i_vs i)) (i_codes i) u (v_mem (i_vs i))).
Proof.
  pose proof after_lib as A. destruct (after 2 src_lib) as [i|] eqn:Q; [|discriminate A]. destruct (after_is _ _ _ Q) as (u0 & M & S). cbn [option_map] in A.
  cbn [option_map] in A. injection A as A1 A2 A3 A4 A5 A6 A7.
  destruct C93_example_file as (u' & x & M' & X & _). destruct (compile_good (bytes "return 42;") (SCons (SReturn (EInt 42)) SNil)) as (x' & X' & Cd).
  { repeat (constructor; [vm_compute; split; congruence|]); constructor. } { vm_compute; reflexivity. } { apply reads_parse; vm_compute; reflexivity. } { reflexivity. }
  assert (x' = x) by congruence. subst x'.
  destruct (C93_file home files (2 ^ 20) (i_prog i) (bytes "lib") (bytes "/p/") (bytes "/p/lib")) as [_ H].
  - intros dir [= <-]. split; [discriminate|]. vm_compute. intuition discriminate.
  - rewrite A6. exists (bytes "m"). split; [reflexivity|]. split; [exists (bytes "/p"); reflexivity|]. vm_compute. intuition discriminate.
  - vm_compute. intuition discriminate.
  - vm_compute. intuition discriminate.
  - eexists. reflexivity.
  - reflexivity.
  - destruct (H ltac:(vm_compute; reflexivity)) as [_ H2]. exists u0, i, (mkprog x (Some (bytes "/p/lib"))). split; [exists 2%nat; exact S|]. split; [exact A1|]. split; [exact A2|]. split; [exact A3|].
    split; [rewrite (H2 (bytes "return 42;")), X; [reflexivity|vm_compute; reflexivity..|vm_compute; discriminate]|].
    intros j. rewrite A4, A5. change (alone [] [] ?u ?m) with (istart u m). apply (flat_shallow std0 256 home files (2 ^ 20) (mkprog x (Some (bytes "/p/lib"))) _ Cd eq_refl). unfold depth_of. cbn [length] in *. lia.
Qed.

(** ** How deep *)
(** At most seven imports are going on at any time, however the files import each other. *)
Theorem C93_nesting : forall E size cwd fs big u m i, 256 <= size -> reached E size cwd fs big u m i -> imports (i_rest i) <= 7.
Proof. intros E size cwd fs big u m i H. exact (few_imports E size cwd fs big H u m i). Qed.

(** A file that imports itself gets there. *)
Example C93_example_nesting : exists u i, reached std0 256 home files (2 ^ 20) u mem_std i /\ imports (i_rest i) = 7.
Proof.
  assert (A : option_map (fun i => imports (i_rest i)) (after 23 src_self) = Some 7) by (vm_compute; reflexivity).
  destruct (after 23 src_self) as [i|] eqn:Q; [|discriminate A]. destruct (after_is _ _ _ Q) as (u & M & S). cbn [option_map] in A. exists u, i. split; [exists 23%nat; exact S|]. injection A as A. exact A.
Qed.

(** ** Functions of imported files *)
(** A function is run in the program that made it, wherever it is called. *)
Theorem C93_made : forall E size cwd fs big u m i i' ops, 256 <= size -> reached E size cwd fs big u m i ->
  exe_fetch (p_exe (i_prog i)) (f_pc (v_cur (i_vs i))) = ROk (Some (OP_PUSHFUN, ops)) -> istep E size cwd fs big i = INext i' ->
  exists l c clo st, f_stack (v_cur (i_vs i')) = VRef l :: st /\ nth_error (m_objs (v_mem (i_vs i'))) l = Some (OFun c clo) /\ nth_error (i_codes i') c = Some (i_prog i) /\ i_prog i' = i_prog i.
Proof. intros E size cwd fs big u m i i' ops H. exact (fun_made E size cwd fs big H u m i i' ops). Qed.

Theorem C93_kept : forall E size cwd fs big u m i k i' c u', 256 <= size -> reached E size cwd fs big u m i -> isteps E size cwd fs big k i = INext i' ->
  nth_error (i_codes i) c = Some u' -> nth_error (i_codes i') c = Some u'.
Proof. intros E size cwd fs big u m i k i' c u' H. exact (home_kept E size cwd fs big H u m i k i' c u'). Qed.

Theorem C93_called : forall E size cwd fs big i i' argc want l st c clo u',
  exe_fetch (p_exe (i_prog i)) (f_pc (v_cur (i_vs i))) = ROk (Some (OP_CALL, [PInt argc; PInt want])) ->
  f_stack (v_cur (i_vs i)) = VRef l :: st -> nth_error (m_objs (v_mem (i_vs i))) l = Some (OFun c clo) -> nth_error (i_codes i) c = Some u' ->
  istep E size cwd fs big i = INext i' -> i_prog i' = u' /\ i_rest i' = BRun (i_prog i) (i_imp i) :: i_rest i.
Proof. exact fun_called. Qed.

(** The function made in /p/inc is called by /p/m, and adds the [k] of /p/inc. *)
Example C93_example_made : exists u i i', reached std0 256 home files (2 ^ 20) u mem_std i /\ p_path (i_prog i) = Some (bytes "/p/inc") /\
  exe_fetch (p_exe (i_prog i)) (f_pc (v_cur (i_vs i))) = ROk (Some (OP_PUSHFUN, [PIdx 2; PInt 1; PStr (bytes "f")])) /\ istep std0 256 home files (2 ^ 20) i = INext i'.
Proof.
  pose proof after_inc as A. destruct (after 6 src_inc) as [i|] eqn:Q; [|discriminate A]. destruct (after_is _ _ _ Q) as (u & M & S). cbn [option_map] in A.
  injection A as A1 A2. exists u, i. assert (B : run_main 7 src_inc = Some ARuns) by (vm_compute; reflexivity). destruct (goes_on _ _ _ Q B) as [i' N].
  exists i'. split; [exists 6%nat; exact S|]. auto.
Qed.

Example C93_example_called : exists u i, reached std0 256 home files (2 ^ 20) u mem_std i /\
  exe_fetch (p_exe (i_prog i)) (f_pc (v_cur (i_vs i))) = ROk (Some (OP_CALL, [PInt 1; PInt 1])) /\ f_stack (v_cur (i_vs i)) = [VRef 5; VInt 41] /\
  nth_error (m_objs (v_mem (i_vs i))) 5 = Some (OFun 0 (VRef 4)) /\ p_path (i_prog i) = Some (bytes "/p/m") /\ map p_path (i_codes i) = [Some (bytes "/p/inc")] /\
  run_main 200 src_inc = Some (ADone [VInt 42]).
Proof.
  pose proof after_call as A. destruct (after 19 src_inc) as [i|] eqn:Q; [|discriminate A]. destruct (after_is _ _ _ Q) as (u & M & S). cbn [option_map] in A.
  injection A as A1 A2 A3 A4 A5. exists u, i. split; [exists 19%nat; exact S|]. repeat (split; [assumption|]). exact runs_inc.
Qed.

(** ** Programs that do not import *)
(** What the machine of one program does (C05 and the properties after it) the machine of several programs does too, as long as no import is asked for: an import ends the former's run
    if its environment says so. *)
Theorem C93_without : forall E size cwd fs big u n m, (forall argv m', e_native E N_import argv m' = OErr) ->
  match steps (env_of E cwd u) size (p_exe u) n (vm_start m) with
  | SNext s => exists i, isteps E size cwd fs big n (istart u m) = INext i /\ i_vs i = s
  | SErr | SLimit | VmModel.SBad => True
  | r => isteps E size cwd fs big n (istart u m) = IEnd r
  end.
Proof. exact run_single. Qed.

(** A program with a function that is called in a loop. *)
Example C93_example_without : exists E u, (forall argv m, e_native E N_import argv m = OErr) /\ main_of src_loop = Some u /\
  match steps (env_of E home u) 256 (p_exe u) 300 (vm_start mem_std) with SDone vs _ => vs = [VInt 55] | _ => False end.
Proof.
  exists (calm_env), (match main_of src_loop with Some u => u | None => mkprog (mkexe [] []) None end). split; [reflexivity|]. split; [vm_compute; reflexivity|]. vm_compute. reflexivity.
Qed.

(** ** Where a script is *)
Theorem C93_where : forall cwd p dir f m,
  (folder_spec cwd (Some p) f -> text f -> short f -> bin_folder (Some p) m = OOk ([VStr f], m)) /\
  (plain_text p -> bin_location (Some p) m = OOk ([VStr p], m)) /\
  (plain_text dir -> Z.of_nat (length dir) < 1024 -> bin_cwd (Some dir) m = OOk ([VStr dir], m)) /\
  (1024 <= Z.of_nat (length dir) -> bin_cwd (Some dir) m = OErr) /\
  bin_folder None m = OOk ([VNone], m) /\ bin_location None m = OOk ([VNone], m) /\ bin_cwd None m = OErr.
Proof.
  intros cwd p dir f m. split; [apply folder_tells|]. split; [apply location_tells|]. split; [apply cwd_tells|]. split; [apply cwd_long|].
  destruct (nowhere_tells None m) as (A & B & C). auto.
Qed.

Example C93_example_where : run_main 200 src_where = Some (ADone [VStr (bytes "/p/")]) /\ folder_spec None (Some (bytes "/p/where")) (bytes "/p/").
Proof.
  split; [exact runs_where|].
  exists (bytes "where"). split; [reflexivity|]. split; [exists (bytes "/p"); reflexivity|]. vm_compute. intuition discriminate.
Qed.

(** ** From the texts to the end *)
(** A program that returns what the import of a file gives, and a file of assignments, conditionals and loops (C78): the program ends with the first value the file
    returns, or with the file's variables, or with its error, or does not end. *)
Theorem C93_performs : forall E0 size cwd fs big src file path m x full text ss X, 256 <= size ->
  text_ok src -> slen src < 2 ^ 26 -> reads src (importer file) -> compile src = ROk x -> plain_text file ->
  nth_error (m_objs m) 0 = Some (OSMap 0) -> m_pend m = false ->
  load cwd fs big (mkprog x path) file = match compile text with ROk y => ROk (mkprog y (Some full)) | RErr => RErr | RUB => RUB end ->
  text_ok text -> slen text < 2 ^ 26 -> reads text ss -> cores false ss -> incl (mentions_all ss) X -> few X -> fits_stmts 16 ss = true ->
  (forall y, In y X -> no_nul y /\ ~ exists name, In name known_names /\ y = bytes_of name) ->
  let E := std_env E0 (Some (VRef 0)) in
  let run := fun k => isteps E size cwd fs big k (istart (mkprog x path) m) in
  (forall r, does_all nothing ss r ->
    match r with
    | Falls s => exists k l m', run k = IEnd (SDone [VRef l] m') /\ forall y, In y X -> select_of E m' (VRef l) (VStr y) = OOk (s y, m')
    | Gives vs => exists k m', run k = IEnd (SDone [hd VNone vs] m')
    | Fails => exists k, run k = IEnd SErr
    | Lost => exists k, run k = IEnd VmModel.SUB
    | Breaks _ => False
    end) /\
  (~ short_of_fuel E -> ~ (exists r, does_all nothing ss r) -> forall k, exists i, run k = INext i).
Proof.
  intros E0 size cwd fs big src file path m x full text ss X H T L R C P Hm Hp Hl Tt Lt Rt Co I Fw Ft Nx.
  exact (main_performs E0 size cwd fs big H src file path m x T L R C P Hm Hp full text ss X Hl Tt Lt Rt Co I Fw Ft Nx).
Qed.

(** Euclid's algorithm, imported; and a file that does not end. *)
Example C93_example_performs : exists x, compile src_gcd = ROk x /\
  exists k m', isteps std0 256 home files (2 ^ 20) k (istart (mkprog x (Some (bytes "/p/m"))) mem_std) = IEnd (SDone [VInt 6] m').
Proof.
  destruct (compile_good src_gcd (importer (bytes "euclid"))) as (x & X & _).
  { repeat (constructor; [vm_compute; split; congruence|]); constructor. } { vm_compute; reflexivity. } { apply reads_parse; vm_compute; reflexivity. } { reflexivity. }
  exists x. split; [exact X|].
  destruct (C93_performs env0 256 home files (2 ^ 20) src_gcd (bytes "euclid") (Some (bytes "/p/m")) mem_std x (bytes "/p/euclid") src_euclid (euclid 123456789012 9876543210) [n_a; n_b; n_t]) as [D _].
  - lia.
  - repeat (constructor; [vm_compute; split; congruence|]); constructor.
  - vm_compute; reflexivity.
  - apply reads_parse; vm_compute; reflexivity.
  - exact X.
  - split; [|split; [vm_compute; reflexivity|vm_compute; intuition discriminate]].
    exists (map (fun c => [c]) (bytes "euclid")). split; [|reflexivity]. repeat constructor; vm_compute; intuition discriminate.
  - reflexivity.
  - reflexivity.
  - destruct (C93_file home files (2 ^ 20) (mkprog x (Some (bytes "/p/m"))) (bytes "euclid") (bytes "/p/") (bytes "/p/euclid")) as [_ H].
    + intros dir [= <-]. split; [discriminate|]. vm_compute. intuition discriminate.
    + exists (bytes "m"). split; [reflexivity|]. split; [exists (bytes "/p"); reflexivity|]. vm_compute. intuition discriminate.
    + vm_compute. intuition discriminate.
    + vm_compute. intuition discriminate.
    + eexists. reflexivity.
    + reflexivity.
    + destruct (H ltac:(vm_compute; reflexivity)) as [_ H2]. apply H2; [vm_compute; reflexivity..|vm_compute; discriminate].
  - repeat (constructor; [vm_compute; split; congruence|]); constructor.
  - vm_compute; reflexivity.
  - apply reads_parse; vm_compute; reflexivity.
  - cbn; intuition discriminate.
  - intros y. cbn. tauto.
  - exact euclid_few.
  - reflexivity.
  - intros y Hy. split; [cbn in Hy; destruct Hy as [<-|[<-|[<-|[]]]]; vm_compute; intuition discriminate|]. apply short_known. cbn in Hy. destruct Hy as [<-|[<-|[<-|[]]]]; eexists; reflexivity.
  - exact (D _ (euclid_does 123456789012 9876543210 ltac:(lia) ltac:(lia))).
Qed.
Print Assumptions C93_file.
Print Assumptions C93_fails.
Print Assumptions C93_alone.
Print Assumptions C93_nesting.
Print Assumptions C93_made.
Print Assumptions C93_kept.
Print Assumptions C93_called.
Print Assumptions C93_without.
Print Assumptions C93_where.
Print Assumptions C93_performs.
