(** What programs of assignments, conditionals and loops do: C78. *)
From Coq Require Import ZArith String List Bool Lia.
From Verif Require Import BuiltinModel SysProofs LookSpec.
From Verif Require Import Base StringModel FloatModel AstModel LexModel ParseModel ParseExamples ExeModel ValueModel MapModel ObjModel VmModel VmExamples
  CompSpec DepthSpec CodegenModel CompileModel CompileProofs CalcSpec FuelProofs WhileSpec WhileProofs WhileExamples.
Import ListNotations.
Open Scope Z_scope.

(** * C78 *)
(** [does_all] (WhileSpec.v) tells what a program does to a finite assignment of values to names: nothing of the machine is named there.
    [few]: at most four variables, or any number (below 2^26) whose hashes are not negative (C02 is about the others).
    [unknown]: none of the variables has the name of a builtin. *)
Theorem C78_performs_partial : forall src ss X, text_ok src -> slen src < 2 ^ 26 -> reads src ss -> cores false ss -> incl (mentions_all ss) X -> few X ->
  fits_stmts 16 ss = true ->
  exists x, compile src = ROk x /\ forall E cap m, 256 <= cap -> m_pend m = false -> unknown E m X ->
  (forall r, does_all nothing ss r ->
    match r with
    | Falls s => exists j l m', steps E cap x j (vm_start m) = SDone [VRef l] m' /\ forall y, In y X -> select_of E m' (VRef l) (VStr y) = OOk (s y, m')
    | Gives vs => exists j m', steps E cap x j (vm_start m) = SDone vs m'
    | Fails => exists j, steps E cap x j (vm_start m) = SErr
    | Lost => exists j, steps E cap x j (vm_start m) = VmModel.SUB
    | Breaks _ => False
    end) /\
  (~ short_of_fuel E -> ~ (exists r, does_all nothing ss r) -> forall j, exists s, steps E cap x j (vm_start m) = SNext s).
Proof. exact performs. Qed.

(** The description has at most one answer. *)
Theorem C78_one : forall s ss r r', does_all s ss r -> does_all s ss r' -> r = r'.
Proof. intros s ss r r' D D'. exact (proj2 does_one s ss r D r' D'). Qed.

(** The default builtins know their names only. *)
Theorem C78_names : forall E m X b, nth_error (m_objs m) b = Some (OSMap 0) ->
  (forall x, In x X -> no_nul x /\ ~ exists name, In name known_names /\ x = bytes_of name) -> unknown (std_env E (Some (VRef b))) m X.
Proof. exact unknown_std. Qed.

(** Every text that reads as Euclid's algorithm computes the greatest common divisor. *)
Theorem C78_euclid : forall src a b, text_ok src -> slen src < 2 ^ 26 -> reads src (euclid a b) -> 0 <= a -> 0 <= b ->
  exists x, compile src = ROk x /\ forall E cap m, 256 <= cap -> m_pend m = false -> unknown E m [n_a; n_b; n_t] ->
  exists j m', steps E cap x j (vm_start m) = SDone [VInt (Z.gcd a b)] m'.
Proof. exact euclid_runs. Qed.

Example C78_example_euclid : text_ok src_euclid /\ slen src_euclid < 2 ^ 26 /\ reads src_euclid (euclid 123456789012 9876543210) /\
  unknown std0 mem_std [n_a; n_b; n_t] /\ Z.gcd 123456789012 9876543210 = 6.
Proof.
  split; [repeat (constructor; [vm_compute; split; congruence|]); constructor|].
  split; [vm_compute; reflexivity|].
  split; [apply reads_parse; vm_compute; reflexivity|].
  split; [|vm_compute; reflexivity]. apply ex_unknown. intros x [<-|[<-|[<-|[]]]]; eexists; (split; [reflexivity|discriminate]).
Qed.

(** A loop of a million rounds, and one without an end, both followed to the machine. *)
Example C78_example_million : exists x, compile src_million = ROk x /\ exists j l m', steps std0 256 x j (vm_start mem_std) = SDone [VRef l] m' /\
  select_of std0 m' (VRef l) (VStr v_s) = OOk (Some (VInt 499999500000), m').
Proof.
  destruct (C78_performs_partial src_million million [v_s; v_i]) as (x & C & H).
  - repeat (constructor; [vm_compute; split; congruence|]); constructor.
  - vm_compute; reflexivity.
  - apply reads_parse; vm_compute; reflexivity.
  - cbn; intuition discriminate.
  - intros y. cbn. tauto.
  - split; [repeat constructor; vm_compute; try discriminate; reflexivity|left; cbn; lia].
  - reflexivity.
  - exists x. split; [exact C|]. destruct (H std0 256 mem_std) as [D _]; [lia|reflexivity| |].
    { apply ex_unknown. intros y [<-|[<-|[]]]; eexists; (split; [reflexivity|discriminate]). }
    set (s1 := put_in nothing v_s (VInt 0)). set (s2 := put_in s1 v_i (VInt 0)).
    destruct (million_rounds (Z.to_nat 1000000) 0 s2) as (s3 & Ds & G & _); [lia|lia|reflexivity|reflexivity|].
    destruct (D (Falls s3)) as (j & l & m' & J & S).
    { apply d_next with (s1 := s1); [apply d_assign; reflexivity|]. apply d_next with (s1 := s2); [apply d_assign; reflexivity|]. apply d_next with (s1 := s3); [exact Ds|apply d_nil]. }
    exists j, l, m'. split; [exact J|]. rewrite S by (left; reflexivity). rewrite G. reflexivity.
Qed.

Example C78_example_forever : exists x, compile src_forever = ROk x /\ forall j, exists s, steps env0 256 x j (vm_start mem0) = SNext s.
Proof.
  destruct (C78_performs_partial src_forever forever [v_x]) as (x & C & H).
  - repeat (constructor; [vm_compute; split; congruence|]); constructor.
  - vm_compute; reflexivity.
  - apply reads_parse; vm_compute; reflexivity.
  - cbn; intuition discriminate.
  - intros y. cbn. tauto.
  - split; [repeat constructor; vm_compute; try discriminate; reflexivity|left; cbn; lia].
  - reflexivity.
  - exists x. split; [exact C|]. destruct (H env0 256 mem0) as [_ F]; [lia|reflexivity|apply unknown_none; reflexivity|]. apply F.
    + intros [(id & a & m & Q)|[(id & k & m & Q)|[(t & id & k & m & Q)|(t & id & k & v & m & Q)]]]; discriminate.
    + intros (r & D).
      assert (D0 : does nothing (SExpr (EAss (EIdent v_x) (EInt 0))) (Falls (put_in nothing v_x (VInt 0)))) by (apply d_assign; reflexivity).
      inversion D as [|a1 a2 a3 s1 r1 D1 D2|a1 a2 a3 r1 D1 N]; subst; pose proof (proj1 does_one _ _ _ D1 _ D0) as Q.
      * injection Q as ->. inversion D2 as [|b1 b2 b3 s2 r2 D3 D4|b1 b2 b3 r2 D3 N]; subst; (eapply forever_loops; [exact D3|reflexivity|reflexivity]).
      * exact (N _ Q).
Qed.

Print Assumptions C78_performs_partial.
Print Assumptions C78_one.
Print Assumptions C78_names.
Print Assumptions C78_euclid.
