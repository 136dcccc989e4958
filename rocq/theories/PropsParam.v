(** Parameters: C91. *)
From Coq Require Import ZArith String List Bool Lia.
From Verif Require Import BuiltinModel SysProofs LookSpec.
From Verif Require Import Base StringModel FloatModel AstModel LexModel ParseModel ParseExamples ExeModel ValueModel MapModel ObjModel VmModel VmExamples
  CompSpec DepthSpec CodegenModel CompileModel CompileProofs CalcSpec FuelProofs WhileSpec WhileProofs WhileExamples
  FunSpec FunProofs FunRun FunTypes FunExamples ParamSpec ParamProofs.
From Verif Require SrcModel PreludeRun PreludeUser.
Import ListNotations.
Open Scope Z_scope.

(** * C91 *)
(** A function that returns one of its parameters is called with literals; its default values are literals. If every parameter suits the value it
    takes, the value of that parameter comes out; otherwise there is an error. *)
Theorem C91_parameters : forall src f ps x args vs p v, text_ok src -> slen src < 2 ^ 26 -> reads src (program (asks f ps x) (calls_it f args)) ->
  fgood (asks f ps x) (calls_it f args) -> fits_stmts 16 (program (asks f ps x) (calls_it f args)) = true ->
  Forall literal_default ps -> NoDup (map fst ps) -> literals args = Some vs -> In (p, v) (taken ps vs) -> fst p = x ->
  exists c, compile src = ROk c /\ forall E cap m, 256 <= cap -> m_pend m = false -> unknown E m (fnames (asks f ps x) (calls_it f args)) ->
  knows_types E m (fkinds (asks f ps x)) ->
  if forallb suits (taken ps vs) then exists j m', steps E cap c j (vm_start m) = SDone [v] m' else exists j, steps E cap c j (vm_start m) = SErr.
Proof. exact params_run. Qed.
(** fun f(a: int | String = 'x', b: ?float, c: any = 7) return a; called without arguments, with 5 and none, and with 'yes' and 1: an integer is no float. *)
Example C91_example_default : exists c, compile (src_params "") = ROk c /\ exists j m', steps std0 256 c j (vm_start mem_std) = SDone [VStr [120]] m'.
Proof.
  destruct (C91_parameters (src_params "") [102] ps_example [97] ENil [] ([97], (Some (EBin BStp (EIdent (letters "int")) (EIdent (letters "String"))), Some (EStr [120]))) (VStr [120])) as (c & C & H).
  - repeat (constructor; [vm_compute; split; congruence|]); constructor.
  - vm_compute; reflexivity.
  - apply reads_parse; vm_compute; reflexivity.
  - exact params_1_good.
  - vm_compute; reflexivity.
  - repeat constructor; discriminate.
  - cbn. repeat (apply NoDup_cons; [cbn; intuition discriminate|]). apply NoDup_nil.
  - reflexivity.
  - left; reflexivity.
  - reflexivity.
  - exists c. split; [exact C|]. exact (H std0 256 mem_std ltac:(lia) eq_refl (short_unknown (fnames (fst params_1) (snd params_1)) eq_refl) (types_std env0 mem_std (fkinds (fst params_1)) 0 eq_refl)).
Qed.
Example C91_example_given : exists c, compile (src_params "5, none") = ROk c /\ exists j m', steps std0 256 c j (vm_start mem_std) = SDone [VInt 5] m'.
Proof.
  destruct (C91_parameters (src_params "5, none") [102] ps_example [97] (ECons (EInt 5) (ECons ENone ENil)) [VInt 5; VNone]
    ([97], (Some (EBin BStp (EIdent (letters "int")) (EIdent (letters "String"))), Some (EStr [120]))) (VInt 5)) as (c & C & H).
  - repeat (constructor; [vm_compute; split; congruence|]); constructor.
  - vm_compute; reflexivity.
  - apply reads_parse; vm_compute; reflexivity.
  - exact params_2_good.
  - vm_compute; reflexivity.
  - repeat constructor; discriminate.
  - cbn. repeat (apply NoDup_cons; [cbn; intuition discriminate|]). apply NoDup_nil.
  - reflexivity.
  - left; reflexivity.
  - reflexivity.
  - exists c. split; [exact C|]. exact (H std0 256 mem_std ltac:(lia) eq_refl (short_unknown (fnames (fst params_2) (snd params_2)) eq_refl) (types_std env0 mem_std (fkinds (fst params_2)) 0 eq_refl)).
Qed.
Example C91_example_refused : exists c, compile (src_params "'yes', 1") = ROk c /\ exists j, steps std0 256 c j (vm_start mem_std) = SErr.
Proof.
  destruct (C91_parameters (src_params "'yes', 1") [102] ps_example [97] (ECons (EStr (letters "yes")) (ECons (EInt 1) ENil)) [VStr (letters "yes"); VInt 1]
    ([97], (Some (EBin BStp (EIdent (letters "int")) (EIdent (letters "String"))), Some (EStr [120]))) (VStr (letters "yes"))) as (c & C & H).
  - repeat (constructor; [vm_compute; split; congruence|]); constructor.
  - vm_compute; reflexivity.
  - apply reads_parse; vm_compute; reflexivity.
  - exact params_3_good.
  - vm_compute; reflexivity.
  - repeat constructor; discriminate.
  - cbn. repeat (apply NoDup_cons; [cbn; intuition discriminate|]). apply NoDup_nil.
  - reflexivity.
  - left; reflexivity.
  - reflexivity.
  - exists c. split; [exact C|]. exact (H std0 256 mem_std ltac:(lia) eq_refl (short_unknown (fnames (fst params_3) (snd params_3)) eq_refl) (types_std env0 mem_std (fkinds (fst params_3)) 0 eq_refl)).
Qed.

(** Default values that are not literals are computed at each call, among the parameters behind and the variables of the program: C88 says what they give. *)
Example C91_example_anew : exists c, compile src_anew = ROk c /\ exists j l m', steps std0 256 c j (vm_start mem_std) = SDone [VRef l] m' /\
  select_of std0 m' (VRef l) (VStr [120]) = OOk (Some (VInt 1), m') /\ select_of std0 m' (VRef l) (VStr [121]) = OOk (Some (VInt 40), m').
Proof.
  destruct (fperforms src_anew (fst anew) (snd anew)) as (x & C & H).
  - repeat (constructor; [vm_compute; split; congruence|]); constructor.
  - vm_compute; reflexivity.
  - apply reads_parse; vm_compute; reflexivity.
  - exact anew_good.
  - vm_compute; reflexivity.
  - exists x. split; [exact C|]. specialize (H std0 256 mem_std ltac:(lia) eq_refl (short_unknown (fnames (fst anew) (snd anew)) eq_refl) (types_std env0 mem_std (fkinds (fst anew)) 0 eq_refl) 10%nat).
    pose proof anew_told as V. destruct (ftold (fst anew) (snd anew) 10 (Some 15%nat)) as [[s|s|vs]| | | |]; try contradiction.
    destruct H as (j & l & m' & J & S). exists j, l, m'. split; [exact J|].
    rewrite !S by (cbn; tauto). destruct V as (-> & ->). auto.
Qed.

(** A default value may name a parameter in front of it: false. The parameters get their values from the last to the first, so there is no such
    variable yet. *)
Theorem C91_earlier_refuted : forall src f a b e v, text_ok src -> slen src < 2 ^ 26 ->
  reads src (program (asks f (earlier a b) b) (calls_it f (ECons e ENil))) -> fgood (asks f (earlier a b) b) (calls_it f (ECons e ENil)) ->
  fits_stmts 16 (program (asks f (earlier a b) b) (calls_it f (ECons e ENil))) = true -> literal e = Some v ->
  exists c, compile src = ROk c /\ forall E cap m, 256 <= cap -> m_pend m = false -> unknown E m [f; a; b] -> exists j, steps E cap c j (vm_start m) = SErr.
Proof. intros src f a b e v T L. exact (earlier_run src f a b T L e v). Qed.
Example C91_example_earlier : text_ok src_earlier /\ slen src_earlier < 2 ^ 26 /\ reads src_earlier (program (asks [102] (earlier [97] [98]) [98]) (calls_it [102] (ECons (EInt 1) ENil))) /\
  fgood (asks [102] (earlier [97] [98]) [98]) (calls_it [102] (ECons (EInt 1) ENil)) /\ fits_stmts 16 (program (asks [102] (earlier [97] [98]) [98]) (calls_it [102] (ECons (EInt 1) ENil))) = true /\
  unknown std0 mem_std [[102]; [97]; [98]].
Proof.
  split; [repeat (constructor; [vm_compute; split; congruence|]); constructor|]. split; [vm_compute; reflexivity|].
  split; [apply reads_parse; vm_compute; reflexivity|]. split; [exact earlier_good|]. split; [vm_compute; reflexivity|]. apply short_unknown; reflexivity.
Qed.
(** A parameter behind it has its value. *)
Theorem C91_later : forall src f a b e v, text_ok src -> slen src < 2 ^ 26 -> a <> b ->
  reads src (program (asks f (later a b) a) (calls_it f (ECons ENone (ECons e ENil)))) -> fgood (asks f (later a b) a) (calls_it f (ECons ENone (ECons e ENil))) ->
  fits_stmts 16 (program (asks f (later a b) a) (calls_it f (ECons ENone (ECons e ENil)))) = true -> literal e = Some v ->
  exists c, compile src = ROk c /\ forall E cap m, 256 <= cap -> m_pend m = false -> unknown E m [f; a; b] -> exists j m', steps E cap c j (vm_start m) = SDone [v] m'.
Proof. intros src f a b e v T L D. exact (later_run src f a b T L e v). Qed.
Example C91_example_later : text_ok src_later /\ slen src_later < 2 ^ 26 /\ reads src_later (program (asks [102] (later [97] [98]) [97]) (calls_it [102] (ECons ENone (ECons (EStr [119]) ENil)))) /\
  fgood (asks [102] (later [97] [98]) [97]) (calls_it [102] (ECons ENone (ECons (EStr [119]) ENil))) /\
  fits_stmts 16 (program (asks [102] (later [97] [98]) [97]) (calls_it [102] (ECons ENone (ECons (EStr [119]) ENil)))) = true /\ unknown std0 mem_std [[102]; [97]; [98]].
Proof.
  split; [repeat (constructor; [vm_compute; split; congruence|]); constructor|]. split; [vm_compute; reflexivity|].
  split; [apply reads_parse; vm_compute; reflexivity|]. split; [exact later_good|]. split; [vm_compute; reflexivity|]. apply short_unknown; reflexivity.
Qed.

(** A default value that calls its own function without arguments ends at the limit of calls. *)
Theorem C91_itself : forall src f a, text_ok src -> slen src < 2 ^ 26 -> reads src (program (asks f (itself f a) a) (calls_it f ENil)) -> fgood (asks f (itself f a) a) (calls_it f ENil) ->
  fits_stmts 16 (program (asks f (itself f a) a) (calls_it f ENil)) = true ->
  exists c, compile src = ROk c /\ forall E cap m, 256 <= cap -> m_pend m = false -> unknown E m [f; a] -> ~ short_of_fuel E -> exists j, steps E cap c j (vm_start m) = SLimit.
Proof. exact itself_run. Qed.
Example C91_example_itself : text_ok src_itself /\ slen src_itself < 2 ^ 26 /\ reads src_itself (program (asks [102] (itself [102] [97]) [97]) (calls_it [102] ENil)) /\
  fgood (asks [102] (itself [102] [97]) [97]) (calls_it [102] ENil) /\ fits_stmts 16 (program (asks [102] (itself [102] [97]) [97]) (calls_it [102] ENil)) = true /\
  unknown std0 mem_std [[102]; [97]].
Proof.
  split; [repeat (constructor; [vm_compute; split; congruence|]); constructor|]. split; [vm_compute; reflexivity|].
  split; [apply reads_parse; vm_compute; reflexivity|]. split; [exact itself_good|]. split; [vm_compute; reflexivity|]. apply short_unknown; reflexivity.
Qed.

(** The names of types mean types in an interpreter that has started. *)
Theorem C91_type_names : forall E st K, PreludeUser.with_prelude st -> knows_types (PreludeRun.UE E) (SrcModel.t_mem st) K.
Proof. exact types_prelude. Qed.
Example C91_example_type_names : PreludeUser.with_prelude (SrcModel.mkst (mkmem (PreludeRun.P ++ [OMap (new_map (-1))]) false) PreludeRun.C) /\
  kind_of (letters "Buffer") = Some (Of TyBuffer) /\ kind_of (letters "buffer") = None.
Proof. split; [exists [OMap (new_map (-1))], []; rewrite app_nil_r; reflexivity|split; reflexivity]. Qed.

Print Assumptions C91_parameters.
Print Assumptions C91_earlier_refuted.
Print Assumptions C91_later.
Print Assumptions C91_itself.
Print Assumptions C91_type_names.
