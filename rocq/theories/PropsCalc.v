(** Texts that compute a number: C74. *)
From Coq Require Import ZArith String List Bool.
From Verif Require Import Base StringModel FloatModel AstModel LexModel ParseModel ParseExamples ExeModel ValueModel MapModel ObjModel VmModel VmExamples
  CompSpec DepthSpec CodegenModel CompileModel CompileProofs CalcSpec CalcProofs CalcExamples.
Import ListNotations.
Open Scope Z_scope.

(** * C74 *)
(** [means] (CalcSpec.v) says what an expression stands for without naming the machine. *)
Theorem C74_calculates_partial : forall src e, text_ok src -> slen src < 2 ^ 26 -> reads src (SCons (SReturn e) SNil) -> pure e ->
  exists x, compile src = ROk x /\ forall E cap m, m_pend m = false ->
  (exists j, steps E cap x j (vm_start m) = SLimit) \/
  match means e with
  | AVal r => exists j m', steps E cap x j (vm_start m) = SDone [r] m'
  | AErr => exists j, steps E cap x j (vm_start m) = SErr
  | ALost => exists j, steps E cap x j (vm_start m) = VmModel.SUB
  | ANone => False
  end.
Proof. exact calculates. Qed.

(** For expressions that never hold more than 16 values at once no limit is in the way. *)
Theorem C74_calculates : forall src e, text_ok src -> slen src < 2 ^ 26 -> reads src (SCons (SReturn e) SNil) -> pure e -> fits_expr 16 MRets e 0 = true ->
  exists x, compile src = ROk x /\ forall E cap m, 256 <= cap -> m_pend m = false ->
  match means e with
  | AVal r => exists j m', steps E cap x j (vm_start m) = SDone [r] m'
  | AErr => exists j, steps E cap x j (vm_start m) = SErr
  | ALost => exists j, steps E cap x j (vm_start m) = VmModel.SUB
  | ANone => False
  end.
Proof. exact calculates_all. Qed.

(** A sum, product or remainder out of range is not reported. *)
Theorem C74_out_of_range_refuted : exists src e, text_ok src /\ slen src < 2 ^ 26 /\ reads src (SCons (SReturn e) SNil) /\ pure e /\ means e = ALost /\
  exists x, compile src = ROk x /\ steps env0 100 x 20 (vm_start mem0) = VmModel.SUB.
Proof.
  exists (bytes "return 9223372036854775807 + 1;"), (EBin BAdd (EInt 9223372036854775807) (EInt 1)).
  split; [repeat (constructor; [vm_compute; split; congruence|]); constructor|].
  split; [vm_compute; reflexivity|].
  split; [apply reads_parse; vm_compute; reflexivity|].
  split; [cbn; intuition discriminate|].
  split; [vm_compute; reflexivity|].
  match goal with |- exists x, compile ?t = _ /\ _ => let c := eval vm_compute in (compile t) in match c with ROk ?y => exists y end end.
  split; vm_compute; reflexivity.
Qed.

Definition src_calc : list Z := bytes "return (7 - -3 * 4) % 5 == 4 and not (1 / 2 >= 1) or none;".
Definition src_half : list Z := bytes "return 3 * (2 - 0.5) / 2;".
Definition src_zero : list Z := bytes "return 1 + 2 / (3 - 3);".

Example C74_example : text_ok src_calc /\ slen src_calc < 2 ^ 26 /\
  (exists e, reads src_calc (SCons (SReturn e) SNil) /\ pure e /\ fits_expr 16 MRets e 0 = true /\ means e = AVal (VBool true)) /\
  match compile src_calc with
  | ROk x => outcome (steps env0 100 x 60 (vm_start mem0)) = SDone [VBool true] mem0
  | _ => False
  end /\
  (exists e, reads src_half (SCons (SReturn e) SNil) /\ pure e /\ means e = AVal (VFloat (f_div (f_of_int 9) (f_of_int 4)))) /\
  (exists e, reads src_zero (SCons (SReturn e) SNil) /\ pure e /\ means e = AErr).
Proof.
  split; [repeat (constructor; [vm_compute; split; congruence|]); constructor|].
  split; [vm_compute; reflexivity|].
  split; [eexists; split; [apply reads_parse; vm_compute; reflexivity|split; [cbn; intuition discriminate|split; vm_compute; reflexivity]]|].
  split; [vm_compute; reflexivity|].
  split; (eexists; split; [apply reads_parse; vm_compute; reflexivity|split; [cbn; intuition discriminate|vm_compute; reflexivity]]).
Qed.

(** Strings are equal when their bytes are; there is no arithmetic on them. *)
Example C74_example_text : text_ok src_text /\ slen src_text < 2 ^ 26 /\
  (exists e, reads src_text (SCons (SReturn e) SNil) /\ pure e /\ fits_expr 16 MRets e 0 = true /\ means e = AVal (VBool true)) /\
  (exists e, reads src_text_bad (SCons (SReturn e) SNil) /\ pure e /\ means e = AErr).
Proof.
  split; [repeat (constructor; [vm_compute; split; congruence|]); constructor|].
  split; [vm_compute; reflexivity|].
  split; eexists; (split; [apply reads_parse; vm_compute; reflexivity|split; [cbn -[chars]; intuition (try discriminate; chars_solve)|try split; vm_compute; reflexivity]]).
Qed.

Print Assumptions C74_calculates_partial.
Print Assumptions C74_calculates.
Print Assumptions C74_out_of_range_refuted.
