(** Programs made of functions: C88. *)
From Coq Require Import ZArith String List Bool Lia.
From Verif Require Import BuiltinModel SysProofs LookSpec.
From Verif Require Import Base StringModel FloatModel AstModel LexModel ParseModel ParseExamples ExeModel ValueModel MapModel ObjModel VmModel VmExamples
  CompSpec DepthSpec CodegenModel CompileModel CompileProofs CalcSpec FuelProofs WhileSpec WhileProofs WhileExamples FunSpec FunProofs FunRun FunTypes FunExamples.
Import ListNotations.
Open Scope Z_scope.

(** * C88 *)
(** What is told of a program made of functions, on assignments of values to names, with at most fifteen calls under way, is what its compiled
    code does on the machine: the same values and results; an error where something is wrong; the limit where the sixteenth call is made, and
    nowhere else. *)
Theorem C88_functions_partial : forall src ds ss, text_ok src -> slen src < 2 ^ 26 -> reads src (program ds ss) -> fgood ds ss -> fits_stmts 16 (program ds ss) = true ->
  exists x, compile src = ROk x /\ forall E cap m, 256 <= cap -> m_pend m = false -> unknown E m (fnames ds ss) -> knows_types E m (fkinds ds) ->
  forall n,
  match ftold ds ss n (Some 15%nat) with
  | Told (Fell s) => exists j l m', steps E cap x j (vm_start m) = SDone [VRef l] m' /\
      forall y, In y (fmentions_all ss) -> select_of E m' (VRef l) (VStr y) = OOk (s y, m')
  | Told (Gave vs) => exists j m', steps E cap x j (vm_start m) = SDone vs m'
  | Told (Broke _) => False
  | Wrong => exists j, steps E cap x j (vm_start m) = SErr
  | Overflows => exists j, steps E cap x j (vm_start m) = VmModel.SUB
  | Deep => ~ short_of_fuel E -> exists j, steps E cap x j (vm_start m) = SLimit
  | Unfinished => ~ short_of_fuel E -> exists s, steps E cap x n (vm_start m) = SNext s
  end.
Proof. exact fperforms. Qed.

(** Two results of a call in a loop, a function that sees a variable of the program, an argument and a result that nobody takes. *)
Example C88_example_divide : exists x, compile src_divide = ROk x /\ exists j l m', steps std0 256 x j (vm_start mem_std) = SDone [VRef l] m' /\
  select_of std0 m' (VRef l) (VStr [113]) = OOk (Some (VInt 13), m') /\ select_of std0 m' (VRef l) (VStr [114]) = OOk (Some (VInt 0), m') /\
  select_of std0 m' (VRef l) (VStr [116]) = OOk (Some VNone, m').
Proof.
  destruct (C88_functions_partial src_divide (fst divide) (snd divide)) as (x & C & H).
  - repeat (constructor; [vm_compute; split; congruence|]); constructor.
  - vm_compute; reflexivity.
  - apply reads_parse; vm_compute; reflexivity.
  - exact divide_good.
  - vm_compute; reflexivity.
  - exists x. split; [exact C|]. specialize (H std0 256 mem_std ltac:(lia) eq_refl (short_unknown (fnames (fst divide) (snd divide)) eq_refl) (types_std env0 mem_std (fkinds (fst divide)) 0 eq_refl) 40%nat).
    pose proof divide_told as V. destruct (ftold (fst divide) (snd divide) 40 (Some 15%nat)) as [[s|s|vs]| | | |]; try contradiction.
    destruct H as (j & l & m' & J & S). exists j, l, m'. split; [exact J|].
    rewrite !S by (cbn; tauto). destruct V as (-> & -> & ->). auto.
Qed.

(** Functions that call each other. *)
Example C88_example_parity : exists x, compile src_parity = ROk x /\ exists j m', steps std0 256 x j (vm_start mem_std) = SDone [VBool true; VBool false; VBool true] m'.
Proof.
  destruct (C88_functions_partial src_parity (fst parity) (snd parity)) as (x & C & H).
  - repeat (constructor; [vm_compute; split; congruence|]); constructor.
  - vm_compute; reflexivity.
  - apply reads_parse; vm_compute; reflexivity.
  - exact parity_good.
  - vm_compute; reflexivity.
  - exists x. split; [exact C|]. specialize (H std0 256 mem_std ltac:(lia) eq_refl (short_unknown (fnames (fst parity) (snd parity)) eq_refl) (types_std env0 mem_std (fkinds (fst parity)) 0 eq_refl) 40%nat).
    replace (ftold (fst parity) (snd parity) 40 (Some 15%nat)) with (Told (Gave [VBool true; VBool false; VBool true])) in H by (vm_compute; reflexivity).
    exact H.
Qed.

(** What was told to the end does not change when more is told. *)
Theorem C88_more : forall ds ss d n k, (n <= k)%nat -> ftold ds ss n d <> Unfinished -> ftold ds ss k d = ftold ds ss n d.
Proof. exact ftold_more. Qed.
Example C88_example_more : ftold (fst parity) (snd parity) 11 (Some 15%nat) = Unfinished /\ ftold (fst parity) (snd parity) 12 (Some 15%nat) <> Unfinished.
Proof. split; vm_compute; [reflexivity|discriminate]. Qed.

(** A program of which there is always more to tell runs forever, however many calls it makes one after the other. *)
Theorem C88_forever : forall src ds ss, text_ok src -> slen src < 2 ^ 26 -> reads src (program ds ss) -> fgood ds ss -> fits_stmts 16 (program ds ss) = true ->
  (forall n, ftold ds ss n (Some 15%nat) = Unfinished) ->
  exists x, compile src = ROk x /\ forall E cap m, 256 <= cap -> m_pend m = false -> unknown E m (fnames ds ss) -> knows_types E m (fkinds ds) -> ~ short_of_fuel E ->
  forall n, exists s, steps E cap x n (vm_start m) = SNext s.
Proof. exact fforever. Qed.
Example C88_example_forever : text_ok src_calls /\ slen src_calls < 2 ^ 26 /\ reads src_calls (program (fst calls_ever) (snd calls_ever)) /\
  fgood (fst calls_ever) (snd calls_ever) /\ fits_stmts 16 (program (fst calls_ever) (snd calls_ever)) = true /\
  (forall n, ftold (fst calls_ever) (snd calls_ever) n (Some 15%nat) = Unfinished) /\ unknown std0 mem_std (fnames (fst calls_ever) (snd calls_ever)) /\ knows_types std0 mem_std (fkinds (fst calls_ever)).
Proof.
  split; [repeat (constructor; [vm_compute; split; congruence|]); constructor|]. split; [vm_compute; reflexivity|].
  split; [apply reads_parse; vm_compute; reflexivity|]. split; [exact calls_good|]. split; [vm_compute; reflexivity|]. split; [exact calls_unfinished|].
  split; [apply short_unknown; vm_compute; reflexivity|]. apply types_std. reflexivity.
Qed.

(** Every text that reads as the recursive factorial computes the factorial up to 15; from 16 on it ends at the limit of calls. *)
Theorem C88_factorial : forall src a, text_ok src -> slen src < 2 ^ 26 -> reads src (program [fact_def] (fact_main a)) -> 0 <= a < 2 ^ 63 ->
  exists x, compile src = ROk x /\ forall E cap m, 256 <= cap -> m_pend m = false -> unknown E m [n_f; n_n] ->
  (a <= 15 -> exists j m', steps E cap x j (vm_start m) = SDone [VInt (factorial a)] m') /\
  (16 <= a -> ~ short_of_fuel E -> exists j, steps E cap x j (vm_start m) = SLimit).
Proof. exact fact_runs. Qed.
Example C88_example_factorial : text_ok (src_fact "15") /\ slen (src_fact "15") < 2 ^ 26 /\ reads (src_fact "15") (program [fact_def] (fact_main 15)) /\
  reads (src_fact "16") (program [fact_def] (fact_main 16)) /\ unknown std0 mem_std [n_f; n_n] /\ factorial 15 = 1307674368000.
Proof.
  split; [repeat (constructor; [vm_compute; split; congruence|]); constructor|]. split; [vm_compute; reflexivity|].
  split; [apply reads_parse; vm_compute; reflexivity|]. split; [apply reads_parse; vm_compute; reflexivity|]. split; [apply short_unknown; vm_compute; reflexivity|reflexivity].
Qed.

Print Assumptions C88_functions_partial.
Print Assumptions C88_more.
Print Assumptions C88_forever.
Print Assumptions C88_factorial.
