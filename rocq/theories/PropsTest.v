(** C82: the program that runs the tests. *)
From Coq Require Import ZArith String List Bool Lia.
From Verif Require Import Base StringModel ValueModel ObjModel ExeModel ExeProofs VmModel BuiltinModel CompileModel MoveSpec TestModel TestSpec TestProofs TestDir AsmProofs VmExamples.
From Verif Require AsmModel.
Import ListNotations.
Open Scope string_scope.
Open Scope list_scope.
Open Scope Z_scope.

(** Up to seven fields are read back as they were written, wherever spaces are, and everything that was allocated is given back. *)
Theorem C82_fields_read : forall moves ws tail,
  Forall w_ok ws -> NoDup (map w_name ws) -> (List.length ws <= 7)%nat -> Forall is_space tail ->
  exists t, parse_test moves (ws_text ws tail) = PtOk t /\
    map (fun f => (tf_name f, tf_body f)) (t_fields t) = ws_pairs ws /\ free_test t = true.
Proof.
  intros moves ws tail H1 H2 H3 H4. eexists. split; [exact (read_written moves ws tail H1 H2 H3 H4)|]. split.
  - cbn [t_fields]. rewrite map_map. reflexivity.
  - apply young_free. repeat split. cbn [t_fields]. apply Forall_forall. intros f Hi.
    apply in_map_iff in Hi as (w & <- & _). split; reflexivity.
Qed.
(** A name given twice is refused, whatever follows. *)
Theorem C82_duplicate_refused : forall moves ws w rest,
  Forall w_ok ws -> NoDup (map w_name ws) -> (List.length ws <= 7)%nat -> w_ok w -> In (w_name w) (map w_name ws) ->
  parse_test moves (concat (map w_text ws) ++ w_text w ++ rest) = PtErr TE_DUPL.
Proof. exact duplicate_refused. Qed.
Theorem C82_duplicate_aborted : forall moves types ws w rest,
  Forall w_ok ws -> NoDup (map w_name ws) -> (List.length ws <= 7)%nat -> w_ok w -> In (w_name w) (map w_name ws) ->
  run_test_string moves types (concat (map w_text ws) ++ w_text w ++ rest) = TDone TAborted.
Proof. intros moves types ws w rest H1 H2 H3 H4 H5. unfold run_test_string. now rewrite (duplicate_refused moves ws w rest H1 H2 H3 H4 H5). Qed.
(** Whatever the text, reading it ends. *)
Theorem C82_reading_ends : forall moves s, parse_test moves s <> PtFuel.
Proof. exact parse_test_ends. Qed.
(** Whatever the text, the names that are read are different from each other and made of letters, and no body has an at sign. *)
Theorem C82_names : forall moves s t, parse_test moves s = PtOk t ->
  NoDup (map tf_name (t_fields t)) /\
  forall f, In f (t_fields t) -> tf_name f <> [] /\ Forall is_letter (tf_name f) /\ ~ In 64 (tf_body f).
Proof. exact test_names. Qed.
(** With at most seven at signs in the text, nothing undefined happens outside the test itself. *)
Theorem C82_few_fields_safe_partial : forall moves types s, (ats s <= 7)%nat -> run_test_string moves types s = TStuck ->
  exists y inputs, In y types /\ tt_run y inputs = TStuck.
Proof. exact few_safe. Qed.
(** With eight fields or more, one of the first eight having a short name or a short body, no test can pass, nor fail: what is given
    to free did not come from malloc. *)
Theorem C82_many_fields_never_pass : forall moves types s t, parse_test moves s = PtOk t -> (8 <= List.length (t_fields t))%nat ->
  (exists f, In f (firstn 8 (t_fields t)) /\
     (Z.of_nat (List.length (tf_name f)) < 128 \/ Z.of_nat (List.length (tf_body f)) < 512)) ->
  run_test_string moves types s <> TDone TPassed /\ run_test_string moves types s <> TDone TFailed.
Proof. exact many_never_pass. Qed.
(** So the claim without a bound on the number of fields fails: with five more fields, a test that passes does not. *)
Theorem C82_many_fields_refuted : exists src extra,
  run_test_string (fun _ => true) (noja_types (fun _ => []) (fun _ => []) (std_env env0 (Some (VRef 0))) 100000 (mkmem [OSMap 0] false) 10) src = TDone TPassed /\
  run_test_string (fun _ => true) (noja_types (fun _ => []) (fun _ => []) (std_env env0 (Some (VRef 0))) 100000 (mkmem [OSMap 0] false) 10) (src ++ extra) = TStuck.
Proof.
  exists (bytes_of "@type [compiler] @source { 1; } @bytecode { PUSHINT 1; POP 1; EXIT; }"),
         (bytes_of " @a [] @b [] @c [] @d [] @e []"). split; vm_compute; reflexivity.
Qed.
(** A body that has its closing bracket inside is cut there: the test cannot be read. *)
Theorem C82_bracket_refuted : exists src,
  src = bytes_of "@type [compiler] @source [x = [1];] @bytecode []" /\ forall moves, parse_test moves src = PtErr TE_NOAT.
Proof. eexists. split; [reflexivity|]. intros moves. vm_compute. reflexivity. Qed.
(** A test of the compiler passes exactly if both texts are accepted and at every place the two programs have the same instruction,
    up to the bits that the comparison does not see (C47). *)
Theorem C82_compiler_test : forall moves ff fb E size m n ws tail source bytecode,
  Forall w_ok ws -> NoDup (map w_name ws) -> (List.length ws <= 7)%nat -> Forall is_space tail ->
  In (bytes_of "type", bytes_of "compiler") (ws_pairs ws) ->
  In (bytes_of "source", source) (ws_pairs ws) -> In (bytes_of "bytecode", bytecode) (ws_pairs ws) ->
  (run_test_string moves (noja_types ff fb E size m n) (ws_text ws tail) = TDone TPassed <->
   exists a b bad, compile source = ROk a /\ AsmModel.assemble true bytecode = AsmModel.AOk (b, bad) /\
     forall j, 0 <= j -> exists i k, exe_fetch a j = ROk i /\ exe_fetch b j = ROk k /\ instr_agree i k).
Proof.
  intros moves ff fb E size m n ws tail source bytecode H1 H2 H3 H4 H5 H6 H7.
  rewrite (compiler_passes moves ff fb E size m n ws tail source bytecode H1 H2 H3 H4 H5 H6 H7).
  split; intros (a & b & bad & Ha & Hb & He); exists a, b, bad; (split; [exact Ha|]); (split; [exact Hb|]).
  - exact (equiv_sound a b He).
  - exact (equiv_complete a b He).
Qed.
(** A test of the machine passes exactly if the assembled program ends and wrote the expected text, of less than 1024 bytes. *)
Theorem C82_runtime_test : forall moves ff fb E size m n ws tail bytecode output,
  Forall w_ok ws -> NoDup (map w_name ws) -> (List.length ws <= 7)%nat -> Forall is_space tail ->
  In (bytes_of "type", bytes_of "runtime") (ws_pairs ws) ->
  In (bytes_of "bytecode", bytecode) (ws_pairs ws) -> In (bytes_of "output", output) (ws_pairs ws) ->
  (run_test_string moves (noja_types ff fb E size m n) (ws_text ws tail) = TDone TPassed <->
   exists x v m' text, AsmModel.assemble true bytecode = AsmModel.AOk (x, false) /\
     steps E size x n (vm_start m) = SDone v m' /\
     all_written (written ff fb E size x n (vm_start m)) = OOk text /\
     Z.of_nat (List.length text) < 1024 /\ c_string text = output).
Proof. exact runtime_passes. Qed.
(** Every test below a directory is run and counted once, under how it ended; nothing else is counted. *)
Theorem C82_every_test_counted : forall moves types dir l, fits dir l ->
  exists cs, found l cs /\
    forall rs, Forall2 (fun c r => run_test_string moves types (c_string c) = TDone r) cs rs ->
      run_dir moves types dir l = DrOk (mktc (ended TPassed rs) (ended TFailed rs) (ended TAborted rs)).
Proof.
  intros moves types dir l Hf. destruct (found_total l) as [cs Hcs]. exists cs. split; [exact Hcs|].
  intros rs Hrs. exact (dir_counts moves types l cs Hcs dir rs Hf Hrs).
Qed.
(** Without the bound on the length of paths this fails: directories five deep overrun the room for a path. *)
Theorem C82_long_path_refuted : exists l, found l [] /\ forall moves types, run_dir moves types (bytes_of "tests") l = DrStuck.
Proof.
  pose (n := repeat 97 255).
  exists [DDir n [DDir n [DDir n [DDir n [DOther n]]]]]. split.
  - assert (Hh : ~ hidden n) by (intros [r E]; discriminate E).
    repeat (apply (found_dir _ _ _ [] []); [exact Hh| |constructor]). apply found_other; [exact Hh|constructor].
  - intros. vm_compute. reflexivity.
Qed.

(** The hypotheses of the theorems about written fields are met by tests like those of the repository. *)
Example C82_example : exists ws,
  Forall w_ok ws /\ NoDup (map w_name ws) /\ (List.length ws <= 7)%nat /\
  In (bytes_of "type", bytes_of "compiler") (ws_pairs ws) /\
  ws_text ws [10] = bytes_of "@type [compiler] @source { 1; } @bytecode	{ PUSHINT 1; POP 1; EXIT; }" ++ [10] /\
  run_test_string (fun _ => true) (noja_types (fun _ => []) (fun _ => []) (std_env env0 (Some (VRef 0))) 100000 (mkmem [OSMap 0] false) 10)
    (ws_text ws [10]) = TDone TPassed.
Proof.
  exists [mkw [] (bytes_of "type") [32] true (bytes_of "compiler"); mkw [32] (bytes_of "source") [32] false (bytes_of " 1; ");
          mkw [32] (bytes_of "bytecode") [9] false (bytes_of " PUSHINT 1; POP 1; EXIT; ")].
  split; [|split; [|split; [|split; [|split]]]].
  - repeat (apply Forall_cons; [apply w_ok_check; vm_compute; reflexivity|]). apply Forall_nil.
  - cbn [map w_name]. repeat (constructor; [intros H; cbn [In] in H; repeat destruct H as [H|H]; try discriminate H; exact H|]). constructor.
  - cbn. lia.
  - left. reflexivity.
  - vm_compute. reflexivity.
  - vm_compute. reflexivity.
Qed.
(** A test of the machine, and a directory. *)
Example C82_directory_example :
  let types := noja_types (fun _ => []) (fun _ => []) (std_env env0 (Some (VRef 0))) 100000 (mkmem [OSMap 0] false) 20 in
  let passes := bytes_of "@type [runtime] @bytecode { PUSHSTR ""hi""; PUSHVAR ""print""; CALL 1, 1; POP 1; EXIT; } @output [hi]" in
  let fails := bytes_of "@type [runtime] @bytecode { PUSHSTR ""hi""; PUSHVAR ""print""; CALL 1, 1; POP 1; EXIT; } @output [ho]" in
  let aborts := bytes_of "@source {}" in
  let l := [DFile (bytes_of "a.noja-test") passes; DFile (bytes_of ".b.noja-test") fails; DFile (bytes_of "c.noja") fails;
            DDir (bytes_of "d") [DFile (bytes_of "e.noja-test") fails; DFile (bytes_of "f.g.noja-test") aborts]] in
  fits (bytes_of "tests/") l /\ found l ([passes] ++ [fails; aborts] ++ []) /\
  run_dir (fun _ => true) types (bytes_of "tests/") l = DrOk (mktc 1 1 1).
Proof.
  intros types passes fails aborts l. split; [|split].
  - assert (J : forall n, joins (bytes_of "tests/") n (bytes_of "tests/" ++ n)) by (intros n; left; split; [exists (bytes_of "tests"); reflexivity|reflexivity]).
    assert (J' : forall n, joins (bytes_of "tests/d") n (bytes_of "tests/d/" ++ n)).
    { intros n; right; split; [exists (bytes_of "tests/"), 100; split; [reflexivity|discriminate]|reflexivity]. }
    eapply fits_file; [apply J|vm_compute; discriminate|]. apply fits_hidden; [eexists; reflexivity|].
    eapply fits_file; [apply J|vm_compute; discriminate|].
    eapply fits_dir; [apply J|vm_compute; discriminate| |constructor].
    eapply fits_file; [apply J'|vm_compute; discriminate|]. eapply fits_file; [apply J'|vm_compute; discriminate|constructor].
  - assert (N : forall c r, c <> 46 -> ~ hidden (c :: r)) by (intros c r Hc [r' E]; injection E; intros; contradiction).
    apply found_test; [apply N; discriminate|exists (bytes_of "a"); reflexivity|].
    apply found_hidden; [eexists; reflexivity|].
    apply found_file; [apply N; discriminate|intros H; apply extension_test in H; discriminate H|].
    apply found_dir; [apply N; discriminate| |constructor].
    apply found_test; [apply N; discriminate|exists (bytes_of "e"); reflexivity|].
    apply found_test; [apply N; discriminate|exists (bytes_of "f.g"); reflexivity|]. constructor.
  - vm_compute. reflexivity.
Qed.
Print Assumptions C82_fields_read.
Print Assumptions C82_duplicate_refused.
Print Assumptions C82_reading_ends.
Print Assumptions C82_names.
Print Assumptions C82_few_fields_safe_partial.
Print Assumptions C82_many_fields_never_pass.
Print Assumptions C82_many_fields_refuted.
Print Assumptions C82_bracket_refuted.
Print Assumptions C82_compiler_test.
Print Assumptions C82_runtime_test.
Print Assumptions C82_every_test_counted.
Print Assumptions C82_long_path_refuted.
Print Assumptions C82_duplicate_aborted.
