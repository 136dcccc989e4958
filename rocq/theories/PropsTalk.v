(** What programs write: C97. *)
From Coq Require Import ZArith String List Bool Lia.
From Verif Require Import BuiltinModel SysProofs LookSpec ShowModel ShowSpec.
From Verif Require Import Base StringModel FloatModel AstModel LexModel ParseModel ParseExamples ExeModel ValueModel MapModel ObjModel VmModel VmExamples
  CompSpec DepthSpec CodegenModel CompileModel CompileProofs CalcSpec CalcProofs RunProofs WhileSpec WhileProofs WhileExamples DumpExamples TalkModel TalkSpec TalkProofs TalkEnd TalkExamples.
Import ListNotations.
Open Scope Z_scope.

(** * C97 *)
(** [sometime] and [acting] (TalkSpec.v) tell what a program writes from its syntax tree: nothing of the machine is named there.
    [text]: the text of a value (ShowSpec.v). [loud]: the machine in which print writes to the stream at [k]; [written]: what is there.
    The outputs the machine has at some time are the outputs the tree has at some time. *)
Theorem C97_written_partial : forall src ss X, text_ok src -> slen src < 2 ^ 26 -> reads src ss -> tcores false ss -> incl (tnames_all ss) X -> few X ->
  (forall y, In y X -> no_nul y /\ ~ exists name, In name known_names /\ y = bytes_of name) -> fits_stmts 16 ss = true ->
  exists x, compile src = ROk x /\ forall E0 ff fb text k b cap m, (forall v, basic v -> scalar_shown ff v (text v)) -> 256 <= cap -> m_pend m = false ->
  nth_error (m_objs m) b = Some (OSMap 0) -> nth_error (m_objs m) k = Some (stream []) ->
  forall t, (exists j s, steps (loud ff fb k (std_env E0 (Some (VRef b)))) cap x j (vm_start m) = SNext s /\ written k (v_mem s) = t) <-> sometime text ss t.
Proof.
  intros src ss X T Ln R C I Fw HX Ft. destruct (talking src ss X T Ln R C I Fw HX Ft) as (x & Cp & Cd & F). exists x. split; [exact Cp|].
  intros E0 ff fb text k b cap m Text Hc Pe Hb Hk t. exact (written_now ss X x E0 ff fb text k b cap m Cd C F Fw HX Ft Text Hc Pe Hb Hk t).
Qed.

(** How it ends, and what was written then. *)
Theorem C97_ends_partial : forall src ss X, text_ok src -> slen src < 2 ^ 26 -> reads src ss -> tcores false ss -> incl (tnames_all ss) X -> few X ->
  (forall y, In y X -> no_nul y /\ ~ exists name, In name known_names /\ y = bytes_of name) -> fits_stmts 16 ss = true ->
  exists x, compile src = ROk x /\ forall E0 ff fb text k b cap m, (forall v, basic v -> scalar_shown ff v (text v)) -> 256 <= cap -> m_pend m = false ->
  nth_error (m_objs m) b = Some (OSMap 0) -> nth_error (m_objs m) k = Some (stream []) ->
  let E := loud ff fb k (std_env E0 (Some (VRef b))) in
  (forall n ws r, acting text ss n = (ws, Some r) ->
    match r with
    | Falls s => exists j l m', steps E cap x j (vm_start m) = SDone [VRef l] m' /\ written k m' = List.concat ws /\
        forall y, In y X -> select_of E m' (VRef l) (VStr y) = OOk (s y, m')
    | Gives vs => exists j m', steps E cap x j (vm_start m) = SDone vs m' /\ written k m' = List.concat ws
    | Fails => exists j s, steps E cap x j (vm_start m) = SNext s /\ step E cap x s = SErr /\ written k (v_mem s) = List.concat ws
    | Lost => exists j s, steps E cap x j (vm_start m) = SNext s /\ step E cap x s = VmModel.SUB /\ written k (v_mem s) = List.concat ws
    | Breaks _ => False
    end) /\
  ((forall n, snd (acting text ss n) = None) -> forall j, exists s, steps E cap x j (vm_start m) = SNext s).
Proof.
  intros src ss X T Ln R C I Fw HX Ft. destruct (talking src ss X T Ln R C I Fw HX Ft) as (x & Cp & Cd & F). exists x. split; [exact Cp|].
  intros E0 ff fb text k b cap m Text Hc Pe Hb Hk E. split.
  - intros n ws r A. exact (ends_so ss X x E0 ff fb text k b cap m Cd C F Fw HX Ft Text Hc Pe Hb Hk n ws r A).
  - exact (on_and_on ss X x E0 ff fb text k b cap m Cd C F Fw HX Ft Text Hc Pe Hb Hk).
Qed.

(** With more rounds nothing is taken back, and what has ended stays so. *)
Theorem C97_more : forall text ss n n', (n <= n')%nat ->
  match snd (acting text ss n) with
  | Some _ => acting text ss n' = acting text ss n
  | None => exists rest, fst (acting text ss n') = fst (acting text ss n) ++ rest
  end.
Proof.
  intros text ss n n' Le. pose proof (more_acting text ss n n' Le) as M. unfold more in M. destruct (snd (acting text ss n)); [symmetry; exact M|exact M].
Qed.

(** Every text that reads as the program counting down from [n] writes the numbers from [n] to 1, each followed by a space. *)
Theorem C97_countdown : forall src n, text_ok src -> slen src < 2 ^ 26 -> reads src (countdown n) -> 0 <= n < 2 ^ 63 ->
  exists x, compile src = ROk x /\ forall E0 ff fb text k b cap m, (forall v, basic v -> scalar_shown ff v (text v)) -> 256 <= cap -> m_pend m = false ->
  nth_error (m_objs m) b = Some (OSMap 0) -> nth_error (m_objs m) k = Some (stream []) ->
  exists j l m', steps (loud ff fb k (std_env E0 (Some (VRef b)))) cap x j (vm_start m) = SDone [VRef l] m' /\
    written k m' = List.concat (map (fun i => text (VInt i) ++ text (VStr [32])) (down (Z.to_nat n))).
Proof. exact countdown_writes. Qed.

Example C97_example_count : exists x, compile src_count = ROk x /\ exists j l m', steps (loud no_floats no_bufs 1 std0) 256 x j (vm_start mem_talk) = SDone [VRef l] m' /\
  written 1 m' = bytes "12 11 10 9 8 7 6 5 4 3 2 1 ".
Proof.
  destruct (C97_countdown src_count 12) as (x & C & H).
  - apply text_checked. reflexivity.
  - vm_compute; reflexivity.
  - apply reads_parse; vm_compute; reflexivity.
  - lia.
  - exists x. split; [exact C|].
    destruct (H env0 no_floats no_bufs (scalar_text no_floats) 1%nat 0%nat 256 mem_talk) as (j & l & m' & J & Q); [apply scalar_texts|lia|reflexivity|reflexivity|reflexivity|].
    exists j, l, m'. split; [exact J|]. rewrite Q. vm_compute. reflexivity.
Qed.

(** A program that never ends and writes one letter after the other. *)
Example C97_example_yes : exists x, compile src_yes = ROk x /\
  (forall j, exists s, steps (loud no_floats no_bufs 1 std0) 256 x j (vm_start mem_talk) = SNext s) /\
  (forall n, exists j s, steps (loud no_floats no_bufs 1 std0) 256 x j (vm_start mem_talk) = SNext s /\ written 1 (v_mem s) = repeat 121 (S n)).
Proof.
  assert (T : text_ok src_yes) by (apply text_checked; reflexivity). assert (Ln : slen src_yes < 2 ^ 26) by (vm_compute; reflexivity).
  assert (R : reads src_yes yes) by (apply reads_parse; vm_compute; reflexivity). assert (C : tcores false yes) by tfine.
  assert (Fw : few []) by (split; [constructor|left; cbn; lia]).
  destruct (C97_written_partial src_yes yes [] T Ln R C (fun y h => h) Fw (fun y h => match h with end) eq_refl) as (x & Cp & H).
  destruct (C97_ends_partial src_yes yes [] T Ln R C (fun y h => h) Fw (fun y h => match h with end) eq_refl) as (x' & Cp' & H').
  rewrite Cp in Cp'. injection Cp' as <-. exists x. split; [exact Cp|]. split.
  - apply (H' env0 no_floats no_bufs (scalar_text no_floats) 1%nat 0%nat 256 mem_talk (scalar_texts _) ltac:(lia) eq_refl eq_refl eq_refl). apply yes_goes.
  - intros n. apply (H env0 no_floats no_bufs (scalar_text no_floats) 1%nat 0%nat 256 mem_talk (scalar_texts _) ltac:(lia) eq_refl eq_refl eq_refl).
    exists (S n), (repeat [121] (S n)), []. rewrite yes_acting, app_nil_r. split; [reflexivity|].
    assert (G : forall i, repeat 121 i = List.concat (repeat [121] i)) by (induction i as [|i IH]; [reflexivity|cbn; rewrite IH; reflexivity]). apply G.
Qed.

(** A program that fails after it has written something; the arguments of the call that fails are not written. *)
Example C97_example_oops : exists x, compile src_oops = ROk x /\ exists j s, steps (loud no_floats no_bufs 1 std0) 256 x j (vm_start mem_talk) = SNext s /\
  step (loud no_floats no_bufs 1 std0) 256 x s = SErr /\ written 1 (v_mem s) = bytes "ab7true".
Proof.
  destruct (C97_ends_partial src_oops oops [v_x]) as (x & Cp & H).
  - apply text_checked. reflexivity.
  - vm_compute; reflexivity.
  - apply reads_parse; vm_compute; reflexivity.
  - tfine.
  - intros y. cbn. tauto.
  - split; [repeat constructor; vm_compute; try discriminate; reflexivity|left; cbn; lia].
  - apply short_names. intros y [<-|[]]. eexists. split; [reflexivity|discriminate].
  - reflexivity.
  - exists x. split; [exact Cp|]. destruct oops_acting as (n & A).
    exact (proj1 (H env0 no_floats no_bufs (scalar_text no_floats) 1%nat 0%nat 256 mem_talk (scalar_texts _) ltac:(lia) eq_refl eq_refl eq_refl) n _ _ A).
Qed.

Print Assumptions C97_written_partial.
Print Assumptions C97_ends_partial.
Print Assumptions C97_more.
Print Assumptions C97_countdown.
