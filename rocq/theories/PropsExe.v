(** Properties C26, C46, C47, C59: executables and the assembler. *)
From Coq Require Import ZArith List Lia Bool String.
From Verif Require Import Base StringModel FloatModel ExeModel ExeSpec ExeProofs AsmModel AsmProofs.
Import ListNotations.
Open Scope list_scope.
Open Scope Z_scope.

(** ** C26 *)
(** For every history of label creations, label definitions and emitted instructions that was accepted and finalized:
    fetching instruction i delivers the opcode and operands of the i-th emitted instruction, strings intact, each label
    operand being the value the label had or else the first value it was given later; fetching past the end is refused.
    (The string data must not reach 2 GiB.) *)
Theorem C26_fetch_what_was_emitted : forall evs b x,
  Forall event_ok evs -> data_bytes evs < 2^31 ->
  build exeb_new evs = ROk b -> exeb_finalize b = ROk x ->
  forall i, 0 <= i ->
  match nth_error (emitted [] evs) (Z.to_nat i) with
  | Some (op, ds) => exists os, ds = map Some os /\ exe_fetch x i = ROk (Some (op, os))
  | None => exe_fetch x i = ROk None
  end.
Proof. exact fetch_spec. Qed.

(** A history is accepted exactly when all operands have the types the instruction table asks for, and finalizing succeeds
    exactly when every label used gets a value. *)
Theorem C26_accepted_iff : forall evs,
  (exists b, build exeb_new evs = ROk b) <-> history_typed 0 evs.
Proof. intros evs. exact (build_iff evs exeb_new). Qed.

Theorem C26_finalized_iff : forall evs b, Forall event_ok evs -> build exeb_new evs = ROk b ->
  ((exists x, exeb_finalize b = ROk x) <-> Forall (fun e => ~ In None (snd e)) (emitted [] evs)).
Proof. exact finalize_iff. Qed.

Definition C26_history : list bevent :=
  [EvLabel; EvLabel; EvSet 0 0; EvEmit OP_PUSHSTR [PStr [104; 105]] 0 0; EvEmit OP_JUMP [PProm 1] 0 0;
   EvEmit OP_PUSHINT [PInt (-5)] 0 0; EvEmit OP_JUMP [PProm 0] 0 0; EvSet 1 4;
   EvEmit OP_PUSHFUN [PProm 0; PInt 2; PStr [102]] 0 0; EvEmit OP_JUMPIFANDPOP [PProm 1] 0 0].

Example C26_example :
  Forall event_ok C26_history /\ data_bytes C26_history < 2^31 /\ history_typed 0 C26_history /\
  exists b x, build exeb_new C26_history = ROk b /\ exeb_finalize b = ROk x /\
    map (exe_fetch x) [0; 1; 2; 3; 4; 5; 6] =
    map ROk [Some (OP_PUSHSTR, [PStr [104; 105]]); Some (OP_JUMP, [PIdx 4]); Some (OP_PUSHINT, [PInt (-5)]);
             Some (OP_JUMP, [PIdx 0]); Some (OP_PUSHFUN, [PIdx 0; PInt 2; PStr [102]]); Some (OP_JUMPIFANDPOP, [PIdx 4]); None].
Proof.
  split; [repeat constructor; unfold in_i64; cbn; lia|]. split; [reflexivity|].
  split; [cbn; repeat constructor|]. do 2 eexists. split; [vm_compute; reflexivity|].
  split; [vm_compute; reflexivity|]. vm_compute; reflexivity.
Qed.

(** ** C46 *)
(** For every sign, non-empty digit string and continuation that is neither a digit nor a fraction: the operand is accepted
    exactly when the magnitude is at most 2^63-1, and then denotes exactly the number written, nothing else being
    consumed. *)
Theorem C46_integer_operand_partial : forall sg ds rest l b, Forall is_digit ds -> ds <> [] -> ends_int rest ->
  parse_operand l b (sign_text sg ++ ds ++ rest) =
    if digits_value ds <=? 2^63 - 1 then AOk (l, b, PInt (sign_value sg (digits_value ds)), rest) else AErr.
Proof. exact asm_integer. Qed.

(** "Accepted exactly when it fits" fails for one number: -2^63 fits and is refused. *)
Theorem C46_min_refuted : exists ds, Forall is_digit ds /\ in_i64 (sign_value SgMinus (digits_value ds)) /\
  assemble true (bytes_of "PUSHINT " ++ sign_text SgMinus ++ ds ++ bytes_of ";") = AErr.
Proof.
  exists (bytes_of "9223372036854775808"). split; [repeat constructor; discriminate|].
  split; [split; vm_compute; congruence|]. vm_compute. reflexivity.
Qed.

Example C46_example : exists x,
  assemble true (bytes_of "PUSHINT -9223372036854775807; PUSHINT +0012 ;") = AOk (x, false) /\
  exe_fetch x 0 = ROk (Some (OP_PUSHINT, [PInt (-9223372036854775807)])) /\
  exe_fetch x 1 = ROk (Some (OP_PUSHINT, [PInt 12])).
Proof. eexists. split; [vm_compute; reflexivity|]. split; vm_compute; reflexivity. Qed.

(** ** C47 *)
(** Executables reported equivalent have the same instructions and operands, provided integer operands fit in 32 bits and no
    float operand is -0.0. *)
Theorem C47_equiv_sound_partial : forall x y, exe_small x -> exe_small y -> exe_equiv x y = ROk true ->
  forall j, 0 <= j -> exe_fetch x j = exe_fetch y j.
Proof. exact equiv_sound_small. Qed.

(** In general the comparison decides exactly agreement of opcodes, of the low 32 bits of integers, of floats under [==],
    and of strings. *)
Theorem C47_equiv_decides_agreement : forall x y,
  exe_equiv x y = ROk true <->
  forall j, 0 <= j -> exists a b, exe_fetch x j = ROk a /\ exe_fetch y j = ROk b /\ instr_agree a b.
Proof. intros x y. split; [exact (equiv_sound x y)|exact (equiv_complete x y)]. Qed.

(** The full claim fails: [PUSHINT 1] and [PUSHINT 4294967297] are reported equivalent. *)
Theorem C47_equiv_refuted : exists x y,
  assemble true (bytes_of "PUSHINT 1; EXIT;") = AOk (x, false) /\
  assemble true (bytes_of "PUSHINT 4294967297; EXIT;") = AOk (y, false) /\
  exe_equiv x y = ROk true /\ exe_fetch x 0 <> exe_fetch y 0.
Proof.
  do 2 eexists. split; [vm_compute; reflexivity|]. split; [vm_compute; reflexivity|].
  split; [vm_compute; reflexivity|]. vm_compute. discriminate.
Qed.

Example C47_example : exists x y,
  assemble true (bytes_of "a: PUSHSTR ""x\ny""; JUMP a;") = AOk (x, false) /\
  assemble true (bytes_of "b:PUSHSTR ""x\ny"" ;   JUMP b") = AOk (y, false) /\
  exe_equiv x y = ROk true /\ exe_small x /\ exe_small y.
Proof.
  do 2 eexists. split; [vm_compute; reflexivity|]. split; [vm_compute; reflexivity|]. split; [vm_compute; reflexivity|].
  assert (G : forall x, x_body x <> [] ->
    (forall i op os, nth_error (x_body x) (Z.to_nat i) <> None -> exe_fetch x i = ROk (Some (op, os)) -> Forall operand_small os) ->
    exe_small x).
  { intros x _ H i op os E. apply (H i op os); [|exact E]. unfold exe_fetch in E.
    destruct (i <? 0); [discriminate|]. destruct (nth_error _ _); [congruence|discriminate]. }
  split; (apply G; [discriminate|]; intros i op os Hi E; assert (Hr : i = 0 \/ i = 1)
    by (unfold exe_fetch in E; destruct (Z.ltb_spec i 0); [discriminate|]; apply nth_error_Some in Hi; cbn in Hi; lia);
    destruct Hr as [-> | ->]; vm_compute in E; injection E as <- <-; repeat constructor; cbn; unfold in_int; lia).
Qed.

(** ** C59 *)
(** The assembler gives a definite answer for every text: an executable or an error; no loop runs forever and nothing is read
    or written out of place (for texts that are followed by a terminating NUL, as those read from files are). *)
Theorem C59_assembler_total : forall text, (exists x, assemble true text = AOk x) \/ assemble true text = AErr.
Proof.
  intros text. destruct (assemble_fine text) as [H1 H2]. destruct (assemble true text) as [x| | |]; eauto; congruence.
Qed.

(** The text of a string source is not terminated: after a trailing comma the byte past its end is read. *)
Theorem C59_unterminated_refuted : exists text, assemble false text = AUB.
Proof. exists (bytes_of "CALL 1,"). vm_compute. reflexivity. Qed.

(** A text for which an error was reported can still assemble. *)
Theorem C59_reported_error_refuted : exists text x, assemble true text = AOk (x, true).
Proof. exists (bytes_of "1x: NOPE;"). eexists. vm_compute. reflexivity. Qed.

Example C59_example : assemble true (bytes_of "PUSHINT 1, 2;") = AErr /\ assemble true (bytes_of "JUMP nowhere;") = AErr.
Proof. split; vm_compute; reflexivity. Qed.

Print Assumptions C26_fetch_what_was_emitted.
Print Assumptions C26_accepted_iff.
Print Assumptions C26_finalized_iff.
Print Assumptions C46_integer_operand_partial.
Print Assumptions C46_min_refuted.
Print Assumptions C47_equiv_sound_partial.
Print Assumptions C47_equiv_decides_agreement.
Print Assumptions C47_equiv_refuted.
Print Assumptions C59_assembler_total.
Print Assumptions C59_unterminated_refuted.
Print Assumptions C59_reported_error_refuted.
