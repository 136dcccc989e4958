(** C95: the listing of a program. *)
From Coq Require Import ZArith String List Lia Bool.
From Verif Require Import Base StringModel ExeModel ExeSpec AsmModel AstModel CompSpec LexModel LexSpec ParseModel ParseSpec CompileModel CompileProofs ShowModel ShowProofs DumpModel DumpSpec DumpProofs DumpBuilt DumpExamples.
Import ListNotations.
Open Scope list_scope.
Open Scope Z_scope.

(** Every program the builder finishes can be listed: a numbered line for each instruction emitted, in order, with its name and the operands
    Executable_Fetch delivers. *)
Theorem C95_listing : forall pf evs x, Forall event_ok evs -> data_bytes evs < 2 ^ 31 -> Z.of_nat (List.length (emitted [] evs)) < 2 ^ 31 -> made evs x ->
  exists cs t, emitted [] evs = map (fun c => (fst c, map Some (snd c))) cs /\ dump pf x = ROk t /\ listed pf 0 cs t.
Proof. exact made_listed. Qed.

Example C95_listing_ex : Forall event_ok countdown /\ data_bytes countdown < 2 ^ 31 /\ Z.of_nat (List.length (emitted [] countdown)) < 2 ^ 31 /\ made countdown (made_of countdown) /\
  dump bits_text (made_of countdown) = ROk (lines_of ["0: PUSHINT 10 "; "1: ASS [n] "; "2: PUSHVAR [n] "; "3: JUMPIFNOTANDPOP 5 "; "4: JUMP 1 "; "5: PUSHFLT 42 "; "6: RETURN -1 "]%string).
Proof.
  split; [|split; [vm_compute; reflexivity|split; [vm_compute; reflexivity|split; [eexists; split; [vm_compute; reflexivity|vm_compute; reflexivity]|vm_compute; reflexivity]]]].
  unfold countdown. repeat constructor; cbn; unfold in_i64; try lia; repeat constructor; lia.
Qed.

(** Every text that compiles can be listed, and the listing is that of the code of the program the text reads as. *)
Theorem C95_compiled : forall pf src x, text_ok src -> slen src < 2 ^ 26 -> compile src = ROk x ->
  exists ss t, reads src ss /\ dump pf x = ROk t /\ listed pf 0 (comp_program (SComp ss)) t.
Proof. exact compiled_listed. Qed.

Example C95_compiled_ex : let src := bytes_of "i = 0; while i < 3: i = i + 1;" in text_ok src /\ slen src < 2 ^ 26 /\
  exists x, compile src = ROk x /\ dump bits_text x = ROk (lines_of ["0: PUSHINT 0 "; "1: ASS [i] "; "2: POP 1 "; "3: PUSHVAR [i] "; "4: PUSHINT 3 "; "5: LSS ";
    "6: JUMPIFNOTANDPOP 13 "; "7: PUSHVAR [i] "; "8: PUSHINT 1 "; "9: ADD "; "10: ASS [i] "; "11: POP 1 "; "12: JUMP 3 "; "13: EXIT "]%string).
Proof. cbv zeta. split; [apply text_checked; reflexivity|split; [vm_compute; reflexivity|eexists; split; [vm_compute; reflexivity|vm_compute; reflexivity]]]. Qed.

(** What is listed says what the instructions are: when no string has a line break in it, programs with the same listing have the same
    instructions, up to floats written alike (a float's text has no space and no line break). *)
Theorem C95_tells : forall pf evs evs' x y, (forall b, ~ In 32 (pf b) /\ ~ In 10 (pf b)) ->
  Forall event_ok evs -> data_bytes evs < 2 ^ 31 -> Z.of_nat (List.length (emitted [] evs)) < 2 ^ 31 -> made evs x -> all_one_line x ->
  Forall event_ok evs' -> data_bytes evs' < 2 ^ 31 -> Z.of_nat (List.length (emitted [] evs')) < 2 ^ 31 -> made evs' y -> all_one_line y ->
  dump pf x = dump pf y -> forall i, 0 <= i -> same_at pf x y i.
Proof. exact made_tells. Qed.

(** And nothing else: programs with the same instructions are listed alike, wherever the instructions were in the source. *)
Theorem C95_alike : forall pf evs evs' x y, Forall event_ok evs -> data_bytes evs < 2 ^ 31 -> made evs x -> Forall event_ok evs' -> data_bytes evs' < 2 ^ 31 -> made evs' y ->
  (forall i, 0 <= i -> same_at pf x y i) -> dump pf x = dump pf y.
Proof. exact made_alike. Qed.

(** Two different histories (labels, places in the source) with the same instructions; and the conditions on the strings and on the text of a float. *)
Example C95_tells_ex : made [EvEmit OP_JUMP [PIdx 1] 0 2; EvEmit OP_ASS [PStr (bytes_of "a] b [")] 2 3] (made_of [EvEmit OP_JUMP [PIdx 1] 0 2; EvEmit OP_ASS [PStr (bytes_of "a] b [")] 2 3]) /\
  made [EvLabel; EvEmit OP_JUMP [PProm 0] 7 7; EvSet 0 1; EvEmit OP_ASS [PStr (bytes_of "a] b [")] 8 1] (made_of [EvLabel; EvEmit OP_JUMP [PProm 0] 7 7; EvSet 0 1; EvEmit OP_ASS [PStr (bytes_of "a] b [")] 8 1]) /\
  dump bits_text (made_of [EvEmit OP_JUMP [PIdx 1] 0 2; EvEmit OP_ASS [PStr (bytes_of "a] b [")] 2 3]) = dump bits_text (made_of [EvLabel; EvEmit OP_JUMP [PProm 0] 7 7; EvSet 0 1; EvEmit OP_ASS [PStr (bytes_of "a] b [")] 8 1]) /\
  one_line (PStr (bytes_of "a] b [")) /\ ~ In 32 (bits_text 77) /\ ~ In 10 (bits_text 77).
Proof.
  split; [eexists; split; [vm_compute; reflexivity|vm_compute; reflexivity]|]. split; [eexists; split; [vm_compute; reflexivity|vm_compute; reflexivity]|]. split; [vm_compute; reflexivity|].
  split; [vm_compute; intuition discriminate|split; vm_compute; intuition discriminate].
Qed.

(** Without the condition on strings it is false, already of compiled texts: strings are written as they are. *)
Theorem C95_tells_refuted : exists src src' x y i, text_ok src /\ text_ok src' /\ compile src = ROk x /\ compile src' = ROk y /\
  (forall pf, dump pf x = dump pf y) /\ 0 <= i /\ exe_fetch x i <> exe_fetch y i.
Proof.
  exists src_first, src_second. do 2 eexists. exists 0. split; [apply text_checked; vm_compute; reflexivity|]. split; [apply text_checked; vm_compute; reflexivity|].
  split; [vm_compute; reflexivity|]. split; [vm_compute; reflexivity|]. split; [intros pf; vm_compute; reflexivity|]. split; [lia|]. vm_compute. discriminate.
Qed.
Print Assumptions C95_listing.
Print Assumptions C95_compiled.
Print Assumptions C95_tells.
Print Assumptions C95_alike.
Print Assumptions C95_tells_refuted.
