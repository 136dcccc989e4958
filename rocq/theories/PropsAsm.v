(** Property C63: assembly texts. *)
From Coq Require Import ZArith List Lia Bool String.
From Verif Require Import Base StringModel ExeModel AsmModel AsmProofs AsmSpec AsmLabels ParseModel.
Import ListNotations.
Open Scope list_scope.
Open Scope Z_scope.

(** ** C63 A text assembles to the instructions that are written in it *)
(** However a program is laid out, if every line is well typed and every label it mentions exists, then the text assembles without
    a reported error, and fetching instruction [k] delivers what line [k] says; past the last line fetching is refused. *)
Theorem C63_assembles : forall term prog text, writes prog text -> Z.of_nat (List.length text) < 2 ^ 31 ->
  (forall k, (k < List.length prog)%nat -> line_value prog k <> None) ->
  exists x, assemble term text = AOk (x, false) /\ forall k, exe_fetch x (Z.of_nat k) = ROk (line_value prog k).
Proof.
  intros term prog text W L H. pose proof (assembles term prog text W L) as A. destruct (assemble term text) as [[x bad]| | |]; try contradiction.
  - destruct A as (-> & _ & A). eauto.
  - destruct A as (k & A1 & A2). exfalso. exact (H k A1 A2).
Qed.

(** Otherwise the text is refused. *)
Theorem C63_refuses : forall term prog text k, writes prog text -> Z.of_nat (List.length text) < 2 ^ 31 ->
  (k < List.length prog)%nat -> line_value prog k = None -> assemble term text = AErr.
Proof.
  intros term prog text k W L H1 H2. pose proof (assembles term prog text W L) as A. destruct (assemble term text) as [[x bad]| | |]; try contradiction; [|reflexivity].
  destruct A as (_ & A & _). exfalso. exact (A k H1 H2).
Qed.

(** A label that is given to line [j] only is the number [j] wherever it is used. *)
Theorem C63_labels : forall prog k j ln a, labels_once prog -> nth_error prog j = Some ln -> ln_label ln = Some a ->
  target prog k a = Some (Z.of_nat j).
Proof. exact target_once. Qed.

(** A label given to two lines is accepted, and means different lines in different places. *)
Theorem C63_duplicate_label_refuted : exists x,
  assemble true (bytes_of "JUMP a; a: NOPE; a: JUMP a;") = AOk (x, false) /\
  exe_fetch x 0 = ROk (Some (OP_JUMP, [PIdx 1])) /\ exe_fetch x 2 = ROk (Some (OP_JUMP, [PIdx 2])).
Proof. eexists. split; [vm_compute; reflexivity|]. split; vm_compute; reflexivity. Qed.

(** A number with a fractional part is not always the one that the same text means in a program: 0.3 is one step above it. *)
Theorem C63_fraction_refuted : exists x,
  assemble true (bytes_of "PUSHFLT 0.3;") = AOk (x, false) /\
  exe_fetch x 0 = ROk (Some (OP_PUSHFLT, [PFlt (flt_value (bytes_of "0.3") + 1)])).
Proof. eexists. split; [vm_compute; reflexivity|]. vm_compute; reflexivity. Qed.

Definition C63_program : list line :=
  [mkline None OP_JUMP [GLab (bytes_of "end")]; mkline (Some (bytes_of "f_1")) OP_PUSHSTR [GStr [104; 10; 34]];
   mkline (Some (bytes_of "end")) OP_PUSHFUN [GLab (bytes_of "f_1"); GInt (-2); GStr []]; mkline None OP_PUSHFLT [GFlt 13835733595226269286];
   mkline None OP_EXIT []].
Definition C63_text : list Z := bytes_of " JUMP end ;f_1 : PUSHSTR  ""h\n\"""";end:PUSHFUN f_1,-2 , """"; PUSHFLT -2.3 ; EXIT".

Example C63_example : writes C63_program C63_text /\ labels_once C63_program /\
  (forall k, (k < List.length C63_program)%nat -> line_value C63_program k <> None) /\
  line_value C63_program 2 = Some (OP_PUSHFUN, [PIdx 1; PInt (-2); PStr []]) /\
  line_value C63_program 3 = Some (OP_PUSHFLT, [PFlt 13835733595226269286]).
Proof.
  assert (B0 : blank []) by constructor. assert (B1 : blank [32]) by (constructor; [lia|constructor]).
  assert (B2 : blank [32; 32]) by (constructor; [lia|exact B1]).
  assert (N1 : is_name (bytes_of "end")) by (cbn; unfold name_char, name_start, letter; split; [lia|repeat (apply Forall_cons; [lia|]); apply Forall_nil]).
  assert (N2 : is_name (bytes_of "f_1")) by (cbn; unfold name_char, name_start, letter, is_digit; split; [lia|repeat (apply Forall_cons; [lia|]); apply Forall_nil]).
  split; [|split; [|split; [|split]]].
  - apply (wp_cons [32] _ (bytes_of "JUMP end ") _ (bytes_of "f_1 : PUSHSTR  ""h\n\"""";end:PUSHFUN f_1,-2 , """"; PUSHFLT -2.3 ; EXIT")); [exact B1| |].
    { apply (wn_args None [] "JUMP" OP_JUMP [32] _ (bytes_of "end ")); [constructor|reflexivity|exact B1|discriminate| |cbn; lia].
      apply (was_one _ (bytes_of "end") [32]); [constructor; exact N1|exact B1]. }
    apply (wp_cons [] _ (bytes_of "f_1 : PUSHSTR  ""h\n\""""") _ (bytes_of "end:PUSHFUN f_1,-2 , """"; PUSHFLT -2.3 ; EXIT")); [exact B0| |].
    { apply (wn_args _ (bytes_of "f_1 : ") "PUSHSTR" OP_PUSHSTR [32; 32] _ (bytes_of """h\n\""""")); [apply (wl_some (bytes_of "f_1") [32] [32]); assumption|reflexivity|exact B2|discriminate| |cbn; lia].
      apply (was_one _ (bytes_of """h\n\""""") []); [|exact B0]. apply (wa_str [104; 10; 34] [[104]; [92; 110]; [92; 34]]); [|cbn; lia].
      repeat apply Forall2_cons; [constructor; lia|constructor; cbn; tauto|constructor; cbn; tauto|apply Forall2_nil]. }
    apply (wp_cons [] _ (bytes_of "end:PUSHFUN f_1,-2 , """"") _ (bytes_of " PUSHFLT -2.3 ; EXIT")); [exact B0| |].
    { apply (wn_args _ (bytes_of "end:") "PUSHFUN" OP_PUSHFUN [32] _ (bytes_of "f_1,-2 , """"")); [apply (wl_some (bytes_of "end") [] []); assumption|reflexivity|exact B1|discriminate| |cbn; lia].
      apply (was_more _ (bytes_of "f_1") [] [] _ (bytes_of "-2 , """"")); [constructor; exact N2|exact B0|exact B0|].
      apply (was_more _ (bytes_of "-2") [32] [32] _ (bytes_of """""")); [|exact B1|exact B1|].
      - apply (wa_int SgMinus [50]); [constructor; [unfold is_digit; lia|constructor]|discriminate|cbn; lia].
      - apply (was_one _ (bytes_of """""") []); [|exact B0]. apply (wa_str [] []); [constructor|cbn; lia]. }
    apply (wp_cons [32] _ (bytes_of "PUSHFLT -2.3 ") _ (bytes_of " EXIT")); [exact B1| |].
    { apply (wn_args None [] "PUSHFLT" OP_PUSHFLT [32] _ (bytes_of "-2.3 ")); [constructor|reflexivity|exact B1|discriminate| |cbn; lia].
      apply (was_one _ (bytes_of "-2.3") [32]); [|exact B1]. replace 13835733595226269286 with (float_value SgMinus [50] [51]) by (vm_compute; reflexivity).
      apply (wa_flt SgMinus [50] [51]); try discriminate; (constructor; [unfold is_digit; lia|constructor]). }
    apply (wp_last [32] _ (bytes_of "EXIT")); [exact B1|]. apply (wn_plain None [] "EXIT" OP_EXIT []); [constructor|reflexivity|exact B0].
  - unfold labels_once. cbn [C63_program flat_map ln_label app]. repeat constructor; cbn; intuition discriminate.
  - intros k Hk. cbn in Hk. do 5 (destruct k as [|k]; [vm_compute; discriminate|]). lia.
  - vm_compute. reflexivity.
  - vm_compute. reflexivity.
Qed.

Print Assumptions C63_assembles.
Print Assumptions C63_refuses.
Print Assumptions C63_labels.
Print Assumptions C63_duplicate_label_refuted.
Print Assumptions C63_fraction_refuted.
