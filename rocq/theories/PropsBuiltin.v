(** Properties of the string builtins, of paths and of error messages: C48-C50, C53, C54, C60. *)
From Coq Require Import ZArith String List Bool Lia.
From Verif Require Import Base Utf8Model Utf8Spec StringModel ValueModel ObjModel VmModel SysModel SysProofs BuiltinModel BuiltinProofs.
Import ListNotations.
Open Scope Z_scope.

(** * C48 *)
Theorem C48_cat_partial : forall ss m, Forall text ss -> short (concat ss) ->
  bin_cat (vstrs ss) m = OOk ([VStr (concat ss)], m).
Proof. exact cat_ok. Qed.
(** 2^32 bytes or more in all: the result is written outside of its buffer. *)
Theorem C48_cat_refuted : forall ss m, Forall short ss -> 2^32 <= Z.of_nat (List.length (concat ss)) < 2^33 - 1 ->
  bin_cat (vstrs ss) m = OUB.
Proof. exact cat_overflow. Qed.
Theorem C48_cat_strings_only : forall argv v m, In v argv -> (forall s, v <> VStr s) -> bin_cat argv m = OErr.
Proof. exact cat_refused. Qed.
Theorem C48_slice_outside : forall s o n m, in_i64 o -> in_i64 n -> short s ->
  o < 0 \/ n < 0 \/ Z.of_nat (List.length s) < o + n -> bin_slice [VStr s; VInt o; VInt n] m = OErr.
Proof. exact slice_refused. Qed.
(** Inside: the bytes asked for, unless these are not characters. *)
Theorem C48_slice_partial : forall s o n m, Forall is_byte s -> short s -> 0 <= o -> 0 <= n ->
  o + n <= Z.of_nat (List.length s) ->
  let part := firstn (Z.to_nat n) (skipn (Z.to_nat o) s) in
  (text part -> bin_slice [VStr s; VInt o; VInt n] m = OOk ([VStr part], m)) /\
  (~ text part -> bin_slice [VStr s; VInt o; VInt n] m = OErr).
Proof. exact slice_spec. Qed.
Theorem C48_slice_defaults : forall s o m, Forall is_byte s -> short s -> 0 <= o <= Z.of_nat (List.length s) ->
  bin_slice [VStr s; VInt o; VNone] m = bin_slice [VStr s; VInt o; VInt (Z.of_nat (List.length s) - o)] m /\
  bin_slice [VStr s; VNone; VInt o] m = bin_slice [VStr s; VInt 0; VInt o] m.
Proof. exact slice_defaults. Qed.
Theorem C48_slice_refuted : exists s o n m, wf_utf8 s /\ 0 <= o /\ 0 <= n /\ o + n <= Z.of_nat (List.length s) /\
  bin_slice [VStr s; VInt o; VInt n] m = OErr.
Proof.
  exists [226; 130; 172], 0, 1, (mkmem [] false). split.
  - exists [8364]. split; [|reflexivity]. constructor; [|constructor]. unfold scalar, code_point. lia.
  - cbn [List.length]. repeat split; try lia.
Qed.
Example C48_example : forall m,
  bin_cat [VStr [104; 105]; VStr []; VStr [226; 130; 172]] m = OOk ([VStr [104; 105; 226; 130; 172]], m) /\
  bin_slice [VStr [104; 226; 130; 172; 105]; VInt 1; VInt 3] m = OOk ([VStr [226; 130; 172]], m) /\
  bin_slice [VStr [104; 105]; VInt 1; VInt 2] m = OErr.
Proof. intros m. repeat split; vm_compute; reflexivity. Qed.
(** Three strings of 2^31-1 bytes. *)
Example C48_refuted_example : let s := repeat 97 (Z.to_nat (2^31 - 1)) in
  Forall short [s; s; s] /\ 2^32 <= Z.of_nat (List.length (concat [s; s; s])) < 2^33 - 1.
Proof.
  intros s. assert (L : Z.of_nat (List.length s) = 2^31 - 1) by (unfold s; rewrite repeat_length; lia).
  clearbody s. split; [repeat apply Forall_cons; try apply Forall_nil; unfold short; lia|]. cbn [concat]. rewrite app_nil_r, !app_length. lia.
Qed.

(** * C49 *)
Theorem C49_trim_partial : forall s m, wf_utf8 s -> short s -> hd_error s <> Some 32 -> exists t,
  bin_trim [VStr s] m = OOk ([VStr t], m) /\ trimmed s t.
Proof. exact trim_no_leading. Qed.
Theorem C49_blank_partial : forall s m, Forall (eq 32) s -> bin_trim [VStr s] m = OOk ([VStr []], m) /\ trimmed s [].
Proof. exact trim_spaces. Qed.
(** With one leading space a NUL is appended; with more, memory outside of the string is read. *)
Theorem C49_leading_refuted : forall s m, hd_error s <> Some 32 -> s <> [] -> text s -> short (32 :: s) ->
  bin_trim [VStr (32 :: s)] m = OOk ([VStr (s ++ [0])], m).
Proof. exact trim_one_leading. Qed.
Theorem C49_reads_outside_refuted : forall s m, ~ Forall (eq 32) s -> (2 <= lead_spaces s)%nat -> bin_trim [VStr s] m = OUB.
Proof. exact trim_two_leading. Qed.
Example C49_example : forall m,
  bin_trim [VStr (bytes_of "a b  ")] m = OOk ([VStr (bytes_of "a b")], m) /\
  bin_trim [VStr (bytes_of " a")] m = OOk ([VStr [97; 0]], m) /\ bin_trim [VStr (bytes_of "  a ")] m = OUB.
Proof. intros m. repeat split; vm_compute; reflexivity. Qed.

(** * C50 *)
Theorem C50_numbers_partial : forall s m, s <> [] -> Forall digit s -> number s < 2^31 ->
  bin_toInt [VStr s] m = OOk ([VInt (number s)], m).
Proof. intros s m H D. apply (toint_number s m H D). Qed.
(** Larger numbers lose their high half. *)
Theorem C50_truncated_refuted : forall s m, s <> [] -> Forall digit s -> number s < 2^63 ->
  bin_toInt [VStr s] m = OOk ([VInt (wrap32 (number s))], m).
Proof. intros s m H D. apply (toint_number s m H D). Qed.
Theorem C50_overflow : forall s m, s <> [] -> Forall digit s -> 2^63 <= number s ->
  bin_toInt [VStr s] m = OOk ([VNone; VStr an_overflow], m).
Proof. intros s m H D. apply (toint_number s m H D). Qed.
Theorem C50_no_number : forall s m, s = [] \/ ~ Forall digit s -> forall z m', bin_toInt [VStr s] m <> OOk ([VInt z], m').
Proof. intros s m H z m'. apply toint_never_number. auto. Qed.
Theorem C50_message_partial : forall s m, s = [] \/ ~ Forall digit s ->
  (forall p q, s = p ++ q -> Forall digit p -> number p < 2^63) ->
  bin_toInt [VStr s] m = OOk ([VNone; VStr not_an_integer], m).
Proof. exact toint_not_number. Qed.
(** Enough digits in front of another character are reported as an overflow. *)
Theorem C50_message_refuted : forall m,
  bin_toInt [VStr (bytes_of "99999999999999999999x")] m = OOk ([VNone; VStr an_overflow], m).
Proof. intros m. vm_compute. reflexivity. Qed.
Example C50_example : forall m,
  bin_toInt [VStr (bytes_of "0123")] m = OOk ([VInt 123], m) /\
  bin_toInt [VStr (bytes_of "2147483648")] m = OOk ([VInt (-2147483648)], m) /\
  bin_toInt [VStr (bytes_of "9223372036854775808")] m = OOk ([VNone; VStr an_overflow], m) /\
  bin_toInt [VStr (bytes_of "12a")] m = OOk ([VNone; VStr not_an_integer], m) /\
  number (bytes_of "0123") = 123.
Proof. intros m. repeat split; vm_compute; reflexivity. Qed.

(** * C53 *)
Theorem C53_absolute : forall cwd path buff, (forall dir, cwd = Some dir -> no_nul dir) -> no_nul path ->
  (is_absolute path = true -> make_absolute cwd path buff = ROk PSame) /\
  (is_absolute path = false -> cwd = None -> make_absolute cwd path buff = ROk PNull) /\
  (is_absolute path = false -> forall dir, cwd = Some dir ->
     Z.of_nat (List.length buff) < Z.of_nat (List.length (dir ++ [47] ++ path)) + 1 -> make_absolute cwd path buff = ROk PNull) /\
  (is_absolute path = false -> forall dir, cwd = Some dir ->
     Z.of_nat (List.length (dir ++ [47] ++ path)) + 1 <= Z.of_nat (List.length buff) ->
     exists b, make_absolute cwd path buff = ROk (PBuff b) /\ List.length b = List.length buff /\
       c_string b = Some (dir ++ [47] ++ path)).
Proof. exact path_absolute. Qed.
Theorem C53_in_buffer : forall cwd path buff, (forall dir, cwd = Some dir -> no_nul dir) -> no_nul path ->
  make_absolute cwd path buff <> RUB /\
  forall b, make_absolute cwd path buff = ROk (PBuff b) -> List.length b = List.length buff.
Proof. exact path_in_buffer. Qed.
Example C53_example : make_absolute (Some (bytes_of "/tmp")) (bytes_of "a.noja") (repeat 7 12) = ROk (PBuff (bytes_of "/tmp/a.noja" ++ [0]))
  /\ make_absolute (Some (bytes_of "/tmp")) (bytes_of "a.noja") (repeat 7 11) = ROk PNull
  /\ make_absolute (Some (bytes_of "/tmp")) (bytes_of "/a.noja") [] = ROk PSame.
Proof. repeat split; vm_compute; reflexivity. Qed.

(** * C54 *)
Theorem C54_complete : forall ok text e bs, no_nul text ->
  let (e1, b1) := err_report ok text e bs in
  er_occurred e1 = true /\
  (er_truncated e1 = false -> err_text e1 b1 = Some text /\ er_length e1 = Z.of_nat (List.length text)) /\
  (er_truncated e1 = true -> ok = false /\ (512 <= List.length text)%nat /\
     err_text e1 b1 = Some (firstn 511 text) /\ er_length e1 = 511).
Proof. exact report_complete. Qed.
(** Whatever the history, nothing is freed twice. *)
Theorem C54_no_double_free : forall ops, exists e1 b1, err_run ops err_init [] = ROk (e1, b1).
Proof. intros ops. destruct (run_safe ops err_init [] I) as (e1 & b1 & H & _). eauto. Qed.
(** If every report is freed before the next, all blocks but the current one are freed. *)
Theorem C54_no_leak_partial : forall ops, alternate false ops ->
  exists e1 b1, err_run ops err_init [] = ROk (e1, b1) /\ live b1 = owned e1.
Proof. intros ops H. apply no_leak; [exact H|exact I|reflexivity|reflexivity]. Qed.
(** A second report over a long message loses it. *)
Theorem C54_leak_refuted : exists ops e1 b1, err_run (ops ++ [EFree]) err_init [] = ROk (e1, b1) /\ live b1 <> [].
Proof.
  exists [EReport true (repeat 97 512); EReport true (repeat 98 512)]. do 2 eexists. split; [vm_compute; reflexivity|].
  vm_compute. discriminate.
Qed.
Example C54_example : alternate false [EReport true (repeat 97 600); EFree; EReport false (repeat 98 600); EFree; EReport true [99]] /\
  exists e1 b1, err_run [EReport true (repeat 97 600); EFree; EReport false (repeat 98 600); EFree; EReport true [99]] err_init [] =
    ROk (e1, b1) /\ err_text e1 b1 = Some [99].
Proof. split; [cbn; auto|]. do 2 eexists. split; vm_compute; reflexivity. Qed.

(** * C60 *)
Theorem C60_import_path : forall cwd path src buff f,
  folder_spec cwd path f -> no_nul f -> no_nul src -> (forall dir, cwd = Some dir -> dir <> []) ->
  let full := if is_absolute src then src else f ++ src in
  (Z.of_nat (List.length buff) <= Z.of_nat (List.length full) -> script_path cwd path src buff = ROk None) /\
  (Z.of_nat (List.length full) < Z.of_nat (List.length buff) ->
     exists b, script_path cwd path src buff = ROk (Some b) /\ List.length b = List.length buff /\ c_string b = Some full).
Proof. exact import_path. Qed.
Example C60_example : folder_spec None (Some (bytes_of "/s/main.noja")) (bytes_of "/s/") /\
  script_path None (Some (bytes_of "/s/main.noja")) (bytes_of "lib/x") (repeat 7 9) = ROk (Some (bytes_of "/s/lib/x" ++ [0])) /\
  script_path None (Some (bytes_of "/s/main.noja")) (bytes_of "lib/x") (repeat 7 8) = ROk None.
Proof.
  split; [|split; vm_compute; reflexivity]. exists (bytes_of "main.noja"). split; [reflexivity|].
  split; [exists (bytes_of "/s"); reflexivity|]. cbn. intuition discriminate.
Qed.

Print Assumptions C48_cat_partial.
Print Assumptions C48_cat_refuted.
Print Assumptions C48_slice_partial.
Print Assumptions C49_trim_partial.
Print Assumptions C49_reads_outside_refuted.
Print Assumptions C50_numbers_partial.
Print Assumptions C50_message_partial.
Print Assumptions C53_absolute.
Print Assumptions C54_complete.
Print Assumptions C54_no_leak_partial.
Print Assumptions C60_import_path.
