(** Properties of input, files, sockets, math, random and the text functions of buffers: C64-C70. *)
From Coq Require Import ZArith String List Bool Lia QArith.
From Verif Require Import Base Utf8Model Utf8Spec StringModel ValueModel ObjModel VmModel FloatModel BufferModel BufferProofs
  SysModel BuiltinModel BuiltinProofs IoModel IoProofs.
Import ListNotations.
Open Scope Z_scope.

(** * C64: input *)
(** Successive calls return the lines of the stream, whatever the array held before. *)
Theorem C64_lines_partial : forall maybe lines rest, List.length maybe = 256%nat -> Forall is_byte maybe ->
  Forall line_ok lines -> Forall is_byte rest ->
  inputs (List.length lines) maybe (List.concat (map (fun l => l ++ [10]) lines) ++ rest) = OOk (map VStr lines, rest).
Proof. exact inputs_spec. Qed.
Theorem C64_line_partial : forall maybe line rest, List.length maybe = 256%nat -> Forall is_byte maybe -> Forall is_byte line ->
  Forall is_byte rest -> ~ In 10 line -> (List.length line <= 255)%nat ->
  (text line -> bin_input maybe (line ++ 10 :: rest) = OOk (VStr line, rest)) /\
  (~ text line -> bin_input maybe (line ++ 10 :: rest) = OErr).
Proof. exact input_spec. Qed.
(** 256 bytes without a newline: realloc of an array on the stack. *)
Theorem C64_long_line_refuted : forall maybe stream, (256 <= List.length stream)%nat -> ~ In 10 (firstn 256 stream) ->
  bin_input maybe stream = OUB.
Proof. exact input_long_line. Qed.
(** The end of the input is not noticed: bytes 255 are stored until the array is full. *)
Theorem C64_end_refuted : forall maybe stream, ~ In 10 stream -> bin_input maybe stream = OUB.
Proof. exact input_end. Qed.
Example C64_example : inputs 3 (repeat 7 256) [104; 105; 10; 10; 226; 130; 172; 10; 120] =
  OOk ([VStr [104; 105]; VStr []; VStr [226; 130; 172]], [120]).
Proof. vm_compute. reflexivity. Qed.
Example C64_long_line_example : let stream := repeat 97 300 ++ [10] in
  (256 <= List.length stream)%nat /\ ~ In 10 (firstn 256 stream).
Proof. split; [vm_compute; lia|]. intros H. vm_compute in H. repeat destruct H as [H|H]; try discriminate H. exact H. Qed.
Example C64_end_example : bin_input (repeat 0 256) [104; 105] = OUB.
Proof. vm_compute. reflexivity. Qed.

(** * C65: transfers between buffers and files or sockets *)
Theorem C65_read_partial : forall ops st v w count file, sane_history empty_bstate ops st -> get_view st v = Some w ->
  v_len w < 2 ^ 31 -> count_ok count -> Forall is_byte file ->
  let got := firstn (Z.to_nat (wanted count (v_len w))) file in
  exists st', file_read st v count file = ROk (st', VInt (Z.of_nat (List.length got)), skipn (List.length got) file) /\
    sane_history st (sets v 0 got) st' /\ holds st' v 0 got /\
    untouched st st' w (v_off w) (v_off w + Z.of_nat (List.length got)).
Proof. intros ops st v w count file H. apply read_spec. exact (history_wf _ _ _ H bwf_empty). Qed.
Theorem C65_recv_partial : forall ops st v w count data err, sane_history empty_bstate ops st -> get_view st v = Some w ->
  v_len w < 2 ^ 31 -> count_ok count -> Forall is_byte data ->
  let got := firstn (Z.to_nat (wanted count (v_len w))) data in
  exists st', net_recv st v count (Some data) err = ROk (st', [VInt (Z.of_nat (List.length got))], skipn (List.length got) data) /\
    sane_history st (sets v 0 got) st' /\ holds st' v 0 got /\
    untouched st st' w (v_off w) (v_off w + Z.of_nat (List.length got)).
Proof. intros ops st v w count data err H. apply recv_spec. exact (history_wf _ _ _ H bwf_empty). Qed.
Theorem C65_write_partial : forall ops st v w count file bytes, sane_history empty_bstate ops st -> get_view st v = Some w ->
  v_len w < 2 ^ 31 -> count_ok count -> contents st v bytes ->
  let sent := firstn (Z.to_nat (wanted count (v_len w))) bytes in
  file_write st v count file = ROk (VInt (Z.of_nat (List.length sent)), file ++ sent).
Proof. intros ops st v w count file bytes H. apply write_spec. exact (history_wf _ _ _ H bwf_empty). Qed.
Theorem C65_send_partial : forall ops st v w count room sent bytes, sane_history empty_bstate ops st -> get_view st v = Some w ->
  v_len w < 2 ^ 31 -> count_ok count -> contents st v bytes ->
  let out := firstn room (firstn (Z.to_nat (wanted count (v_len w))) bytes) in
  net_send st v count room sent = ROk ([VInt (Z.of_nat (List.length out))], sent ++ out).
Proof. intros ops st v w count room sent bytes H. apply send_spec. exact (history_wf _ _ _ H bwf_empty). Qed.
Theorem C65_negative_count : forall ops st v w n file room arrived err, sane_history empty_bstate ops st -> get_view st v = Some w ->
  - 2 ^ 31 <= n < 0 ->
  file_read st v (Some n) file = RErr /\ file_write st v (Some n) file = RErr /\
  net_recv st v (Some n) (Some arrived) err = ROk (st, [VNone; VStr negative_count], arrived) /\
  net_send st v (Some n) room file = ROk ([VNone; VStr negative_count], file).
Proof.
  intros ops st v w n file room arrived err H V N. apply (negative_refused st v w); auto. exact (history_wf _ _ _ H bwf_empty).
Qed.
(** A failed recv changes no buffer and hands out the message. *)
Theorem C65_recv_fails : forall st v w count err, get_view st v = Some w -> count_ok count ->
  net_recv st v count None err = ROk (st, [VNone; VStr err], []).
Proof. exact recv_fails. Qed.
(** What is written to a file is what is read back. *)
Theorem C65_file_round_trip : forall ops st a b wa wb bytes, sane_history empty_bstate ops st ->
  get_view st a = Some wa -> get_view st b = Some wb -> v_len wa < 2 ^ 31 -> v_len wb = v_len wa ->
  contents st a bytes -> Forall is_byte bytes ->
  exists file n st', file_write st a None [] = ROk (n, file) /\ file_read st b None file = ROk (st', n, []) /\ contents st' b bytes.
Proof. intros ops st a b wa wb bytes H. apply file_round_trip. exact (history_wf _ _ _ H bwf_empty). Qed.
(** A multiple of 2^32 counts as zero. *)
Theorem C65_count_refuted : forall ops st v w file k, sane_history empty_bstate ops st -> get_view st v = Some w -> v_len w < 2 ^ 31 ->
  file_read st v (Some (k * 2 ^ 32)) file = ROk (st, VInt 0, file).
Proof. intros ops st v w file k H V L. apply (count_truncated st v w); auto. exact (history_wf _ _ _ H bwf_empty). Qed.
(** Writing the whole of a buffer of 2 GB or more reads outside of it. *)
Theorem C65_write_huge_refuted : forall ops st n st' v file, sane_history empty_bstate ops st -> 2 ^ 31 <= n < 2 ^ 32 ->
  bin_new st n = ROk (st', v) -> file_write st' v None file = RUB.
Proof. intros ops st n st' v file H. apply new_write_huge. exact (history_wf _ _ _ H bwf_empty). Qed.
(** Buffer 0 has 4 bytes, buffer 1 is its slice [1,4). *)
Example C65_example : exists st st1 w, sane_history empty_bstate [BNew 4; BSlice 0 1 3; BSet 0 0 65] st /\ get_view st 1 = Some w /\
  v_len w = 3 /\ net_recv st 1 (Some 2) None [33] = ROk (st, [VNone; VStr [33]], []) /\ file_read st 1 (Some 2) [10; 11; 12] = ROk (st1, VInt 2, [12]) /\ contents st1 0 [65; 10; 11; 0] /\
  file_write st1 0 None [1] = ROk (VInt 4, [1; 65; 10; 11; 0]) /\ net_send st1 1 None 2 [] = ROk ([VInt 2], [10; 11]).
Proof.
  eexists. eexists. eexists. split; [|split; [|split; [|split; [|split; [|split; [|split]]]]]].
  - eapply sh_cons; [cbn; lia|vm_compute; reflexivity|].
    eapply sh_cons; [cbn; unfold in_i64; repeat split; try discriminate; lia|vm_compute; reflexivity|].
    eapply sh_cons; [cbn; discriminate|vm_compute; reflexivity|]. apply sh_nil.
  - reflexivity.
  - reflexivity.
  - vm_compute. reflexivity.
  - vm_compute. reflexivity.
  - split; [vm_compute; reflexivity|]. intros [|[|[|[|k]]]] b; cbn; try (intros [= <-]; reflexivity). destruct k; discriminate.
  - vm_compute. reflexivity.
  - vm_compute. reflexivity.
Qed.
Example C65_write_huge_example : exists st' v, bin_new empty_bstate (2 ^ 31) = ROk (st', v).
Proof. apply new_succeeds. lia. Qed.

(** * C66: openFile *)
Theorem C66_open_partial : forall mode, (mode = 0 -> open_mode mode = ROk FRead) /\ (mode = 1 -> open_mode mode = ROk FWritePlus) /\
  (mode = 2 \/ mode = 3 -> open_mode mode = ROk FAppend).
Proof. exact open_known. Qed.
Theorem C66_open_refuted : forall mode, in_int mode -> ~ 0 <= mode <= 3 -> open_mode mode = RUB.
Proof. exact open_other. Qed.
Example C66_example : in_int 4 /\ ~ 0 <= 4 <= 3 /\ open_mode 3 = ROk FAppend.
Proof. unfold in_int. repeat split; lia. Qed.

(** * C67: floor and ceil *)
Theorem C67_floor_partial : forall b q, fvalue (f_decode b) = Some q -> fits q ->
  exists z, bin_floor [VFloat b] = OOk (VInt z) /\ (inject_Z z <= q)%Q /\ (q < inject_Z (z + 1))%Q.
Proof. exact floor_fits. Qed.
Theorem C67_ceil_partial : forall b q, fvalue (f_decode b) = Some q -> fits q ->
  exists z, bin_ceil [VFloat b] = OOk (VInt z) /\ (q <= inject_Z z)%Q /\ (inject_Z (z - 1) < q)%Q.
Proof. exact ceil_fits. Qed.
Theorem C67_integers : forall z, - 2 ^ 53 < z < 2 ^ 53 ->
  bin_floor [VFloat (f_of_int z)] = OOk (VInt z) /\ bin_ceil [VFloat (f_of_int z)] = OOk (VInt z).
Proof. exact floor_of_int. Qed.
(** Not a number, infinity, and 1e300. *)
Theorem C67_refuted : Forall (fun b => bin_floor [VFloat b] = OUB /\ bin_ceil [VFloat b] = OUB)
  [0x7FF8000000000000; 0x7FF0000000000000; 0xFFF0000000000000; 0x7E37E43C8800759C].
Proof. repeat constructor; vm_compute; reflexivity. Qed.
(** -2.5 and 2.5 *)
Example C67_example : bin_floor [VFloat 0xC004000000000000] = OOk (VInt (-3)) /\ bin_ceil [VFloat 0xC004000000000000] = OOk (VInt (-2)) /\
  bin_floor [VFloat 0x4004000000000000] = OOk (VInt 2) /\ bin_ceil [VFloat 0x4004000000000000] = OOk (VInt 3) /\
  exists q, fvalue (f_decode 0xC004000000000000) = Some q /\ (q == -5 # 2)%Q /\ fits q.
Proof.
  repeat split; try (vm_compute; reflexivity). eexists. split; [vm_compute; reflexivity|]. split; [reflexivity|].
  split; vm_compute; discriminate.
Qed.

(** * C68: a function of math called with any arguments *)
Theorem C68_one_argument : forall f argv,
  (exists a r, argv = VFloat a :: r /\ call_math1 f argv = OOk (VFloat (f a))) \/
  ((forall a r, argv <> VFloat a :: r) /\ call_math1 f argv = OErr).
Proof. exact math1_total. Qed.
Theorem C68_atan2 : forall f argv,
  (exists a b r, argv = VFloat a :: VFloat b :: r /\ call_atan2 f argv = OOk (VFloat (f a b))) \/
  ((forall a b r, argv <> VFloat a :: VFloat b :: r) /\ call_atan2 f argv = OErr).
Proof. exact atan2_total. Qed.
Theorem C68_pow_partial : forall f argv, List.length argv <> 1%nat ->
  (exists a b r, argv = VFloat a :: VFloat b :: r /\ call_pow f argv = OOk (VFloat (f a b))) \/
  ((forall a b r, argv <> VFloat a :: VFloat b :: r) /\ call_pow f argv = OErr).
Proof. exact pow_two. Qed.
(** pow is registered with one argument and reads two. *)
Theorem C68_pow_refuted : forall f a, call_pow f [VFloat a] = OUB.
Proof. reflexivity. Qed.
Example C68_example : call_atan2 f_add [VFloat (f_of_int 1)] = OErr /\ call_math1 (fun x => x) [] = OErr /\
  call_pow f_mul [VFloat (f_of_int 3); VFloat (f_of_int 4); VNone] = OOk (VFloat (f_of_int 12)).
Proof. repeat split; vm_compute; reflexivity. Qed.

(** * C69: random.generate *)
Theorem C69_generate_partial : forall objs min max r, in_int min -> in_int max -> 0 <= max - min <= 2 ^ 22 -> 0 <= r <= RAND_MAX ->
  exists z, bin_generate objs r [VInt min; VInt max] = OOk (VInt z) /\ min <= z <= max.
Proof. exact generate_between. Qed.
(** The answer may be above the maximum. *)
Theorem C69_above_refuted : exists r, 0 <= r <= RAND_MAX /\ bin_generate [] r [VInt (-4194306); VInt (-1)] = OOk (VInt 0).
Proof. exists RAND_MAX. split; [unfold RAND_MAX; lia|]. vm_compute. reflexivity. Qed.
(** It has 32 bits only. *)
Theorem C69_bits_refuted : exists r, 0 <= r <= RAND_MAX /\ bin_generate [] r [VInt (2 ^ 32); VInt (2 ^ 32)] = OOk (VInt 0).
Proof. exists 5. split; [unfold RAND_MAX; lia|]. vm_compute. reflexivity. Qed.
(** Without arguments the result may not fit into an integer. *)
Theorem C69_default_refuted : exists r, 0 <= r <= RAND_MAX /\ bin_generate [] r [VNone; VNone] = OUB.
Proof. exists RAND_MAX. split; [unfold RAND_MAX; lia|]. vm_compute. reflexivity. Qed.
(** Bounds further apart than the largest integer. *)
Theorem C69_spread_refuted : forall objs min max r, 2 ^ 63 <= max - min -> bin_generate objs r [VInt min; VInt max] = OUB.
Proof. exact generate_spread. Qed.
Example C69_spread_example : 2 ^ 63 <= 1 - (- 2 ^ 63 + 1) /\ bin_generate [] 7 [VInt (- 2 ^ 63 + 1); VInt 1] = OUB.
Proof. split; [reflexivity|vm_compute; reflexivity]. Qed.
Example C69_example : bin_generate [] RAND_MAX [VInt 5; VInt 10] = OOk (VInt 10) /\ bin_generate [] 0 [VInt (-5); VInt 10] = OOk (VInt (-5)) /\
  bin_generate [] 1000000000 [VInt 5; VInt 10] = OOk (VInt 7).
Proof. repeat split; vm_compute; reflexivity. Qed.

(** * C70: buffers and strings *)
Theorem C70_to_string_partial : forall ops st v w bytes, sane_history empty_bstate ops st -> get_view st v = Some w -> v_len w < 2 ^ 31 ->
  contents st v bytes ->
  (text bytes -> bin_to_string st v = OOk [VStr bytes]) /\ (~ text bytes -> bin_to_string st v = OOk [VNone; VStr not_utf8]).
Proof. intros ops st v w bytes H. apply to_string_spec. exact (history_wf _ _ _ H bwf_empty). Qed.
(** A buffer made from a string holds its bytes and shares nothing with the buffers there are. *)
Theorem C70_from_string : forall ops st s, sane_history empty_bstate ops st -> Forall is_byte s -> Z.of_nat (List.length s) < 2 ^ 31 ->
  exists st' v, bin_from_string st s = ROk (st', v) /\ contents st' v s /\
    (exists ops', sane_history st ops' st') /\ (exists w, get_view st' v = Some w /\ v_len w = Z.of_nat (List.length s)) /\
    (forall u wu j, get_view st u = Some wu -> in_int j -> buffer_select st' u j = buffer_select st u j).
Proof. intros ops st s H. apply from_string_spec. exact (history_wf _ _ _ H bwf_empty). Qed.
Theorem C70_round_trip : forall ops st s, sane_history empty_bstate ops st -> text s -> short s ->
  exists st' v, bin_from_string st s = ROk (st', v) /\ bin_to_string st' v = OOk [VStr s].
Proof. intros ops st s H. apply text_round_trip. exact (history_wf _ _ _ H bwf_empty). Qed.
(** Larger buffers: sizes are cut to 32 bits. Of k * 2^32 + n bytes, n below 2^31, toString takes the first n as the whole buffer. *)
Theorem C70_cut_refuted : forall ops st v w bytes k, sane_history empty_bstate ops st -> get_view st v = Some w ->
  v_len w = Z.of_nat (List.length bytes) + k * 2 ^ 32 -> 1 <= k -> Z.of_nat (List.length bytes) < 2 ^ 31 -> holds st v 0 bytes ->
  (text bytes -> bin_to_string st v = OOk [VStr bytes]) /\ (~ text bytes -> bin_to_string st v = OOk [VNone; VStr not_utf8]).
Proof. intros ops st v w bytes k H V L K. apply (large_text st v w bytes k (history_wf _ _ _ H bwf_empty) V L). lia. Qed.
(** If the size cut to 32 bits is negative, toString takes the bytes in front of the first zero, and ends the program if they are not UTF-8. *)
Theorem C70_zero_refuted : forall ops st v w bytes n k, sane_history empty_bstate ops st -> get_view st v = Some w ->
  v_len w = k * 2 ^ 32 - n -> 1 <= n <= 2 ^ 31 -> 1 <= k -> Z.of_nat (List.length bytes) < 2 ^ 31 -> ~ In 0 bytes -> holds st v 0 (bytes ++ [0]) ->
  (text bytes -> bin_to_string st v = OOk [VStr bytes]) /\ (~ text bytes -> bin_to_string st v = OErr).
Proof. intros ops st v w bytes n k H V L N K B Z C. apply (low_text st v w bytes (- n) k (history_wf _ _ _ H bwf_empty) V); auto; lia. Qed.
(** So buffer.new(2^31) and buffer.new(2^32) have the empty text. *)
Example C70_large_example : forall n, n = 2 ^ 31 \/ n = 2 ^ 32 -> exists st v w, bin_new empty_bstate n = ROk (st, v) /\
  get_view st v = Some w /\ v_len w = n /\ bin_to_string st v = OOk [VStr []].
Proof. intros n H. apply new_large_text; [exact bwf_empty|lia]. Qed.
Example C70_example : exists st v st1, bin_from_string empty_bstate [226; 130; 172; 120] = ROk (st, v) /\
  bin_to_string st v = OOk [VStr [226; 130; 172; 120]] /\ buffer_insert st v 0 255 = ROk st1 /\
  bin_to_string st1 v = OOk [VNone; VStr (bytes_of "Buffer doesn't contain valid UTF-8")].
Proof. eexists. eexists. eexists. split; [vm_compute; reflexivity|]. repeat split; vm_compute; reflexivity. Qed.

Print Assumptions C64_lines_partial.
Print Assumptions C64_line_partial.
Print Assumptions C64_long_line_refuted.
Print Assumptions C64_end_refuted.
Print Assumptions C65_read_partial.
Print Assumptions C65_recv_partial.
Print Assumptions C65_write_partial.
Print Assumptions C65_send_partial.
Print Assumptions C65_negative_count.
Print Assumptions C65_recv_fails.
Print Assumptions C65_file_round_trip.
Print Assumptions C65_count_refuted.
Print Assumptions C65_write_huge_refuted.
Print Assumptions C66_open_partial.
Print Assumptions C66_open_refuted.
Print Assumptions C67_floor_partial.
Print Assumptions C67_ceil_partial.
Print Assumptions C67_integers.
Print Assumptions C67_refuted.
Print Assumptions C68_one_argument.
Print Assumptions C68_atan2.
Print Assumptions C68_pow_partial.
Print Assumptions C68_pow_refuted.
Print Assumptions C69_generate_partial.
Print Assumptions C69_above_refuted.
Print Assumptions C69_bits_refuted.
Print Assumptions C69_default_refuted.
Print Assumptions C69_spread_refuted.
Print Assumptions C70_to_string_partial.
Print Assumptions C70_from_string.
Print Assumptions C70_round_trip.
Print Assumptions C70_cut_refuted.
Print Assumptions C70_zero_refuted.
