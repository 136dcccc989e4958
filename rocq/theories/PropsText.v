(** Properties C06-C12 and C36: text, hashing and equality of values. *)
From Coq Require Import ZArith List Lia Bool.
From Coq Require Import Floats.SpecFloat.
From Verif Require Import Base Utf8Model Utf8Spec Utf8Proofs HashModel FloatModel StringModel ValueModel TextProofs.
Import ListNotations.
Open Scope Z_scope.

(** ** C06: encoding then decoding is the identity. *)
Theorem C06_encode_is_utf8 : forall nbytes c, code_point c ->
  utf8_encode nbytes c = if nbytes <? Z.of_nat (length (enc c)) then None else Some (enc c).
Proof. exact encode_spec. Qed.

Theorem C06_encode_out_of_range : forall nbytes c, 0x10FFFF < c -> utf8_encode nbytes c = None.
Proof. exact encode_out_of_range. Qed.

Theorem C06_round_trip : forall nbytes c bs rest n, code_point c ->
  utf8_encode nbytes c = Some bs -> Z.of_nat (length bs) <= n ->
  utf8_decode (bs ++ rest) n = DOk (Z.of_nat (length bs)) c /\
  1 <= Z.of_nat (length bs) <= 4 /\ Z.of_nat (length bs) <= nbytes /\ Forall is_byte bs.
Proof.
  intros nbytes c bs rest n Hc He Hn. rewrite encode_spec in He by assumption.
  destruct (Z.ltb_spec nbytes (Z.of_nat (length (enc c)))); [discriminate|]. injection He as <-.
  split; [apply decode_enc; assumption|]. split; [apply enc_length|]. split; [lia|apply enc_bytes; assumption].
Qed.

(** Euro sign followed by other bytes. *)
Example C06_example : utf8_encode 4 0x20AC = Some [0xE2; 0x82; 0xAC] /\
  utf8_decode ([0xE2; 0x82; 0xAC] ++ [65; 255]) 5 = DOk 3 0x20AC.
Proof. vm_compute. split; reflexivity. Qed.

(** ** C07: bounds, termination and value of the character count. *)
Theorem C07_decode_in_bounds : forall mem nb, Forall is_byte mem -> 0 <= nb <= Z.of_nat (length mem) ->
  match utf8_decode mem nb with
  | DOk n c => 1 <= n <= 4 /\ n <= nb /\ 0 <= c <= 0x10FFFF
  | DBad => True
  | DUB => False
  end.
Proof. exact decode_bounds. Qed.

Theorem C07_count_total : forall mem nb, Forall is_byte mem -> (nb <= length mem)%nat ->
  utf8_strlen mem nb = SBad \/
  exists n, utf8_strlen mem nb = SLen n /\ 0 <= n <= Z.of_nat nb /\ (n = 0 <-> nb = 0%nat).
Proof. exact strlen_total. Qed.

Theorem C07_count_ascii : forall mem, Forall (fun b => 0 <= b < 128) mem ->
  utf8_strlen mem (length mem) = SLen (Z.of_nat (length mem)).
Proof. exact strlen_ascii. Qed.

Theorem C07_count_text : forall cs suf, Forall code_point cs ->
  utf8_strlen (encs cs ++ suf) (length (encs cs)) = SLen (Z.of_nat (length cs)).
Proof. exact strlen_encs. Qed.

Example C07_example : utf8_strlen (encs [104; 233; 0x20AC; 0x1F600] ++ [1; 2]) 10 = SLen 4
  /\ utf8_strlen [0xE2; 0x82] 2 = SBad.
Proof. vm_compute. split; reflexivity. Qed.

(** ** C08: malformed text is refused. Full statement (for text accepted: it is well-formed) is false of the code. *)
Theorem C08_malformed_refused_refuted :
  exists mem n, Forall is_byte mem /\ utf8_strlen mem (length mem) = SLen n /\ ~ wf_utf8 mem.
Proof.
  exists [0xC3; 0x28], 1. split; [repeat constructor; unfold is_byte; lia|]. split; [vm_compute; reflexivity|].
  intros (cs & HC & E). destruct cs as [|c cs]; [discriminate|].
  inversion HC as [|? ? [Hc _] HC']; subst. rewrite encs_cons in E.
  destruct (Z.ltb_spec c 128).
  - rewrite enc_head_ascii in E by (auto; lia). injection E as <- E. lia.
  - destruct (enc_head_high c Hc ltac:(lia)) as (b & r & Hbr & Hb & Hr & Hl).
    rewrite Hbr in E. injection E as <- E. destruct r as [|r0 r]; [simpl in Hl; lia|].
    injection E as <- E. inversion Hr; lia.
Qed.

(** Also refused text is not always malformed-only: an overlong NUL, a stray continuation byte and an encoded
    surrogate are all accepted. *)
Theorem C08_accepted_malformed_kinds_refuted :
  utf8_strlen [0xC0; 0x80] 2 = SLen 1 /\ utf8_strlen [0x80] 1 = SLen 1 /\ utf8_strlen [0xED; 0xA0; 0x80] 3 = SLen 1.
Proof. vm_compute. repeat split. Qed.

(** What is true: a text is accepted with count n exactly when it splits into n groups each having the number of bytes
    announced by its first byte, with a value in the Unicode range for 4-byte groups. In particular truncated
    sequences at the end are refused. Missing w.r.t. the full statement: the bytes after the first are not required to be
    continuation bytes, nor the form to be shortest, nor surrogates to be absent. *)
Theorem C08_accepted_iff_partial : forall mem n, Forall is_byte mem ->
  (utf8_strlen mem (length mem) = SLen n <->
   exists chs, Forall loose_char chs /\ concat chs = mem /\ n = Z.of_nat (length chs)).
Proof. exact strlen_iff. Qed.

(** Well-formed text is always accepted. *)
Theorem C08_wellformed_accepted : forall mem, wf_utf8 mem -> exists n, utf8_strlen mem (length mem) = SLen n.
Proof.
  intros mem (cs & HC & ->). exists (Z.of_nat (length cs)).
  assert (HC' : Forall code_point cs) by (eapply Forall_impl; [|exact HC]; intros a [Ha _]; exact Ha).
  pose proof (strlen_encs cs [] HC') as H. rewrite app_nil_r in H. exact H.
Qed.

Example C08_example : loose_char [0xC3; 0x28] /\ loose_char [0xF0; 0x9F; 0x98; 0x80] /\ ~ loose_char [0xE2; 0x82].
Proof.
  split; [|split].
  - split; [repeat constructor; unfold is_byte; lia|]. cbn. split; [reflexivity|intros; lia].
  - split; [repeat constructor; unfold is_byte; lia|]. cbn. split; [reflexivity|intros; vm_compute; discriminate].
  - intros [_ [H _]]. discriminate.
Qed.

(** ** C09: backward traversal. *)
Theorem C09_prev : forall pre c suf, code_point c ->
  utf8_prev (pre ++ enc c ++ suf) (length pre + length (enc c)) = PAt (Z.of_nat (length pre)) c.
Proof. exact prev_encs. Qed.

(** Conversely, an accepted step back covers exactly one character, inside the text; malformed text is refused and never read out of bounds. *)
Theorem C09_prev_sound : forall mem idx, Forall is_byte mem -> (idx <= length mem)%nat ->
  match utf8_prev mem idx with
  | PAt i c => exists j ch, i = Z.of_nat j /\ (j + length ch = idx)%nat /\ firstn idx mem = firstn j mem ++ ch /\ loose_char ch /\
      utf8_decode ch (Z.of_nat (length ch)) = DOk (Z.of_nat (length ch)) c
  | PStart => idx = 0%nat
  | PBad => True
  | PUB => False
  end.
Proof. exact prev_sound. Qed.
Example C09_prev_sound_example : utf8_prev [0xC3; 0xA9; 0x80] 2 = PAt 0 0xE9 /\ utf8_prev [0xC3; 0xA9; 0x80] 3 = PBad.
Proof. split; vm_compute; reflexivity. Qed.

Theorem C09_walk_back : forall cs, Forall code_point cs -> forall suf,
  walk_back (length cs) (encs cs ++ suf) (length (encs cs)) = Some (rev cs).
Proof. exact walk_back_encs. Qed.

Example C09_example : walk_back 3 (encs [0x20AC; 65; 0x1F600]) 8 = Some [0x1F600; 65; 0x20AC].
Proof. vm_compute. reflexivity. Qed.

(** Forward stepping is not safe: utf8_next passes the size of the whole text instead of what is left, and reads
    beyond the end of a one-character text. *)
Theorem C09_next_in_bounds_refuted :
  exists c idx, code_point c /\ utf8_next (enc c) (Z.of_nat (length (enc c))) idx = PUB.
Proof. exists 0x20AC, 0%nat. split; [unfold code_point; lia|]. vm_compute. reflexivity. Qed.

(** ** C10: indexing. [s] is any string object the interpreter can create from [n] bytes. *)
Theorem C10_string_is_its_characters : forall mem n s, Forall is_byte mem -> (n <= length mem)%nat ->
  Z.of_nat n < 2^31 ->
  from_string mem (Z.of_nat n) = ROk s ->
  exists chs, Forall loose_char chs /\ s_bytes s = firstn n mem /\ concat chs = s_bytes s /\
    str_count s = Z.of_nat (length chs) /\
    (forall i c, nth_error chs i = Some c -> str_select s (Z.of_nat i) = ROk (mkstr 1 c)) /\
    (forall key, in_int key -> key < 0 \/ str_count s <= key -> str_select s key = RErr).
Proof.
  intros mem n s HB Hn Hmax Hs. destruct (from_string_split mem n s HB Hn Hs) as (chs & HC & Hcat & ->).
  exists chs. split; [assumption|]. cbn [s_bytes str_count s_count]. split; [assumption|].
  split; [reflexivity|]. split; [reflexivity|]. split.
  - intros i c Hi. apply str_select_chars; auto.
    pose proof (concat_length_ge chs HC). rewrite Hcat, firstn_length in H. lia.
  - intros key Hk Ho. apply str_select_out; assumption.
Qed.

(** For text made of encoded code points the characters are the code points. *)
Theorem C10_text_characters : forall cs suf i c, Forall code_point cs -> Z.of_nat (length cs) < 2^31 ->
  nth_error cs i = Some c ->
  from_string (encs cs ++ suf) (Z.of_nat (length (encs cs))) = ROk (mkstr (Z.of_nat (length cs)) (encs cs)) /\
  str_select (mkstr (Z.of_nat (length cs)) (encs cs)) (Z.of_nat i) = ROk (mkstr 1 (enc c)).
Proof.
  intros cs suf i c HC Hmax Hi. pose proof (encs_loose cs HC) as HL. unfold encs.
  replace (length cs) with (length (map enc cs)) by apply map_length.
  split; [apply from_string_chars; assumption|].
  apply str_select_chars; auto; [rewrite map_length; assumption|].
  apply map_nth_error. assumption.
Qed.

Example C10_example :
  from_string (encs [104; 233; 0x20AC] ++ [0]) 6 = ROk (mkstr 3 (encs [104; 233; 0x20AC])) /\
  str_select (mkstr 3 (encs [104; 233; 0x20AC])) 2 = ROk (mkstr 1 [0xE2; 0x82; 0xAC]) /\
  str_select (mkstr 3 (encs [104; 233; 0x20AC])) 3 = RErr.
Proof. vm_compute. repeat split. Qed.

(** Outside the 32-bit range the index is truncated: index 2^32 is accepted and reads the first character. *)
Theorem C10_any_index_rejected_refuted :
  exists s key, in_i64 key /\ str_count s <= key /\ str_select s key <> RErr.
Proof.
  exists (mkstr 1 [65]), (2^32). split; [unfold in_i64; lia|]. split; [vm_compute; discriminate|].
  vm_compute. discriminate.
Qed.

(** ** C11: equality of strings. *)
Theorem C11_equal_means_same_text_refuted :
  exists a b, Forall is_byte a /\ Forall is_byte b /\ a <> b /\ str_eql (str_of a) (str_of b) = true.
Proof.
  exists [97; 0; 98], [97; 0; 99].
  split; [repeat constructor; unfold is_byte; lia|]. split; [repeat constructor; unfold is_byte; lia|].
  split; [discriminate|]. vm_compute. reflexivity.
Qed.

(** Missing w.r.t. the full statement: strings that both contain a NUL byte. *)
Theorem C11_equal_iff_same_text_partial : forall a b, ~ In 0 a \/ ~ In 0 b ->
  (str_eql (str_of a) (str_of b) = true <-> a = b).
Proof. intros a b H. apply str_eql_iff. exact H. Qed.

Example C11_example : ~ In 0 [104; 105] /\ str_eql (str_of [104; 105]) (str_of [104; 106]) = false.
Proof. split; [intros [H|[H|[]]]; discriminate|vm_compute; reflexivity]. Qed.

(** ** C12: equal values hash alike. *)
Theorem C12_equal_hash_refuted : exists v w rt,
  obj_compare rt v w = Some true /\ scalar_hash v <> scalar_hash w /\ scalar_hash v <> None /\ scalar_hash w <> None.
Proof.
  (* 0.0 and -0.0 *)
  exists (VFloat 0), (VFloat (2^63)), (fun _ => TyList). vm_compute. repeat split; discriminate.
Qed.

Theorem C12_equal_hash_strings_refuted : exists a b rt,
  obj_compare rt (VStr a) (VStr b) = Some true /\ scalar_hash (VStr a) <> scalar_hash (VStr b).
Proof.
  exists [97; 0; 98], [97; 0; 99], (fun _ => TyList). vm_compute. split; [reflexivity|discriminate].
Qed.

(** Missing w.r.t. the full statement: the two float zeros and strings containing NUL. *)
Theorem C12_equal_hash_partial : forall rt v w, hashable_ok v -> hashable_ok w ->
  obj_compare rt v w = Some true -> scalar_hash v = scalar_hash w.
Proof. exact eq_hash. Qed.

Example C12_example : hashable_ok (VStr [97; 98]) /\ hashable_ok (VInt (-7)) /\
  hashable_ok (VFloat 0x3FF0000000000000) /\ scalar_hash (VInt (-7)) <> None /\
  obj_compare (fun _ => TyList) (VStr [97; 98]) (VStr [97; 98]) = Some true.
Proof.
  split; [intros [H|[H|[]]]; discriminate|]. split; [exact I|].
  split; [split; [unfold is_bits; lia|intros [H|H]; discriminate]|].
  split; vm_compute; [discriminate|reflexivity].
Qed.

(** ** C36: == is an equivalence that never identifies values of different types. *)
Theorem C36_equal_refl : forall rt v, comparable v -> obj_compare rt v v = Some true.
Proof. exact compare_refl. Qed.

Theorem C36_equal_sym : forall rt v w, obj_compare rt v w = obj_compare rt w v.
Proof. exact compare_sym. Qed.

Theorem C36_equal_trans : forall rt u v w,
  obj_compare rt u v = Some true -> obj_compare rt v w = Some true -> obj_compare rt u w = Some true.
Proof. exact compare_trans. Qed.

Theorem C36_different_types : forall rt v w, type_of rt v <> type_of rt w -> obj_compare rt v w = Some false.
Proof. exact compare_types. Qed.

Example C36_example : comparable (VFloat 0x3FF0000000000000) /\
  obj_compare (fun _ => TyList) (VInt 1) (VFloat 0x3FF0000000000000) = Some false /\
  obj_compare (fun _ => TyList) (VFloat 0) (VFloat (2^63)) = Some true.
Proof.
  split; [split; [unfold is_bits; lia|vm_compute; discriminate]|]. vm_compute. split; reflexivity.
Qed.

(** NaN is not equal to itself, as in IEEE-754; lists, maps, buffers and functions are not comparable at all (an error is
    reported), although the manual says == applies to every type. *)
Theorem C36_reflexive_on_all_values_refuted :
  exists v w rt, obj_compare rt v v = Some false /\ obj_compare rt w w = None.
Proof. exists (VFloat 0x7FF8000000000000), (VRef 0), (fun _ => TyList). vm_compute. split; reflexivity. Qed.

Print Assumptions C06_encode_is_utf8.
Print Assumptions C06_encode_out_of_range.
Print Assumptions C06_round_trip.
Print Assumptions C07_decode_in_bounds.
Print Assumptions C07_count_total.
Print Assumptions C07_count_ascii.
Print Assumptions C07_count_text.
Print Assumptions C08_malformed_refused_refuted.
Print Assumptions C08_accepted_malformed_kinds_refuted.
Print Assumptions C08_accepted_iff_partial.
Print Assumptions C08_wellformed_accepted.
Print Assumptions C09_prev.
Print Assumptions C09_prev_sound.
Print Assumptions C09_walk_back.
Print Assumptions C09_next_in_bounds_refuted.
Print Assumptions C10_string_is_its_characters.
Print Assumptions C10_text_characters.
Print Assumptions C10_any_index_rejected_refuted.
Print Assumptions C11_equal_means_same_text_refuted.
Print Assumptions C11_equal_iff_same_text_partial.
Print Assumptions C12_equal_hash_refuted.
Print Assumptions C12_equal_hash_strings_refuted.
Print Assumptions C12_equal_hash_partial.
Print Assumptions C36_equal_refl.
Print Assumptions C36_equal_sym.
Print Assumptions C36_equal_trans.
Print Assumptions C36_different_types.
Print Assumptions C36_reflexive_on_all_values_refuted.
