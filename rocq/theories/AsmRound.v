(** The assembler on well-written texts: every line is read as it was written. *)
From Coq Require Import ZArith List Lia Bool String.
From Verif Require Import Base StringModel FloatModel ExeModel ExeSpec ExeProofs AsmModel AsmProofs AsmSpec.
Import ListNotations.
Open Scope list_scope.
Open Scope Z_scope.

(** * Scanning *)
Definition stops (f : Z -> bool) (rest : list Z) : Prop := match rest with [] => True | c :: _ => f c = false end.

Ltac chars := unfold ident_char, ident_start, isalpha, isdigit, isspace, name_char, name_start, letter, is_digit in *;
  rewrite ?orb_true_iff, ?andb_true_iff, ?orb_false_iff, ?andb_false_iff, ?Z.eqb_eq, ?Z.leb_le, ?Z.eqb_neq, ?Z.leb_gt in *.

Lemma name_char_b c : name_char c -> ident_char c = true.
Proof. intros H. chars. lia. Qed.
Lemma name_start_b c : name_start c -> ident_start c = true.
Proof. intros H. chars. lia. Qed.

Lemma skip_identifier_app n rest : Forall name_char n -> stops ident_char rest -> skip_identifier (n ++ rest) = (n, rest).
Proof.
  intros H S. induction H as [|c n Hc _ IH]; cbn [app].
  - destruct rest as [|c r]; [reflexivity|]. cbn [skip_identifier]. cbn in S. rewrite S. reflexivity.
  - cbn [skip_identifier]. rewrite (name_char_b c Hc), IH. reflexivity.
Qed.

Lemma skip_spaces_app w rest : blank w -> stops isspace rest -> skip_spaces (w ++ rest) = rest.
Proof.
  intros H S. induction H as [|c w Hc _ IH]; cbn [app].
  - destruct rest as [|c r]; [reflexivity|]. cbn [skip_spaces]. cbn in S. rewrite S. reflexivity.
  - cbn [skip_spaces]. replace (isspace c) with true by (symmetry; chars; lia). exact IH.
Qed.

Lemma name_all n : is_name n -> Forall name_char n.
Proof. destruct n as [|c r]; cbn; [contradiction|]. intros [H1 H2]. constructor; [left; exact H1|exact H2]. Qed.

Lemma stops_blank w rest : blank w -> stops ident_char rest -> stops ident_char (w ++ rest).
Proof. intros [|c w' Hc _] S; [exact S|]. cbn. chars. lia. Qed.

(** * Operands *)
(** What may follow an operand. *)
Definition sep (rest : list Z) : Prop := match rest with [] => True | c :: _ => isspace c = true \/ c = 44 \/ c = 59 end.

Lemma sep_blank w rest : blank w -> sep rest -> sep (w ++ rest).
Proof. intros [|c w' Hc _] S; [exact S|]. cbn. left. chars. lia. Qed.

Lemma sep_ident rest : sep rest -> stops ident_char rest.
Proof. destruct rest as [|c r]; [auto|]. cbn. intros H. chars. lia. Qed.

Lemma sep_int rest : sep rest -> ends_int rest.
Proof. destruct rest as [|c r]; [auto|]. cbn. intros H. unfold is_digit. chars. split; [lia|intros ->; lia]. Qed.

Lemma string_loop_plain f buf c r : c <> 34 -> c <> 92 -> string_loop (S f) buf (c :: r) = string_loop (S f) (buf ++ [c]) r.
Proof.
  intros H1 H2. cbn [string_loop string_chunk]. destruct (Z.eqb_spec c 92); [contradiction|]. destruct (Z.eqb_spec c 34); [contradiction|].
  cbn [orb]. destruct (string_chunk r) as [a b]. replace (buf ++ c :: a) with ((buf ++ [c]) ++ a) by (rewrite <- app_assoc; reflexivity).
  replace (Z.of_nat (List.length buf) + Z.of_nat (List.length (c :: a))) with (Z.of_nat (List.length (buf ++ [c])) + Z.of_nat (List.length a))
    by (rewrite app_length; cbn [List.length]; lia).
  reflexivity.
Qed.

Lemma string_loop_text s ts rest : Forall2 writes_char s ts -> forall fuel buf,
  (List.length (List.concat ts) < fuel)%nat -> Z.of_nat (List.length buf) + Z.of_nat (List.length s) <= 1024 ->
  string_loop fuel buf (List.concat ts ++ 34 :: rest) = AOk (buf ++ s, 34 :: rest).
Proof.
  induction 1 as [|c t s ts W F IH]; intros fuel buf Hf Hl.
  - destruct fuel as [|f]; [cbn in Hf; lia|]. cbn [List.concat app string_loop string_chunk]. cbn [Z.eqb orb Pos.eqb]. cbn [List.length] in *.
    destruct (Z.ltb_spec 1024 (Z.of_nat (List.length buf) + Z.of_nat 0)); [lia|]. reflexivity.
  - cbn [List.concat] in *. rewrite app_length in Hf. cbn [List.length] in Hl. destruct W as [c Hc N1 N2|c e He].
    + cbn [app List.length] in *. destruct fuel as [|f]; [lia|]. rewrite string_loop_plain by assumption.
      rewrite IH; [|lia|rewrite app_length; cbn [List.length]; lia]. rewrite <- app_assoc. reflexivity.
    + cbn [app List.length] in *. destruct fuel as [|f]; [lia|]. cbn [string_loop string_chunk].
      change ((92 =? 92) || (92 =? 34)) with true. cbn [List.length]. rewrite app_nil_r.
      destruct (Z.ltb_spec 1024 (Z.of_nat (List.length buf) + Z.of_nat 0)); [lia|].
      assert (E : asm_escape e = Some c).
      { cbn [In] in He. repeat (destruct He as [He|He]; [injection He as <- <-; reflexivity|]). contradiction. }
      rewrite E. destruct (Z.ltb_spec 1024 (Z.of_nat (List.length buf) + 1)); [lia|].
      specialize (IH f (buf ++ [c]) ltac:(lia)). rewrite app_length in IH. cbn [List.length] in IH. specialize (IH ltac:(lia)).
      rewrite <- app_assoc in IH. cbn [app] in IH. rewrite <- IH. clear IH.
      destruct F as [|c1 t1 s1 ts1 W1 F1].
      * cbn [List.concat app]. destruct f as [|f]; [lia|]. cbn [string_loop string_chunk]. cbn [Z.eqb orb Pos.eqb List.length].
        rewrite app_nil_r, app_length. cbn [List.length].
        destruct (Z.ltb_spec 1024 (Z.of_nat (List.length buf + 1) + Z.of_nat 0)); [lia|]. reflexivity.
      * cbn [List.concat]. destruct W1 as [c1 Hc1 N1 N2|c1 e1 He1]; cbn [app]; [|reflexivity].
        destruct c1 as [|p|p]; try reflexivity. do 6 (destruct p as [p|p|]; try reflexivity). lia.
Qed.

Lemma text_no_nul s ts : Forall2 writes_char s ts -> Forall (fun c => 1 <= c < 256) s.
Proof.
  induction 1 as [|c t s ts W _ IH]; constructor; auto. destruct W as [c Hc|c e He]; [exact Hc|].
  cbn [In] in He. repeat (destruct He as [He|He]; [injection He as <- <-; lia|]). contradiction.
Qed.

Lemma until_nul_id s : Forall (fun c => 1 <= c < 256) s -> until_nul s = s.
Proof. induction 1 as [|c s Hc _ IH]; [reflexivity|]. cbn [until_nul]. destruct (Z.eqb_spec c 0); [lia|]. rewrite IH. reflexivity. Qed.

(** The operand an argument is read as. *)
Definition conv_arg (l : labels) (b : builder) (a : arg) : labels * builder * operand :=
  match a with
  | GInt z => (l, b, PInt z)
  | GStr s => (l, b, PStr s)
  | GLab n => let '(l', b', p) := get_label l b n in (l', b', PProm p)
  | GFlt v => (l, b, PFlt v)
  end.

(** Numbers with a fractional part. *)
Lemma float_int_digits ds rest : Forall is_digit ds -> forall b, float_int_loop b (ds ++ 46 :: rest) =
  (fold_left (fun b d => f_add (f_mul b (f_of_int 10)) (f_of_int (d - 48))) ds b, 46 :: rest).
Proof.
  induction 1 as [|c ds D _ IH]; intros b; cbn [app float_int_loop fold_left]; [reflexivity|].
  destruct (Z.eqb_spec c 46); [unfold is_digit in D; lia|]. apply IH.
Qed.
Lemma float_frac_digits fs rest : Forall is_digit fs -> ends_int rest -> forall b q, float_frac_loop b q (fs ++ rest) =
  (fst (fold_left (fun x d => let q := f_div (snd x) (f_of_int 10) in (f_add (fst x) (f_mul q (f_of_int (d - 48))), q)) fs (b, q)), rest).
Proof.
  intros F E. induction F as [|c fs D _ IH]; intros b q; cbn [app float_frac_loop fold_left].
  - destruct rest as [|c r]; [reflexivity|]. cbn [float_frac_loop]. destruct E as [E _]. destruct (isdigit c) eqn:Ec; [apply isdigit_iff in Ec; contradiction|reflexivity].
  - rewrite (proj2 (isdigit_iff c) D). cbv zeta. rewrite IH. reflexivity.
Qed.
Lemma dot_digit_float ds fs rest : Forall is_digit ds -> Forall is_digit fs -> fs <> [] -> dot_digit (ds ++ 46 :: fs ++ rest) = true.
Proof.
  intros D F N. unfold dot_digit. induction D as [|c ds C _ IH]; cbn [app skip_digits].
  - destruct F as [|f fs Hf F]; [congruence|]. change (isdigit 46) with false. cbn [app]. cbn iota. apply isdigit_iff, Hf.
  - rewrite (proj2 (isdigit_iff c) C). exact IH.
Qed.
Lemma asm_float sg ds fs rest l b : Forall is_digit ds -> ds <> [] -> Forall is_digit fs -> fs <> [] -> ends_int rest ->
  parse_operand l b (sign_text sg ++ ds ++ 46 :: fs ++ rest) = AOk (l, b, PFlt (float_value sg ds fs), rest).
Proof.
  intros Hd Hne Hf Fne Hr. pose proof (dot_digit_float ds fs rest Hd Hf Fne) as Hdot. pose proof (float_int_digits ds (fs ++ rest) Hd (f_of_int 0)) as Hi.
  assert (P : forall s r, sign_of s = (sign_value sg 1, ds ++ 46 :: fs ++ rest) -> r = parse_float_operand s -> r = (PFlt (float_value sg ds fs), rest)).
  { intros s r E ->. unfold parse_float_operand. rewrite E, Hi. cbn [List.tl]. rewrite (float_frac_digits fs rest Hf Hr). reflexivity. }
  destruct ds as [|d ds]; [congruence|]. inversion Hd as [|? ? H1 H2]; subst. pose proof (proj2 (isdigit_iff d) H1) as Hdd. unfold is_digit in H1.
  cbn [app] in *. destruct sg; cbn [sign_text app parse_operand].
  - replace (d =? 34) with false by (symmetry; apply Z.eqb_neq; lia). rewrite Hdd. cbn [orb]. rewrite Hdd, Hdot.
    assert (E : sign_of (d :: ds ++ 46 :: fs ++ rest) = (sign_value SgNone 1, d :: ds ++ 46 :: fs ++ rest)).
    { unfold sign_of. assert (d <> 43 /\ d <> 45) as [Ha Hb] by lia. clear - Ha Hb.
      destruct d as [|p|p]; try reflexivity. do 6 (destruct p as [p|p|]; try reflexivity; try (exfalso; lia)). }
    rewrite (P _ _ E eq_refl). reflexivity.
  - change (43 =? 34) with false. change (isdigit 43) with false. cbn [orb]. change (43 =? 45) with false.
    change (43 =? 43) with true. cbn [orb]. rewrite Hdd, Hdot. rewrite (P (43 :: d :: ds ++ 46 :: fs ++ rest) _ eq_refl eq_refl). reflexivity.
  - change (45 =? 34) with false. change (isdigit 45) with false. cbn [orb]. change (45 =? 45) with true.
    cbn [orb]. rewrite Hdd, Hdot. rewrite (P (45 :: d :: ds ++ 46 :: fs ++ rest) _ eq_refl eq_refl). reflexivity.
Qed.

Lemma parse_arg l b a t rest : writes_arg a t -> sep rest ->
  parse_operand l b (t ++ rest) = let '(l', b', o) := conv_arg l b a in AOk (l', b', o, rest).
Proof.
  intros [sg ds H1 H2 H3|s ts F L|n N|sg ds fs H1 H2 H3 H4] S.
  - cbn [conv_arg]. rewrite <- app_assoc. rewrite asm_integer by (auto using sep_int).
    replace (digits_value ds <=? 2 ^ 63 - 1) with true by (symmetry; apply Z.leb_le; exact H3). reflexivity.
  - cbn [conv_arg app parse_operand]. change (34 =? 34) with true. cbn iota. unfold parse_string_operand.
    rewrite <- app_assoc. cbn [app]. rewrite (string_loop_text s ts rest F); [|rewrite app_length; lia|cbn [List.length]; lia].
    cbn [app]. rewrite until_nul_id by (eapply text_no_nul; exact F). reflexivity.
  - pose proof (name_all n N) as A. destruct n as [|c n]; [contradiction|]. destruct N as [N1 N2]. cbn [conv_arg].
    change ((c :: n) ++ rest) with (c :: (n ++ rest)). cbn [parse_operand].
    replace (c =? 34) with false by (symmetry; chars; lia).
    replace (isdigit c || (c =? 45) || (c =? 43)) with false by (symmetry; chars; lia).
    rewrite (name_start_b c N1). change (c :: n ++ rest) with ((c :: n) ++ rest). rewrite skip_identifier_app by (auto using sep_ident).
    destruct (get_label l b (c :: n)) as [[l' b'] p]. reflexivity.
  - cbn [conv_arg]. rewrite <- !app_assoc. cbn [app]. rewrite asm_float by (auto using sep_int). reflexivity.
Qed.

Fixpoint conv_args (l : labels) (b : builder) (ags : list arg) : labels * builder * list operand :=
  match ags with
  | [] => (l, b, [])
  | a :: r => let '(l', b', o) := conv_arg l b a in let '(l2, b2, os) := conv_args l' b' r in (l2, b2, o :: os)
  end.

Lemma conv_args_length ags : forall l b l' b' os, conv_args l b ags = (l', b', os) -> List.length os = List.length ags.
Proof.
  induction ags as [|a ags IH]; intros l b l' b' os; cbn [conv_args]; [intros [= <- <- <-]; reflexivity|].
  destruct (conv_arg l b a) as [[l1 b1] o]. destruct (conv_args l1 b1 ags) as [[l2 b2] os2] eqn:E. intros [= <- <- <-].
  cbn [List.length]. f_equal. eapply IH; exact E.
Qed.

(** What may follow a line. *)
Definition line_end (rest : list Z) : Prop := match rest with [] => True | c :: _ => c = 59 end.

Lemma line_end_sep rest : line_end rest -> sep rest.
Proof. destruct rest; cbn; [auto|]. intros ->. auto. Qed.

Lemma line_end_space rest : line_end rest -> stops isspace rest.
Proof. destruct rest; cbn; [auto|]. intros ->. reflexivity. Qed.

Lemma arg_nonempty a t : writes_arg a t -> exists c r, t = c :: r /\ isspace c = false /\ c <> 59 /\ c <> 58.
Proof.
  intros [sg ds H1 H2 H3|s ts F L|n N|sg ds fs H1 H2 H3 H4].
  - destruct ds as [|d ds]; [congruence|]. inversion H1 as [|? ? D _]; subst. destruct sg; cbn; do 2 eexists; (split; [reflexivity|]);
      chars; lia.
  - cbn. do 2 eexists. split; [reflexivity|]. chars. lia.
  - destruct n as [|c n]; [contradiction|]. destruct N as [N1 N2]. do 2 eexists. split; [reflexivity|]. chars. lia.
  - destruct ds as [|d ds]; [congruence|]. inversion H1 as [|? ? D _]; subst. destruct sg; cbn; do 2 eexists; (split; [reflexivity|]);
      chars; lia.
Qed.

Lemma args_nonempty ags t : writes_args ags t -> exists c r, t = c :: r /\ isspace c = false /\ c <> 59 /\ c <> 58.
Proof.
  intros [a ta w W B|a ta w w' r tr W B B' R]; destruct (arg_nonempty _ _ W) as (c & r0 & -> & P); cbn [app]; eauto.
Qed.

Lemma operands_text term ags t : writes_args ags t -> forall rest fuel l b ops, line_end rest -> (List.length t < fuel)%nat ->
  (List.length ops + List.length ags <= 8)%nat ->
  operands_loop fuel term l b ops (t ++ rest) = let '(l', b', os) := conv_args l b ags in AOk (l', b', ops ++ os, rest).
Proof.
  induction 1 as [a t w W B|a t w w' r tr W B B' R IH]; intros rest fuel l b ops E Hf Hn; (destruct fuel as [|f]; [lia|]);
    destruct (arg_nonempty _ _ W) as (c & r0 & Et & _); cbn [operands_loop].
  - rewrite <- app_assoc. replace (t ++ w ++ rest) with (c :: r0 ++ w ++ rest) at 1 by (rewrite Et; reflexivity).
    rewrite (parse_arg l b a t) by (auto using sep_blank, line_end_sep). cbn [conv_args]. destruct (conv_arg l b a) as [[l' b'] o].
    cbn [List.length] in Hn. destruct (Nat.eqb_spec (List.length ops) 8); [lia|]. rewrite skip_spaces_app by (auto using line_end_space).
    destruct rest as [|c0 rest]; [reflexivity|]. cbn in E. subst c0. reflexivity.
  - rewrite <- !app_assoc. cbn [app]. rewrite <- app_assoc.
    replace (t ++ w ++ 44 :: w' ++ tr ++ rest) with (c :: r0 ++ w ++ 44 :: w' ++ tr ++ rest) at 1 by (rewrite Et; reflexivity).
    rewrite (parse_arg l b a t) by (first [assumption | apply sep_blank; [assumption|cbn; auto]]). cbn [conv_args]. destruct (conv_arg l b a) as [[l' b'] o].
    cbn [List.length] in Hn. destruct (Nat.eqb_spec (List.length ops) 8); [lia|].
    rewrite skip_spaces_app by (auto; cbn; reflexivity).
    destruct (args_nonempty _ _ R) as (c1 & r1 & Er & S1 & _).
    rewrite skip_spaces_app by (auto; rewrite Er; cbn; exact S1).
    rewrite !app_length in Hf. cbn [List.length] in Hf. rewrite app_length in Hf.
    rewrite IH; [|assumption|lia|rewrite app_length; cbn [List.length]; lia].
    destruct (conv_args l' b' r) as [[l2 b2] os]. rewrite <- app_assoc. reflexivity.
Qed.

(** * Lines *)
Lemma mnemonic nm op : nm = spelled op -> opcode_of_name (bytes_of nm) = Some op /\ is_name (bytes_of nm).
Proof.
  intros ->. destruct op; (split; [vm_compute; reflexivity|]); cbn; unfold name_char, name_start, letter, is_digit;
    (split; [lia|repeat (apply Forall_cons; [lia|]); apply Forall_nil]).
Qed.

Lemma parse_head lab tl nm rest : writes_label lab tl -> is_name (bytes_of nm) -> stops ident_char rest ->
  (forall r, skip_spaces rest <> 58 :: r) ->
  parse_label_and_opcode (tl ++ bytes_of nm ++ rest) =
    AOk (false, lab, bytes_of nm, List.length (bytes_of nm ++ rest), skip_spaces rest).
Proof.
  intros W N S C. pose proof (name_all _ N) as NA. destruct (bytes_of nm) as [|c0 n0] eqn:En; [contradiction|].
  pose proof N as [N1 _]. destruct W as [|n w w' NL B B'].
  - cbn [app]. unfold parse_label_and_opcode. rewrite (name_start_b _ N1). cbn [negb].
    change (c0 :: n0 ++ rest) with ((c0 :: n0) ++ rest). rewrite skip_identifier_app by assumption.
    destruct (skip_spaces rest) as [|c r] eqn:Er; [reflexivity|].
    destruct (Z.eq_dec c 58) as [->|NE]; [exfalso; exact (C _ eq_refl)|].
    destruct c as [|p|p]; try reflexivity. do 6 (destruct p as [p|p|]; try reflexivity). lia.
  - destruct n as [|c n]; [contradiction|]. pose proof (name_all _ NL) as NLA. destruct NL as [NL1 _].
    rewrite <- !app_assoc. cbn [app]. unfold parse_label_and_opcode. rewrite (name_start_b _ NL1). cbn [negb].
    change (c :: n ++ w ++ 58 :: w' ++ c0 :: n0 ++ rest) with ((c :: n) ++ w ++ 58 :: w' ++ (c0 :: n0) ++ rest).
    rewrite skip_identifier_app by (first [assumption | apply stops_blank; [assumption|reflexivity]]).
    rewrite skip_spaces_app by (auto; reflexivity). cbn [app].
    change (c0 :: n0 ++ rest) with ((c0 :: n0) ++ rest).
    rewrite skip_spaces_app by (auto; cbn; chars; lia). cbn [app]. rewrite (name_start_b _ N1).
    change (c0 :: n0 ++ rest) with ((c0 :: n0) ++ rest). rewrite skip_identifier_app by assumption. reflexivity.
Qed.

(** * Programs as histories of the builder *)
(** What one line does; [off], [len] are the position recorded for it. *)
Definition step_label (l : labels) (b : builder) (lab : option (list Z)) : ares (labels * builder) :=
  match lab with None => AOk (l, b) | Some n => set_label l b n (exeb_count b) end.

Fixpoint run_lines (l : labels) (b : builder) (offs : list (Z * Z)) (prog : list line) : ares (labels * builder) :=
  match prog with
  | [] => AOk (l, b)
  | ln :: r =>
    match step_label l b (ln_label ln) with
    | AOk (l1, b1) =>
      let '(l2, b2, os) := conv_args l1 b1 (ln_args ln) in
      match exeb_append b2 (ln_op ln) os (fst (hd (0, 0) offs)) (snd (hd (0, 0) offs)) with
      | ROk b3 => run_lines l2 b3 (List.tl offs) r
      | RErr => AErr | RUB => AUB
      end
    | AErr => AErr | AUB => AUB | AFuel => AFuel
    end
  end.

Lemma blank_semi w rest : blank w -> line_end rest -> skip_spaces (w ++ rest) = rest.
Proof. intros B E. apply skip_spaces_app; auto using line_end_space. Qed.

Lemma asm_line f total l b w ln t rest : blank w -> writes_line ln t -> line_end rest -> exists off, forall term,
  asm_loop (S f) term total false l b (w ++ t ++ rest) =
    match step_label l b (ln_label ln) with
    | AOk (l1, b1) =>
      let '(l2, b2, os) := conv_args l1 b1 (ln_args ln) in
      match exeb_append b2 (ln_op ln) os (fst off) (snd off) with
      | ROk b3 => asm_loop f term total false l2 b3 (List.tl rest)
      | RErr => AErr | RUB => AUB
      end
    | AErr => AErr | AUB => AUB | AFuel => AFuel
    end.
Proof.
  intros B W E. destruct W as [lab tl nm op w1 WL I B1|lab tl nm op w1 ags ta WL I B1 NB WA L8].
  - destruct (mnemonic nm op I) as [M N]. set (oprem := List.length (bytes_of nm ++ w1 ++ rest)).
    exists (total - Z.of_nat oprem, Z.of_nat (List.length (bytes_of nm))). intros term. cbn [asm_loop fst snd ln_label ln_args ln_op conv_args].
    rewrite <- !app_assoc.
    assert (ST : stops isspace (tl ++ bytes_of nm ++ w1 ++ rest)).
    { destruct WL as [|n w2 w2' NL _ _].
      - destruct (bytes_of nm); [contradiction|]. destruct N as [N1 _]. cbn. chars. lia.
      - destruct n; [contradiction|]. destruct NL as [N1 _]. cbn. chars. lia. }
    rewrite (skip_spaces_app w) by assumption.
    pose proof (parse_head lab tl nm (w1 ++ rest) WL N) as P.
    rewrite blank_semi in P by assumption.
    specialize (P ltac:(apply stops_blank; [assumption|apply sep_ident, line_end_sep; assumption])).
    specialize (P ltac:(intros r; destruct rest as [|c0 rest]; [discriminate|]; cbn in E; subst c0; discriminate)).
    destruct (tl ++ bytes_of nm ++ w1 ++ rest) as [|c0 s0] eqn:Es; [unfold parse_label_and_opcode in P; discriminate|].
    rewrite P. fold (step_label l b lab). destruct (step_label l b lab) as [[l1 b1]| | |]; try reflexivity. rewrite M.
    assert (PO : parse_operands term l1 b1 rest = AOk (l1, b1, [], rest)).
    { destruct rest as [|c1 r1]; [reflexivity|]. cbn in E. subst c1. reflexivity. }
    rewrite PO. fold oprem. destruct (exeb_append b1 op [] (total - Z.of_nat oprem) (Z.of_nat (List.length (bytes_of nm)))); reflexivity.
  - destruct (mnemonic nm op I) as [M N]. set (oprem := List.length (bytes_of nm ++ w1 ++ ta ++ rest)).
    exists (total - Z.of_nat oprem, Z.of_nat (List.length (bytes_of nm))). intros term. cbn [asm_loop fst snd ln_label ln_args ln_op].
    rewrite <- !app_assoc.
    assert (ST : stops isspace (tl ++ bytes_of nm ++ w1 ++ ta ++ rest)).
    { destruct WL as [|n w2 w2' NL _ _].
      - destruct (bytes_of nm); [contradiction|]. destruct N as [N1 _]. cbn. chars. lia.
      - destruct n; [contradiction|]. destruct NL as [N1 _]. cbn. chars. lia. }
    rewrite (skip_spaces_app w) by assumption.
    destruct (args_nonempty _ _ WA) as (c & r0 & Et & S1 & S2 & S3).
    assert (SP : skip_spaces (w1 ++ ta ++ rest) = ta ++ rest).
    { apply skip_spaces_app; [assumption|]. rewrite Et. cbn. exact S1. }
    pose proof (parse_head lab tl nm (w1 ++ ta ++ rest) WL N) as P. rewrite SP in P.
    specialize (P ltac:(inversion B1 as [|cw ww Hcw Hww]; subst; [congruence|]; cbn; chars; lia)).
    specialize (P ltac:(intros r; rewrite Et; cbn; congruence)).
    destruct (tl ++ bytes_of nm ++ w1 ++ ta ++ rest) as [|c0 s0] eqn:Es; [unfold parse_label_and_opcode in P; discriminate|].
    rewrite P. fold (step_label l b lab). destruct (step_label l b lab) as [[l1 b1]| | |]; try reflexivity. rewrite M.
    assert (PO : parse_operands term l1 b1 (ta ++ rest) = let '(l2, b2, os) := conv_args l1 b1 ags in AOk (l2, b2, os, rest)).
    { assert (PE : parse_operands term l1 b1 (ta ++ rest) = operands_loop (S (List.length (ta ++ rest))) term l1 b1 [] (ta ++ rest)).
      { rewrite Et. cbn [app]. unfold parse_operands. destruct c as [|p|p]; try reflexivity. do 6 (destruct p as [p|p|]; try reflexivity). lia. }
      rewrite PE. rewrite (operands_text term ags ta WA); [|assumption|rewrite app_length; lia|cbn [List.length]; lia].
      destruct (conv_args l1 b1 ags) as [[l2 b2] os]. reflexivity. }
    rewrite PO. destruct (conv_args l1 b1 ags) as [[l2 b2] os]. fold oprem.
    destruct (exeb_append b2 op os (total - Z.of_nat oprem) (Z.of_nat (List.length (bytes_of nm)))); reflexivity.
Qed.

Lemma line_nonempty ln t : writes_line ln t -> (1 <= List.length t)%nat.
Proof.
  intros [lab tl nm op w1 WL I B1|lab tl nm op w1 ags ta WL I B1 NB WA L8]; destruct (mnemonic nm op I) as [_ N];
    destruct (bytes_of nm) as [|c n] eqn:En; try contradiction; rewrite !app_length; cbn [List.length]; lia.
Qed.

Lemma asm_prog total prog text : writes prog text -> forall fuel l b, (List.length text < fuel)%nat -> exists offs, forall term,
  asm_loop fuel term total false l b text =
    match run_lines l b offs prog with AOk (l', b') => AOk (false, l', b') | AErr => AErr | AUB => AUB | AFuel => AFuel end.
Proof.
  induction 1 as [w B|w ln t B W|w ln t r tr B W R IH]; intros fuel l b Hf; (destruct fuel as [|f]; [lia|]).
  - exists []. intros term. cbn [asm_loop run_lines]. rewrite <- (app_nil_r w), skip_spaces_app by (auto; cbn; auto). reflexivity.
  - destruct (asm_line f total l b w ln t [] B W I) as (off & E). rewrite app_nil_r in E. exists [off]. intros term. rewrite E. cbn [run_lines hd List.tl].
    destruct (step_label l b (ln_label ln)) as [[l1 b1]| | |]; try reflexivity. destruct (conv_args l1 b1 (ln_args ln)) as [[l2 b2] os].
    destruct (exeb_append b2 (ln_op ln) os (fst off) (snd off)) as [b3| |]; try reflexivity.
    pose proof (line_nonempty _ _ W). rewrite app_length in Hf. destruct f; [lia|]. reflexivity.
  - destruct (asm_line f total l b w ln t (59 :: tr) B W eq_refl) as (off & E). cbn [List.tl] in E.
    rewrite !app_length in Hf. cbn [List.length] in Hf.
    assert (X : exists offs, forall term l1 b1, step_label l b (ln_label ln) = AOk (l1, b1) -> forall l2 b2 os, conv_args l1 b1 (ln_args ln) = (l2, b2, os) ->
      forall b3, exeb_append b2 (ln_op ln) os (fst off) (snd off) = ROk b3 -> asm_loop f term total false l2 b3 tr =
        match run_lines l2 b3 offs r with AOk (l', b') => AOk (false, l', b') | AErr => AErr | AUB => AUB | AFuel => AFuel end).
    { destruct (step_label l b (ln_label ln)) as [[l1 b1]| | |]; try (exists []; discriminate).
      destruct (conv_args l1 b1 (ln_args ln)) as [[l2 b2] os] eqn:EC. destruct (exeb_append b2 (ln_op ln) os (fst off) (snd off)) as [b3| |] eqn:EA;
        try (exists []; intros ? ? ? [= <- <-] ? ? ?; rewrite EC; intros [= <- <- <-]; rewrite EA; discriminate).
      destruct (IH f l2 b3 ltac:(lia)) as (offs & IE). exists offs. intros term ? ? [= <- <-] ? ? ?. rewrite EC. intros [= <- <- <-] b4.
      rewrite EA. intros [= <-]. apply IE. }
    destruct X as (offs & X). exists (off :: offs). intros term. rewrite E. cbn [run_lines hd List.tl].
    destruct (step_label l b (ln_label ln)) as [[l1 b1]| | |] eqn:ES; try reflexivity. destruct (conv_args l1 b1 (ln_args ln)) as [[l2 b2] os] eqn:EC.
    destruct (exeb_append b2 (ln_op ln) os (fst off) (snd off)) as [b3| |] eqn:EA; try reflexivity. eapply X; eauto.
Qed.
