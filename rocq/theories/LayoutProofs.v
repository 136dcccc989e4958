(** Tokenizing a laid out list of words gives the words back; string literals: C42, C45. *)
From Coq Require Import ZArith List Bool Lia.
From Verif Require Import Base AstModel LexModel LexSpec LexProofs ParseModel ParseSpec.
Import ListNotations.
Open Scope Z_scope.

Lemma isdigit_spec c : isdigit c = true <-> digit c.
Proof. unfold isdigit, digit. rewrite andb_true_iff, !Z.leb_le. tauto. Qed.
Lemma isident0_spec c : isident0 c = true <-> letter c.
Proof. unfold isident0, isalpha, letter. rewrite !orb_true_iff, !andb_true_iff, !Z.leb_le, Z.eqb_eq. tauto. Qed.
Lemma isident_spec c : isident c = true <-> letter c \/ digit c.
Proof. unfold isident, isalpha, isdigit, letter, digit. rewrite !orb_true_iff, !andb_true_iff, !Z.leb_le, Z.eqb_eq. tauto. Qed.
Lemma quote_spec c : (c =? 39) || (c =? 34) = true <-> quote_char c.
Proof. unfold quote_char. rewrite orb_true_iff, !Z.eqb_eq. tauto. Qed.

Lemma not_true b (P : Prop) : (b = true <-> P) -> ~ P -> b = false.
Proof. destruct b; intuition. Qed.

(** A run that ends with the text or with a character outside the class. *)
Lemma span_exact (P : Z -> bool) w s :
  Forall (fun c => P c = true) w -> match s with [] => True | c :: _ => P c = false end -> span P (w ++ s) = length w.
Proof. intros Hw Hs. rewrite span_app by auto. destruct s as [|c r]; cbn; [lia|rewrite Hs; lia]. Qed.

Lemma firstn_exact {A} (w s : list A) : firstn (length w) (w ++ s) = w.
Proof. rewrite firstn_app, firstn_all, Nat.sub_diag. cbn. apply app_nil_r. Qed.
Lemma skipn_exact {A} (w s : list A) : skipn (length w) (w ++ s) = s.
Proof. rewrite skipn_app, skipn_all, Nat.sub_diag. reflexivity. Qed.

Lemma scan_spells q b t s : quote_char q -> spells q b t -> scan_string q (b ++ q :: s) = Some (length b + 1)%nat.
Proof.
  intros Hq. induction 1 as [|c b t H1 H2 _ IH|d e b t Hd _ IH].
  - cbn. destruct (q =? 92) eqn:E; [apply Z.eqb_eq in E; destruct Hq; lia|]. rewrite Z.eqb_refl. reflexivity.
  - cbn [app scan_string]. rewrite (proj2 (Z.eqb_neq c 92)), (proj2 (Z.eqb_neq c q)), IH by auto. reflexivity.
  - cbn [app scan_string]. change (92 =? 92) with true. cbn [orb].
    unfold escapes in Hd. cbn [In] in Hd.
    destruct ((d =? 39) || (d =? 34) || (d =? 92)) eqn:E; [rewrite IH; reflexivity|].
    assert (Hp : (d =? 92) = false /\ (d =? q) = false).
    { rewrite !orb_false_iff, !Z.eqb_neq in E. split; apply Z.eqb_neq; destruct Hq; lia. }
    destruct Hp as [-> ->]. rewrite IH. reflexivity.
Qed.

Lemma reserved_table w : In w reserved -> table keywords (snd w) = Some (fst w).
Proof. unfold reserved. cbn [In]. intros H. repeat (destruct H as [<-|H]; [reflexivity|]). destruct H. Qed.

Lemma name_table s : ~ In s (map snd reserved) -> table keywords s = None.
Proof.
  intros H. destruct (table keywords s) as [k|] eqn:E; [|reflexivity]. apply table_in in E. exfalso. apply H.
  unfold keywords in E. cbn [In] in E. unfold reserved. cbn [map snd In].
  repeat (destruct E as [E|E]; [injection E as <- <-; tauto|]). destruct E.
Qed.

Lemma digit_not_letter c : digit c -> ~ letter c.
Proof. unfold digit, letter. lia. Qed.

Lemma word_ident nul w s a r : w = a :: r -> letter a -> Forall (fun c => letter c \/ digit c) r -> apart w s ->
  lex1 nul (w ++ s) = LOk (match table keywords w with Some k => k | None => KIdent end, length w).
Proof.
  intros -> Ha Hr Hs. cbn [app lex1]. rewrite (proj2 (isident0_spec a) Ha). cbv zeta.
  change (a :: r ++ s) with ((a :: r) ++ s).
  rewrite span_exact; [rewrite firstn_exact; reflexivity| |].
  - apply Forall_forall. intros c Hc. apply isident_spec. destruct Hc as [<-|Hc]; [auto|]. rewrite Forall_forall in Hr. auto.
  - destruct s as [|c s]; auto. destruct Hs as (Hs & _). specialize (Hs Ha). apply (not_true _ _ (isident_spec c)). tauto.
Qed.

Lemma lex1_lexeme nul k w s : lexeme (k, w) -> apart w s ->
  lex1 nul (w ++ s) = LOk (k, length w) /\ exists a r, w = a :: r /\ ~ white a /\ a <> 35.
Proof.
  intros H Hs. remember (k, w) as x eqn:Ex.
  destruct H as [v H1|x H0|ds H2 H3|ds fs H2 H4 H5 H6|q b t H2 H3|v kk H1|c M1 M2 M3 M4 M5 M6]; try (injection Ex as <- <-); try subst x.
  - rename v into w. destruct w as [|a r]; [destruct H1 as [[] _]|]. destruct H1 as [[Ha Hr] Hn]. split.
    + rewrite (word_ident nul (a :: r) s a r); auto. rewrite name_table by auto. reflexivity.
    + exists a, r. unfold letter, white in *. repeat split; auto; lia.
  - pose proof (reserved_table _ H0) as Ht. cbn [fst snd] in Ht.
    assert (Hc : exists a r, w = a :: r /\ letter a /\ Forall (fun c => letter c \/ digit c) r).
    { unfold reserved in H0. cbn [In] in H0.
      repeat (destruct H0 as [E|H0]; [injection E as <- <-; eexists; eexists; split; [reflexivity|];
        split; [unfold letter; lia|repeat constructor; unfold letter; lia]|]). destruct H0. }
    destruct Hc as (a & r & -> & Ha & Hr). split.
    + rewrite (word_ident nul (a :: r) s a r); auto. rewrite Ht. reflexivity.
    + exists a, r. unfold letter, white in *. repeat split; auto; lia.
  - rename ds into w. destruct w as [|a r]; [congruence|]. inversion H3 as [|? ? Ha Hr]; subst. split.
    + cbn [app lex1]. rewrite (not_true _ _ (isident0_spec a) (digit_not_letter a Ha)), (proj2 (isdigit_spec a) Ha). cbv zeta.
      change (a :: r ++ s) with ((a :: r) ++ s). rewrite span_exact.
      * rewrite skipn_exact. destruct s as [|c [|d s]]; auto. destruct Hs as (_ & Hs & _). specialize (Hs Ha).
        rewrite (proj2 (Z.eqb_neq c 46)) by tauto. reflexivity.
      * eapply Forall_impl; [|exact H3]. intros c. apply isdigit_spec.
      * destruct s as [|c s]; auto. destruct Hs as (_ & Hs & _). apply (not_true _ _ (isdigit_spec c)). tauto.
    + exists a, r. unfold digit, white in *. repeat split; auto; lia.
  - destruct ds as [|a r]; [congruence|]. destruct fs as [|f fs]; [congruence|].
    inversion H5 as [|? ? Ha Hr]; subst. inversion H6 as [|? ? Hf Hfs]; subst. split.
    + rewrite <- app_assoc. cbn [app lex1]. rewrite (not_true _ _ (isident0_spec a) (digit_not_letter a Ha)), (proj2 (isdigit_spec a) Ha). cbv zeta.
      change (a :: r ++ 46 :: f :: fs ++ s) with ((a :: r) ++ 46 :: f :: fs ++ s). rewrite span_exact.
      * rewrite skipn_exact, (proj2 (isdigit_spec f) Hf). change (46 =? 46) with true. cbn [andb].
        replace (length (a :: r) + 1)%nat with (length ((a :: r) ++ [46])) by (rewrite app_length; reflexivity).
        replace ((a :: r) ++ 46 :: f :: fs ++ s) with (((a :: r) ++ [46]) ++ (f :: fs) ++ s) by (rewrite <- app_assoc; reflexivity).
        rewrite skipn_exact, span_exact.
        -- repeat f_equal. rewrite !app_length. cbn [length]. rewrite app_length. cbn [length]. lia.
        -- eapply Forall_impl; [|exact H6]. intros c. apply isdigit_spec.
        -- destruct s as [|c s]; auto. destruct Hs as (_ & Hs & _). apply (not_true _ _ (isdigit_spec c)). tauto.
      * eapply Forall_impl; [|exact H5]. intros c. apply isdigit_spec.
      * reflexivity.
    + exists a, (r ++ 46 :: f :: fs). unfold digit, white in *. repeat split; auto; lia.
  - split.
    + cbn [app lex1]. rewrite (proj2 (quote_spec q) H2).
      rewrite (not_true _ _ (isident0_spec q)) by (unfold letter; destruct H2; lia).
      rewrite (not_true _ _ (isdigit_spec q)) by (unfold digit; destruct H2; lia).
      rewrite <- app_assoc. cbn [app]. rewrite (scan_spells q b t s) by auto.
      cbn [length]. rewrite app_length. reflexivity.
    + exists q, (b ++ [q]). unfold white. destruct H2; repeat split; lia.
  - rename v into w. assert (Hop : exists a r, w = a :: r /\ Forall op_char w).
    { unfold op_kind in H1. cbn [In] in H1.
      repeat (destruct H1 as [E|H1]; [injection E as <- <-; eexists; eexists; split; [reflexivity|]; repeat constructor; unfold op_char; cbn; tauto|]).
      destruct H1. }
    destruct Hop as (a & r & -> & Hop).
    inversion Hop as [|? ? Ha Hr]; subst. destruct (op_not_other a Ha) as (N1 & N2 & N3 & N4 & N5). split.
    + cbn [app lex1]. rewrite N3, N4, N5, (proj2 (isoper_spec a) Ha). cbv zeta.
      change (a :: r ++ s) with ((a :: r) ++ s). rewrite span_exact.
      * rewrite firstn_exact, (proj1 (op_kind_table _ _) H1). reflexivity.
      * eapply Forall_impl; [|exact Hop]. intros c. apply isoper_spec.
      * destruct s as [|c s]; auto. destruct Hs as (_ & _ & Hs). apply (not_true _ _ (isoper_spec c)). tauto.
    + exists a, r. split; [reflexivity|]. rewrite <- isspace_white, N1. apply Z.eqb_neq in N2. split; [discriminate|auto].
  - split.
    + cbn [app lex1]. rewrite (not_true _ _ (isident0_spec c)), (not_true _ _ (isdigit_spec c)), (not_true _ _ (quote_spec c)),
        (not_true _ _ (isoper_spec c)) by auto. reflexivity.
    + exists c, []. auto.
Qed.

(** Gaps are skipped. *)
Lemma skip_over g c s : gap g -> ~ white c -> c <> 35 -> skip false (g ++ c :: s) = length g.
Proof.
  intros Hg Hc H35. induction Hg as [|x r Hx _ IH|body r Hb _ IH].
  - cbn. rewrite (not_true _ _ (isspace_white c) Hc), (proj2 (Z.eqb_neq c 35) H35). reflexivity.
  - cbn [app skip]. rewrite (proj2 (isspace_white x) Hx), IH. reflexivity.
  - cbn [app skip]. change (isspace 35) with false. change (35 =? 35) with true. cbn [length]. f_equal.
    rewrite <- app_assoc. cbn [app]. rewrite app_length. cbn [length].
    induction body as [|y body IHb]; cbn [app skip length].
    + change (10 =? 10) with true. cbn [negb]. rewrite IH. lia.
    + rewrite (proj2 (Z.eqb_neq y 10)) by (intros ->; apply Hb; left; reflexivity). cbn [negb].
      rewrite IHb; [lia|]. intros Hin. apply Hb. right. exact Hin.
Qed.

Lemma skip_all g : last_gap g -> skip false g = length g.
Proof.
  assert (H0 : forall g body, gap g -> ~ In 10 body -> skip false (g ++ 35 :: body) = length (g ++ 35 :: body)).
  { intros h body Hg Hb. induction Hg as [|x r Hx _ IH|b2 r Hb2 _ IH].
    - cbn. f_equal. induction body as [|y body IH]; cbn; [reflexivity|].
      rewrite (proj2 (Z.eqb_neq y 10)) by (intros ->; apply Hb; left; reflexivity). cbn. rewrite IH; auto.
      intros Hin; apply Hb; right; exact Hin.
    - cbn [app skip length]. rewrite (proj2 (isspace_white x) Hx), IH. reflexivity.
    - cbn [app skip length]. change (isspace 35) with false. change (35 =? 35) with true. f_equal.
      rewrite <- app_assoc. cbn [app]. rewrite app_length. cbn [length]. rewrite <- IH.
      clear IH. induction b2 as [|y b2 IHb]; cbn [app skip length].
      + change (10 =? 10) with true. cbn [negb]. lia.
      + rewrite (proj2 (Z.eqb_neq y 10)) by (intros ->; apply Hb2; left; reflexivity). cbn [negb].
        rewrite IHb; [lia|]. intros Hin. apply Hb2. right. exact Hin. }
  intros H. destruct H as [g Hg|g body Hg Hb]; [|apply H0; auto].
  induction Hg as [|x r Hx _ IH|b2 r Hb2 _ IH]; [reflexivity| |].
  - cbn [skip length]. rewrite (proj2 (isspace_white x) Hx), IH. reflexivity.
  - cbn [skip length]. change (isspace 35) with false. change (35 =? 35) with true. f_equal.
    rewrite app_length. cbn [length].
    induction b2 as [|y b2 IHb]; cbn [app skip length].
    + change (10 =? 10) with true. cbn [negb]. rewrite IH. lia.
    + rewrite (proj2 (Z.eqb_neq y 10)) by (intros ->; apply Hb2; left; reflexivity). cbn [negb].
      rewrite IHb; [lia|]. intros Hin. apply Hb2. right. exact Hin.
Qed.

Lemma layout_lex nul src ws text : layout ws text -> forall off fuel, (length text <= fuel)%nat -> skipn off src = text ->
  exists l, lex fuel nul (Z.of_nat off) text = LOk l /\ with_text src l = ws ++ [(KDone, [])].
Proof.
  induction 1 as [g Hg|g k w ws s Hg Hw Ha Hl IH]; intros off fuel Hf Ho.
  - pose proof (skip_all g Hg) as Hk. exists [mktok KDone (Z.of_nat off + Z.of_nat (length g)) 0]. split; [|reflexivity].
    destruct fuel; cbn [lex]; rewrite Hk, skipn_all; reflexivity.
  - destruct (lex1_lexeme nul k w s Hw Ha) as (H1 & a & r & -> & Hna & Hn35).
    rewrite !app_length in Hf. cbn [length] in Hf. destruct fuel as [|fuel]; [lia|].
    destruct (IH (off + length g + length (a :: r))%nat fuel) as (l & El & Et).
    { cbn [length]. lia. }
    { rewrite <- (skipn_skipn' (length (a :: r))), <- (skipn_skipn' (length g)), Ho, skipn_exact. apply skipn_exact. }
    exists (mktok k (Z.of_nat off + Z.of_nat (length g)) (Z.of_nat (length (a :: r))) :: l). split.
    + cbn [lex]. change ((a :: r) ++ s) with (a :: r ++ s). rewrite skip_over by auto. rewrite skipn_exact.
      change (a :: r ++ s) with ((a :: r) ++ s) in *. rewrite H1. rewrite skipn_exact.
      rewrite <- !Nat2Z.inj_add, El. cbn [app]. rewrite ?Nat2Z.inj_add. reflexivity.
    + cbn [with_text map app t_kind]. change (map _ l) with (with_text src l). rewrite Et. f_equal. f_equal.
      unfold text_of. cbn [t_len t_off]. rewrite <- Nat2Z.inj_add, !Nat2Z.id.
      rewrite <- skipn_skipn', Ho, skipn_exact. apply firstn_exact.
Qed.

Theorem layout_tokens nul ws text : layout ws text ->
  exists l, tokenize nul text = LOk l /\ with_text text l = ws ++ [(KDone, [])].
Proof. intros H. apply (layout_lex nul text ws text H 0%nat (length text)); auto. Qed.

(** * String literals *)
Lemma escape_spec d e : In (d, e) escapes -> escape d = Some e.
Proof. unfold escapes. cbn [In]. intros H. repeat (destruct H as [E|H]; [injection E as <- <-; reflexivity|]). destruct H. Qed.

Lemma render_spells q b t : spells q b t -> forall u, 0 <= u -> u + Z.of_nat (length t) < 4096 -> render b u = Some t.
Proof.
  induction 1 as [|c b t H1 H2 _ IH|d e b t Hd _ IH]; intros u Hu Hl; cbn [length] in Hl.
  - reflexivity.
  - cbn [render]. rewrite (proj2 (Z.leb_gt 4096 (u + 1))) by lia. rewrite (proj2 (Z.eqb_neq c 92)) by auto.
    rewrite IH by lia. reflexivity.
  - cbn [render]. rewrite (proj2 (Z.leb_gt 4096 (u + 1))) by lia. change (92 =? 92) with true.
    rewrite (escape_spec d e Hd), IH by lia. reflexivity.
Qed.

Lemma string_value_spells q b t : spells q b t -> Z.of_nat (length t) < 4096 -> string_value (q :: b ++ [q]) = Some t.
Proof.
  intros H Hl. unfold string_value. cbn [skipn length]. rewrite app_length. cbn [length].
  replace (S (length b + 1) - 2)%nat with (length b) by lia. rewrite firstn_exact. apply (render_spells q); auto; lia.
Qed.

Lemma quoted_spells q t : quote_char q -> spells q (quoted q t) t.
Proof.
  intros Hq. induction t as [|c t IH]; cbn [quoted]; [constructor|].
  destruct ((c =? q) || (c =? 92)) eqn:E.
  - apply orb_true_iff in E. rewrite !Z.eqb_eq in E. apply (sp_escape q c c); auto.
    unfold escapes. cbn [In]. destruct Hq as [->| ->]; destruct E as [->| ->]; auto 10.
  - apply orb_false_iff in E as [E1 E2]. apply Z.eqb_neq in E1, E2.
    destruct (c =? 10) eqn:E3; [apply Z.eqb_eq in E3 as ->; apply (sp_escape q 110 10); auto; cbn; tauto|].
    apply sp_plain; auto.
Qed.

Lemma decimal_value s : forall a, fold_left (fun a c => a * 10 + (c - 48)) s a = dec_value a s.
Proof. induction s as [|c s IH]; intros a; cbn; auto. Qed.
