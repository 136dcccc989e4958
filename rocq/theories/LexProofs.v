(** Proofs about the tokenizer: C40, C41. *)
From Coq Require Import ZArith List Bool Lia.
From Verif Require Import Base LexModel LexSpec.
Import ListNotations.
Open Scope Z_scope.

Lemma isspace_white c : isspace c = true <-> white c.
Proof.
  unfold isspace, white. rewrite orb_true_iff, andb_true_iff, Z.eqb_eq, !Z.leb_le. tauto.
Qed.

Lemma span_le p s : (span p s <= length s)%nat.
Proof. induction s as [|c r IH]; cbn; [lia|]. destruct (p c); cbn; lia. Qed.

Lemma span_forall p s : Forall (fun c => p c = true) (firstn (span p s) s).
Proof. induction s as [|c r IH]; cbn; [constructor|]. destruct (p c) eqn:E; cbn; [constructor; auto|constructor]. Qed.

Lemma span_stop p s c r : skipn (span p s) s = c :: r -> p c = false.
Proof.
  induction s as [|x s IH]; cbn; [discriminate|]. destruct (p x) eqn:E; cbn.
  - exact IH.
  - intros H; injection H as <- <-; exact E.
Qed.

Lemma span_app p a b : Forall (fun c => p c = true) a -> span p (a ++ b) = (length a + span p b)%nat.
Proof. induction 1 as [|c a Hc _ IH]; cbn; [reflexivity|]. rewrite Hc, IH. reflexivity. Qed.

Lemma skip_le cm s : (skip cm s <= length s)%nat.
Proof.
  revert cm; induction s as [|c r IH]; intros cm; cbn; [lia|].
  destruct cm; [specialize (IH (negb (c =? 10))); lia|].
  destruct (isspace c); [specialize (IH false); lia|]. destruct (c =? 35); [specialize (IH true); lia|lia].
Qed.

(** What the skipped part looks like, and what follows it. *)
Lemma skip_comment s : 
  (skip true s = length s /\ ~ In 10 s) \/
  (exists body r, s = body ++ 10 :: r /\ ~ In 10 body /\ skip true s = (length body + 1 + skip false r)%nat).
Proof.
  induction s as [|c r IH]; [left; cbn; auto|].
  cbn [skip]. destruct (c =? 10) eqn:E; cbn [negb].
  - right. apply Z.eqb_eq in E as ->. exists [], r. cbn. auto.
  - apply Z.eqb_neq in E. destruct IH as [[IH Hn]|(body & r' & -> & Hn & IH)].
    + left. rewrite IH. split; [reflexivity|]. intros [?|?]; auto.
    + right. exists (c :: body), r'. rewrite IH. cbn. split; [reflexivity|]. split; [|lia]. intros [?|?]; auto.
Qed.

Lemma skip_gap n : forall s, (length s <= n)%nat ->
  let k := skip false s in
  match skipn k s with
  | [] => last_gap (firstn k s)
  | c :: _ => gap (firstn k s) /\ isspace c = false /\ c <> 35
  end.
Proof.
  induction n as [|n IH]; intros s Hn; [destruct s; [cbn; repeat constructor|cbn in Hn; lia]|].
  destruct s as [|c r]; [cbn; repeat constructor|]. cbn [length] in Hn. cbn [skip].
  destruct (isspace c) eqn:Es.
  - cbn [skipn firstn]. specialize (IH r ltac:(lia)). cbv zeta in IH. apply isspace_white in Es.
    destruct (skipn (skip false r) r) as [|d ?].
    + destruct IH as [g Hg|g body Hg Hb]; [apply last_plain; constructor; auto|].
      apply (last_comment (c :: g) body); auto. constructor; auto.
    + destruct IH as (Hg & H). split; auto. constructor; auto.
  - destruct (c =? 35) eqn:Ec.
    + apply Z.eqb_eq in Ec as ->. cbn [skipn firstn].
      destruct (skip_comment r) as [[-> Hb]|(body & r' & -> & Hb & ->)].
      * rewrite skipn_all, firstn_all. apply (last_comment [] r); [constructor|exact Hb].
      * assert (Hl : (length r' <= n)%nat) by (rewrite app_length in Hn; cbn in Hn; lia).
        specialize (IH r' Hl). cbv zeta in IH.
        replace (length body + 1 + skip false r')%nat with (length body + S (skip false r'))%nat by lia.
        rewrite skipn_app, firstn_app.
        replace (length body + S (skip false r') - length body)%nat with (S (skip false r')) by lia.
        rewrite skipn_all2, firstn_all2 by lia. cbn [skipn firstn app].
        destruct (skipn (skip false r') r') as [|d ?].
        -- destruct IH as [g Hg|g b2 Hg Hb2]; [apply last_plain, gap_comment; auto|].
           replace (35 :: body ++ 10 :: g ++ 35 :: b2) with ((35 :: body ++ 10 :: g) ++ 35 :: b2)
             by (cbn; rewrite <- app_assoc; reflexivity).
           apply last_comment; [apply gap_comment; auto|auto].
        -- destruct IH as (Hg & H). split; auto. apply gap_comment; auto.
    + cbn [skipn firstn]. apply Z.eqb_neq in Ec. repeat split; auto. constructor.
Qed.

Lemma scan_len q n : forall s k, (length s <= n)%nat -> scan_string q s = Some k -> (1 <= k <= length s)%nat.
Proof.
  induction n as [|n IH]; intros s k Hn; destruct s as [|c r]; cbn [scan_string length] in *; try discriminate; try lia.
  destruct (c =? 92).
  - destruct r as [|d r']; [discriminate|].
    destruct ((d =? 39) || (d =? 34) || (d =? 92)).
    + destruct (scan_string q r') eqn:E; cbn; intros H; [injection H as <-|discriminate].
      cbn [length] in *. apply IH in E; lia.
    + destruct (scan_string q (d :: r')) eqn:E; cbn [option_map]; intros H; [injection H as <-|discriminate].
      apply IH in E; cbn [length] in *; lia.
  - destruct (c =? q); [intros H; injection H as <-; lia|].
    destruct (scan_string q r) eqn:E; cbn; intros H; [injection H as <-|discriminate]. apply IH in E; lia.
Qed.

Lemma table_kind t s k : table t s = Some k -> In k (map snd t).
Proof.
  induction t as [|[w k'] t IH]; cbn; [discriminate|]. destruct (list_eqb w s); [intros H; injection H; auto|auto].
Qed.

Lemma list_eqb_eq a b : list_eqb a b = true <-> a = b.
Proof.
  revert b; induction a as [|x a IH]; destruct b as [|y b]; cbn; try (split; congruence).
  rewrite andb_true_iff, Z.eqb_eq, IH. split; [intros [-> ->]; reflexivity|intros H; injection H; auto].
Qed.

Lemma table_in t s k : table t s = Some k -> In (s, k) t.
Proof.
  induction t as [|[w k'] t IH]; cbn; [discriminate|].
  destruct (list_eqb w s) eqn:E; [apply list_eqb_eq in E as ->; intros H; injection H as ->; auto|auto].
Qed.

Lemma table_none t s : table t s = None -> forall k, ~ In (s, k) t.
Proof.
  induction t as [|[w k'] t IH]; cbn; [auto|].
  destruct (list_eqb w s) eqn:E; [discriminate|]. intros H k [Hk|Hk]; [|exact (IH H k Hk)].
  injection Hk as -> ->. rewrite (proj2 (list_eqb_eq s s) eq_refl) in E. discriminate.
Qed.

(** One token: it has at least one character, all inside the text. *)
Lemma lex1_ok nul c s k n : lex1 nul (c :: s) = LOk (k, n) -> k <> KDone /\ (1 <= n <= length (c :: s))%nat.
Proof.
  unfold lex1.
  destruct (isident0 c) eqn:Ei.
  - cbv zeta. pose proof (table_kind keywords (firstn (span isident (c :: s)) (c :: s))) as Ht.
    destruct (table keywords (firstn (span isident (c :: s)) (c :: s))) as [k'|]; intros H; injection H as <- <-; (split;
      [|pose proof (span_le isident (c :: s)); split; auto; cbn [span];
        replace (isident c) with true; [lia|]; unfold isident0, isident in *; destruct (isalpha c), (isdigit c); cbn in *; auto]);
      [|discriminate].
    specialize (Ht _ eq_refl). cbn in Ht. intros ->. intuition discriminate.
  - destruct (isdigit c) eqn:Ed.
    + assert (1 <= span isdigit (c :: s))%nat by (cbn [span]; rewrite Ed; lia).
      pose proof (span_le isdigit (c :: s)) as Hle.
      set (m := span isdigit (c :: s)) in *.
      destruct (skipn m (c :: s)) as [|p [|d r]] eqn:E;
        try (intros H'; injection H' as <- <-; split; [discriminate|lia]).
      destruct ((p =? 46) && isdigit d); intros H'; injection H' as <- <-; (split; [discriminate|]); [|lia].
      pose proof (span_le isdigit (skipn (m + 1) (c :: s))) as H2. rewrite skipn_length in H2.
      assert (length (skipn m (c :: s)) = S (S (length r))) by (rewrite E; reflexivity).
      rewrite skipn_length in H0. lia.
    + destruct ((c =? 39) || (c =? 34)).
      * destruct (scan_string c s) eqn:E; [|destruct nul; discriminate].
        intros H; injection H as <- <-. apply (scan_len _ (length s)) in E; [|lia]. split; [discriminate|cbn [length]; lia].
      * destruct (isoper c) eqn:Eo.
        -- cbv zeta. pose proof (table_kind operators (firstn (span isoper (c :: s)) (c :: s))) as Ht.
           destruct (table operators (firstn (span isoper (c :: s)) (c :: s))) as [k'|]; intros H; injection H as <- <-.
           ++ specialize (Ht _ eq_refl). split; [cbn in Ht; intros ->; intuition discriminate|].
              pose proof (span_le isoper (c :: s)). split; auto. cbn [span]. rewrite Eo. lia.
           ++ split; [discriminate|cbn [length]; lia].
        -- intros H; injection H as <- <-. split; [discriminate|cbn [length]; lia].
Qed.

Lemma lex1_fuel nul s : lex1 nul s <> LFuel.
Proof.
  destruct s as [|c s]; cbn [lex1]; [discriminate|].
  destruct (isident0 c); [discriminate|]. destruct (isdigit c).
  - destruct (skipn _ _) as [|? [|? ?]]; try discriminate. destruct (_ && _); discriminate.
  - destruct (_ || _); [destruct (scan_string _ _); [discriminate|destruct nul; discriminate]|].
    destruct (isoper c); [destruct (table _ _); discriminate|discriminate].
Qed.

Lemma lex_fuel fuel nul : forall off s, (length s <= fuel)%nat -> lex fuel nul off s <> LFuel.
Proof.
  induction fuel as [|f IH]; intros off s Hl.
  - destruct s; [cbn; discriminate|cbn in Hl; lia].
  - cbn [lex]. destruct (skipn (skip false s) s) as [|c r] eqn:E; [discriminate|].
    assert (Hs : (length (c :: r) <= length s)%nat) by (rewrite <- E, skipn_length; lia).
    destruct (lex1 nul (c :: r)) as [[k n]| | |] eqn:E1; try discriminate; [|exfalso; exact (lex1_fuel _ _ E1)].
    apply lex1_ok in E1 as [_ Hn].
    specialize (IH (off + Z.of_nat (skip false s) + Z.of_nat n) (skipn n (c :: r))).
    rewrite skipn_length in IH. specialize (IH ltac:(lia)).
    destruct (lex f nul _ _); congruence.
Qed.

Lemma lex_ub fuel : forall off s, lex fuel true off s <> LUB.
Proof.
  induction fuel as [|f IH]; intros off s; cbn [lex]; destruct (skipn (skip false s) s) as [|c r]; try discriminate.
  destruct (lex1 true (c :: r)) as [[k n]| | |] eqn:E1; try discriminate.
  - specialize (IH (off + Z.of_nat (skip false s) + Z.of_nat n) (skipn n (c :: r))). destruct (lex f _ _ _); congruence.
  - exfalso. revert E1. unfold lex1.
    destruct (isident0 c); [discriminate|]. destruct (isdigit c).
    + destruct (skipn _ _) as [|? [|? ?]]; try discriminate. destruct (_ && _); discriminate.
    + destruct (_ || _); [destruct (scan_string _ _); discriminate|].
      destruct (isoper c); [destruct (table _ _); discriminate|discriminate].
Qed.

Lemma skipn_skipn' {A} (a b : nat) (l : list A) : skipn a (skipn b l) = skipn (b + a) l.
Proof. revert l; induction b as [|b IH]; intros l; [reflexivity|]. destruct l; [destruct a; reflexivity|apply IH]. Qed.

Lemma lex_nonempty f nul off s l : lex f nul off s = LOk l -> l <> [].
Proof.
  destruct f; cbn [lex]; destruct (skipn (skip false s) s); try discriminate; try (intros H; injection H as <-; discriminate).
  destruct (lex1 nul _) as [[k n]| | |]; try discriminate. destruct (lex f nul _ _); try discriminate.
  intros H; injection H as <-; discriminate.
Qed.

Lemma lex_tiles src fuel nul : forall off l, (off <= length src)%nat ->
  lex fuel nul (Z.of_nat off) (skipn off src) = LOk l -> tiles src (Z.of_nat off) l.
Proof.
  induction fuel as [|f IH]; intros off l Ho; cbn [lex]; set (s := skipn off src) in *;
    pose proof (skip_gap (length s) s (le_n _)) as Hg; cbv zeta in Hg; pose proof (skip_le false s) as Hk;
    set (k := skip false s) in *; assert (Hls : length s = (length src - off)%nat) by apply skipn_length;
    assert (Hsl : slice src (Z.of_nat off) (Z.of_nat off + Z.of_nat k) = firstn k s)
      by (unfold slice; rewrite Z.add_simpl_l, !Nat2Z.id; reflexivity);
    destruct (skipn k s) as [|c r] eqn:E; try discriminate.
  1,2: assert (length s = k) by (assert (length (skipn k s) = 0%nat) by (rewrite E; reflexivity); rewrite skipn_length in *; lia);
      intros H'; injection H' as <-; cbn [tiles t_off t_kind t_len]; rewrite Hsl; repeat split; auto; lia.
  destruct (lex1 nul (c :: r)) as [[kd n]| | |] eqn:E1; try discriminate.
  apply lex1_ok in E1 as [Hkd Hn].
  assert (Hcr : length (c :: r) = (length s - k)%nat) by (rewrite <- E; apply skipn_length).
  assert (Hoff : Z.of_nat off + Z.of_nat k + Z.of_nat n = Z.of_nat (off + k + n)) by lia.
  rewrite Hoff.
  replace (skipn n (c :: r)) with (skipn (off + k + n) src)
    by (rewrite <- E; unfold s; rewrite !skipn_skipn'; f_equal; lia).
  destruct (lex f nul (Z.of_nat (off + k + n)) (skipn (off + k + n) src)) as [r'| | |] eqn:E2; try discriminate.
  intros H'; injection H' as <-. pose proof (lex_nonempty _ _ _ _ _ E2) as Hne.
  apply IH in E2; [|lia]. cbn [tiles t_off t_kind t_len]. rewrite Hsl.
  split; [lia|]. destruct r' as [|t r']; [congruence|].
  rewrite Hoff. destruct Hg as (Hg & _).
  split; [exact Hkd|]. split; [lia|]. split; [lia|]. split; [exact Hg|exact E2].
Qed.

Theorem tokens_tile nul src l : tokenize nul src = LOk l -> tiles src 0 l.
Proof. intros H. apply (lex_tiles src (length src) nul 0 l); [lia|exact H]. Qed.

Theorem tokenize_total nul src : tokenize nul src <> LFuel.
Proof. apply lex_fuel. lia. Qed.

(** * Runs of operator characters *)
Lemma isoper_spec c : isoper c = true <-> op_char c.
Proof.
  unfold isoper, op_char. rewrite existsb_exists. split.
  - intros (x & H & E). apply Z.eqb_eq in E as ->. exact H.
  - intros H. exists c. split; [exact H|apply Z.eqb_refl].
Qed.

Lemma op_kind_table w k : op_kind w k <-> table operators w = Some k.
Proof.
  split; [|apply table_in].
  unfold op_kind. cbn [In]. intros H.
  repeat (destruct H as [H|H]; [injection H as <- <-; reflexivity|]). destruct H.
Qed.

Lemma op_not_other c : op_char c -> isspace c = false /\ (c =? 35) = false /\ isident0 c = false /\ isdigit c = false /\
  (c =? 39) || (c =? 34) = false.
Proof.
  unfold op_char. cbn [In]. intros H.
  repeat (destruct H as [<-|H]; [repeat split; reflexivity|]). destruct H.
Qed.

Lemma lex_run f nul rest l : forall run off, Forall op_char run -> (forall c r, rest = c :: r -> ~ op_char c) ->
  (length run <= f)%nat -> lex f nul off (run ++ rest) = LOk l ->
  exists ks tail f', run_tokens run ks /\ lex f' nul (off + Z.of_nat (length run)) rest = LOk tail /\
    l = (fix place o ks := match ks with [] => tail | (k, n) :: r => mktok k o n :: place (o + n) r end) off ks.
Proof.
  revert l. induction f as [|f IH]; intros l run off Hr Hrest Hf Hl.
  - destruct run; [|cbn in Hf; lia]. exists [], l, O. cbn [length]. rewrite Z.add_0_r. repeat split; auto. constructor.
  - destruct run as [|c run].
    { exists [], l, (S f). cbn [length]. rewrite Z.add_0_r. repeat split; auto. constructor. }
    cbn [lex] in Hl. rewrite <- app_comm_cons in Hl.
    inversion Hr as [|? ? Hc Hr']; subst. destruct (op_not_other c Hc) as (H1 & H2 & H3 & H4 & H5).
    cbn [skip] in Hl. rewrite H1, H2 in Hl. cbn [skipn] in Hl. change (Z.of_nat 0) with 0 in Hl. rewrite Z.add_0_r in Hl.
    unfold lex1 in Hl. rewrite H3, H4, H5, (proj2 (isoper_spec c) Hc) in Hl.
    assert (Hsp : span isoper (c :: run ++ rest) = length (c :: run)).
    { rewrite app_comm_cons, span_app.
      - destruct rest as [|d rest]; [cbn; lia|]. cbn [span].
        destruct (isoper d) eqn:Ed; [|lia]. apply isoper_spec in Ed. destruct (Hrest d rest eq_refl Ed).
      - apply Forall_forall. intros x Hx. apply isoper_spec. rewrite Forall_forall in Hr. auto. }
    rewrite Hsp, app_comm_cons, firstn_app, firstn_all, Nat.sub_diag in Hl. cbn [firstn] in Hl. rewrite app_nil_r in Hl.
    destruct (table operators (c :: run)) as [k|] eqn:Et.
    + rewrite skipn_app, skipn_all, Nat.sub_diag in Hl. cbn [skipn app] in Hl.
      destruct (lex f nul _ rest) as [tail| | |] eqn:El; try discriminate. injection Hl as <-.
      exists [(k, Z.of_nat (length (c :: run)))], tail, f. repeat split; auto.
      constructor. apply op_kind_table, Et.
    + cbn [app skipn] in Hl. change (Z.of_nat 1) with 1 in Hl.
      destruct (lex f nul (off + 1) (run ++ rest)) as [l'| | |] eqn:El; try discriminate. injection Hl as <-.
      cbn [length] in Hf. destruct (IH l' run (off + 1) Hr' Hrest ltac:(lia) El) as (ks & tail & f' & Hks & Htl & ->).
      exists ((KC c, 1) :: ks), tail, f'. repeat split.
      * constructor; auto. intros k Hk. apply op_kind_table in Hk. congruence.
      * cbn [length]. replace (off + Z.of_nat (S (length run))) with (off + 1 + Z.of_nat (length run)) by lia. exact Htl.
Qed.

(** Kinds and lengths of the tokens of a run at the start of a text. *)
Theorem run_first nul run rest l : Forall op_char run -> (forall c r, rest = c :: r -> ~ op_char c) ->
  tokenize nul (run ++ rest) = LOk l ->
  exists ks tail, run_tokens run ks /\ map (fun t => (t_kind t, t_len t)) l = ks ++ tail.
Proof.
  intros H1 H2 H3. unfold tokenize in H3. destruct (lex_run (length (run ++ rest)) nul rest l run 0 H1 H2 ltac:(rewrite app_length; lia) H3) as (ks & tail & f' & Hk & _ & ->).
  exists ks, (map (fun t => (t_kind t, t_len t)) tail). split; [exact Hk|]. clear. generalize 0 as o.
  induction ks as [|[k n] ks IH]; intros o; cbn [map app]; [reflexivity|]. f_equal. apply IH.
Qed.

(** Two operators side by side. *)
Theorem adjacent_operators nul a k b k' : op_kind a k -> length a = 2%nat -> op_kind b k' ->
  exists l, tokenize nul (a ++ b) = LOk l /\ ~ In k (map t_kind (firstn 1 l)).
Proof.
  intros Ha Hl Hb.
  unfold op_kind in Ha. cbn [In] in Ha.
  repeat (destruct Ha as [Ha|Ha]; [injection Ha as <- <-; try discriminate Hl;
    unfold op_kind in Hb; cbn [In] in Hb;
    repeat (destruct Hb as [Hb|Hb]; [injection Hb as <- <-; eexists; (split; [vm_compute; reflexivity|vm_compute; intros [H|[]]; discriminate H])|]);
    destruct Hb|]).
  destruct Ha.
Qed.
