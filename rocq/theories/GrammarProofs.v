(** What the parser accepts is what the grammar says, and the grammar is unambiguous: C42, C43. *)
From Coq Require Import ZArith List Bool Lia.
From Verif Require Import Base FloatModel AstModel LexModel LexSpec LexProofs ParseModel ParseSpec LayoutProofs ParseMono ParseSafe PrintProofs WriteProofs.
Import ListNotations.
Open Scope Z_scope.

(** * Tokens *)
Definition fixed : list word := reserved ++ [w_arrow; (KEql, [61;61]); (KNql, [33;61]); (KLeq, [60;61]); (KGeq, [62;61])].
Definition tokd (t : tok) : Prop :=
  match fst t with
  | KIdent => name (snd t)
  | KInt => snd t <> [] /\ Forall digit (snd t)
  | KFloat => exists ds fs, ds <> [] /\ fs <> [] /\ Forall digit ds /\ Forall digit fs /\ snd t = ds ++ 46 :: fs
  | KString => exists q b, quote_char q /\ snd t = q :: b ++ [q] /\ scan_string q (b ++ [q]) = Some (length b + 1)%nat
  | KDone => snd t = []
  | KC c => snd t = [c]
  | k => In (k, snd t) fixed
  end.

Lemma scan_closed q n : forall s k, (length s <= n)%nat -> quote_char q -> scan_string q s = Some k ->
  exists b, firstn k s = b ++ [q] /\ k = (length b + 1)%nat /\ scan_string q (b ++ [q]) = Some (length b + 1)%nat.
Proof.
  induction n as [|n IH]; intros s k Hn Hq; destruct s as [|c r]; cbn [length] in Hn; try lia; cbn [scan_string]; try discriminate.
  destruct (c =? 92) eqn:E.
  - apply Z.eqb_eq in E as ->. destruct r as [|d r']; [discriminate|]. cbn [length] in Hn.
    destruct ((d =? 39) || (d =? 34) || (d =? 92)) eqn:Ed.
    + destruct (scan_string q r') as [m|] eqn:Es; cbn; [|discriminate]. intros H; injection H as <-.
      destruct (IH r' m ltac:(lia) Hq Es) as (b & Hb & -> & Hs). exists (92 :: d :: b). cbn [firstn app length]. rewrite Hb.
      split; [reflexivity|]. split; [reflexivity|]. cbn [scan_string]. change (92 =? 92) with true. rewrite Ed, Hs. reflexivity.
    + destruct (scan_string q (d :: r')) as [m|] eqn:Es; cbn [option_map]; [|discriminate]. intros H; injection H as <-.
      destruct (IH (d :: r') m ltac:(cbn; lia) Hq Es) as (b & Hb & -> & Hs). exists (92 :: b). rewrite Nat.add_1_r in *. cbn [firstn app length].
      cbn [firstn] in Hb. rewrite Hb. split; [reflexivity|]. split; [lia|].
      destruct b as [|d' b].
      { cbn in Hb. injection Hb as ->. destruct Hq as [->| ->]; discriminate. }
      cbn [firstn app length] in Hb. injection Hb as <- Hb. cbn [app].
      cbn [scan_string]. change (92 =? 92) with true. rewrite Ed. cbn [app scan_string] in Hs. rewrite Hs. cbn [option_map length]. f_equal. lia.
  - destruct (c =? q) eqn:Eq.
    + intros H; injection H as <-. apply Z.eqb_eq in Eq as ->. exists []. cbn. split; [reflexivity|]. split; [reflexivity|]. rewrite E, Z.eqb_refl. reflexivity.
    + destruct (scan_string q r) as [m|] eqn:Es; cbn; [|discriminate]. intros H; injection H as <-.
      destruct (IH r m ltac:(lia) Hq Es) as (b & Hb & -> & Hs). exists (c :: b). cbn [firstn app length]. rewrite Hb.
      split; [reflexivity|]. split; [reflexivity|]. cbn [scan_string]. rewrite E, Eq, Hs. reflexivity.
Qed.

Lemma escape_back d e : escape d = Some e -> In (d, e) escapes.
Proof.
  unfold escape, escapes. repeat match goal with |- context [if ?x =? ?y then _ else _] => destruct (Z.eqb_spec x y) as [->|] end;
    intros H; try discriminate; injection H as <-; cbn; tauto.
Qed.
Lemma spells_back q n : forall b u t, (length b <= n)%nat -> quote_char q -> scan_string q (b ++ [q]) = Some (length b + 1)%nat ->
  render b u = Some t -> spells q b t.
Proof.
  induction n as [|n IH]; intros b u t Hn Hq; destruct b as [|c b]; cbn [length] in Hn; try lia.
  - intros _ H. injection H as <-. constructor.
  - intros _ H. injection H as <-. constructor.
  - cbn [app scan_string render length]. destruct (4096 <=? u + 1); [discriminate|]. destruct (Z.eqb_spec c 92) as [->|Hc].
    + destruct b as [|d b]; cbn [app].
      * replace ((q =? 39) || (q =? 34) || (q =? 92)) with true by (destruct Hq as [->| ->]; reflexivity). discriminate.
      * destruct (escape d) as [e|] eqn:Ee; [|discriminate]. apply escape_back in Ee.
        assert (G : option_map (fun n0 : nat => S (S n0)) (scan_string q (b ++ [q])) = Some (S (length (d :: b)) + 1)%nat ->
          option_map (cons e) (render b (u + 1)) = Some t -> spells q (92 :: d :: b) t).
        { destruct (scan_string q (b ++ [q])) as [m|] eqn:Es; cbn; [|discriminate]. intros H; injection H as Hm.
          destruct (render b (u + 1)) as [t'|] eqn:Er; cbn; [|discriminate]. intros H; injection H as <-. apply sp_escape; [exact Ee|].
          eapply IH; [cbn [length] in Hn; lia|exact Hq| |exact Er]. rewrite Es. f_equal. lia. }
        destruct ((d =? 39) || (d =? 34) || (d =? 92)) eqn:Ed; [exact G|].
        cbn [scan_string]. apply orb_false_iff in Ed as [Ed1 Ed2]. rewrite Ed2.
        assert (Hdq : (d =? q) = false) by (apply orb_false_iff in Ed1; destruct Hq as [->| ->]; tauto).
        rewrite Hdq. destruct (scan_string q (b ++ [q])) as [m|] eqn:Es; cbn [option_map]; [|discriminate]. exact G.
    + destruct (Z.eqb_spec c q) as [->|Hcq].
      * intros H. injection H as H. lia.
      * destruct (scan_string q (b ++ [q])) as [m|] eqn:Es; cbn; [|discriminate]. intros H; injection H as Hm.
        destruct (render b (u + 1)) as [t'|] eqn:Er; cbn; [|discriminate]. intros H; injection H as <-. apply sp_plain; [exact Hc|exact Hcq|].
        eapply IH; [lia|exact Hq| |exact Er]. rewrite Es. f_equal. lia.
Qed.

Lemma keyword_tokd w k : table keywords w = Some k -> tokd (k, w).
Proof.
  intros Ht. apply table_in in Ht. cbn in Ht. repeat (destruct Ht as [Ht|Ht]; [injection Ht as <- <-; cbn; tauto|]). destruct Ht.
Qed.
Lemma operator_tokd w k : table operators w = Some k -> tokd (k, w).
Proof.
  intros Ht. apply table_in in Ht. cbn in Ht. repeat (destruct Ht as [Ht|Ht]; [injection Ht as <- <-; cbn; tauto|]). destruct Ht.
Qed.
Lemma lex1_tokd nul c s k n : lex1 nul (c :: s) = LOk (k, n) -> tokd (k, firstn n (c :: s)).
Proof.
  intros H. pose proof (lex1_lexed _ _ _ _ H) as HL. unfold lexed in HL. cbn [fst snd] in HL.
  destruct (lex1_ok _ _ _ _ _ H) as [Hd Hn]. unfold lex1 in H.
  destruct (isident0 c) eqn:Ei.
  { cbv zeta in H. generalize dependent (span isident (c :: s)). intros m H.
    destruct (table keywords (firstn m (c :: s))) as [k'|] eqn:Et; injection H as <- <-; [|exact HL]. apply keyword_tokd, Et. }
  destruct (isdigit c) eqn:Ed.
  { cbv zeta in H. assert (Hk : k = KFloat \/ k = KInt).
    { destruct (skipn (span isdigit (c :: s)) (c :: s)) as [|x [|y z]]; [injection H; auto|injection H; auto|].
      destruct ((x =? 46) && isdigit y); injection H; auto. }
    destruct Hk as [-> | ->]; [exact HL|]. split; [|exact HL]. destruct n; [lia|discriminate]. }
  destruct ((c =? 39) || (c =? 34)) eqn:Eq.
  { destruct (scan_string c s) as [m|] eqn:Es; [|destruct nul; discriminate]. injection H as <- <-.
    apply quote_spec in Eq. destruct (scan_closed c (length s) s m (le_n _) Eq Es) as (b & Hb & -> & Hs).
    exists c, b. split; [exact Eq|]. split; [cbn [snd firstn]; rewrite Hb; reflexivity|exact Hs]. }
  destruct (isoper c); [|injection H as <- <-; reflexivity].
  cbv zeta in H. generalize dependent (span isoper (c :: s)). intros m H.
  destruct (table operators (firstn m (c :: s))) as [k'|] eqn:Et; injection H as <- <-; [|reflexivity].
  apply operator_tokd, Et.
Qed.

Lemma lex_tokd src fuel nul : forall off l,
  lex fuel nul (Z.of_nat off) (skipn off src) = LOk l ->
  exists b, with_text src l = b ++ [(KDone, [])] /\ Forall tokd b /\ Forall (fun t => fst t <> KDone) b.
Proof.
  induction fuel as [|f IH]; intros off l; cbn [lex]; set (s := skipn off src) in *; set (k := skip false s) in *;
    destruct (skipn k s) as [|c r] eqn:E; try discriminate.
  1,2: intros H; injection H as <-; exists []; cbn; auto.
  destruct (lex1 nul (c :: r)) as [[kd n]| | |] eqn:E1; try discriminate.
  assert (Hoff : Z.of_nat off + Z.of_nat k + Z.of_nat n = Z.of_nat (off + k + n)) by lia. rewrite Hoff.
  replace (skipn n (c :: r)) with (skipn (off + k + n) src)
    by (rewrite <- E; unfold s; rewrite !skipn_skipn'; f_equal; lia).
  destruct (lex f nul (Z.of_nat (off + k + n)) (skipn (off + k + n) src)) as [l'| | |] eqn:E2; try discriminate.
  intros H; injection H as <-. apply IH in E2 as (b & Hb & H1 & H2).
  assert (Ht : text_of src (mktok kd (Z.of_nat off + Z.of_nat k) (Z.of_nat n)) = firstn n (c :: r)).
  { unfold text_of. cbn [t_len t_off]. rewrite <- Nat2Z.inj_add, !Nat2Z.id, <- E. unfold s. rewrite skipn_skipn'. reflexivity. }
  exists ((kd, firstn n (c :: r)) :: b). cbn [with_text map t_kind]. fold (with_text src l'). rewrite Ht, Hb. split; [reflexivity|].
  split; (constructor; [|assumption]); [eapply lex1_tokd, E1|apply (lex1_ok _ _ _ _ _ E1)].
Qed.

(** * The head of the tokens *)
Lemma head_of ts k : Forall tokd ts -> cur ts = k -> k <> KDone -> exists s r, ts = (k, s) :: r /\ tokd (k, s) /\ Forall tokd r.
Proof.
  destruct ts as [|[k' s] r]; cbn [cur]; [congruence|]. intros H <- _. inversion H; subst. eauto.
Qed.
Lemma head_p ts c : Forall tokd ts -> cur ts = KC c -> exists r, ts = p c :: r /\ Forall tokd r.
Proof. intros H E. destruct (head_of ts _ H E ltac:(discriminate)) as (s & r & -> & Hs & Hr). cbn in Hs. subst s. exists r. auto. Qed.
Lemma fixed_word k s s' : In (k, s) fixed -> In (k, s') fixed -> s = s'.
Proof.
  intros H H'. cbn in H, H'. repeat (destruct H as [H|H]; [injection H as <- <-; 
    repeat (destruct H' as [H'|H']; [first [discriminate|injection H' as H'; exact H']|]); destruct H'|]). destruct H.
Qed.
Lemma head_w ts k s' : Forall tokd ts -> cur ts = k -> In (k, s') fixed -> exists r, ts = (k, s') :: r /\ Forall tokd r.
Proof.
  intros H E Hf. assert (Hk : k <> KDone) by (intros ->; cbn in Hf; intuition discriminate).
  destruct (head_of ts _ H E Hk) as (s & r & -> & Hs & Hr). exists r. split; [|exact Hr].
  assert (In (k, s) fixed).
  { destruct k; try exact Hs; exfalso; clear - Hf; cbn in Hf; intuition discriminate. }
  f_equal. f_equal. eapply fixed_word; eassumption.
Qed.
Lemma prefix_head ts u : Forall tokd ts -> prefix_op (cur ts) = Some u -> exists r, ts = prefix_word u :: r /\ Forall tokd r.
Proof.
  intros H E. destruct (cur ts) as [c| | | | | | | | | | | | | | | | | | | | | | |] eqn:Ec; cbn in E; try discriminate.
  - destruct (Z.eqb_spec c 43) as [->|_]; [injection E as <-; apply head_p; assumption|].
    destruct (Z.eqb_spec c 45) as [->|_]; [injection E as <-; apply head_p; assumption|].
    destruct (Z.eqb_spec c 63) as [->|_]; [injection E as <-; apply head_p; assumption|discriminate].
  - injection E as <-. apply head_w; [assumption|assumption|cbn; tauto].
Qed.
Lemma infix_head ts q : Forall tokd ts -> precedence (cur ts) = Some q -> exists o r, ts = infix_word o :: r /\ level o = q /\ Forall tokd r.
Proof.
  intros H E.
  assert (G : exists o, cur ts = fst (infix_word o) /\ level o = q).
  { destruct (cur ts) as [c| | | | | | | | | | | | | | | | | | | | | | |]; cbn in E; try discriminate.
    { repeat match type of E with (if ?b then _ else _) = _ => destruct b eqn:?B end; try discriminate; injection E as <-;
      repeat match goal with B : _ || _ = true |- _ => apply orb_true_iff in B as [B|B] end;
      match goal with B : (c =? ?x) = true |- _ => apply Z.eqb_eq in B as -> end;
      [exists IAss|exists IStp|exists ILss|exists IGrt|exists IAdd|exists ISub|exists IMul|exists IDiv|exists IMod|exists IPair]; split; reflexivity. }
    all: injection E as <-; first [exists IEql; split; reflexivity|exists INql; split; reflexivity|exists ILeq; split; reflexivity|exists IGeq; split; reflexivity|exists IAnd; split; reflexivity|exists IOr; split; reflexivity]. }
  destruct G as (o & Eo & Hl). exists o.
  assert (Hw : exists r, ts = infix_word o :: r /\ Forall tokd r).
  { destruct o; first [apply head_p; [assumption|exact Eo]|apply head_w; [assumption|exact Eo|cbn; tauto]]. }
  destruct Hw as (r & -> & Hr). eauto.
Qed.

(** * Soundness *)
Lemma img_nxt {A} (Q : A -> list tok -> Prop) x r f : (r <> [] -> img Q (f r)) -> img Q (next (x :: r) f).
Proof. destruct r; cbn; [auto|]. intros H. apply H. discriminate. Qed.
Lemma chain_app t a l1 w1 l2 w2 : wr_chain t a l1 w1 -> wr_chain t a l2 w2 -> wr_chain t a (l1 ++ l2) (w1 ++ w2).
Proof.
  intros H1 H2. revert w1 H1. induction l1 as [|[o e] l1 IH]; intros w1 H1; inversion H1; subst; [exact H2|].
  cbn [app]. rewrite <- app_assoc. constructor; auto.
Qed.
Lemma infix_inj o o' : fst (infix_word o) = fst (infix_word o') -> o = o'.
Proof. destruct o, o'; cbn; congruence. Qed.
Lemma goes_allowed o r mn t a q : goes_on (infix_word o :: r) mn t a = Some q -> (o = IPair -> t = true) /\ (o = IAss -> a = true) /\ q = level o /\ mn <= level o.
Proof.
  unfold goes_on. rewrite cur_infix, precedence_infix. destruct (Z.leb_spec mn (level o)); [|discriminate].
  destruct o, t, a; cbn; intros H'; try discriminate; injection H' as <-; cbn in *; repeat split; auto; discriminate.
Qed.
Lemma goes_none o r mn t a : goes_on (infix_word o :: r) mn t a = None -> level o < mn \/ (o = IPair /\ t = false) \/ (o = IAss /\ a = false).
Proof.
  unfold goes_on. rewrite cur_infix, precedence_infix. destruct (Z.leb_spec mn (level o)); [|auto].
  destruct o, t, a; cbn; intros H'; try discriminate; auto.
Qed.

Definition took {A} (W : A -> list tok -> Prop) (ts : list tok) (e : A) (ts' : list tok) : Prop :=
  exists ws, ts = ws ++ ts' /\ Forall tokd ts' /\ W e ws.
Definition grouped (t a : bool) (ts : list tok) (g : group) (w : list tok) (P : group -> list tok -> Prop) (e : expr) (ts' : list tok) : Prop :=
  exists g' w', ts = w' ++ ts' /\ Forall tokd ts' /\ group_expr g' = e /\ first_operand g' = first_operand g /\
    wr_chain t a (others g') (w ++ w') /\ well_grouped g' /\ P g' ts'.
Definition fun_words (f : list Z * params * stmt) (ws : list tok) : Prop := let '(s, ps, body) := f in wr_fun s ps body ws.
Definition closed_if (s : stmt) (ts : list tok) : Prop := open_if s = true -> cur ts <> KElse.

Ltac end_ := match goal with |- exists ws, _ => idtac end.
Ltac fin ws := exists ws; split; [norm; reflexivity|split; [assumption|]].

Theorem sound n :
  (forall ts, Forall tokd ts -> img (took wr_pre ts) (p_prefix n ts)) /\
  (forall e ts w0, Forall tokd ts -> wr_post e w0 -> img (took (fun e ws => wr_post e (w0 ++ ws)) ts) (p_post n e ts)) /\
  (forall c ts, Forall tokd ts -> img (fun e ts' => took wr_items ts e ts' /\ cur ts' = KC c) (p_seq n c ts)) /\
  (forall ts, Forall tokd ts -> img (fun e ts' => took wr_pairs ts e ts' /\ cur ts' = KC 125) (p_pairs n ts)) /\
  (forall ts, Forall tokd ts -> img (took wr_expr ts) (p_primary n ts)) /\
  (forall t a ts, Forall tokd ts -> img (took (wr_top t a) ts) (p_expr n t a ts)) /\
  (forall g mn t a ts w, Forall tokd ts -> well_grouped g -> wr_chain t a (others g) w ->
     (forall o, goes_on ts mn t a <> None -> cur ts = fst (infix_word o) -> groups_left g o) ->
     img (grouped t a ts g w (fun g' ts' => goes_on ts' mn t a = None /\ ((g' = g /\ ts' = ts) \/ exists o l r, g' = Group o l r /\ mn <= level o)))
       (p_expr2 n (group_expr g) mn t a ts)) /\
  (forall o g t a ts w, Forall tokd ts -> well_grouped g -> wr_chain t a (others g) w -> groups_right o g -> (o = IAss -> a = true) ->
     (forall o', cur ts = fst (infix_word o') -> ch ts 44 && negb t = false -> level o < level o' \/ (level o = level o' /\ o' = IAss) -> groups_left g o') ->
     img (grouped t a ts g w (fun g' ts' => groups_right o g' /\ after t o ts')) (p_inner n (level o) (group_expr g) t a ts)) /\
  (forall ts, Forall tokd ts -> img (fun s ts' => took wr_stmt ts s ts' /\ closed_if s ts') (p_stmt n ts)) /\
  (forall k ts, Forall tokd ts -> img (fun ss ts' => took wr_stmts ts ss ts' /\ cur ts' = k) (p_compound n k ts)) /\
  (forall ts, Forall tokd ts -> cur ts = KFun -> img (fun f ts' => took fun_words ts f ts' /\ closed_if (snd f) ts') (p_fundef n ts)) /\
  (forall ts, Forall tokd ts -> img (fun e ts' => took wr_params ts e ts' /\ cur ts' = KC 41) (p_params n ts)).
Proof.
  induction n as [|n IH]; [repeat split; intros; exact I|].
  destruct IH as (Iprefix & Ipost & Iseq & Ipairs & Iprim & Iexpr & Iexpr2 & Iinner & Istmt & Icomp & Ifun & Iparams).
  split; [|split; [|split; [|split; [|split; [|split; [|split; [|split; [|split; [|split; [|split]]]]]]]]]];
    cbn [p_prefix p_post p_seq p_pairs p_primary p_expr p_expr2 p_inner p_stmt p_compound p_fundef p_params]; cbv zeta.
  - (* prefix *) intros ts Hl. destruct (is_k ts KDone); [exact I|]. destruct (prefix_op (cur ts)) as [u|] eqn:Eu.
    + destruct (prefix_head ts u Hl Eu) as (r & -> & Hr). apply img_nxt. intros _.
      eapply img_bind; [apply Iprefix, Hr|]. intros e ts' (ws & -> & Hl' & Hw). fin (prefix_word u :: ws). constructor; assumption.
    + eapply img_bind; [apply Iprim, Hl|]. intros e ts' (ws & -> & Hl' & Hw).
      eapply img_weaken; [apply (Ipost e ts' ws); [assumption|apply po_primary, Hw]|]. intros e' ts'' (w2 & -> & H2 & Hw2).
      fin (ws ++ w2). apply pr_post, Hw2.
  - (* postfix *) intros e ts w0 Hl He. destruct (ch ts 46 || is_k ts KArw) eqn:E1.
    + destruct (is_k ts KArw) eqn:E2.
      * apply is_true in E2. destruct (head_w ts KArw [45;62] Hl E2) as (r & -> & Hr); [cbn; tauto|]. apply img_nxt. intros _.
        destruct (is_k r KIdent) eqn:E3; cbn [negb]; [|exact I]. apply is_true in E3.
        destruct (head_of r _ Hr E3 ltac:(discriminate)) as (s & r' & -> & Hs & Hr'). cbn [txt]. apply img_nxt. intros _.
        eapply img_weaken; [eapply (Ipost _ r' (w0 ++ [w_arrow; (KIdent, s)])); [assumption|apply po_arw; assumption]|].
        intros e' ts'' (w2 & -> & H2 & Hw2). fin (w_arrow :: (KIdent, s) :: w2). rewrite <- app_assoc in Hw2. exact Hw2.
      * rewrite orb_false_r in E1. apply ch_true in E1. destruct (head_p ts _ Hl E1) as (r & -> & Hr). apply img_nxt. intros _.
        destruct (is_k r KIdent) eqn:E3; cbn [negb]; [|exact I]. apply is_true in E3.
        destruct (head_of r _ Hr E3 ltac:(discriminate)) as (s & r' & -> & Hs & Hr'). cbn [txt]. apply img_nxt. intros _.
        eapply img_weaken; [eapply (Ipost _ r' (w0 ++ [p 46; (KIdent, s)])); [assumption|apply po_dot; assumption]|].
        intros e' ts'' (w2 & -> & H2 & Hw2). fin (p 46 :: (KIdent, s) :: w2). rewrite <- app_assoc in Hw2. exact Hw2.
    + destruct (ch ts 91) eqn:E2.
      { apply ch_true in E2. destruct (head_p ts _ Hl E2) as (r & -> & Hr). apply img_nxt. intros _.
        destruct (ch r 93) eqn:E3.
        - cbn [pbind]. apply ch_true in E3. destruct (head_p r _ Hr E3) as (r' & -> & Hr'). apply img_nxt. intros _. exact I.
        - eapply img_bind; [apply Iseq, Hr|]. intros es ts' [(wi & -> & Hl' & Hwi) Ec].
          destruct (head_p ts' _ Hl' Ec) as (r' & -> & Hr'). apply img_nxt. intros _.
          destruct (index_node e es) as [sel|] eqn:Ei; [|exact I].
          assert (Hsel : wr_post sel (w0 ++ p 91 :: wi ++ [p 93])).
          { destruct es as [|i [|j es]]; cbn in Ei; [discriminate| |]; injection Ei as <-.
            - apply po_sel; [assumption|]. inversion Hwi as [? ? Hi|? ? ? ? _ Hi]; subst; [exact Hi|inversion Hi].
            - apply po_sels; assumption. }
          eapply img_weaken; [apply (Ipost sel r' _ Hr' Hsel)|].
          intros e' ts'' (w2 & -> & H2 & Hw2). fin (p 91 :: wi ++ p 93 :: w2).
          replace (w0 ++ p 91 :: wi ++ p 93 :: w2) with ((w0 ++ p 91 :: wi ++ [p 93]) ++ w2) by (norm; reflexivity). exact Hw2. }
      destruct (ch ts 40) eqn:E3; [|fin (@nil tok); rewrite app_nil_r; exact He].
      apply ch_true in E3. destruct (head_p ts _ Hl E3) as (r & -> & Hr). apply img_nxt. intros _.
      destruct (ch r 41) eqn:E4.
      * cbn [pbind]. apply ch_true in E4. destruct (head_p r _ Hr E4) as (r' & -> & Hr'). apply img_nxt. intros _.
        eapply img_weaken; [apply (Ipost (ECall e ENil) r' (w0 ++ [p 40; p 41]) Hr'); apply po_call0, He|].
        intros e' ts'' (w2 & -> & H2 & Hw2). fin (p 40 :: p 41 :: w2). rewrite <- app_assoc in Hw2. exact Hw2.
      * eapply img_bind; [apply Iseq, Hr|]. intros es ts' [(wi & -> & Hl' & Hwi) Ec].
        destruct (head_p ts' _ Hl' Ec) as (r' & -> & Hr'). apply img_nxt. intros _.
        eapply img_weaken; [apply (Ipost (ECall e es) r' (w0 ++ p 40 :: wi ++ [p 41]) Hr'); apply po_call; assumption|].
        intros e' ts'' (w2 & -> & H2 & Hw2). fin (p 40 :: wi ++ p 41 :: w2).
        replace (w0 ++ p 40 :: wi ++ p 41 :: w2) with ((w0 ++ p 40 :: wi ++ [p 41]) ++ w2) by (norm; reflexivity). exact Hw2.
  - (* seq *) intros c ts Hl. eapply img_bind; [apply Iexpr, Hl|]. intros e ts' (w & -> & Hl' & Hw). destruct (ch ts' c) eqn:E1.
    + split; [|apply ch_true, E1]. fin w. apply wi_one, Hw.
    + destruct (ch ts' 44) eqn:E2; cbn [negb]; [|exact I]. apply ch_true in E2. destruct (head_p ts' _ Hl' E2) as (r & -> & Hr). apply img_nxt. intros _.
      eapply img_bind; [apply Iseq, Hr|]. intros es ts'' [(wi & -> & Hl'' & Hwi) Ec]. split; [|exact Ec]. fin (w ++ p 44 :: wi). apply wi_more; assumption.
  - (* pairs *) intros ts Hl. destruct (is_k ts KFun) eqn:E0.
    + apply is_true in E0. eapply img_bind; [apply Ifun; assumption|]. intros [[s ps] body] ts' [(w & -> & Hl' & Hw) _]. cbn in Hw.
      destruct (ch ts' 125) eqn:E1.
      * split; [|apply ch_true, E1]. fin w. eapply wp_last, we_fun, Hw.
      * eapply img_bind; [apply Ipairs, Hl'|]. intros r ts'' [(w2 & -> & Hl'' & Hw2) Ec]. split; [|exact Ec]. fin (w ++ w2).
        eapply (wp_more _ _ false); [apply we_fun, Hw|exact Hw2].
    + destruct ts as [|[k0 s0] ts]; [exact I|]. inversion Hl as [|? ? Ht Hl0]; subst. apply img_nxt. intros _.
      eapply img_bind with (Q1 := fun k ts' => exists wk, (k0, s0) :: ts = wk ++ ts' /\ Forall tokd ts' /\
        (cur ts' = KC 58 -> forall v wv, wr_top false true v wv -> wr_entry k v true (wk ++ p 58 :: wv))).
      { match goal with |- context [if ?b then _ else _] => destruct b eqn:Es end.
        - apply andb_true_iff in Es as [Es _]. apply is_true in Es. cbn in Es. subst k0. cbn [img]. exists [(KIdent, s0)]. split; [reflexivity|]. split; [assumption|].
          intros _ v wv Hv. apply we_name; [exact Ht|exact Hv].
        - eapply img_weaken; [apply Iexpr, Hl|]. intros k ts' (wk & E & Hl' & Hk). exists wk. split; [exact E|]. split; [exact Hl'|].
          intros Ec v wv Hv. apply we_key; [exact Hk| |exact Hv]. intros s ->. cbn in E. injection E as -> -> ->.
          unfold is_k, ch in Es. cbn [cur] in Es. rewrite Ec in Es. cbn in Es. discriminate. }
      intros k ts' (wk & E & Hl' & Hk). destruct (ch ts' 58) eqn:E1; cbn [negb]; [|exact I]. apply ch_true in E1. specialize (Hk E1).
      destruct (head_p ts' _ Hl' E1) as (r & -> & Hr). apply img_nxt. intros _.
      eapply img_bind; [apply Iexpr, Hr|]. intros v ts'' (wv & -> & Hl'' & Hv). specialize (Hk v wv Hv). destruct (ch ts'' 125) eqn:E2.
      * split; [|apply ch_true, E2]. exists (wk ++ p 58 :: wv). split; [refine (eq_trans E _); norm; reflexivity|split; [assumption|]]. eapply wp_last, Hk.
      * destruct (ch ts'' 44) eqn:E3; cbn [negb]; [|exact I]. apply ch_true in E3. destruct (head_p ts'' _ Hl'' E3) as (r & -> & Hr'). apply img_nxt. intros _.
        eapply img_bind; [apply Ipairs, Hr'|]. intros ps ts3 [(wp & -> & Hl3 & Hwp) Ec]. split; [|exact Ec]. exists ((wk ++ p 58 :: wv) ++ p 44 :: wp). split; [refine (eq_trans E _); norm; reflexivity|split; [assumption|]]. exact (wp_more k v true ps _ _ Hk Hwp).
  - (* primary *) intros ts Hl. destruct (cur ts) as [c| | | | | | | | | | | | | | | | | | | | | | |] eqn:Ec; try exact I.
    + destruct (head_p ts _ Hl Ec) as (r & -> & Hr). destruct (Z.eqb_spec c 91) as [->|_].
      { apply img_nxt. intros _. destruct (ch r 93) eqn:E1.
        - cbn [pbind]. apply ch_true in E1. destruct (head_p r _ Hr E1) as (r' & -> & Hr'). apply img_nxt. intros _. fin [p 91; p 93]. constructor.
        - eapply img_bind; [apply Iseq, Hr|]. intros es ts' [(wi & -> & Hl' & Hwi) Ec']. destruct (head_p ts' _ Hl' Ec') as (r' & -> & Hr').
          apply img_nxt. intros _. fin (p 91 :: wi ++ [p 93]). apply wr_list, Hwi. }
      destruct (Z.eqb_spec c 123) as [->|_].
      { apply img_nxt. intros _. destruct (is_k r KDone); [exact I|]. destruct (ch r 125) eqn:E1.
        - cbn [pbind]. apply ch_true in E1. destruct (head_p r _ Hr E1) as (r' & -> & Hr'). apply img_nxt. intros _. fin [p 123; p 125]. constructor.
        - eapply img_bind; [apply Ipairs, Hr|]. intros es ts' [(wi & -> & Hl' & Hwi) Ec']. destruct (head_p ts' _ Hl' Ec') as (r' & -> & Hr').
          apply img_nxt. intros _. fin (p 123 :: wi ++ [p 125]). apply wr_map, Hwi. }
      destruct (Z.eqb_spec c 40) as [->|_]; [|exact I].
      apply img_nxt. intros _. eapply img_bind; [apply Iexpr, Hr|]. intros e ts' (w & -> & Hl' & Hw). destruct (ch ts' 41) eqn:E1; cbn [negb]; [|exact I].
      apply ch_true in E1. destruct (head_p ts' _ Hl' E1) as (r' & -> & Hr'). apply img_nxt. intros _. fin (p 40 :: w ++ [p 41]). apply wr_paren, Hw.
    + destruct (head_of ts _ Hl Ec ltac:(discriminate)) as (s & r & -> & Ht & Hr). unfold tokd in Ht. cbn [fst snd] in Ht. destruct Ht as [Hs Hd]. cbn [txt snd] in *.
      destruct (NUM_MAX <=? _) eqn:Ev; [exact I|]. apply Z.leb_gt in Ev. unfold NUM_MAX in Ev.
      destruct (2 ^ 63 <=? _) eqn:Ez; [exact I|]. apply Z.leb_gt in Ez. apply img_nxt. intros _. fin [(KInt, s)].
      apply wr_int; auto. unfold decimal. apply decimal_value.
    + destruct (head_of ts _ Hl Ec ltac:(discriminate)) as (s & r & -> & Ht & Hr). unfold tokd in Ht. cbn [fst snd] in Ht. destruct Ht as (ds & fs & H1 & H2 & H3 & H4 & Es). cbn [txt snd] in *. subst s.
      destruct (NUM_MAX <=? _) eqn:Ev; [exact I|]. apply Z.leb_gt in Ev. unfold NUM_MAX in Ev. apply img_nxt. intros _.
      rewrite flt_value_written by assumption. fin [(KFloat, ds ++ 46 :: fs)]. apply wr_flt; assumption.
    + destruct (head_of ts _ Hl Ec ltac:(discriminate)) as (s & r & -> & Ht & Hr). unfold tokd in Ht. cbn [fst snd] in Ht. destruct Ht as (q & b & Hq & Es & Hsc). cbn [txt snd] in *. subst s.
      destruct (string_value _) as [v|] eqn:Ev; [|exact I]. apply img_nxt. intros _. fin [(KString, q :: b ++ [q])].
      unfold string_value in Ev. cbn [skipn length] in Ev. rewrite app_length in Ev. cbn [length] in Ev.
      replace (S (length b + 1) - 2)%nat with (length b) in Ev by lia. rewrite firstn_exact in Ev.
      apply wr_str; [exact Hq|eapply spells_back; [apply le_n|exact Hq|exact Hsc|exact Ev]|].
      eapply (render_len _ _ _ _ (le_n _)) in Ev; lia.
    + destruct (head_of ts _ Hl Ec ltac:(discriminate)) as (s & r & -> & Hs & Hr). cbn [txt]. apply img_nxt. intros _. fin [(KIdent, s)]. apply wr_ident, Hs.
    + destruct (head_w ts KNone [110;111;110;101] Hl Ec) as (r & -> & Hr); [cbn; tauto|]. apply img_nxt. intros _. fin [(KNone, [110;111;110;101])]. constructor.
    + destruct (head_w ts KTrue [116;114;117;101] Hl Ec) as (r & -> & Hr); [cbn; tauto|]. apply img_nxt. intros _. fin [(KTrue, [116;114;117;101])]. constructor.
    + destruct (head_w ts KFalse [102;97;108;115;101] Hl Ec) as (r & -> & Hr); [cbn; tauto|]. apply img_nxt. intros _. fin [(KFalse, [102;97;108;115;101])]. constructor.
  - (* expr *) intros t a ts Hl. eapply img_bind; [apply Iprefix, Hl|]. intros e ts' (w & -> & Hl' & Hw). destruct (is_k ts' KDone).
    + fin w. replace w with (w ++ []) by apply app_nil_r. apply (wt_chain t a (Operand e) w []); [exact I|exact Hw|constructor].
    + change e with (group_expr (Operand e)) at 1. eapply img_weaken; [apply (Iexpr2 (Operand e) _ t a ts' [] Hl' I (wc_nil t a))|].
      * intros o _ _. exact I.
      * intros e' ts'' (g & w' & -> & H1 & <- & H3 & H4 & H5 & _). fin (w ++ w'). apply wt_chain; [exact H5|rewrite H3; exact Hw|exact H4].
  - (* expr2 *) intros g mn t a ts w Hl Hg Hc Hpre. destruct (goes_on ts mn t a) as [q|] eqn:Eg.
    + assert (Hp : precedence (cur ts) = Some q) by (apply goes_on_spec in Eg; apply Eg).
      destruct (infix_head ts q Hl Hp) as (o & r & -> & Hq & Hr). destruct (goes_allowed _ _ _ _ _ _ Eg) as (A1 & A2 & _ & A3).
      specialize (Hpre o ltac:(discriminate) (cur_infix o r)). apply img_nxt. intros _.
      eapply img_bind; [apply Iprefix, Hr|]. intros e0 ts1 (w0 & -> & Hl1 & Hw0). subst q.
      eapply img_bind; [apply (Iinner o (Operand e0) t a ts1 [] Hl1 I (wc_nil t a) I A2)|].
      { intros o' _ _ _. exact I. }
      intros e1 ts2 (g1 & w1 & -> & Hl2 & <- & H3 & H4 & H5 & H6 & H7). cbn [first_operand app] in H3, H4.
      rewrite cur_infix, binary_infix. change (infix_node o (group_expr g) (group_expr g1)) with (group_expr (Group o g g1)).
      eapply img_weaken; [apply (Iexpr2 (Group o g g1) mn t a ts2 (w ++ infix_word o :: w0 ++ w1) Hl2)|].
      * cbn. auto.
      * cbn. apply chain_app; [exact Hc|]. rewrite H3. constructor; auto.
      * intros o2 Hgo Eo2. cbn. unfold after in H7. rewrite Eo2, precedence_infix in H7.
        destruct H7 as [[H7 ->]|[H7|[H7 H7']]].
        -- exfalso. apply Hgo. unfold goes_on. rewrite Eo2, precedence_infix, H7. cbn. rewrite andb_false_r. reflexivity.
        -- left. lia.
        -- right. split; [lia|]. intros ->. discriminate.
      * intros e2 ts3 (g3 & w3 & -> & Hl3 & <- & K3 & K4 & K5 & K6 & K7). exists g3, (infix_word o :: w0 ++ w1 ++ w3).
        split; [norm; reflexivity|]. split; [assumption|]. split; [reflexivity|]. split; [exact K3|].
        split; [refine (eq_ind _ (wr_chain t a (others g3)) K4 _ _); norm; reflexivity|].
        split; [exact K5|]. split; [exact K6|]. right. destruct K7 as [[-> _]|K7]; [|exact K7]. exists o, g, g1. auto.
    + exists g, []. rewrite app_nil_r. auto 10.
  - (* inner *) intros o g t a ts w Hl Hg Hc Hr Ha Hpre.
    assert (STOP : after t o ts -> img (grouped t a ts g w (fun g' ts' => groups_right o g' /\ after t o ts')) (POk (group_expr g) ts)).
    { intros Haf. exists g, []. rewrite app_nil_r. auto 10. }
    destruct (precedence (cur ts)) as [q|] eqn:Ep; [|apply STOP; unfold after; rewrite Ep; exact I].
    destruct ((level o <? q) || (level o =? q) && right_assoc (cur ts)) eqn:Eb.
    + destruct (infix_head ts q Hl Ep) as (o' & r & -> & <- & Hrr). rewrite cur_infix in Eb.
      assert (Hcont : level o < level o' \/ (level o = level o' /\ o' = IAss)).
      { apply orb_true_iff in Eb as [Eb|Eb]; [left; apply Z.ltb_lt, Eb|right]. apply andb_true_iff in Eb as [E1 E2].
        apply Z.eqb_eq in E1. split; [exact E1|]. destruct o'; cbn in E2; congruence. }
      set (mn := level o + (if level o <? level o' then 1 else 0)).
      assert (Hmn : (mn = level o + 1 /\ level o < level o') \/ (mn = level o /\ level o = level o' /\ o' = IAss)).
      { unfold mn. destruct (Z.ltb_spec (level o) (level o')); [left; lia|right]. destruct Hcont as [?|[? ?]]; [lia|]. repeat split; auto; lia. }
      eapply img_bind; [apply (Iexpr2 g mn t a _ w Hl Hg Hc)|].
      { intros o2 Hgo Eo2. rewrite cur_infix in Eo2. apply infix_inj in Eo2 as <-. apply Hpre; [apply cur_infix| |exact Hcont].
        destruct (ch (infix_word o' :: r) 44 && negb t) eqn:E; [|reflexivity]. exfalso. apply Hgo. unfold goes_on. rewrite cur_infix, precedence_infix, E.
        cbn. rewrite andb_false_r. reflexivity. }
      intros e1 ts1 (g1 & w1 & Ets & Hl1 & <- & H3 & H4 & H5 & H6 & H7).
      assert (Hgr : groups_right o g1).
      { destruct H7 as [[-> _]|(o1 & l1 & r1 & -> & Hm)]; [exact Hr|]. cbn. destruct Hmn as [[E1 _]|(E1 & E2 & ->)]; [left; lia|].
        assert (o = IAss) as -> by (destruct o; cbn in E2; try discriminate; reflexivity). rewrite E1 in Hm.
        destruct (Z.eq_dec (level IAss) (level o1)); [right; auto|left; lia]. }
      destruct (ch ts1 44 && negb t) eqn:Ecm.
      * exists g1, w1. split; [exact Ets|]. split; [exact Hl1|]. split; [reflexivity|]. split; [exact H3|]. split; [exact H4|]. split; [exact H5|].
        split; [exact Hgr|]. apply andb_true_iff in Ecm as [E1 E2]. unfold after. pose proof (ch_true _ _ E1) as E3. rewrite E3. cbn. left.
        split; [exact E1|destruct t; [discriminate|reflexivity]].
      * eapply img_weaken; [apply (Iinner o g1 t a ts1 (w ++ w1) Hl1 H5 H4 Hgr Ha)|].
        -- intros o2 Eo2 _ Hc2.
           assert (Hpr2 : precedence (cur ts1) = Some (level o2)) by (rewrite Eo2; apply precedence_infix).
           destruct (infix_head ts1 _ Hl1 Hpr2) as (o3 & r1 & E3 & _ & _).
           assert (o3 = o2) as -> by (apply infix_inj; rewrite <- Eo2, E3; symmetry; apply cur_infix).
           rewrite E3 in H6, Ecm. destruct (goes_none _ _ _ _ _ H6) as [Hlt|[[-> ->]|[-> Haf]]].
           ++ destruct H7 as [[-> E7]|(o1 & l1 & r2 & -> & Hm)].
              ** rewrite E3 in E7. assert (o2 = o') as -> by (injection E7 as E7 _; apply infix_inj; f_equal; exact E7). lia.
              ** cbn. left. lia.
           ++ cbn in Ecm. discriminate.
           ++ exfalso. cbn in Hc2. destruct o; cbn in Hc2; try lia. specialize (Ha eq_refl). congruence.
        -- intros e2 ts2 (g2 & w2 & -> & Hl2 & <- & K3 & K4 & K5 & K6 & K7). exists g2, (w1 ++ w2).
           split; [rewrite Ets; norm; reflexivity|]. split; [assumption|]. split; [reflexivity|]. split; [congruence|].
           split; [rewrite app_assoc; exact K4|]. auto.
    + apply STOP. unfold after. rewrite Ep. apply orb_false_iff in Eb as [E1 E2]. apply Z.ltb_ge in E1. right.
      destruct (Z.eqb_spec (level o) q) as [<-|]; [right; split; [reflexivity|exact E2]|left; lia].
  - (* stmt *) intros ts Hl. destruct (starts_expr (cur ts)) eqn:E0.
    + eapply img_bind; [apply Iexpr, Hl|]. intros e ts' (w & -> & Hl' & Hw). destruct (ch ts' 59) eqn:E1; cbn [negb]; [|exact I].
      apply ch_true in E1. destruct (head_p ts' _ Hl' E1) as (r & -> & Hr). apply img_nxt. intros _.
      split; [|discriminate]. fin (w ++ [p 59]). apply ws_expr; [exact Hw|]. intros r0 ->. discriminate.
    + destruct (cur ts) as [c| | | | | | | | | | | | | | | | | | | | | | |] eqn:Ec; try exact I.
      * destruct (head_p ts _ Hl Ec) as (r & -> & Hr). destruct (Z.eqb_spec c 123) as [->|_]; [|exact I]. apply img_nxt. intros _.
        eapply img_bind; [apply Icomp, Hr|]. intros ss ts' [(w & -> & Hl' & Hw) Ec']. destruct (head_p ts' _ Hl' Ec') as (r & -> & Hr').
        apply img_nxt. intros _. split; [|discriminate]. fin (p 123 :: w ++ [p 125]). apply ws_comp, Hw.
      * destruct (head_w ts KIf (snd w_if) Hl Ec) as (r & -> & Hr); [cbn; tauto|]. apply img_nxt. intros _.
        eapply img_bind; [apply Iexpr, Hr|]. intros c ts' (wc & -> & Hl' & Hc). destruct (ch ts' 58) eqn:E1; cbn [negb]; [|exact I].
        apply ch_true in E1. destruct (head_p ts' _ Hl' E1) as (r & -> & Hr1). apply img_nxt. intros _.
        eapply img_bind; [apply Istmt, Hr1|]. intros t ts2 [(wt & -> & Hl2 & Ht) Ho]. destruct (is_k ts2 KElse) eqn:E2.
        -- apply is_true in E2. destruct (head_w ts2 KElse (snd w_else) Hl2 E2) as (r & -> & Hr2); [cbn; tauto|]. apply img_nxt. intros _.
           eapply img_bind; [apply Istmt, Hr2|]. intros f ts3 [(wf & -> & Hl3 & Hf) Ho3]. split; [|exact Ho3].
           fin (w_if :: wc ++ p 58 :: wt ++ w_else :: wf). apply ws_ifelse; try assumption.
           destruct (open_if t) eqn:Eo; [|reflexivity]. destruct (Ho Eo). exact E2.
        -- apply is_false in E2. split; [|intros _; exact E2]. fin (w_if :: wc ++ p 58 :: wt). apply ws_if; assumption.
      * eapply img_bind; [apply Ifun; assumption|]. intros [[s ps] body] ts' [(w & -> & Hl' & Hw) Ho]. split; [|exact Ho]. fin w. apply ws_fun, Hw.
      * destruct (head_w ts KReturn (snd w_return) Hl Ec) as (r & -> & Hr); [cbn; tauto|]. apply img_nxt. intros _.
        eapply img_bind; [apply Iexpr, Hr|]. intros e ts' (w & -> & Hl' & Hw). destruct (ch ts' 59) eqn:E1; cbn [negb]; [|exact I].
        apply ch_true in E1. destruct (head_p ts' _ Hl' E1) as (r & -> & Hr1). apply img_nxt. intros _.
        split; [|discriminate]. fin (w_return :: w ++ [p 59]). apply ws_return, Hw.
      * destruct (head_w ts KWhile (snd w_while) Hl Ec) as (r & -> & Hr); [cbn; tauto|]. apply img_nxt. intros _.
        eapply img_bind; [apply Iexpr, Hr|]. intros c ts' (wc & -> & Hl' & Hc). destruct (ch ts' 58) eqn:E1; cbn [negb]; [|exact I].
        apply ch_true in E1. destruct (head_p ts' _ Hl' E1) as (r & -> & Hr1). apply img_nxt. intros _.
        eapply img_bind; [apply Istmt, Hr1|]. intros t ts2 [(wt & -> & Hl2 & Ht) Ho].
        split; [|exact Ho]. fin (w_while :: wc ++ p 58 :: wt). apply ws_while; assumption.
      * destruct (head_w ts KBreak (snd w_break) Hl Ec) as (r & -> & Hr); [cbn; tauto|]. apply img_nxt. intros _.
        destruct (ch r 59) eqn:E1; cbn [negb]; [|exact I].
        apply ch_true in E1. destruct (head_p r _ Hr E1) as (r1 & -> & Hr1). apply img_nxt. intros _.
        split; [|discriminate]. fin [w_break; p 59]. apply ws_break.
      * destruct (head_w ts KDo (snd w_do) Hl Ec) as (r & -> & Hr); [cbn; tauto|]. apply img_nxt. intros _.
        eapply img_bind; [apply Istmt, Hr|]. intros t ts2 [(wt & -> & Hl2 & Ht) Ho].
        destruct (is_k ts2 KWhile) eqn:E1; cbn [negb]; [|exact I]. apply is_true in E1.
        destruct (head_w ts2 KWhile (snd w_while) Hl2 E1) as (r & -> & Hr2); [cbn; tauto|]. apply img_nxt. intros _.
        eapply img_bind; [apply Iexpr, Hr2|]. intros e ts' (w & -> & Hl' & Hw). destruct (ch ts' 59) eqn:E2; cbn [negb]; [|exact I].
        apply ch_true in E2. destruct (head_p ts' _ Hl' E2) as (r & -> & Hr1). apply img_nxt. intros _.
        split; [|discriminate]. fin (w_do :: wt ++ w_while :: w ++ [p 59]). apply ws_do; assumption.
  - (* compound *) intros k ts Hl. destruct (is_k ts k) eqn:E0.
    + split; [|apply is_true, E0]. fin (@nil tok). constructor.
    + destruct (is_k ts KDone); [exact I|]. eapply img_bind; [apply Istmt, Hl|]. intros s ts1 [(w & -> & Hl1 & Hw) _].
      eapply img_bind; [apply Icomp, Hl1|]. intros ss ts2 [(w2 & -> & Hl2 & Hw2) Ec]. split; [|exact Ec]. fin (w ++ w2). apply wss_cons; assumption.
  - (* fundef *) intros ts Hl Ec. destruct (head_w ts KFun (snd w_fun) Hl Ec) as (r & -> & Hr); [cbn; tauto|]. apply img_nxt. intros _.
    destruct (is_k r KIdent) eqn:E1; cbn [negb]; [|exact I]. apply is_true in E1.
    destruct (head_of r _ Hr E1 ltac:(discriminate)) as (s & r1 & -> & Hs & Hr1). cbn [txt]. apply img_nxt. intros _.
    destruct (ch r1 40) eqn:E2; cbn [negb]; [|exact I]. apply ch_true in E2. destruct (head_p r1 _ Hr1 E2) as (r2 & -> & Hr2). apply img_nxt. intros _.
    destruct (ch r2 41) eqn:E3.
    + cbn [pbind]. apply ch_true in E3. destruct (head_p r2 _ Hr2 E3) as (r3 & -> & Hr3). apply img_nxt. intros _. destruct (is_k r3 KDone); [exact I|].
      eapply img_bind; [apply Istmt, Hr3|]. intros b ts1 [(w & -> & Hl1 & Hw) Ho]. split; [|exact Ho].
      fin (w_fun :: (KIdent, s) :: p 40 :: p 41 :: w). apply wf_none; assumption.
    + eapply img_bind; [apply Iparams, Hr2|]. intros ps ts1 [(wp & -> & Hl1 & Hwp) Ec1]. destruct (head_p ts1 _ Hl1 Ec1) as (r3 & -> & Hr3).
      apply img_nxt. intros _. destruct (is_k r3 KDone); [exact I|].
      eapply img_bind; [apply Istmt, Hr3|]. intros b ts2 [(w & -> & Hl2 & Hw) Ho]. split; [|exact Ho].
      fin (w_fun :: (KIdent, s) :: p 40 :: wp ++ p 41 :: w). apply wf_some; assumption.
  - (* params *) intros ts Hl. destruct (is_k ts KIdent) eqn:E1; cbn [negb]; [|exact I]. apply is_true in E1.
    destruct (head_of ts _ Hl E1 ltac:(discriminate)) as (s & r & -> & Hs & Hr). cbn [txt]. apply img_nxt. intros _.
    eapply img_bind with (Q1 := took (wr_opt 58 false) r).
    { destruct (ch r 58) eqn:E2; [|fin (@nil tok); constructor].
      apply ch_true in E2. destruct (head_p r _ Hr E2) as (r1 & -> & Hr1). apply img_nxt. intros _.
      eapply img_bind; [apply Iexpr, Hr1|]. intros e ts1 (w & -> & Hl1 & Hw). fin (p 58 :: w). constructor; assumption. }
    intros ty ts1 (wt & -> & Hl1 & Hwt).
    eapply img_bind with (Q1 := took (wr_opt 61 true) ts1).
    { destruct (ch ts1 61) eqn:E2; [|fin (@nil tok); constructor].
      apply ch_true in E2. destruct (head_p ts1 _ Hl1 E2) as (r1 & -> & Hr1). apply img_nxt. intros _.
      eapply img_bind; [apply Iexpr, Hr1|]. intros e ts2 (w & -> & Hl2 & Hw). fin (p 61 :: w). constructor; assumption. }
    intros df ts2 (wd & -> & Hl2 & Hwd).
    destruct (ch ts2 41) eqn:E2.
    + split; [|apply ch_true, E2]. fin ((KIdent, s) :: wt ++ wd). apply wa_last; assumption.
    + destruct (ch ts2 44) eqn:E3; cbn [negb]; [|exact I]. apply ch_true in E3. destruct (head_p ts2 _ Hl2 E3) as (r & -> & Hr2). apply img_nxt. intros _.
      eapply img_bind; [apply Iparams, Hr2|]. intros ps ts3 [(wp & -> & Hl3 & Hwp) Ec1]. split; [|exact Ec1].
      fin ((KIdent, s) :: wt ++ wd ++ p 44 :: wp). apply wa_more; assumption.
Qed.

(** * The parser and the grammar agree *)
Lemma done_split (ws body ts : list tok) : ws ++ ts = body ++ [(KDone, [])] -> Forall (fun t => fst t <> KDone) ws ->
  Forall (fun t => fst t <> KDone) body -> cur ts = KDone -> ws = body /\ ts = [(KDone, [])].
Proof.
  revert body. induction ws as [|w ws IH]; intros body E Hw Hb Hc.
  - destruct body as [|b body]; [auto|]. exfalso. cbn in E. subst ts. destruct b as [k s]. cbn in Hc. inversion Hb; subst. auto.
  - destruct body as [|b body].
    + cbn in E. injection E as -> E. inversion Hw; subst. cbn in *. congruence.
    + cbn in E. injection E as -> E. inversion Hw; subst. inversion Hb; subst. destruct (IH body E) as [-> ->]; auto.
Qed.
Lemma lexeme_not_done w : lexeme w -> fst w <> KDone.
Proof.
  intros H. destruct H as [| w H| | | |s k H|]; try discriminate; cbn in H.
  - intuition (subst; discriminate).
  - unfold op_kind in H. cbn in H. cbn. intuition congruence.
Qed.

Theorem grammar nul src root ts : parse nul src = POk root ts <->
  exists l ws ss, tokenize nul src = LOk l /\ with_text src l = ws ++ [(KDone, [])] /\ wr_stmts ss ws /\ root = SComp ss /\ ts = [(KDone, [])].
Proof.
  split.
  - unfold parse. destruct (tokenize nul src) as [l| | |] eqn:E; try discriminate. unfold parse_tokens.
    destruct (lex_tokd src (length src) nul 0 l E) as (b & Hb & H1 & H2). rewrite Hb.
    destruct (sound (parse_fuel (b ++ [(KDone, [])]))) as (_ & _ & _ & _ & _ & _ & _ & _ & _ & Hc & _).
    assert (Hall : Forall tokd (b ++ [(KDone, [])])) by (apply Forall_app; split; [exact H1|repeat constructor]).
    specialize (Hc KDone _ Hall). destruct (p_compound _ _ _) as [ss ts'| | |]; cbn [pbind img] in *; try discriminate.
    intros H; injection H as <- <-. destruct Hc as [(ws & Ew & _ & Hw) Hcur].
    destruct (done_split ws b ts' (eq_sym Ew)) as [-> ->]; auto.
    { destruct written_words as (_ & _ & _ & _ & _ & _ & _ & _ & _ & _ & _ & _ & L). apply L in Hw.
      eapply Forall_impl; [|exact Hw]. intros w. apply lexeme_not_done. }
    exists l, b, ss. auto.
  - intros (l & ws & ss & E & Ew & Hw & -> & ->).
    pose proof (parse_total nul src) as Ht. unfold parse in *. rewrite E in *. rewrite Ew in *. unfold parse_tokens in *.
    destruct written as (_ & _ & _ & _ & _ & _ & _ & _ & _ & _ & _ & _ & W).
    destruct (W ss ws Hw KDone [] (or_intror eq_refl) []) as [n0 H0].
    set (f := parse_fuel _) in *. clearbody f.
    destruct (mono f (f + n0)%nat ltac:(lia)) as (_ & _ & _ & _ & _ & _ & _ & _ & _ & M & _).
    destruct (M KDone (ws ++ [(KDone, [])])) as [E1|E1].
    + rewrite E1 in Ht. contradiction Ht. reflexivity.
    + rewrite E1, H0 by lia. reflexivity.
Qed.

(** One reading at most. *)
Lemma ev_fun {A} (f : nat -> pres A) r r' : ev f r -> ev f r' -> r = r'.
Proof. intros [n H] [m H']. rewrite <- (H (n + m)%nat), <- (H' (n + m)%nat) by lia. reflexivity. Qed.
Theorem one_reading ss ss' ws : wr_stmts ss ws -> wr_stmts ss' ws -> ss = ss'.
Proof.
  destruct written as (_ & _ & _ & _ & _ & _ & _ & _ & _ & _ & _ & _ & W). intros H H'.
  pose proof (W ss ws H KDone [] (or_intror eq_refl) []) as E. pose proof (W ss' ws H' KDone [] (or_intror eq_refl) []) as E'.
  assert (X := ev_fun _ _ _ E E'). injection X as ->. reflexivity.
Qed.

(** * Chains *)
(** Every chain can be grouped. *)
Fixpoint add_op (g : group) (o : infix) (e : expr) : group :=
  match g with
  | Operand _ => Group o g (Operand e)
  | Group o' l r => if (level o <? level o') || ((level o =? level o') && negb (level o =? 0)) then Group o g (Operand e) else Group o' l (add_op r o e)
  end.
Lemma add_op_others g o e : first_operand (add_op g o e) = first_operand g /\ others (add_op g o e) = others g ++ [(o, e)].
Proof.
  induction g as [x|o' l _ r [IH1 IH2]]; [auto|]. cbn [add_op]. destruct (_ || _); [auto|]. cbn. rewrite IH1, IH2.
  split; [reflexivity|]. rewrite <- app_assoc. reflexivity.
Qed.
Lemma ass_level o : level o = 0 <-> o = IAss.
Proof. split; [destruct o; cbn; intros H; [reflexivity|discriminate H..]|intros ->; reflexivity]. Qed.
Lemma add_op_well g o e : well_grouped g -> well_grouped (add_op g o e) /\
  (forall o0, groups_right o0 g -> (level o0 < level o \/ (level o0 = level o /\ o0 = IAss)) -> groups_right o0 (add_op g o e)).
Proof.
  induction g as [x|o' l _ r IH]; intros Hg.
  - cbn. auto.
  - destruct Hg as (H1 & H2 & H3 & H4). destruct (IH H4) as [IH1 IH2]. cbn [add_op].
    destruct ((level o <? level o') || ((level o =? level o') && negb (level o =? 0))) eqn:E.
    + assert (Hl : level o < level o' \/ (level o = level o' /\ o <> IAss)).
      { apply orb_true_iff in E as [E|E]; [left; apply Z.ltb_lt, E|]. apply andb_true_iff in E as [E1 E2]. apply Z.eqb_eq in E1.
        apply negb_true_iff, Z.eqb_neq in E2. right. split; [exact E1|]. intros ->. apply E2. reflexivity. }
      split; [cbn; auto 10|]. intros o0 _ H. cbn. exact H.
    + assert (Hl : level o' < level o \/ (level o' = level o /\ o' = IAss)).
      { apply orb_false_iff in E as [E1 E2]. apply Z.ltb_ge in E1. destruct (Z.eqb_spec (level o) (level o')) as [E3|E3]; [|left; lia].
        cbn in E2. apply negb_false_iff, Z.eqb_eq in E2. right. split; [lia|]. apply ass_level. lia. }
      split; [cbn; auto|]. intros o0 H _. exact H.
Qed.
Lemma group_chain e l : exists g, well_grouped g /\ first_operand g = e /\ others g = l.
Proof.
  induction l as [|[o x] l (g & H1 & H2 & H3)] using rev_ind.
  - exists (Operand e). cbn. auto.
  - exists (add_op g o x). destruct (add_op_others g o x) as [E1 E2]. rewrite E1, E2, H2, H3. split; [|auto]. apply add_op_well, H1.
Qed.

(** In one way only. *)
Definition left_ops (g : group) (o : infix) : Prop := forall o' e, In (o', e) (others g) -> level o < level o' \/ (level o = level o' /\ o <> IAss).
Definition right_ops (o : infix) (g : group) : Prop := forall o' e, In (o', e) (others g) -> level o < level o' \/ (level o = level o' /\ o = IAss).
Lemma all_ops g : well_grouped g -> forall o o1 l r, g = Group o1 l r -> level o <= level o1 -> forall o' e, In (o', e) (others g) -> level o1 <= level o'.
Proof.
  induction g as [x|o2 l2 IHl r2 IHr]; intros Hg o o1 l r E Ho o' e Hin; [discriminate|]. injection E as -> -> ->.
  destruct Hg as (H1 & H2 & H3 & H4). cbn in Hin. apply in_app_iff in Hin as [Hin|[Hin|Hin]].
  - destruct l as [|o3 l3 r3]; [destruct Hin|]. cbn in H1. specialize (IHl H3 o1 o3 l3 r3 eq_refl ltac:(lia) o' e Hin). lia.
  - injection Hin as <- _. lia.
  - destruct r as [|o3 l3 r3]; [destruct Hin|]. cbn in H2. specialize (IHr H4 o1 o3 l3 r3 eq_refl ltac:(lia) o' e Hin). lia.
Qed.
Lemma left_all g o : well_grouped g -> groups_left g o -> left_ops g o.
Proof.
  destruct g as [x|o1 l r]; intros Hg Hl o' e Hin; [destruct Hin|]. cbn in Hl.
  pose proof (all_ops _ Hg o1 o1 l r eq_refl ltac:(lia) o' e Hin). destruct Hl as [Hl|[Hl Hn]]; [left; lia|].
  destruct (Z.eq_dec (level o) (level o')); [right; auto|left; lia].
Qed.
Lemma right_all o g : well_grouped g -> groups_right o g -> right_ops o g.
Proof.
  destruct g as [x|o1 l r]; intros Hg Hl o' e Hin; [destruct Hin|]. cbn in Hl.
  pose proof (all_ops _ Hg o1 o1 l r eq_refl ltac:(lia) o' e Hin). destruct Hl as [Hl|[Hl Hn]]; [left; lia|].
  destruct (Z.eq_dec (level o) (level o')); [right; auto|left; lia].
Qed.
Lemma split_two {A} (l1 l2 r1 r2 : list A) x y : l1 ++ x :: r1 = l2 ++ y :: r2 ->
  (l1 = l2 /\ x = y /\ r1 = r2) \/ (In y r1 /\ In x l2) \/ (In x r2 /\ In y l1).
Proof.
  revert l2. induction l1 as [|a l1 IH]; intros l2 E; destruct l2 as [|b l2]; cbn in E; injection E as E1 E2; subst.
  - left. auto.
  - right. left. split; [apply in_or_app; right; left; reflexivity|left; reflexivity].
  - right. right. split; [apply in_or_app; right; left; reflexivity|left; reflexivity].
  - destruct (IH _ E2) as [(-> & -> & ->)|[[H1 H2]|[H1 H2]]]; [left; auto|right; left; split; [exact H1|right; exact H2]|right; right; split; [exact H1|right; exact H2]].
Qed.
Lemma group_unique g : forall g', well_grouped g -> well_grouped g' -> first_operand g = first_operand g' -> others g = others g' -> g = g'.
Proof.
  induction g as [x|o l IHl r IHr]; intros g' Hg Hg' Ef Eo; destruct g' as [x'|o' l' r']; cbn in Ef, Eo.
  - congruence.
  - destruct (others l'); discriminate.
  - destruct (others l); discriminate.
  - destruct Hg as (H1 & H2 & H3 & H4). destruct Hg' as (H1' & H2' & H3' & H4').
    destruct (split_two _ _ _ _ _ _ Eo) as [(E1 & E2 & E3)|[[E1 E2]|[E1 E2]]].
    + injection E2 as -> E2. f_equal; [apply IHl; auto|apply IHr; auto].
    + exfalso. apply (right_all o r H4 H2) in E1. apply (left_all l' o' H3' H1') in E2. destruct E1 as [?|[? ->]], E2 as [?|[? ?]]; try lia.
      cbn in *. destruct o'; cbn in *; try lia. congruence.
    + exfalso. apply (right_all o' r' H4' H2') in E1. apply (left_all l o H3 H1) in E2. destruct E1 as [?|[? ->]], E2 as [?|[? ?]]; try lia.
      cbn in *. destruct o; cbn in *; try lia. congruence.
Qed.

Theorem chains nul e l w0 w text : wr_pre e w0 -> wr_chain true true l w -> layout (w_return :: (w0 ++ w) ++ [p 59]) text ->
  exists g, well_grouped g /\ first_operand g = e /\ others g = l /\
    (forall g', well_grouped g' -> first_operand g' = e -> others g' = l -> g' = g) /\
    parse nul text = POk (SComp (SCons (SReturn (group_expr g)) SNil)) [(KDone, [])].
Proof.
  intros He Hc Hl. destruct (group_chain e l) as (g & H1 & H2 & H3). exists g. split; [exact H1|]. split; [exact H2|]. split; [exact H3|].
  split; [intros g' K1 K2 K3; apply group_unique; auto; congruence|].
  eapply read_back; [|exact Hl].
  replace (w_return :: (w0 ++ w) ++ [p 59]) with ((w_return :: (w0 ++ w) ++ [p 59]) ++ []) by apply app_nil_r.
  apply wss_cons; [|constructor]. apply ws_return. apply wt_chain; [exact H1|rewrite H2; exact He|rewrite H3; exact Hc].
Qed.

(** * Literals *)
Theorem literal nul q b t text : quote_char q -> spells q b t -> Z.of_nat (length t) < 4096 ->
  layout [(KString, q :: b ++ [q]); p 59] text -> parse nul text = POk (SComp (SCons (SExpr (EStr t)) SNil)) [(KDone, [])].
Proof.
  intros Hq Hs Hl Ht. eapply read_back; [|exact Ht].
  change [(KString, q :: b ++ [q]); p 59] with (([(KString, q :: b ++ [q])] ++ [p 59]) ++ []).
  apply wss_cons; [|constructor]. apply ws_expr; [apply write_top, wr_str; assumption|discriminate].
Qed.

Theorem quoted_literal nul q t : quote_char q -> Z.of_nat (length t) < 4096 ->
  parse nul (q :: quoted q t ++ [q; 59]) = POk (SComp (SCons (SExpr (EStr t)) SNil)) [(KDone, [])].
Proof.
  intros Hq Hl. apply (literal nul q (quoted q t) t); [exact Hq|apply quoted_spells, Hq|exact Hl|].
  replace (q :: quoted q t ++ [q; 59]) with ([] ++ (q :: quoted q t ++ [q]) ++ [59]) by (cbn; rewrite <- app_assoc; reflexivity).
  apply lay_word; [constructor|eapply lx_string; [exact Hq|apply quoted_spells, Hq]| |].
  - cbn. unfold letter, digit, op_char. cbn. destruct Hq as [-> | ->]; intuition (lia || discriminate).
  - apply (lay_word [] (KC 59) [59] [] []); [constructor|char|exact I|apply lay_end, last_plain; constructor].
Qed.
Theorem has_writing ss : writable_stmts ss -> exists ws, wr_stmts ss ws /\ layout ws (spaced ws).
Proof.
  intros H. destruct can_write as (_ & _ & _ & _ & _ & _ & W). destruct (W ss H) as [ws Hw]. exists ws. split; [exact Hw|].
  apply spaced_layout. destruct written_words as (_ & _ & _ & _ & _ & _ & _ & _ & _ & _ & _ & _ & L). eauto.
Qed.
Theorem chain_only nul src e ts : parse nul src = POk (SComp (SCons (SReturn e) SNil)) ts ->
  exists l g w0 w, tokenize nul src = LOk l /\ with_text src l = (w_return :: (w0 ++ w) ++ [p 59]) ++ [(KDone, [])] /\
    well_grouped g /\ group_expr g = e /\ wr_pre (first_operand g) w0 /\ wr_chain true true (others g) w.
Proof.
  intros H. apply grammar in H as (l & ws & ss & H1 & H2 & H3 & H4 & _). injection H4 as <-.
  inversion H3 as [|? ? ws1 wr Hs Hr]; subst. inversion Hr; subst. inversion Hs as [| | | | | | |? ws2 Ht|]; subst.
  inversion Ht as [? ? g w0 w Hg Hp Hc]; subst. exists l, g, w0, w. split; [exact H1|]. split; [rewrite H2, app_nil_r; reflexivity|]. auto.
Qed.
