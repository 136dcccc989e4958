(** Parsing the words of the grammar gives the tree they spell: C42, C43, C45. *)
From Coq Require Import ZArith List Bool Lia.
From Coq Require Import Floats.SpecFloat.
From Verif Require Import Base FloatModel AstModel CompSpec LexModel LexSpec LexProofs ParseModel ParseSpec LayoutProofs ParseMono ParseSafe.
Import ListNotations.
Open Scope Z_scope.

(** With enough fuel the answer is [r]. *)
Definition ev {A} (f : nat -> pres A) (r : pres A) : Prop := exists n0, forall n, (n0 <= n)%nat -> f n = r.

Lemma next_cons {A} t y (f : list tok -> pres A) : y <> [] -> next (t :: y) f = f y.
Proof. destruct y; [congruence|reflexivity]. Qed.
Lemma app_ne {A} (a b : list A) : b <> [] -> a ++ b <> [].
Proof. destruct a; cbn; [auto|discriminate]. Qed.
Ltac ne := repeat first [discriminate|assumption|apply app_ne|match goal with |- _ :: _ <> [] => discriminate end].

(** Rules for [ev]. *)
Lemma ev_S {A} (F : nat -> pres A) r : ev (fun n => F (S n)) r -> ev F r.
Proof. intros [n0 H]. exists (S n0). intros [|n] Hn; [lia|]. apply H. lia. Qed.
Lemma ev_bind {A B} (f : nat -> pres A) (g : nat -> A -> list tok -> pres B) a ts r :
  ev f (POk a ts) -> ev (fun n => g n a ts) r -> ev (fun n => pbind (f n) (g n)) r.
Proof. intros [n1 H1] [n2 H2]. exists (n1 + n2)%nat. intros n Hn. rewrite H1 by lia. cbn [pbind]. apply H2. lia. Qed.
Lemma ev_next {A} t y (f : nat -> list tok -> pres A) r : y <> [] -> ev (fun n => f n y) r -> ev (fun n => next (t :: y) (f n)) r.
Proof. intros Hy [n0 H]. exists n0. intros n Hn. rewrite next_cons by exact Hy. apply H. exact Hn. Qed.
Lemma ev_ok {A} (r : pres A) : ev (fun _ => r) r.
Proof. exists O. reflexivity. Qed.
Ltac step := apply ev_S; cbn [p_prefix p_post p_seq p_pairs p_primary p_expr p_expr2 p_inner p_stmt p_compound p_fundef p_params].
Ltac tests := cbn [cur txt is_k ch kind_eqb p w_arrow w_if w_else w_fun w_while w_do w_break w_return negb andb orb Z.eqb Pos.eqb
  starts_expr prefix_op index_node pbind fst snd].
Ltac pass := first [apply ev_ok | apply ev_next; [solve [ne]|cbv beta]].
Ltac norm := repeat (cbn [app]; rewrite <- app_assoc); cbn [app].

Lemma kind_refl k : kind_eqb k k = true.
Proof. apply kind_eqb_eq. reflexivity. Qed.

(** The current token is not the start of a postfix. *)
Definition no_post (ts : list tok) : bool := negb (ch ts 46 || is_k ts KArw || ch ts 91 || ch ts 40).
Lemma post_stop e ts : no_post ts = true -> ev (fun n => p_post n e ts) (POk e ts).
Proof.
  unfold no_post. rewrite negb_true_iff, !orb_false_iff. intros (((H1 & H2) & H3) & H4).
  exists 1%nat. intros [|n] Hn; [lia|]. cbn [p_post]. rewrite H1, H2, H3, H4. reflexivity.
Qed.

(** * How the words of an expression start *)
Definition head_kind (k : kind) : Prop :=
  match k with KC c => c = 40 \/ c = 91 \/ c = 123 | KInt | KFloat | KString | KIdent | KNone | KTrue | KFalse => True | _ => False end.
Definition pre_kind (k : kind) : Prop :=
  match k with
  | KC c => c = 40 \/ c = 91 \/ c = 123 \/ c = 43 \/ c = 45 \/ c = 63
  | KInt | KFloat | KString | KIdent | KNone | KTrue | KFalse | KNot => True | _ => False end.
Definition starts (P : kind -> Prop) (ws : list tok) : Prop := exists k s r, ws = (k, s) :: r /\ P k.
Lemma starts_app P ws r : starts P ws -> starts P (ws ++ r).
Proof. intros (k & s & w & -> & H). eexists _, _, _. split; [reflexivity|exact H]. Qed.

Lemma expr_head e ws : wr_expr e ws -> starts head_kind ws.
Proof. intros H. destruct H; eexists _, _, _; (split; [reflexivity|cbn; auto]). Qed.
Lemma post_head : forall e ws, wr_post e ws -> starts head_kind ws.
Proof.
  fix IH 3. intros e ws H. destruct H as [e ws H|a s wa H _|a s wa H _|a i wa wi H _|a i j r wa wi H _|f wf H|f es wf ws H _].
  - exact (expr_head _ _ H).
  - apply starts_app, (IH _ _ H).
  - apply starts_app, (IH _ _ H).
  - apply starts_app, (IH _ _ H).
  - apply starts_app, (IH _ _ H).
  - apply starts_app, (IH _ _ H).
  - apply starts_app, (IH _ _ H).
Qed.
Lemma head_pre k : head_kind k -> pre_kind k.
Proof. destruct k; cbn; tauto. Qed.
Lemma pre_head e ws : wr_pre e ws -> starts pre_kind ws.
Proof.
  intros H. destruct H as [e ws H|u e ws H].
  - destruct (post_head _ _ H) as (k & s & r & -> & Hk). eexists _, _, _. split; [reflexivity|apply head_pre, Hk].
  - destruct u; eexists _, _, _; (split; [reflexivity|cbn; auto 10]).
Qed.
Lemma top_head t a e ws : wr_top t a e ws -> starts pre_kind ws.
Proof. intros H. destruct H as [t a g w0 w _ H _]. apply starts_app, (pre_head _ _ H). Qed.
Lemma items_head es ws : wr_items es ws -> starts pre_kind ws.
Proof. intros H. destruct H as [e ws H|e r ws wr H _]; [exact (top_head _ _ _ _ H)|apply starts_app, (top_head _ _ _ _ H)]. Qed.

Lemma head_prefix k : head_kind k -> kind_eqb k KDone = false /\ prefix_op k = None.
Proof. destruct k; cbn; try tauto; auto. intros [->|[->| ->]]; repeat split. Qed.
Lemma pre_not k : pre_kind k -> kind_eqb k KDone = false /\ kind_eqb k (KC 93) = false /\ kind_eqb k (KC 41) = false /\
  kind_eqb k (KC 125) = false /\ kind_eqb k KFun = false /\ kind_eqb k KElse = false /\ (k <> KC 123 -> starts_expr k = true).
Proof.
  destruct k; cbn; try tauto; try (repeat split; reflexivity).
  intros [->|[->|[->|[->|[->| ->]]]]]; repeat split; try reflexivity; congruence.
Qed.

(** * Operators *)
Lemma binary_infix o a b : binary_node (fst (infix_word o)) a b = infix_node o a b.
Proof. destruct o; reflexivity. Qed.
Lemma precedence_infix o : precedence (fst (infix_word o)) = Some (level o).
Proof. destruct o; reflexivity. Qed.
Lemma no_post_infix o r : no_post (infix_word o :: r) = true.
Proof. destruct o; reflexivity. Qed.
Lemma cur_infix o r : cur (infix_word o :: r) = fst (infix_word o).
Proof. destruct o; reflexivity. Qed.
Lemma done_infix o r : is_k (infix_word o :: r) KDone = false.
Proof. destruct o; reflexivity. Qed.
Lemma comma_infix o r : ch (infix_word o :: r) 44 = true -> o = IPair.
Proof. destruct o; cbn; congruence. Qed.
Lemma goes_infix o r mn t a : mn <= level o -> (o = IPair -> t = true) -> (o = IAss -> a = true) ->
  goes_on (infix_word o :: r) mn t a = Some (level o).
Proof.
  intros H Ht Ha. unfold goes_on. rewrite cur_infix, precedence_infix. rewrite (proj2 (Z.leb_le mn (level o)) H). cbn [andb].
  destruct o; cbn; try reflexivity; [rewrite Ha by reflexivity|rewrite Ht by reflexivity]; reflexivity.
Qed.

(** What follows a group with operator [o] does not belong to it. *)
Definition after (t : bool) (o : infix) (ts : list tok) : Prop :=
  match precedence (cur ts) with
  | None => True
  | Some q => (ch ts 44 = true /\ t = false) \/ q < level o \/ (q = level o /\ right_assoc (cur ts) = false)
  end.
Lemma after_goes t a o ts : after t o ts -> goes_on ts (level o + 1) t a = None.
Proof.
  unfold after, goes_on. destruct (precedence (cur ts)) as [q|]; [|auto]. intros [[-> ->]|H].
  - cbn [negb orb andb]. rewrite andb_false_r. reflexivity.
  - rewrite (proj2 (Z.leb_gt (level o + 1) q)) by lia. reflexivity.
Qed.
Lemma inner_stop t a o e ts : after t o ts -> ev (fun n => p_inner n (level o) e t a ts) (POk e ts).
Proof.
  intros H. pose proof (after_goes t a o ts H) as Hg. unfold after in H. step.
  destruct (precedence (cur ts)) as [q|] eqn:Ep; [|apply ev_ok].
  destruct H as [[Hc ->]|H].
  - destruct ((level o <? q) || (level o =? q) && right_assoc (cur ts)) eqn:E; [|apply ev_ok].
    assert (right_assoc (cur ts) = false) as Er by (apply ch_true in Hc; rewrite Hc; reflexivity).
    rewrite Er, andb_false_r, orb_false_r in E. rewrite E.
    eapply ev_bind; [step; rewrite Hg; apply ev_ok|]. rewrite Hc. cbn [andb negb]. apply ev_ok.
  - destruct H as [H|[-> ->]].
    + rewrite (proj2 (Z.ltb_ge (level o) q)) by lia. rewrite (proj2 (Z.eqb_neq (level o) q)) by lia. cbn [orb andb]. apply ev_ok.
    + rewrite Z.ltb_irrefl, andb_false_r. cbn [orb]. apply ev_ok.
Qed.
Lemma after_infix t o o' r : level o' < level o \/ (level o' = level o /\ o' <> IAss) -> after t o (infix_word o' :: r).
Proof.
  intros H. unfold after. rewrite cur_infix, precedence_infix. destruct H as [H|[H H1]]; [auto|].
  right. right. split; [exact H|]. destruct o'; try reflexivity. congruence.
Qed.
Lemma goes_stop t a mn ts : goes_on ts mn t a = None -> forall e, ev (fun n => p_expr2 n e mn t a ts) (POk e ts).
Proof. intros H e. step. rewrite H. apply ev_ok. Qed.

(** * Chains *)
Definition operand_ok (e : expr) (w : list tok) : Prop :=
  forall rest, rest <> [] -> no_post rest = true -> ev (fun n => p_prefix n (w ++ rest)) (POk e rest).
Inductive chain_ok (t a : bool) : list (infix * expr) -> list tok -> Prop :=
| ck_nil : chain_ok t a [] []
| ck_cons o e r we w : (o = IPair -> t = true) -> (o = IAss -> a = true) -> operand_ok e we -> chain_ok t a r w ->
    chain_ok t a ((o, e) :: r) (infix_word o :: we ++ w).
Lemma chain_split t a l1 l2 w : chain_ok t a (l1 ++ l2) w -> exists w1 w2, w = w1 ++ w2 /\ chain_ok t a l1 w1 /\ chain_ok t a l2 w2.
Proof.
  revert w. induction l1 as [|[o e] l1 IH]; intros w H.
  - exists [], w. repeat split; auto. constructor.
  - inversion H as [|? ? ? we w' H1 H2 H3 H4]; subst. destruct (IH _ H4) as (w1 & w2 & -> & Hw1 & Hw2).
    exists (infix_word o :: we ++ w1), w2. split; [cbn; rewrite <- app_assoc; reflexivity|]. split; [constructor; assumption|assumption].
Qed.

(** The first operator of a group is at least as strong as its outermost one. *)
Lemma first_op o l r t a w : well_grouped (Group o l r) -> chain_ok t a (others (Group o l r)) w ->
  exists f w', w = infix_word f :: w' /\ level o <= level f /\ (f = IPair -> t = true).
Proof.
  revert o r w. induction l as [e|o' l1 IH l2 _]; intros o r w Hg Hc.
  - cbn in Hc. inversion Hc; subst. eexists _, _. split; [reflexivity|]. split; [lia|assumption].
  - destruct Hg as (H1 & H2 & H3 & H4). cbn [others] in Hc. apply chain_split in Hc as (w1 & w2 & -> & Hw1 & Hw2).
    destruct (IH o' l2 w1 H3 Hw1) as (f & w' & -> & Hf & Ht). exists f, (w' ++ w2). split; [reflexivity|]. cbn in H1. split; [lia|exact Ht].
Qed.

Section Chain.
Variables t a : bool.
Definition in_front (g : group) : Prop := forall w rest mn res, well_grouped g -> chain_ok t a (others g) w -> rest <> [] -> no_post rest = true ->
  match g with Operand _ => True | Group o _ _ => mn <= level o /\ after t o rest end ->
  ev (fun n => p_expr2 n (group_expr g) mn t a rest) res -> ev (fun n => p_expr2 n (first_operand g) mn t a (w ++ rest)) res.
Definition behind (g : group) : Prop := forall o w rest, well_grouped g -> chain_ok t a (others g) w -> groups_right o g ->
  after t o rest -> rest <> [] -> no_post rest = true ->
  ev (fun n => p_inner n (level o) (first_operand g) t a (w ++ rest)) (POk (group_expr g) rest).

Lemma one_more r : behind r -> forall o L mn w0 w rest res, well_grouped r -> chain_ok t a (others r) w -> groups_right o r -> after t o rest ->
  rest <> [] -> no_post rest = true -> mn <= level o -> (o = IPair -> t = true) -> (o = IAss -> a = true) -> operand_ok (first_operand r) w0 ->
  ev (fun n => p_expr2 n (infix_node o L (group_expr r)) mn t a rest) res ->
  ev (fun n => p_expr2 n L mn t a (infix_word o :: w0 ++ w ++ rest)) res.
Proof.
  intros B o L mn w0 w rest res Hg Hc Hr Ha Hne Hp Hm Ht Hs Ho Hres. step. rewrite goes_infix by assumption. cbv zeta. pass.
  eapply ev_bind; [apply Ho|].
  - ne.
  - inversion Hc; subst; [exact Hp|apply no_post_infix].
  - eapply ev_bind; [apply B; assumption|]. rewrite cur_infix, binary_infix. exact Hres.
Qed.

Lemma grouping g : in_front g /\ behind g.
Proof.
  induction g as [e|o l [Al Bl] r [Ar Br]].
  - split.
    + intros w rest mn res _ Hc _ _ _ H. inversion Hc; subst. exact H.
    + intros o w rest _ Hc _ Ha _ _. inversion Hc; subst. cbn [app first_operand group_expr]. apply inner_stop, Ha.
  - assert (A : in_front (Group o l r)).
    { intros w rest mn res (H1 & H2 & H3 & H4) Hc Hne Hp (Hm & Ha) Hres. cbn [others first_operand group_expr] in *.
      apply chain_split in Hc as (w1 & w2 & -> & Hw1 & Hw2). inversion Hw2 as [|? ? ? w0 w' K1 K2 K3 K4]; subst.
      norm. apply Al; [assumption|assumption|discriminate|apply no_post_infix| |].
      - destruct l as [|o1 l1 l2]; [exact I|]. cbn in H1. split; [lia|]. apply after_infix. destruct H1 as [?|[? ?]]; [left; lia|right; split; [lia|assumption]].
      - eapply one_more; eassumption. }
    split; [exact A|].
    intros o0 w rest Hg Hc Hr Ha Hne Hp. cbn in Hr.
    assert (STOP : forall e, ev (fun n => if ch rest 44 && negb t then POk e rest else p_inner n (level o0) e t a rest) (POk e rest)).
    { intros e. destruct (ch rest 44 && negb t); [apply ev_ok|]. apply inner_stop, Ha. }
    destruct Hr as [Hr|[Hr ->]].
    + (* stronger operators to the right *)
      destruct (first_op o l r t a w Hg Hc) as (f & w' & -> & Hf & Hft). step. cbn [app]. rewrite cur_infix, precedence_infix.
      rewrite (proj2 (Z.ltb_lt (level o0) (level f))) by lia. cbn [orb].
      eapply ev_bind; [|apply STOP].
      change (infix_word f :: w' ++ rest) with ((infix_word f :: w') ++ rest).
      apply A; [assumption|assumption|assumption|assumption| |apply goes_stop, after_goes, Ha].
      split; [lia|]. unfold after in *. destruct (precedence (cur rest)) as [q|]; [|exact I]. destruct Ha as [Ha|Ha]; [auto|right; left; lia].
    + (* an assignment to the right of an assignment *)
      assert (o = IAss) as -> by (destruct o; cbn in Hr; try discriminate; reflexivity).
      change (level IAss) with 0 in *.
      assert (GO : goes_on rest 0 t a = None).
      { unfold after, goes_on in *. destruct (precedence (cur rest)) as [q|] eqn:Eq; [|reflexivity]. cbn [level] in Ha.
        destruct Ha as [[-> ->]|[Ha|[-> Ha]]].
        - cbn. rewrite andb_false_r. reflexivity.
        - destruct (cur rest); cbn in Eq; try discriminate;
          repeat match type of Eq with (if ?b then _ else _) = _ => destruct b end; try discriminate Eq; injection Eq as <-; lia.
        - exfalso. destruct (cur rest); cbn in Eq, Ha; try discriminate.
          destruct (c =? 61); [discriminate|]. repeat match type of Eq with (if ?b then _ else _) = _ => destruct b end; discriminate Eq. }
      destruct Hg as (H1 & H2 & H3 & H4). cbn [others first_operand group_expr] in *.
      apply chain_split in Hc as (w1 & w2 & -> & Hw1 & Hw2). inversion Hw2 as [|? ? ? w0 w' K1 K2 K3 K4]; subst.
      assert (REST : ev (fun n => p_inner n 0 (group_expr l) t a (infix_word IAss :: w0 ++ w' ++ rest)) (POk (infix_node IAss (group_expr l) (group_expr r)) rest)).
      { step. change (precedence (cur (infix_word IAss :: w0 ++ w' ++ rest))) with (Some 0). change (0 <? 0) with false.
        change (0 =? 0) with true. change (right_assoc (cur (infix_word IAss :: w0 ++ w' ++ rest))) with true. cbn [orb andb].
        eapply ev_bind; [|apply STOP]. change (0 + 0) with 0. eapply (one_more r); try eassumption; [reflexivity|]. apply goes_stop, GO. }
      norm. destruct l as [e|o1 l1 l2].
      * inversion Hw1; subst. exact REST.
      * cbn in H1. destruct H1 as [H1|[H1 H1']]; [|congruence].
        destruct (first_op o1 l1 l2 t a w1 H3 Hw1) as (f & w1' & -> & Hf & Hft). step. cbn [app]. rewrite cur_infix, precedence_infix.
        rewrite (proj2 (Z.ltb_lt 0 (level f))) by lia. cbn [orb].
        eapply ev_bind.
        -- change (infix_word f :: w1' ++ infix_word IAss :: w0 ++ w' ++ rest) with ((infix_word f :: w1') ++ infix_word IAss :: w0 ++ w' ++ rest).
           apply Al; [assumption|assumption|discriminate|reflexivity|split; [lia|apply after_infix; left; exact H1]|].
           apply goes_stop. reflexivity.
        -- change (ch (infix_word IAss :: w0 ++ w' ++ rest) 44) with false. cbn [andb]. exact REST.
Qed.
End Chain.

(** A whole expression ends where the chain cannot go on. *)
Lemma top_ok t a g w0 w rest : well_grouped g -> operand_ok (first_operand g) w0 -> chain_ok t a (others g) w -> rest <> [] -> no_post rest = true ->
  goes_on rest (-1000000000) t a = None -> ev (fun n => p_expr n t a ((w0 ++ w) ++ rest)) (POk (group_expr g) rest).
Proof.
  intros Hg Ho Hc Hne Hp Hgo. rewrite <- app_assoc. step.
  eapply ev_bind; [apply Ho; [ne|inversion Hc; subst; [exact Hp|apply no_post_infix]]|].
  destruct (is_k (w ++ rest) KDone) eqn:Ed.
  - inversion Hc; subst; [|cbn [app] in Ed; rewrite done_infix in Ed; discriminate].
    destruct g as [e|o l r]; [apply ev_ok|]. cbn in H0. destruct (others l); discriminate.
  - destruct (grouping t a g) as [A _]. apply A; try assumption; [|apply goes_stop, Hgo].
    destruct g as [e|o l r]; [exact I|]. split; [destruct o; cbn; lia|].
    assert (Hoa : o = IAss -> a = true).
    { cbn in Hc. apply chain_split in Hc as (? & ? & _ & _ & Hc). inversion Hc; subst. assumption. }
    unfold after, goes_on in *. destruct (precedence (cur rest)) as [q|] eqn:Eq; [|exact I].
    assert (Hq : 0 <= q).
    { destruct (cur rest); cbn in Eq; try discriminate; repeat match type of Eq with (if ?b then _ else _) = _ => destruct b end; try discriminate Eq; injection Eq as <-; lia. }
    rewrite (proj2 (Z.leb_le (-1000000000) q)) in Hgo by lia. cbn [andb] in Hgo.
    destruct (ch rest 44 && negb t) eqn:E1; [apply andb_true_iff in E1 as [-> E1]; left; split; [reflexivity|destruct t; [discriminate|reflexivity]]|].
    destruct (ch rest 61) eqn:E2; cbn [orb andb negb] in Hgo; [|discriminate].
    destruct a; cbn in Hgo; [discriminate|]. apply ch_true in E2. rewrite E2 in Eq. injection Eq as <-.
    right. left. destruct o; cbn; try lia. specialize (Hoa eq_refl). discriminate.
Qed.

(** * How other words start *)
Definition entry_kind (k : kind) : Prop := pre_kind k \/ k = KFun.
Lemma wr_entry_head k v b ws : wr_entry k v b ws -> starts entry_kind ws.
Proof.
  intros H. destruct H as [k v wk wv H _ _|s v wv _ _|s ps body ws H].
  - destruct (top_head _ _ _ _ H) as (k0 & s0 & r0 & -> & Hk). eexists _, _, _. split; [reflexivity|left; exact Hk].
  - eexists _, _, _. split; [reflexivity|left; exact I].
  - destruct H; eexists _, _, _; (split; [reflexivity|right; reflexivity]).
Qed.
Lemma wr_pairs_head ps ws : wr_pairs ps ws -> starts entry_kind ws.
Proof. intros H. destruct H as [k v b ws H|k v b r ws wr H _]; [eapply wr_entry_head, H|apply starts_app; eapply wr_entry_head, H]. Qed.
Lemma entry_not k : entry_kind k -> kind_eqb k KDone = false /\ kind_eqb k (KC 125) = false /\ kind_eqb k KElse = false.
Proof. intros [H| ->]; [destruct (pre_not k H) as (? & ? & ? & ? & ? & ? & _); auto|auto]. Qed.
Lemma wr_stmt_head s ws : wr_stmt s ws -> exists k s0 r, ws = (k, s0) :: r /\ kind_eqb k KDone = false /\
  kind_eqb k (KC 125) = false /\ kind_eqb k KElse = false.
Proof.
  intros H. destruct H as [e ws H _| | | | | | | |? ? ? ? Hf]; try (eexists _, _, _; split; [reflexivity|repeat split]).
  - destruct (top_head _ _ _ _ H) as (k & s & r & -> & Hk). destruct (pre_not k Hk) as (? & ? & ? & ? & ? & ? & _).
    eexists _, _, _. split; [reflexivity|auto].
  - destruct Hf; eexists _, _, _; (split; [reflexivity|repeat split]).
Qed.
Lemma wr_params_head ps ws : wr_params ps ws -> exists s r, ws = (KIdent, s) :: r.
Proof. intros H. destruct H; eexists _, _; reflexivity. Qed.
Lemma starts_close ws rest c : starts pre_kind ws -> c = 93 \/ c = 41 -> ch (ws ++ rest) c = false.
Proof.
  intros (k & s & r & -> & Hk) Hc. destruct (pre_not k Hk) as (_ & H1 & H2 & _). unfold ch. cbn [app cur]. destruct Hc as [->| ->]; assumption.
Qed.

Definition top_rule (t a : bool) (e : expr) (ws : list tok) : Prop := forall rest, rest <> [] -> no_post rest = true ->
  goes_on rest (-1000000000) t a = None -> ev (fun n => p_expr n t a (ws ++ rest)) (POk e rest).
Definition opt_rule (c : Z) (a : bool) (o : oexpr) (ws : list tok) : Prop :=
  match o with ONo => ws = [] | OYes e => exists we, ws = p c :: we /\ top_rule false a e we end.
Definition opt_end (c : Z) (ts : list tok) : Prop :=
  match ts with (KC x, _) :: _ => x = 41 \/ x = 44 \/ (c = 58 /\ x = 61) | _ => False end.
Lemma opt_end_spec c ts : opt_end c ts -> ts <> [] /\ no_post ts = true /\ ch ts 58 = false /\
  (c = 58 -> goes_on ts (-1000000000) false false = None) /\ (c <> 58 -> ch ts 61 = false /\ goes_on ts (-1000000000) false true = None).
Proof.
  destruct ts as [|[[] ?] r]; cbn [opt_end]; try tauto. intros [->|[->|[-> ->]]]; (split; [discriminate|]); repeat split; reflexivity || congruence.
Qed.
Lemma opt_type o ws rest : opt_rule 58 false o ws -> opt_end 58 rest ->
  ev (fun n => if ch (ws ++ rest) 58 then next (ws ++ rest) (fun ts => pbind (p_expr n false false ts) (fun t ts => POk (OYes t) ts))
               else POk ONo (ws ++ rest)) (POk o rest).
Proof.
  intros R E. destruct (opt_end_spec _ _ E) as (E1 & E2 & E3 & E4 & _). destruct o as [|e].
  - cbn in R. subst. cbn [app]. rewrite E3. apply ev_ok.
  - destruct R as (we & -> & IH). cbn [app]. change (ch (p 58 :: we ++ rest) 58) with true. cbv iota. pass.
    eapply ev_bind; [apply IH; [exact E1|exact E2|apply E4; reflexivity]|]. apply ev_ok.
Qed.
Lemma opt_default o ws rest : opt_rule 61 true o ws -> opt_end 61 rest ->
  ev (fun n => if ch (ws ++ rest) 61 then next (ws ++ rest) (fun ts => pbind (p_expr n false true ts) (fun t ts => POk (OYes t) ts))
               else POk ONo (ws ++ rest)) (POk o rest).
Proof.
  intros R E. destruct (opt_end_spec _ _ E) as (E1 & E2 & E3 & _ & E4). destruct (E4 ltac:(discriminate)) as [E5 E6]. destruct o as [|e].
  - cbn in R. subst. cbn [app]. rewrite E5. apply ev_ok.
  - destruct R as (we & -> & IH). cbn [app]. change (ch (p 61 :: we ++ rest) 61) with true. cbv iota. pass.
    eapply ev_bind; [apply IH; [exact E1|exact E2|exact E6]|]. apply ev_ok.
Qed.
Lemma opt_rule_end o ws rest : opt_rule 61 true o ws -> opt_end 61 rest -> opt_end 58 (ws ++ rest).
Proof.
  destruct o; cbn [opt_rule]; [intros ->|intros (we & -> & _)]; cbn [app].
  - destruct rest as [|[[] ?] r]; cbn [opt_end]; tauto.
  - intros _. cbn. auto.
Qed.

(** A postfix goes on where the expression in front ended. *)
Definition post_rule (e : expr) (ws : list tok) : Prop := forall rest res, rest <> [] -> ev (fun n => p_post n e rest) res ->
  ev (fun n => pbind (p_primary n (ws ++ rest)) (fun e ts => p_post n e ts)) res.


(** The word after a leading name is not a colon. *)
Definition goes_with (k : kind) : Prop := kind_eqb k KDone || kind_eqb k (KC 58) = false.
Definition second_ok (ws : list tok) : Prop := match ws with (KIdent, _) :: (k, _) :: _ => goes_with k | _ => True end.
Lemma second_app ws k s r : second_ok ws -> ws <> [] -> goes_with k -> second_ok (ws ++ (k, s) :: r).
Proof. destruct ws as [|[[] ?] [|[k2 ?] w]]; cbn; auto; congruence. Qed.
Lemma starts_ne P ws : starts P ws -> ws <> [].
Proof. intros (? & ? & ? & -> & _). discriminate. Qed.
Lemma post_second : forall e ws, wr_post e ws -> second_ok ws.
Proof.
  fix IH 3. intros e ws H. destruct H as [e ws H|a s0 wa H _|a s0 wa H _|a i wa wi H _|a i j r0 wa wi H _|f wf H|f es wf ws H _];
    try (apply second_app; [exact (IH _ _ H)|exact (starts_ne _ _ (post_head _ _ H))|reflexivity]).
  destruct H; exact I.
Qed.
Lemma pre_second e ws : wr_pre e ws -> second_ok ws.
Proof. intros H. destruct H as [e ws H|u e ws H]; [exact (post_second _ _ H)|destruct u; exact I]. Qed.
Lemma top_second t a e ws : wr_top t a e ws -> second_ok ws.
Proof.
  intros H. destruct H as [t a g w0 w _ H Hc]. pose proof (pre_second _ _ H) as H1. destruct Hc as [|t a o e r we wr _ _ _ _].
  - rewrite app_nil_r. exact H1.
  - destruct (infix_word o) as [k s] eqn:E. apply second_app; [exact H1|exact (starts_ne _ _ (pre_head _ _ H))|].
    destruct o; injection E as <- <-; reflexivity.
Qed.
Lemma second_word t a e s k1 s1 r : wr_top t a e ((KIdent, s) :: (k1, s1) :: r) -> kind_eqb k1 KDone || kind_eqb k1 (KC 58) = false.
Proof. intros H. exact (top_second _ _ _ _ H). Qed.

(** A word that is a brace. *)
Lemma expr_brace e ws : wr_expr e ws -> forall s r, ws = (KC 123, s) :: r -> s = [123].
Proof. intros H. destruct H; intros s' r' E; injection E as E1 E2; try discriminate; congruence. Qed.
Lemma post_brace : forall e ws, wr_post e ws -> forall s r, ws = (KC 123, s) :: r -> s = [123].
Proof.
  fix IH 3. intros e ws H. destruct H as [e ws H|a s0 wa H _|a s0 wa H _|a i wa wi H _|a i j r0 wa wi H _|f wf H|f es wf ws H _]; intros s r E;
    try (destruct wa as [|w wa]; [destruct (starts_ne _ _ (post_head _ _ H) eq_refl)|]; cbn in E; injection E as -> E; exact (IH _ _ H _ _ eq_refl)).
  - exact (expr_brace _ _ H _ _ E).
  - destruct wf as [|w wf]; [destruct (starts_ne _ _ (post_head _ _ H) eq_refl)|]; cbn in E; injection E as -> E; exact (IH _ _ H _ _ eq_refl).
  - destruct wf as [|w wf]; [destruct (starts_ne _ _ (post_head _ _ H) eq_refl)|]; cbn in E; injection E as -> E; exact (IH _ _ H _ _ eq_refl).
Qed.
Lemma pre_brace e ws : wr_pre e ws -> forall s r, ws = (KC 123, s) :: r -> s = [123].
Proof. intros H. destruct H as [e ws H|u e ws H]; intros s r E; [exact (post_brace _ _ H _ _ E)|destruct u; discriminate]. Qed.
Lemma top_braces t a e ws : wr_top t a e ws -> forall s r, ws = (KC 123, s) :: r -> s = [123].
Proof.
  intros H. destruct H as [t a g w0 w _ H _]. intros s r E.
  destruct w0 as [|w1 w0]; [destruct (starts_ne _ _ (pre_head _ _ H) eq_refl)|]. cbn in E. injection E as -> E.
  exact (pre_brace _ _ H _ _ eq_refl).
Qed.
Lemma top_brace t a e s r : wr_top t a e ((KC 123, s) :: r) -> exists r', (KC 123, s) :: r = p 123 :: r'.
Proof. intros H. exists r. rewrite (top_braces _ _ _ _ H s r eq_refl). reflexivity. Qed.

Theorem written :
  (forall e ws, wr_expr e ws -> forall rest, rest <> [] -> ev (fun n => p_primary n (ws ++ rest)) (POk e rest)) /\
  (forall e ws, wr_post e ws -> post_rule e ws) /\
  (forall e ws, wr_pre e ws -> operand_ok e ws) /\
  (forall t a e ws, wr_top t a e ws -> top_rule t a e ws) /\
  (forall t a l ws, wr_chain t a l ws -> chain_ok t a l ws) /\
  (forall es ws, wr_items es ws -> forall c rest, c = 93 \/ c = 41 -> ev (fun n => p_seq n c (ws ++ p c :: rest)) (POk es (p c :: rest))) /\
  (forall ps ws, wr_pairs ps ws -> forall rest, ev (fun n => p_pairs n (ws ++ p 125 :: rest)) (POk ps (p 125 :: rest))) /\
  (forall k v b ws, wr_entry k v b ws ->
     (forall rest, ev (fun n => p_pairs n (ws ++ p 125 :: rest)) (POk (PCons k v PNil) (p 125 :: rest))) /\
     (forall r wr rest, ev (fun n => p_pairs n (wr ++ p 125 :: rest)) (POk r (p 125 :: rest)) -> starts entry_kind wr ->
        ev (fun n => p_pairs n (ws ++ (if b then p 44 :: wr else wr) ++ p 125 :: rest)) (POk (PCons k v r) (p 125 :: rest)))) /\
  (forall s ps body ws, wr_fun s ps body ws -> forall rest, rest <> [] -> (open_if body = true -> cur rest <> KElse) ->
     ev (fun n => p_fundef n (ws ++ rest)) (POk (s, ps, body) rest)) /\
  (forall ps ws, wr_params ps ws -> forall rest, ev (fun n => p_params n (ws ++ p 41 :: rest)) (POk ps (p 41 :: rest))) /\
  (forall c a o ws, wr_opt c a o ws -> opt_rule c a o ws) /\
  (forall s ws, wr_stmt s ws -> forall rest, rest <> [] -> (open_if s = true -> cur rest <> KElse) ->
     ev (fun n => p_stmt n (ws ++ rest)) (POk s rest)) /\
  (forall ss ws, wr_stmts ss ws -> forall k rest, k = KC 125 \/ k = KDone ->
     forall s, ev (fun n => p_compound n k (ws ++ (k, s) :: rest)) (POk ss ((k, s) :: rest))).
Proof.
  apply wr_ind.
  - (* int *) intros s z Hs Hd Hl Hz Hv rest Hr. step. cbn [app cur txt].
    unfold NUM_MAX. rewrite (proj2 (Z.leb_gt 64 _)) by lia. unfold decimal in Hz. rewrite decimal_value in Hz. rewrite Hz. cbv zeta.
    rewrite (proj2 (Z.leb_gt _ _)) by lia. pass. apply ev_ok.
  - (* float *) intros ds fs Hds Hfs Hd Hf Hl rest Hr. step. cbn [app cur txt].
    unfold NUM_MAX. rewrite (proj2 (Z.leb_gt 64 _)) by lia. cbv zeta. pass.
    replace (flt_value (ds ++ 46 :: fs)) with (rounded (decimal (ds ++ fs)) (Z.to_pos (10 ^ Z.of_nat (length fs)))); [apply ev_ok|].
    unfold flt_value. rewrite span_exact; [|eapply Forall_impl; [|exact Hd]; intros c; apply isdigit_spec|reflexivity].
    rewrite firstn_exact.
    replace (length ds + 1)%nat with (length (ds ++ [46])) by (rewrite app_length; reflexivity).
    replace (ds ++ 46 :: fs) with ((ds ++ [46]) ++ fs) by (rewrite <- app_assoc; reflexivity).
    rewrite skipn_exact. unfold rounded, decimal. rewrite decimal_value. reflexivity.
  - (* string *) intros q b t Hq Hsp Hl rest Hr. step. cbn [app cur txt].
    rewrite (string_value_spells q b t) by auto. pass. apply ev_ok.
  - (* ident *) intros s _ rest Hr. step. cbn [app cur txt]. cbv zeta. pass. apply ev_ok.
  - intros rest Hr. step. cbn [app cur]. pass. apply ev_ok.
  - intros rest Hr. step. cbn [app cur]. pass. apply ev_ok.
  - intros rest Hr. step. cbn [app cur]. pass. apply ev_ok.
  - (* paren *) intros e ws Hw IH rest Hr. norm. step. tests. pass.
    eapply ev_bind; [apply IH; [discriminate|reflexivity..]|]. tests. pass. apply ev_ok.
  - (* list0 *) intros rest Hr. cbn [app]. step. tests. pass. tests. pass. apply ev_ok.
  - (* list *) intros es ws Hw IH rest Hr. norm. step. tests. pass.
    rewrite (starts_close _ _ 93 (items_head _ _ Hw)) by auto. eapply ev_bind; [apply IH; auto|]. pass. apply ev_ok.
  - (* map0 *) intros rest Hr. cbn [app]. step. tests. pass. tests. pass. apply ev_ok.
  - (* map *) intros ps ws Hw IH rest Hr. norm. step. tests. pass.
    specialize (IH rest). destruct (wr_pairs_head _ _ Hw) as (k & s & r & -> & Hk). destruct (entry_not k Hk) as (K1 & K2 & _).
    cbn [app] in *. unfold is_k, ch. cbn [cur]. rewrite K1, K2. eapply ev_bind; [exact IH|]. pass. apply ev_ok.
  - (* a primary expression *) intros e ws Hw IH rest res Hr H. eapply ev_bind; [apply IH; exact Hr|exact H].
  - (* arrow *) intros a s wa Ha IH Hs rest res Hr H. norm. apply IH; [discriminate|]. step. tests. cbv zeta. pass. tests. pass. exact H.
  - (* dot *) intros a s wa Ha IH Hs rest res Hr H. norm. apply IH; [discriminate|]. step. tests. cbv zeta. pass. tests. pass. exact H.
  - (* sel *) intros a i wa wi Ha IH Hi IHi rest res Hr H. norm. apply IH; [discriminate|]. step. tests. pass.
    rewrite (starts_close _ _ 93 (top_head _ _ _ _ Hi)) by auto.
    eapply ev_bind; [step; eapply ev_bind; [apply IHi; [discriminate|reflexivity..]|]; tests; apply ev_ok|]. pass. tests. exact H.
  - (* sels *) intros a i j r wa wi Ha IH Hi IHi rest res Hr H. norm. apply IH; [discriminate|]. step. tests. pass.
    rewrite (starts_close _ _ 93 (items_head _ _ Hi)) by auto.
    eapply ev_bind; [apply IHi; auto|]. pass. tests. exact H.
  - (* call0 *) intros f wf Hf IH rest res Hr H. norm. apply IH; [discriminate|]. step. tests. pass. tests. pass. exact H.
  - (* call *) intros f es wf ws Hf IH Hw IHw rest res Hr H. norm. apply IH; [discriminate|]. step. tests. pass.
    rewrite (starts_close _ _ 41 (items_head _ _ Hw)) by auto.
    eapply ev_bind; [apply IHw; auto|]. pass. exact H.
  - (* operand *) intros e ws Hw IH rest Hr Hp. destruct (post_head _ _ Hw) as (k & s & r & -> & Hk). destruct (head_prefix k Hk) as (K1 & K2).
    step. unfold is_k. cbn [app cur]. rewrite K1, K2. apply (IH rest); [exact Hr|apply post_stop, Hp].
  - (* unary *) intros u e ws Hw IH rest Hr Hp. cbn [app].
    destruct u; cbn [prefix_word]; step; tests; pass; (eapply ev_bind; [apply IH; assumption|]); apply ev_ok.
  - (* chain *) intros t a g w0 w Hg Hw IHw Hc IHc rest Hr Hp Hgo. apply top_ok; assumption.
  - intros t a. constructor.
  - intros t a o e r ws wr Ht Ha Hw IHw Hc IHc. constructor; assumption.
  - (* items: one *) intros e ws Hw IH c rest Hc. step.
    eapply ev_bind; [apply IH; [discriminate|destruct Hc as [->| ->]; reflexivity..]|].
    replace (ch (p c :: rest) c) with true by (destruct Hc as [->| ->]; reflexivity). apply ev_ok.
  - (* items: more *) intros e r ws wr Hw IH Hr IHr c rest Hc. norm. step.
    eapply ev_bind; [apply IH; [discriminate|reflexivity..]|].
    replace (ch (p 44 :: wr ++ p c :: rest) c) with false by (destruct Hc as [->| ->]; reflexivity).
    change (ch (p 44 :: wr ++ p c :: rest) 44) with true. cbn [negb]. pass. eapply ev_bind; [apply IHr; exact Hc|]. apply ev_ok.
  - (* pairs: last *) intros k v b ws Hw [IH _] rest. apply IH.
  - (* pairs: more *) intros k v b r ws wr Hw [_ IH] Hr IHr rest. rewrite <- app_assoc.
    apply IH; [apply IHr|eapply wr_pairs_head; eassumption].
  - (* entry: key *) intros k v wk wv Hk IHk Hns Hv IHv.
    destruct (top_head _ _ _ _ Hk) as (k0 & s0 & r0 & -> & Hk0). destruct (pre_not k0 Hk0) as (_ & _ & _ & _ & K5 & _).
    assert (SINGLE : forall rest, kind_eqb k0 KIdent && (is_k (r0 ++ p 58 :: rest) KDone || ch (r0 ++ p 58 :: rest) 58) = false).
    { intros rest. destruct (kind_eqb k0 KIdent) eqn:E; [|reflexivity]. apply kind_eqb_eq in E as ->. cbn [andb].
      destruct r0 as [|[k1 s1] r1]; [destruct (Hns s0 eq_refl)|]. unfold is_k, ch. cbn [app cur].
      apply second_word in Hk. exact Hk. }
    split.
    + intros rest. norm. step. unfold is_k at 1. cbn [cur]. rewrite K5. pass. cbv zeta. unfold is_k at 1. cbn [cur].
      match goal with |- context [if ?b then _ else _] => replace b with false by (symmetry; apply (SINGLE (wv ++ p 125 :: rest))) end.
      eapply ev_bind; [apply (IHk (p 58 :: wv ++ p 125 :: rest)); [discriminate|reflexivity..]|]. tests. pass.
      eapply ev_bind; [apply (IHv (p 125 :: rest)); [discriminate|reflexivity..]|]. tests. apply ev_ok.
    + intros r wr rest IHr Hh. norm. step. unfold is_k at 1. cbn [cur]. rewrite K5. pass. cbv zeta. unfold is_k at 1. cbn [cur].
      match goal with |- context [if ?b then _ else _] => replace b with false by (symmetry; apply (SINGLE (wv ++ p 44 :: wr ++ p 125 :: rest))) end.
      eapply ev_bind; [apply (IHk (p 58 :: wv ++ p 44 :: wr ++ p 125 :: rest)); [discriminate|reflexivity..]|]. tests. pass.
      eapply ev_bind; [apply (IHv (p 44 :: wr ++ p 125 :: rest)); [discriminate|reflexivity..]|]. tests. pass.
      eapply ev_bind; [exact IHr|]. apply ev_ok.
  - (* entry: name *) intros s v wv Hs Hv IHv. split.
    + intros rest. norm. step. tests. pass. cbv zeta. tests. cbn [pbind]. tests. pass.
      eapply ev_bind; [apply (IHv (p 125 :: rest)); [discriminate|reflexivity..]|]. tests. apply ev_ok.
    + intros r wr rest IHr Hh. norm. step. tests. pass. cbv zeta. tests. pass.
      eapply ev_bind; [apply (IHv (p 44 :: wr ++ p 125 :: rest)); [discriminate|reflexivity..]|]. tests. pass.
      eapply ev_bind; [exact IHr|]. apply ev_ok.
  - (* entry: fun *) intros s ps body ws Hf IH.
    assert (Ef : exists w, ws = w_fun :: w) by (destruct Hf; eexists; reflexivity). destruct Ef as [w ->].
    split.
    + intros rest. cbn [app]. step. change (is_k (w_fun :: w ++ p 125 :: rest) KFun) with true. cbv iota.
      eapply ev_bind; [apply IH; discriminate|]. cbv iota. tests. apply ev_ok.
    + intros r wr rest IHr (k0 & s0 & r0 & -> & Hk). destruct (entry_not k0 Hk) as (_ & K2 & K3). cbn [app] in *. step.
      change (is_k (w_fun :: w ++ (k0, s0) :: r0 ++ p 125 :: rest) KFun) with true. cbv iota.
      eapply ev_bind; [apply IH; [discriminate|]|].
      * intros _. cbn [cur]. intros ->. discriminate.
      * cbv iota. unfold ch. cbn [cur]. rewrite K2. eapply ev_bind; [exact IHr|]. apply ev_ok.
  - (* fun: none *) intros s body wb Hs Hb IH rest Hr Ho. cbn [app]. step. pass. tests. cbv zeta. pass. tests. pass. tests. pass.
    destruct (wr_stmt_head _ _ Hb) as (k & s0 & r0 & -> & K1 & _). cbn [app] in *. unfold is_k. cbn [cur]. rewrite K1.
    eapply ev_bind; [apply IH; assumption|]. apply ev_ok.
  - (* fun: some *) intros s ps body wps wb Hs Hp IHp Hb IH rest Hr Ho. norm.
    step. pass. tests. cbv zeta. pass. tests. pass.
    specialize (IHp (wb ++ rest)).
    destruct (wr_params_head _ _ Hp) as (s1 & r1 & ->). cbn [app] in *. tests.
    eapply ev_bind; [exact IHp|]. pass.
    destruct (wr_stmt_head _ _ Hb) as (k & s0 & r0 & -> & K1 & _). cbn [app] in *. unfold is_k. cbn [cur]. rewrite K1.
    eapply ev_bind; [apply IH; assumption|]. apply ev_ok.
  - (* params: last *) intros s ty df wt wd Hs Ht IHt Hd IHd rest. norm. step. tests. cbv zeta. pass.
    assert (Hend : opt_end 61 (p 41 :: rest)) by (cbn; auto).
    eapply ev_bind; [apply (opt_type ty wt); [exact IHt|eapply opt_rule_end; eassumption]|].
    eapply ev_bind; [apply (opt_default df wd); [exact IHd|exact Hend]|].
    tests. apply ev_ok.
  - (* params: more *) intros s ty df r wt wd wr Hs Ht IHt Hd IHd Hr IHr rest. norm. step. tests. cbv zeta. pass.
    assert (Hend : opt_end 61 (p 44 :: wr ++ p 41 :: rest)) by (cbn; auto).
    eapply ev_bind; [apply (opt_type ty wt); [exact IHt|eapply opt_rule_end; eassumption]|].
    eapply ev_bind; [apply (opt_default df wd); [exact IHd|exact Hend]|].
    tests. pass. eapply ev_bind; [apply IHr|]. apply ev_ok.
  - (* opt: no *) intros c a. reflexivity.
  - (* opt: yes *) intros c a e ws Hw IH. exists ws. split; [reflexivity|exact IH].
  - (* expression statement *) intros e ws Hw IH Hb rest Hr Ho. norm.
    specialize (IH (p 59 :: rest) ltac:(discriminate) eq_refl eq_refl).
    destruct (top_head _ _ _ _ Hw) as (k & s & r & -> & Hk). cbn [app] in *. step. cbn [cur].
    destruct (pre_not k Hk) as (_ & _ & _ & _ & _ & _ & K7). rewrite K7.
    + eapply ev_bind; [exact IH|]. tests. pass. apply ev_ok.
    + intros ->. destruct (top_brace _ _ _ _ _ Hw) as [r' Er]. destruct (Hb _ Er).
  - (* break *) intros rest Hr Ho. cbn [app]. step. tests. pass. tests. pass. apply ev_ok.
  - (* if *) intros c t wc wt Hc IHc Ht IHt rest Hr Ho. norm. step. tests. pass.
    eapply ev_bind; [apply (IHc (p 58 :: wt ++ rest)); [discriminate|reflexivity..]|]. tests. pass.
    specialize (Ho eq_refl).
    eapply ev_bind; [apply IHt; [exact Hr|auto]|]. unfold is_k.
    replace (kind_eqb (cur rest) KElse) with false by (symmetry; destruct (kind_eqb (cur rest) KElse) eqn:E; [apply kind_eqb_eq in E; congruence|reflexivity]).
    apply ev_ok.
  - (* if else *) intros c t f wc wt wf Hc IHc Ht IHt Hop Hf IHf rest Hr Ho. norm. step. tests. pass.
    eapply ev_bind; [apply (IHc (p 58 :: wt ++ w_else :: wf ++ rest)); [discriminate|reflexivity..]|]. tests. pass.
    eapply ev_bind; [apply IHt; [discriminate|congruence]|]. tests. pass.
    eapply ev_bind; [apply IHf; [exact Hr|exact Ho]|]. apply ev_ok.
  - (* while *) intros c b wc wb Hc IHc Hb IHb rest Hr Ho. norm. step. tests. pass.
    eapply ev_bind; [apply (IHc (p 58 :: wb ++ rest)); [discriminate|reflexivity..]|]. tests. pass.
    eapply ev_bind; [apply IHb; [exact Hr|exact Ho]|]. apply ev_ok.
  - (* do *) intros c b wc wb Hb IHb Hc IHc rest Hr Ho. norm. step. tests. pass.
    eapply ev_bind; [apply IHb; [discriminate|intros _; discriminate]|]. tests. pass.
    eapply ev_bind; [apply (IHc (p 59 :: rest)); [discriminate|reflexivity..]|]. tests. pass. apply ev_ok.
  - (* compound *) intros ss ws Hw IH rest Hr Ho. norm. step. tests. pass.
    eapply ev_bind; [apply IH; auto|]. pass. apply ev_ok.
  - (* return *) intros e ws Hw IH rest Hr Ho. norm. step. tests. pass.
    eapply ev_bind; [apply (IH (p 59 :: rest)); [discriminate|reflexivity..]|]. tests. pass. apply ev_ok.
  - (* function *) intros s ps body ws Hf IH rest Hr Ho.
    assert (Ef : exists w, ws = w_fun :: w) by (destruct Hf; eexists; reflexivity). destruct Ef as [w ->].
    specialize (IH rest Hr Ho). cbn [app] in *. step. tests.
    eapply ev_bind; [exact IH|]. apply ev_ok.
  - (* statements: none *) intros k rest Hk s. cbn [app]. step. unfold is_k. cbn [cur]. rewrite kind_refl. apply ev_ok.
  - (* statements: more *) intros s r ws wr Hs IHs Hr IHr k rest Hk str. norm. step.
    specialize (IHs (wr ++ (k, str) :: rest)).
    destruct (wr_stmt_head _ _ Hs) as (k0 & s0 & r0 & -> & K1 & K2 & _). cbn [app] in *. unfold is_k. cbn [cur]. rewrite K1.
    replace (kind_eqb k0 k) with false by (symmetry; destruct Hk as [->| ->]; assumption).
    eapply ev_bind; [apply IHs|].
    + ne.
    + intros _. destruct Hr as [|s' r' ws' wr' Hs' Hr']; [destruct Hk as [->| ->]; discriminate|].
      destruct (wr_stmt_head _ _ Hs') as (k1 & s1 & r1 & -> & K3). cbn [app cur]. intros ->. cbn in K3. intuition discriminate.
    + eapply ev_bind; [apply IHr; exact Hk|]. apply ev_ok.
Qed.
