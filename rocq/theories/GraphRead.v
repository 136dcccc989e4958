(** Proofs for C81: the text of a drawing can be read in one way only, the drawing is a tree, names are shown. *)
From Coq Require Import ZArith String List Bool Permutation Lia.
From Verif Require Import Base StringModel AstModel ParseModel BuiltinModel PreludeSpec PreludeToString ShowModel ShowSpec ShowProofs GraphModel GraphSpec GraphProofs.
Import ListNotations.
Open Scope list_scope.
Open Scope Z_scope.
Local Arguments Z.add : simpl never.
Local Arguments Z.sub : simpl never.

(** * The whole text *)
Lemma graphviz_text fg root : fits root -> exists es,
  graphviz fg root = ROk (dot_text (dnodes 1 2 (spic fg root)) es) /\ Permutation es (dedges 1 2 (spic fg root)).
Proof.
  intros F. destruct (all_drawn fg) as (_ & _ & _ & _ & _ & S & _). unfold graphviz, fresh. cbn [g_head g_body g_count].
  destruct (S root F (0 + 1) (mkgv (bytes_of "digraph G {" ++ [10]) [] (0 + 1))) as (es & E & P). exists es. split; [|exact P].
  rewrite E. cbn [g_head g_body g_count head body]. f_equal. unfold dot_text. rewrite <- !app_assoc. reflexivity.
Qed.

(** * Trees *)
Fixpoint zseq (j : Z) (n : nat) : list Z := match n with O => [] | S n => j :: zseq (j + 1) n end.
Lemma zseq_app a b : forall j, zseq j (a + b) = zseq j a ++ zseq (j + Z.of_nat a) b.
Proof.
  induction a as [|a IH]; intros; cbn [zseq app Nat.add]; [now rewrite Z.add_0_r|]. rewrite IH. do 3 f_equal. lia.
Qed.
Lemma in_zseq n : forall j t, In t (zseq j n) <-> j <= t < j + Z.of_nat n.
Proof.
  induction n as [|n IH]; intros; cbn [zseq In]; [lia|]. rewrite IH. lia.
Qed.
Lemma nodup_zseq n : forall j, NoDup (zseq j n).
Proof. induction n as [|n IH]; intros; cbn; constructor; [rewrite in_zseq; lia|apply IH]. Qed.

(** Induction on drawings. *)
Lemma drawing_ind' (P : drawing -> Prop) : (forall ls ds, Forall P ds -> P (Dw ls ds)) -> forall d, P d.
Proof.
  intros H. fix IH 1. intros [ls ds]. apply H. induction ds as [|d r R]; constructor; [apply IH|exact R].
Qed.

Lemma dsize_pos : forall d, 1 <= dsize d.
Proof.
  apply drawing_ind'. intros ls ds H. rewrite dsize_eq. enough (0 <= fsize ds) by lia.
  induction H as [|d r D _ IH]; cbn; lia.
Qed.
Lemma fsize_pos ds : 0 <= fsize ds.
Proof. induction ds as [|d r IH]; cbn [fsize]; [lia|]. pose proof (dsize_pos d). lia. Qed.

Lemma fedges_targets ds : Forall (fun d => forall k j, map snd (dedges k j d) = zseq j (Z.to_nat (dsize d - 1))) ds ->
  forall k j, map snd (fedges k j ds) = zseq j (Z.to_nat (fsize ds)).
Proof.
  induction 1 as [|d r D _ IH]; intros k j; cbn [fedges fsize map zseq]; [reflexivity|].
  rewrite map_app, D, IH. pose proof (dsize_pos d). pose proof (fsize_pos r).
  replace (Z.to_nat (dsize d + fsize r)) with (S (Z.to_nat (dsize d - 1) + Z.to_nat (fsize r))) by lia.
  cbn [zseq]. rewrite zseq_app. cbn [snd]. do 3 f_equal. lia.
Qed.
Lemma dedges_targets : forall d k j, map snd (dedges k j d) = zseq j (Z.to_nat (dsize d - 1)).
Proof.
  apply (drawing_ind' (fun d => forall k j, map snd (dedges k j d) = zseq j (Z.to_nat (dsize d - 1)))).
  intros ls ds H k j. rewrite dedges_eq, dsize_eq. rewrite fedges_targets by exact H. do 2 f_equal. lia.
Qed.

Lemma fedges_down ds : Forall (fun d => forall k j a b, k < j -> In (a, b) (dedges k j d) -> k <= a < b) ds ->
  forall k j a b, k < j -> In (a, b) (fedges k j ds) -> k <= a < b.
Proof.
  induction 1 as [|d r D _ IH]; intros k j a b L I; cbn in I; [easy|]. destruct I as [I|I].
  - injection I as -> ->. lia.
  - apply in_app_or in I. destruct I as [I|I].
    + apply D in I; lia.
    + apply IH in I; [lia|]. pose proof (dsize_pos d). lia.
Qed.
Lemma dedges_down : forall d k j a b, k < j -> In (a, b) (dedges k j d) -> k <= a < b.
Proof.
  apply (drawing_ind' (fun d => forall k j a b, k < j -> In (a, b) (dedges k j d) -> k <= a < b)).
  intros ls ds H k j a b L I. rewrite dedges_eq in I. eapply fedges_down; eauto.
Qed.

Lemma fnodes_range ds : Forall (fun d => forall k j a l, k < j -> In (a, l) (dnodes k j d) -> a = k \/ j <= a < j + dsize d - 1) ds ->
  forall j a l, In (a, l) (fnodes j ds) -> j <= a < j + fsize ds.
Proof.
  induction 1 as [|d r D _ IH]; intros j a l I; cbn in I; [easy|]. cbn [fsize]. pose proof (dsize_pos d). pose proof (fsize_pos r).
  apply in_app_or in I. destruct I as [I|I].
  - apply D in I; lia.
  - apply IH in I. lia.
Qed.
Lemma dnodes_range : forall d k j a l, k < j -> In (a, l) (dnodes k j d) -> a = k \/ j <= a < j + dsize d - 1.
Proof.
  apply (drawing_ind' (fun d => forall k j a l, k < j -> In (a, l) (dnodes k j d) -> a = k \/ j <= a < j + dsize d - 1)).
  intros ls ds H k j a l L I. rewrite dnodes_eq in I. rewrite dsize_eq. apply in_app_or in I. destruct I as [I|I].
  - apply in_map_iff in I. destruct I as (x & E & _). injection E as -> ->. now left.
  - right. eapply fnodes_range in I; eauto. lia.
Qed.

Lemma drawn_tree d es : Permutation es (dedges 1 2 d) ->
  NoDup (map snd es) /\ (forall t, In t (map snd es) <-> 2 <= t <= dsize d) /\ (forall a b, In (a, b) es -> 1 <= a < b) /\
  (forall a l, In (a, l) (dnodes 1 2 d) -> 1 <= a <= dsize d).
Proof.
  intros P. pose proof (dsize_pos d). pose proof (Permutation_map snd P) as PM. rewrite dedges_targets in PM. repeat split.
  - eapply Permutation_NoDup; [apply Permutation_sym; exact PM|]. apply nodup_zseq.
  - apply (Permutation_in _ PM) in H0. apply in_zseq in H0. lia.
  - apply (Permutation_in _ PM) in H0. apply in_zseq in H0. lia.
  - intros L. apply (Permutation_in _ (Permutation_sym PM)). apply in_zseq. lia.
  - apply (Permutation_in _ P) in H0. apply dedges_down in H0; lia.
  - apply (Permutation_in _ P) in H0. apply dedges_down in H0; lia.
  - apply dnodes_range in H0; lia.
  - apply dnodes_range in H0; lia.
Qed.

(** * One way to read *)
Definition digit_b (c : Z) : Prop := 48 <= c <= 57.
Lemma decimal_digits z s : decimal z s -> Forall digit_b s.
Proof.
  induction 1 as [d D|q s d Q _ IH D]; [constructor; [unfold digit_b; lia|constructor]|]. apply Forall_app. split; [exact IH|].
  constructor; [unfold digit_b; lia|constructor].
Qed.
Lemma decimal_value z s : decimal z s -> fold_left (fun a c => 10 * a + (c - 48)) s 0 = z.
Proof. induction 1 as [d D|q s d Q _ IH D]; [cbn; lia|]. rewrite fold_left_app, IH. cbn. lia. Qed.

Lemma int_text_decimal z : 0 <= z < 2 ^ 63 -> decimal z (int_text z).
Proof.
  intros R. pose proof (int_text_shown z ltac:(lia)) as I. inversion I; subst; [assumption|].
  match goal with H : decimal _ _ |- _ => apply decimal_pos in H end. lia.
Qed.

Lemma span_unique (P : Z -> Prop) a : forall b x y r r', Forall P a -> Forall P b -> ~ P x -> ~ P y ->
  a ++ x :: r = b ++ y :: r' -> a = b /\ x :: r = y :: r'.
Proof.
  induction a as [|c a IH]; intros [|d b] x y r r' A B X Y E; cbn in E; auto.
  - injection E as -> _. inversion B; subst. contradiction.
  - injection E as <- _. inversion A; subst. contradiction.
  - injection E as <- E. inversion A; inversion B; subst. apply IH in E; auto. destruct E as [-> E]. auto.
Qed.

Lemma name_unique a b x y r r' : 0 <= a < 2 ^ 63 -> 0 <= b < 2 ^ 63 -> ~ digit_b x -> ~ digit_b y ->
  int_text a ++ x :: r = int_text b ++ y :: r' -> a = b /\ x :: r = y :: r'.
Proof.
  intros Ra Rb X Y E.
  pose proof (int_text_decimal a Ra) as Da. pose proof (int_text_decimal b Rb) as Db.
  destruct (span_unique digit_b _ _ _ _ _ _ (decimal_digits _ _ Da) (decimal_digits _ _ Db) X Y E) as [E1 E2]. split; [|exact E2].
  rewrite <- (decimal_value _ _ Da), <- (decimal_value _ _ Db), E1. reflexivity.
Qed.

(** Labels that come out of [escaped]. *)
Definition quotable (l : list Z) : Prop := exists s, l = escaped s.
Lemma plain_quotable l : plain l -> quotable l.
Proof.
  intros P. exists l. induction P as [|c r (N0 & N9 & N10 & N34 & N92) _ IH]; [reflexivity|]. cbn [escaped].
  rewrite (proj2 (Z.eqb_neq c 0)), (proj2 (Z.eqb_neq c 34)), (proj2 (Z.eqb_neq c 92)), (proj2 (Z.eqb_neq c 9)), (proj2 (Z.eqb_neq c 10)) by assumption.
  now rewrite <- IH.
Qed.

Ltac esc_cases c :=
  destruct (Z.eqb_spec c 0); [|destruct (Z.eqb_spec c 34); [|destruct (Z.eqb_spec c 92); [|destruct (Z.eqb_spec c 9); [|destruct (Z.eqb_spec c 10)]]]].
Lemma escaped_unique s : forall t r r', escaped s ++ 34 :: r = escaped t ++ 34 :: r' -> escaped s = escaped t /\ r = r'.
Proof.
  assert (NIL : forall t r r', 34 :: r = escaped t ++ 34 :: r' -> escaped t = [] /\ r = r').
  { intros [|c t] r r' E; cbn [escaped] in *; [injection E as ->; auto|].
    esc_cases c; cbn in E; try discriminate E; [injection E as ->; auto|injection E as E _; congruence]. }
  induction s as [|c s IH]; intros t r r' E.
  - cbn [escaped app] in E. apply NIL in E. destruct E as [-> ->]. auto.
  - destruct (Z.eqb_spec c 0) as [->|C0]; [cbn [escaped Z.eqb app] in *; apply NIL in E; destruct E as [-> ->]; auto|].
    destruct t as [|d t]; [symmetry in E; apply (NIL (c :: s)) in E; destruct E as [-> ->]; auto|].
    destruct (Z.eqb_spec d 0) as [->|D0]; [symmetry in E; apply (NIL (c :: s)) in E; destruct E as [-> ->]; auto|].
    cbn [escaped] in E |- *.
    esc_cases c; esc_cases d; subst; try contradiction; cbn [app] in E; try discriminate E; try (injection E; intros; congruence);
      injection E; intros EE; intros; subst; apply IH in EE; destruct EE as [-> ->]; auto.
Qed.

Lemma node_line_unique a l b m r r' : 0 <= a < 2 ^ 63 -> 0 <= b < 2 ^ 63 -> quotable l -> quotable m ->
  node_line a l ++ r = node_line b m ++ r' -> a = b /\ l = m /\ r = r'.
Proof.
  intros Ra Rb [s ->] [t ->] E. unfold node_line in E. cbn [app] in E. injection E as E. rewrite <- !app_assoc in E. cbn [bytes_of app] in E.
  apply name_unique in E; [|assumption|assumption|unfold digit_b; cbn; lia|unfold digit_b; cbn; lia]. destruct E as [-> E].
  injection E as E. rewrite <- !app_assoc in E. cbn [app] in E. apply escaped_unique in E. destruct E as [-> E]. injection E as ->. auto.
Qed.
Lemma edge_line_unique a b a' b' r r' : 0 <= a < 2 ^ 63 -> 0 <= b < 2 ^ 63 -> 0 <= a' < 2 ^ 63 -> 0 <= b' < 2 ^ 63 ->
  edge_line a b ++ r = edge_line a' b' ++ r' -> a = a' /\ b = b' /\ r = r'.
Proof.
  intros Ra Rb Ra' Rb' E. unfold edge_line in E. cbn [app] in E. injection E as E. rewrite <- !app_assoc in E. cbn [bytes_of app] in E.
  apply name_unique in E; [|assumption|assumption|unfold digit_b; cbn; lia|unfold digit_b; cbn; lia]. destruct E as [-> E].
  injection E as E. rewrite <- !app_assoc in E. cbn [app] in E.
  apply name_unique in E; [|assumption|assumption|unfold digit_b; lia|unfold digit_b; lia]. destruct E as [-> E]. injection E as ->. auto.
Qed.

Definition node_ok (p : Z * list Z) : Prop := 0 <= fst p < 2 ^ 63 /\ quotable (snd p).
Definition edge_ok (p : Z * Z) : Prop := (0 <= fst p < 2 ^ 63) /\ (0 <= snd p < 2 ^ 63).

Lemma edge_text_unique es : forall es' r r', Forall edge_ok es -> Forall edge_ok es' ->
  edge_text es ++ 125 :: r = edge_text es' ++ 125 :: r' -> es = es'.
Proof.
  induction es as [|[a b] es IH]; intros [|[a' b'] es'] r r' O O' E; auto; unfold edge_text in E; cbn [flat_map fst snd] in E.
  - unfold edge_line in E. discriminate E.
  - unfold edge_line in E. discriminate E.
  - inversion O as [|? ? [Oa Ob] OR]; inversion O' as [|? ? [Oa' Ob'] OR']; subst. cbn [fst snd] in *. rewrite <- !app_assoc in E.
    apply edge_line_unique in E; auto. destruct E as (-> & -> & E). f_equal. eapply IH; eauto.
Qed.
Lemma node_text_unique ns : forall ns' r r', Forall node_ok ns -> Forall node_ok ns' ->
  node_text ns ++ 10 :: r = node_text ns' ++ 10 :: r' -> ns = ns' /\ r = r'.
Proof.
  induction ns as [|[a l] ns IH]; intros [|[b m] ns'] r r' O O' E; unfold node_text in E; cbn [flat_map fst snd] in E.
  - injection E as ->. auto.
  - unfold node_line in E. discriminate E.
  - unfold node_line in E. discriminate E.
  - inversion O as [|? ? [Oa Ol] OR]; inversion O' as [|? ? [Ob Om] OR']; subst. cbn [fst snd] in *. rewrite <- !app_assoc in E.
    apply node_line_unique in E; auto. destruct E as (-> & -> & E). eapply IH in E; eauto. destruct E as [-> ->]. auto.
Qed.
Lemma dot_text_unique ns es ns' es' : Forall node_ok ns -> Forall node_ok ns' -> Forall edge_ok es -> Forall edge_ok es' ->
  dot_text ns es = dot_text ns' es' -> ns = ns' /\ es = es'.
Proof.
  intros A B C D E. unfold dot_text in E. apply app_inv_head in E. apply app_inv_head in E. cbn [app] in E.
  apply node_text_unique in E; auto. destruct E as [-> E]. split; [reflexivity|]. eapply edge_text_unique; eauto.
Qed.

(** * Labels of programs with plain names *)
Lemma digits_plain s : Forall digit_b s -> plain s.
Proof. apply Forall_impl. unfold digit_b. intros. lia. Qed.
Lemma int_text_plain z : - 2 ^ 63 <= z < 2 ^ 63 -> plain (int_text z).
Proof.
  intros R. pose proof (int_text_shown z R) as I. inversion I; subst.
  - apply digits_plain. eapply decimal_digits. eassumption.
  - constructor; [lia|]. apply digits_plain. eapply decimal_digits. eassumption.
Qed.
Lemma low32_range z : - 2 ^ 31 <= low32 z < 2 ^ 31.
Proof. unfold low32. pose proof (Z.mod_pos_bound (z + 2147483648) 4294967296 ltac:(lia)). lia. Qed.

(** All labels of a drawing. *)
Fixpoint all_labels (d : drawing) : list (list Z) :=
  match d with Dw ls ds => ls ++ flat_map all_labels ds end.
Lemma fnodes_labels ds : Forall (fun d => forall k j, map snd (dnodes k j d) = all_labels d) ds ->
  forall j, map snd (fnodes j ds) = flat_map all_labels ds.
Proof. induction 1 as [|d r D _ IH]; intros j; cbn [fnodes flat_map map]; [reflexivity|]. now rewrite map_app, D, IH. Qed.
Lemma dnodes_labels : forall d k j, map snd (dnodes k j d) = all_labels d.
Proof.
  apply (drawing_ind' (fun d => forall k j, map snd (dnodes k j d) = all_labels d)). intros ls ds H k j.
  rewrite dnodes_eq, map_app, map_map, fnodes_labels by exact H. cbn [all_labels snd]. f_equal. apply map_id.
Qed.

Definition lq (d : drawing) : Prop := Forall quotable (all_labels d).
Lemma lq_intro ls ds : Forall quotable ls -> Forall lq ds -> lq (Dw ls ds).
Proof.
  intros A B. unfold lq. cbn [all_labels]. apply Forall_app. split; [exact A|]. induction B as [|d r D _ IH]; cbn; [constructor|].
  apply Forall_app. auto.
Qed.
Lemma lq_one l : Forall lq l -> lq (one l).
Proof. intros H. destruct l as [|d [|e r]]; try (apply lq_intro; constructor). now inversion H. Qed.
Lemma quote_fixed l : forallb (fun c => negb (c =? 0) && negb (c =? 9) && negb (c =? 10) && negb (c =? 34) && negb (c =? 92)) l = true -> quotable l.
Proof.
  intros H. apply plain_quotable. apply Forall_forall. intros c I. rewrite forallb_forall in H. apply H in I.
  rewrite !andb_true_iff, !negb_true_iff, !Z.eqb_neq in I. tauto.
Qed.

Ltac lab := constructor; [|constructor]; first [apply quote_fixed; reflexivity | idtac].
Ltac lqs := repeat (constructor; [first [apply lq_one; assumption|assumption]|]); try constructor.
Lemma labels_quotable fg : (forall b, plain (fg b)) ->
  (forall e, Forall plain (names_e e) -> Forall lq (elems fg e)) /\
  (forall es, Forall plain (names_es es) -> Forall lq (items fg es)) /\
  (forall ps, Forall plain (names_m ps) -> Forall lq (entries fg ps)) /\
  (forall ps, Forall plain (names_p ps) -> Forall lq (parms fg ps)) /\
  (forall o, Forall plain (names_o o) -> Forall lq (opt fg o)) /\
  (forall s, Forall plain (names s) -> lq (spic fg s)) /\
  (forall ss, Forall plain (names_ss ss) -> Forall lq (spics fg ss)).
Proof.
  intros FG.
  assert (ONE : forall d, lq d -> Forall lq [d]) by (intros; constructor; auto).
  apply ast_ind; intros; cbn [elems GraphSpec.items entries parms opt spic spics] in *;
    cbn [names_e names_es names_m names_p names_o names names_ss] in *;
    repeat match goal with H : Forall plain (_ ++ _) |- _ => apply Forall_app in H; destruct H end;
    repeat match goal with H : Forall plain ?x -> _, K : Forall plain ?x |- _ => specialize (H K) end.
  all: try (apply ONE).
  all: try (apply lq_intro; [lab|lqs]; fail).
  - apply lq_intro; [|constructor]. lab. apply plain_quotable, int_text_plain. pose proof (low32_range z). lia.
  - apply lq_intro; [|constructor]. lab. apply plain_quotable, FG.
  - apply lq_intro; [|constructor]. lab. eexists. reflexivity.
  - apply lq_intro; [|constructor]. lab. apply plain_quotable. inversion H. assumption.
  - apply lq_intro; [|lqs]. lab. destruct op; apply quote_fixed; reflexivity.
  - apply lq_intro; [|lqs]. lab. destruct op; apply quote_fixed; reflexivity.
  - apply Forall_app. auto.
  - apply lq_intro; [lab|]. assumption.
  - apply lq_intro; [lab|]. assumption.
  - apply lq_intro; [lab|]. constructor; [now apply lq_one|]. apply Forall_rev. assumption.
  - apply lq_intro; [lab|]. constructor; [|lqs]. apply lq_intro; [lab|]. apply Forall_rev. assumption.
  - constructor.
  - constructor; [now apply lq_one|assumption].
  - constructor.
  - constructor; [|assumption]. apply lq_intro; [lab|lqs].
  - constructor.
  - inversion H2 as [|? ? X Y]; subst. repeat match goal with H : Forall plain (_ ++ _) |- _ => apply Forall_app in H; destruct H end.
    constructor; [|auto]. apply lq_intro; [|apply Forall_app; auto]. constructor; [now apply plain_quotable|constructor].
  - constructor.
  - now apply lq_one.
  - now apply lq_one.
  - apply lq_intro; [lab|]. assumption.
  - apply lq_intro; [lab|]. assumption.
  - inversion H1 as [|? ? X Y]; subst. repeat match goal with H : Forall plain (_ ++ _) |- _ => apply Forall_app in H; destruct H end.
    apply lq_intro.
    + constructor; [apply quote_fixed; reflexivity|]. constructor; [now apply plain_quotable|constructor].
    + constructor; [|constructor; [auto|constructor]]. apply lq_intro; [lab|]. apply Forall_rev. auto.
  - constructor.
  - constructor; auto.
Qed.
