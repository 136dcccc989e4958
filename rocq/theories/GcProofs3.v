From Coq Require Import ZArith List Lia Bool Permutation.
From Verif Require Import Base ListProofs GcModel GcSpec GcProofs GcProofs2.
Import ListNotations.
Open Scope Z_scope.

(** * Outcome of a collection *)
Lemma gc_total dok fuel h roots : hwf h -> (forall a, In (Some a) roots -> is_obj (h_mem h) a) -> (h_next h + 3 <= fuel)%nat ->
  exists h' roots' ok log, collect_garbage dok fuel h roots = GOk (h', roots', ok, log) /\
    (ok = true -> exists f live dead, gc_result h roots h' roots' log f live dead) /\
    (ok = false ->
      (exists l, NoDup l /\ (forall a, In a l -> reach (h_mem h) roots a /\ dynamic (h_mem h) a) /\ h_size h < total_cost (h_mem h) l) \/
      (exists a o, In a (h_pend h) /\ ~ reach (h_mem h) roots a /\ h_mem h a = Some (CObj o) /\ dok (o_data o) = false)).
Proof.
  intros W Hr Hf. destruct (gc_main dok fuel h roots W Hr Hf) as (h1 & roots' & E & A & h' & ok & log & E2 & B & C).
  unfold collect_garbage. rewrite E, E2. exists h', roots', ok, log. split; [reflexivity|]. split; [exact B|].
  intros Hok. destruct (C Hok) as [D|D]; [left; apply A; exact D|right; exact D].
Qed.

(** More fuel does not change the result. *)
Definition cr_mono (c1 c2 : heap -> option nat -> gres (heap * option nat)) : Prop :=
  forall h r x, c1 h r = GOk x -> c2 h r = GOk x.

Lemma walk_refs_mono c1 c2 (M : cr_mono c1 c2) is : forall h b x, walk_refs c1 h b is = GOk x -> walk_refs c2 h b is = GOk x.
Proof.
  induction is as [|i is IH]; intros h b x H; [exact H|]. cbn [walk_refs] in *.
  destruct (get_obj h b) as [o|]; [|exact H]. destruct (nth_error (o_refs o) i) as [s|]; [|exact H].
  destruct (c1 h s) as [[h1 s']| |] eqn:E; [|discriminate|discriminate]. rewrite (M _ _ _ E).
  destruct (get_obj h1 b); [|exact H]. apply IH. exact H.
Qed.

Lemma collect_children_mono c1 c2 (M : cr_mono c1 c2) h b x : collect_children c1 h b = GOk x -> collect_children c2 h b = GOk x.
Proof.
  unfold collect_children. destruct (get_obj h b) as [o|]; [|discriminate].
  destruct (Nat.eqb (o_type o) b).
  - destruct (walk_exts h (o_exts o)); [|discriminate|discriminate]. apply walk_refs_mono. exact M.
  - destruct (c1 h (Some (o_type o))) as [[h1 [t|]]| |] eqn:E; try discriminate. rewrite (M _ _ _ E).
    destruct (get_obj h1 b); [|discriminate]. destruct (walk_exts _ (o_exts o)); [|discriminate|discriminate]. apply walk_refs_mono. exact M.
Qed.

Lemma collect_mono n : forall k, cr_mono (collect n) (collect (n + k)).
Proof.
  induction n as [|n IH]; intros k h r x H; [discriminate|]. cbn [Nat.add collect] in *.
  destruct r as [a|]; [|exact H]. destruct (h_failed h); [exact H|]. destruct (h_mem h a) as [[o|]|]; [|exact H|exact H].
  destruct (o_static o).
  - destruct (collect_children (collect n) h a) eqn:E; try discriminate. rewrite (collect_children_mono _ _ (IH k) _ _ _ E). exact H.
  - destruct (raw_malloc h (o_size o)) as [h1 [ | | | ]]; try exact H.
    + match type of H with context [collect_children (collect n) ?hh ?b] => destruct (collect_children (collect n) hh b) eqn:E end; try discriminate.
      rewrite (collect_children_mono _ _ (IH k) _ _ _ E). exact H.
    + match type of H with context [collect_children (collect n) ?hh ?b] => destruct (collect_children (collect n) hh b) eqn:E end; try discriminate.
      rewrite (collect_children_mono _ _ (IH k) _ _ _ E). exact H.
Qed.

Lemma collect_roots_mono n k roots : forall h x, collect_roots n h roots = GOk x -> collect_roots (n + k) h roots = GOk x.
Proof.
  induction roots as [|r rs IH]; intros h x H; [exact H|]. cbn [collect_roots] in *.
  destruct (collect n h r) as [[h1 r']| |] eqn:E; try discriminate. rewrite (collect_mono n k _ _ _ E).
  destruct (collect_roots n h1 rs) as [[h2 rs']| |] eqn:E2; try discriminate. rewrite (IH _ _ E2). exact H.
Qed.

Lemma collect_garbage_mono dok n k h roots x : collect_garbage dok n h roots = GOk x -> collect_garbage dok (n + k) h roots = GOk x.
Proof.
  unfold collect_garbage. intros H. destruct (collect_roots n (start_collection h) roots) as [[h1 r]| |] eqn:E; try discriminate.
  rewrite (collect_roots_mono n k _ _ _ E). exact H.
Qed.

Lemma gc_any_fuel dok fuel h roots h' roots' ok log : hwf h -> (forall a, In (Some a) roots -> is_obj (h_mem h) a) ->
  collect_garbage dok fuel h roots = GOk (h', roots', ok, log) ->
    (ok = true -> exists f live dead, gc_result h roots h' roots' log f live dead) /\
    (ok = false ->
      (exists l, NoDup l /\ (forall a, In a l -> reach (h_mem h) roots a /\ dynamic (h_mem h) a) /\ h_size h < total_cost (h_mem h) l) \/
      (exists a o, In a (h_pend h) /\ ~ reach (h_mem h) roots a /\ h_mem h a = Some (CObj o) /\ dok (o_data o) = false)).
Proof.
  intros W Hr E. apply (collect_garbage_mono _ _ (h_next h + 3)) in E.
  destruct (gc_total dok (fuel + (h_next h + 3)) h roots W Hr) as (h2 & r2 & ok2 & l2 & E2 & A & B); [lia|].
  rewrite E in E2. injection E2 as <- <- <- <-. auto.
Qed.

(** * Sums over live objects *)
Lemma copy_cost_pos o : 0 <= o_size o -> Forall (fun s => 0 <= s <= 2 ^ 29) (o_exts o) -> 0 <= copy_cost o.
Proof.
  intros H F. unfold copy_cost. assert (0 <= fold_right (fun s n => s + 7 + n) 0 (o_exts o)); [|lia].
  induction F; cbn [fold_right]; [lia|]. lia.
Qed.

Lemma total_cost_incl mem (Hpos : forall a, 0 <= cost_at mem a) l : forall l', NoDup l -> (forall a, In a l -> In a l') ->
  total_cost mem l <= total_cost mem l'.
Proof.
  induction l as [|a l IH]; intros l' ND HI.
  - cbn. clear HI ND. induction l' as [|b l' IH]; cbn; [lia|]. specialize (Hpos b). unfold total_cost in IH. lia.
  - inversion ND as [|? ? Hn ND']; subst. destruct (in_split a l' (HI a (or_introl eq_refl))) as (l1 & l2 & ->).
    assert (total_cost mem (l1 ++ a :: l2) = cost_at mem a + total_cost mem (l1 ++ l2)).
    { clear. induction l1 as [|b l1 IH]; [reflexivity|]. cbn [app total_cost fold_right] in *. unfold total_cost in *. lia. }
    rewrite H. cbn [total_cost fold_right]. fold (total_cost mem l).
    assert (total_cost mem l <= total_cost mem (l1 ++ l2)); [|lia]. apply IH; [exact ND'|].
    intros x Hx. specialize (HI x (or_intror Hx)). apply in_app_iff in HI. apply in_app_iff. destruct HI as [HI|[HI|HI]]; auto. subst. contradiction.
Qed.

Lemma cost_pos h : hwf h -> forall a, 0 <= cost_at (h_mem h) a.
Proof.
  intros W a. unfold cost_at. destruct (h_mem h a) as [[o|]|] eqn:E; try lia. destruct (w_sizes _ W _ _ E). apply copy_cost_pos; [lia|assumption].
Qed.

(** * Histories *)
Lemma free_pend_spec mem l : (forall a, In a l -> is_obj mem a) -> free_pend mem l = GOk (deads mem l).
Proof.
  induction l as [|a l IH]; intros H; [reflexivity|]. cbn [free_pend]. destruct (H a (or_introl eq_refl)) as (o & E).
  unfold deads. cbn [flat_map]. rewrite E. rewrite IH; [reflexivity|]. intros x Hx. apply H. right. exact Hx.
Qed.

Lemma heap_free_spec h : hwf h -> heap_free h = GOk (deads (h_mem h) (h_pend h)).
Proof. intros W. apply free_pend_spec. intros a Ha. apply (w_pend_iff _ W) in Ha. destruct Ha as (o & E & _). exists o. exact E. Qed.

Lemma raw_malloc_fields h s h1 p : raw_malloc h s = (h1, p) ->
  h_mem h1 = h_mem h /\ h_next h1 = h_next h /\ h_size h1 = h_size h /\ h_pend h1 = h_pend h /\ h_collecting h1 = h_collecting h.
Proof.
  unfold raw_malloc. destruct (_ <? _); [intros [= <- <-]; auto|]. destruct (_ <? _); [destruct (h_collecting h) eqn:E|]; intros [= <- <-]; cbn; auto.
Qed.

Lemma deads_perm mem l l' : Permutation l l' -> Permutation (deads mem l) (deads mem l').
Proof. apply Permutation_flat_map. Qed.

Lemma deads_ext mem mem' l : (forall a, In a l -> mem a = mem' a) -> deads mem l = deads mem' l.
Proof.
  induction l as [|a l IH]; intros H; [reflexivity|]. unfold deads in *. cbn [flat_map]. rewrite (H a (or_introl eq_refl)), IH; [reflexivity|].
  intros x Hx. apply H. right. exact Hx.
Qed.

Lemma deads_app mem l l' : deads mem (l ++ l') = deads mem l ++ deads mem l'.
Proof. unfold deads. apply flat_map_app. Qed.

Lemma deads_map mem mem' (f : nat -> nat) l : (forall a, In a l -> exists o o', mem a = Some (CObj o) /\ mem' (f a) = Some (CObj o') /\ o_data o' = o_data o) ->
  deads mem' (map f l) = deads mem l.
Proof.
  induction l as [|a l IH]; intros H; [reflexivity|]. unfold deads in *. cbn [map flat_map].
  destruct (H a (or_introl eq_refl)) as (o & o' & -> & -> & ->). rewrite IH; [reflexivity|]. intros x Hx. apply H. right. exact Hx.
Qed.

Lemma filter_split {A} (p : A -> bool) l : Permutation l (filter p l ++ filter (fun x => negb (p x)) l).
Proof.
  induction l as [|a l IH]; [reflexivity|]. cbn [filter]. destruct (p a); cbn [negb app].
  - constructor. exact IH.
  - apply Permutation_cons_app. exact IH.
Qed.

Lemma obj_dec mem a : {is_obj mem a} + {~ is_obj mem a}.
Proof. unfold is_obj. destruct (mem a) as [[o|]|]; [left; eauto|right; intros (? & ?); discriminate|right; intros (? & ?); discriminate]. Qed.

Lemma alloc_hwf h o h' a : hwf h -> obj_ok h o -> heap_malloc h o = Some (h', a) ->
  hwf h' /\ h_mem h' a = Some (CObj o) /\ (forall x, x <> a -> h_mem h' x = h_mem h x) /\ h_mem h a = None /\
  h_pend h' = if o_dtor o then h_pend h ++ [a] else h_pend h.
Proof.
  intros W (S & T & R & Sz & Ex) H. unfold heap_malloc in H. destruct (raw_malloc h (o_size o)) as [h1 p] eqn:E.
  destruct (raw_malloc_fields _ _ _ _ E) as (F1 & F2 & F3 & F4 & F5).
  assert (HH : (mkheap (fun x => if Nat.eqb x (h_next h1) then Some (CObj o) else h_mem h1 x) (Datatypes.S (h_next h1)) (h_size h1) (h_used h1) (h_total h1)
      (h_objcount h1 + 1) (if o_dtor o then h_pend h1 ++ [h_next h1] else h_pend h1) (h_collecting h1) (h_failed h1) (h_moved h1)
      (h_oldnext h1), h_next h1) = (h', a)) by (destruct p; congruence). clear H E.
  rewrite F1, F2, F3, F4, F5 in HH. injection HH as <- <-. cbn [h_mem h_pend].
  assert (FR : h_mem h (h_next h) = None) by (destruct (h_mem h (h_next h)) eqn:E; [apply (w_lt _ W) in E; lia|reflexivity]).
  rewrite Nat.eqb_refl. split; [|split; [reflexivity|split; [|split; [exact FR|reflexivity]]]].
  2:{ intros x Hx. destruct (Nat.eqb_spec x (h_next h)); [contradiction|reflexivity]. }
  assert (KO : forall b, is_obj (h_mem h) b -> is_obj (fun x => if Nat.eqb x (h_next h) then Some (CObj o) else h_mem h x) b).
  { intros b (ob & Eb). exists ob. destruct (Nat.eqb_spec b (h_next h)); [congruence|exact Eb]. }
  constructor; cbn [h_mem h_next h_size h_pend h_collecting].
  - intros x c. destruct (Nat.eqb_spec x (h_next h)); [lia|]. intros Hx. apply (w_lt _ W) in Hx. lia.
  - intros x c Hx. destruct (Nat.eqb_spec x (h_next h)) as [->|N]; [exists o; rewrite Nat.eqb_refl; reflexivity|]. apply KO. apply (w_obj _ W _ _ Hx).
  - intros x ox. destruct (Nat.eqb_spec x (h_next h)) as [->|N]; [intros [= <-]; apply KO; exact T|]. intros Hx. apply KO. apply (w_type _ W _ _ Hx).
  - intros x ox b. destruct (Nat.eqb_spec x (h_next h)) as [->|N]; [intros [= <-] Hb; apply KO; apply R; exact Hb|]. intros Hx Hb. apply KO. apply (w_refs _ W _ _ _ Hx Hb).
  - intros x ox. destruct (Nat.eqb_spec x (h_next h)) as [->|N]; [intros [= <-]; congruence|]. intros Hx Sx.
    destruct (w_static _ W _ _ Hx Sx) as (B1 & B2 & B3 & ot & B4 & B5). repeat (split; [assumption|]). exists ot.
    destruct (Nat.eqb_spec (o_type ox) (h_next h)); [congruence|]. auto.
  - apply (w_size _ W).
  - intros x ox. destruct (Nat.eqb_spec x (h_next h)) as [->|N]; [intros [= <-]; auto|]. apply (w_sizes _ W).
  - destruct (o_dtor o); [|apply (w_pend _ W)]. apply (Permutation_NoDup (Permutation_cons_append _ _)). constructor; [|apply (w_pend _ W)].
    intros Hi. apply (w_pend_iff _ W) in Hi. destruct Hi as (ox & Ex' & _). congruence.
  - intros x. destruct (Nat.eqb_spec x (h_next h)) as [->|N].
    + destruct (o_dtor o) eqn:D.
      * split; [intros _; exists o; auto|]. intros _. apply in_app_iff. right. left. reflexivity.
      * split; [|intros (ox & [= <-] & _ & D'); congruence]. intros Hi. apply (w_pend_iff _ W) in Hi. destruct Hi as (ox & Ex' & _). congruence.
    + rewrite <- (w_pend_iff _ W). destruct (o_dtor o); [|reflexivity]. rewrite in_app_iff. cbn. intuition congruence.
  - apply (w_coll _ W).
Qed.

Lemma write_hwf h a o o' : hwf h -> h_mem h a = Some (CObj o) -> o_static o = false -> obj_ok h o' -> o_dtor o' = o_dtor o ->
  hwf (set_mem h a (CObj o')).
Proof.
  intros W Ha Sa (S & T & R & Sz & Ex) D.
  assert (KO : forall b, is_obj (h_mem h) b -> is_obj (fun x => if Nat.eqb x a then Some (CObj o') else h_mem h x) b).
  { intros b (ob & Eb). destruct (Nat.eqb_spec b a) as [->|N]; [exists o'; rewrite Nat.eqb_refl; reflexivity|]. exists ob.
    destruct (Nat.eqb_spec b a); [contradiction|exact Eb]. }
  constructor; cbn [set_mem h_mem h_next h_size h_pend h_collecting].
  - intros x c. destruct (Nat.eqb_spec x a) as [->|N]; [intros _; apply (w_lt _ W _ _ Ha)|]. apply (w_lt _ W).
  - intros x c Hx. destruct (Nat.eqb_spec x a) as [->|N]; [exists o'; rewrite Nat.eqb_refl; reflexivity|]. apply KO. apply (w_obj _ W _ _ Hx).
  - intros x ox. destruct (Nat.eqb_spec x a) as [->|N]; [intros [= <-]; apply KO; exact T|]. intros Hx. apply KO. apply (w_type _ W _ _ Hx).
  - intros x ox b. destruct (Nat.eqb_spec x a) as [->|N]; [intros [= <-] Hb; apply KO; apply R; exact Hb|]. intros Hx Hb. apply KO. apply (w_refs _ W _ _ _ Hx Hb).
  - intros x ox. destruct (Nat.eqb_spec x a) as [->|N]; [intros [= <-]; congruence|]. intros Hx Sx.
    destruct (w_static _ W _ _ Hx Sx) as (B1 & B2 & B3 & ot & B4 & B5 & B6). repeat (split; [assumption|]). exists ot.
    destruct (Nat.eqb_spec (o_type ox) a) as [E|]; [rewrite E in B4; congruence|]. auto.
  - apply (w_size _ W).
  - intros x ox. destruct (Nat.eqb_spec x a) as [->|N]; [intros [= <-]; auto|]. apply (w_sizes _ W).
  - apply (w_pend _ W).
  - intros x. rewrite (w_pend_iff _ W). destruct (Nat.eqb_spec x a) as [->|N]; [|reflexivity]. split.
    + intros (ox & E & _ & Dx). exists o'. rewrite Ha in E. injection E as <-. rewrite D. auto.
    + intros (ox & E & _ & Dx). injection E as <-. exists o. rewrite <- D. auto.
  - apply (w_coll _ W).
Qed.

Theorem history_spec dok h born log : history dok h born log -> hwf h /\ Permutation (log ++ deads (h_mem h) (h_pend h)) born.
Proof.
  induction 1 as [size mem n Hs Hst|h born log o h' a _ [W P] Ho E|h born log a o o' _ [W P] Ha Sa Ho D Dt|h born log roots fuel h' roots' l _ [W P] Hr E].
  - split; [|constructor]. constructor; cbn.
    + intros a c Hc. apply (Hst a c Hc).
    + intros a c Hc. destruct (Hst a c Hc) as (_ & o & -> & _). exists o. exact Hc.
    + intros a o Hc. destruct (Hst a _ Hc) as (_ & o' & [= <-] & _ & _ & _ & _ & _ & ot & E & _). exists ot. exact E.
    + intros a o b Hc Hb. destruct (Hst a _ Hc) as (_ & o' & [= <-] & _ & R & _). rewrite R in Hb. contradiction.
    + intros a o Hc _. destruct (Hst a _ Hc) as (_ & o' & [= <-] & _ & A & B & C & _ & D). auto.
    + destruct (Z.ltb_spec size 0); cbn; lia.
    + intros a o Hc. destruct (Hst a _ Hc) as (_ & o' & [= <-] & _ & A & B & C & D & _). rewrite B. auto.
    + constructor.
    + intros a. split; [contradiction|]. intros (o & E & S & _). destruct (Hst a _ E) as (_ & o' & [= <-] & S' & _). congruence.
    + reflexivity.
  - destruct (alloc_hwf _ _ _ _ W Ho E) as (W' & Ea & Ex & En & Ep). split; [exact W'|]. rewrite Ep.
    assert (EQ : deads (h_mem h') (h_pend h) = deads (h_mem h) (h_pend h)).
    { apply deads_ext. intros x Hx. apply Ex. intros ->. apply (w_pend_iff _ W) in Hx. destruct Hx as (ox & E' & _). congruence. }
    destruct (o_dtor o); [|rewrite EQ; exact P]. rewrite deads_app, EQ. unfold deads at 2. cbn [flat_map]. rewrite Ea. cbn [app].
    rewrite app_assoc. rewrite <- Permutation_cons_append. constructor. exact P.
  - split; [eapply write_hwf; eassumption|]. cbn [set_mem h_mem h_pend].
    replace (deads (fun x => if Nat.eqb x a then Some (CObj o') else h_mem h x) (h_pend h)) with (deads (h_mem h) (h_pend h)); [exact P|].
    pose proof (w_pend_iff _ W) as PI. revert PI. clear -Ha D Dt.
    assert (forall l, (forall x, In x l -> exists o, h_mem h x = Some (CObj o) /\ o_dtor o = true) ->
      deads (h_mem h) l = deads (fun x => if Nat.eqb x a then Some (CObj o') else h_mem h x) l).
    { induction l as [|x l IH]; intros HH; [reflexivity|]. unfold deads in *. cbn [flat_map].
      rewrite IH by (intros y Hy; apply HH; right; exact Hy). f_equal. destruct (Nat.eqb_spec x a) as [->|N]; [|reflexivity].
      destruct (HH a (or_introl eq_refl)) as (ox & Ex & Dx). rewrite Ha in Ex. injection Ex as <-. rewrite Ha, (Dt Dx). reflexivity. }
    intros PI. apply H. intros x Hx. apply PI in Hx. destruct Hx as (ox & E & _ & Dx). exists ox. auto.
  - destruct (gc_any_fuel _ _ _ _ _ _ _ _ W Hr E) as [A _]. destruct (A eq_refl) as (f & live & dead & G).
    split; [apply (r_wf _ _ _ _ _ _ _ _ G)|]. rewrite <- P. rewrite <- app_assoc. apply Permutation_app_head.
    rewrite (r_log _ _ _ _ _ _ _ _ G). rewrite (deads_perm _ _ _ (r_pend _ _ _ _ _ _ _ _ G)).
    rewrite (deads_map (h_mem h)).
    + rewrite Permutation_app_comm, <- deads_app. apply deads_perm. rewrite (r_dead _ _ _ _ _ _ _ _ G).
      symmetry. rewrite (filter_split (fun a => if in_dec Nat.eq_dec a live then true else false) (h_pend h)) at 1.
      apply Permutation_app_head. apply Permutation_refl'. apply filter_ext. intros a. destruct (in_dec Nat.eq_dec a live); reflexivity.
    + intros a Ha. apply filter_In in Ha. destruct Ha as [_ Ha]. destruct (in_dec Nat.eq_dec a live) as [Hi|]; [|discriminate].
      apply (r_live _ _ _ _ _ _ _ _ G) in Hi. destruct Hi as [Hi (o & Eo & So)]. exists o, (rename f o).
      split; [exact Eo|]. split; [apply (r_copy _ _ _ _ _ _ _ _ G _ _ Hi Eo)|reflexivity].
Qed.

(** * Raw allocation *)
Lemma raw_run_spec sizes : forall h, 0 <= h_used h <= h_size h -> h_size h <= 2 ^ 29 -> Forall (fun s => 0 <= s <= 2 ^ 29) sizes ->
  Forall (fun x => snd x <> PUB /\ (snd x = PRefused -> h_collecting h = true) /\ (snd x = POflow -> h_collecting h = false)) (raw_run h sizes) /\
  Forall (fun b => h_used h <= fst b /\ fst b mod 8 = 0 /\ fst b + snd b <= h_size h) (pool_blocks (raw_run h sizes)) /\
  ForallOrdPairs apart (pool_blocks (raw_run h sizes)).
Proof.
  induction sizes as [|s sizes IH]; intros h Hu Hs F; [cbn; repeat constructor|]. inversion F as [|? ? F1 F2]; subst.
  pose proof (up8_spec (h_used h)) as U. cbn [raw_run].
  destruct (raw_malloc h s) as [h1 p] eqn:E. unfold raw_malloc in E.
  destruct (Z.ltb_spec 2147483647 (up8 (h_used h) + s)); [lia|].
  destruct (Z.ltb_spec (h_size h) (up8 (h_used h) + s)).
  - assert (Q : h_collecting h1 = h_collecting h /\ h_size h1 = h_size h /\ h_used h1 = up8 (h_used h) /\ p = if h_collecting h then PRefused else POflow)
      by (destruct (h_collecting h) eqn:C; injection E as <- <-; auto).
    destruct Q as (Q1 & Q2 & Q3 & Q4).
    destruct (Z.le_gt_cases (h_used h1) (h_size h1)) as [L|L].
    + destruct (IH h1) as (I1 & I2 & I3); [lia|lia|exact F2|]. rewrite Q1 in I1.
      assert (PB : pool_blocks ((s, p) :: raw_run h1 sizes) = pool_blocks (raw_run h1 sizes)) by (rewrite Q4; destruct (h_collecting h); reflexivity).
      rewrite PB. split; [|split; [|exact I3]].
      * constructor; [|exact I1]. cbn. rewrite Q4. destruct (h_collecting h); repeat split; congruence.
      * eapply Forall_impl; [|exact I2]. cbn. intros b. lia.
    + (* the pool is full to the last few bytes: nothing else fits *)
      assert (ST : forall l h2, Forall (fun s => 0 <= s <= 2 ^ 29) l -> h_size h2 < h_used h2 -> h_used h2 <= 2 ^ 29 + 8 -> h_used h2 mod 8 = 0 -> h_size h2 = h_size h -> h_collecting h2 = h_collecting h ->
        pool_blocks (raw_run h2 l) = [] /\ Forall (fun x => snd x <> PUB /\ (snd x = PRefused -> h_collecting h = true) /\ (snd x = POflow -> h_collecting h = false)) (raw_run h2 l)).
      { induction l as [|t l IHl]; intros h2 Fl L1 L2 M S2 C2; [cbn; auto|]. inversion Fl as [|? ? Fa Fb]; subst. cbn [raw_run].
        destruct (raw_malloc h2 t) as [h3 q] eqn:E3. unfold raw_malloc in E3.
        assert (U8 : up8 (h_used h2) = h_used h2) by (unfold up8; rewrite M; reflexivity). rewrite U8 in E3.
        destruct (Z.ltb_spec 2147483647 (h_used h2 + t)); [lia|]. destruct (Z.ltb_spec (h_size h2) (h_used h2 + t)); [|lia].
        assert (R : h_collecting h3 = h_collecting h2 /\ h_size h3 = h_size h2 /\ h_used h3 = h_used h2 /\ q = if h_collecting h2 then PRefused else POflow)
          by (destruct (h_collecting h2) eqn:C; injection E3 as <- <-; auto).
        destruct R as (R1 & R2 & R3 & R4). destruct (IHl h3) as [J1 J2]; try congruence; try lia.
        split.
        - unfold pool_blocks in *. cbn [flat_map]. rewrite J1, R4. destruct (h_collecting h2); reflexivity.
        - constructor; [|exact J2]. cbn. rewrite R4, C2. destruct (h_collecting h); repeat split; congruence. }
      destruct (ST sizes h1 F2) as [J1 J2]; try congruence; try lia.
      assert (PB : pool_blocks ((s, p) :: raw_run h1 sizes) = []) by (unfold pool_blocks in *; cbn [flat_map]; rewrite J1, Q4; destruct (h_collecting h); reflexivity).
      rewrite PB. split; [|split; constructor]. constructor; [|exact J2]. cbn. rewrite Q4. destruct (h_collecting h); repeat split; congruence.
  - injection E as <- <-. destruct (IH (set_space h (up8 (h_used h) + s) (h_total h + (s + (up8 (h_used h) - h_used h))))) as (I1 & I2 & I3);
      [cbn; lia|cbn; lia|exact F2|]. cbn [set_space h_used h_size h_collecting] in *.
    match goal with |- context [raw_run ?hh sizes] => set (rr := raw_run hh sizes) in * end.
    change (pool_blocks ((s, PPool (up8 (h_used h))) :: rr)) with ((up8 (h_used h), s) :: pool_blocks rr).
    split; [|split].
    + constructor; [|exact I1]. cbn. repeat split; discriminate.
    + constructor; [cbn; lia|]. eapply Forall_impl; [|exact I2]. cbn. intros b. lia.
    + constructor; [|exact I3]. eapply Forall_impl; [|exact I2]. cbn. intros b Hb. left. cbn. lia.
Qed.
