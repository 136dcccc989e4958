From Coq Require Import ZArith List Lia Bool Permutation.
From Verif Require Import Base ListProofs GcModel GcSpec.
Import ListNotations.
Open Scope Z_scope.

Ltac Zify.zify_post_hook ::= Z.div_mod_to_equations.

Lemma up8_spec x : up8 x mod 8 = 0 /\ x <= up8 x <= x + 7.
Proof. unfold up8. destruct (Z.eqb_spec (x mod 8) 0); lia. Qed.

(** Position of an element. *)
Fixpoint index (a : nat) (l : list nat) : option nat :=
  match l with [] => None | x :: r => if Nat.eqb a x then Some 0%nat else option_map S (index a r) end.

Lemma index_nth l : NoDup l -> forall i a, nth_error l i = Some a -> index a l = Some i.
Proof.
  induction 1 as [|x l Hx H IH]; intros [|i] a; cbn [nth_error index]; try discriminate.
  - intros [= ->]. rewrite Nat.eqb_refl. reflexivity.
  - intros Hi. destruct (Nat.eqb_spec a x) as [->|N].
    + apply nth_error_In in Hi. contradiction.
    + rewrite (IH i a Hi). reflexivity.
Qed.
Lemma index_some l a i : index a l = Some i -> nth_error l i = Some a.
Proof.
  revert i. induction l as [|x l IH]; intros i; cbn [index]; [discriminate|].
  destruct (Nat.eqb_spec a x) as [->|N]; [intros [= <-]; reflexivity|].
  destruct (index a l) eqn:E; [|discriminate]. intros [= <-]. cbn. auto.
Qed.
Lemma index_none l a : ~ In a l -> index a l = None.
Proof. intros H. destruct (index a l) eqn:E; [|reflexivity]. apply index_some, nth_error_In in E. contradiction. Qed.
Lemma index_in l a : In a l -> exists i, index a l = Some i /\ nth_error l i = Some a.
Proof.
  intros H. destruct (index a l) eqn:E; [exists n; split; [reflexivity|apply index_some; assumption]|].
  exfalso. induction l as [|x l IH]; [contradiction|]. cbn [index] in E. destruct (Nat.eqb_spec a x) as [->|N]; [discriminate|].
  destruct H as [->|H]; [contradiction|]. destruct (index a l); [discriminate|]. auto.
Qed.
Lemma index_app l e a : In a l -> index a (l ++ e) = index a l.
Proof.
  induction l as [|x l IH]; intros H; [contradiction|]. cbn [app index]. destruct (Nat.eqb_spec a x) as [->|N]; [reflexivity|].
  destruct H as [->|H]; [contradiction|]. rewrite IH by assumption. reflexivity.
Qed.

Lemma get_obj_eq h a o : h_mem h a = Some (CObj o) -> get_obj h a = Some o.
Proof. unfold get_obj. intros ->. reflexivity. Qed.

Lemma with_type_same o : with_type o (o_type o) = o.
Proof. destruct o. reflexivity. Qed.

Lemma upd_skipn {B} (l : list B) i x : skipn (S i) (upd l i x) = skipn (S i) l.
Proof. revert i. induction l as [|a l IH]; intros [|i]; try reflexivity. cbn [upd]. cbn [skipn]. apply IH. Qed.

Lemma skipn_nth {B} (l : list B) i x r : skipn i l = x :: r -> nth_error l i = Some x /\ skipn (S i) l = r.
Proof.
  revert i. induction l as [|a l IH]; intros [|i]; cbn [skipn nth_error]; try discriminate.
  - intros [= -> ->]. auto.
  - apply IH.
Qed.

Section Collect.
Variable h0 : heap.
Variable Live : nat -> Prop.
Variable objs0 : list nat.
Let n0 := h_next h0.
Let mem0 := h_mem h0.
Hypothesis Hlt : forall a c, mem0 a = Some c -> (a < n0)%nat.
Hypothesis Htype : forall a o, mem0 a = Some (CObj o) -> is_obj mem0 (o_type o).
Hypothesis Hrefs : forall a o b, mem0 a = Some (CObj o) -> In (Some b) (o_refs o) -> is_obj mem0 b.
Hypothesis Hst : forall a o, mem0 a = Some (CObj o) -> o_static o = true -> o_refs o = [] /\ o_exts o = [] /\
  exists ot, mem0 (o_type o) = Some (CObj ot) /\ o_static ot = true /\ o_type ot = o_type o.
Hypothesis Hsize : 0 <= h_size h0 <= 2 ^ 29.
Hypothesis Hsizes : forall a o, mem0 a = Some (CObj o) -> 0 <= o_size o <= 2 ^ 29 /\ Forall (fun s => 0 <= s <= 2 ^ 29) (o_exts o).
Hypothesis Hobjs : forall a, dynamic mem0 a -> In a objs0.
Hypothesis Llive_type : forall a o, Live a -> mem0 a = Some (CObj o) -> Live (o_type o).
Hypothesis Llive_ref : forall a o b, Live a -> mem0 a = Some (CObj o) -> In (Some b) (o_refs o) -> Live b.

Definition fmap (order : list nat) (a : nat) : nat := match index a order with Some i => (n0 + i)%nat | None => a end.
Definition static0 (a : nat) : Prop := exists o, mem0 a = Some (CObj o) /\ o_static o = true.
Definition done (order : list nat) (c : nat) : Prop := In c order \/ static0 c.

Definition csum (l : list nat) : Z := total_cost mem0 l.
Definition overfull : Prop := exists l, NoDup l /\ (forall a, In a l -> dynamic mem0 a /\ Live a) /\ h_size h0 < csum l.

Record Gst (order : list nat) (h : heap) : Prop := {
  g_next : h_next h = (n0 + length order)%nat;
  g_moved : h_moved h = Z.of_nat (length order);
  g_nd : NoDup order;
  g_dyn : forall a, In a order -> dynamic mem0 a /\ Live a;
  g_mv : forall i a, nth_error order i = Some a -> h_mem h a = Some (CMoved (n0 + i));
  g_old : forall a, (a < n0)%nat -> ~ In a order -> h_mem h a = mem0 a;
  g_new : forall a, (n0 + length order <= a)%nat -> h_mem h a = None;
  g_size : h_size h = h_size h0;
  g_coll : h_collecting h = true;
  g_pend : h_pend h = h_pend h0;
  g_oldnext : h_oldnext h = n0;
  g_used : 0 <= h_used h /\ up8 (h_used h) <= h_size h0 + 7
}.

Definition black (h : heap) (order : list nat) (a : nat) : Prop :=
  exists o, mem0 a = Some (CObj o) /\ h_mem h (fmap order a) = Some (CObj (rename (fmap order) o)) /\
    done order (o_type o) /\ forall c, In (Some c) (o_refs o) -> done order c.

Lemma csum_app l e : csum (l ++ e) = csum l + csum e.
Proof. unfold csum. induction l as [|a l IH]; [reflexivity|]. cbn [app total_cost fold_right]. fold (total_cost mem0 (l ++ e)) (total_cost mem0 l). lia. Qed.

Lemma ext_cost_pos l : Forall (fun s => 0 <= s <= 2 ^ 29) l -> 0 <= fold_right (fun s n => (s + 7) + n) 0 l.
Proof. induction 1; cbn [fold_right]; lia. Qed.

Lemma cost_pos a : 0 <= cost_at mem0 a.
Proof.
  unfold cost_at. destruct (mem0 a) as [[o|]|] eqn:E; try lia. unfold copy_cost. destruct (Hsizes _ _ E) as [A B].
  apply ext_cost_pos in B. lia.
Qed.
Lemma csum_pos l : 0 <= csum l.
Proof. unfold csum. induction l as [|a l IH]; [cbn; lia|]. cbn [total_cost fold_right]. fold (total_cost mem0 l). pose proof (cost_pos a). lia. Qed.

Lemma static_not_in order h c : Gst order h -> static0 c -> ~ In c order.
Proof.
  intros G (o & E & S) H. destruct (g_dyn _ _ G c H) as [(o' & E' & S') _]. rewrite E in E'. injection E' as <-. congruence.
Qed.

Lemma fmap_in order h i a : Gst order h -> nth_error order i = Some a -> fmap order a = (n0 + i)%nat.
Proof. intros G H. unfold fmap. rewrite (index_nth _ (g_nd _ _ G) _ _ H). reflexivity. Qed.
Lemma fmap_static order h c : Gst order h -> static0 c -> fmap order c = c.
Proof. intros G H. unfold fmap. rewrite index_none; [reflexivity|]. eapply static_not_in; eassumption. Qed.

Lemma fmap_ext order ext h c : Gst (order ++ ext) h -> done order c -> fmap (order ++ ext) c = fmap order c.
Proof.
  intros G [H|H].
  - unfold fmap. rewrite index_app by assumption. reflexivity.
  - rewrite (fmap_static _ _ _ G H). unfold fmap. rewrite index_none; [reflexivity|].
    intros Hc. apply (static_not_in _ _ c G H). apply in_or_app. left. assumption.
Qed.
Lemma done_ext order ext c : done order c -> done (order ++ ext) c.
Proof. intros [H|H]; [left; apply in_or_app; left; assumption|right; assumption]. Qed.

Lemma rename_ext order ext h o : Gst (order ++ ext) h -> done order (o_type o) -> (forall c, In (Some c) (o_refs o) -> done order c) ->
  rename (fmap (order ++ ext)) o = rename (fmap order) o.
Proof.
  intros G H1 H2. unfold rename. f_equal.
  - eapply fmap_ext; eassumption.
  - apply map_ext_in. intros [c|] Hc; [|reflexivity]. cbn. f_equal. eapply fmap_ext; eauto.
Qed.

Lemma black_ext order ext h h' a : Gst order h -> Gst (order ++ ext) h' -> In a order ->
  (forall i, nth_error order i = Some a -> h_mem h' (n0 + i) = h_mem h (n0 + i)) -> black h order a -> black h' (order ++ ext) a.
Proof.
  intros G G' Ha Hf (o & E & M & D1 & D2). exists o. split; [exact E|].
  destruct (index_in _ _ Ha) as (i & Ei & Ni).
  split; [|split; [apply done_ext; assumption|intros; apply done_ext; auto]].
  rewrite (fmap_ext _ _ _ _ G' (or_introl Ha)), (rename_ext _ _ _ _ G' D1 D2).
  rewrite (fmap_in _ _ _ _ G Ni) in *. rewrite Hf by assumption. exact M.
Qed.

Lemma Gst_set order h k c : Gst order h -> (k < length order)%nat -> Gst order (set_mem h (n0 + k) c).
Proof.
  intros G Hk. constructor; try apply G; cbn [set_mem h_mem].
  - intros i a Hi. destruct (g_dyn _ _ G a (nth_error_In _ _ Hi)) as [(o & E & _) _]. apply Hlt in E.
    destruct (Nat.eqb_spec a (n0 + k)); [lia|]. apply (g_mv _ _ G). assumption.
  - intros a Ha Hn. destruct (Nat.eqb_spec a (n0 + k)); [lia|]. apply (g_old _ _ G); assumption.
  - intros a Ha. destruct (Nat.eqb_spec a (n0 + k)); [lia|]. apply (g_new _ _ G); assumption.
Qed.

(** Extensions. *)
Lemma up8_up8 x : up8 (up8 x) = up8 x.
Proof. destruct (up8_spec x) as [A _]. unfold up8 at 1. rewrite A. reflexivity. Qed.

Lemma raw_malloc_coll h size : h_collecting h = true -> 0 <= h_used h -> up8 (h_used h) <= h_size h + 7 ->
  0 <= h_size h <= 2 ^ 29 -> 0 <= size <= 2 ^ 29 ->
  (exists u t, raw_malloc h size = (set_space h u t, PPool (up8 (h_used h))) /\ 0 <= u /\ up8 u <= h_size h + 7 /\
     u <= h_used h + (size + 7)) \/
  (exists u t, raw_malloc h size = (set_space h u t, PRefused) /\ 0 <= u /\ up8 u <= h_size h + 7 /\
     h_size h < h_used h + (size + 7)).
Proof.
  intros Hc Hu Hu2 Hs Hz. unfold raw_malloc. rewrite Hc. pose proof (up8_spec (h_used h)) as [A B].
  destruct (Z.ltb_spec 2147483647 (up8 (h_used h) + size)); [lia|].
  destruct (Z.ltb_spec (h_size h) (up8 (h_used h) + size)).
  - right. eexists. eexists. split; [reflexivity|]. rewrite up8_up8. lia.
  - left. eexists. eexists. split; [reflexivity|]. pose proof (up8_spec (up8 (h_used h) + size)). lia.
Qed.

Definition ext_sum (l : list Z) : Z := fold_right (fun s n => (s + 7) + n) 0 l.

Lemma walk_exts_spec l : forall order h, Gst order h -> Forall (fun s => 0 <= s <= 2 ^ 29) l ->
  exists h', walk_exts h l = GOk h' /\ Gst order h' /\ h_mem h' = h_mem h /\
    (h_failed h = true -> h_failed h' = true) /\
    (h_failed h' = true -> h_failed h = true \/ h_size h0 < h_used h + ext_sum l) /\
    (h_failed h' = false -> h_used h' <= h_used h + ext_sum l).
Proof.
  induction l as [|s l IH]; intros order h G HF; cbn [walk_exts ext_sum fold_right].
  - exists h. repeat (split; [auto|]). intros _. lia.
  - inversion HF as [|? ? H1 H2]; subst. pose proof (ext_cost_pos _ H2) as EP. fold (ext_sum l) in *.
    destruct (h_failed h) eqn:Ef.
    + destruct (IH order h G H2) as (h' & A & B & C & D & E & F). rewrite Ef in *. exists h'.
      split; [exact A|]. split; [exact B|]. split; [exact C|]. split; [exact D|]. split; [auto|].
      intros Hf. rewrite (D eq_refl) in Hf. discriminate.
    + destruct (g_used _ _ G) as [U1 U2]. rewrite <- (g_size _ _ G) in U2.
      destruct (raw_malloc_coll h s (g_coll _ _ G) U1 U2) as [(u & t & R & P1 & P2 & P3)|(u & t & R & P1 & P2 & P3)];
        [rewrite (g_size _ _ G); assumption|assumption| |]; rewrite R.
      * assert (G1 : Gst order (set_space h u t)).
        { constructor; try apply G. cbn [set_space h_used h_size]. rewrite <- (g_size _ _ G). auto. }
        destruct (IH order _ G1 H2) as (h' & A & B & C & D & E & F). exists h'. cbn [set_space h_mem h_failed h_used] in *. rewrite Ef in *.
        split; [exact A|]. split; [exact B|]. split; [exact C|]. split; [discriminate|]. split.
        -- intros Hf. destruct (E Hf) as [|Q]; [discriminate|]. right. lia.
        -- intros Hf. specialize (F Hf). lia.
      * assert (G1 : Gst order (set_failed (set_space h u t))).
        { constructor; try apply G. cbn. rewrite <- (g_size _ _ G). auto. }
        destruct (IH order _ G1 H2) as (h' & A & B & C & D & E & F). exists h'. cbn [set_failed set_space h_mem h_failed h_used] in *.
        split; [exact A|]. split; [exact B|]. split; [exact C|]. split; [discriminate|]. split.
        -- intros _. right. rewrite (g_size _ _ G) in P3. lia.
        -- intros Hf. rewrite (D eq_refl) in Hf. discriminate.
Qed.

(** What a call that collects one slot must do. *)
Definition cr_spec (m : nat) (cr : heap -> option nat -> gres (heap * option nat)) : Prop :=
  forall order h r owed, (length objs0 <= m + length order)%nat -> Gst order h ->
  (forall c, r = Some c -> Live c /\ is_obj mem0 c) -> 0 <= owed -> (h_failed h = false -> h_used h + owed <= csum order) ->
  exists ext h' r', cr h r = GOk (h', r') /\ Gst (order ++ ext) h' /\
    (forall i, (i < length order)%nat -> h_mem h' (n0 + i) = h_mem h (n0 + i)) /\
    (r' = None -> r = None) /\
    (h_failed h = true -> h_failed h' = true) /\
    (h_failed h' = true -> h_failed h = true \/ overfull) /\
    (h_failed h' = false ->
       r' = option_map (fmap (order ++ ext)) r /\ (forall c, r = Some c -> done (order ++ ext) c) /\
       (forall a, In a ext -> black h' (order ++ ext) a) /\ h_used h' + owed <= csum (order ++ ext)).

Lemma nth_app_in {B} (l e : list B) a i : NoDup (l ++ e) -> In a e -> nth_error (l ++ e) i = Some a -> (length l <= i)%nat.
Proof.
  intros ND Ha Hi. destruct (Nat.lt_ge_cases i (length l)) as [L|L]; [|assumption]. exfalso.
  rewrite nth_error_app1 in Hi by assumption. apply nth_error_In in Hi. clear L. revert ND Hi.
  induction l as [|x l IH]; intros ND Hi; [contradiction|]. cbn in ND. inversion ND as [|? ? N1 N2]; subst.
  destruct Hi as [->|Hi]; [|auto]. apply N1. apply in_or_app. right. assumption.
Qed.

Lemma walk_refs_spec cr m (CR : cr_spec m cr) k rs :
  (forall c, In (Some c) rs -> Live c /\ is_obj mem0 c) ->
  forall n i order h oc owed, (k < length order)%nat -> (length objs0 <= m + length order)%nat -> Gst order h ->
  0 <= owed -> (h_failed h = false -> h_used h + owed <= csum order) ->
  h_mem h (n0 + k) = Some (CObj oc) -> length (o_refs oc) = length rs -> skipn i (o_refs oc) = skipn i rs -> (i + n = length rs)%nat ->
  exists ext h', walk_refs cr h (n0 + k) (seq i n) = GOk h' /\ Gst (order ++ ext) h' /\
    (forall j, (j < length order)%nat -> j <> k -> h_mem h' (n0 + j) = h_mem h (n0 + j)) /\
    (h_failed h = true -> h_failed h' = true) /\
    (h_failed h' = true -> h_failed h = true \/ overfull) /\
    (h_failed h' = false ->
       h_mem h' (n0 + k) = Some (CObj (with_refs oc (firstn i (o_refs oc) ++ map (option_map (fmap (order ++ ext))) (skipn i rs)))) /\
       (forall c, In (Some c) (skipn i rs) -> done (order ++ ext) c) /\
       (forall a, In a ext -> black h' (order ++ ext) a) /\ h_used h' + owed <= csum (order ++ ext)).
Proof.
  intros Hrs. induction n as [|n IH]; intros i order h oc owed Hk Hm G Ho Hu Hb Hl Hs Hi; cbn [seq walk_refs].
  - exists [], h. rewrite app_nil_r. split; [reflexivity|]. split; [exact G|]. split; [auto|]. split; [auto|]. split; [auto|].
    intros Hf. assert (E : skipn i rs = []) by (apply skipn_all2; lia). rewrite E. cbn [map]. rewrite app_nil_r.
    rewrite firstn_all2 by lia. split; [rewrite Hb; destruct oc; reflexivity|]. split; [intros c []|]. split; [intros a []|auto].
  - destruct (skipn i rs) as [|s tl] eqn:Es.
    { apply (f_equal (@length _)) in Es. rewrite skipn_length in Es. cbn in Es. lia. }
    destruct (skipn_nth _ _ _ _ Es) as [Ns Et]. destruct (skipn_nth _ _ _ _ Hs) as [No Eo].
    rewrite (get_obj_eq _ _ _ Hb), No.
    destruct (CR order h s owed Hm G) as (e1 & h1 & s' & E1 & G1 & F1 & N1 & X1 & Y1 & Z1); [|assumption|assumption|].
    { intros c ->. apply Hrs. eapply nth_error_In. eassumption. }
    rewrite E1. rewrite <- (F1 k Hk) in Hb. rewrite (get_obj_eq _ _ _ Hb).
    set (oc1 := with_refs oc (upd (o_refs oc) i s')). set (h2 := set_mem h1 (n0 + k) (CObj oc1)).
    assert (Hk1 : (k < length (order ++ e1))%nat) by (rewrite app_length; lia).
    assert (G2 : Gst (order ++ e1) h2) by (apply Gst_set; assumption).
    destruct (IH (S i) (order ++ e1) h2 oc1 owed) as (e2 & h3 & E3 & G3 & F3 & X3 & Y3 & Z3); auto.
    { rewrite app_length. lia. }
    { intros Hf. apply Z1. exact Hf. }
    { unfold h2, set_mem. cbn [h_mem]. rewrite Nat.eqb_refl. reflexivity. }
    { cbn. rewrite upd_length. assumption. }
    { cbn [oc1 with_refs o_refs]. rewrite upd_skipn. rewrite Eo, Et. reflexivity. }
    { lia. }
    exists (e1 ++ e2), h3. rewrite app_assoc. split; [exact E3|]. split; [exact G3|]. split; [|split; [|split]].
    + intros j Hj Hjk. rewrite F3 by (rewrite ?app_length; lia). unfold h2, set_mem. cbn [h_mem].
      destruct (Nat.eqb_spec (n0 + j) (n0 + k)); [lia|]. apply F1. assumption.
    + intros Hf. apply X3. cbn. apply X1. assumption.
    + intros Hf. destruct (Y3 Hf) as [Q|Q]; [|right; assumption]. apply Y1. exact Q.
    + intros Hf. destruct (Z3 Hf) as (M3 & D3 & B3 & U3).
      assert (Hf1 : h_failed h1 = false).
      { destruct (h_failed h1) eqn:Q; [|reflexivity]. rewrite X3 in Hf; [discriminate|]. exact Q. }
      destruct (Z1 Hf1) as (R1 & D1 & B1 & U1). rewrite Et in M3, D3. split; [|split; [|split]].
      * rewrite M3. do 2 f_equal. unfold oc1, with_refs. cbn [o_refs o_type o_static o_size o_exts o_data o_dtor]. f_equal.
        rewrite firstn_S_upd by (apply nth_error_Some_lt in No; assumption). rewrite <- app_assoc. f_equal. cbn [app map].
        f_equal. rewrite R1. destruct s as [c|]; [|reflexivity]. cbn. f_equal. symmetry. eapply fmap_ext; [exact G3|]. apply D1. reflexivity.
      * intros c [->|Hc]; [|apply D3; assumption]. apply done_ext. apply D1. reflexivity.
      * intros a Ha. apply in_app_or in Ha. destruct Ha as [Ha|Ha]; [|apply B3; assumption].
        apply (black_ext _ _ h1); auto.
        -- apply in_or_app. right. assumption.
        -- intros j Hj. assert (length order <= j)%nat by (eapply nth_app_in; [apply G1|exact Ha|exact Hj]).
           rewrite F3; [|eapply nth_error_Some_lt; exact Hj|lia]. unfold h2, set_mem. cbn [h_mem].
           destruct (Nat.eqb_spec (n0 + j) (n0 + k)); [lia|reflexivity].
      * exact U3.
Qed.

Lemma collect_children_spec cr m (CR : cr_spec m cr) order a o h owed :
  let k := length order in
  mem0 a = Some (CObj o) -> Live a -> (length objs0 <= m + length (order ++ [a]))%nat -> Gst (order ++ [a]) h ->
  h_mem h (n0 + k) = Some (CObj o) -> h_failed h = false -> 0 <= owed -> h_used h + (owed + ext_sum (o_exts o)) <= csum (order ++ [a]) ->
  exists ext h', collect_children cr h (n0 + k) = GOk h' /\ Gst ((order ++ [a]) ++ ext) h' /\
    (forall i, (i < length order)%nat -> h_mem h' (n0 + i) = h_mem h (n0 + i)) /\
    (h_failed h' = true -> overfull) /\
    (h_failed h' = false -> (forall x, In x (a :: ext) -> black h' ((order ++ [a]) ++ ext) x) /\
       h_used h' + owed <= csum ((order ++ [a]) ++ ext)).
Proof.
  intros k Ea La Hm G Hb Hf Ho Hu. unfold collect_children. rewrite (get_obj_eq _ _ _ Hb).
  destruct (Hsizes _ _ Ea) as [Sz Sx]. pose proof (ext_cost_pos _ Sx) as EP. fold (ext_sum (o_exts o)) in EP.
  destruct (Htype _ _ Ea) as (ot & Et). pose proof (Hlt _ _ Et) as Lt.
  destruct (Nat.eqb_spec (o_type o) (n0 + k)); [lia|].
  assert (Lk : (k < length (order ++ [a]))%nat) by (rewrite app_length; cbn; lia).
  destruct (CR (order ++ [a]) h (Some (o_type o)) (owed + ext_sum (o_exts o)) Hm G) as (e1 & h1 & r1 & E1 & G1 & F1 & N1 & X1 & Y1 & Z1).
  { intros c [= <-]. split; [eapply Llive_type; eassumption|eexists; eassumption]. }
  { lia. }
  { auto. }
  rewrite E1. destruct r1 as [t|]; [|specialize (N1 eq_refl); discriminate].
  pose proof Hb as Hb1. rewrite <- (F1 k Lk) in Hb1. rewrite (get_obj_eq _ _ _ Hb1).
  set (h2 := set_mem h1 (n0 + k) (CObj (with_type o t))).
  assert (Lk1 : (k < length ((order ++ [a]) ++ e1))%nat) by (rewrite app_length; lia).
  assert (G2 : Gst ((order ++ [a]) ++ e1) h2) by (apply Gst_set; assumption).
  destruct (walk_exts_spec (o_exts o) _ _ G2 Sx) as (h3 & E3 & G3 & M3 & X3 & Y3 & Z3). rewrite E3.
  cbn [h2 set_mem h_failed h_used] in X3, Y3, Z3.
  destruct (walk_refs_spec cr m CR k (o_refs o)) with (n := length (o_refs o)) (i := 0%nat) (order := (order ++ [a]) ++ e1) (h := h3)
    (oc := with_type o t) (owed := owed) as (e2 & h4 & E4 & G4 & F4 & X4 & Y4 & Z4); auto.
  { intros c Hc. split; [exact (Llive_ref _ _ _ La Ea Hc)|exact (Hrefs _ _ _ Ea Hc)]. }
  { rewrite app_length. lia. }
  { intros Hf3. specialize (Z3 Hf3). assert (Hf1 : h_failed h1 = false).
    { destruct (h_failed h1) eqn:Q; [|reflexivity]. rewrite X3 in Hf3; [discriminate|reflexivity]. }
    destruct (Z1 Hf1) as (_ & _ & _ & U1). lia. }
  { rewrite M3. unfold h2, set_mem. cbn [h_mem]. rewrite Nat.eqb_refl. reflexivity. }
  rewrite E4. exists (e1 ++ e2), h4. rewrite app_assoc. split; [reflexivity|]. split; [exact G4|].
  assert (FR : forall j, (j < length ((order ++ [a]) ++ e1))%nat -> j <> k -> h_mem h4 (n0 + j) = h_mem h1 (n0 + j)).
  { intros j Hj Hjk. rewrite F4 by lia. rewrite M3. unfold h2, set_mem. cbn [h_mem].
    destruct (Nat.eqb_spec (n0 + j) (n0 + k)); [lia|reflexivity]. }
  split; [|split].
  - intros i Hi. rewrite FR by (rewrite ?app_length; unfold k; lia). apply F1. rewrite app_length. lia.
  - intros Hf4. destruct (Y4 Hf4) as [Hf3|Q]; [|assumption]. destruct (Y3 Hf3) as [Hf1|Q].
    + destruct (Y1 Hf1) as [Q|Q]; [rewrite Hf in Q; discriminate|assumption].
    + destruct (h_failed h1) eqn:Hf1; [destruct (Y1 eq_refl) as [R|R]; [rewrite Hf in R; discriminate|assumption]|].
      destruct (Z1 eq_refl) as (_ & _ & _ & U1). exists ((order ++ [a]) ++ e1). split; [apply G1|]. split; [apply (g_dyn _ _ G1)|]. lia.
  - intros Hf4. destruct (Z4 Hf4) as (M4 & D4 & B4 & U4).
    assert (Hf3 : h_failed h3 = false). { destruct (h_failed h3) eqn:Q; [|reflexivity]. rewrite X4 in Hf4; [discriminate|reflexivity]. }
    assert (Hf1 : h_failed h1 = false). { destruct (h_failed h1) eqn:Q; [|reflexivity]. rewrite X3 in Hf3; [discriminate|reflexivity]. }
    destruct (Z1 Hf1) as (R1 & D1 & B1 & U1). split; [|exact U4].
    intros x [<-|Hx].
    + exists o. split; [exact Ea|]. assert (Nk : nth_error (((order ++ [a]) ++ e1) ++ e2) k = Some a).
      { rewrite nth_error_app1 by assumption. rewrite nth_error_app1 by assumption. rewrite nth_error_app2 by (unfold k; lia).
        unfold k. rewrite Nat.sub_diag. reflexivity. }
      rewrite (fmap_in _ _ _ _ G4 Nk). rewrite M4. cbn [firstn skipn app o_refs with_type].
      assert (Dt : done ((order ++ [a]) ++ e1) (o_type o)) by (apply D1; reflexivity).
      split; [|split; [apply done_ext; assumption|exact D4]].
      do 2 f_equal. unfold rename, with_refs, with_type. cbn [o_type o_static o_size o_exts o_data o_dtor]. f_equal.
      cbn in R1. injection R1 as ->. symmetry. eapply fmap_ext; eassumption.
    + apply in_app_or in Hx. destruct Hx as [Hx|Hx]; [|apply B4; assumption].
      apply (black_ext _ _ h1); auto.
      * apply in_or_app. right. assumption.
      * intros j Hj. assert (length (order ++ [a]) <= j)%nat by (eapply nth_app_in; [apply G1|exact Hx|exact Hj]).
        rewrite app_length in H. cbn in H. apply FR; [eapply nth_error_Some_lt; exact Hj|unfold k; lia].
Qed.

Lemma set_mem_same order h a o : Gst order h -> h_mem h a = Some (CObj o) -> (a < n0)%nat -> ~ In a order -> Gst order (set_mem h a (CObj o)).
Proof.
  intros G Ha L N. constructor; try apply G; cbn [set_mem h_mem]; intros.
  - destruct (Nat.eqb_spec a0 a) as [->|]; [|apply (g_mv _ _ G); assumption]. apply nth_error_In in H. contradiction.
  - destruct (Nat.eqb_spec a0 a) as [->|]; [|apply (g_old _ _ G); assumption]. rewrite <- Ha. apply (g_old _ _ G); assumption.
  - destruct (Nat.eqb_spec a0 a) as [->|]; [lia|apply (g_new _ _ G); assumption].
Qed.

Lemma collect_static f order h a o : Gst order h -> mem0 a = Some (CObj o) -> o_static o = true -> h_failed h = false ->
  exists h', collect (S (S f)) h (Some a) = GOk (h', Some a) /\ Gst order h' /\ (forall x, h_mem h' x = h_mem h x) /\
    h_failed h' = false /\ h_used h' = h_used h.
Proof.
  intros G Ea Es Hf. pose proof (Hlt _ _ Ea) as La.
  assert (Na : ~ In a order) by (eapply static_not_in; [exact G|exists o; auto]).
  destruct (Hst _ _ Ea Es) as (R & X & ot & Et & Ets & Ett).
  assert (Nt : ~ In (o_type o) order) by (eapply static_not_in; [exact G|exists ot; auto]).
  pose proof (Hlt _ _ Et) as Lt.
  assert (Ma : h_mem h a = Some (CObj o)) by (rewrite (g_old _ _ G) by assumption; exact Ea).
  assert (Mt : h_mem h (o_type o) = Some (CObj ot)) by (rewrite (g_old _ _ G) by assumption; exact Et).
  destruct (Hst _ _ Et Ets) as (Rt & Xt & _).
  assert (Ct : forall cr, collect_children cr h (o_type o) = GOk h).
  { intros cr. unfold collect_children. rewrite (get_obj_eq _ _ _ Mt), Ett, Nat.eqb_refl, Xt, Rt. reflexivity. }
  change (collect (S (S f)) h (Some a)) with
    (if h_failed h then GOk (h, Some a) else
     match h_mem h a with
      | None => GUB
      | Some (CMoved b) => GOk (h, Some b)
      | Some (CObj o) =>
        if o_static o then
          match collect_children (collect (S f)) h a with GOk h1 => GOk (h1, Some a) | GUB => GUB | GFuel => GFuel end
        else
          match raw_malloc h (o_size o) with
          | (_, PUB) => GUB
          | (h1, PRefused) => GOk (set_failed h1, Some a)
          | (h1, _) =>
            let b := h_next h1 in
            let h2 := mkheap (fun x => if Nat.eqb x b then Some (CObj o) else if Nat.eqb x a then Some (CMoved b) else h_mem h1 x)
              (S b) (h_size h1) (h_used h1) (h_total h1) (h_objcount h1) (h_pend h1) (h_collecting h1) (h_failed h1)
              (h_moved h1 + 1) (h_oldnext h1) in
            match collect_children (collect (S f)) h2 b with GOk h3 => GOk (h3, Some b) | GUB => GUB | GFuel => GFuel end
          end
      end).
  rewrite Hf, Ma, Es. unfold collect_children at 1. rewrite (get_obj_eq _ _ _ Ma), X, R.
  destruct (Nat.eqb_spec (o_type o) a) as [E|E].
  - cbn [walk_exts length seq walk_refs]. exists h. auto.
  - cbn [collect]. rewrite Hf, Mt, Ets, Ct. rewrite (get_obj_eq _ _ _ Ma), with_type_same. cbn [walk_exts length seq walk_refs].
    eexists. split; [reflexivity|]. split; [apply set_mem_same; assumption|]. cbn. split; [|auto].
    intros x. destruct (Nat.eqb_spec x a) as [->|]; auto.
Qed.

Lemma order_short order h a : Gst order h -> dynamic mem0 a -> ~ In a order -> (length order < length objs0)%nat.
Proof.
  intros G Ha N. assert (I : incl (a :: order) objs0).
  { intros x [<-|Hx]; [apply Hobjs; assumption|]. apply Hobjs. apply (g_dyn _ _ G). assumption. }
  assert (ND : NoDup (a :: order)) by (constructor; [assumption|apply G]).
  pose proof (NoDup_incl_length ND I) as H. cbn in H. lia.
Qed.

Lemma collect_spec m : cr_spec m (collect (m + 3)).
Proof.
  induction m as [|m IH]; intros order h r owed Hm G Hr Ho Hu.
  all: destruct r as [a|]; [|exists [], h, None; rewrite app_nil_r; (split; [reflexivity|]); (split; [exact G|]); (split; [auto|]);
    (split; [auto|]); (split; [auto|]); (split; [auto|]); intros Hf; (split; [reflexivity|]); (split; [discriminate|]); (split; [intros ? []|auto])].
  all: destruct (h_failed h) eqn:Hf.
  1,3: exists [], h, (Some a); rewrite app_nil_r; (split; [cbn; rewrite Hf; reflexivity|]); (split; [exact G|]); (split; [auto|]);
    (split; [discriminate|]); (split; [auto|]); (split; [auto|]); rewrite Hf; discriminate.
  all: destruct (Hr a eq_refl) as [La (o & Ea)]; specialize (Hu eq_refl).
  all: destruct (o_static o) eqn:Es.
  1,3: match goal with |- context[collect ?n _ _] =>
      destruct (collect_static (n - 2) order h a o G Ea Es Hf) as (h' & E & G' & M & Hf' & U);
      replace (S (S (n - 2))) with n in E by lia end;
    exists [], h', (Some a); rewrite app_nil_r;
    rewrite E; (split; [reflexivity|]); (split; [exact G'|]); (split; [auto|]); (split; [discriminate|]); (split; [discriminate|]);
    (split; [rewrite Hf'; discriminate|]); intros _; (split; [cbn; rewrite (fmap_static _ _ _ G'); [reflexivity|exists o; auto]|]);
    (split; [intros c [= <-]; right; exists o; auto|]); (split; [intros ? []|]); rewrite U; exact Hu.
  all: assert (Da : dynamic mem0 a) by (exists o; auto).
  all: destruct (in_dec Nat.eq_dec a order) as [Hin|Hin].
  1,3: destruct (index_in _ _ Hin) as (i & Ei & Ni); exists [], h, (Some (n0 + i)%nat); rewrite app_nil_r;
    (split; [cbn; rewrite Hf, (g_mv _ _ G _ _ Ni); reflexivity|]); (split; [exact G|]); (split; [auto|]); (split; [discriminate|]);
    (split; [rewrite Hf; auto|]); (split; [rewrite Hf; discriminate|]); intros _;
    (split; [cbn; rewrite (fmap_in _ _ _ _ G Ni); reflexivity|]); (split; [intros c [= <-]; left; assumption|]); (split; [intros ? []|exact Hu]).
  - pose proof (order_short _ _ _ G Da Hin). lia.
  - pose proof (order_short _ _ _ G Da Hin) as Ls. cbn [Nat.add collect]. rewrite Hf.
    rewrite (g_old _ _ G a (Hlt _ _ Ea) Hin). fold mem0. rewrite Ea, Es.
    destruct (g_used _ _ G) as [U1 U2]. rewrite <- (g_size _ _ G) in U2. destruct (Hsizes _ _ Ea) as [Sz Sx].
    pose proof (ext_cost_pos _ Sx) as EP. fold (ext_sum (o_exts o)) in EP.
    assert (CA : csum (order ++ [a]) = csum order + (o_size o + 7) + ext_sum (o_exts o)).
    { rewrite csum_app. unfold csum at 2. cbn [total_cost fold_right]. unfold cost_at. rewrite Ea. unfold copy_cost, ext_sum. lia. }
    assert (ND : NoDup (order ++ [a])).
    { apply (Permutation_NoDup (Permutation_cons_append order a)). constructor; [assumption|apply G]. }
    destruct (raw_malloc_coll h (o_size o) (g_coll _ _ G) U1 U2) as [(u & t & R & P1 & P2 & P3)|(u & t & R & P1 & P2 & P3)];
      [rewrite (g_size _ _ G); assumption|assumption| |]; rewrite R.
    + cbn [set_space h_next h_mem h_size h_used h_total h_objcount h_pend h_collecting h_failed h_moved h_oldnext].
      rewrite (g_next _ _ G).
      set (h2 := mkheap _ _ _ _ _ _ _ _ _ _ _).
      assert (G2 : Gst (order ++ [a]) h2).
      { assert (LL : length (order ++ [a]) = S (length order)) by (rewrite app_length; cbn; lia).
        pose proof (Hlt _ _ Ea) as Lta.
        constructor; unfold h2; cbn [h_next h_mem h_size h_used h_total h_objcount h_pend h_collecting h_failed h_moved h_oldnext]; rewrite ?LL.
        - lia.
        - rewrite (g_moved _ _ G). lia.
        - exact ND.
        - intros x Hx. apply in_app_or in Hx. destruct Hx as [Hx|[<-|[]]]; [apply (g_dyn _ _ G); assumption|auto].
        - intros i x Hx. assert (Dx : (x < n0)%nat).
          { apply nth_error_In, in_app_or in Hx. destruct Hx as [Hx|[<-|[]]]; [|assumption].
            destruct (g_dyn _ _ G x Hx) as [(ox & Eox & _) _]. eapply Hlt. eassumption. }
          destruct (Nat.eqb_spec x (n0 + length order)); [lia|]. destruct (Nat.eqb_spec x a) as [->|Nx].
          + assert (i = length order); [|subst; reflexivity]. pose proof (index_nth _ ND _ _ Hx) as I1.
            assert (Q : nth_error (order ++ [a]) (length order) = Some a) by (rewrite nth_error_app2, Nat.sub_diag by lia; reflexivity).
            pose proof (index_nth _ ND _ _ Q) as I2. congruence.
          + destruct (Nat.lt_ge_cases i (length order)) as [L|L].
            * rewrite nth_error_app1 in Hx by assumption. apply (g_mv _ _ G). assumption.
            * rewrite nth_error_app2 in Hx by assumption. destruct (i - length order)%nat as [|[|]]; cbn in Hx; congruence.
        - intros x Lx Hx. destruct (Nat.eqb_spec x (n0 + length order)); [lia|]. destruct (Nat.eqb_spec x a) as [->|Nx].
          + exfalso. apply Hx. apply in_or_app. right. left. reflexivity.
          + apply (g_old _ _ G); [assumption|]. intros Q. apply Hx. apply in_or_app. left. assumption.
        - intros x Lx. destruct (Nat.eqb_spec x (n0 + length order)); [lia|]. destruct (Nat.eqb_spec x a); [lia|].
          apply (g_new _ _ G). lia.
        - apply G.
        - apply G.
        - apply G.
        - apply G.
        - rewrite <- (g_size _ _ G). auto. }
      destruct (collect_children_spec (collect (m + 3)) m IH order a o h2 owed Ea La) as (e & h' & E & G' & F & Y & Z).
      { rewrite app_length. cbn [length]. lia. }
      { exact G2. }
      { unfold h2. cbn [h_mem]. rewrite Nat.eqb_refl. reflexivity. }
      { exact Hf. }
      { assumption. }
      { unfold h2. cbn [h_used]. lia. }
      rewrite E. exists (a :: e), h', (Some (n0 + length order)%nat).
      replace (order ++ a :: e) with ((order ++ [a]) ++ e) by (rewrite <- app_assoc; reflexivity).
      split; [reflexivity|]. split; [exact G'|]. split; [|split; [discriminate|split; [discriminate|split]]].
      * intros i Hi. rewrite F by assumption. unfold h2. cbn [h_mem]. pose proof (Hlt _ _ Ea).
        destruct (Nat.eqb_spec (n0 + i) (n0 + length order)); [lia|]. destruct (Nat.eqb_spec (n0 + i) a); [lia|reflexivity].
      * auto.
      * intros Hf'. destruct (Z Hf') as [B U]. split; [|split; [|split; [exact B|exact U]]].
        -- cbn. f_equal. symmetry. eapply fmap_in; [exact G'|]. rewrite <- app_assoc. rewrite nth_error_app2, Nat.sub_diag by lia. reflexivity.
        -- intros c [= <-]. left. rewrite <- app_assoc. apply in_or_app. right. left. reflexivity.
    + exists [], (set_failed (set_space h u t)), (Some a). rewrite app_nil_r. split; [reflexivity|]. split.
      { constructor; try apply G. cbn. rewrite <- (g_size _ _ G). auto. }
      split; [auto|]. split; [discriminate|]. split; [discriminate|]. split; [|discriminate].
      intros _. right. exists (order ++ [a]). split; [exact ND|]. split.
      { intros x Hx. apply in_app_or in Hx. destruct Hx as [Hx|[<-|[]]]; [apply (g_dyn _ _ G); assumption|auto]. }
      rewrite <- (g_size _ _ G). lia.
Qed.

Lemma collect_roots_spec m roots : forall order h, (length objs0 <= m)%nat -> Gst order h ->
  (forall c, In (Some c) roots -> Live c /\ is_obj mem0 c) -> (h_failed h = false -> h_used h <= csum order) ->
  exists ext h' roots', collect_roots (m + 3) h roots = GOk (h', roots') /\ Gst (order ++ ext) h' /\
    (forall i, (i < length order)%nat -> h_mem h' (n0 + i) = h_mem h (n0 + i)) /\
    (h_failed h = true -> h_failed h' = true) /\
    (h_failed h' = true -> h_failed h = true \/ overfull) /\
    (h_failed h' = false ->
       roots' = map (option_map (fmap (order ++ ext))) roots /\ (forall c, In (Some c) roots -> done (order ++ ext) c) /\
       (forall a, In a ext -> black h' (order ++ ext) a) /\ h_used h' <= csum (order ++ ext)).
Proof.
  induction roots as [|r rs IH]; intros order h Hm G Hr Hu; cbn [collect_roots].
  - exists [], h, []. rewrite app_nil_r. split; [reflexivity|]. split; [exact G|]. split; [auto|]. split; [auto|]. split; [auto|].
    intros Hf. split; [reflexivity|]. split; [intros c []|]. split; [intros a []|auto].
  - destruct (collect_spec m order h r 0) as (e1 & h1 & r1 & E1 & G1 & F1 & _ & X1 & Y1 & Z1).
    { lia. } { exact G. } { intros c ->. apply Hr. left. reflexivity. } { lia. } { intros Hf. specialize (Hu Hf). lia. }
    rewrite E1. destruct (IH (order ++ e1) h1) as (e2 & h2 & rs2 & E2 & G2 & F2 & X2 & Y2 & Z2).
    { assumption. } { exact G1. } { intros c Hc. apply Hr. right. assumption. } { intros Hf. destruct (Z1 Hf) as (_ & _ & _ & U). lia. }
    rewrite E2. exists (e1 ++ e2), h2, (r1 :: rs2). rewrite app_assoc. split; [reflexivity|]. split; [exact G2|]. split; [|split; [auto|split]].
    + intros i Hi. rewrite F2 by (rewrite app_length; lia). apply F1. assumption.
    + intros Hf. destruct (Y2 Hf) as [Q|Q]; [|auto]. apply Y1. exact Q.
    + intros Hf. destruct (Z2 Hf) as (R2 & D2 & B2 & U2).
      assert (Hf1 : h_failed h1 = false). { destruct (h_failed h1) eqn:Q; [|reflexivity]. rewrite X2 in Hf; [discriminate|reflexivity]. }
      destruct (Z1 Hf1) as (R1 & D1 & B1 & U1). split; [|split; [|split; [|exact U2]]].
      * cbn [map]. f_equal; [|exact R2]. rewrite R1. destruct r as [c|]; [|reflexivity]. cbn. f_equal. symmetry.
        eapply fmap_ext; [exact G2|]. apply D1. reflexivity.
      * intros c [->|Hc]; [apply done_ext, D1; reflexivity|apply D2; assumption].
      * intros a Ha. apply in_app_or in Ha. destruct Ha as [Ha|Ha]; [|apply B2; assumption].
        apply (black_ext _ _ h1); auto.
        -- apply in_or_app. right. assumption.
        -- intros j Hj. apply F2. eapply nth_error_Some_lt. exact Hj.
Qed.
End Collect.
