From Coq Require Import ZArith List Lia Bool Permutation.
From Verif Require Import Base ListProofs GcModel GcSpec GcProofs.
Import ListNotations.
Open Scope Z_scope.

(** * Destructors *)
Definition newlocs (mem : nat -> option cell) (l : list nat) : list nat :=
  flat_map (fun a => match mem a with Some (CMoved b) => [b] | _ => [] end) l.
Definition deads (mem : nat -> option cell) (l : list nat) : list Z :=
  flat_map (fun a => match mem a with Some (CObj o) => [o_data o] | _ => [] end) l.
Definition rot (l : list nat) : list nat := match l with [] => [] | _ => last l 0%nat :: removelast l end.

Lemma upd_mid {B} (P : list B) a R x : upd (P ++ a :: R) (length P) x = P ++ x :: R.
Proof. induction P as [|p P IH]; [reflexivity|]. cbn [app length upd]. rewrite IH. reflexivity. Qed.

Lemma last_app_cons P a (R : list nat) d : last (P ++ a :: R) d = last (a :: R) d.
Proof.
  induction P as [|p P IH]; [reflexivity|]. cbn [app]. rewrite <- IH. destruct (P ++ a :: R) eqn:E; [destruct P; discriminate|reflexivity].
Qed.
Lemma last_dflt (R : list nat) d d' : R <> [] -> last R d = last R d'.
Proof. induction R as [|x R IH]; [contradiction|]. intros _. destruct R; [reflexivity|]. cbn [last]. apply IH. discriminate. Qed.

Lemma remove_swap P a (R : list nat) : removelast (upd (P ++ a :: R) (length P) (last (P ++ a :: R) 0%nat)) = P ++ rot R.
Proof.
  rewrite upd_mid, last_app_cons. rewrite removelast_app by discriminate. f_equal.
  destruct R as [|r R]; [reflexivity|]. reflexivity.
Qed.

Lemma rot_perm R : Permutation (rot R) R.
Proof.
  destruct R as [|r R]; [reflexivity|]. unfold rot. rewrite (app_removelast_last (l := r :: R) 0%nat) at 3 by discriminate.
  apply Permutation_cons_append.
Qed.

Lemma call_destructors_spec err dok mem fuel : forall P R log, (length R < fuel)%nat -> (forall a, In a R -> mem a <> None) ->
  exists pend' log' ok, call_destructors err dok fuel mem (P ++ R) (length P) log = GOk (pend', log ++ log', ok) /\
    (ok = true -> Permutation pend' (P ++ newlocs mem R) /\ Permutation log' (deads mem R)) /\
    (ok = false -> err = true \/ exists d, In d (deads mem R) /\ dok d = false) /\
    (err = true -> deads mem R <> [] -> ok = false).
Proof.
  induction fuel; intros P R log Hf HR; [lia|]. cbn [call_destructors]. destruct R as [|a R].
  - rewrite app_nil_r. rewrite (proj2 (nth_error_None P (length P))) by lia. exists P, [], true. rewrite !app_nil_r.
    split; [reflexivity|]. split; [intros _; split; reflexivity|]. split; [discriminate|]. intros _ H. contradiction H. reflexivity.
  - rewrite nth_error_app2, Nat.sub_diag by lia. cbn [nth_error]. cbn [length] in Hf.
    destruct (mem a) as [[o|b]|] eqn:Ea.
    + destruct (negb err && dok (o_data o)) eqn:K.
      * rewrite remove_swap.
        assert (PR : Permutation (rot R) R) by apply rot_perm.
        apply andb_prop in K. destruct K as [K1 K2]. apply negb_true_iff in K1.
        destruct (IHfuel P (rot R) (log ++ [o_data o])) as (pend' & log' & ok & E & A & B & C).
        { rewrite (Permutation_length PR). lia. }
        { intros x Hx. apply HR. right. eapply Permutation_in; eassumption. }
        exists pend', (o_data o :: log'), ok. rewrite E, <- app_assoc. split; [reflexivity|].
        assert (PD : Permutation (deads mem (rot R)) (deads mem R)) by (apply Permutation_flat_map; exact PR).
        split; [|split].
        -- intros Hok. destruct (A Hok) as [A1 A2]. unfold newlocs, deads in *. cbn [flat_map]. rewrite Ea. cbn [app]. split.
           ++ rewrite A1. apply Permutation_app_head, Permutation_flat_map. exact PR.
           ++ constructor. rewrite A2. exact PD.
        -- intros Hok. destruct (B Hok) as [B1|(d & B1 & B2)]; [left; exact B1|]. right. exists d. split; [|exact B2].
           unfold deads. cbn [flat_map]. rewrite Ea. right. apply (Permutation_in _ PD). exact B1.
        -- congruence.
      * exists (P ++ a :: R), [o_data o], false. split; [reflexivity|]. split; [discriminate|]. split; [|reflexivity].
        intros _. apply andb_false_iff in K. destruct K as [K|K]; [left; apply negb_false_iff; exact K|].
        right. exists (o_data o). split; [|exact K]. unfold deads. cbn [flat_map]. rewrite Ea. left. reflexivity.
    + rewrite upd_mid. replace (P ++ b :: R) with ((P ++ [b]) ++ R) by (rewrite <- app_assoc; reflexivity).
      replace (S (length P)) with (length (P ++ [b])) by (rewrite app_length; cbn; lia).
      destruct (IHfuel (P ++ [b]) R log) as (pend' & log' & ok & E & A & B & C); [lia|intros x Hx; apply HR; right; assumption|].
      exists pend', log', ok. split; [exact E|]. unfold newlocs, deads in *. cbn [flat_map]. rewrite Ea. cbn [app].
      split; [|split; [exact B|exact C]]. intros Hok. destruct (A Hok) as [A1 A2].
      split; [rewrite <- app_assoc in A1; exact A1|exact A2].
    + exfalso. apply (HR a); [left; reflexivity|exact Ea].
Qed.

(** * The whole collection *)
Definition dynb (mem : nat -> option cell) (a : nat) : bool := match mem a with Some (CObj o) => negb (o_static o) | _ => false end.
Definition all_objs (h : heap) : list nat := filter (dynb (h_mem h)) (seq 0 (h_next h)).

Lemma dynb_iff mem a : dynb mem a = true <-> dynamic mem a.
Proof.
  unfold dynb, dynamic. destruct (mem a) as [[o|]|]; split.
  - intros H. exists o. apply negb_true_iff in H. auto.
  - intros (o' & [= <-] & ->). reflexivity.
  - discriminate.
  - intros (? & ? & _). discriminate.
  - discriminate.
  - intros (? & ? & _). discriminate.
Qed.

Lemma all_objs_len h : (length (all_objs h) <= h_next h)%nat.
Proof.
  unfold all_objs. rewrite <- (seq_length (h_next h) 0) at 2. generalize (seq 0 (h_next h)). intros l.
  induction l as [|x l IH]; [cbn; lia|]. cbn [filter]. destruct (dynb _ x); cbn [length]; lia.
Qed.

(** What a collection does, as seen from outside. *)
Record gc_result (h : heap) (roots : list (option nat)) (h' : heap) (roots' : list (option nat)) (log : list Z) (f : nat -> nat)
  (live dead : list nat) : Prop := {
  r_inj : forall a b, reach (h_mem h) roots a -> reach (h_mem h) roots b -> f a = f b -> a = b;
  r_static : forall a o, h_mem h a = Some (CObj o) -> o_static o = true -> f a = a /\ h_mem h' a = Some (CObj o);
  r_roots : roots' = map (option_map f) roots;
  r_copy : forall a o, reach (h_mem h) roots a -> h_mem h a = Some (CObj o) -> h_mem h' (f a) = Some (CObj (rename f o));
  r_only : forall b, dynamic (h_mem h') b -> exists a, reach (h_mem h) roots a /\ dynamic (h_mem h) a /\ b = f a;
  r_live_nd : NoDup live;
  r_live : forall a, In a live <-> reach (h_mem h) roots a /\ dynamic (h_mem h) a;
  r_count : h_objcount h' = Z.of_nat (length live);
  r_used : h_used h' <= total_cost (h_mem h) live;
  r_pend : Permutation (h_pend h') (map f (filter (fun a => if in_dec Nat.eq_dec a live then true else false) (h_pend h)));
  r_dead : dead = filter (fun a => if in_dec Nat.eq_dec a live then false else true) (h_pend h);
  r_log : Permutation log (deads (h_mem h) dead);
  r_wf : hwf h'
}.

Lemma newlocs_filter mem mem1 (f : nat -> nat) (live l : list nat) :
  (forall a, In a l -> if in_dec Nat.eq_dec a live then mem1 a = Some (CMoved (f a)) else mem1 a = mem a /\ is_obj mem a) ->
  newlocs mem1 l = map f (filter (fun a => if in_dec Nat.eq_dec a live then true else false) l) /\
  deads mem1 l = deads mem (filter (fun a => if in_dec Nat.eq_dec a live then false else true) l).
Proof.
  unfold newlocs, deads. induction l as [|a l IH]; intros H; [auto|]. cbn [flat_map filter].
  destruct IH as [I1 I2]; [intros x Hx; apply H; right; assumption|].
  specialize (H a (or_introl eq_refl)). destruct (in_dec Nat.eq_dec a live).
  - rewrite H, I1, I2. auto.
  - destruct H as [H (o & E)]. rewrite H, E. cbn [app map flat_map]. rewrite E, I1, I2. auto.
Qed.

Theorem gc_main dok fuel h roots : hwf h -> (forall a, In (Some a) roots -> is_obj (h_mem h) a) -> (h_next h + 3 <= fuel)%nat ->
  exists h1 roots', collect_roots fuel (start_collection h) roots = GOk (h1, roots') /\
  (h_failed h1 = true ->
     exists l, NoDup l /\ (forall a, In a l -> reach (h_mem h) roots a /\ dynamic (h_mem h) a) /\ h_size h < total_cost (h_mem h) l) /\
  exists h' ok log, stop_collection dok h1 = GOk (h', ok, log) /\
     (ok = true -> exists f live dead, gc_result h roots h' roots' log f live dead) /\
     (ok = false -> h_failed h1 = true \/ exists a o, In a (h_pend h) /\ ~ reach (h_mem h) roots a /\ h_mem h a = Some (CObj o) /\ dok (o_data o) = false).
Proof.
  intros W Hr Hfuel. set (h0 := start_collection h). set (Live := reach (h_mem h) roots).
  set (n0 := h_next h). set (mem0 := h_mem h).
  assert (A1 : forall a c, h_mem h0 a = Some c -> (a < h_next h0)%nat) by apply (w_lt _ W).
  assert (A2 : forall a o, h_mem h0 a = Some (CObj o) -> is_obj (h_mem h0) (o_type o)) by apply (w_type _ W).
  assert (A3 : forall a o b, h_mem h0 a = Some (CObj o) -> In (Some b) (o_refs o) -> is_obj (h_mem h0) b) by apply (w_refs _ W).
  assert (A4 : forall a o, h_mem h0 a = Some (CObj o) -> o_static o = true -> o_refs o = [] /\ o_exts o = [] /\
    exists ot, h_mem h0 (o_type o) = Some (CObj ot) /\ o_static ot = true /\ o_type ot = o_type o).
  { intros a o E S. destruct (w_static _ W a o E S) as (B1 & B2 & _ & B3). auto. }
  assert (A5 : forall a o, h_mem h0 a = Some (CObj o) -> 0 <= o_size o <= 2 ^ 29 /\ Forall (fun s => 0 <= s <= 2 ^ 29) (o_exts o)) by apply (w_sizes _ W).
  assert (A6 : forall a, dynamic (h_mem h0) a -> In a (all_objs h)).
  { intros a D. apply filter_In. split; [|apply dynb_iff; exact D]. destruct D as (o & E & _). apply A1 in E. apply in_seq. cbn in E. lia. }
  assert (A7 : forall a o, Live a -> h_mem h0 a = Some (CObj o) -> Live (o_type o)) by (intros; eapply reach_type; eassumption).
  assert (A8 : forall a o b, Live a -> h_mem h0 a = Some (CObj o) -> In (Some b) (o_refs o) -> Live b) by (intros; eapply reach_ref; eassumption).
  assert (G0 : Gst h0 Live [] h0).
  { constructor; cbn [start_collection h_next h_moved h_mem h_size h_collecting h_pend h_oldnext h_used length h0]; auto; try lia.
    - constructor.
    - intros a [].
    - intros i a Hi. destruct i; discriminate.
    - intros a L. destruct (h_mem h a) eqn:E; [|reflexivity]. apply (w_lt _ W) in E. cbn in L. lia.
    - pose proof (w_size _ W). change (up8 0) with 0. lia. }
  assert (Hm : (length (all_objs h) <= fuel - 3)%nat) by (pose proof (all_objs_len h); lia).
  destruct (collect_roots_spec h0 Live (all_objs h) A1 A2 A3 A4 (w_size _ W) A5 A6 A7 A8 (fuel - 3) roots [] h0 Hm G0)
    as (order & h1 & roots' & E & G & _ & _ & Y & Z).
  { intros c Hc. split; [apply reach_root; assumption|apply Hr; assumption]. }
  { cbn. lia. }
  cbn [app] in *. replace (fuel - 3 + 3)%nat with fuel in E by lia. exists h1, roots'. split; [exact E|].
  assert (YY : h_failed h1 = true -> exists l, NoDup l /\ (forall a, In a l -> reach (h_mem h) roots a /\ dynamic (h_mem h) a) /\ h_size h < total_cost (h_mem h) l).
  { intros Hf. destruct (Y Hf) as [Q|(l & Q1 & Q2 & Q3)]; [discriminate|]. exists l. split; [exact Q1|]. split; [|exact Q3].
    intros a Ha. destruct (Q2 a Ha). auto. }
  split; [exact YY|].
  set (f := fmap h0 order) in *.
  (* pending objects *)
  assert (PD : forall a, In a (h_pend h) -> if in_dec Nat.eq_dec a order then h_mem h1 a = Some (CMoved (f a)) else h_mem h1 a = h_mem h a /\ is_obj (h_mem h) a).
  { intros a Ha. apply (w_pend_iff _ W) in Ha. destruct Ha as (o & Eo & So & Do). destruct (in_dec Nat.eq_dec a order) as [Hi|Hi].
    - destruct (index_in _ _ Hi) as (i & Ei & Ni). unfold f. rewrite (fmap_in _ _ _ _ _ _ G Ni). apply (g_mv _ _ _ _ G). exact Ni.
    - split; [|exists o; exact Eo]. apply (g_old _ _ _ _ G); [|assumption]. apply (w_lt _ W) in Eo. exact Eo. }
  unfold stop_collection. rewrite (g_pend _ _ _ _ G). change (h_pend h0) with (h_pend h).
  destruct (call_destructors_spec (h_failed h1) dok (h_mem h1) (S (length (h_pend h))) [] (h_pend h) []) as (pend' & log' & ok & Ed & P12 & P3 & P4).
  { lia. }
  { intros a Ha. specialize (PD a Ha). destruct (in_dec Nat.eq_dec a order); [congruence|]. destruct PD as [Q (o & Eo)]. congruence. }
  cbn [app length] in Ed, P12. rewrite Ed.
  destruct (newlocs_filter (h_mem h) (h_mem h1) f order (h_pend h) PD) as [NL DL].
  destruct (h_failed h1) eqn:Hf.
  { destruct ok; do 3 eexists; (split; [reflexivity|]); (split; [discriminate|]); intros _; left; reflexivity. }
  destruct (Z eq_refl) as (Zr & Zd & Zb & Zu). rewrite (g_oldnext _ _ _ _ G). change (h_next h0) with n0.
  (* reachable = static or moved *)
  assert (RD : forall a, reach (h_mem h) roots a -> done h0 order a).
  { intros a Ha. induction Ha as [a Ha|a o Ha IH Eo|a o b Ha IH Eo Hb].
    - apply Zd. assumption.
    - destruct IH as [IH|(o' & Eo' & So')].
      + destruct (Zb a IH) as (o' & Eo' & _ & D & _). change (h_mem h0 a) with (h_mem h a) in Eo'. rewrite Eo in Eo'. injection Eo' as <-. exact D.
      + change (h_mem h0 a) with (h_mem h a) in Eo'. rewrite Eo in Eo'. injection Eo' as <-.
        destruct (w_static _ W _ _ Eo So') as (_ & _ & _ & ot & Et & St & _). right. exists ot. auto.
    - destruct IH as [IH|(o' & Eo' & So')].
      + destruct (Zb a IH) as (o' & Eo' & _ & _ & D). change (h_mem h0 a) with (h_mem h a) in Eo'. rewrite Eo in Eo'. injection Eo' as <-. apply D. exact Hb.
      + change (h_mem h0 a) with (h_mem h a) in Eo'. rewrite Eo in Eo'. injection Eo' as <-.
        destruct (w_static _ W _ _ Eo So') as (Q & _). rewrite Q in Hb. contradiction. }
  assert (RI : forall a, In a order <-> reach (h_mem h) roots a /\ dynamic (h_mem h) a).
  { intros a. split.
    - intros Ha. destruct (g_dyn _ _ _ _ G a Ha) as [D L]. auto.
    - intros [Ha (o & Eo & So)]. destruct (RD a Ha) as [Q|(o' & Eo' & So')]; [exact Q|].
      change (h_mem h0 a) with (h_mem h a) in Eo'. rewrite Eo in Eo'. injection Eo' as <-. congruence. }
  destruct ok.
  2:{ do 3 eexists. split; [reflexivity|]. split; [discriminate|]. intros _. right.
      destruct (P3 eq_refl) as [Q|(d & Q1 & Q2)]; [discriminate|]. rewrite DL in Q1. unfold deads in Q1.
      apply in_flat_map in Q1. destruct Q1 as (a & Ha & Hd). apply filter_In in Ha. destruct Ha as [Ha Hno].
      destruct (in_dec Nat.eq_dec a order) as [Hi|Hi]; [discriminate|].
      destruct (proj1 (w_pend_iff _ W a) Ha) as (o & Eo & So & Do). rewrite Eo in Hd. destruct Hd as [Hd|[]].
      exists a, o. split; [exact Ha|]. split; [|split; [exact Eo|congruence]]. intros R. apply Hi. apply RI. split; [exact R|]. exists o. auto. }
  destruct (P12 eq_refl) as [P1 P2]. do 3 eexists. split; [reflexivity|]. split; [intros _|discriminate].
  match goal with |- exists f0 live dead, gc_result h roots ?hh _ _ _ _ _ => set (h' := hh) end.
  assert (FI : forall a b, done h0 order a -> done h0 order b -> f a = f b -> a = b).
  { intros a b Da Db Hab. assert (C : forall x, done h0 order x -> (exists i, nth_error order i = Some x /\ f x = (n0 + i)%nat) \/ (f x = x /\ (x < n0)%nat)).
    { intros x [Hx|Hx].
      - left. destruct (index_in _ _ Hx) as (i & _ & Ni). exists i. split; [exact Ni|]. apply (fmap_in _ _ _ _ _ _ G Ni).
      - right. split; [apply (fmap_static _ _ _ _ _ G Hx)|]. destruct Hx as (o & Eo & _). apply A1 in Eo. exact Eo. }
    destruct (C a Da) as [(i & Ni & Fi)|[Fa La]], (C b Db) as [(j & Nj & Fj)|[Fb Lb]].
    - assert (i = j) by lia. subst j. congruence.
    - lia.
    - lia.
    - congruence. }
  assert (MS : forall a o, h_mem h a = Some (CObj o) -> o_static o = true -> f a = a /\ h_mem h' a = Some (CObj o)).
  { intros a o Eo So. assert (S0 : static0 h0 a) by (exists o; auto).
    split; [apply (fmap_static _ _ _ _ _ G S0)|]. unfold h'. cbn [h_mem]. pose proof (w_lt _ W _ _ Eo) as L.
    destruct (Nat.ltb_spec a n0); [|unfold n0 in *; lia].
    rewrite (g_old _ _ _ _ G a L (static_not_in _ _ _ _ _ G S0)). change (h_mem h0 a) with (h_mem h a). rewrite Eo, So. reflexivity. }
  assert (MO : forall a o, In a order -> h_mem h a = Some (CObj o) -> (n0 <= f a < h_next h')%nat /\ h_mem h' (f a) = Some (CObj (rename f o)) /\
     done h0 order (o_type o) /\ forall c, In (Some c) (o_refs o) -> done h0 order c).
  { intros a o Ha Eo. destruct (Zb a Ha) as (o' & Eo' & M & D1 & D2). change (h_mem h0 a) with (h_mem h a) in Eo'. rewrite Eo in Eo'. injection Eo' as <-.
    destruct (index_in _ _ Ha) as (i & _ & Ni). pose proof (fmap_in _ _ _ _ _ _ G Ni) as Fi. fold f in Fi, M.
    change (h_next h0) with n0 in Fi. split; [|split; [|split; [exact D1|exact D2]]].
    - unfold h'. cbn [h_next]. rewrite (g_next _ _ _ _ G). change (h_next h0) with n0. apply nth_error_Some_lt in Ni. lia.
    - unfold h'. cbn [h_mem]. destruct (Nat.ltb_spec (f a) n0); [lia|]. exact M. }
  assert (DO : forall c, done h0 order c -> is_obj (h_mem h') (f c)).
  { intros c [Hc|(o & Eo & So)].
    - destruct (proj1 (RI c) Hc) as [_ (o & Eo & _)]. destruct (MO c o Hc Eo) as (_ & M & _). eexists. exact M.
    - destruct (MS c o Eo So) as [-> M]. eexists. exact M. }
  (* the cells of the new heap *)
  assert (NC : forall b c, h_mem h' b = Some c ->
     (exists o, c = CObj o /\ o_static o = true /\ h_mem h b = Some (CObj o)) \/
     (exists a o, In a order /\ h_mem h a = Some (CObj o) /\ o_static o = false /\ b = f a /\ c = CObj (rename f o))).
  { intros b c Hb. unfold h' in Hb. cbn [h_mem] in Hb. destruct (Nat.ltb_spec b n0) as [L|L].
    - destruct (in_dec Nat.eq_dec b order) as [Hi|Hi].
      + destruct (index_in _ _ Hi) as (i & _ & Ni). rewrite (g_mv _ _ _ _ G _ _ Ni) in Hb. discriminate.
      + rewrite (g_old _ _ _ _ G b L Hi) in Hb. change (h_mem h0 b) with (h_mem h b) in Hb.
        destruct (h_mem h b) as [[o|]|] eqn:Eb; try discriminate. destruct (o_static o) eqn:So; [|discriminate]. injection Hb as <-.
        left. exists o. auto.
    - destruct (Nat.lt_ge_cases b (n0 + length order)) as [L2|L2].
      + right. destruct (nth_error order (b - n0)) as [a|] eqn:Na; [|apply nth_error_None in Na; lia].
        assert (Ha : In a order) by (eapply nth_error_In; exact Na). destruct (proj1 (RI a) Ha) as [_ (o & Eo & So)].
        exists a, o. pose proof (fmap_in _ _ _ _ _ _ G Na) as Fi. fold f in Fi. change (h_next h0) with n0 in Fi.
        assert (Eb : b = f a) by lia. destruct (MO a o Ha Eo) as (_ & M & _). unfold h' in M. cbn [h_mem] in M.
        rewrite <- Eb in M. destruct (Nat.ltb_spec b n0); [lia|]. rewrite Hb in M. injection M as <-. auto.
      + rewrite (g_new _ _ _ _ G) in Hb; [discriminate|]. exact L2. }
  assert (PP : Permutation pend' (map f (filter (fun a => if in_dec Nat.eq_dec a order then true else false) (h_pend h)))).
  { rewrite P1, NL. reflexivity. }
  assert (FO : forall a, In a (filter (fun a => if in_dec Nat.eq_dec a order then true else false) (h_pend h)) <-> In a (h_pend h) /\ In a order).
  { intros a. rewrite filter_In. destruct (in_dec Nat.eq_dec a order); intuition discriminate. }
  exists f, order, (filter (fun a => if in_dec Nat.eq_dec a order then false else true) (h_pend h)).
  constructor.
  - intros a b Ha Hb. apply FI; apply RD; assumption.
  - exact MS.
  - exact Zr.
  - intros a o Ha Eo. destruct (RD a Ha) as [Hi|(o' & Eo' & So')].
    + apply (MO a o Hi Eo).
    + change (h_mem h0 a) with (h_mem h a) in Eo'. rewrite Eo in Eo'. injection Eo' as <-. destruct (MS a o Eo So') as [-> M]. rewrite M.
      do 2 f_equal. destruct (w_static _ W _ _ Eo So') as (Q & _ & _ & ot & Et & St & _). destruct (MS _ _ Et St) as [Ft _].
      destruct o. cbn in *. unfold rename. cbn. rewrite Q, Ft. reflexivity.
  - intros b (o & Eo & So). destruct (NC b _ Eo) as [(o' & [= <-] & So' & _)|(a & o' & Ha & Eo' & So' & Eb & _)]; [congruence|].
    exists a. destruct (proj1 (RI a) Ha). auto.
  - apply (g_nd _ _ _ _ G).
  - exact RI.
  - unfold h'. cbn [h_objcount]. apply (g_moved _ _ _ _ G).
  - exact Zu.
  - exact PP.
  - reflexivity.
  - rewrite P2, DL. reflexivity.
  - constructor.
    + intros b c Hb. destruct (NC b c Hb) as [(o & -> & So & Eb)|(a & o & Ha & Eo & So & -> & ->)].
      * apply (w_lt _ W) in Eb. unfold h'. cbn [h_next]. rewrite (g_next _ _ _ _ G). cbn. lia.
      * apply (MO a o Ha Eo).
    + intros b c Hb. destruct (NC b c Hb) as [(o & -> & So & Eb)|(a & o & Ha & Eo & So & -> & ->)]; eexists; exact Hb.
    + intros b o Hb. destruct (NC b _ Hb) as [(o' & [= <-] & So & Eb)|(a & o' & Ha & Eo & So & -> & [= ->])].
      * destruct (w_static _ W _ _ Eb So) as (_ & _ & _ & ot & Et & St & _). exists ot. apply (MS _ _ Et St).
      * cbn [rename o_type]. apply DO. destruct (MO a o' Ha Eo) as (_ & _ & D & _). exact D.
    + intros b o c Hb Hc. destruct (NC b _ Hb) as [(o' & [= <-] & So & Eb)|(a & o' & Ha & Eo & So & -> & [= ->])].
      * destruct (w_static _ W _ _ Eb So) as (Q & _). rewrite Q in Hc. contradiction.
      * cbn [rename o_refs] in Hc. apply in_map_iff in Hc. destruct Hc as ([x|] & Ex & Hx); [|discriminate]. injection Ex as <-.
        apply DO. destruct (MO a o' Ha Eo) as (_ & _ & _ & D). apply D. exact Hx.
    + intros b o Hb Sb. destruct (NC b _ Hb) as [(o' & [= <-] & So & Eb)|(a & o' & Ha & Eo & So & -> & [= ->])].
      * destruct (w_static _ W _ _ Eb So) as (Q1 & Q2 & Q3 & ot & Et & St & Tt). split; [exact Q1|]. split; [exact Q2|]. split; [exact Q3|].
        exists ot. destruct (MS _ _ Et St) as [_ M]. auto.
      * cbn in Sb. congruence.
    + unfold h'. cbn [h_size]. rewrite (g_size _ _ _ _ G). apply (w_size _ W).
    + intros b o Hb. destruct (NC b _ Hb) as [(o' & [= <-] & So & Eb)|(a & o' & Ha & Eo & So & -> & [= ->])].
      * apply (w_sizes _ W _ _ Eb).
      * apply (w_sizes _ W _ _ Eo).
    + unfold h'. cbn [h_pend]. apply (Permutation_NoDup (Permutation_sym PP)).
      assert (NDF : NoDup (filter (fun a => if in_dec Nat.eq_dec a order then true else false) (h_pend h))) by (apply NoDup_filter, (w_pend _ W)).
      revert NDF FO. generalize (filter (fun a => if in_dec Nat.eq_dec a order then true else false) (h_pend h)). intros l NDF FO.
      assert (IO : forall a, In a l -> In a order) by (intros a Ha; apply FO; exact Ha). clear FO.
      induction NDF as [|x l Hx ND IH]; cbn [map]; constructor.
      * intros Hin. apply in_map_iff in Hin. destruct Hin as (y & Ey & Hy). assert (x = y); [|congruence].
        apply FI; [left; apply IO; left; reflexivity|left; apply IO; right; exact Hy|congruence].
      * apply IH. intros a Ha. apply IO. right. exact Ha.
    + intros b. unfold h' at 1. cbn [h_pend]. split.
      * intros Hb. apply (Permutation_in _ PP) in Hb. apply in_map_iff in Hb. destruct Hb as (a & <- & Ha). apply FO in Ha.
        destruct Ha as [Ha Hi]. apply (w_pend_iff _ W) in Ha. destruct Ha as (o & Eo & So & Do). exists (rename f o).
        destruct (MO a o Hi Eo) as (_ & M & _). auto.
      * intros (o & Eo & So & Do). apply (Permutation_in _ (Permutation_sym PP)).
        destruct (NC b _ Eo) as [(o' & [= <-] & So' & _)|(a & o' & Ha & Eo' & So' & -> & [= ->])]; [congruence|].
        apply in_map. apply FO. split; [|exact Ha]. apply (w_pend_iff _ W). exists o'. auto.
    + reflexivity.
Qed.
