(** Hashes of lists and maps, refused copies, keys that are lists: proofs for C76. *)
From Coq Require Import ZArith List Lia Bool Permutation.
From Verif Require Import Base FloatModel StringModel ValueModel TextProofs MapModel ListModel ListProofs ObjModel MapProofs2 CopyProofs HashSpec.
Import ListNotations.
Open Scope Z_scope.

Scheme leaves_mind := Minimality for leaves Sort Prop
  with leaves_all_mind := Minimality for leaves_all Sort Prop.

Lemma wrap32_mod x y : (x - y) mod 2^32 = 0 -> wrap32 x = wrap32 y.
Proof.
  intros H. apply Z.mod_divide in H; [|lia]. destruct H as (k & Hk). unfold wrap32. replace (x + 2^31) with (y + 2^31 + k * 2^32) by lia.
  now rewrite Z_mod_plus_full.
Qed.
Lemma wrap32_exp x : exists k, wrap32 x = x + k * 2^32.
Proof.
  unfold wrap32. exists (- ((x + 2^31) / 2^32)). pose proof (Z_div_mod_eq_full (x + 2^31) (2^32)). lia.
Qed.
Lemma wrap32_add a b : wrap32 (a + wrap32 b) = wrap32 (a + b).
Proof. destruct (wrap32_exp b) as (k & ->). apply wrap32_mod. replace (a + (b + k * 2^32) - (a + b)) with (k * 2^32) by lia. apply Z_mod_mult. Qed.
Lemma wrap32_idem x : wrap32 (wrap32 x) = wrap32 x.
Proof. exact (wrap32_add 0 x). Qed.
Lemma wrap32_same a b c : wrap32 a = wrap32 b -> wrap32 (c + a) = wrap32 (c + b).
Proof. intros H. rewrite <- (wrap32_add c a), <- (wrap32_add c b). now rewrite H. Qed.

Lemma hsum_app a b z : hsum (a ++ b) z -> exists x y, hsum a x /\ hsum b y /\ z = x + y.
Proof.
  revert z. induction a as [|v a IH]; cbn; intros z H.
  - exists 0, z. split; [constructor|]. auto.
  - inversion H; subst. destruct (IH _ H4) as (x & y & A & B & ->). exists (h + x), y. split; [now constructor|]. split; [assumption|lia].
Qed.

(** The objects directly inside an object. *)
Definition inside (objs : list hobj) (l : nat) (vs : list value) : Prop :=
  match nth_error objs l with
  | Some (OList lo) => rep lo vs
  | Some (OMap mo) => vs = m_keys mo ++ m_vals mo
  | Some (OSMap _) => vs = []
  | _ => False
  end.
Lemma inside_lt objs l vs : inside objs l vs -> (l < length objs)%nat.
Proof. unfold inside. intros H. apply nth_error_Some. destruct (nth_error objs l); [discriminate|contradiction]. Qed.

Local Notation nestl objs := (nest (inside objs) scalar []).

Lemma leaves_nest objs v ls : leaves objs v ls -> exists n, nestl objs n v.
Proof.
  intros H. apply (leaves_mind objs (fun v _ => exists n, nestl objs n v) (fun vs _ => exists n, Forall (nestl objs n) vs)) with (v := v) (l := ls).
  - intros w S. exists O. destruct w; try exact S; contradiction.
  - intros l id Hl. exists 1%nat. cbn [nest]. split; [intros []|]. exists []. unfold inside. rewrite Hl. auto.
  - intros l lo vs ls' Hl R _ (n & F). exists (S n). cbn [nest]. split; [intros []|]. exists vs. unfold inside. rewrite Hl. auto.
  - intros l mo ls' Hl _ (n & F). exists (S n). cbn [nest]. split; [intros []|]. eexists. unfold inside. rewrite Hl. eauto.
  - exists O. constructor.
  - intros w vs a b _ (n & A) _ (k & B). exists (Nat.max n k). constructor.
    + eapply (nest_more (length objs)); [apply inside_lt|exact A|lia].
    + eapply Forall_impl; [|exact B]. intros y Hy. eapply (nest_more (length objs)); [apply inside_lt|exact Hy|lia].
  - exact H.
Qed.
Lemma leaves_depth objs v ls : leaves objs v ls -> nestl objs (depth objs) v.
Proof.
  intros H. apply leaves_nest in H. destruct H as (n & H). apply (nest_bound (length objs)) in H.
  - cbn [length] in H. rewrite Nat.sub_0_r in H. eapply (nest_more (length objs)); [apply inside_lt|exact H|unfold depth; lia].
  - apply inside_lt.
  - constructor.
  - intros l [].
Qed.

Lemma rep_items (lo : lobj value) vs ws : rep lo vs -> rep lo ws -> vs = ws.
Proof. intros A B. apply items_rep in A. apply items_rep in B. congruence. Qed.

(** The hash of a value and the hashes of its leaves agree modulo 2^32, and a list or map has a wrapped hash. *)
Definition hashes_to (n : nat) (objs : list hobj) (v : value) (s : Z) : Prop :=
  exists z, obj_hash n objs v = OOk z /\ wrap32 z = wrap32 s /\ match v with VRef _ => z = wrap32 s | _ => True end.

Lemma hash_sum_ok objs n : (forall v ls s, nestl objs n v -> leaves objs v ls -> hsum ls s -> hashes_to n objs v s) ->
  forall vs ls s acc, Forall (nestl objs n) vs -> leaves_all objs vs ls -> hsum ls s -> acc = wrap32 acc ->
  hash_sum (obj_hash n objs) vs acc = OOk (wrap32 (acc + s)).
Proof.
  intros IH. induction vs as [|v vs IHv]; intros ls s acc F L H A; inversion L as [|? ? la lb La Lb]; subst; cbn [hash_sum].
  - inversion H; subst. f_equal. now rewrite Z.add_0_r.
  - inversion F as [|? ? Fv Fvs]; subst. apply hsum_app in H. destruct H as (x & y & Hx & Hy & ->).
    destruct (IH _ _ _ Fv La Hx) as (z & E & W & _). rewrite E. cbn [obind].
    rewrite (IHv _ _ _ Fvs Lb Hy); [|symmetry; apply wrap32_idem]. f_equal.
    rewrite Z.add_comm, wrap32_add. replace (acc + (x + y)) with ((acc + y) + x) by lia. replace (y + (acc + z)) with ((acc + y) + z) by lia.
    now apply wrap32_same.
Qed.

Lemma hash_scalar n objs v s : scalar v -> hsum [v] s -> hashes_to n objs v s.
Proof.
  intros S H. inversion H as [|? ? h z Hh Hz]; subst. inversion Hz; subst. unfold hashes_to. exists h. rewrite Z.add_0_r.
  destruct v; try contradiction; destruct n; cbn [obj_hash]; rewrite Hh; auto.
Qed.

Lemma hash_ok objs : forall n v ls s, nestl objs n v -> leaves objs v ls -> hsum ls s -> hashes_to n objs v s.
Proof.
  induction n as [|n IH]; intros v ls s T L H.
  - destruct v; try contradiction; inversion L; subst; now apply hash_scalar.
  - destruct v; try contradiction.
    1-5: inversion L; subst; now apply hash_scalar.
    cbn [nest] in T. destruct T as (_ & vs & I & F). unfold inside in I. unfold hashes_to. cbn [obj_hash].
    assert (W0 : 0 = wrap32 0) by reflexivity.
    inversion L as [? S0| ? id El| ? lo vs0 ? El Rl La| ? mo ? El La]; subst.
    + contradiction.
    + rewrite El in I |- *. inversion H; subst. exists 0. auto.
    + rewrite El in I |- *. assert (vs0 = vs) as -> by (eapply rep_items; eassumption). rewrite (items_rep _ _ I).
      rewrite (hash_sum_ok objs n IH _ _ _ 0 F La H W0). eexists. split; [reflexivity|]. rewrite Z.add_0_l. split; [apply wrap32_idem|reflexivity].
    + rewrite El in I |- *. subst vs. apply Forall_app in F. destruct F as (F1 & F2).
      assert (Q : forall xs ys ls, leaves_all objs (xs ++ ys) ls -> exists a b, leaves_all objs xs a /\ leaves_all objs ys b /\ ls = a ++ b).
      { clear. induction xs as [|x xs IH]; cbn; intros ys ls H; [exists [], ls; split; [constructor|auto]|]. inversion H as [|? ? a b Ha Hb]; subst.
        destruct (IH _ _ Hb) as (p & q & A & B & ->). exists (a ++ p), q. split; [now constructor|]. split; [assumption|now rewrite app_assoc]. }
      destruct (Q _ _ _ La) as (a & b & La' & Lb & ->). apply hsum_app in H. destruct H as (x & y & Hx & Hy & ->).
      rewrite (hash_sum_ok objs n IH _ _ _ 0 F1 La' Hx W0). cbn [obind Z.add].
      rewrite (hash_sum_ok objs n IH _ _ _ (wrap32 x) F2 Lb Hy); [|symmetry; apply wrap32_idem].
      eexists. split; [reflexivity|]. rewrite (Z.add_comm _ y), wrap32_add, (Z.add_comm y x). split; [|reflexivity].
      apply wrap32_idem.
Qed.

Theorem hash_leaves objs l ls s : leaves objs (VRef l) ls -> hsum ls s -> hash_of objs (VRef l) = OOk (wrap32 s).
Proof.
  intros L H. destruct (hash_ok objs (depth objs) _ _ _ (leaves_depth _ _ _ L) L H) as (z & E & _ & ->). exact E.
Qed.

Lemma hsum_perm a b : Permutation a b -> forall s, hsum a s -> hsum b s.
Proof.
  induction 1 as [|x a b _ IH|x y a|a b c _ IH1 _ IH2]; intros s H; auto.
  - inversion H; subst. constructor; auto.
  - inversion H; subst. inversion H4; subst. replace (h + (h0 + z0)) with (h0 + (h + z0)) by lia. constructor; [assumption|]. now constructor.
Qed.

Theorem hash_perm objs objs' l l' ls ls' s : leaves objs (VRef l) ls -> leaves objs' (VRef l') ls' -> Permutation ls ls' -> hsum ls s ->
  hash_of objs (VRef l) = hash_of objs' (VRef l').
Proof.
  intros A B P H. rewrite (hash_leaves _ _ _ _ A H). symmetry. eapply hash_leaves; [exact B|]. eapply hsum_perm; eassumption.
Qed.

(** * Copies *)
Lemma leaves_all_copied objs objs' (b : nat) (xs ys : list value) : length xs = length ys ->
  (forall i x y, nth_error xs i = Some x -> nth_error ys i = Some y -> forall ls, leaves objs x ls -> leaves objs' y ls) ->
  forall ls, leaves_all objs xs ls -> leaves_all objs' ys ls.
Proof.
  revert ys. induction xs as [|x xs IH]; intros [|y ys] L H ls K; try discriminate; inversion K; subst; [constructor|].
  constructor.
  - eapply (H 0%nat); cbn; eauto.
  - apply IH; [now injection L|intros i p q Hp Hq; apply (H (S i)); assumption|assumption].
Qed.

Lemma leaves_copy objs objs' b : extends objs objs' -> forall n v v', tree objs n v -> copied objs objs' b v v' -> forall ls, leaves objs v ls -> leaves objs' v' ls.
Proof.
  intros X. induction n as [|n IH]; intros v v' T C ls L.
  - destruct C; try contradiction; inversion L; subst; try contradiction; now constructor.
  - destruct C as [v S|l id H|l lo vs l' lo' vs' H1 H2 H3 H4 H5 H6 H7|l mo l' mo' H1 H2 H3 H4 H5 H6 H7].
    + inversion L; subst; try contradiction. now constructor.
    + inversion L; subst; try congruence; [contradiction|]. eapply lf_static. eapply extends_nth; eassumption.
    + cbn [tree] in T. rewrite H1 in T. destruct T as (ws & R & F). assert (ws = vs) as -> by (eapply rep_items; eassumption).
      inversion L; subst; try congruence; [contradiction|]. assert (lo0 = lo) as -> by congruence. assert (vs0 = vs) as -> by (eapply rep_items; eassumption).
      eapply lf_list; [exact H3|exact H4|]. eapply (leaves_all_copied objs objs' b vs vs' H6); [|eassumption].
      intros i x y Hx Hy. apply IH; [|eapply H7; eassumption]. rewrite Forall_forall in F. apply F. eapply nth_error_In. eassumption.
    + cbn [tree] in T. rewrite H1 in T. destruct T as (G & Len & _ & _ & F).
      inversion L; subst; try congruence; [contradiction|]. assert (mo0 = mo) as -> by congruence.
      eapply lf_map; [exact H2|]. eapply (leaves_all_copied objs objs' b (m_keys mo ++ m_vals mo) (m_keys mo' ++ m_vals mo')); [rewrite !app_length; congruence| |eassumption].
      intros i x y Hx Hy ls0. rewrite H4 in Hy. destruct (lt_dec i (length (m_keys mo))) as [Hi|Hi].
      * rewrite nth_error_app1 in Hx, Hy by assumption. assert (x = y) as -> by congruence. intros K. rewrite Forall_forall in G.
        pose proof (good_scalar _ (G y (nth_error_In _ _ Hx))) as S. inversion K; subst; try contradiction. now constructor.
      * rewrite nth_error_app2 in Hx, Hy by lia. apply IH; [|eapply H7; eassumption]. rewrite Forall_forall in F. apply F. eapply nth_error_In. eassumption.
Qed.

Theorem hash_copy m v n l ls s : v = VRef l -> m_pend m = false -> tree (m_objs m) n v -> leaves (m_objs m) v ls -> hsum ls s ->
  exists v' m', copy_of m v = OOk (v', m') /\ hash_of (m_objs m') v' = hash_of (m_objs m) v.
Proof.
  intros -> P T L H. destruct (copy_of_ok m _ n P T) as (v' & m' & E & _ & X & C). exists v', m'. split; [exact E|].
  pose proof (leaves_copy _ _ _ X _ _ _ T C _ L) as L'. inversion C; subst; try contradiction.
  all: rewrite (hash_leaves _ _ _ _ L H); eapply hash_leaves; eassumption.
Qed.

(** * What is never copied *)
Definition keeps (objs objs' : list hobj) : Prop := forall l o, nth_error objs l = Some o -> nth_error objs' l = Some o.
Lemma keeps_refl o : keeps o o. Proof. now intros l x. Qed.
Lemma keeps_trans a b c : keeps a b -> keeps b c -> keeps a c. Proof. intros H K l o X. auto. Qed.
Lemma keeps_app o x : keeps o (o ++ x).
Proof. intros l y H. rewrite nth_error_app1; [assumption|]. apply nth_error_Some. congruence. Qed.
Lemma keeps_set objs m l o : keeps objs (m_objs m) -> (length objs <= l)%nat -> keeps objs (m_objs (set_obj m l o)).
Proof.
  intros K Hl i y H. cbn [m_objs set_obj]. rewrite CopyProofs.nth_upd_other; [now apply K|].
  assert (i < length objs)%nat by (apply nth_error_Some; congruence). lia.
Qed.

Definition safe_copy (cp : mem -> value -> out (value * mem)) : Prop := forall m v v' m', cp m v = OOk (v', m') -> keeps (m_objs m) (m_objs m').

Lemma copy_all_keeps cp : safe_copy cp -> forall vs m ws m', copy_all cp m vs = OOk (ws, m') -> keeps (m_objs m) (m_objs m').
Proof.
  intros SC. induction vs as [|v vs IH]; cbn [copy_all]; intros m ws m' H; [injection H as _ <-; apply keeps_refl|].
  destruct (cp m v) as [[x m1]| | | |] eqn:E; try discriminate. cbn [obind snd] in H. destruct (m_pend m1); [discriminate|].
  destruct (copy_all cp m1 vs) as [[y m2]| | | |] eqn:E2; try discriminate. cbn [obind snd fst] in H. injection H as _ <-.
  eapply keeps_trans; [eapply SC; eassumption|]. eapply IH. eassumption.
Qed.

Lemma map_store_keeps cp m l mo k v m' objs : safe_copy cp -> map_store cp m l mo k v = OOk m' -> keeps objs (m_objs m) -> (length objs <= l)%nat ->
  keeps objs (m_objs m').
Proof.
  intros SC H K Hl. unfold map_store in H.
  destruct (if map_count mo =? calc_capacity (msize mo) then _ else _) as [mo'| | | |]; try discriminate. cbn [obind] in H.
  destruct (hash_of (m_objs m) k); try discriminate. cbn [obind] in H.
  destruct (find_slot _ _ mo' k).
  2: destruct (cp m k) as [[k2 m2]| | | |] eqn:Ec; try discriminate; cbn [obind fst snd] in H.
  all: destruct (put _ _ _ _ _ _); try discriminate; injection H as <-; apply keeps_set; try assumption.
  eapply keeps_trans; [exact K|]. eapply SC. eassumption.
Qed.

Lemma copy_pairs_keeps cp objs l : safe_copy cp -> (length objs <= l)%nat -> forall kvs m m', keeps objs (m_objs m) -> copy_pairs cp m l kvs = OOk m' ->
  keeps objs (m_objs m').
Proof.
  intros SC Hl. induction kvs as [|[k v] kvs IH]; cbn [copy_pairs]; intros m m' K H; [injection H as <-; assumption|].
  destruct (cp m k) as [[k2 m2]| | | |] eqn:E1; try discriminate. cbn [obind fst snd] in H.
  destruct (cp m2 v) as [[v2 m3]| | | |] eqn:E2; try discriminate. cbn [obind fst snd] in H.
  destruct (nth_error (m_objs m3) l) as [[]|]; try discriminate.
  destruct (map_store cp m3 l _ k2 v2) as [m4| | | |] eqn:E3; try discriminate. cbn [obind] in H.
  eapply IH; [|exact H]. eapply map_store_keeps; [exact SC|exact E3| |exact Hl].
  eapply keeps_trans; [exact K|]. eapply keeps_trans; eapply SC; eassumption.
Qed.

Lemma copy_keeps : forall n, safe_copy (obj_copy n).
Proof.
  induction n as [|n IH]; intros m v v' m' H; destruct v; cbn [obj_copy] in H; try discriminate.
  all: try (injection H as _ <-; apply keeps_refl).
  destruct (nth_error (m_objs m) l) as [[]|]; try discriminate.
  - destruct (list_items l0) as [vs|]; [|discriminate]. cbn [alloc] in H.
    destruct (copy_all _ _ vs) as [[ws m2]| | | |] eqn:E; try discriminate. cbn [obind snd fst] in H. injection H as _ <-.
    apply keeps_set; [|apply le_n]. eapply keeps_trans; [|eapply copy_all_keeps; [exact IH|exact E]]. cbn [m_objs]. apply keeps_app.
  - cbn [alloc] in H. destruct (copy_pairs _ _ _ _) as [m2| | | |] eqn:E; try discriminate. cbn [obind] in H. injection H as _ <-.
    eapply copy_pairs_keeps; [exact IH|apply le_n| |exact E]. cbn [m_objs]. apply keeps_app.
  - injection H as _ <-. apply keeps_refl.
Qed.

Lemma uncopied_keeps objs objs' v : keeps objs objs' -> uncopied objs v -> uncopied objs' v.
Proof.
  intros K. induction 1.
  - constructor.
  - constructor.
  - eapply un_obj; eauto.
  - eapply un_list; eauto.
  - eapply un_key; eauto.
  - eapply un_val; eauto.
Qed.

Lemma copy_all_in cp : safe_copy cp -> forall vs m v, (forall m', keeps (m_objs m) (m_objs m') -> forall r, cp m' v <> OOk r) -> In v vs ->
  forall r, copy_all cp m vs <> OOk r.
Proof.
  intros SC. induction vs as [|w vs IH]; intros m v H I r; [destruct I|]. cbn [copy_all]. destruct I as [->|I].
  - destruct (cp m v) as [x| | | |] eqn:E; cbn [obind]; try discriminate. exfalso. apply (H m (keeps_refl _) x). exact E.
  - destruct (cp m w) as [[x m1]| | | |] eqn:E; cbn [obind snd]; try discriminate. destruct (m_pend m1); [discriminate|].
    destruct (copy_all cp m1 vs) as [y| | | |] eqn:E2; cbn [obind]; try discriminate. exfalso. refine (IH m1 v _ I y E2).
    intros m' K. apply H. eapply keeps_trans; [eapply SC; eassumption|exact K].
Qed.

Lemma copy_pairs_in cp objs l : safe_copy cp -> (length objs <= l)%nat -> forall kvs m k v, keeps objs (m_objs m) ->
  ((forall m', keeps objs (m_objs m') -> forall r, cp m' k <> OOk r) \/ (forall m', keeps objs (m_objs m') -> forall r, cp m' v <> OOk r)) ->
  In (k, v) kvs -> forall r, copy_pairs cp m l kvs <> OOk r.
Proof.
  intros SC Hl. induction kvs as [|[a b] kvs IH]; intros m k v K H I r; [destruct I|]. cbn [copy_pairs].
  destruct (cp m a) as [[k2 m2]| | | |] eqn:E1; try discriminate. cbn [obind fst snd].
  destruct (cp m2 b) as [[v2 m3]| | | |] eqn:E2; try discriminate. cbn [obind fst snd].
  assert (K2 : keeps objs (m_objs m2)) by (eapply keeps_trans; [exact K|eapply SC; eassumption]).
  assert (K3 : keeps objs (m_objs m3)) by (eapply keeps_trans; [exact K2|eapply SC; eassumption]).
  destruct I as [I|I].
  - injection I as -> ->. exfalso. destruct H as [H|H]; [exact (H m K _ E1)|exact (H m2 K2 _ E2)].
  - destruct (nth_error (m_objs m3) l) as [[]|]; try discriminate.
    destruct (map_store cp m3 l _ k2 v2) as [m4| | | |] eqn:E3; try discriminate. cbn [obind].
    eapply IH; [|exact H|exact I]. eapply map_store_keeps; [exact SC|exact E3|exact K3|exact Hl].
Qed.

Theorem copy_refused objs v : uncopied objs v -> forall n m, keeps objs (m_objs m) -> forall r, obj_copy n m v <> OOk r.
Proof.
  induction 1 as [t| |l o Hl Ho|l lo vs v Hl R I _ IH|l mo k v Hl I _ IH|l mo k v Hl I _ IH]; intros n m K r.
  1,2: destruct n; discriminate.
  all: destruct n as [|n]; [discriminate|]; cbn [obj_copy]; rewrite (K _ _ Hl).
  - destruct o; try contradiction; discriminate.
  - rewrite (items_rep _ _ R). cbn [alloc]. destruct (copy_all _ _ vs) as [x| | | |] eqn:E; cbn [obind]; try discriminate.
    exfalso. refine (copy_all_in _ (copy_keeps n) vs _ v _ I x E). intros m' K'. apply IH. eapply keeps_trans; [exact K|].
    eapply keeps_trans; [|exact K']. cbn [m_objs]. apply keeps_app.
  - cbn [alloc]. destruct (copy_pairs _ _ _ _) as [x| | | |] eqn:E; cbn [obind]; try discriminate.
    exfalso. refine (copy_pairs_in _ (m_objs m) _ (copy_keeps n) (le_n _) _ _ k v _ _ I x E); [cbn [m_objs]; apply keeps_app|left].
    intros m' K'. apply IH. eapply keeps_trans; eassumption.
  - cbn [alloc]. destruct (copy_pairs _ _ _ _) as [x| | | |] eqn:E; cbn [obind]; try discriminate.
    exfalso. refine (copy_pairs_in _ (m_objs m) _ (copy_keeps n) (le_n _) _ _ k v _ _ I x E); [cbn [m_objs]; apply keeps_app|right].
    intros m' K'. apply IH. eapply keeps_trans; eassumption.
Qed.

Theorem copy_of_refused m v r : uncopied (m_objs m) v -> copy_of m v <> OOk r.
Proof. intros H. apply (copy_refused _ _ H). apply keeps_refl. Qed.
Theorem copy_of_keeps m v v' m' l o : copy_of m v = OOk (v', m') -> nth_error (m_objs m) l = Some o -> nth_error (m_objs m') l = Some o.
Proof. intros H. exact (copy_keeps _ _ _ _ _ H l o). Qed.

(** * A list or map used as a key is never found *)
Lemma compare_collection objs k w : is_collection objs k -> obj_compare (rt_of objs) k w <> Some true.
Proof.
  intros (l & o & -> & _ & _). unfold obj_compare. destruct (negb _); [discriminate|]. destruct w; discriminate.
Qed.
Lemma map_cmp_collection m k w : is_collection (m_objs m) k -> map_cmp m k w <> Some true.
Proof.
  intros H. unfold map_cmp. pose proof (compare_collection _ _ w H) as C. destruct (obj_compare _ k w) as [[]|]; [congruence|destruct (m_pend m); discriminate|discriminate].
Qed.
Lemma find_loop_none (cmp : value -> value -> option bool) (mo : hmap value value) k : (forall w, cmp k w <> Some true) ->
  forall f st i, find_loop cmp f mo k st <> Found i.
Proof.
  intros H. induction f as [|f IH]; intros st i; cbn [find_loop]; [discriminate|].
  destruct (zget (m_mapper mo) (fst st)); [|discriminate]. destruct (_ =? -1); [discriminate|].
  destruct (zget (m_keys mo) _) as [w|]; [|discriminate]. specialize (H w). destruct (cmp k w) as [[]|]; [congruence|apply IH|discriminate].
Qed.
Theorem never_found E m l mo k r m' : nth_error (m_objs m) l = Some (OMap mo) -> is_collection (m_objs m) k -> select_of E m (VRef l) k = OOk (r, m') -> r = None.
Proof.
  intros Hl C H. unfold select_of, depth in H. cbn [obj_select] in H. rewrite Hl in H. unfold map_sel in H.
  destruct (hash_of (m_objs m) k); try discriminate. cbn [obind] in H. unfold map_select in H.
  pose proof (find_loop_none (map_cmp m) mo k (fun w => map_cmp_collection m k w C)) as N.
  destruct (find_slot _ _ mo k) as [i| | | |] eqn:F; try discriminate; try (injection H as <- _; reflexivity).
  exfalso. eapply N. exact F.
Qed.

(** * Keys that are not numbers *)
Lemma select_other_key E m col k : (exists s, col = VStr s) \/ (exists l lo, col = VRef l /\ nth_error (m_objs m) l = Some (OList lo)) ->
  (forall i, k <> VInt i) -> exists m', select_of E m col k = OOk (None, m') /\ m_pend m' = true /\ m_objs m' = m_objs m.
Proof.
  intros C K. exists (set_pend m true). split; [|split; reflexivity]. unfold select_of, depth.
  destruct C as [(s & ->)|(l & lo & -> & Hl)]; cbn [obj_select]; [|rewrite Hl]; unfold keyed; destruct k; try reflexivity; exfalso; eapply K; reflexivity.
Qed.
Lemma insert_other_key E m col k v : (exists s, col = VStr s) \/ (exists l lo, col = VRef l /\ nth_error (m_objs m) l = Some (OList lo)) ->
  (forall i, k <> VInt i) -> insert_of E m col k v = OErr.
Proof.
  intros C K. unfold insert_of.
  destruct C as [(s & ->)|(l & lo & -> & Hl)]; [reflexivity|]. rewrite Hl. destruct k; try reflexivity. exfalso. eapply K. reflexivity.
Qed.
