(** Object_Copy: the copy of a value has the same structure and shares no list and no map with what existed before. *)
From Coq Require Import ZArith List Lia Bool.
From Verif Require Import Base Utf8Model Utf8Proofs HashModel FloatModel StringModel ValueModel TextProofs MapModel MapSpec ProbeProofs
  MapProofs MapProofs2 ListModel SeqSpec ListProofs ExeModel ArithModel ObjModel AstModel CodegenModel VmModel SrcModel ScopeSpec ScopeProofs.
Import ListNotations.
Open Scope Z_scope.

(** * Scalar keys in the store *)
Lemma good_hash objs k : good_key k -> hash_of objs k = OOk (vhash k).
Proof.
  intros (H & _ & S). unfold hash_of, vhash. unfold depth. destruct k; cbn in H; try contradiction; cbn [obj_hash scalar_hash]; try reflexivity.
  destruct (str_hash (str_of bytes)) eqn:E; [reflexivity|]. exfalso. unfold str_hash, s_mem, str_of in E. cbn [s_count s_bytes] in E.
  destruct S as [HB HL]. pose proof (strlen_total bytes (length bytes) HB (le_n _)) as SL.
  assert (X : forall n, 0 <= n <= Z.of_nat (length bytes) -> hashbytes (bytes ++ [0]) (Z.to_nat n) <> None).
  { intros n Hn. unfold hashbytes. destruct (bytes ++ [0]) eqn:Eb; [destruct bytes; discriminate|]. rewrite <- Eb.
    destruct (Nat.ltb_spec (length (bytes ++ [0])) (Z.to_nat n)) as [Hx|_]; [rewrite app_length in Hx; cbn [length] in Hx; lia|discriminate]. }
  destruct SL as [ES|(n & ES & R' & _)]; rewrite ES in E.
  - revert E. change (Z.to_nat (-1)) with (Z.to_nat 0). apply X. lia.
  - revert E. apply X. lia.
Qed.
Lemma good_hash0 objs k : good_key k -> hash_or0 objs k = vhash k.
Proof. intros H. unfold hash_or0. now rewrite good_hash. Qed.

Lemma good_mapcmp m a b : m_pend m = false -> map_cmp m a b = obj_compare (rt_of (m_objs m)) a b.
Proof. intros HP. unfold map_cmp. rewrite HP. destruct (obj_compare _ _ _) as [[|]|]; reflexivity. Qed.

Lemma good_cmp0 m a b : m_pend m = false -> good_key a -> good_key b -> map_cmp m a b = cmp0 a b.
Proof. intros HP Ha Hb. rewrite good_mapcmp by assumption. unfold cmp0. now rewrite !good_cmp by assumption. Qed.

Lemma good_hashes objs ks : Forall good_key ks -> hashes_ok objs ks = OOk tt.
Proof. induction 1 as [|k r Hk _ IH]; cbn [hashes_ok]; [reflexivity|]. rewrite (good_hash objs k Hk). cbn [obind]. exact IH. Qed.

Lemma store_good cp m l mo key v : m_pend m = false -> Forall good_key (m_keys mo) -> good_key key -> cp m key = OOk (key, m) ->
  map_store cp m l mo key v =
  match map_insert vhash cmp0 mo key v with
  | InsOk mo2 => OOk (set_obj m l (OMap mo2)) | InsErr => OErr | InsUB => OUB | InsTimeout => OLoop
  end.
Proof.
  intros HP HK HN EC. unfold map_store, map_insert. rewrite (good_hashes _ _ HK). cbn [obind].
  assert (Hh : forall k, In k (m_keys mo) -> hash_or0 (m_objs m) k = vhash k).
  { intros k Hk. apply good_hash0. rewrite Forall_forall in HK. auto. }
  assert (body : forall mo', incl (m_keys mo') (m_keys mo) ->
    obind (hash_of (m_objs m) key) (fun _ =>
      let putk m2 key' :=
        match put (hash_or0 (m_objs m)) (map_cmp m) mo' key key' v with
        | InsOk mo2 => OOk (set_obj m2 l (OMap mo2)) | InsErr => OErr | InsUB => OUB | InsTimeout => OLoop end in
      match find_slot (hash_or0 (m_objs m)) (map_cmp m) mo' key with
      | Free _ => obind (cp m key) (fun r => putk (snd r) (fst r))
      | _ => putk m key
      end) =
    match put vhash cmp0 mo' key key v with
    | InsOk mo2 => OOk (set_obj m l (OMap mo2)) | InsErr => OErr | InsUB => OUB | InsTimeout => OLoop end).
  { intros mo' HI. rewrite (good_hash (m_objs m) key) by exact HN. cbn [obind].
    assert (E1 : hash_or0 (m_objs m) key = vhash key) by (apply good_hash0; exact HN).
    assert (E2 : forall k, In k (m_keys mo') -> map_cmp m key k = cmp0 key k).
    { intros k Hk. apply good_cmp0; [exact HP|exact HN|]. rewrite Forall_forall in HK. apply HK, HI, Hk. }
    rewrite (find_slot_ext _ _ _ _ mo' key E1 E2).
    rewrite EC. cbn [obind fst snd]. rewrite (put_ext _ _ _ _ mo' key key v E1 E2).
    destruct (find_slot vhash cmp0 mo' key); reflexivity. }
  destruct (_ =? _) eqn:EQ.
  - rewrite (grow_ext _ vhash mo Hh). destruct (grow vhash mo) as [mo'| | |] eqn:EG; cbn [obind]; try reflexivity.
    apply body. rewrite (grow_keys _ _ _ EG). apply incl_refl.
  - cbn [obind]. apply body. apply incl_refl.
Qed.

Notation wfm := (wf vhash veqb good_key).
Lemma wf_good (mo : hmap value value) : wfm mo -> Forall good_key (m_keys mo).
Proof. intros (C & _). apply (c_good _ _ _ _ _ C). Qed.

Lemma good_sel (m : mem) mo k : m_pend m = false -> wfm mo -> good_key k ->
  map_sel m mo k = OOk (a_read veqb (combine (m_keys mo) (m_vals mo)) k, m).
Proof.
  intros Hp W G. unfold map_sel. rewrite (good_hash _ _ G). cbn [obind]. unfold map_select.
  rewrite (find_slot_ext _ vhash _ cmp0 mo k).
  - change (match find_slot vhash cmp0 mo k with Found q => match nth_error (m_vals mo) q with Some v => SelVal v | None => SelUB end
      | Free _ => SelNone | SlotErr => SelErr | SlotUB => SelUB | SlotTimeout => SelTimeout end) with (map_select vhash cmp0 mo k).
    rewrite (select_refines vhash cmp0 veqb good_key); auto using veqb_refl, veqb_hash, vhash_int; try exact veqb_trans.
    + unfold abs. destruct (a_read _ _ _); reflexivity.
    + intros. unfold cmp0. apply good_cmp; auto.
    + intros. apply veqb_sym.
  - now apply good_hash0.
  - intros k' Hk. apply good_cmp0; auto. pose proof (wf_good mo W) as X. rewrite Forall_forall in X. auto.
Qed.

Lemma cmp0_good a b : good_key a -> good_key b -> cmp0 a b = Some (veqb a b).
Proof. intros. unfold cmp0. now apply good_cmp. Qed.
Notation inst L := (L vhash cmp0 veqb good_key cmp0_good veqb_refl (fun a b _ _ => veqb_sym a b) veqb_trans veqb_hash vhash_int).

(** * The two sides of a copy *)
(** A value made of scalars, lists, and maps with scalar keys, of nesting at most [n]. *)
Fixpoint tree (objs : list hobj) (n : nat) (v : value) : Prop :=
  match v with
  | VRef l =>
    match n with
    | O => False
    | S n' =>
      match nth_error objs l with
      | Some (OList lo) => exists vs, rep lo vs /\ Forall (tree objs n') vs
      | Some (OMap mo) => Forall good_key (m_keys mo) /\ length (m_keys mo) = length (m_vals mo) /\ Z.of_nat (length (m_keys mo)) < 2^26 /\
          (forall i j a b, i <> j -> nth_error (m_keys mo) i = Some a -> nth_error (m_keys mo) j = Some b -> veqb a b = false) /\
          Forall (tree objs n') (m_vals mo)
      | Some (OSMap _) => True
      | _ => False
      end
    end
  | VType _ | VAny => False
  | _ => True
  end.

Definition scalar (v : value) : Prop := match v with VRef _ | VType _ | VAny => False | _ => True end.

(** [v'], read in [objs'], is a copy of [v], read in [objs], made of objects at [b] or later. *)
Inductive copied (objs objs' : list hobj) (b : nat) : value -> value -> Prop :=
| cp_scalar v : scalar v -> copied objs objs' b v v
| cp_static l id : nth_error objs l = Some (OSMap id) -> copied objs objs' b (VRef l) (VRef l)
| cp_list l lo vs l' lo' vs' : nth_error objs l = Some (OList lo) -> rep lo vs ->
    nth_error objs' l' = Some (OList lo') -> rep lo' vs' -> (b <= l')%nat -> length vs = length vs' ->
    (forall i x y, nth_error vs i = Some x -> nth_error vs' i = Some y -> copied objs objs' b x y) ->
    copied objs objs' b (VRef l) (VRef l')
| cp_map l mo l' mo' : nth_error objs l = Some (OMap mo) ->
    nth_error objs' l' = Some (OMap mo') -> (b <= l')%nat -> m_keys mo' = m_keys mo -> length (m_vals mo) = length (m_vals mo') ->
    (forall m i k y, m_pend m = false -> nth_error (m_keys mo) i = Some k -> nth_error (m_vals mo') i = Some y -> map_sel m mo' k = OOk (Some y, m)) ->
    (forall i x y, nth_error (m_vals mo) i = Some x -> nth_error (m_vals mo') i = Some y -> copied objs objs' b x y) ->
    copied objs objs' b (VRef l) (VRef l').

Lemma copied_more objs objs' objs'' b b' v v' : copied objs objs' b v v' -> (b' <= b)%nat ->
  (forall k o, (b <= k)%nat -> nth_error objs' k = Some o -> nth_error objs'' k = Some o) -> copied objs objs'' b' v v'.
Proof.
  intros H Hb Hx. induction H as [v S|l id H|l lo vs l' lo' vs' H1 H2 H3 H4 H5 H6 H7 IH|l mo l' mo' H1 H2 H3 H4 H5 H6 H7 IH].
  - now constructor.
  - eapply cp_static. eassumption.
  - eapply cp_list; try eassumption; [auto|lia].
  - eapply cp_map; try eassumption; [auto|lia].
Qed.

Lemma tree_app objs x : forall n v, tree objs n v -> tree (objs ++ x) n v.
Proof.
  induction n as [|n IH]; intros v; destruct v; cbn [tree]; auto.
  destruct (nth_error objs l) as [o|] eqn:E; [|contradiction]. rewrite nth_error_app1 by (apply nth_error_Some; rewrite E; discriminate). rewrite E.
  destruct o; auto.
  - intros (vs & R & F). exists vs. split; [assumption|]. eapply Forall_impl; [|exact F]. apply IH.
  - intros (A & B & C & D & F). repeat split; try assumption. eapply Forall_impl; [|exact F]. apply IH.
Qed.

(** The original of the copy was there before the copy began. *)
Lemma copied_orig objs x objs' b : forall n v v', tree objs n v -> copied (objs ++ x) objs' b v v' -> copied objs objs' b v v'.
Proof.
  induction n as [|n IH]; intros v v' T H.
  - destruct H as [v S|l id H|l lo vs l' lo' vs' H1 H2 H3 H4 H5 H6 H7|l mo l' mo' H1 H2 H3 H4 H5 H6 H7]; try contradiction. now constructor.
  - destruct H as [v S|l id H|l lo vs l' lo' vs' H1 H2 H3 H4 H5 H6 H7|l mo l' mo' H1 H2 H3 H4 H5 H6 H7]; [now constructor| | |].
    all: cbn [tree] in T; destruct (nth_error objs l) as [o|] eqn:E; [|contradiction].
    all: assert (E' : nth_error (objs ++ x) l = Some o) by (rewrite nth_error_app1 by (apply nth_error_Some; rewrite E; discriminate); exact E).
    + rewrite E' in H. injection H as ->. eapply cp_static. eassumption.
    + rewrite E' in H1. injection H1 as ->. destruct T as (ws & R & F).
      assert (ws = vs) as ->.
      { destruct R as (R1 & _ & _ & R2), H2 as (Q1 & _ & _ & Q2). assert (length ws = length vs) by lia. rewrite H in R2. rewrite R2 in Q2.
        clear - Q2. revert vs Q2. induction ws as [|w ws IH]; intros [|v vs] H; try discriminate; [reflexivity|]. injection H as -> H. f_equal. auto. }
      eapply cp_list; try eassumption. intros i y z Hy Hz. apply IH; [|eauto]. rewrite Forall_forall in F. apply F. eapply nth_error_In. eassumption.
    + rewrite E' in H1. injection H1 as ->. destruct T as (_ & _ & _ & _ & F).
      eapply cp_map; try eassumption. intros i y z Hy Hz. apply IH; [|eauto]. rewrite Forall_forall in F. apply F. eapply nth_error_In. eassumption.
Qed.

Lemma tree_more objs : forall n k v, tree objs n v -> (n <= k)%nat -> tree objs k v.
Proof.
  induction n as [|n IH]; intros k v; destruct v; cbn [tree]; destruct k; cbn [tree]; auto; try lia; try contradiction.
  intros T Hk. destruct (nth_error objs l) as [[]|]; auto.
  - destruct T as (vs & R & F). exists vs. split; [assumption|]. eapply Forall_impl; [|exact F]. intros a Ha. apply IH; [assumption|lia].
  - destruct T as (A & B & C & D & F). repeat split; try assumption. eapply Forall_impl; [|exact F]. intros a Ha. apply IH; [assumption|lia].
Qed.

Definition extends (objs objs' : list hobj) : Prop := exists new, objs' = objs ++ new.
Lemma extends_refl objs : extends objs objs. Proof. exists []. now rewrite app_nil_r. Qed.
Lemma extends_trans a b c : extends a b -> extends b c -> extends a c.
Proof. intros [x ->] [y ->]. exists (x ++ y). now rewrite app_assoc. Qed.
Lemma extends_nth a b k o : extends a b -> nth_error a k = Some o -> nth_error b k = Some o.
Proof. intros [x ->] H. rewrite nth_error_app1; [assumption|]. apply nth_error_Some. rewrite H. discriminate. Qed.

(** What one call of Object_Copy does. *)
Definition copies (cp : mem -> value -> out (value * mem)) (n : nat) : Prop := forall m v, m_pend m = false -> tree (m_objs m) n v ->
  exists v' m', cp m v = OOk (v', m') /\ m_pend m' = false /\ extends (m_objs m) (m_objs m') /\ copied (m_objs m) (m_objs m') (length (m_objs m)) v v'.

Lemma copy_all_ok cp n : copies cp n -> forall vs m, m_pend m = false -> Forall (tree (m_objs m) n) vs ->
  exists vs' m', copy_all cp m vs = OOk (vs', m') /\ m_pend m' = false /\ extends (m_objs m) (m_objs m') /\ length vs = length vs' /\
  forall i x y, nth_error vs i = Some x -> nth_error vs' i = Some y -> copied (m_objs m) (m_objs m') (length (m_objs m)) x y.
Proof.
  intros CP. induction vs as [|v vs IH]; intros m HP F; cbn [copy_all].
  - exists [], m. split; [reflexivity|]. split; [assumption|]. split; [apply extends_refl|]. split; [reflexivity|]. intros [|i]; discriminate.
  - inversion F as [|? ? Tv Tvs]; subst. destruct (CP m v HP Tv) as (v' & m1 & E & P1 & X1 & C1). rewrite E. cbn [obind snd]. rewrite P1.
    pose proof X1 as [new Hnew].
    destruct (IH m1 P1) as (vs' & m2 & E2 & P2 & X2 & L2 & C2).
    { rewrite Hnew. eapply Forall_impl; [|exact Tvs]. intros a. apply tree_app. }
    rewrite E2. cbn [obind fst snd]. exists (v' :: vs'), m2. split; [reflexivity|]. split; [assumption|].
    split; [eapply extends_trans; eassumption|]. split; [cbn [length]; lia|].
    intros [|i] x y Hx Hy; cbn [nth_error] in Hx, Hy.
    + injection Hx as <-. injection Hy as <-. eapply copied_more; [exact C1|lia|]. intros k o _ Hk. eapply extends_nth; eassumption.
    + specialize (C2 i x y Hx Hy). rewrite Hnew in C2 at 1. apply copied_orig with (n := n) in C2.
      * eapply copied_more; [exact C2|rewrite Hnew, app_length; lia|auto].
      * rewrite Forall_forall in Tvs. apply Tvs. eapply nth_error_In. eassumption.
Qed.

Lemma items_rep lo vs : rep lo vs -> list_items lo = Some vs.
Proof.
  intros (H1 & _ & _ & H2). unfold list_items. rewrite H1, Nat2Z.id, H2. clear. induction vs as [|v vs IH]; [reflexivity|]. cbn [map some_all]. now rewrite IH.
Qed.

(** * Copying maps *)
Lemma capacity_grows f s num : 0 < s -> (num <= calc_capacity (new_mapper_size f s num) \/ new_mapper_size f s num = s * 2 ^ Z.of_nat f).
Proof.
  revert s. induction f as [|f IH]; intros s Hs; cbn [new_mapper_size].
  - right. rewrite Z.mul_1_r. reflexivity.
  - destruct (Z.ltb_spec (calc_capacity s) num); [|left; lia].
    destruct (IH (s * 2) ltac:(lia)) as [|E]; [left; assumption|right]. rewrite E. rewrite Nat2Z.inj_succ, Z.pow_succ_r by lia. lia.
Qed.

Lemma new_map_room num : 0 <= num < 2^26 -> num <= calc_capacity (msize (new_map (K := value) (V := value) num)).
Proof.
  intros H. unfold msize, new_map. cbn [m_mapper]. rewrite repeat_length. destruct (Z.ltb_spec num 0); [lia|].
  destruct (new_mapper_size_spec 30 3 num ltac:(lia)) as (k & Hk & E & _). change (2 ^ Z.of_nat 3) with 8 in E.
  assert (0 < 2 ^ Z.of_nat k) by (apply Z.pow_pos_nonneg; lia).
  destruct (capacity_grows 30 8 num ltac:(lia)) as [C|C].
  - rewrite Z2Nat.id by lia. exact C.
  - rewrite C. change (8 * 2 ^ Z.of_nat 30) with (2^33). rewrite Z2Nat.id by lia. unfold calc_capacity.
    Z.to_euclidean_division_equations. lia.
Qed.

Lemma combine_app {A B} (a1 a2 : list A) (b1 b2 : list B) : length a1 = length b1 -> combine (a1 ++ a2) (b1 ++ b2) = combine a1 b1 ++ combine a2 b2.
Proof. revert b1. induction a1 as [|x a1 IH]; intros [|y b1] H; try discriminate; [reflexivity|]. cbn [app combine]. f_equal. apply IH. cbn in H. lia. Qed.

Lemma combine_inj {A B} (a1 a2 : list A) (b1 b2 : list B) : length a1 = length b1 -> length a2 = length b2 -> combine a1 b1 = combine a2 b2 -> a1 = a2 /\ b1 = b2.
Proof.
  revert a2 b1 b2. induction a1 as [|x a1 IH]; intros [|y a2] [|z b1] [|w b2] H1 H2 H; try discriminate; [split; reflexivity|].
  cbn in *. injection H as -> -> H. destruct (IH a2 b1 b2) as [-> ->]; auto.
Qed.

Lemma copy_scalar f m v : scalar v -> obj_copy f m v = OOk (v, m).
Proof. destruct v; cbn [scalar]; try contradiction; intros _; destruct f; reflexivity. Qed.
Lemma good_scalar k : good_key k -> scalar k.
Proof. intros (H & _). destruct k; cbn in *; auto. Qed.

(** One more pair, whose key is new. *)
Lemma insert_new (mo : hmap value value) k v : wfm mo -> good_key k -> Z.of_nat (length (m_keys mo)) < 2^26 ->
  Z.of_nat (length (m_keys mo)) < calc_capacity (msize mo) -> (forall q k', nth_error (m_keys mo) q = Some k' -> veqb k k' = false) ->
  exists mo', map_insert vhash cmp0 mo k v = InsOk mo' /\ wfm mo' /\ m_keys mo' = m_keys mo ++ [k] /\ m_vals mo' = m_vals mo ++ [v] /\ (length (m_mapper mo) <= length (m_mapper mo'))%nat.
Proof.
  intros W G Hs Hr Hn.
  destruct (inst insert_refines mo k v W G Hs (or_intror Hr)) as (mo' & E & W' & A & _ & L & _).
  exists mo'. split; [exact E|]. split; [exact W'|].
  pose proof W as (_ & Wl & _). pose proof W' as (_ & Wl' & _).
  unfold abs in A. rewrite (inst a_store_combine_new) in A by auto.
  apply combine_inj in A; [|lia|rewrite !app_length; cbn [length]; lia]. destruct A as [-> ->]. auto.
Qed.

Lemma nth_upd_other {A} (l : list A) i j x : i <> j -> nth_error (upd l i x) j = nth_error l j.
Proof. intros H. now apply nth_error_upd_other. Qed.

Lemma upd_mid {A} (l r : list A) x y : upd (l ++ x :: r) (length l) y = l ++ y :: r.
Proof. induction l as [|z l IH]; [reflexivity|]. cbn [length app upd]. now rewrite IH. Qed.

Section Pairs.
Variables (f n : nat) (b : nat).
Hypothesis CP : copies (obj_copy f) n.

(** The loop that fills the copy, which is the object at [b]. [objs0]: the store before the copy was begun. *)
Lemma copy_pairs_ok objs0 : length objs0 = b -> forall ks vs m mo, m_pend m = false -> length ks = length vs ->
  (exists new, m_objs m = objs0 ++ OMap mo :: new) -> wfm mo -> Forall good_key ks -> Forall (tree objs0 n) vs ->
  Z.of_nat (length (m_keys mo)) + Z.of_nat (length ks) <= calc_capacity (msize mo) ->
  Z.of_nat (length (m_keys mo)) + Z.of_nat (length ks) < 2^26 ->
  (forall i j a c, i <> j -> nth_error (m_keys mo ++ ks) i = Some a -> nth_error (m_keys mo ++ ks) j = Some c -> veqb a c = false) ->
  exists m' mo' vs', copy_pairs (obj_copy f) m b (combine ks vs) = OOk m' /\ m_pend m' = false /\
    (exists new', m_objs m' = objs0 ++ OMap mo' :: new') /\ wfm mo' /\ m_keys mo' = m_keys mo ++ ks /\ m_vals mo' = m_vals mo ++ vs' /\ length vs = length vs' /\
    (forall k o, (b < k)%nat -> nth_error (m_objs m) k = Some o -> nth_error (m_objs m') k = Some o) /\
    (forall i x y, nth_error vs i = Some x -> nth_error vs' i = Some y -> copied objs0 (m_objs m') (S b) x y).
Proof.
  intros Hb. induction ks as [|k ks IH]; intros vs m mo HP Hl [new Hm] W G F Hc Hs Hd.
  - destruct vs; [|discriminate]. exists m, mo, []. cbn [combine copy_pairs]. rewrite !app_nil_r. repeat split; auto; try apply W; [eauto|].
    intros [|i]; discriminate.
  - destruct vs as [|v vs]; [discriminate|]. cbn [combine copy_pairs length] in *. inversion G as [|? ? Gk Gks]; subst x l. inversion F as [|? ? Tv Tvs]; subst x l.
    rewrite copy_scalar by now apply good_scalar. cbn [obind fst snd].
    destruct (CP m v HP) as (v' & m1 & E & P1 & X1 & C1).
    { rewrite Hm. now apply tree_app. }
    rewrite E. cbn [obind fst snd]. pose proof X1 as [new1 Hm1]. rewrite Hm in Hm1.
    assert (Eb : nth_error (m_objs m1) b = Some (OMap mo)).
    { rewrite Hm1, <- app_assoc, nth_error_app2 by lia. rewrite Hb, Nat.sub_diag. reflexivity. }
    rewrite Eb. rewrite (store_good _ _ _ _ _ _ P1 (wf_good mo W) Gk) by (apply copy_scalar, good_scalar, Gk).
    assert (Hnew : forall q k', nth_error (m_keys mo) q = Some k' -> veqb k k' = false).
    { intros q k' Hq. apply (Hd (length (m_keys mo)) q).
      - assert (q < length (m_keys mo))%nat by (apply nth_error_Some; rewrite Hq; discriminate). lia.
      - rewrite nth_error_app2, Nat.sub_diag by lia. reflexivity.
      - rewrite nth_error_app1; [exact Hq|]. apply nth_error_Some. rewrite Hq. discriminate. }
    destruct (insert_new mo k v' W Gk) as (mo1 & Ei & W1 & K1 & V1 & L1); [lia|lia|exact Hnew|].
    rewrite Ei. cbn [obind].
    set (m2 := set_obj m1 b (OMap mo1)).
    assert (Hm2 : m_objs m2 = objs0 ++ OMap mo1 :: (new ++ new1)).
    { unfold m2, set_obj. cbn [m_objs]. rewrite Hm1, <- app_assoc. cbn [app]. rewrite <- Hb. apply upd_mid. }
    destruct (IH vs m2 mo1) as (m' & mo' & vs' & E' & P' & X' & W' & K' & V' & L' & S' & C').
    + exact P1.
    + lia.
    + eexists. exact Hm2.
    + exact W1.
    + exact Gks.
    + exact Tvs.
    + rewrite K1, app_length. cbn [length]. assert (calc_capacity (msize mo) <= calc_capacity (msize mo1)).
      { unfold calc_capacity, msize. apply Z.div_le_mono; lia. } lia.
    + rewrite K1, app_length. cbn [length]. lia.
    + intros i j a c. rewrite K1, <- app_assoc. cbn [app]. apply Hd.
    + exists m', mo', (v' :: vs'). split; [exact E'|]. split; [exact P'|]. split; [exact X'|]. split; [exact W'|].
      split; [rewrite K', K1, <- app_assoc; reflexivity|]. split; [rewrite V', V1, <- app_assoc; reflexivity|]. split; [cbn [length]; lia|].
      assert (Keep : forall q o, (b < q)%nat -> nth_error (m_objs m1) q = Some o -> nth_error (m_objs m') q = Some o).
      { intros q o Hq Ho. apply S'; [assumption|]. unfold m2, set_obj. cbn [m_objs]. rewrite nth_upd_other by lia. exact Ho. }
      split.
      * intros q o Hq Ho. apply Keep; [assumption|]. eapply extends_nth; eassumption.
      * intros [|i] x y Hx Hy; cbn [nth_error] in Hx, Hy; [|eauto].
        injection Hx as <-. injection Hy as <-. rewrite Hm in C1 at 1. apply copied_orig with (n := n) in C1; [|assumption].
        assert (Hlen : (S b <= length (m_objs m))%nat) by (rewrite Hm, app_length; cbn [length]; lia).
        eapply copied_more; [exact C1|exact Hlen|]. intros q o Hq Ho. apply Keep; [lia|exact Ho].
Qed.
End Pairs.

(** * Object_Copy *)
Lemma copy_ok : forall n, copies (obj_copy n) n.
Proof.
  induction n as [|n IH]; intros m v HP T.
  - exists v, m. destruct v; cbn [tree] in T; try contradiction.
    all: split; [reflexivity|split; [assumption|split; [apply extends_refl|now constructor]]].
  - destruct v; cbn [tree] in T; try contradiction.
    all: try (eexists; exists m; split; [reflexivity|split; [assumption|split; [apply extends_refl|now constructor]]]).
    cbn [obj_copy]. destruct (nth_error (m_objs m) l) as [o|] eqn:El; [|contradiction]. destruct o; try contradiction.
    + destruct T as (vs & R & F). rewrite (items_rep _ _ R). cbn [alloc].
      set (m2 := mkmem (m_objs m ++ [OList (new_list (l_count l0))]) (m_pend m)).
      destruct (copy_all_ok _ _ IH vs m2) as (vs' & m3 & E & P3 & X3 & L3 & C3).
      { exact HP. }
      { eapply Forall_impl; [|exact F]. intros a. apply tree_app. }
      rewrite E. cbn [obind fst snd]. eexists. eexists. split; [reflexivity|]. split; [exact P3|].
      destruct X3 as [new X3]. unfold m2 in X3. cbn [m_objs] in X3.
      assert (Hm3 : m_objs (set_obj m3 (length (m_objs m)) (OList (new_list2 vs'))) = m_objs m ++ OList (new_list2 vs') :: new).
      { unfold set_obj. cbn [m_objs]. rewrite X3, <- app_assoc. cbn [app]. apply upd_mid. }
      split; [rewrite Hm3; eexists; reflexivity|]. eapply cp_list; [exact El|exact R| |apply rep_new2|lia|exact L3|].
      * rewrite Hm3, nth_error_app2, Nat.sub_diag by lia. reflexivity.
      * intros i x y Hx Hy. specialize (C3 i x y Hx Hy). unfold m2 in C3 at 1. cbn [m_objs] in C3. apply copied_orig with (n := n) in C3.
        2:{ rewrite Forall_forall in F. apply F. eapply nth_error_In. exact Hx. }
        eapply copied_more; [exact C3| |].
        -- unfold m2. cbn [m_objs]. rewrite app_length. lia.
        -- intros k o Hk Ho. unfold m2 in Hk. cbn [m_objs] in Hk. rewrite app_length in Hk. cbn [length] in Hk.
           unfold set_obj. cbn [m_objs]. rewrite nth_upd_other by lia. exact Ho.
    + destruct T as (G & Hl & Hs & Hd & F). cbn [alloc].
      set (m2 := mkmem (m_objs m ++ [OMap (new_map (map_count m0))]) (m_pend m)).
      assert (Hn : 0 <= map_count m0 < 2^26) by (unfold map_count; lia).
      destruct (copy_pairs_ok n n (length (m_objs m)) IH (m_objs m) eq_refl (m_keys m0) (m_vals m0) m2 (new_map (map_count m0)))
        as (m3 & mo' & vs' & E & P3 & X3 & W3 & K3 & V3 & L3 & S3 & C3).
      * exact HP.
      * exact Hl.
      * eexists. reflexivity.
      * apply new_map_wf; lia.
      * exact G.
      * exact F.
      * cbn [new_map m_keys length]. pose proof (new_map_room _ Hn) as Y. unfold map_count in Y at 1. lia.
      * cbn [new_map m_keys length]. lia.
      * cbn [new_map m_keys app]. exact Hd.
      * rewrite E. cbn [obind]. eexists. eexists. split; [reflexivity|]. split; [exact P3|].
        destruct X3 as [new X3]. split; [rewrite X3; eexists; reflexivity|].
        cbn [new_map m_keys m_vals app] in K3, V3.
        eapply cp_map; [exact El| |lia|exact K3|rewrite V3; exact L3| |].
        -- rewrite X3, nth_error_app2, Nat.sub_diag by lia. reflexivity.
        -- intros m' i k y HP' Hk Hy. rewrite <- K3 in Hk.
           assert (Gk : good_key k) by (pose proof (wf_good _ W3) as Q; rewrite Forall_forall in Q; apply Q; eapply nth_error_In; exact Hk).
           rewrite (good_sel m' mo' k HP' W3 Gk). do 2 f_equal. pose proof W3 as (Wc & Wl & _).
           rewrite (inst a_read_combine_found (m_keys mo') (m_vals mo') k i k Wl Hk (veqb_refl k Gk)); [exact Hy|].
           intros q2 k2 Hq Hk2. apply (c_dist _ _ _ _ _ Wc i q2 k k2); [lia|assumption|assumption].
        -- intros i x y Hx Hy. rewrite V3 in Hy. eapply copied_more; [exact (C3 i x y Hx Hy)|lia|auto].
    + eexists. exists m. split; [reflexivity|]. split; [assumption|]. split; [apply extends_refl|]. eapply cp_static. exact El.
Qed.

(** * How deep a value can be nested *)
(** A value that is nested finitely is nested at most as deep as there are objects: a path that met an object twice could be cut short. *)
Section Depth.
Variable N : nat.
Variable R : nat -> list value -> Prop.
Variable leaf : value -> Prop.
Hypothesis R_lt : forall l vs, R l vs -> (l < N)%nat.

Fixpoint nest (S : list nat) (n : nat) (v : value) : Prop :=
  match v with
  | VRef l => match n with O => False | Datatypes.S n' => ~ In l S /\ exists vs, R l vs /\ Forall (nest S n') vs end
  | _ => leaf v
  end.

Lemma nest_more S : forall n k v, nest S n v -> (n <= k)%nat -> nest S k v.
Proof.
  induction n as [|n IH]; intros k v; destruct v; cbn [nest]; destruct k; cbn [nest]; auto; try lia; try contradiction.
  intros (A & vs & B & F) Hk. split; [assumption|]. exists vs. split; [assumption|]. eapply Forall_impl; [|exact F]. intros a Ha. apply IH; [assumption|lia].
Qed.

Lemma nest_meets S l : forall n v, nest S n v -> nest (l :: S) n v \/ exists n', (n' <= n)%nat /\ nest S n' (VRef l).
Proof.
  induction n as [|n IH]; intros v; destruct v; cbn [nest]; auto.
  intros (A & vs & B & F). destruct (Nat.eq_dec l0 l) as [->|Hne].
  - right. exists (Datatypes.S n). split; [lia|]. cbn [nest]. split; [assumption|]. eauto.
  - assert (Q : Forall (nest (l :: S) n) vs \/ exists n', (n' <= n)%nat /\ nest S n' (VRef l)).
    { clear - IH F R_lt. induction F as [|x vs Hx _ IHf]; [left; constructor|]. destruct IHf as [IHf|IHf]; [|now right].
      destruct (IH x Hx) as [H|H]; [left; constructor; assumption|now right]. }
    destruct Q as [Q|(n' & Hn & Q)].
    + left. split; [intros [E|E]; [congruence|contradiction]|]. eauto.
    + right. exists n'. split; [lia|assumption].
Qed.

Lemma nest_bound : forall n S v, nest S n v -> NoDup S -> (forall l, In l S -> (l < N)%nat) -> nest [] (N - length S) v.
Proof.
  induction n as [n IH] using lt_wf_ind. intros S v T ND HS. destruct n as [|n].
  - destruct v; cbn [nest] in T; try contradiction; destruct (N - length S)%nat; exact T.
  - destruct v; cbn [nest] in T; try (destruct (N - length S)%nat; exact T).
    destruct T as (A & vs & B & F).
    assert (Q : Forall (nest (l :: S) n) vs \/ exists n', (n' <= n)%nat /\ nest S n' (VRef l)).
    { clear - F R_lt. induction F as [|x vs Hx _ IHf]; [left; constructor|]. destruct IHf as [IHf|IHf]; [|now right].
      destruct (nest_meets S l n x Hx) as [H|H]; [left; constructor; assumption|now right]. }
    destruct Q as [Q|(n' & Hn & Q)].
    + assert (ND' : NoDup (l :: S)) by (constructor; assumption).
      assert (HS' : forall k, In k (l :: S) -> (k < N)%nat) by (intros k [<-|Hk]; [eapply R_lt; eassumption|auto]).
      assert (Hlen : (length (l :: S) <= N)%nat).
      { rewrite <- (seq_length N 0). apply NoDup_incl_length; [assumption|]. intros k Hk. apply in_seq. specialize (HS' k Hk). lia. }
      cbn [length] in Hlen. replace (N - length S)%nat with (Datatypes.S (N - length (l :: S))) by (cbn [length]; lia).
      cbn [nest]. split; [intros []|]. exists vs. split; [assumption|]. apply Forall_forall. intros x Hx. rewrite Forall_forall in Q.
      apply (IH n ltac:(lia) (l :: S) x (Q x Hx) ND' HS').
    + apply (IH n' ltac:(lia) S _ Q ND HS).
Qed.
End Depth.

Definition kids (objs : list hobj) (l : nat) (vs : list value) : Prop :=
  match nth_error objs l with
  | Some (OList lo) => rep lo vs
  | Some (OMap mo) => Forall good_key (m_keys mo) /\ length (m_keys mo) = length (m_vals mo) /\ Z.of_nat (length (m_keys mo)) < 2^26 /\
      (forall i j a b, i <> j -> nth_error (m_keys mo) i = Some a -> nth_error (m_keys mo) j = Some b -> veqb a b = false) /\ vs = m_vals mo
  | Some (OSMap _) => vs = []
  | _ => False
  end.

Lemma kids_lt objs l vs : kids objs l vs -> (l < length objs)%nat.
Proof. unfold kids. intros H. apply nth_error_Some. destruct (nth_error objs l); [discriminate|contradiction]. Qed.

Lemma tree_nest objs : forall n v, tree objs n v <-> nest (kids objs) (fun v => match v with VType _ | VAny => False | _ => True end) [] n v.
Proof.
  induction n as [|n IH]; intros v; destruct v; cbn [tree nest]; try tauto.
  assert (FE : forall vs, Forall (tree objs n) vs <-> Forall (nest (kids objs) (fun v => match v with VType _ | VAny => False | _ => True end) [] n) vs).
  { intros vs. rewrite !Forall_forall. split; intros H x Hx; apply IH; auto. }
  unfold kids. destruct (nth_error objs l) as [[]|].
  all: try (split; [contradiction|intros (_ & vs & [] & _)]).
  - split; [intros (vs & A & B)|intros (_ & vs & A & B)]; [split; [tauto|]|]; exists vs; (split; [assumption|now apply FE]).
  - split.
    + intros (A & B & C & D & F). split; [tauto|]. exists (m_vals m). rewrite <- FE. auto 10.
    + intros (_ & vs & (A & B & C & D & ->) & F). rewrite <- FE in F. auto.
  - split; [intros _|auto]. split; [tauto|]. exists []. auto.
Qed.

Lemma tree_depth objs n v : tree objs n v -> tree objs (depth objs) v.
Proof.
  intros H. apply tree_nest in H. apply (nest_bound (length objs)) in H.
  - cbn [length] in H. rewrite Nat.sub_0_r in H. apply tree_nest in H. apply tree_more with (n := length objs); [assumption|unfold depth; lia].
  - apply kids_lt.
  - constructor.
  - intros l [].
Qed.

Lemma copy_of_ok m v n : m_pend m = false -> tree (m_objs m) n v -> exists v' m', copy_of m v = OOk (v', m') /\
  m_pend m' = false /\ (exists new, m_objs m' = m_objs m ++ new) /\ copied (m_objs m) (m_objs m') (length (m_objs m)) v v'.
Proof. intros HP T. exact (copy_ok _ m v HP (tree_depth _ _ _ T)). Qed.
