(** Variables, scopes and parameters. *)
From Coq Require Import ZArith List Lia Bool.
From Verif Require Import Base Utf8Model Utf8Proofs HashModel FloatModel StringModel ValueModel TextProofs MapModel MapSpec ProbeProofs
  MapProofs MapProofs2 ListModel ExeModel ExeProofs ArithModel ObjModel AstModel CodegenModel VmModel SrcModel ScopeSpec.
Import ListNotations.
Open Scope Z_scope.

(** * Names *)
(** Identifiers are ASCII (parse.c:286-305 takes letters, digits and underscores). *)
Definition ident (name : list Z) : Prop := Forall (fun c => 1 <= c < 128) name /\ Z.of_nat (length name) < 2^31.

Lemma c_strlen_nul name : Forall (fun c => 1 <= c < 128) name -> c_strlen (name ++ [0]) = Some (length name).
Proof.
  induction 1 as [|c r Hc _ IH]; [reflexivity|]. cbn [app c_strlen length]. destruct (Z.eqb_spec c 0); [lia|]. rewrite IH. reflexivity.
Qed.

Lemma strlen_prefix_ascii mem n : Forall (fun b => 0 <= b < 128) mem -> (n <= length mem)%nat -> utf8_strlen mem n = SLen (Z.of_nat n).
Proof.
  intros HB Hn. unfold utf8_strlen. destruct n as [|n].
  - reflexivity.
  - cbn [utf8_strlen_loop]. destruct (Nat.ltb_spec 0 (S n)); [|lia].
    rewrite skip_ascii_all by (auto; lia). rewrite Nat.add_0_l, Nat.sub_0_r. rewrite Nat.eqb_refl. f_equal.
Qed.

Lemma vstring_ident name : ident name -> vstring name = OOk (VStr name).
Proof.
  intros [H _]. unfold vstring, from_string. cbn [Z.ltb Z.compare]. rewrite (c_strlen_nul _ H). rewrite app_length.
  destruct (Nat.ltb_spec (length name + length [0]) (length name)); [lia|].
  rewrite strlen_prefix_ascii; [|apply Forall_app; split; [eapply Forall_impl; [|exact H]; cbv beta; lia|repeat constructor; lia]|rewrite app_length; lia].
  rewrite firstn_app_exact. reflexivity.
Qed.

Lemma ident_good name : ident name -> good_key (VStr name).
Proof.
  intros [H L]. split; [|split; [exact I|]].
  - cbn. intros Hin. rewrite Forall_forall in H. specialize (H _ Hin). lia.
  - split; [|exact L]. eapply Forall_impl; [|exact H]. cbv beta. unfold is_byte. lia.
Qed.

Lemma ident_veqb a b : ident a -> ident b -> veqb (VStr a) (VStr b) = name_eqb a b.
Proof.
  intros [Ha La] [Hb Lb]. unfold veqb, obj_compare, name_eqb. cbn.
  destruct (list_eq_dec Z.eq_dec a b) as [->|N].
  - rewrite str_eql_refl. reflexivity.
  - destruct (str_eql (str_of a) (str_of b)) eqn:E; [|reflexivity]. exfalso. apply N.
    assert (G : ~ In 0 a) by (intros Hin; rewrite Forall_forall in Ha; specialize (Ha _ Hin); lia).
    unfold str_of in E. apply (str_eql_iff a b) in E; auto. 
Qed.

(** * Maps in the store behave like maps of names *)
Section Ext.
Context {V : Type}.
Variables (h1 h2 : value -> Z) (c1 c2 : value -> value -> option bool).

Lemma find_loop_ext (m : hmap value V) key : (forall k, In k (m_keys m) -> c1 key k = c2 key k) ->
  forall fuel st, find_loop c1 fuel m key st = find_loop c2 fuel m key st.
Proof.
  intros H fuel. induction fuel as [|f IH]; intros st; cbn [find_loop]; [reflexivity|].
  destruct (zget (m_mapper m) (fst st)); [|reflexivity]. destruct (_ =? _); [reflexivity|].
  destruct (zget (m_keys m) z) as [k'|] eqn:E; [|reflexivity].
  assert (In k' (m_keys m)).
  { unfold zget in E. destruct (z <? 0); [discriminate|]. eapply nth_error_In; exact E. }
  rewrite (H k') by assumption. destruct (c2 key k') as [[]|]; auto.
Qed.

Lemma find_slot_ext (m : hmap value V) key : h1 key = h2 key -> (forall k, In k (m_keys m) -> c1 key k = c2 key k) ->
  find_slot h1 c1 m key = find_slot h2 c2 m key.
Proof. intros Hh Hc. unfold find_slot. rewrite Hh. apply find_loop_ext. exact Hc. Qed.

Lemma rehash_ext keys : (forall k, In k keys -> h1 k = h2 k) -> forall fuel mapper mask i,
  rehash_all h1 fuel mapper mask i keys = rehash_all h2 fuel mapper mask i keys.
Proof.
  induction keys as [|k r IH]; intros H fuel mapper mask i; cbn [rehash_all]; [reflexivity|].
  rewrite (H k) by (left; reflexivity). destruct (rehash_loop _ _ _ _); try reflexivity. apply IH. intros k2 Hk. apply H. right. exact Hk.
Qed.

Lemma grow_ext (m : hmap value V) : (forall k, In k (m_keys m) -> h1 k = h2 k) -> grow h1 m = grow h2 m.
Proof. intros H. unfold grow, grow_fuel. rewrite (rehash_ext _ H). reflexivity. Qed.

Lemma grow_keys h (m m' : hmap value V) : grow h m = InsOk m' -> m_keys m' = m_keys m.
Proof. unfold grow, grow_fuel. destruct (rehash_all _ _ _ _ _ _) as [[?|]|]; intros [= <-]; reflexivity. Qed.

Lemma put_ext (m : hmap value V) key ck v : h1 key = h2 key -> (forall k, In k (m_keys m) -> c1 key k = c2 key k) ->
  put h1 c1 m key ck v = put h2 c2 m key ck v.
Proof. intros Hh Hc. unfold put. rewrite (find_slot_ext m key Hh Hc). reflexivity. Qed.

End Ext.

Lemma put_keys {V} h c (m m' : hmap value V) key v : put h c m key key v = InsOk m' -> incl (m_keys m') (key :: m_keys m).
Proof.
  unfold put. destruct (find_slot _ _ _ _); intros [= <-]; cbn [m_keys]; intros x Hk.
  - right. exact Hk.
  - apply in_app_or in Hk. destruct Hk as [Hk|[<-|[]]]; [right; exact Hk|left; reflexivity].
Qed.

Lemma insert_keys {V} h c (m m' : hmap value V) key v : map_insert h c m key v = InsOk m' -> incl (m_keys m') (key :: m_keys m).
Proof.
  unfold map_insert. destruct (_ =? _); [|apply put_keys].
  destruct (grow h m) as [m1| | |] eqn:E; try discriminate. intros H. apply put_keys in H. rewrite (grow_keys _ _ _ E) in H. exact H.
Qed.

Lemma inserts_keys {V} h c (P : value -> Prop) : forall l (m m' : hmap value V),
  map_inserts h c m l = InsOk m' -> Forall P (m_keys m) -> Forall (fun kv => P (fst kv)) l -> Forall P (m_keys m').
Proof.
  induction l as [|[k v] l IH]; intros m m' H Hm Hl; cbn [map_inserts] in H.
  - injection H as <-. exact Hm.
  - inversion Hl as [|? ? Hk Hl']; subst. destruct (map_insert h c m k v) as [m1| | |] eqn:E; try discriminate.
    apply (IH _ _ H); [|exact Hl']. apply Forall_forall. intros k' Hk'. apply (insert_keys _ _ _ _ _ _ E) in Hk'.
    destruct Hk' as [<-|Hk']; [exact Hk|]. rewrite Forall_forall in Hm. auto.
Qed.

Definition cmp0 : value -> value -> option bool := obj_compare (fun _ => TyList).
Definition is_name (v : value) : Prop := match v with VStr bs => ident bs | _ => False end.

Lemma name_hash objs v : is_name v -> hash_of objs v = OOk (vhash v).
Proof.
  destruct v; cbn [is_name]; try contradiction. intros [H L]. unfold hash_of, vhash, depth. cbn [obj_hash]. cbn [scalar_hash].
  unfold str_hash, str_of, s_mem. cbn [s_bytes s_count].
  rewrite strlen_prefix_ascii; [|eapply Forall_impl; [|exact H]; cbv beta; lia|lia]. rewrite Nat2Z.id.
  unfold hashbytes. destruct (bytes ++ [0]) as [|b0 r] eqn:E; [destruct bytes; discriminate|]. rewrite <- E.
  destruct (Nat.ltb_spec (length (bytes ++ [0])) (length bytes)) as [C|_]; [rewrite app_length in C; lia|]. reflexivity.
Qed.

Lemma name_hash0 objs v : is_name v -> hash_or0 objs v = vhash v.
Proof. intros H. unfold hash_or0. rewrite (name_hash objs v H). reflexivity. Qed.

Lemma name_cmp m a b : is_name a -> is_name b -> m_pend m = false -> map_cmp m a b = cmp0 a b.
Proof.
  destruct a, b; cbn [is_name]; try contradiction. intros _ _ HP. unfold map_cmp, cmp0, obj_compare. cbn. rewrite HP.
  destruct (str_eql _ _); reflexivity.
Qed.

Lemma name_hashes objs ks : Forall is_name ks -> hashes_ok objs ks = OOk tt.
Proof. induction 1 as [|k r Hk _ IH]; cbn [hashes_ok]; [reflexivity|]. rewrite (name_hash objs k Hk). cbn [obind]. exact IH. Qed.

(** Storing under a name in a map of names. *)
Lemma store_names m l mo name v : m_pend m = false -> Forall is_name (m_keys mo) -> ident name ->
  map_store copy_of m l mo (VStr name) v =
  match map_insert vhash cmp0 mo (VStr name) v with
  | InsOk mo2 => OOk (set_obj m l (OMap mo2)) | InsErr => OErr | InsUB => OUB | InsTimeout => OLoop
  end.
Proof.
  intros HP HK HN. unfold map_store, map_insert. rewrite (name_hashes _ _ HK). cbn [obind].
  assert (Hh : forall k, In k (m_keys mo) -> hash_or0 (m_objs m) k = vhash k).
  { intros k Hk. apply name_hash0. rewrite Forall_forall in HK. auto. }
  assert (body : forall mo', incl (m_keys mo') (m_keys mo) ->
    obind (hash_of (m_objs m) (VStr name)) (fun _ =>
      let putk m2 key' :=
        match put (hash_or0 (m_objs m)) (map_cmp m) mo' (VStr name) key' v with
        | InsOk mo2 => OOk (set_obj m2 l (OMap mo2)) | InsErr => OErr | InsUB => OUB | InsTimeout => OLoop end in
      match find_slot (hash_or0 (m_objs m)) (map_cmp m) mo' (VStr name) with
      | Free _ => obind (copy_of m (VStr name)) (fun r => putk (snd r) (fst r))
      | _ => putk m (VStr name)
      end) =
    match put vhash cmp0 mo' (VStr name) (VStr name) v with
    | InsOk mo2 => OOk (set_obj m l (OMap mo2)) | InsErr => OErr | InsUB => OUB | InsTimeout => OLoop end).
  { intros mo' HI. rewrite (name_hash (m_objs m) (VStr name)) by exact HN. cbn [obind].
    assert (E1 : hash_or0 (m_objs m) (VStr name) = vhash (VStr name)) by (apply name_hash0; exact HN).
    assert (E2 : forall k, In k (m_keys mo') -> map_cmp m (VStr name) k = cmp0 (VStr name) k).
    { intros k Hk. apply name_cmp; [exact HN| |exact HP]. rewrite Forall_forall in HK. apply HK, HI, Hk. }
    rewrite (find_slot_ext _ _ _ _ mo' (VStr name) E1 E2).
    assert (EC : copy_of m (VStr name) = OOk (VStr name, m)) by reflexivity.
    rewrite EC. cbn [obind fst snd]. rewrite (put_ext _ _ _ _ mo' (VStr name) (VStr name) v E1 E2).
    destruct (find_slot vhash cmp0 mo' (VStr name)); reflexivity. }
  destruct (_ =? _) eqn:EQ.
  - rewrite (grow_ext _ vhash mo Hh). destruct (grow vhash mo) as [mo'| | |] eqn:EG; cbn [obind]; try reflexivity.
    apply body. rewrite (grow_keys _ _ _ EG). apply incl_refl.
  - cbn [obind]. apply body. apply incl_refl.
Qed.

Lemma select_names m mo name : m_pend m = false -> Forall is_name (m_keys mo) -> ident name ->
  map_sel m mo (VStr name) =
  match map_select vhash cmp0 mo (VStr name) with
  | SelVal v => OOk (Some v, m) | SelNone => OOk (None, m) | SelErr => OOk (None, set_pend m true)
  | SelUB => OUB | SelTimeout => OLoop
  end.
Proof.
  intros HP HK HN. unfold map_sel. rewrite (name_hash (m_objs m) (VStr name)) by exact HN. cbn [obind].
  unfold map_select. rewrite (find_slot_ext _ vhash _ cmp0 mo (VStr name)); [reflexivity|apply name_hash0; exact HN|].
  intros k Hk. apply name_cmp; [exact HN| |exact HP]. rewrite Forall_forall in HK. auto.
Qed.

(** * A map object holding the assignments of one scope *)
Definition keyed_names (h : scope_history) : list (value * value) := map (fun nv => (VStr (fst nv), snd nv)) h.

Definition vars (m : mem) (l : nat) (h : scope_history) : Prop :=
  exists mo, nth_error (m_objs m) l = Some (OMap mo) /\ map_inserts vhash cmp0 (new_map (-1)) (keyed_names h) = InsOk mo.

(** The assignments the scope can hold without running into the growth defect (C02): to names whose hashes are not negative, or
    before the last of them to fewer than five different names. *)
Definition tame_scope (h : scope_history) : Prop :=
  Forall (fun nv => ident (fst nv)) h /\ Z.of_nat (distinct name_eqb (removelast h)) < 2^26 /\
  (Z.of_nat (distinct name_eqb (removelast h)) < 5 \/ Forall (fun nv => 0 <= vhash (VStr (fst nv))) h).

Lemma keyed_good h : Forall (fun nv => ident (fst nv)) h -> Forall (fun kv => good_key (fst kv)) (keyed_names h).
Proof. intros H. unfold keyed_names. apply Forall_map. eapply Forall_impl; [|exact H]. intros [n v]. cbn. apply ident_good. Qed.

Lemma keyed_is_name h : Forall (fun nv => ident (fst nv)) h -> Forall (fun kv => is_name (fst kv)) (keyed_names h).
Proof. intros H. unfold keyed_names. apply Forall_map. eapply Forall_impl; [|exact H]. intros [n v]. cbn. auto. Qed.

Lemma keyed_distinct h : Forall (fun nv => ident (fst nv)) h -> distinct veqb (keyed_names h) = distinct name_eqb h.
Proof.
  intros H. unfold distinct, firsts.
  enough (G : forall acc, Forall ident acc ->
    fold_left (fun acc k => if existsb (veqb k) acc then acc else acc ++ [k]) (map fst (keyed_names h)) (map VStr acc) =
    map VStr (fold_left (fun acc k => if existsb (name_eqb k) acc then acc else acc ++ [k]) (map fst h) acc)).
  { pose proof (G [] ltac:(constructor)) as X. cbn [map] in X. rewrite X. apply map_length. }
  induction H as [|[n v] h Hn _ IH]; intros acc Ha; [reflexivity|]. cbn [keyed_names map fst snd fold_left] in *.
  assert (X : existsb (veqb (VStr n)) (map VStr acc) = existsb (name_eqb n) acc).
  { clear - Ha Hn. induction Ha as [|a acc Ha _ IH]; [reflexivity|]. cbn [map existsb]. rewrite IH, (ident_veqb n a Hn Ha). reflexivity. }
  rewrite X. destruct (existsb (name_eqb n) acc); [apply IH; exact Ha|].
  change [VStr n] with (map VStr [n]). rewrite <- (map_app VStr acc [n]). apply IH. apply Forall_app. split; [exact Ha|]. constructor; auto.
Qed.

Lemma keyed_last h : removelast (keyed_names h) = keyed_names (removelast h).
Proof.
  destruct h as [|x h _] using rev_ind; [reflexivity|]. unfold keyed_names. rewrite map_app. cbn [map]. rewrite !removelast_last. reflexivity.
Qed.

Lemma last_Forall {A} (P : A -> Prop) h : Forall P h -> Forall P (removelast h).
Proof. destruct h as [|x h _] using rev_ind; [auto|]. rewrite removelast_last. intros H. apply Forall_app in H. apply H. Qed.

Lemma tame_keyed h : tame_scope h -> small_history veqb (-1) (keyed_names h) /\ tame vhash veqb (-1) (keyed_names h).
Proof.
  intros (Hi & Hl & Ht). unfold small_history, tame. rewrite keyed_last, (keyed_distinct _ (last_Forall _ _ Hi)). split; [lia|]. destruct Ht as [Ht|Ht].
  - right. change (calc_capacity (msize (new_map (K:=value) (V:=value) (-1)))) with 5. exact Ht.
  - left. unfold keyed_names. apply Forall_map. eapply Forall_impl; [|exact Ht]. intros [n v]. cbn. auto.
Qed.

Lemma keyed_stored h name : Forall (fun nv => ident (fst nv)) h -> ident name ->
  last_stored veqb (keyed_names h) (VStr name) = assigned h name.
Proof.
  intros H HN. unfold last_stored, assigned, last_stored, keyed_names. generalize (@None value) as acc.
  induction H as [|[n v] r Hn _ IH]; intros acc; cbn [map fold_left fst snd]; [reflexivity|].
  cbn in Hn. rewrite (ident_veqb name n HN Hn). apply IH.
Qed.

Lemma tame_snoc_l h x : tame_scope (h ++ [x]) -> tame_scope h.
Proof.
  intros (A & B & C). rewrite removelast_last in B, C. pose proof (distinct_last name_eqb h). apply Forall_app in A. split; [apply A|]. split; [lia|].
  destruct C as [C|C]; [left; lia|right; apply Forall_app in C; apply C].
Qed.

Lemma upd_same {A} (l : list A) n x : (n < length l)%nat -> nth_error (upd l n x) n = Some x.
Proof. intros H. apply nth_error_upd_same. exact H. Qed.

(** Whatever the state, an assignment through a map of variables touches that map only. *)
Lemma set_var_local E m l mo name v m' : ident name -> nth_error (m_objs m) l = Some (OMap mo) ->
  set_var E m (VRef l) name v = OOk m' ->
  (forall k, k <> l -> nth_error (m_objs m') k = nth_error (m_objs m) k) /\
  length (m_objs m') = length (m_objs m) /\ m_pend m' = m_pend m.
Proof.
  intros HN Hl. unfold set_var. rewrite (vstring_ident _ HN). cbn [obind]. unfold insert_of. rewrite Hl. unfold map_store.
  match goal with |- context [obind ?X _] => destruct X as [mo'| | | |] end; cbn [obind]; try discriminate.
  rewrite (name_hash _ (VStr name) HN). cbn [obind].
  assert (EC : copy_of m (VStr name) = OOk (VStr name, m)) by reflexivity. rewrite EC. cbn [obind fst snd].
  assert (G : forall mo2, OOk (set_obj m l (OMap mo2)) = OOk m' ->
    (forall k, k <> l -> nth_error (m_objs m') k = nth_error (m_objs m) k) /\
    length (m_objs m') = length (m_objs m) /\ m_pend m' = m_pend m).
  { intros mo2 [= <-]. unfold set_obj. cbn [m_objs m_pend]. split; [|split; [apply upd_length|reflexivity]].
    intros k Hk. apply nth_error_upd_other. auto. }
  destruct (find_slot _ _ _ _); destruct (put _ _ _ _ _ _); try discriminate; apply G.
Qed.

(** Assigning extends the history of the scope. *)
Lemma set_var_vars E m l h name v : m_pend m = false -> vars m l h -> tame_scope (h ++ [(name, v)]) ->
  exists m', set_var E m (VRef l) name v = OOk m' /\ vars m' l (h ++ [(name, v)]) /\ m_pend m' = false /\
    length (m_objs m') = length (m_objs m) /\ (forall k, k <> l -> nth_error (m_objs m') k = nth_error (m_objs m) k).
Proof.
  intros HP (mo & Hl & Hi) HT. pose proof (tame_snoc_l _ _ HT) as HT0.
  assert (HN : ident name). { destruct HT as (A & _). apply Forall_app in A. destruct A as [_ A]. inversion A; assumption. }
  destruct (tame_keyed _ HT) as [Hs Ht]. destruct HT as (HA & _).
  destruct (value_map_history (fun _ => TyList) (-1) _ Hs Ht (keyed_good _ HA)) as (mo2 & Hi2 & _).
  assert (HK : Forall is_name (m_keys mo)).
  { eapply inserts_keys; [exact Hi|constructor|]. apply keyed_is_name. apply HT0. }
  assert (Hins : map_insert vhash cmp0 mo (VStr name) v = InsOk mo2).
  { unfold keyed_names in Hi2. rewrite map_app in Hi2. cbn [map fst snd] in Hi2. rewrite inserts_snoc in Hi2.
    fold (keyed_names h) in Hi2. fold cmp0 in Hi2. rewrite Hi in Hi2. exact Hi2. }
  assert (Hset : set_var E m (VRef l) name v = OOk (set_obj m l (OMap mo2))).
  { unfold set_var. rewrite (vstring_ident _ HN). cbn [obind]. unfold insert_of. rewrite Hl.
    rewrite (store_names m l mo name v HP HK HN), Hins. reflexivity. }
  destruct (set_var_local E m l mo name v _ HN Hl Hset) as (L1 & L2 & L3).
  exists (set_obj m l (OMap mo2)). split; [exact Hset|]. split; [|split; [rewrite L3; exact HP|split; [exact L2|exact L1]]].
  exists mo2. split; [|exact Hi2]. unfold set_obj. cbn [m_objs]. apply nth_error_upd_same.
  apply nth_error_Some. rewrite Hl. discriminate.
Qed.

(** A name looked up in one scope. *)
Lemma select_vars E n m l h name : m_pend m = false -> vars m l h -> tame_scope h -> ident name ->
  obj_select E n m (VRef l) (VStr name) = OOk (assigned h name, m).
Proof.
  intros HP (mo & Hl & Hi) HT HN. destruct n; cbn [obj_select]; rewrite Hl.
  all: assert (HK : Forall is_name (m_keys mo)) by (eapply inserts_keys; [exact Hi|constructor|apply keyed_is_name; apply HT]).
  all: rewrite (select_names m mo name HP HK HN); destruct (tame_keyed _ HT) as [Hs Ht].
  all: destruct (value_map_history (fun _ => TyList) (-1) _ Hs Ht (keyed_good _ (proj1 HT))) as (mo2 & Hi2 & Hsel & _).
  all: fold cmp0 in Hi2, Hsel; rewrite Hi in Hi2; injection Hi2 as <-.
  all: rewrite (Hsel _ (ident_good _ HN)), (keyed_stored _ _ (proj1 HT) HN); destruct (assigned h name); reflexivity.
Qed.

(** * Chains of closures *)
(** [clo] is the closure of a function whose enclosing definitions hold the scopes [hs], innermost first; [cs] are the closure
    objects. *)
Inductive chain (m : mem) : option value -> list nat -> list scope_history -> Prop :=
| chain_none : chain m None [] []
| chain_some c l prev h cs hs : nth_error (m_objs m) c = Some (OClosure prev (VRef l)) -> vars m l h -> tame_scope h ->
    chain m prev cs hs -> chain m (Some (VRef c)) (c :: cs) (h :: hs).

Lemma chain_det m o cs hs : chain m o cs hs -> forall cs' hs', chain m o cs' hs' -> cs = cs'.
Proof.
  induction 1 as [|c l prev h cs hs Hc Hv Ht Hp IH]; intros cs' hs' H'; inversion H'; subst; [reflexivity|].
  rewrite Hc in *. match goal with H : Some _ = Some _ |- _ => injection H as <- <- end. f_equal. eapply IH. eassumption.
Qed.

Lemma chain_sub m o cs hs : chain m o cs hs -> forall c, In c cs ->
  exists cs' hs', chain m (Some (VRef c)) (c :: cs') hs' /\ (length cs' < length cs)%nat.
Proof.
  induction 1 as [|c l prev h cs hs Hc Hv Ht Hp IH]; intros c0 Hin; [destruct Hin|]. destruct Hin as [<-|Hin].
  - exists cs, (h :: hs). split; [econstructor; eassumption|cbn; lia].
  - destruct (IH _ Hin) as (cs' & hs' & A & B). exists cs', hs'. split; [exact A|cbn; lia].
Qed.

Lemma chain_nodup m o cs hs : chain m o cs hs -> NoDup cs.
Proof.
  induction 1 as [|c l prev h cs hs Hc Hv Ht Hp IH]; constructor; [|exact IH]. intros Hin.
  destruct (chain_sub _ _ _ _ Hp _ Hin) as (cs' & hs' & A & B).
  assert (c :: cs = c :: cs') as [= ->] by (eapply chain_det; [econstructor; eassumption|exact A]). lia.
Qed.

Lemma chain_len m o cs hs : chain m o cs hs -> length cs = length hs /\ (length cs <= length (m_objs m))%nat.
Proof.
  intros H. split; [induction H; cbn [length]; congruence|]. rewrite <- (seq_length (length (m_objs m)) 0).
  apply NoDup_incl_length; [eapply chain_nodup; exact H|]. intros c Hc.
  destruct (chain_sub _ _ _ _ H _ Hc) as (cs' & hs' & A & _). inversion A; subst. apply in_seq.
  assert (c < length (m_objs m))%nat by (apply nth_error_Some; congruence). lia.
Qed.

Lemma select_chain E m name : m_pend m = false -> ident name -> forall o cs hs, chain m o cs hs -> forall n v,
  o = Some v -> (length cs < n)%nat -> obj_select E n m v (VStr name) = OOk (visible hs name, m).
Proof.
  intros HP HN o cs hs H. induction H as [|c l prev h cs hs Hc Hv Ht Hp IH]; intros n v; [discriminate|].
  intros [= <-] Hn. cbn [length] in Hn. destruct n as [|n]; [lia|]. cbn [obj_select]. rewrite Hc.
  rewrite (select_vars E n m l h name HP Hv Ht HN). cbn [obind fst snd]. rewrite HP. cbn [visible].
  destruct (assigned h name) eqn:EA; [reflexivity|]. destruct prev as [p|].
  - apply IH; [reflexivity|lia].
  - inversion Hp; subst. reflexivity.
Qed.

(** * Lookup is lexical *)
Lemma get_in_none E m r key : get_in E m (None :: r) key = get_in E m r key.
Proof. reflexivity. Qed.

Theorem get_var_scopes E m l h clo cs hs name : m_pend m = false -> ident name -> vars m l h -> tame_scope h ->
  chain m clo cs hs ->
  get_var E m (VRef l) clo name =
  match visible (h :: hs) name with
  | Some v => OOk (Some v, m)
  | None => get_in E m [e_builtins E] (VStr name)
  end.
Proof.
  intros HP HN Hv Ht Hc. unfold get_var. rewrite (vstring_ident _ HN). cbn [obind].
  change (get_in E m [Some (VRef l); clo; e_builtins E] (VStr name)) with
    (obind (select_of E m (VRef l) (VStr name)) (fun x =>
       match fst x with Some _ => OOk x | None => get_in E (snd x) [clo; e_builtins E] (VStr name) end)).
  unfold select_of at 1. rewrite (select_vars E _ m l h name HP Hv Ht HN). cbn [obind fst snd visible].
  destruct (assigned h name) eqn:EA; [reflexivity|].
  destruct clo as [c|].
  - change (get_in E m [Some c; e_builtins E] (VStr name)) with
      (obind (select_of E m c (VStr name)) (fun x =>
       match fst x with Some _ => OOk x | None => get_in E (snd x) [e_builtins E] (VStr name) end)).
    unfold select_of at 1, depth. rewrite (select_chain E m name HP HN (Some c) cs hs Hc _ c eq_refl).
    + cbn [obind fst snd]. destruct (visible hs name); reflexivity.
    + destruct (chain_len _ _ _ _ Hc). lia.
  - inversion Hc; subst. cbn [visible]. apply get_in_none.
Qed.
