(** C80: maps, copying, selecting, inserting and type tests do not depend on where objects are. *)
From Coq Require Import ZArith List Lia Bool.
From Verif Require Import Base HashModel FloatModel StringModel ValueModel MapModel ListModel ObjModel ExeModel VmModel MoveSpec MoveProofs.
Import ListNotations.
Open Scope Z_scope.

(** * Lists of values *)

Lemma F2_length {A B} (Q : A -> B -> Prop) l l' : Forall2 Q l l' -> length l = length l'.
Proof. induction 1; cbn; congruence. Qed.
Lemma F2_nth {A B} (Q : A -> B -> Prop) l l' : Forall2 Q l l' -> forall n,
  match nth_error l n, nth_error l' n with Some a, Some b => Q a b | None, None => True | _, _ => False end.
Proof. induction 1; intros [|n]; cbn; auto. apply IHForall2. Qed.
Lemma F2_zget {A B} (Q : A -> B -> Prop) l l' : Forall2 Q l l' -> forall n,
  match zget l n, zget l' n with Some a, Some b => Q a b | None, None => True | _, _ => False end.
Proof. intros H n. unfold zget. destruct (n <? 0); [exact I|]. apply F2_nth, H. Qed.
Lemma F2_upd {A B} (Q : A -> B -> Prop) l l' a b : Forall2 Q l l' -> Q a b -> forall n, Forall2 Q (upd l n a) (upd l' n b).
Proof. intros H Hab. induction H; intros [|n]; cbn; constructor; auto. Qed.
Lemma F2_app {A B} (Q : A -> B -> Prop) l l' k k' : Forall2 Q l l' -> Forall2 Q k k' -> Forall2 Q (l ++ k) (l' ++ k').
Proof. intros H K. induction H; cbn; [exact K|constructor; assumption]. Qed.
Lemma F2_repeat {A B} (Q : A -> B -> Prop) a b n : Q a b -> Forall2 Q (repeat a n) (repeat b n).
Proof. intros H. induction n; cbn; constructor; assumption. Qed.
Lemma F2_firstn {A B} (Q : A -> B -> Prop) l l' : Forall2 Q l l' -> forall n, Forall2 Q (firstn n l) (firstn n l').
Proof. induction 1; intros [|n]; cbn; constructor; auto. Qed.
Lemma F2_skipn {A B} (Q : A -> B -> Prop) l l' : Forall2 Q l l' -> forall n, Forall2 Q (skipn n l) (skipn n l').
Proof. induction 1; intros [|n]; cbn; try constructor; auto. Qed.
Lemma F2_rev {A B} (Q : A -> B -> Prop) l l' : Forall2 Q l l' -> Forall2 Q (rev l) (rev l').
Proof. induction 1; cbn; [constructor|]. apply F2_app; [assumption|repeat constructor; assumption]. Qed.
Lemma F2_combine {A B} (Q : A -> B -> Prop) k k' l l' : Forall2 Q k k' -> Forall2 Q l l' ->
  Forall2 (fun x y => Q (fst x) (fst y) /\ Q (snd x) (snd y)) (combine k l) (combine k' l').
Proof. intros H. revert l l'. induction H; intros ? ? K; cbn; [constructor|]. destruct K; constructor; auto. Qed.

(** * Maps *)

Section Maps.
Context {R : nat -> nat -> Prop}.
Variables (hash hash' : value -> Z) (cmp cmp' : value -> value -> option bool).
Hypothesis C : forall a a' b b', vrel R a a' -> vrel R b b' -> cmp a b = cmp' a' b'.
Variables (mapper : list Z) (ks ks' vs vs' : list value).
Hypothesis K : Forall2 (vrel R) ks ks'.
Hypothesis V : Forall2 (vrel R) vs vs'.
Let mo := mkmap mapper ks vs.
Let mo' := mkmap mapper ks' vs'.

Lemma find_loop_same key key' : vrel R key key' -> forall fuel st, find_loop cmp fuel mo key st = find_loop cmp' fuel mo' key' st.
Proof.
  intros H. induction fuel as [|fuel IH]; intros st; cbn; [reflexivity|].
  destruct (zget mapper (fst st)) as [k|]; [|reflexivity]. destruct (k =? -1); [reflexivity|].
  pose proof (F2_zget _ _ _ K k) as Z. destruct (zget ks k), (zget ks' k); try contradiction; [|reflexivity].
  rewrite (C _ _ _ _ H Z). destruct (cmp' key' v0) as [[|]|]; try reflexivity. apply IH.
Qed.
Lemma find_slot_same key key' : vrel R key key' -> hash key = hash' key' -> find_slot hash cmp mo key = find_slot hash' cmp' mo' key'.
Proof. intros H E. unfold find_slot. rewrite E. apply find_loop_same, H. Qed.

Definition selrel (r r' : selres value) : Prop :=
  match r, r' with
  | SelVal v, SelVal v' => vrel R v v'
  | SelNone, SelNone | SelErr, SelErr | SelUB, SelUB | SelTimeout, SelTimeout => True
  | _, _ => False
  end.
Definition insrel (r r' : insres value value) : Prop :=
  match r, r' with
  | InsOk m, InsOk m' => orel R (OMap m) (OMap m')
  | InsErr, InsErr | InsUB, InsUB | InsTimeout, InsTimeout => True
  | _, _ => False
  end.

Lemma map_select_rel key key' : vrel R key key' -> hash key = hash' key' -> selrel (map_select hash cmp mo key) (map_select hash' cmp' mo' key').
Proof.
  intros H E. unfold map_select. rewrite (find_slot_same _ _ H E). destruct (find_slot hash' cmp' mo' key'); cbn; auto.
  pose proof (F2_nth _ _ _ V k) as Z. destruct (nth_error vs k), (nth_error vs' k); try contradiction; cbn; auto.
Qed.

Lemma put_rel key key' ck ck' val val' : vrel R key key' -> hash key = hash' key' -> vrel R ck ck' -> vrel R val val' ->
  insrel (put hash cmp mo key ck val) (put hash' cmp' mo' key' ck' val').
Proof.
  intros H E Hc Hv. unfold put. rewrite (find_slot_same _ _ H E). destruct (find_slot hash' cmp' mo' key'); cbn; auto.
  - constructor; [exact K|]. apply F2_upd; assumption.
  - rewrite (F2_length _ _ _ K). constructor; apply F2_app; auto.
Qed.

End Maps.

Lemma rehash_all_same {R} (hash hash' : value -> Z) fuel mask ks ks' : Forall2 (fun k k' => vrel R k k' /\ hash k = hash' k') ks ks' ->
  forall mapper i, rehash_all hash fuel mapper mask i ks = rehash_all hash' fuel mapper mask i ks'.
Proof.
  induction 1 as [|k k' r r' [H1 H2] Hr IH]; intros mapper i; cbn [rehash_all]; [reflexivity|]. rewrite H2.
  destruct (rehash_loop _ _ _ _); try reflexivity. apply IH.
Qed.

Lemma grow_rel {R} (hash hash' : value -> Z) mapper ks ks' vs vs' :
  Forall2 (fun k k' => vrel R k k' /\ hash k = hash' k') ks ks' -> Forall2 (vrel R) vs vs' ->
  @insrel R (grow hash (mkmap mapper ks vs)) (grow hash' (mkmap mapper ks' vs')).
Proof.
  intros H V. unfold grow, grow_fuel. cbn [m_mapper m_keys m_vals].
  rewrite (rehash_all_same hash hash' _ _ _ _ H).
  destruct (rehash_all _ _ _ _ _ _) as [[mp|]|]; cbn; auto. constructor; [|exact V].
  clear - H. induction H as [|? ? ? ? [? ?]]; constructor; auto.
Qed.

Lemma map_sel_sim R m m' mo mo' key key' : mrel R m m' -> orel R (OMap mo) (OMap mo') -> vrel R key key' ->
  osim (ropt R) (map_sel m mo key) (map_sel m' mo' key').
Proof.
  intros M O K. inversion O as [|mapper ks ks' vs vs' Hk Hv| | | | | | | ]; subst. unfold map_sel.
  pose proof (hash_of_sim M _ _ K) as Hh. destruct (hash_of (m_objs m') key') as [z| | | |] eqn:E; cbn in *; try exact I; try (rewrite Hh; reflexivity).
  destruct Hh as (a & E1 & ->). rewrite E1. cbn.
  pose proof (map_select_rel (hash_or0 (m_objs m)) (hash_or0 (m_objs m')) (map_cmp m) (map_cmp m') (map_cmp_same M) mapper ks ks' vs vs' Hk Hv
    key key' K (hash_or0_same M _ _ _ K E)) as S.
  destruct (map_select _ _ _ key), (map_select _ _ _ key'); cbn in S |- *; try contradiction; auto;
    eexists; split; try reflexivity; exists R; (split; [apply ext_refl|]); cbn; (split; [|constructor; assumption]); auto.
  apply mrel_set_pend, M.
Qed.

Lemma hashes_ok_rel R m m' ks ks' : mrel R m m' -> Forall2 (vrel R) ks ks' ->
  osim (fun _ _ => Forall2 (fun k k' => vrel R k k' /\ hash_or0 (m_objs m) k = hash_or0 (m_objs m') k') ks ks')
    (hashes_ok (m_objs m) ks) (hashes_ok (m_objs m') ks').
Proof.
  intros M. induction 1 as [|k k' r r' Hk Hr IH]; cbn [hashes_ok]; [cbn; eauto|].
  pose proof (hash_of_sim M _ _ Hk) as Hh. destruct (hash_of (m_objs m') k') as [z| | | |] eqn:E; cbn in *; try exact I; try (rewrite Hh; reflexivity).
  destruct Hh as (a & E1 & ->). rewrite E1. cbn.
  eapply osim_impl; [exact IH|]. cbn beta. intros ? ? F. constructor; [|exact F]. split; [exact Hk|]. eapply hash_or0_same; eassumption.
Qed.

(** What copying is asked for. *)
Definition cp_ok (cp cp' : mem -> value -> out (value * mem)) : Prop :=
  forall R m m' v v', mrel R m m' -> vrel R v v' -> osim (rval R) (cp m v) (cp' m' v').

Lemma map_store_sim cp cp' R m m' l l' mo mo' key key' val val' : cp_ok cp cp' -> mrel R m m' -> R l l' ->
  orel R (OMap mo) (OMap mo') -> vrel R key key' -> vrel R val val' ->
  osim (rmem R) (map_store cp m l mo key val) (map_store cp' m' l' mo' key' val').
Proof.
  intros CP M L O K V. unfold map_store.
  apply (osim_bind (fun mo mo' => orel R (OMap mo) (OMap mo'))).
  { inversion O as [|mapper ks ks' vs vs' Hk Hv| | | | | | | ]; subst. unfold map_count, msize. cbn [m_keys m_mapper].
    rewrite (F2_length _ _ _ Hk). destruct (_ =? _); [|cbn; eauto].
    eapply osim_bind; [apply hashes_ok_rel; [exact M|exact Hk]|]. cbn beta. intros ? ? F.
    pose proof (grow_rel _ _ mapper _ _ vs vs' F Hv) as G.
    destruct (grow _ (mkmap mapper ks vs)), (grow _ (mkmap mapper ks' vs')); cbn in G |- *; try contradiction; eauto. }
  clear O mo mo'. intros mo mo' O. inversion O as [|mapper ks ks' vs vs' Hk Hv| | | | | | | ]; subst.
  pose proof (hash_of_sim M _ _ K) as Hh. destruct (hash_of (m_objs m') key') as [z| | | |] eqn:E; cbn [osim obind] in Hh |- *; try exact I; try (rewrite Hh; reflexivity).
  destruct Hh as (a & E1 & ->). rewrite E1. cbn [obind].
  pose proof (hash_or0_same M _ _ _ K E) as HH.
  rewrite (find_slot_same (hash_or0 (m_objs m)) (hash_or0 (m_objs m')) (map_cmp m) (map_cmp m') (map_cmp_same M) mapper ks ks' vs vs' Hk key key' K HH).
  assert (P : forall S n n' ck ck', ext R S -> mrel S n n' -> vrel S ck ck' ->
    osim (rmem R) (match put (hash_or0 (m_objs m)) (map_cmp m) (mkmap mapper ks vs) key ck val with
                   | InsOk mo2 => OOk (set_obj n l (OMap mo2)) | InsErr => OErr | InsUB => OUB | InsTimeout => OLoop end)
                  (match put (hash_or0 (m_objs m')) (map_cmp m') (mkmap mapper ks' vs') key' ck' val' with
                   | InsOk mo2 => OOk (set_obj n' l' (OMap mo2)) | InsErr => OErr | InsUB => OUB | InsTimeout => OLoop end)).
  { intros S n n' ck ck' X N Hc.
    pose proof (find_slot_same (R := R) (hash_or0 (m_objs m)) (hash_or0 (m_objs m')) (map_cmp m) (map_cmp m') (map_cmp_same M) mapper ks ks' vs vs' Hk key key' K HH) as Q.
    unfold put. rewrite Q. destruct (find_slot _ _ _ key'); cbn; auto.
    - eexists; split; [reflexivity|]. exists S. split; [exact X|]. apply mrel_set; [exact N|apply X, L|].
      eapply orel_ext; [exact X|]. constructor; [exact Hk|]. apply F2_upd; assumption.
    - eexists; split; [reflexivity|]. exists S. split; [exact X|]. apply mrel_set; [exact N|apply X, L|].
      rewrite (F2_length _ _ _ Hk). constructor; apply F2_app; eauto using vrels_ext, vrel_ext. }
  destruct (find_slot _ _ (mkmap mapper ks' vs') key'); try solve [apply (P R m m' key key'); auto with move].
  eapply osim_bind; [apply CP; [exact M|exact K]|]. intros [v n] [v' n'] (S & X & N & Hv2). cbn in *. apply (P S); assumption.
Qed.

(** * Copies *)

Lemma copy_all_sim cp cp' : cp_ok cp cp' -> forall R m m' vs vs', mrel R m m' -> Forall2 (vrel R) vs vs' ->
  osim (rvals R) (copy_all cp m vs) (copy_all cp' m' vs').
Proof.
  intros CP R m m' vs vs' M H. revert R m m' M H. revert vs'. induction vs as [|v r IH]; intros vs' R m m' M H; inversion H as [|? v' ? r' Hv Hr]; subst; cbn.
  - eexists. split; [reflexivity|]. exists R. cbn. split; [apply ext_refl|]. split; [exact M|constructor].
  - eapply osim_bind; [apply CP; eassumption|]. intros [w n] [w' n'] (S & X & N & W). cbn in *.
    rewrite (mrel_pend N). destruct (m_pend n'); [reflexivity|].
    eapply osim_bind; [apply (IH r' S n n' N); eapply vrels_ext; eassumption|].
    intros [ws k] [ws' k'] (T & Y & K & WS). cbn in *. eexists. split; [reflexivity|].
    exists T. cbn. split; [eapply ext_trans; eassumption|]. split; [exact K|]. constructor; [eapply vrel_ext; eassumption|exact WS].
Qed.

Lemma copy_pairs_sim cp cp' : cp_ok cp cp' -> forall R m m' l l' kvs kvs', mrel R m m' -> R l l' ->
  Forall2 (fun x y => vrel R (fst x) (fst y) /\ vrel R (snd x) (snd y)) kvs kvs' ->
  osim (rmem R) (copy_pairs cp m l kvs) (copy_pairs cp' m' l' kvs').
Proof.
  intros CP R m m' l l' kvs. revert R m m'. induction kvs as [|[k v] r IH]; intros R m m' kvs' M L H; inversion H as [|? [k' v'] ? r' [Hk Hv] Hr]; subst; cbn.
  - eexists. split; [reflexivity|]. exists R. split; [apply ext_refl|exact M].
  - cbn in *. eapply osim_bind; [apply CP; eassumption|]. intros [k2 n] [k2' n'] (S & X & N & Hk2). cbn in *.
    eapply osim_bind; [apply CP; [exact N|eapply vrel_ext; eassumption]|]. intros [v2 p] [v2' p'] (T & Y & P & Hv2). cbn in *.
    destruct (mrel_look P _ _ (Y _ _ (X _ _ L))) as (o & o' & E1 & E2 & O). rewrite E1, E2.
    destruct O as [cap count cells cells' Hc|mapper ks ks' vs vs' Hks Hvs| | | | | | | ]; cbn; try reflexivity.
    eapply osim_bind; [eapply (map_store_sim cp cp' T); eauto using vrel_ext|].
    { constructor; assumption. }
    intros q q' (U & Z & Q).
    eapply osim_impl; [apply (IH U q q' r' Q)|].
    + apply Z, Y, X, L.
    + clear - Hr X Y Z. induction Hr as [|? ? ? ? [? ?]]; constructor; [|assumption].
      split; (eapply vrel_ext; [exact Z|eapply vrel_ext; [exact Y|eapply vrel_ext; [exact X|assumption]]]).
    + intros a b (W & HW & Hm). exists W. split; [|exact Hm].
      eapply ext_trans; [exact X|eapply ext_trans; [exact Y|eapply ext_trans; [exact Z|exact HW]]].
Qed.

Lemma rval_same R m m' v v' : mrel R m m' -> vrel R v v' -> rval R (v, m) (v', m').
Proof. intros. exists R. split; [apply ext_refl|split; assumption]. Qed.

Lemma new_list_rel R n : orel R (OList (new_list n)) (OList (new_list n)).
Proof. unfold new_list. constructor. apply F2_repeat. constructor. Qed.
Lemma new_map_rel R n : orel R (OMap (new_map n)) (OMap (new_map n)).
Proof. unfold new_map. constructor; constructor. Qed.
Lemma new_list2_rel R vs vs' : Forall2 (vrel R) vs vs' -> orel R (OList (new_list2 vs)) (OList (new_list2 vs')).
Proof.
  intros H. unfold new_list2. rewrite (F2_length _ _ _ H). cbn. constructor. apply F2_app.
  - clear - H. induction H; constructor; [constructor; assumption|assumption].
  - apply F2_skipn, F2_repeat. constructor.
Qed.

Lemma obj_copy_sim n' : forall n, (n' <= n)%nat -> cp_ok (obj_copy n) (obj_copy n').
Proof.
  induction n' as [|n' IH]; intros n L R m m' v v' M V.
  - destruct V as [l l' H|w H]; [exact I|].
    destruct n, w; cbn; try solve [destruct (H l eq_refl)]; try reflexivity; (eexists; split; [reflexivity|]; apply rval_same; [exact M|auto with move]).
  - destruct n as [|n]; [lia|]. destruct V as [l l' H|w H].
    + destruct (mrel_look M _ _ H) as (o & o' & E1 & E2 & O). cbn. rewrite E1, E2.
      destruct O as [cap count cells cells' Hc|mapper ks ks' vs vs' Hk Hv| | | | | | | ]; cbn [osim]; try reflexivity.
      * pose proof (items_rel cap count _ _ Hc) as It.
        destruct (list_items (mklobj cap count cells)) as [vs|], (list_items (mklobj cap count cells')) as [vs'|]; try contradiction; cbn [osim]; [|reflexivity].
        cbn [l_count]. destruct (mrel_alloc M _ _ (new_list_rel _ count)) as [A1 A2].
        unfold alloc in A1, A2. cbn [fst snd] in A1, A2.
        eapply osim_bind; [apply copy_all_sim; [apply (IH n); lia|exact A1|]|].
        { eapply vrels_ext; [apply add_ext|exact It]. }
        intros [ws k] [ws' k'] (T & Y & K & WS). cbn in *. eexists. split; [reflexivity|]. exists T. cbn.
        split; [eapply ext_trans; [apply (add_ext (m := m) (m' := m'))|exact Y]|]. split.
        -- apply mrel_set; [exact K|apply Y; right; auto|]. apply new_list2_rel, WS.
        -- eapply vrel_ext; [exact Y|exact A2].
      * unfold map_count. cbn [m_keys m_vals]. rewrite (F2_length _ _ _ Hk).
        destruct (mrel_alloc M _ _ (new_map_rel _ (Z.of_nat (length ks')))) as [A1 A2].
        unfold alloc in A1, A2. cbn [fst snd] in A1, A2.
        eapply osim_bind; [eapply (copy_pairs_sim (obj_copy n) (obj_copy n')); [apply IH; lia|exact A1| |]|].
        { right; auto. }
        { eapply F2_combine; eapply vrels_ext; try eassumption; apply add_ext. }
        intros k k' (T & Y & K). cbn in *. eexists. split; [reflexivity|]. exists T. cbn.
        split; [eapply ext_trans; [apply (add_ext (m := m) (m' := m'))|exact Y]|]. split; [exact K|eapply vrel_ext; [exact Y|exact A2]].
      * eexists; split; [reflexivity|]. apply rval_same; [exact M|constructor; exact H].
    + destruct w; cbn; try solve [destruct (H l eq_refl)]; try reflexivity; (eexists; split; [reflexivity|]; apply rval_same; [exact M|auto with move]).
Qed.

Lemma copy_of_sim : cp_ok copy_of copy_of.
Proof. intros R m m' v v' M V. apply obj_copy_sim; [unfold depth; pose proof (mrel_len M); lia|exact M|exact V]. Qed.

(** * Lists *)

Definition rrel {A B} (Q : A -> B -> Prop) (x : res A) (x' : res B) : Prop :=
  match x, x' with ROk a, ROk b => Q a b | RErr, RErr | RUB, RUB => True | _, _ => False end.

Lemma list_select_rel R lo lo' z : orel R (OList lo) (OList lo') -> rrel (vrel R) (list_select lo z) (list_select lo' z).
Proof.
  intros O. inversion O as [cap count cells cells' Hc| | | | | | | | ]; subst. unfold list_select. cbn.
  destruct (_ || _); cbn; auto. unfold cell_read. pose proof (F2_zget _ _ _ Hc (wrap32 z)) as Z.
  destruct (zget cells (wrap32 z)) as [c|], (zget cells' (wrap32 z)) as [c'|]; try contradiction; cbn; auto. destruct Z; cbn; auto.
Qed.

Lemma copy_cells_rel R n : forall i src src' dst dst', Forall2 (oprel (vrel R)) src src' -> Forall2 (oprel (vrel R)) dst dst' ->
  rrel (Forall2 (oprel (vrel R))) (copy_cells n i src dst) (copy_cells n i src' dst').
Proof.
  induction n as [|n IH]; intros i src src' dst dst' H1 H2; cbn; [exact H2|].
  pose proof (F2_zget _ _ _ H1 i) as Z. destruct (zget src i), (zget src' i); try contradiction; cbn; auto.
  rewrite (F2_length _ _ _ H2). destruct (_ <=? _); cbn; auto. apply IH; [exact H1|]. apply F2_upd; assumption.
Qed.

Lemma cell_write_rel R cells cells' i v v' : Forall2 (oprel (vrel R)) cells cells' -> vrel R v v' ->
  rrel (Forall2 (oprel (vrel R))) (cell_write cells i v) (cell_write cells' i v').
Proof.
  intros H V. unfold cell_write. rewrite (F2_length _ _ _ H). destruct (_ || _); cbn; auto. apply F2_upd; [exact H|constructor; exact V].
Qed.

Lemma list_insert_rel R lo lo' z v v' : orel R (OList lo) (OList lo') -> vrel R v v' ->
  rrel (fun a b => orel R (OList a) (OList b)) (list_insert lo z v) (list_insert lo' z v').
Proof.
  intros O V. inversion O as [cap count cells cells' Hc| | | | | | | | ]; subst. unfold list_insert, list_grow. cbn [l_count l_cap l_cells].
  destruct (_ || _); cbn [rrel]; auto. destruct (_ =? _).
  - destruct (count =? cap).
    + pose proof (copy_cells_rel R (Z.to_nat count) 0 cells cells' (repeat None (Z.to_nat (wrap32 (cap * 2)))) (repeat None (Z.to_nat (wrap32 (cap * 2)))) Hc
        (F2_repeat _ _ _ _ (or_none _))) as H.
      destruct (copy_cells _ _ cells _) as [d| |], (copy_cells _ _ cells' _) as [d'| |]; cbn in H; try contradiction; cbn [rrel]; auto.
      cbn [l_count l_cap l_cells]. pose proof (cell_write_rel R d d' count v v' H V) as W.
      destruct (cell_write d count v), (cell_write d' count v'); cbn in W |- *; try contradiction; auto. constructor; exact W.
    + cbn [l_count l_cap l_cells]. pose proof (cell_write_rel R cells cells' count v v' Hc V) as W.
      destruct (cell_write cells count v), (cell_write cells' count v'); cbn in W |- *; try contradiction; auto. constructor; exact W.
  - pose proof (cell_write_rel R cells cells' (wrap32 z) v v' Hc V) as W.
    destruct (cell_write cells (wrap32 z) v), (cell_write cells' (wrap32 z) v'); cbn in W |- *; try contradiction; auto. constructor; exact W.
Qed.

(** * Selecting and inserting *)

Lemma ropt_none R m m' : mrel R m m' -> ropt R (None, m) (None, m').
Proof. intros M. exists R. split; [apply ext_refl|]. split; [exact M|constructor]. Qed.
Lemma ropt_some R m m' v v' : mrel R m m' -> vrel R v v' -> ropt R (Some v, m) (Some v', m').
Proof. intros M V. exists R. split; [apply ext_refl|]. split; [exact M|constructor; exact V]. Qed.

Lemma keyed_sim R m m' key key' g g' : mrel R m m' -> vrel R key key' -> (forall z, rrel (vrel R) (g z) (g' z)) ->
  osim (ropt R) (keyed m key g) (keyed m' key' g').
Proof.
  intros M K G. pose proof (mrel_set_pend M true) as MP. destruct K as [l l' H|w H]; cbn.
  - eexists; split; [reflexivity|]. apply ropt_none, MP.
  - destruct w; try (eexists; split; [reflexivity|]; apply ropt_none, MP); cbn.
    specialize (G z). destruct (g z), (g' z); cbn in G |- *; try contradiction; auto.
    + eexists; split; [reflexivity|]. apply ropt_some; assumption.
    + eexists; split; [reflexivity|]. apply ropt_none, MP.
Qed.

Section Env.
Variables E E' : env.
Hypothesis B : blind E.
Hypothesis S1 : e_smap E' = e_smap E.
Hypothesis S2 : e_fselect E' = e_fselect E.
Hypothesis S3 : e_finsert E' = e_finsert E.

Lemma obj_select_sim n' : forall n R m m' col col' key key', (n' <= n)%nat -> mrel R m m' -> vrel R col col' -> vrel R key key' ->
  osim (ropt R) (obj_select E n m col key) (obj_select E' n' m' col' key').
Proof.
  induction n' as [|n' IH]; intros n R m m' col col' key key' L M V K; pose proof (mrel_set_pend M true) as MP.
  all: destruct V as [l l' H|w H].
  all: try (destruct w; destruct n; cbn; try solve [destruct (H l eq_refl)]; try (eexists; split; [reflexivity|]; apply ropt_none, MP);
    apply (keyed_sim R); try assumption; intros z; destruct (str_select _ _); cbn; auto with move).
  - destruct (mrel_look M _ _ H) as (o & o' & E1 & E2 & O). destruct n; cbn; rewrite E1, E2.
    all: destruct O as [cap count cells cells' Hc|mapper ks ks' vs vs' Hk Hv|p p' v v' Hp Hv| | | | | | ]; cbn [osim]; auto.
    all: try (eexists; split; [reflexivity|]; apply ropt_none, MP).
    all: try (apply keyed_sim; try assumption; intros z; apply list_select_rel; constructor; assumption).
    all: try (apply map_sel_sim; try assumption; constructor; assumption).
    all: try (rewrite S1; apply bl_smap; assumption).
    all: try (rewrite S2; apply bl_fselect; assumption).
  - destruct n as [|n]; [lia|]. destruct (mrel_look M _ _ H) as (o & o' & E1 & E2 & O). cbn; rewrite E1, E2.
    destruct O as [cap count cells cells' Hc|mapper ks ks' vs vs' Hk Hv|p p' v v' Hp Hv| | | | | | ]; cbn [osim]; auto.
    all: try (eexists; split; [reflexivity|]; apply ropt_none, MP).
    all: try (apply keyed_sim; try assumption; intros z; apply list_select_rel; constructor; assumption).
    all: try (apply map_sel_sim; try assumption; constructor; assumption).
    all: try (rewrite S1; apply bl_smap; assumption).
    all: try (rewrite S2; apply bl_fselect; assumption).
    eapply osim_bind; [apply IH; [lia|exact M|exact Hv|exact K]|].
    intros [r k] [r' k'] (T & X & N & Hr). cbn in *. rewrite (mrel_pend N). destruct (m_pend k').
    + eexists; split; [reflexivity|]. exists T. split; [exact X|]. split; [exact N|constructor].
    + destruct Hr as [|a b Hab]; [destruct Hp as [|q q' Hq]|].
      * eexists; split; [reflexivity|]. exists T. split; [exact X|]. split; [exact N|constructor].
      * eapply osim_impl; [apply (IH n T); [lia|exact N| |]; eapply vrel_ext; eassumption|].
        intros x y (U & Y & Q). exists U. split; [eapply ext_trans; eassumption|exact Q].
      * eexists; split; [reflexivity|]. exists T. split; [exact X|]. split; [exact N|constructor; exact Hab].
Qed.

Lemma select_of_sim R m m' col col' key key' : mrel R m m' -> vrel R col col' -> vrel R key key' ->
  osim (ropt R) (select_of E m col key) (select_of E' m' col' key').
Proof. intros M. apply obj_select_sim; [unfold depth; pose proof (mrel_len M); lia|exact M]. Qed.

Lemma insert_of_sim R m m' col col' key key' val val' : mrel R m m' -> vrel R col col' -> vrel R key key' -> vrel R val val' ->
  osim (rmem R) (insert_of E m col key val) (insert_of E' m' col' key' val').
Proof.
  intros M C K V. unfold insert_of. destruct C as [l l' H|w H]; [|destruct w; cbn; try reflexivity; destruct (H l eq_refl)].
  destruct (mrel_look M _ _ H) as (o & o' & E1 & E2 & O). rewrite E1, E2.
  destruct O as [cap count cells cells' Hc|mapper ks ks' vs vs' Hk Hv|p p' v v' Hp Hv| | | | | | ]; cbn [osim]; auto.
  - destruct K as [k k' K|w K]; [reflexivity|]. destruct w; cbn [osim]; try reflexivity.
    pose proof (list_insert_rel R (mklobj cap count cells) (mklobj cap count cells') z val val' ltac:(constructor; exact Hc) V) as W.
    destruct (list_insert (mklobj cap count cells) z val), (list_insert (mklobj cap count cells') z val'); cbn in W |- *; try contradiction; auto.
    eexists; split; [reflexivity|]. exists R. split; [apply ext_refl|]. apply mrel_set; assumption.
  - apply map_store_sim; try assumption; [apply copy_of_sim|constructor; assumption].
  - rewrite S3. apply bl_finsert; assumption.
Qed.
End Env.

(** * Type tests *)

Definition brel (x x' : bool * bool) : Prop := x = x'.

Lemma sel_flag_sim R m m' o o' pend key key' : mrel R m m' -> orel R o o' -> vrel R key key' ->
  osim (fun x x' => oprel (vrel R) (fst x) (fst x') /\ snd x = snd x') (sel_flag m o pend key) (sel_flag m' o' pend key').
Proof.
  intros M O K. pose proof (mrel_set_pend M pend) as MP.
  destruct O as [cap count cells cells' Hc|mapper ks ks' vs vs' Hk Hv| | | | | | | ]; cbn [sel_flag]; try reflexivity.
  - assert (G : forall z, rrel (vrel R) (list_select (mklobj cap count cells) z) (list_select (mklobj cap count cells') z)).
    { intros z. apply list_select_rel. constructor; exact Hc. }
    destruct K as [l l' H|w H]; cbn; [eexists; split; [reflexivity|]; cbn; split; [constructor|reflexivity]|].
    destruct w; cbn; try (eexists; split; [reflexivity|]; cbn; split; [constructor|reflexivity]).
    specialize (G z). destruct (list_select (mklobj cap count cells) z), (list_select (mklobj cap count cells') z); cbn in G |- *; try contradiction; auto.
    + eexists; split; [reflexivity|]; cbn; split; [constructor; assumption|reflexivity].
    + eexists; split; [reflexivity|]; cbn; split; [constructor|reflexivity].
  - unfold map_sel. cbn [m_objs set_pend].
    pose proof (hash_of_sim M _ _ K) as Hh. destruct (hash_of (m_objs m') key') as [z| | | |] eqn:E; cbn in *; try exact I; try (rewrite Hh; reflexivity).
    destruct Hh as (a & E1 & ->). rewrite E1. cbn.
    pose proof (map_select_rel (hash_or0 (m_objs m)) (hash_or0 (m_objs m')) _ _ (map_cmp_same MP) mapper ks ks' vs vs' Hk Hv
      key key' K (hash_or0_same M _ _ _ K E)) as S.
    destruct (map_select _ _ _ key), (map_select _ _ _ key'); cbn in S |- *; try contradiction; auto;
      eexists; split; try reflexivity; cbn; split; try reflexivity; constructor; assumption.
Qed.

Lemma match_all_sim R (rec rec' : bool -> value -> value -> out (bool * bool)) sel sel' kvs kvs' :
  (forall p t t' v v', vrel R t t' -> vrel R v v' -> osim brel (rec p t v) (rec' p t' v')) ->
  (forall p k k', vrel R k k' -> osim (fun x x' => oprel (vrel R) (fst x) (fst x') /\ snd x = snd x') (sel p k) (sel' p k')) ->
  Forall2 (fun x y => vrel R (fst x) (fst y) /\ vrel R (snd x) (snd y)) kvs kvs' ->
  forall p, osim brel (match_all rec sel p kvs) (match_all rec' sel' p kvs').
Proof.
  intros HR HS H. induction H as [|[k t] [k' t'] r r' [Hk Ht] Hr IH]; intros p; cbn; [eexists; split; reflexivity|].
  eapply osim_bind; [apply HS, Hk|]. intros [x px] [x' px'] [Hx Hp]. cbn in *. subst px'.
  destruct Hx as [|v v' Hv]; [eexists; split; reflexivity|].
  eapply osim_bind; [apply HR; [exact Ht|exact Hv]|]. intros [b q] [b' q'] Hb. injection Hb as <- <-. cbn.
  destruct b; [apply IH|eexists; split; reflexivity].
Qed.

Lemma number_items_rel R vs vs' : Forall2 (vrel R) vs vs' ->
  Forall2 (fun x y => vrel R (fst x) (fst y) /\ vrel R (snd x) (snd y)) (number_items vs) (number_items vs').
Proof.
  intros H. unfold number_items. rewrite (F2_length _ _ _ H). apply F2_combine; [|exact H].
  generalize (seq 0 (length vs')) as is. induction is; cbn; constructor; auto with move.
Qed.

Lemma is_type_of_sim R m m' : mrel R m m' -> forall n' n p t t' v v', (n' <= n)%nat -> vrel R t t' -> vrel R v v' ->
  osim brel (is_type_of n m p t v) (is_type_of n' m' p t' v').
Proof.
  intros M. induction n' as [|n' IH]; intros n p t t' v v' L T V.
  - destruct T as [l l' H|w H]; [exact I|].
    destruct n, w; cbn; try solve [destruct (H l eq_refl)]; rewrite ?(type_same M _ _ V); eexists; split; reflexivity.
  - destruct n as [|n]; [lia|]. destruct T as [l l' H|w H].
    2: { destruct w; cbn; try solve [destruct (H l eq_refl)]; rewrite ?(type_same M _ _ V); eexists; split; reflexivity. }
    destruct (mrel_look M _ _ H) as (o & o' & E1 & E2 & O). cbn. rewrite E1, E2.
    destruct O as [cap count cells cells' Hc|mapper ks ks' vs vs' Hk Hv|q q' u u' Hp Hu| | |u u' Hu|a a' b b' Ha Hb| | ]; cbn [osim].
    all: try (eexists; split; reflexivity).
    + destruct V as [k k' K|w K]; [|destruct w; try (eexists; split; reflexivity); destruct (K l0 eq_refl)].
      destruct (mrel_look M _ _ K) as (x & x' & F1 & F2 & X). rewrite F1, F2. pose proof X as X0.
      destruct X; try (eexists; split; reflexivity).
      pose proof (items_rel cap count _ _ Hc) as It.
      destruct (list_items (mklobj cap count cells)) as [vs|], (list_items (mklobj cap count cells')) as [vs'|]; try contradiction; cbn [osim]; [|reflexivity].
      apply (match_all_sim R); [intros; apply IH; [lia|assumption|assumption]|intros; apply (sel_flag_sim R); assumption|apply number_items_rel, It].
    + destruct V as [k k' K|w K]; [|destruct w; try (eexists; split; reflexivity); destruct (K l0 eq_refl)].
      destruct (mrel_look M _ _ K) as (x & x' & F1 & F2 & X). rewrite F1, F2. pose proof X as X0.
      destruct X; try (eexists; split; reflexivity).
      apply (match_all_sim R); [intros; apply IH; [lia|assumption|assumption]|intros; apply (sel_flag_sim R); assumption|apply F2_combine; assumption].
    + assert (D : osim brel (is_type_of n m p u v) (is_type_of n' m' p u' v')) by (apply IH; [lia|assumption|assumption]).
      destruct V as [k k' K|w K]; [exact D|]. destruct w; try exact D. eexists; split; reflexivity.
    + eapply osim_bind; [apply IH; [lia|exact Ha|exact V]|]. intros [x y] [x' y'] Hb2. injection Hb2 as <- <-. cbn.
      destruct x; [eexists; split; reflexivity|]. apply IH; [lia|exact Hb|exact V].
Qed.

Lemma is_type_sim R m m' t t' v v' : mrel R m m' -> vrel R t t' -> vrel R v v' ->
  osim (fun x x' => fst x = fst x' /\ mrel R (snd x) (snd x')) (is_type m t v) (is_type m' t' v').
Proof.
  intros M T V. unfold is_type. rewrite <- (mrel_pend M). eapply osim_bind.
  - apply (is_type_of_sim R m m' M); [|exact T|exact V]. unfold type_depth. pose proof (mrel_len M). nia.
  - intros [b q] [b' q'] Hb. injection Hb as <- <-. cbn. eexists; split; [reflexivity|]. cbn. split; [reflexivity|]. apply mrel_set_pend, M.
Qed.
