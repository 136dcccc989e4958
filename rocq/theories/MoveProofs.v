(** C80: the operations on objects do not depend on where objects are. *)
From Coq Require Import ZArith List Lia Bool.
From Verif Require Import Base HashModel FloatModel StringModel ValueModel MapModel ListModel ObjModel ExeModel VmModel MoveSpec.
Import ListNotations.
Open Scope Z_scope.

(** * Relations grow *)

Lemma ext_refl R : ext R R.
Proof. intros l l' H. exact H. Qed.
Lemma ext_trans R S T : ext R S -> ext S T -> ext R T.
Proof. intros H1 H2 l l' H. apply H2, H1, H. Qed.
#[global] Hint Resolve ext_refl : move.

Lemma vrel_ext R S v v' : ext R S -> vrel R v v' -> vrel S v v'.
Proof. intros X H. destruct H; [apply vr_ref, X; assumption|apply vr_imm; assumption]. Qed.
Lemma oprel_ext R S v v' : ext R S -> oprel (vrel R) v v' -> oprel (vrel S) v v'.
Proof. intros X H. destruct H; constructor. eapply vrel_ext; eassumption. Qed.
Lemma vrels_ext R S v v' : ext R S -> Forall2 (vrel R) v v' -> Forall2 (vrel S) v v'.
Proof. intros X H. induction H; constructor; [eapply vrel_ext; eassumption|assumption]. Qed.
Lemma oprels_ext R S v v' : ext R S -> Forall2 (oprel (vrel R)) v v' -> Forall2 (oprel (vrel S)) v v'.
Proof. intros X H. induction H; constructor; [eapply oprel_ext; eassumption|assumption]. Qed.
Lemma orel_ext R S o o' : ext R S -> orel R o o' -> orel S o o'.
Proof. intros X H. destruct H; constructor; eauto using vrel_ext, oprel_ext, vrels_ext, oprels_ext. Qed.

Lemma vrel_int R z : vrel R (VInt z) (VInt z).
Proof. apply vr_imm. discriminate. Qed.
Lemma vrel_str R z : vrel R (VStr z) (VStr z).
Proof. apply vr_imm. discriminate. Qed.
Lemma vrel_bool R z : vrel R (VBool z) (VBool z).
Proof. apply vr_imm. discriminate. Qed.
Lemma vrel_flt R z : vrel R (VFloat z) (VFloat z).
Proof. apply vr_imm. discriminate. Qed.
Lemma vrel_none R : vrel R VNone VNone.
Proof. apply vr_imm. discriminate. Qed.
Lemma vrel_type R t : vrel R (VType t) (VType t).
Proof. apply vr_imm. discriminate. Qed.
Lemma vrel_any R : vrel R VAny VAny.
Proof. apply vr_imm. discriminate. Qed.
#[global] Hint Resolve vrel_int vrel_str vrel_bool vrel_flt vrel_none vrel_type vrel_any : move.

(** * Outcomes *)

Lemma osim_bind {A B A' B'} (Q : A -> B -> Prop) (P : A' -> B' -> Prop) x x' f f' :
  osim Q x x' -> (forall a b, Q a b -> osim P (f a) (f' b)) -> osim P (obind x f) (obind x' f').
Proof.
  intros H1 H2. destruct x'; cbn in *; try (rewrite H1; reflexivity); try exact I.
  destruct H1 as (b & -> & Hb). cbn. apply H2, Hb.
Qed.
Lemma osim_impl {A B} (Q P : A -> B -> Prop) x x' : osim Q x x' -> (forall a b, Q a b -> P a b) -> osim P x x'.
Proof. intros H1 H2. destruct x'; cbn in *; try assumption. destruct H1 as (b & E & Hb). eauto. Qed.
Lemma osim_ok {A B} (Q : A -> B -> Prop) a b : Q a b -> osim Q (OOk a) (OOk b).
Proof. cbn. eauto. Qed.
Lemma osim_res {A B} (Q : A -> B -> Prop) (x : res A) (x' : res B) :
  match x, x' with ROk a, ROk b => Q a b | RErr, RErr | RUB, RUB => True | _, _ => False end -> osim Q (of_res x) (of_res x').
Proof. destruct x, x'; cbn; intros H; try contradiction; eauto. Qed.

(** * The store *)

Section Store.
Context {R : nat -> nat -> Prop} {m m' : mem}.
Hypothesis M : mrel R m m'.

Lemma mrel_look l l' : R l l' -> exists o o', nth_error (m_objs m) l = Some o /\ nth_error (m_objs m') l' = Some o' /\ orel R o o'.
Proof. apply M. Qed.
Lemma mrel_pend : m_pend m = m_pend m'.
Proof. apply M. Qed.
Lemma mrel_len : (length (m_objs m') <= length (m_objs m))%nat.
Proof. apply M. Qed.
Lemma mrel_dom l l' : R l l' -> (l < length (m_objs m))%nat /\ (l' < length (m_objs m'))%nat.
Proof. intros H. destruct (mrel_look _ _ H) as (o & o' & E1 & E2 & _). split; apply nth_error_Some; congruence. Qed.

Lemma mrel_set_pend p : mrel R (set_pend m p) (set_pend m' p).
Proof. destruct M as (A & B & C & D & F). repeat split; assumption. Qed.

Lemma mrel_set l l' o o' : R l l' -> orel R o o' -> mrel R (set_obj m l o) (set_obj m' l' o').
Proof.
  intros H O. destruct (mrel_dom _ _ H) as [D1 D2]. pose proof M as (A & B & C & D & F).
  split; [exact A|]. split; [exact B|]. split; [|split; [exact D|cbn; rewrite !upd_length; exact F]].
  intros k k' K. cbn.
  destruct (Nat.eq_dec k l) as [->|N].
  - pose proof (A _ _ _ H K). subst k'. exists o, o'. rewrite !nth_error_upd_same by assumption. auto.
  - assert (k' <> l') by (intros ->; apply N; eapply B; eassumption).
    rewrite !nth_error_upd_other by auto. apply C, K.
Qed.

Definition add_pair : nat -> nat -> Prop := fun l l' => R l l' \/ (l = length (m_objs m) /\ l' = length (m_objs m')).

Lemma add_ext : ext R add_pair.
Proof. intros l l' H. left. exact H. Qed.

Lemma mrel_alloc o o' : orel add_pair o o' ->
  mrel add_pair (snd (alloc m o)) (snd (alloc m' o')) /\ vrel add_pair (fst (alloc m o)) (fst (alloc m' o')).
Proof.
  intros O. pose proof M as (A & B & C & D & F). split; [|apply vr_ref; right; auto].
  split; [|split; [|split; [|split; [exact D|cbn; rewrite !app_length; cbn; lia]]]].
  - intros l l' k [H|[H1 H2]] [K|[K1 K2]]; try congruence; [eapply A; eassumption| |].
    + apply mrel_dom in H. lia.
    + apply mrel_dom in K. lia.
  - intros l l' k [H|[H1 H2]] [K|[K1 K2]]; try congruence; [eapply B; eassumption| |].
    + apply mrel_dom in H. lia.
    + apply mrel_dom in K. lia.
  - intros l l' [H|[-> ->]]; cbn.
    + destruct (mrel_dom _ _ H) as [D1 D2]. destruct (C _ _ H) as (p & p' & E1 & E2 & Q).
      exists p, p'. rewrite !nth_error_app1 by assumption. split; [assumption|]. split; [assumption|].
      eapply orel_ext; [apply add_ext|exact Q].
    + exists o, o'. rewrite !nth_error_app2 by lia. rewrite !Nat.sub_diag. auto.
Qed.

Lemma rval_alloc o o' : orel R o o' -> rval R (alloc m o) (alloc m' o').
Proof. intros O. exists add_pair. split; [exact add_ext|]. apply mrel_alloc. eapply orel_ext; [apply add_ext|exact O]. Qed.

Lemma rt_same l l' : R l l' -> rt_of (m_objs m) l = rt_of (m_objs m') l'.
Proof. intros H. destruct (mrel_look _ _ H) as (o & o' & E1 & E2 & O). unfold rt_of. rewrite E1, E2. destruct O; reflexivity. Qed.
Lemma type_same v v' : vrel R v v' -> type_of (rt_of (m_objs m)) v = type_of (rt_of (m_objs m')) v'.
Proof. intros [l l' H|w H]; cbn; [apply rt_same, H|]. destruct w; try reflexivity. destruct (H l eq_refl). Qed.

Lemma compare_same a a' b b' : vrel R a a' -> vrel R b b' ->
  obj_compare (rt_of (m_objs m)) a b = obj_compare (rt_of (m_objs m')) a' b'.
Proof.
  intros A B. unfold obj_compare. rewrite <- (type_same _ _ A), <- (type_same _ _ B).
  destruct (negb _); [reflexivity|]. destruct A as [l l' A|w A], B as [k k' B|u B]; try reflexivity.
  all: destruct w || destruct u; try reflexivity.
Qed.
Lemma map_cmp_same a a' b b' : vrel R a a' -> vrel R b b' -> map_cmp m a b = map_cmp m' a' b'.
Proof. intros A B. unfold map_cmp. rewrite (compare_same _ _ _ _ A B), mrel_pend. reflexivity. Qed.

(** * Hashes *)

Lemma items_rel cap count cells cells' : Forall2 (oprel (vrel R)) cells cells' ->
  match list_items (mklobj cap count cells), list_items (mklobj cap count cells') with
  | Some vs, Some vs' => Forall2 (vrel R) vs vs' | None, None => True | _, _ => False end.
Proof.
  unfold list_items. cbn. intros H. revert H. generalize (Z.to_nat count) as n. intros n H. revert n.
  induction H as [|c c' r r' Hc Hr IH]; intros [|n]; cbn; try constructor.
  destruct Hc as [|v v' Hv]; cbn; [exact I|]. specialize (IH n).
  destruct (some_all (firstn n r)), (some_all (firstn n r')); try contradiction; [constructor; assumption|exact I].
Qed.

Lemma hash_sum_sim (h h' : value -> out Z) vs vs' : Forall2 (vrel R) vs vs' ->
  (forall v v', vrel R v v' -> osim eq (h v) (h' v')) -> forall acc, osim eq (hash_sum h vs acc) (hash_sum h' vs' acc).
Proof.
  intros H Hh. induction H as [|v v' r r' Hv Hr IH]; intros acc; cbn; [eauto|].
  apply (osim_bind eq); [apply Hh, Hv|]. intros a b ->. apply IH.
Qed.

Lemma obj_hash_sim n' : forall n v v', (n' <= n)%nat -> vrel R v v' ->
  osim eq (obj_hash n (m_objs m) v) (obj_hash n' (m_objs m') v').
Proof.
  induction n' as [|n' IH]; intros n v v' L V.
  - destruct V as [l l' H|w H]; [exact I|].
    destruct n, w; cbn; eauto; try solve [destruct (H l eq_refl)]. all: try (destruct (scalar_hash _); cbn; eauto).
    all: destruct (str_hash _); cbn; eauto.
  - destruct n as [|n]; [lia|]. destruct V as [l l' H|w H].
    + destruct (mrel_look _ _ H) as (o & o' & E1 & E2 & O). cbn. rewrite E1, E2.
      destruct O as [cap count cells cells' Hc|mapper ks ks' vs vs' Hk Hv| | | | | | | ]; cbn; eauto.
      * pose proof (items_rel cap count _ _ Hc) as I.
        destruct (list_items (mklobj cap count cells)), (list_items (mklobj cap count cells')); try contradiction; cbn; [|reflexivity].
        apply hash_sum_sim; [exact I|]. intros. apply IH; [lia|assumption].
      * apply (osim_bind eq); [apply hash_sum_sim; [exact Hk|intros; apply IH; [lia|assumption]]|].
        intros a b ->. apply hash_sum_sim; [exact Hv|intros; apply IH; [lia|assumption]].
    + destruct w; cbn; eauto; try solve [destruct (H l eq_refl)]. destruct (str_hash _); cbn; eauto.
Qed.

Lemma hash_of_sim v v' : vrel R v v' -> osim eq (hash_of (m_objs m) v) (hash_of (m_objs m') v').
Proof. intros V. apply obj_hash_sim; [unfold depth; pose proof mrel_len; lia|exact V]. Qed.
Lemma hash_or0_same v v' z : vrel R v v' -> hash_of (m_objs m') v' = OOk z ->
  hash_or0 (m_objs m) v = hash_or0 (m_objs m') v'.
Proof.
  intros V E. pose proof (hash_of_sim _ _ V) as S. rewrite E in S. destruct S as (a & E1 & ->).
  unfold hash_or0. rewrite E, E1. reflexivity.
Qed.

End Store.
