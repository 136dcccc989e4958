(** C80: collections between instructions are not noticed; natives do not depend on where objects are. *)
From Coq Require Import ZArith List Lia Bool String.
From Verif Require Import Base Utf8Model HashModel FloatModel StringModel ValueModel MapModel ListModel ArithModel ObjModel ExeModel FrameModel VmModel
  SysModel BuiltinModel ShowModel MoveSpec MoveProofs MoveObj MoveVm.
Import ListNotations.
Open Scope Z_scope.

Lemma step_sim E b b' size x R s s' : blind E -> oprel (vrel R) b b' -> srel R s s' ->
  ssim R (step (with_builtins E b) size x s) (step (with_builtins E b') size x s').
Proof.
  intros BE B S. unfold step. pose proof S as (_ & _ & C & _). destruct C as [C _]. rewrite C.
  destruct (exe_fetch x _) as [[[op ops]|]| |]; try reflexivity. apply exec_sim; [exact BE|exact B|apply srel_set_pc, S].
Qed.

(** * Collections *)

Section Collect.
Variable R : nat -> nat -> Prop.
Variables (bt : option value) (t : vstate) (f : nat -> nat).

Definition via (l l' : nat) : Prop := exists k, R l k /\ live bt t k /\ l' = f k.

Lemma via_val v v' : vrel R v v' -> (forall l, v' = VRef l -> live bt t l) -> vrel via v (ren f v').
Proof.
  intros [l l' H|w H] L; cbn; [constructor; exists l'; auto|].
  destruct w; cbn; try (apply vr_imm; discriminate). destruct (H l eq_refl).
Qed.
Lemma via_vals vs vs' : Forall2 (vrel R) vs vs' -> (forall l, In (VRef l) vs' -> live bt t l) ->
  Forall2 (vrel via) vs (map (ren f) vs').
Proof.
  induction 1 as [|v v' r r' Hv Hr IH]; cbn; intros L; constructor.
  - apply via_val; [exact Hv|]. intros l ->. apply L. left. reflexivity.
  - apply IH. intros l H. apply L. right. exact H.
Qed.
Lemma via_opt o o' : oprel (vrel R) o o' -> (forall l, o' = Some (VRef l) -> live bt t l) ->
  oprel (vrel via) o (option_map (ren f) o').
Proof.
  intros [|v v' H] L; cbn; constructor. apply via_val; [exact H|]. intros l ->. apply L. reflexivity.
Qed.
Lemma via_cells cs cs' : Forall2 (oprel (vrel R)) cs cs' -> (forall l, In (Some (VRef l)) cs' -> live bt t l) ->
  Forall2 (oprel (vrel via)) cs (map (option_map (ren f)) cs').
Proof.
  induction 1 as [|v v' r r' Hv Hr IH]; cbn; intros L; constructor.
  - apply via_opt; [exact Hv|]. intros l ->. apply L. left. reflexivity.
  - apply IH. intros l H. apply L. right. exact H.
Qed.
Lemma via_obj o o' : orel R o o' -> (forall l, refers o' l -> live bt t l) -> orel via o (ren_obj f o').
Proof.
  intros [ ]; intros L; cbn; constructor;
    try (apply via_cells; [assumption|]); try (apply via_vals; [assumption|]); try (apply via_opt; [assumption|]); try (apply via_val; [assumption|]);
    intros l K; try subst; apply L; constructor; assumption.
Qed.
Lemma via_frame fr fr' : frel R fr fr' -> (forall l, frame_refers fr' l -> live bt t l) -> frel via fr (ren_frame f fr').
Proof.
  intros (A & B & C & D & F) L. split; [exact A|]. split; [exact B|]. unfold frame_refers in L. cbn.
  split; [apply via_vals; auto|]. split; [apply via_val; auto|apply via_opt; auto].
Qed.
Lemma via_frames fs fs' : Forall2 (frel R) fs fs' -> (forall fr l, In fr fs' -> frame_refers fr l -> live bt t l) ->
  Forall2 (frel via) fs (map (ren_frame f) fs').
Proof.
  induction 1 as [|g g' r r' Hg Hr IH]; cbn; intros L; constructor.
  - apply via_frame; [exact Hg|]. intros l H. eapply L; [left; reflexivity|exact H].
  - apply IH. intros fr l H. apply L. right. exact H.
Qed.
End Collect.

Lemma collected_srel R b s bt t bt' t' : oprel (vrel R) b bt -> srel R s t -> collected bt t bt' t' ->
  exists S, oprel (vrel S) b bt' /\ srel S s t'.
Proof.
  intros B (M & Co & Cu & Re) (f & Inj & Obj & Len & Pend & B' & Co' & Cu' & Re').
  exists (via R bt t f). split.
  - subst bt'. apply via_opt; [exact B|]. intros l ->. apply live_builtins. reflexivity.
  - pose proof M as (M1 & M2 & M3 & M4 & M5). split; [|split; [congruence|split]].
    + split; [|split; [|split; [|split]]].
      * intros l l' k (a & A1 & A2 & ->) (c & C1 & C2 & ->). f_equal. eapply M1; eassumption.
      * intros l l' k (a & A1 & A2 & ->) (c & C1 & C2 & C3). pose proof (Inj _ _ A2 C2 C3) as <-. eapply M2; eassumption.
      * intros l l' (k & K1 & K2 & ->). destruct (M3 _ _ K1) as (o & o' & O1 & O2 & O3).
        destruct (Obj _ K2) as (o2 & O4 & O5). rewrite O2 in O4. injection O4 as <-.
        exists o, (ren_obj f o'). repeat split; try assumption. apply via_obj; [exact O3|]. intros l2 Hl. eapply live_obj; eassumption.
      * congruence.
      * lia.
    + rewrite Cu'. apply via_frame; [exact Cu|]. intros l H. eapply live_frame; [left; reflexivity|exact H].
    + rewrite Re'. apply via_frames; [exact Re|]. intros fr l H. apply live_frame. right. exact H.
Qed.

(** * Printing *)

Section Print.
Context {ff : Z -> list Z} {fb : nat -> list Z} {R : nat -> nat -> Prop} {m m' : mem} (M : mrel R m m').

(** The flags Object_PRINT of connected objects are the same. *)
Definition flrel (fl fl' : list bool) : Prop :=
  List.length fl = List.length (m_objs m) /\ List.length fl' = List.length (m_objs m') /\ (forall l l', R l l' -> nth l fl false = nth l' fl' false).
Definition prel2 (x x' : list Z * list bool) : Prop := fst x = fst x' /\ flrel (snd x) (snd x').

Lemma flrel_upd fl fl' l l' c : flrel fl fl' -> R l l' -> flrel (upd fl l c) (upd fl' l' c).
Proof.
  intros (A & B & C) H. split; [rewrite upd_length; exact A|]. split; [rewrite upd_length; exact B|]. intros k k' K.
  pose proof M as (M1 & M2 & _). destruct (mrel_look M _ _ H) as (o & o' & O1 & O2 & _).
  assert (L1 : (l < List.length fl)%nat) by (rewrite A; apply nth_error_Some; congruence).
  assert (L2 : (l' < List.length fl')%nat) by (rewrite B; apply nth_error_Some; congruence).
  destruct (Nat.eq_dec l k) as [<-|N].
  - pose proof (M1 _ _ _ H K) as <-. rewrite !nth_upd_same by assumption. reflexivity.
  - rewrite !nth_upd_other; [apply C, K|intros <-; apply N; eapply M2; eassumption|exact N].
Qed.

Variables pr pr' : list bool -> value -> out (list Z * list bool).
Hypothesis PR : forall fl fl' v v', flrel fl fl' -> vrel R v v' -> osim prel2 (pr fl v) (pr' fl' v').

Lemma print_all_sim vs vs' : Forall2 (vrel R) vs vs' -> forall fl fl', flrel fl fl' -> osim prel2 (print_all pr fl vs) (print_all pr' fl' vs').
Proof.
  induction 1 as [|v v' r r' Hv Hr IH]; intros fl fl' F; cbn [print_all]; [apply osim_ok; split; [reflexivity|exact F]|].
  eapply osim_bind; [apply PR; eassumption|]. intros [t f] [t' f'] [E1 F2]. cbn [fst snd] in *. subst t'. destruct Hr as [|u u' r r' Hu Hr]; [apply osim_ok; split; [reflexivity|exact F2]|].
  eapply osim_bind; [apply IH, F2|]. intros [t2 f2] [t2' f2'] [E2 F3]. cbn [fst snd] in *. subst. apply osim_ok; split; [reflexivity|exact F3].
Qed.
Lemma print_pairs_sim ks ks' : Forall2 (vrel R) ks ks' -> forall vs vs', Forall2 (vrel R) vs vs' -> forall fl fl', flrel fl fl' ->
  osim prel2 (print_pairs pr fl (combine ks vs)) (print_pairs pr' fl' (combine ks' vs')).
Proof.
  induction 1 as [|k k' r r' Hk Hr IH]; intros vs vs' V fl fl' F; cbn [print_pairs combine]; [apply osim_ok; split; [reflexivity|exact F]|].
  destruct V as [|v v' q q' Hv V]; cbn [print_pairs]; [apply osim_ok; split; [reflexivity|exact F]|].
  eapply osim_bind; [apply PR; eassumption|]. intros [t f] [t' f'] [E1 F2]. cbn [fst snd] in *.
  eapply osim_bind; [apply PR; eassumption|]. intros [t2 f2] [t2' f2'] [E2 F3]. cbn [fst snd] in *. subst. cbv zeta.
  specialize (IH q q' V f2 f2' F3).
  destruct Hr as [|u u' r r' Hu Hr]; [apply osim_ok; split; [reflexivity|exact F3]|].
  destruct V as [|w w' q q' Hw V]; [apply osim_ok; split; [reflexivity|exact F3]|]. cbn [combine] in *.
  eapply osim_bind; [apply IH|]. intros [t3 f3] [t3' f3'] [E3 F4]. cbn [fst snd] in *. subst. apply osim_ok; split; [reflexivity|exact F4].
Qed.
Lemma print_obj_sim o o' fl fl' : orel R o o' -> flrel fl fl' -> osim prel2 (print_obj fb pr fl o) (print_obj fb pr' fl' o').
Proof.
  intros O F. destruct O; cbn [print_obj]; try (apply osim_ok; split; [reflexivity|exact F]).
  - pose proof (items_rel (R := R) cap count _ _ H) as Q. destruct (list_items _), (list_items _); try contradiction; [|reflexivity].
    eapply osim_bind; [apply print_all_sim; eassumption|]. intros [t f] [t' f'] [E1 F2]. cbn [fst snd] in *. subst. apply osim_ok; split; [reflexivity|exact F2].
  - cbn [m_keys m_vals]. eapply osim_bind; [apply print_pairs_sim; eassumption|]. intros [t f] [t' f'] [E1 F2]. cbn [fst snd] in *. subst.
    apply osim_ok; split; [reflexivity|exact F2].
  - eapply osim_bind; [apply PR; eassumption|]. intros [t f] [t' f'] [E1 F2]. cbn [fst snd] in *. subst. apply osim_ok; split; [reflexivity|exact F2].
  - eapply osim_bind; [apply PR; eassumption|]. intros [t f] [t' f'] [E1 F2]. cbn [fst snd] in *.
    eapply osim_bind; [apply PR; eassumption|]. intros [t2 f2] [t2' f2'] [E2 F3]. cbn [fst snd] in *. subst. apply osim_ok; split; [reflexivity|exact F3].
  - destruct t; apply osim_ok; split; try reflexivity; exact F.
Qed.
End Print.

Lemma obj_print_sim ff fb R m m' (M : mrel R m m') n' : forall n fl fl' v v', (n' <= n)%nat -> flrel (R := R) (m := m) (m' := m') fl fl' -> vrel R v v' ->
  osim (prel2 (R := R) (m := m) (m' := m')) (obj_print n ff fb (m_objs m) fl v) (obj_print n' ff fb (m_objs m') fl' v').
Proof.
  induction n' as [|n' IH]; intros n fl fl' v v' L F V.
  - destruct V as [l l' V|w V]; [cbn; exact I|]. destruct w, n; try (destruct (V _ eq_refl)); apply osim_ok; (split; [reflexivity|exact F]).
  - destruct n as [|n]; [lia|]. destruct V as [l l' V|w V]; [|destruct w; try (destruct (V _ eq_refl)); apply osim_ok; (split; [reflexivity|exact F])].
    cbn [obj_print]. pose proof F as (_ & _ & F3). rewrite (F3 _ _ V). destruct (nth l' fl' false); [apply osim_ok; split; [reflexivity|exact F]|].
    destruct (mrel_look M _ _ V) as (o & o' & O1 & O2 & O). rewrite O1, O2.
    eapply osim_bind.
    + apply (print_obj_sim (R := R) (m := m) (m' := m')); [|exact O|apply (flrel_upd M); assumption]. intros. apply IH; [lia|assumption|assumption].
    + intros [t f] [t' f'] [E1 F4]. cbn [fst snd] in *. subst. apply osim_ok; split; [reflexivity|]. apply (flrel_upd M); assumption.
Qed.
Lemma print_args_sim ff fb R m m' (M : mrel R m m') vs vs' : Forall2 (vrel R) vs vs' -> forall fl fl', flrel (R := R) (m := m) (m' := m') fl fl' ->
  osim (prel2 (R := R) (m := m) (m' := m')) (print_args ff fb (m_objs m) fl vs) (print_args ff fb (m_objs m') fl' vs').
Proof.
  induction 1 as [|v v' r r' Hv Hr IH]; intros fl fl' F; cbn [print_args]; [apply osim_ok; split; [reflexivity|exact F]|].
  eapply osim_bind; [apply (obj_print_sim ff fb R m m' M); [unfold depth; pose proof M as (_ & _ & _ & _ & M5); lia|exact F|exact Hv]|].
  intros [t f] [t' f'] [E1 F2]. cbn [fst snd] in *.
  eapply osim_bind; [apply IH, F2|]. intros [t2 f2] [t2' f2'] [E2 F3]. cbn [fst snd] in *. subst. apply osim_ok; split; [reflexivity|exact F3].
Qed.
Lemma bin_print_sim ff fb R m m' vs vs' : mrel R m m' -> Forall2 (vrel R) vs vs' ->
  osim (fun x x' => fst x = fst x') (bin_print ff fb (m_objs m) vs) (bin_print ff fb (m_objs m') vs').
Proof.
  intros M V. unfold bin_print. eapply osim_impl; [apply (print_args_sim ff fb R m m' M); [exact V|]|intros x x' H; apply H].
  split; [apply repeat_length|]. split; [apply repeat_length|]. intros l l' _.
  assert (N : forall k n, nth k (repeat false n) false = false) by (induction k; destruct n; cbn; auto). rewrite !N. reflexivity.
Qed.

Lemma prints_sim ff fb x R s s' : srel R s s' -> osim eq (prints ff fb x s) (prints ff fb x s').
Proof.
  intros H. pose proof H as (M & Co & Cu & Re). pose proof (srel_stack _ _ _ H) as St. unfold prints. destruct Cu as [Pc _]. rewrite Pc.
  assert (Z : osim eq (OOk (@nil Z)) (OOk (@nil Z))) by (apply osim_ok; reflexivity).
  destruct (exe_fetch x _) as [[[op ops]|]| |]; try exact Z. destruct op; try exact Z.
  destruct ops as [|o1 ops]; [exact Z|]. destruct o1; try exact Z. destruct ops as [|o2 ops]; [exact Z|]. destruct o2; try exact Z. destruct ops; [|exact Z].
  destruct St as [|v v' r r' Hv Hr]; [exact Z|]. destruct Hv as [l l' Hv|w Hv]; [|destruct w; try exact Z; destruct (Hv _ eq_refl)].
  destruct (mrel_look M _ _ Hv) as (o & o' & O1 & O2 & O). rewrite O1, O2. destruct O; try exact Z.
  cbn [List.length]. rewrite (F2_length _ _ _ Hr), (F2_length _ _ _ Re). cbv zeta. destruct (_ && _); [|exact Z].
  eapply osim_bind; [apply (bin_print_sim ff fb R); [exact M|]|].
  - pose proof (F2_firstn _ _ _ Hr (Z.to_nat (wrap32 z))) as Q. destruct (argc <? 0); [exact Q|apply adjust_rel, Q].
  - intros a a' E. cbn beta in E. rewrite E. apply osim_ok. reflexivity.
Qed.

Lemma gc_run_same ff fb E size x n bt t w r : blind E -> gc_run ff fb E size x n bt t w r ->
  forall R b s, oprel (vrel R) b bt -> srel R s t ->
  same_end (steps (with_builtins E b) size x n s) r /\ same_text (written ff fb (with_builtins E b) size x n s) w r.
Proof.
  intros BE H. induction H as [bt t|n bt t bt' t' w r C H IH|n bt t t' w r St H IH|n bt t r St No]; intros R b s B S.
  - split; [cbn; eauto|]. exists [], []. repeat split. constructor.
  - destruct (collected_srel _ _ _ _ _ _ _ B S C) as (T & B' & S'). eapply IH; eassumption.
  - pose proof (step_sim E b bt size x R s t BE B S) as Q. rewrite St in Q. cbn in Q.
    destruct Q as (s1 & Q1 & T & X & Q2). cbn. rewrite Q1. destruct (IH T b s1) as (I1 & w1 & more & I2 & I3 & I4); [eapply oprel_ext; eassumption|exact Q2|].
    split; [exact I1|]. exists (prints ff fb x s :: w1), more. rewrite I2. split; [reflexivity|]. split; [|exact I4].
    constructor; [eapply prints_sim; exact S|exact I3].
  - pose proof (step_sim E b bt size x R s t BE B S) as Q. rewrite St in Q. cbn [steps written].
    pose proof (prints_sim ff fb x R s t S) as Pq.
    assert (G : forall y, step (with_builtins E b) size x s = y -> (forall s', y <> SNext s') ->
      same_text (prints ff fb x s :: match y with SNext t0 => written ff fb (with_builtins E b) size x n t0 | _ => [] end) [prints ff fb x t] r).
    { intros y Y Ny. exists [prints ff fb x s], []. split; [destruct y; try reflexivity; destruct (Ny s0 eq_refl)|].
      split; [constructor; [exact Pq|constructor]|auto]. }
    destruct r; cbn in Q |- *.
    + destruct (No s0 eq_refl).
    + destruct Q as (vs & m1 & Q1 & T & X & Q2 & Q3). rewrite Q1. split; [exists T, vs, m1; auto|]. apply (G _ Q1). discriminate.
    + rewrite Q. split; [reflexivity|]. apply (G _ Q). discriminate.
    + rewrite Q. split; [reflexivity|]. apply (G _ Q). discriminate.
    + rewrite Q. split; [reflexivity|]. apply (G _ Q). discriminate.
    + rewrite Q. split; [reflexivity|]. apply (G _ Q). discriminate.
    + split; [exact I|]. eexists [prints ff fb x s], _. split; [reflexivity|]. split; [constructor; [exact Pq|constructor]|]. congruence.
Qed.

(** A state is like itself. *)
Lemma self_val (P : nat -> Prop) v : (forall l, v = VRef l -> P l) -> vrel (fun l l' => l = l' /\ P l) v v.
Proof. intros H. destruct v; try (apply vr_imm; discriminate). constructor. auto. Qed.
Lemma self_opt (P : nat -> Prop) o : (forall l, o = Some (VRef l) -> P l) -> oprel (vrel (fun l l' => l = l' /\ P l)) o o.
Proof. intros H. destruct o; constructor. apply self_val. intros l ->. apply H. reflexivity. Qed.
Lemma self_vals (P : nat -> Prop) vs : (forall l, In (VRef l) vs -> P l) -> Forall2 (vrel (fun l l' => l = l' /\ P l)) vs vs.
Proof. induction vs as [|v r IH]; intros H; constructor; [apply self_val; intros l ->; apply H; left; reflexivity|]. apply IH. intros l K. apply H. right. exact K. Qed.
Lemma self_cells (P : nat -> Prop) vs : (forall l, In (Some (VRef l)) vs -> P l) -> Forall2 (oprel (vrel (fun l l' => l = l' /\ P l))) vs vs.
Proof. induction vs as [|v r IH]; intros H; constructor; [apply self_opt; intros l ->; apply H; left; reflexivity|]. apply IH. intros l K. apply H. right. exact K. Qed.
Lemma self_obj (P : nat -> Prop) o : (forall l, refers o l -> P l) -> orel (fun l l' => l = l' /\ P l) o o.
Proof.
  intros H. destruct o as [[ ]|[ ]| | | | | | | ]; constructor; try apply self_cells; try apply self_vals; try apply self_opt; try apply self_val;
    intros l K; try subst; apply H; constructor; assumption.
Qed.
Lemma self_frame (P : nat -> Prop) fr : (forall l, frame_refers fr l -> P l) -> frel (fun l l' => l = l' /\ P l) fr fr.
Proof.
  unfold frame_refers. intros H. split; [reflexivity|]. split; [reflexivity|]. split; [apply self_vals; auto|]. split; [apply self_val; auto|apply self_opt; auto].
Qed.
Lemma self_state b s : whole b s -> oprel (vrel (fun l l' => l = l' /\ live b s l)) b b /\ srel (fun l l' => l = l' /\ live b s l) s s.
Proof.
  intros W. split; [apply self_opt; intros l ->; apply live_builtins; reflexivity|].
  split; [|split; [reflexivity|split]].
  - split; [intros l l' k [-> _] [-> _]; reflexivity|]. split; [intros l l' k [-> _] [-> _]; reflexivity|].
    split; [|split; [reflexivity|lia]]. intros l l' [<- L]. destruct (W l L) as [o O]. exists o, o. split; [exact O|]. split; [exact O|].
    apply self_obj. intros k K. eapply live_obj; eassumption.
  - apply self_frame. intros l H. eapply live_frame; [left; reflexivity|exact H].
  - assert (G : forall fs, (forall fr, In fr fs -> In fr (v_cur s :: v_rest s)) -> Forall2 (frel (fun l l' => l = l' /\ live b s l)) fs fs).
    { induction fs as [|fr r IH]; intros I; constructor; [|apply IH; intros; apply I; right; assumption].
      apply self_frame. intros l H. eapply live_frame; [apply I; left; reflexivity|exact H]. }
    apply G. intros fr H. right. exact H.
Qed.

Theorem collections_unseen ff fb E size x n b s w r : blind E -> whole b s -> gc_run ff fb E size x n b s w r ->
  same_end (steps (with_builtins E b) size x n s) r /\ same_text (written ff fb (with_builtins E b) size x n s) w r.
Proof.
  intros BE W H. destruct (self_state b s W) as [B S]. eapply gc_run_same; eassumption.
Qed.

(** * The natives *)

Lemma rvals_same R m m' vs vs' : mrel R m m' -> Forall2 (vrel R) vs vs' -> rvals R (vs, m) (vs', m').
Proof. intros M V. exists R. split; [apply ext_refl|]. split; assumption. Qed.
Lemma ret1_sim R m m' v v' : mrel R m m' -> vrel R v v' -> osim (rvals R) (ret1 m v) (ret1 m' v').
Proof. intros M V. eexists; split; [reflexivity|]. apply rvals_same; [exact M|]. constructor; [exact V|constructor]. Qed.
Lemma ret1_bind R m m' (x x' : out value) : mrel R m m' -> osim (vrel R) x x' -> osim (rvals R) (obind x (ret1 m)) (obind x' (ret1 m')).
Proof. intros M H. eapply osim_bind; [exact H|]. intros v v' V. apply ret1_sim; assumption. Qed.
Lemma new_string_sim R bs n : osim (vrel R) (new_string bs n) (new_string bs n).
Proof. unfold new_string. destruct (from_string _ _); cbn; auto. eexists; split; [reflexivity|auto with move]. Qed.
Lemma none_and_sim R m m' msg : mrel R m m' -> osim (rvals R) (none_and msg m) (none_and msg m').
Proof.
  intros M. unfold none_and. eapply osim_bind; [apply (vstring_sim R)|]. intros v v' V. eexists; split; [reflexivity|]. apply rvals_same; [exact M|].
  constructor; [auto with move|]. constructor; [exact V|constructor].
Qed.

(** One argument as a native sees it. *)
Inductive prel : parg -> parg -> Prop :=
| pr_buf : forall v v', prel (PgBuf v) (PgBuf v')
| pr_file : forall v v', prel (PgFile v) (PgFile v')
| pr_same : forall p, prel p p.

Lemma parse_arg_sim R m m' c a a' : mrel R m m' -> vrel R a a' -> osim prel (parse_arg (m_objs m) c a) (parse_arg (m_objs m') c a').
Proof.
  intros M A. unfold parse_arg. cbv zeta. rewrite (type_same M _ _ A).
  destruct A as [l l' A|w A].
  - repeat match goal with |- context [if ?c then _ else _] => destruct c end; cbn; eauto using prel.
  - repeat match goal with |- context [if ?c then _ else _] => destruct c end; try destruct w; cbn; eauto using prel.
Qed.
Lemma parse_args_sim R m m' : mrel R m m' -> forall argv argv', Forall2 (vrel R) argv argv' ->
  forall fmt, osim (Forall2 prel) (parse_args (m_objs m) fmt argv) (parse_args (m_objs m') fmt argv').
Proof.
  intros M argv argv' H. induction H as [|a a' r r' Ha Hr IH]; intros [|c fmt]; cbn; try reflexivity; try (eexists; split; [reflexivity|constructor]).
  destruct (c =? 63).
  - destruct fmt as [|c2 fmt]; [reflexivity|]. eapply osim_bind with (Q := prel).
    + destruct Ha as [l l' Ha|w Ha]; [apply (parse_arg_sim R); [exact M|constructor; exact Ha]|].
      destruct w; try (apply (parse_arg_sim R); [exact M|constructor; assumption]). eexists; split; [reflexivity|constructor].
    + intros p p' P. eapply osim_bind; [apply IH|]. intros ps ps' Ps. eexists; split; [reflexivity|constructor; assumption].
  - eapply osim_bind; [apply (parse_arg_sim R); eassumption|].
    intros p p' P. eapply osim_bind; [apply IH|]. intros ps ps' Ps. eexists; split; [reflexivity|constructor; assumption].
Qed.

Lemma cat_total_same R a a' : Forall2 (vrel R) a a' -> forall t, cat_total a t = cat_total a' t.
Proof.
  induction 1 as [|v v' r r' Hv Hr IH]; intros t; cbn; [reflexivity|].
  destruct Hv as [l l' Hv|w Hv]; [reflexivity|]. destruct w; auto.
Qed.
Lemma cat_copy_same R a a' : Forall2 (vrel R) a a' -> forall b w, cat_copy a b w = cat_copy a' b w.
Proof.
  induction 1 as [|v v' r r' Hv Hr IH]; intros b w; cbn; [reflexivity|].
  destruct Hv as [l l' Hv|u Hv]; [reflexivity|]. destruct u; auto. destruct (put_bytes _ _ _); auto.
Qed.

Ltac one_arg H := destruct H as [|v v' ? ? Hv H]; [reflexivity|]; destruct H; [|destruct Hv as [? ? Hv|w Hv]; [|destruct w]; reflexivity].

Lemma ints_list_imm R x : osim (orel R) (ints_list x) (ints_list x).
Proof.
  unfold ints_list. destruct x as [l| |]; cbn; try reflexivity. eexists; split; [reflexivity|]. constructor.
  induction (l_cells l) as [|[z|] r IH]; cbn; constructor; auto; constructor. auto with move.
Qed.

Lemma alloc1_sim R m m' (x x' : out hobj) : mrel R m m' -> osim (orel R) x x' ->
  osim (rvals R) (obind x (fun o => let (l, n) := alloc m o in ret1 n l)) (obind x' (fun o => let (l, n) := alloc m' o in ret1 n l)).
Proof.
  intros M H. eapply osim_bind; [exact H|]. intros o o' O. destruct (rval_alloc M _ _ O) as (T & X & N & V).
  destruct (alloc m o) as [l n], (alloc m' o') as [l' n']. cbn [fst snd] in *.
  eexists; split; [reflexivity|]. exists T. split; [exact X|]. split; [exact N|]. constructor; [exact V|constructor].
Qed.

Lemma native_sim E R m m' id a a' : blind E -> mrel R m m' -> Forall2 (vrel R) a a' ->
  osim (rvals R) (native E id a m) (native E id a' m').
Proof.
  intros BE M A. pose proof (bl_native E BE R m m' id a a' M A) as Other.
  destruct id as [|[|[|[|[|[|[|[|[|[|[|[|[|[|id]]]]]]]]]]]]]]; [..|exact Other]; cbn [native].
  - (* ord *)
    unfold bin_ord. one_arg A. destruct Hv as [l l' Hv|w Hv]; [reflexivity|]. destruct w; try reflexivity.
    destruct (_ =? _)%nat; [reflexivity|]. destruct (utf8_decode _ _); try reflexivity; apply ret1_sim; auto with move.
  - (* chr *)
    unfold bin_chr. one_arg A. destruct Hv as [l l' Hv|w Hv]; [reflexivity|]. destruct w; try reflexivity.
    destruct (utf8_encode _ _); [|reflexivity]. apply ret1_bind; [exact M|apply new_string_sim].
  - (* cat *)
    unfold bin_cat. rewrite (cat_total_same R _ _ A). destruct (cat_total _ _); [|reflexivity]. cbv zeta.
    rewrite (cat_copy_same R _ _ A). destruct (cat_copy _ _ _); cbn [of_res obind]; try reflexivity.
    destruct (put_bytes _ _ _); cbn [of_res obind]; try reflexivity. apply ret1_bind; [exact M|apply new_string_sim].
  - (* trim *)
    unfold bin_trim. eapply osim_bind; [apply (parse_args_sim R m m' M); exact A|]. intros ps ps' P.
    destruct P as [|p p' ? ? Hp P]; [reflexivity|]. destruct Hp as [v v'|v v'|p]; try reflexivity. destruct P; [|destruct p; reflexivity].
    destruct p; try reflexivity. cbv zeta. destruct (_ =? _)%nat; [apply ret1_bind; [exact M|apply new_string_sim]|].
    destruct (drop_spaces _ _); [|reflexivity]. apply ret1_bind; [exact M|apply new_string_sim].
  - (* slice *)
    unfold bin_slice. eapply osim_bind; [apply (parse_args_sim R m m' M); exact A|]. intros ps ps' P.
    destruct P as [|p p' ? ? Hp P]; [reflexivity|]. destruct Hp as [v v'|v v'|p]; try reflexivity.
    destruct P as [|q q' ? ? Hq P]; [destruct p; reflexivity|]. destruct P as [|u u' ? ? Hu P]; [destruct p; reflexivity|].
    destruct P; [|destruct p; reflexivity]. destruct p; try reflexivity. cbv zeta.
    assert (K : forall x, match q with PgInt n => n | _ => x end = match q' with PgInt n => n | _ => x end) by (destruct Hq; reflexivity).
    assert (K2 : forall x, match u with PgInt n => n | _ => x end = match u' with PgInt n => n | _ => x end) by (destruct Hu; reflexivity).
    assert (K3 : match q with PgInt n => n <? 0 | _ => false end = match q' with PgInt n => n <? 0 | _ => false end) by (destruct Hq; reflexivity).
    assert (K4 : match u with PgInt n => n <? 0 | _ => false end = match u' with PgInt n => n <? 0 | _ => false end) by (destruct Hu; reflexivity).
    rewrite !K, !K2, !K3, !K4.
    repeat match goal with |- context [if ?c then _ else _] => destruct c end; try reflexivity.
    apply ret1_bind; [exact M|apply new_string_sim].
  - (* toInt *)
    unfold bin_toInt. eapply osim_bind; [apply (parse_args_sim R m m' M); exact A|]. intros ps ps' P.
    destruct P as [|p p' ? ? Hp P]; [reflexivity|]. destruct Hp as [v v'|v v'|p]; try reflexivity. destruct P; [|destruct p; reflexivity].
    destruct p; try reflexivity. destruct s; [apply none_and_sim, M|]. destruct (isdigit _); [|apply none_and_sim, M].
    destruct (toint_loop _ _) as [[|]|]; try (apply none_and_sim, M). apply ret1_sim; [exact M|]. unfold ret_int. auto with move.
  - (* type *)
    unfold bin_type. destruct A as [|v v' ? ? Hv A]; [reflexivity|]. destruct A; [|reflexivity]. rewrite (type_same M _ _ Hv). apply ret1_sim; auto with move.
  - (* print *) eexists; split; [reflexivity|]. apply rvals_same; [exact M|constructor].
  - (* count *)
    unfold bin_count. pose proof A as A0. destruct A as [|v v' ? ? Hv A]; [reflexivity|]. destruct A; [|reflexivity]. cbv zeta. rewrite (mrel_pend M).
    destruct Hv as [p p' Hv|w Hv].
    + destruct (mrel_look M _ _ Hv) as (o & o' & O1 & O2 & O). rewrite O1, O2. destruct O; try reflexivity; try exact Other.
      * cbn [l_count]. destruct (m_pend m'); [reflexivity|]. apply ret1_sim; auto with move.
      * unfold map_count. cbn [m_keys]. rewrite (F2_length _ _ _ H). destruct (m_pend m'); [reflexivity|]. apply ret1_sim; auto with move.
    + destruct w; try reflexivity; try (destruct (Hv _ eq_refl)). destruct (m_pend m'); [reflexivity|]. apply ret1_sim; auto with move.
  - (* error *) reflexivity.
  - (* assert *)
    clear Other. induction A as [|v v' ? ? Hv A IH]; cbn; [eexists; split; [reflexivity|]; apply rvals_same; [exact M|constructor]|].
    destruct Hv as [p p' Hv|w Hv]; [reflexivity|]. destruct w; try reflexivity. destruct b; [exact IH|reflexivity].
  - (* istypeof *)
    unfold bin_istypeof. destruct A as [|v v' ? ? Hv A]; [reflexivity|]. destruct A as [|u u' ? ? Hu A]; [reflexivity|]. destruct A; [|reflexivity].
    eapply osim_bind; [apply (is_type_sim R); eassumption|]. intros [c n] [c' n'] [-> N]. cbn [fst snd] in *. apply ret1_sim; auto with move.
  - (* typename *)
    unfold bin_typename. destruct A as [|v v' ? ? Hv A]; [reflexivity|]. destruct A; [|reflexivity]. rewrite (type_same M _ _ Hv).
    apply ret1_bind; [exact M|apply vstring_sim].
  - (* keysof *)
    unfold bin_keysof. destruct A as [|v v' ? ? Hv A]; [reflexivity|]. destruct A; [|reflexivity]. cbv zeta.
    destruct Hv as [p p' Hv|w Hv].
    + destruct (mrel_look M _ _ Hv) as (o & o' & O1 & O2 & O). rewrite O1, O2. destruct O; try (apply ret1_sim; auto with move; fail).
      * apply alloc1_sim; [exact M|]. unfold list_keysof. cbn [l_count]. apply ints_list_imm.
      * apply alloc1_sim; [exact M|]. apply osim_ok. apply new_list2_rel. assumption.
      * destruct t; try exact Other; apply ret1_sim; auto with move.
    + destruct w; try (apply ret1_sim; auto with move; fail); try (destruct (Hv _ eq_refl)).
      apply alloc1_sim; [exact M|apply ints_list_imm].
Qed.

Lemma smap_sim E R m m' id k k' : blind E -> mrel R m m' -> vrel R k k' -> osim (ropt R) (smap_select E id k m) (smap_select E id k' m').
Proof.
  intros BE M K. pose proof (bl_smap E BE R m m' id k k' M K) as Other.
  assert (G : forall sl, osim (ropt R) (let (v, n) := slot_value m sl in OOk (Some v, n)) (let (v, n) := slot_value m' sl in OOk (Some v, n))).
  { intros sl. destruct sl; cbn [slot_value]; try (eexists; split; [reflexivity|]; apply ropt_some; auto with move; fail).
    - destruct (rval_alloc M _ _ (or_smap R id0)) as (T & X & N & V). destruct (alloc m _), (alloc m' _). cbn [fst snd] in *.
      eexists; split; [reflexivity|]. exists T. cbn. split; [exact X|]. split; [exact N|constructor; exact V].
    - destruct (rval_alloc M _ _ (or_nat R id0 argc)) as (T & X & N & V). destruct (alloc m _), (alloc m' _). cbn [fst snd] in *.
      eexists; split; [reflexivity|]. exists T. cbn. split; [exact X|]. split; [exact N|constructor; exact V]. }
  assert (Z : osim (ropt R) (OOk (None : option value, m)) (OOk (None : option value, m'))) by (eexists; split; [reflexivity|]; apply ropt_none, M).
  destruct id as [|[|[|[|[|[|id]]]]]]; try exact Other; cbn [smap_select].
  - destruct K as [l l' K|w K]; [exact Z|]. destruct w; try exact Z. destruct (slot_of _ _); [apply G|exact Z].
  - destruct K as [l l' K|w K]; [exact Z|]. destruct w; try exact Z. destruct (slot_of _ _); [apply G|reflexivity].
Qed.

Theorem std_blind E b : blind E -> blind (std_env E b).
Proof.
  intros BE. constructor.
  - intros. apply native_sim; assumption.
  - intros. apply smap_sim; assumption.
  - apply (bl_fselect E BE).
  - apply (bl_finsert E BE).
Qed.
