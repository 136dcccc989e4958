(** Printing: proofs. *)
From Coq Require Import ZArith String List Lia Bool Relations Wellfounded.
From Verif Require Import Base StringModel ValueModel MapModel ListModel ObjModel BuiltinModel PreludeSpec PreludeToString ShowModel ShowSpec.
Import ListNotations.
Open Scope string_scope.
Open Scope list_scope.
Open Scope Z_scope.

(** * Integers and strings *)
Lemma rev_digits_decimal : forall n z, 0 <= z < 10 ^ Z.of_nat (S n) -> decimal z (rev (rev_digits (S n) z)).
Proof.
  induction n as [|n IH]; intros z Hz.
  - change (10 ^ Z.of_nat 1) with 10 in Hz. cbn [rev_digits]. destruct (z <? 10) eqn:E; [|apply Z.ltb_ge in E; lia].
    cbn. constructor. lia.
  - remember (S n) as k. cbn [rev_digits]. destruct (z <? 10) eqn:E.
    + apply Z.ltb_lt in E. cbn. constructor. lia.
    + apply Z.ltb_ge in E. rewrite Nat2Z.inj_succ, Z.pow_succ_r in Hz by lia. cbn [rev].
      pose proof (Z.div_mod z 10 ltac:(lia)) as D. pose proof (Z.mod_pos_bound z 10 ltac:(lia)).
      rewrite D at 1. apply dec_more; [lia| |lia]. apply IH. lia.
Qed.

Lemma int_text_shown z : - 2 ^ 63 <= z < 2 ^ 63 -> int_shown z (int_text z).
Proof.
  intros Hz. assert (P : 2 ^ 63 < 10 ^ Z.of_nat 20) by reflexivity. unfold int_text. destruct (z <? 0) eqn:E.
  - apply Z.ltb_lt in E. rewrite <- (Z.opp_involutive z) at 1. apply is_neg; [lia|]. apply rev_digits_decimal. lia.
  - apply Z.ltb_ge in E. apply is_pos. apply rev_digits_decimal. lia.
Qed.

Lemma int_shown_unique z s t : int_shown z s -> int_shown z t -> s = t.
Proof.
  intros A B. inversion A as [z1 s1 D1|z1 s1 P1 D1]; inversion B as [z2 s2 D2|z2 s2 P2 D2]; subst.
  - exact (decimal_unique _ _ _ D1 D2).
  - apply decimal_pos in D1. lia.
  - apply decimal_pos in D2. lia.
  - assert (z2 = z1) by lia. subst. f_equal. exact (decimal_unique _ _ _ D1 D2).
Qed.

Lemma str_text_all bs : ~ In 0 bs -> str_text bs = bs.
Proof.
  induction bs as [|c r IH]; intros N; cbn [str_text]; [reflexivity|]. destruct (c =? 0) eqn:E.
  - apply Z.eqb_eq in E. subst. exfalso. apply N. left. reflexivity.
  - f_equal. apply IH. intros K. apply N. right. exact K.
Qed.
Lemma str_text_nul bs r : ~ In 0 bs -> str_text (bs ++ 0 :: r) = bs.
Proof.
  induction bs as [|c b IH]; intros N; cbn [app str_text]; [reflexivity|]. destruct (c =? 0) eqn:E.
  - apply Z.eqb_eq in E. subst. exfalso. apply N. left. reflexivity.
  - f_equal. apply IH. intros K. apply N. right. exact K.
Qed.
Lemma split_nul bs : ~ In 0 bs \/ exists a r, bs = a ++ 0 :: r /\ ~ In 0 a.
Proof.
  induction bs as [|c b IH]; [left; intros []|]. destruct (Z.eq_dec c 0) as [->|N]; [right; exists [], b; split; [reflexivity|intros []]|].
  destruct IH as [IH|(a & r & -> & Ha)].
  - left. intros [K|K]; auto.
  - right. exists (c :: a), r. split; [reflexivity|]. intros [K|K]; auto.
Qed.
Lemma str_text_shown bs : str_shown bs (str_text bs).
Proof.
  destruct (split_nul bs) as [N|(a & r & -> & N)].
  - rewrite str_text_all by exact N. apply ss_all. exact N.
  - rewrite str_text_nul by exact N. apply ss_nul. exact N.
Qed.

Lemma str_shown_unique bs t : str_shown bs t -> t = str_text bs.
Proof. intros H. destruct H as [bs N|bs r N]; symmetry; [apply str_text_all|apply str_text_nul]; exact N. Qed.

Section Print.
Variables (ff : Z -> list Z) (fb : nat -> list Z) (objs : list hobj).
Notation shows := (shows ff fb objs). Notation shows_obj := (shows_obj ff fb objs).
Notation shows_all := (shows_all ff fb objs). Notation shows_pairs := (shows_pairs ff fb objs).
Notation pr := (fun n => obj_print n ff fb objs).

Definition int_ok (v : value) : Prop := match v with VInt z => - 2 ^ 63 <= z < 2 ^ 63 | _ => True end.
Definition is_scalar (v : value) : Prop := match v with VRef _ => False | _ => True end.

Lemma scalar_text_shown v : is_scalar v -> int_ok v -> scalar_shown ff v (scalar_text ff v).
Proof.
  destruct v as [|[]| | | | | |]; intros S I; try contradiction; cbn; try constructor; [apply int_text_shown; exact I|apply str_text_shown].
Qed.
Lemma scalar_shown_text v t : scalar_shown ff v t -> int_ok v -> t = scalar_text ff v.
Proof.
  intros H I. destruct H; try reflexivity.
  - eapply int_shown_unique; [eassumption|]. apply int_text_shown. exact I.
  - cbn. apply str_shown_unique. assumption.
Qed.

(** The flags that are set are those of the objects in [path]. *)
Definition flagged (fl : list bool) (path : list nat) : Prop :=
  List.length fl = List.length objs /\ (forall l, nth l fl false = true <-> In l path).

Lemma flagged_upd fl path l : flagged fl path -> (l < List.length objs)%nat -> flagged (upd fl l true) (l :: path).
Proof.
  intros [L F] H. split; [rewrite upd_length; exact L|]. intros k. cbn [In]. destruct (Nat.eq_dec k l) as [->|N].
  - split; [auto|]. intros _. apply nth_upd_same. lia.
  - rewrite <- F. assert (E : nth k (upd fl l true) false = nth k fl false).
    { apply nth_upd_other. congruence. }
    rewrite E. split; [auto|]. intros [K|K]; [congruence|exact K].
Qed.

Lemma flagged_back fl l : nth l fl false = false -> (l < List.length fl)%nat -> upd (upd fl l true) l false = fl.
Proof.
  revert l. induction fl as [|b fl IH]; intros [|l] H L; cbn in *; try lia; [subst; reflexivity|]. f_equal. apply IH; [exact H|lia].
Qed.

(** The objects that are not being printed. *)
Fixpoint nfree (fl : list bool) : nat := match fl with [] => 0%nat | b :: r => ((if b then 0 else 1) + nfree r)%nat end.
Lemma nfree_upd fl l : nth l fl false = false -> (l < List.length fl)%nat -> nfree fl = S (nfree (upd fl l true)).
Proof.
  revert l. induction fl as [|b fl IH]; intros [|l] H L; cbn in *; try lia; [subst; reflexivity|]. rewrite (IH l H) by lia. lia.
Qed.

Lemma print_all_ok path p fl : forall vs,
  (forall v, In v vs -> exists t, p fl v = OOk (t, fl) /\ shows true path v t) ->
  exists ts, print_all p fl vs = OOk (join (bytes_of ", ") ts, fl) /\ shows_all true path vs ts.
Proof.
  induction vs as [|v r IH]; intros H; [exists []; split; [reflexivity|constructor]|].
  destruct (H v (or_introl eq_refl)) as (t & Ht & St). destruct IH as (ts & Hts & Sts); [intros w Hw; apply H; right; exact Hw|].
  exists (t :: ts). split; [|constructor; assumption]. cbn [print_all]. rewrite Ht. cbn [obind fst snd].
  destruct r as [|w r]; [inversion Sts; subst; reflexivity|]. rewrite Hts. cbn [obind fst snd].
  inversion Sts; subst. reflexivity.
Qed.

Lemma print_pairs_ok path p fl : forall kvs,
  (forall k v, In (k, v) kvs -> exists t, p fl k = OOk (t, fl) /\ shows true path k t) ->
  (forall k v, In (k, v) kvs -> exists t, p fl v = OOk (t, fl) /\ shows true path v t) ->
  exists ts, print_pairs p fl kvs = OOk (join (bytes_of ", ") ts, fl) /\ shows_pairs true path kvs ts.
Proof.
  induction kvs as [|[k v] r IH]; intros H G; [exists []; split; [reflexivity|constructor]|].
  destruct (H k v (or_introl eq_refl)) as (t & Ht & St). destruct (G k v (or_introl eq_refl)) as (u & Hu & Su).
  destruct IH as (ts & Hts & Sts); [intros a b K; eapply H; right; exact K|intros a b K; eapply G; right; exact K|].
  exists ((t ++ bytes_of ": " ++ u) :: ts). split; [|constructor; assumption]. cbn [print_pairs]. rewrite Ht. cbn [obind fst snd].
  rewrite Hu. cbn [obind fst snd]. destruct r as [|w r]; [inversion Sts; subst; reflexivity|]. rewrite Hts. cbn [obind fst snd].
  inversion Sts; subst; reflexivity.
Qed.

Lemma print_good : heap_closed objs -> forall n fl path v, flagged fl path -> good_val objs v -> (nfree fl < n)%nat ->
  exists t, obj_print n ff fb objs fl v = OOk (t, fl) /\ shows true path v t.
Proof.
  intros HC. induction n as [|n IH]; intros fl path v F G N; [lia|].
  destruct (match v with VRef l => Some l | _ => None end) as [l|] eqn:El.
  2:{ assert (Sv : is_scalar v) by (destruct v; try exact I; discriminate). exists (scalar_text ff v). split.
      - destruct v; try discriminate; reflexivity.
      - apply sh_scalar, scalar_text_shown; [exact Sv|]. destruct v; try exact I. exact G. }
  destruct v as [| | | | | | |l']; try discriminate. injection El as ->. cbn [obj_print].
  destruct F as [Lf Ff]. destruct (nth l fl false) eqn:Fl.
  - exists (bytes_of "..."). split; [reflexivity|]. apply sh_again, Ff. exact Fl.
  - cbn in G. destruct (nth_error objs l) as [o|] eqn:Eo; [|apply nth_error_None in Eo; lia].
    assert (F' : flagged (upd fl l true) (l :: path)) by (apply flagged_upd; [split; assumption|exact G]).
    assert (N' : (nfree (upd fl l true) < n)%nat) by (pose proof (nfree_upd fl l Fl ltac:(lia)); lia).
    destruct (HC l o Eo) as [Hl Hv].
    assert (K : forall v, holds_val o v -> exists t, obj_print n ff fb objs (upd fl l true) v = OOk (t, upd fl l true) /\ shows true (l :: path) v t).
    { intros v Hv'. apply IH; [exact F'|apply Hv; exact Hv'|exact N']. }
    assert (X : exists t, print_obj fb (obj_print n ff fb objs) (upd fl l true) o = OOk (t, upd fl l true) /\ shows_obj true (l :: path) o t).
    { destruct o as [lo|mo| | | |a|a b| |ty id]; cbn [print_obj].
      - destruct (Hl lo eq_refl) as (vs & Hvs). rewrite Hvs.
        destruct (print_all_ok (l :: path) (obj_print n ff fb objs) (upd fl l true) vs) as (ts & Hts & Sts).
        { intros v Hin. apply K. exists vs. auto. }
        rewrite Hts. eexists. split; [reflexivity|]. econstructor; eassumption.
      - destruct (print_pairs_ok (l :: path) (obj_print n ff fb objs) (upd fl l true) (combine (m_keys mo) (m_vals mo))) as (ts & Hts & Sts).
        { intros k v Hin. apply K. exists v. auto. }
        { intros k v Hin. apply K. exists k. auto. }
        rewrite Hts. eexists. split; [reflexivity|]. econstructor; eassumption.
      - eexists. split; [reflexivity|]. apply so_other. reflexivity.
      - eexists. split; [reflexivity|]. apply so_other. reflexivity.
      - eexists. split; [reflexivity|]. apply so_other. reflexivity.
      - destruct (K a eq_refl) as (t & Ht & St). rewrite Ht. eexists. split; [reflexivity|]. constructor. exact St.
      - destruct (K a (or_introl eq_refl)) as (t & Ht & St). destruct (K b (or_intror eq_refl)) as (u & Hu & Su).
        rewrite Ht. cbn [obind fst snd]. rewrite Hu. eexists. split; [reflexivity|]. constructor; assumption.
      - eexists. split; [reflexivity|]. apply so_other. reflexivity.
      - destruct ty; try (eexists; split; [reflexivity|]; apply so_other; reflexivity).
        eexists. split; [reflexivity|]. apply so_buffer. }
    destruct X as (t & Ht & St). exists t. rewrite Ht. cbn [obind fst snd].
    rewrite flagged_back by (assumption || lia). split; [reflexivity|].
    eapply sh_obj; [|exact Eo|exact St]. rewrite <- Ff. congruence.
Qed.

(** The text is determined. *)
Definition ints_ok : Prop := forall l o, nth_error objs l = Some o -> forall v, holds_val o v -> int_ok v.

Lemma shows_unique :
  (forall path v t, shows true path v t -> heap_closed objs -> good_val objs v -> forall t', shows true path v t' -> t' = t) /\
  (forall path o t, shows_obj true path o t -> heap_closed objs -> (forall v, holds_val o v -> good_val objs v) -> forall t', shows_obj true path o t' -> t' = t) /\
  (forall path vs ts, shows_all true path vs ts -> heap_closed objs -> (forall v, In v vs -> good_val objs v) -> forall ts', shows_all true path vs ts' -> ts' = ts) /\
  (forall path kvs ts, shows_pairs true path kvs ts -> heap_closed objs -> (forall k v, In (k, v) kvs -> good_val objs k /\ good_val objs v) ->
     forall ts', shows_pairs true path kvs ts' -> ts' = ts).
Proof.
  apply shows_ind4.
  - intros path v t Hs HC G t' H'. assert (I : int_ok v) by (destruct v; try exact I; exact G).
    inversion H' as [p0 v0 t0 Hs'|p0 l Hin|p0 l o t0 Hn Ho Hso]; subst.
    + rewrite (scalar_shown_text v t Hs I), (scalar_shown_text v t' Hs' I). reflexivity.
    + inversion Hs.
    + inversion Hs.
  - intros path l Hin HC G t' H'. inversion H' as [p0 v0 t0 Hs'|p0 l0 Hin'|p0 l0 o t0 Hn Ho Hso]; subst; [inversion Hs'|reflexivity|contradiction].
  - intros path l o t Hn Ho _ IH HC G t' H'. inversion H' as [p0 v0 t0 Hs'|p0 l0 Hin'|p0 l0 o' t0 Hn' Ho' Hso]; subst; [inversion Hs'|contradiction|].
    rewrite Ho in Ho'. injection Ho' as <-. apply IH; [exact HC| |exact Hso]. exact (proj2 (HC l o Ho)).
  - intros path lo vs ts Hi _ IH HC G t' H'. inversion H' as [p0 lo0 vs' ts' Hi' Ha| | | | |p0 o0 Ho]; subst; [|discriminate].
    rewrite Hi in Hi'. injection Hi' as <-. rewrite (IH HC) with (ts' := ts'); [reflexivity| |exact Ha]. intros v Hv. apply G. exists vs. auto.
  - intros path mo ts _ IH HC G t' H'. inversion H' as [|p0 mo0 ts' Ha| | | |p0 o0 Ho]; subst; [|discriminate].
    rewrite (IH HC) with (ts' := ts'); [reflexivity| |exact Ha]. intros k v Hv. split; apply G; [exists v|exists k]; auto.
  - intros path a t _ IH HC G t' H'. inversion H' as [| |p0 a0 u Ha| | |p0 o0 Ho]; subst; [|discriminate].
    rewrite (IH HC (G a eq_refl) u Ha). reflexivity.
  - intros path a b t u _ IHa _ IHb HC G t' H'. inversion H' as [| | |p0 a0 b0 t0 u0 Ha Hb| |p0 o0 Ho]; subst; [|discriminate].
    rewrite (IHa HC (G a (or_introl eq_refl)) t0 Ha), (IHb HC (G b (or_intror eq_refl)) u0 Hb). reflexivity.
  - intros path id HC G t' H'. inversion H'; subst; [reflexivity|discriminate].
  - intros path o Ho HC G t' H'. inversion H'; subst; try discriminate. reflexivity.
  - intros path HC G ts' H'. inversion H'. reflexivity.
  - intros path v r t ts _ IHv _ IHr HC G ts' H'. inversion H'; subst. f_equal.
    + apply IHv; [exact HC|apply G; left; reflexivity|assumption].
    + apply IHr; [exact HC|intros w Hw; apply G; right; exact Hw|assumption].
  - intros path HC G ts' H'. inversion H'. reflexivity.
  - intros path k v r t u ts _ IHk _ IHv _ IHr HC G ts' H'. inversion H'; subst. destruct (G k v (or_introl eq_refl)) as [Gk Gv].
    f_equal; [f_equal; [|f_equal]|].
    + apply IHk; assumption.
    + apply IHv; assumption.
    + apply IHr; [exact HC|intros a b Hw; apply G; right; exact Hw|assumption].
Qed.

(** Without cycles nothing is left out. *)
Lemma acc_irrefl {A} (R : A -> A -> Prop) x : Acc R x -> ~ clos_trans A R x x.
Proof.
  intros H. apply (Acc_clos_trans A R x) in H. induction H as [x _ IH]. intros C. exact (IH x C C).
Qed.

Lemma full_text :
  (forall path v t, shows true path v t -> acyclic objs v ->
     (forall l, In l path -> forall l', v = VRef l' -> clos_trans nat (inside objs) l' l) -> shows false [] v t) /\
  (forall path o t, shows_obj true path o t -> (forall l, holds_val o (VRef l) -> Acc (inside objs) l) ->
     (forall l, In l path -> forall l', holds_val o (VRef l') -> clos_trans nat (inside objs) l' l) -> shows_obj false [] o t) /\
  (forall path vs ts, shows_all true path vs ts -> (forall l, In (VRef l) vs -> Acc (inside objs) l) ->
     (forall l, In l path -> forall l', In (VRef l') vs -> clos_trans nat (inside objs) l' l) -> shows_all false [] vs ts) /\
  (forall path kvs ts, shows_pairs true path kvs ts -> (forall l k v, In (k, v) kvs -> k = VRef l \/ v = VRef l -> Acc (inside objs) l) ->
     (forall l, In l path -> forall l' k v, In (k, v) kvs -> k = VRef l' \/ v = VRef l' -> clos_trans nat (inside objs) l' l) -> shows_pairs false [] kvs ts).
Proof.
  apply shows_ind4.
  - intros path v t Hs _ _. apply sh_scalar. exact Hs.
  - intros path l Hin A P. exfalso. exact (acc_irrefl _ _ A (P l Hin l eq_refl)).
  - intros path l o t Hn Ho _ IH A P. eapply sh_obj; [intros []|exact Ho|]. cbn. apply IH.
    + intros l' H. cbn in A. apply (Acc_inv A). exists o. auto.
    + intros k [<-|Hk] l' H; [apply t_step; exists o; auto|]. eapply t_trans; [apply t_step; exists o; split; [exact Ho|exact H]|]. apply P; [exact Hk|reflexivity].
  - intros path lo vs ts Hi _ IH A P. econstructor; [exact Hi|]. apply IH.
    + intros l H. apply A. exists vs. auto.
    + intros l Hl l' H. apply P; [exact Hl|]. exists vs. auto.
  - intros path mo ts _ IH A P. constructor. apply IH.
    + intros l k v H [->| ->]; apply A; eexists; [left|right]; exact H.
    + intros l Hl l' k v H [->| ->]; (apply P; [exact Hl|]); eexists; [left|right]; exact H.
  - intros path a t _ IH A P. constructor. apply IH.
    + destruct a; try exact I. apply A. reflexivity.
    + intros l Hl l' ->. apply P; [exact Hl|reflexivity].
  - intros path a b t u _ IHa _ IHb A P. constructor.
    + apply IHa; [destruct a; try exact I; apply A; left; reflexivity|]. intros l Hl l' ->. apply P; [exact Hl|left; reflexivity].
    + apply IHb; [destruct b; try exact I; apply A; right; reflexivity|]. intros l Hl l' ->. apply P; [exact Hl|right; reflexivity].
  - intros. constructor.
  - intros path o Ho _ _. constructor. exact Ho.
  - intros. constructor.
  - intros path v r t ts _ IHv _ IHr A P. constructor.
    + apply IHv; [destruct v; try exact I; apply A; left; reflexivity|]. intros l Hl l' ->. apply P; [exact Hl|left; reflexivity].
    + apply IHr; [intros l H; apply A; right; exact H|]. intros l Hl l' H. apply P; [exact Hl|right; exact H].
  - intros. constructor.
  - intros path k v r t u ts _ IHk _ IHv _ IHr A P. constructor.
    + apply IHk; [destruct k; try exact I; eapply A; [left; reflexivity|left; reflexivity]|]. intros l Hl l' ->. eapply P; [exact Hl|left; reflexivity|left; reflexivity].
    + apply IHv; [destruct v; try exact I; eapply A; [left; reflexivity|right; reflexivity]|]. intros l Hl l' ->. eapply P; [exact Hl|left; reflexivity|right; reflexivity].
    + apply IHr; [intros l a b H; eapply A; right; exact H|]. intros l Hl l' a b H. eapply P; [exact Hl|right; exact H].
Qed.

Lemma nfree_repeat n : nfree (repeat false n) = n.
Proof. induction n; cbn; [reflexivity|]. rewrite IHn. reflexivity. Qed.
Lemma flagged_none : flagged (repeat false (List.length objs)) [].
Proof.
  split; [apply repeat_length|]. intros l. split; [|intros []]. intros H. exfalso.
  destruct (nth_in_or_default l (repeat false (List.length objs)) false) as [K|K]; [apply repeat_spec in K|]; congruence.
Qed.

Lemma print_one v : heap_closed objs -> good_val objs v ->
  exists t, obj_print (depth objs) ff fb objs (repeat false (List.length objs)) v = OOk (t, repeat false (List.length objs)) /\ shows true [] v t.
Proof.
  intros HC G. apply print_good; [exact HC|apply flagged_none|exact G|]. rewrite nfree_repeat. unfold depth. lia.
Qed.

Lemma print_values : heap_closed objs -> forall argv, Forall (good_val objs) argv ->
  exists ts, bin_print ff fb objs argv = OOk (List.concat ts, repeat false (List.length objs)) /\ Forall2 (shows true []) argv ts.
Proof.
  intros HC argv G. unfold bin_print. induction G as [|v r Gv Gr IH]; [exists []; split; [reflexivity|constructor]|].
  destruct (print_one v HC Gv) as (t & Ht & St). destruct IH as (ts & Hts & Sts). exists (t :: ts). split; [|constructor; assumption].
  cbn [print_args]. rewrite Ht. cbn [obind fst snd]. rewrite Hts. reflexivity.
Qed.

Lemma print_full : heap_closed objs -> forall argv, Forall (good_val objs) argv -> Forall (acyclic objs) argv ->
  exists ts, bin_print ff fb objs argv = OOk (List.concat ts, repeat false (List.length objs)) /\ Forall2 (shows false []) argv ts.
Proof.
  intros HC argv G A. destruct (print_values HC argv G) as (ts & Hts & S). exists ts. split; [exact Hts|]. clear Hts G.
  induction S as [|v t r ts Sv Sr IH]; [constructor|]. inversion A; subst. constructor; [|apply IH; assumption].
  apply (proj1 full_text [] v t Sv); [assumption|intros l []].
Qed.
End Print.

(** * Bytes *)
Lemma hex_ok n : 0 <= n < 16 -> hex_shown n (hex_digit n).
Proof.
  intros H. unfold hex_digit. destruct (n <? 10) eqn:E; [apply Z.ltb_lt in E|apply Z.ltb_ge in E].
  - replace (n + 48) with (48 + n) by lia. constructor. lia.
  - replace (n - 10 + 65) with (65 + (n - 10)) by lia. constructor. lia.
Qed.

Lemma loop_ok bytes : Forall (fun b => 0 <= b < 256) bytes ->
  exists ts, print_loop bytes = join (bytes_of ", ") ts /\ Forall2 byte_shown bytes ts.
Proof.
  induction 1 as [|b r Hb Hr IH]; [exists []; split; [reflexivity|constructor]|]. destruct IH as (ts & Ht & St).
  exists ([hex_digit (b / 16); hex_digit (b mod 16)] :: ts). split.
  - cbn [print_loop]. rewrite Ht. destruct r; inversion St; subst; reflexivity.
  - constructor; [|exact St]. rewrite (Z.div_mod b 16) at 1 by lia. apply bs_byte; apply hex_ok; [|apply Z.mod_pos_bound; lia].
    split; [apply Z.div_pos; lia|apply Z.div_lt_upper_bound; lia].
Qed.

Lemma bytes_ok bytes rest : Z.of_nat (List.length bytes) < 2 ^ 31 -> Forall (fun b => 0 <= b < 256) bytes ->
  exists ts, print_bytes (bytes ++ rest) (Z.of_nat (List.length bytes)) = ROk (bytes_of "[" ++ join (bytes_of ", ") ts ++ bytes_of "]") /\
    Forall2 byte_shown bytes ts.
Proof.
  intros L B. destruct (loop_ok bytes B) as (ts & Ht & St). exists ts. split; [|exact St]. unfold print_bytes.
  rewrite wrap32_id by (unfold in_int; lia). rewrite app_length. destruct (_ <? _) eqn:E; [apply Z.ltb_lt in E; lia|].
  rewrite Nat2Z.id, firstn_app, firstn_all, Nat.sub_diag, app_nil_r, Ht. reflexivity.
Qed.

(** Buffers of 2^31 bytes and more. *)
Lemma bytes_large bytes : Z.of_nat (List.length bytes) = 2 ^ 31 -> print_bytes bytes (Z.of_nat (List.length bytes)) = ROk (bytes_of "[]").
Proof.
  intros L. unfold print_bytes. rewrite L. change (wrap32 (2 ^ 31)) with (- 2 ^ 31). destruct (_ <? _) eqn:E; [apply Z.ltb_lt in E; lia|]. reflexivity.
Qed.

(** Reading back: the text of a byte determines it. *)
Lemma hex_inj n m c : hex_shown n c -> hex_shown m c -> n = m.
Proof. intros A B. inversion A; inversion B; subst; lia. Qed.
Lemma byte_inj b b' t : byte_shown b t -> byte_shown b' t -> b = b'.
Proof.
  intros A B. inversion A as [h l c d H1 H2]; subst. inversion B as [h' l' c' d' H3 H4]; subst.
  rewrite (hex_inj _ _ _ H1 H3), (hex_inj _ _ _ H2 H4). reflexivity.
Qed.
