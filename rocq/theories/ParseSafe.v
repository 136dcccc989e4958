(** The parser always answers, and reads past the end token only in an unclosed map literal; its trees have literals that fit
    their types: C44. *)
From Coq Require Import ZArith List Bool Lia.
From Verif Require Import Base FloatModel FloatProofs AstModel CodegenModel CompSpec LexModel ParseModel.
Import ListNotations.
Open Scope Z_scope.

Lemma kind_eqb_eq a b : kind_eqb a b = true <-> a = b.
Proof.
  split; [|intros <-; destruct a; cbn; auto; apply Z.eqb_refl].
  destruct a, b; cbn; try discriminate; auto. intros H; apply Z.eqb_eq in H as ->; reflexivity.
Qed.

(** Braces still to be opened minus braces still to be closed. *)
Fixpoint bal (ts : list tok) : Z :=
  match ts with
  | [] => 0
  | (k, _) :: r => (match k with KC c => if c =? 123 then 1 else if c =? 125 then -1 else 0 | _ => 0 end) + bal r
  end.

Section Safe.
(** Whether the text is known to be of bytes 1 to 255. *)
Variable Byt : Prop.

Definition tok_ok (t : tok) : Prop := (Byt -> text_ok (snd t)) /\ (fst t = KInt -> Forall (fun c => isdigit c = true) (snd t)).

(** One end token, the last. *)
Fixpoint wft (ts : list tok) : Prop :=
  match ts with
  | [] => False
  | t :: r => tok_ok t /\ match fst t with KDone => r = [] | _ => wft r end
  end.

(** [post U Q x]: no lack of fuel, a step past the end only if [U], a result as [Q] says. *)
Definition post {A} (U : Prop) (Q : A -> list tok -> Prop) (x : pres A) : Prop :=
  match x with POk a ts => Q a ts | PErr => True | PUB => U | PFuel => False end.

Lemma post_bind {A B} (U V : Prop) (Q1 : A -> list tok -> Prop) (Q : B -> list tok -> Prop) x f :
  post V Q1 x -> (V -> U) -> (forall a ts, Q1 a ts -> post U Q (f a ts)) -> post U Q (pbind x f).
Proof. destruct x; cbn; auto. Qed.

Lemma post_weaken {A} (U V : Prop) (Q1 Q : A -> list tok -> Prop) x :
  post V Q1 x -> (V -> U) -> (forall a ts, Q1 a ts -> Q a ts) -> post U Q x.
Proof. destruct x; cbn; auto. Qed.

Definition brace (k : kind) : Z := match k with KC c => if c =? 123 then 1 else if c =? 125 then -1 else 0 | _ => 0 end.

Lemma next_wf ts : wft ts -> cur ts <> KDone ->
  exists t r, ts = t :: r /\ wft r /\ length ts = S (length r) /\ bal ts = brace (cur ts) + bal r /\ r <> [].
Proof.
  destruct ts as [|[k s] r]; [intros []|]. cbn [cur wft fst]. intros [Ht H] Hk.
  exists (k, s), r. split; [reflexivity|]. assert (wft r) by (destruct k; auto; congruence).
  repeat split; auto. intros ->. auto.
Qed.

Lemma post_next {A} (U : Prop) (Q : A -> list tok -> Prop) ts f : wft ts -> cur ts <> KDone ->
  (forall r, wft r -> length ts = S (length r) -> bal ts = brace (cur ts) + bal r -> post U Q (f r)) -> post U Q (next ts f).
Proof.
  intros Hw Hc H. destruct (next_wf ts Hw Hc) as (t & r & -> & Hr & Hl & Hb & Hn).
  destruct r as [|t' r]; [congruence|]. cbn [next]. auto.
Qed.

Lemma done_bal ts : wft ts -> cur ts = KDone -> bal ts = 0.
Proof.
  destruct ts as [|[k s] r]; [intros []|]. cbn [cur wft fst bal]. intros [_ H] ->. subst. reflexivity.
Qed.

Lemma txt_ok ts : Byt -> wft ts -> text_ok (txt ts).
Proof. intros HB. destruct ts as [|[k s] r]; [intros []|]. intros [[H _] _]. exact (H HB). Qed.

Lemma txt_digits ts : wft ts -> cur ts = KInt -> Forall (fun c => isdigit c = true) (txt ts).
Proof. destruct ts as [|[k s] r]; [intros []|]. intros [[_ H] _] Hk. exact (H Hk). Qed.

Lemma dec_value_nonneg s : forall a, 0 <= a -> Forall (fun c => isdigit c = true) s -> 0 <= dec_value a s.
Proof.
  induction s as [|c s IH]; intros a Ha Hs; cbn [dec_value]; auto. inversion Hs; subst.
  apply IH; auto. unfold isdigit in *. apply andb_true_iff in H1 as [H1 _]. apply Z.leb_le in H1. lia.
Qed.

Lemma flt_value_bits s : 0 <= flt_value s < 2 ^ 64.
Proof.
  unfold flt_value. destruct (dec_value _ _); [split; [lia|reflexivity]|apply div_bits|split; [lia|reflexivity]].
Qed.

Lemma render_ok n : forall s u v, (length s <= n)%nat -> text_ok s -> render s u = Some v -> text_ok v.
Proof.
  induction n as [|n IH]; intros s u v Hn Hs; destruct s as [|c r]; cbn [render length] in *; try lia;
    try (intros H; injection H as <-; constructor).
  inversion Hs as [|? ? Hc Hr]; subst. destruct (4096 <=? u + 1); [discriminate|].
  destruct (c =? 92).
  - destruct r as [|d r']; [intros H; injection H as <-; repeat constructor; lia|].
    inversion Hr as [|? ? Hd Hr']; subst.
    destruct (escape d) as [e|] eqn:Ee; [|discriminate].
    destruct (render r' (u + 1)) as [w|] eqn:Er; cbn; [|discriminate]. intros H; injection H as <-.
    constructor; [|eapply IH; [|exact Hr'|exact Er]; cbn [length] in *; lia].
    unfold escape in Ee. repeat match type of Ee with (if ?b then _ else _) = _ => destruct b end; try discriminate; injection Ee as <-; lia.
  - destruct (render r (u + 1)) as [w|] eqn:Er; cbn; [|discriminate]. intros H; injection H as <-.
    constructor; auto. eapply IH; [|exact Hr|exact Er]; lia.
Qed.

Lemma firstn_text n s : text_ok s -> text_ok (firstn n s).
Proof. unfold text_ok. rewrite <- (firstn_skipn n s) at 1. rewrite Forall_app. tauto. Qed.
Lemma skipn_text n s : text_ok s -> text_ok (skipn n s).
Proof. unfold text_ok. rewrite <- (firstn_skipn n s) at 1. rewrite Forall_app. tauto. Qed.

Lemma string_value_ok t v : text_ok t -> string_value t = Some v -> text_ok v.
Proof. unfold string_value. intros H E. eapply (render_ok _ _ _ _ (le_n _)); [|exact E]. apply firstn_text, skipn_text, H. Qed.

Lemma binary_node_wf k l r : wf_expr l -> wf_expr r -> wf_expr (binary_node k l r).
Proof. intros Hl Hr. destruct k; cbn [binary_node]; repeat match goal with |- context [if ?b then _ else _] => destruct b end; cbn; auto. Qed.

Lemma index_node_wf set items e : wf_expr set -> wf_exprs items -> index_node set items = Some e -> wf_expr e.
Proof.
  intros Hs Hi. destruct items as [|i [|j r]]; cbn [index_node]; intros H; try discriminate; injection H as <-; cbn in *; tauto.
Qed.

Lemma goes_on_spec ts mn t a p : goes_on ts mn t a = Some p ->
  cur ts <> KDone /\ brace (cur ts) = 0 /\ 0 <= p /\ (a = false -> 0 < p) /\ precedence (cur ts) = Some p.
Proof.
  unfold goes_on. destruct (precedence (cur ts)) as [q|] eqn:E; [|discriminate].
  destruct (_ && _) eqn:Eb; [|discriminate]. intros H; injection H as ->.
  apply andb_true_iff in Eb as [_ Eb]. apply negb_true_iff, orb_false_iff in Eb as [_ Eb].
  unfold ch in Eb. destruct (cur ts); cbn in *; try discriminate;
    try (injection E as <-; repeat split; auto; lia || discriminate).
  destruct (c =? 61) eqn:E61; [injection E as <-; apply Z.eqb_eq in E61 as ->; repeat split; try discriminate; try lia;
     destruct a; [discriminate|cbn in Eb; discriminate]|].
  assert (Hp : 0 < p /\ c <> 123 /\ c <> 125).
  { repeat match type of E with (if ?b then _ else _) = _ => destruct b eqn:?; [injection E as <-; split; [lia|];
      repeat rewrite orb_true_iff in *; rewrite ?Z.eqb_eq in *; lia|] end. discriminate. }
  destruct Hp as (Hp & H1 & H2). repeat split; try discriminate; try lia.
  destruct (c =? 123) eqn:Ex; [apply Z.eqb_eq in Ex; lia|]. destruct (c =? 125) eqn:Ey; [apply Z.eqb_eq in Ey; lia|reflexivity].
Qed.

(** The promise each function makes: [d] braces were opened outside. *)
Definition good {A} (ts : list tok) (strict : nat) (W : A -> Prop) (a : A) (ts' : list tok) : Prop :=
  wft ts' /\ (length ts' + strict <= length ts)%nat /\ bal ts' = bal ts /\ (Byt -> W a).

Definition wf_fun (f : list Z * params * stmt) : Prop := let '(name, ps, body) := f in text_ok name /\ wf_params ps /\ wf_stmt body.

Lemma ch_true ts c : ch ts c = true -> cur ts = KC c. Proof. apply kind_eqb_eq. Qed.
Lemma is_true ts k : is_k ts k = true -> cur ts = k. Proof. apply kind_eqb_eq. Qed.
Lemma is_false ts k : is_k ts k = false -> cur ts <> k.
Proof. unfold is_k. intros H E. rewrite E, (proj2 (kind_eqb_eq k k) eq_refl) in H. discriminate. Qed.

(** Case split on the current token. *)
Ltac on_ch := match goal with
  | |- context [if negb ?b then _ else _] =>
    match b with
    | ch ?ts ?c => let E := fresh "E" in destruct b eqn:E; [apply ch_true in E|]; cbn [negb]; [|exact I]
    | is_k ?ts ?k => let E := fresh "E" in destruct b eqn:E; [apply is_true in E|]; cbn [negb]; [|exact I]
    end
  end.
Ltac cur_side := match goal with E : cur ?ts = _ |- cur ?ts <> KDone => rewrite E; discriminate end.
Ltac nx := apply post_next; [assumption|first [assumption|cur_side]|];
  let r := fresh "ts" in let H := fresh "Hw" in let Hl := fresh "Hl" in let Hb := fresh "Hb" in
  intros r H Hl Hb; try match goal with E : cur ?ts = _ |- _ => match type of Hb with context [brace (cur ts)] => rewrite E in Hb; cbn -[Z.add bal] in Hb end end.
Ltac inB := let HB := fresh "HB" in intros HB; repeat match goal with H : Byt -> _ |- _ => specialize (H HB) end; cbn -[Z.pow].
Ltac fin := unfold good; cbn [post]; split; [assumption|split; [lia|split; [lia|inB; try solve [auto using txt_ok]; try solve [intuition (auto using txt_ok)]]]].
(** Use of the promise of a called function. *)
Ltac call H := eapply post_bind; [apply H; auto; try lia|cbn beta; try lia|];
  let a := fresh "a" in let r := fresh "ts" in intros a r;
  let Hw := fresh "Hw" in let Hl := fresh "Hl" in let Hb := fresh "Hb" in let Hq := fresh "Hq" in
  intros (Hw & Hl & Hb & Hq).
Ltac call2 H := eapply post_bind; [apply H; auto; try lia|cbn beta; try lia|];
  let a := fresh "a" in let r := fresh "ts" in intros a r;
  let Hw := fresh "Hw" in let Hl := fresh "Hl" in let Hb := fresh "Hb" in let Hq := fresh "Hq" in let Hc := fresh "Hc" in
  intros ((Hw & Hl & Hb & Hq) & Hc).

Definition at_end {A} (k : kind) (Q : A -> list tok -> Prop) (a : A) (ts : list tok) : Prop := Q a ts /\ cur ts = k.

Definition plain (c : Z) : Prop := brace (KC c) = 0.

Theorem safe n :
  (forall ts, wft ts -> (8 * length ts + 2 <= n)%nat -> post (0 < bal ts) (good ts 1 wf_expr) (p_prefix n ts)) /\
  (forall e ts, wft ts -> (8 * length ts + 1 <= n)%nat -> (Byt -> wf_expr e) -> post (0 < bal ts) (good ts 0 wf_expr) (p_post n e ts)) /\
  (forall c ts, wft ts -> (8 * length ts + 4 <= n)%nat -> post (0 < bal ts) (at_end (KC c) (good ts 1 wf_exprs)) (p_seq n c ts)) /\
  (forall ts, wft ts -> (8 * length ts + 4 <= n)%nat -> post (0 <= bal ts) (at_end (KC 125) (good ts 1 wf_pairs)) (p_pairs n ts)) /\
  (forall ts, wft ts -> (8 * length ts + 1 <= n)%nat -> post (0 < bal ts) (good ts 1 wf_expr) (p_primary n ts)) /\
  (forall t a ts, wft ts -> (8 * length ts + 3 <= n)%nat -> post (0 < bal ts) (good ts 1 wf_expr) (p_expr n t a ts)) /\
  (forall l mn t a ts, wft ts -> (8 * length ts + 1 <= n)%nat -> (Byt -> wf_expr l) ->
     post (0 < bal ts) (good ts (if goes_on ts mn t a then 1 else 0) wf_expr) (p_expr2 n l mn t a ts)) /\
  (forall p r t a ts, wft ts -> (8 * length ts + 2 <= n)%nat -> (Byt -> wf_expr r) -> 0 <= p -> (a = false -> 0 < p) ->
     post (0 < bal ts) (good ts 0 wf_expr) (p_inner n p r t a ts)) /\
  (forall ts, wft ts -> (8 * length ts + 4 <= n)%nat -> post (0 < bal ts) (good ts 1 wf_stmt) (p_stmt n ts)) /\
  (forall k ts, wft ts -> (8 * length ts + 5 <= n)%nat -> post (0 < bal ts) (at_end k (good ts 0 wf_stmts)) (p_compound n k ts)) /\
  (forall ts, wft ts -> (8 * length ts + 1 <= n)%nat -> cur ts = KFun -> post (0 < bal ts) (good ts 1 wf_fun) (p_fundef n ts)) /\
  (forall ts, wft ts -> (8 * length ts + 1 <= n)%nat -> post (0 < bal ts) (at_end (KC 41) (good ts 1 wf_params)) (p_params n ts)).
Proof.
  induction n as [|n IH].
  - repeat split; intros; lia.
  - destruct IH as (Iprefix & Ipost & Iseq & Ipairs & Iprim & Iexpr & Iexpr2 & Iinner & Istmt & Icomp & Ifun & Iparams).
    split; [|split; [|split; [|split; [|split; [|split; [|split; [|split; [|split; [|split; [|split]]]]]]]]]];
      cbn [p_prefix p_post p_seq p_pairs p_primary p_expr p_expr2 p_inner p_stmt p_compound p_fundef p_params]; cbv zeta.
    + (* prefix *)
      intros ts Hw Hf. destruct (is_k ts KDone) eqn:Ed; [exact I|apply is_false in Ed].
      destruct (prefix_op (cur ts)) as [u|] eqn:Eu.
      * assert (Hbr : brace (cur ts) = 0).
        { destruct (cur ts); cbn in *; try reflexivity. destruct (c =? 123) eqn:E1; [apply Z.eqb_eq in E1 as ->; discriminate|].
          destruct (c =? 125) eqn:E2; [apply Z.eqb_eq in E2 as ->; discriminate|reflexivity]. }
        nx. call Iprefix. fin.
      * call Iprim. eapply post_weaken; [apply Ipost; auto; lia|lia|]. intros e ts' (? & ? & ? & ?). fin.
    + (* postfix *)
      intros e ts Hw Hf He. destruct (ch ts 46 || is_k ts KArw) eqn:Ea.
      * assert (Hc : cur ts <> KDone /\ brace (cur ts) = 0).
        { apply orb_true_iff in Ea as [Ea|Ea]; [apply ch_true in Ea|apply is_true in Ea]; rewrite Ea; split; try discriminate; reflexivity. }
        destruct Hc as [Hc Hbr]. nx. on_ch. nx.
        eapply post_weaken; [apply Ipost; auto; try lia|lia|intros e' ts' (? & ? & ? & ?); fin].
        inB. destruct (is_k ts KArw); cbn; split; auto using txt_ok.
      * destruct (ch ts 91) eqn:E1; [apply ch_true in E1|].
        { nx. eapply post_bind with (V := 0 < bal ts0) (Q1 := at_end (KC 93) (good ts0 0 wf_exprs)); [|lia|].
          - destruct (ch ts0 93) eqn:E2; [apply ch_true in E2; split; [fin|exact E2]|].
            eapply post_weaken; [apply Iseq; auto; lia|auto|]. intros a ts' ((? & ? & ? & ?) & ?). split; [fin|auto].
          - intros items ts1 ((Hw1 & Hl1 & Hb1 & Hq1) & Hc1). nx.
            destruct (index_node e items) as [sel|] eqn:Ei; [|exact I].
            eapply post_weaken; [apply Ipost; auto; [lia|inB; eapply index_node_wf; eauto]|lia|intros e' ts' (? & ? & ? & ?); fin]. }
        destruct (ch ts 40) eqn:E2; [apply ch_true in E2|fin].
        nx. eapply post_bind with (V := 0 < bal ts0) (Q1 := at_end (KC 41) (good ts0 0 wf_exprs)); [|lia|].
        { destruct (ch ts0 41) eqn:E3; [apply ch_true in E3; split; [fin|exact E3]|].
          eapply post_weaken; [apply Iseq; auto; lia|auto|]. intros a ts' ((? & ? & ? & ?) & ?). split; [fin|auto]. }
        intros items ts1 ((Hw1 & Hl1 & Hb1 & Hq1) & Hc1). nx.
        eapply post_weaken; [apply Ipost; auto; [lia|inB; auto]|lia|intros e' ts' (? & ? & ? & ?); fin].
    + (* seq *)
      intros c ts Hw Hf. call Iexpr.
      destruct (ch ts0 c) eqn:E1; [apply ch_true in E1; split; [fin|exact E1]|].
      on_ch. nx. call2 Iseq. split; [fin|exact Hc].
    + (* pairs *)
      intros ts Hw Hf. destruct (is_k ts KFun) eqn:E; [apply is_true in E|].
      * call Ifun. destruct a as [[name ps] body]. unfold wf_fun in Hq.
        destruct (ch ts0 125) eqn:E1; [apply ch_true in E1; split; [fin|exact E1]|].
        call2 Ipairs. split; [fin|exact Hc].
      * destruct (cur ts) eqn:Ec.
        2:{ pose proof (done_bal ts Hw Ec). destruct ts as [|[k s] r]; [destruct Hw|]. cbn in Ec. subst k. destruct Hw as [_ ->]. cbn. lia. }
        all: assert (Hnd : cur ts <> KDone) by (rewrite Ec; discriminate); clear Ec.
        all: apply post_next; [assumption|assumption|]; intros ts1 Hw1 Hl1 Hb1;
          (eapply post_bind with (V := 0 <= bal ts) (Q1 := good ts 1 wf_expr); [|lia|]);
          [destruct (is_k ts KIdent && (is_k ts1 KDone || ch ts1 58)) eqn:Es;
            [apply andb_true_iff in Es as [Es _]; apply is_true in Es; rewrite Es in Hb1; cbn -[Z.add bal] in Hb1; fin
            |eapply post_weaken; [apply Iexpr; auto; lia|lia|auto]]
          |intros k ts2 (Hw2 & Hl2 & Hb2 & Hq2); on_ch; nx; call Iexpr;
           destruct (ch ts3 125) eqn:E1; [apply ch_true in E1; split; [fin|exact E1]|];
           on_ch; nx; call2 Ipairs; split; [fin|exact Hc]].
    + (* primary *)
      intros ts Hw Hf. destruct (cur ts) as [c| | | | | | | | | | | | | | | | | | | | | | |] eqn:Ec; try exact I.
      * destruct (c =? 91) eqn:E1.
        { apply Z.eqb_eq in E1 as ->. nx.
          eapply post_bind with (V := 0 < bal ts0) (Q1 := at_end (KC 93) (good ts0 0 wf_exprs)); [|lia|].
          - destruct (ch ts0 93) eqn:E2; [apply ch_true in E2; split; [fin|exact E2]|].
            eapply post_weaken; [apply Iseq; auto; lia|auto|]. intros a ts' ((? & ? & ? & ?) & ?). split; [fin|auto].
          - intros items ts1 ((Hw1 & Hl1 & Hb1 & Hq1) & Hc1). nx. fin. }
        destruct (c =? 123) eqn:E2.
        { apply Z.eqb_eq in E2 as ->. nx. destruct (is_k ts0 KDone); [exact I|].
          eapply post_bind with (V := 0 <= bal ts0) (Q1 := at_end (KC 125) (good ts0 0 wf_pairs)); [|lia|].
          - destruct (ch ts0 125) eqn:E3; [apply ch_true in E3; split; [fin|exact E3]|].
            eapply post_weaken; [apply Ipairs; auto; lia|auto|]. intros a ts' ((? & ? & ? & ?) & ?). split; [fin|auto].
          - intros items ts1 ((Hw1 & Hl1 & Hb1 & Hq1) & Hc1). nx. fin. }
        destruct (c =? 40) eqn:E3; [|exact I].
        apply Z.eqb_eq in E3 as ->. nx. call Iexpr. on_ch. nx. fin.
      * destruct (NUM_MAX <=? _); [exact I|]. destruct (2 ^ 63 <=? _) eqn:Ev; [exact I|]. apply Z.leb_gt in Ev. nx. fin.
        pose proof (dec_value_nonneg (txt ts) 0 ltac:(lia) (txt_digits ts Hw Ec)). unfold in_i64. lia.
      * destruct (NUM_MAX <=? _); [exact I|]. nx. fin. apply flt_value_bits.
      * destruct (string_value (txt ts)) as [v|] eqn:Es; [|exact I]. nx. fin. exact (string_value_ok _ _ (txt_ok ts HB Hw) Es).
      * nx. fin.
      * nx. fin. 
      * nx. fin.
      * nx. fin.
    + (* expr *)
      intros t a ts Hw Hf. call Iprefix. destruct (is_k ts0 KDone); [fin|].
      eapply post_weaken; [apply Iexpr2; auto; lia|lia|intros e' ts' (? & ? & ? & ?); fin].
    + (* expr2 *)
      intros l mn t a ts Hw Hf Hwl. destruct (goes_on ts mn t a) as [p|] eqn:Eg; [|fin].
      apply goes_on_spec in Eg as (Hc & Hbr & Hp & Ha & _). nx. call Iprefix. call Iinner.
      eapply post_weaken; [apply Iexpr2; auto; [lia|inB; apply binary_node_wf; auto]|lia|intros e' ts' (? & ? & ? & ?); fin].
    + (* inner *)
      intros p r t a ts Hw Hf Hr Hp Ha. destruct (precedence (cur ts)) as [q|] eqn:Eq; [|fin].
      destruct ((p <? q) || ((p =? q) && right_assoc (cur ts))) eqn:Eg; [|fin].
      destruct (goes_on ts (p + (if p <? q then 1 else 0)) t a) as [g|] eqn:Egg.
      * eapply post_bind; [apply Iexpr2; auto; lia|lia|]. rewrite Egg. intros r' ts0 (Hw0 & Hl0 & Hb0 & Hq0).
        destruct (ch ts0 44 && negb t); [fin|].
        eapply post_weaken; [apply Iinner; auto; lia|lia|intros e' ts' (? & ? & ? & ?); fin].
      * (* nothing consumed: only a comma that is not allowed stops it, and the loop ends there *)
        destruct n as [|n']; [lia|]. cbn [p_expr2]. rewrite Egg. cbn [pbind].
        destruct (ch ts 44 && negb t) eqn:Ecm; [fin|]. exfalso.
        unfold goes_on in Egg. rewrite Eq, Ecm in Egg. cbn [orb] in Egg.
        destruct (ch ts 61) eqn:E61.
        -- apply ch_true in E61. rewrite E61 in Eq, Eg. injection Eq as <-. cbn [right_assoc kind_eqb] in Eg.
           destruct a; cbn [negb andb] in Egg.
           ++ destruct (p <? 0) eqn:E0; [apply Z.ltb_lt in E0; lia|].
              apply orb_true_iff in Eg as [Eg|Eg]; [discriminate|]. apply andb_true_iff in Eg as [Eg _]. apply Z.eqb_eq in Eg as ->.
              cbn in Egg. discriminate.
           ++ specialize (Ha eq_refl). apply orb_true_iff in Eg as [Eg|Eg]; [apply Z.ltb_lt in Eg; lia|].
              apply andb_true_iff in Eg as [Eg _]. apply Z.eqb_eq in Eg. lia.
        -- cbn [andb negb] in Egg. rewrite andb_true_r in Egg.
           destruct (p + (if p <? q then 1 else 0) <=? q) eqn:Ele; [discriminate|]. apply Z.leb_gt in Ele.
           destruct (p <? q) eqn:Epq; [apply Z.ltb_lt in Epq; lia|]. cbn [orb] in Eg.
           apply andb_true_iff in Eg as [Eg _]. apply Z.eqb_eq in Eg. lia.
    + (* stmt *)
      intros ts Hw Hf. destruct (starts_expr (cur ts)) eqn:Es.
      * call Iexpr. on_ch. nx. fin.
      * destruct (cur ts) as [c| | | | | | | | | | | | | | | | | | | | | | |] eqn:Ec; try exact I.
        -- destruct (c =? 123) eqn:E1; [|exact I]. apply Z.eqb_eq in E1 as ->. nx. call2 Icomp. nx. fin.
        -- nx. call Iexpr. on_ch. nx. call Istmt. destruct (is_k ts3 KElse) eqn:E2; [apply is_true in E2|fin].
           nx. call Istmt. fin.
        -- call Ifun. destruct a as [[name ps] body]. fin.
        -- nx. call Iexpr. on_ch. nx. fin.
        -- nx. call Iexpr. on_ch. nx. call Istmt. fin.
        -- nx. on_ch. nx. fin.
        -- nx. call Istmt. on_ch. nx. call Iexpr. on_ch. nx. fin.
    + (* compound *)
      intros k ts Hw Hf. destruct (is_k ts k) eqn:E; [apply is_true in E; split; [fin|exact E]|].
      destruct (is_k ts KDone); [exact I|]. call Istmt. call2 Icomp. split; [fin|exact Hc].
    + (* fundef *)
      intros ts Hw Hf Hc. nx. on_ch. nx. on_ch. nx.
      eapply post_bind with (V := 0 < bal ts2) (Q1 := at_end (KC 41) (good ts2 0 wf_params)); [|lia|].
      { destruct (ch ts2 41) eqn:E3; [apply ch_true in E3; split; [fin|exact E3]|].
        eapply post_weaken; [apply Iparams; auto; lia|auto|]. intros a ts' ((? & ? & ? & ?) & ?). split; [fin|auto]. }
      intros ps ts3 ((Hw3 & Hl3 & Hb3 & Hq3) & Hc3). nx. destruct (is_k ts4 KDone); [exact I|]. call Istmt. fin.
    + (* params *)
      intros ts Hw Hf. on_ch. nx.
      eapply post_bind with (V := 0 < bal ts0) (Q1 := good ts0 0 wf_oexpr); [|lia|].
      { destruct (ch ts0 58) eqn:E1; [apply ch_true in E1|fin]. nx. call Iexpr. fin. }
      intros ty ts1 (Hw1 & Hl1 & Hb1 & Hq1).
      eapply post_bind with (V := 0 < bal ts1) (Q1 := good ts1 0 wf_oexpr); [|lia|].
      { destruct (ch ts1 61) eqn:E1; [apply ch_true in E1|fin]. nx. call Iexpr. fin. }
      intros df ts2 (Hw2 & Hl2 & Hb2 & Hq2).
      destruct (ch ts2 41) eqn:E1; [apply ch_true in E1; split; [fin|exact E1]|].
      on_ch. nx. call2 Iparams. split; [fin|exact Hc].
Qed.

End Safe.

From Verif Require Import LexSpec LexProofs.

Lemma lex1_digits nul s n : lex1 nul s = LOk (KInt, n) -> Forall (fun c => isdigit c = true) (firstn n s).
Proof.
  destruct s as [|c s]; [discriminate|]. unfold lex1.
  destruct (isident0 c).
  { cbv zeta. pose proof (table_kind keywords (firstn (span isident (c :: s)) (c :: s))) as Ht.
    destruct (table keywords (firstn (span isident (c :: s)) (c :: s))) as [k'|]; intros H; [|discriminate].
    injection H as -> _. specialize (Ht _ eq_refl). cbn in Ht. intuition discriminate. }
  destruct (isdigit c).
  { cbv zeta. pose proof (span_forall isdigit (c :: s)) as Hd. set (m := span isdigit (c :: s)) in *. clearbody m.
    destruct (skipn m (c :: s)) as [|p [|d r]]; intros H; [injection H as <-; exact Hd|injection H as <-; exact Hd|].
    destruct ((p =? 46) && isdigit d); [discriminate|injection H as <-; exact Hd]. }
  destruct ((c =? 39) || (c =? 34)); [destruct (scan_string c s); [discriminate|destruct nul; discriminate]|].
  destruct (isoper c); [|discriminate].
  cbv zeta. pose proof (table_kind operators (firstn (span isoper (c :: s)) (c :: s))) as Ht.
  destruct (table operators (firstn (span isoper (c :: s)) (c :: s))) as [k'|]; intros H; [|discriminate].
  injection H as -> _. specialize (Ht _ eq_refl). cbn in Ht. intuition discriminate.
Qed.

Lemma lex_wft src fuel nul : forall off l,
  lex fuel nul (Z.of_nat off) (skipn off src) = LOk l -> wft (text_ok src) (with_text src l).
Proof.
  induction fuel as [|f IH]; intros off l; cbn [lex]; set (s := skipn off src) in *; set (k := skip false s) in *;
    destruct (skipn k s) as [|c r] eqn:E; try discriminate.
  1,2: intros H; injection H as <-; cbn; repeat split; [constructor|discriminate].
  destruct (lex1 nul (c :: r)) as [[kd n]| | |] eqn:E1; try discriminate.
  pose proof (lex1_ok _ _ _ _ _ E1) as [Hkd Hn].
  assert (Hoff : Z.of_nat off + Z.of_nat k + Z.of_nat n = Z.of_nat (off + k + n)) by lia. rewrite Hoff.
  replace (skipn n (c :: r)) with (skipn (off + k + n) src)
    by (rewrite <- E; unfold s; rewrite !skipn_skipn'; f_equal; lia).
  destruct (lex f nul (Z.of_nat (off + k + n)) (skipn (off + k + n) src)) as [l'| | |] eqn:E2; try discriminate.
  intros H; injection H as <-. apply IH in E2. cbn [with_text map wft fst t_kind].
  assert (Ht : text_of src (mktok kd (Z.of_nat off + Z.of_nat k) (Z.of_nat n)) = firstn n (c :: r)).
  { unfold text_of. cbn [t_len t_off]. rewrite <- Nat2Z.inj_add, !Nat2Z.id, <- E. unfold s. rewrite skipn_skipn'. reflexivity. }
  rewrite Ht. split; [split; cbn [fst snd]|destruct kd; try congruence; exact E2].
  - intros Hs. apply firstn_text. rewrite <- E. apply skipn_text, skipn_text, Hs.
  - intros ->. eapply lex1_digits; eauto.
Qed.

(** Number of tokens of a kind. *)
Definition count_kind (k : kind) (l : list token) : nat := length (filter (fun t => kind_eqb (t_kind t) k) l).

Lemma bal_count src l : bal (with_text src l) = Z.of_nat (count_kind (KC 123) l) - Z.of_nat (count_kind (KC 125) l).
Proof.
  induction l as [|[k o n] l IH]; [reflexivity|]. unfold count_kind in *. cbn [with_text map bal t_kind filter].
  change (map _ l) with (with_text src l). rewrite IH. destruct k; cbn [kind_eqb]; try lia.
  destruct (c =? 123) eqn:E1; [apply Z.eqb_eq in E1 as ->; cbn [Z.eqb Pos.eqb length]; lia|].
  destruct (c =? 125) eqn:E2; cbn [length]; lia.
Qed.

Theorem parse_safe nul src l : tokenize nul src = LOk l ->
  post (Z.of_nat (count_kind (KC 125) l) < Z.of_nat (count_kind (KC 123) l))
    (fun root _ => (exists ss, root = SComp ss) /\ (text_ok src -> wf_stmt root)) (parse nul src).
Proof.
  intros H. unfold parse. rewrite H. pose proof (lex_wft src (length src) nul 0 l H) as Hw.
  unfold parse_tokens. set (ts := with_text src l) in *.
  destruct (safe (text_ok src) (parse_fuel ts)) as (_ & _ & _ & _ & _ & _ & _ & _ & _ & Hc & _).
  specialize (Hc KDone ts Hw). unfold parse_fuel in *. eapply post_bind; [apply Hc; lia| |].
  - unfold ts. rewrite bal_count. lia.
  - intros ss ts' ((_ & _ & _ & Hq) & _). cbn. eauto.
Qed.

Theorem parse_total nul src : parse nul src <> PFuel.
Proof.
  destruct (tokenize nul src) as [l| | |] eqn:E.
  - pose proof (parse_safe nul src l E) as H. intros Hf. rewrite Hf in H. exact H.
  - unfold parse. rewrite E. discriminate.
  - unfold parse. rewrite E. discriminate.
  - destruct (tokenize_total nul src E).
Qed.

Theorem parse_crash src l : tokenize true src = LOk l -> parse true src = PUB ->
  (count_kind (KC 125) l < count_kind (KC 123) l)%nat.
Proof. intros H Hp. pose proof (parse_safe true src l H) as Hs. rewrite Hp in Hs. cbn in Hs. lia. Qed.

Theorem parse_tree nul src root ts : parse nul src = POk root ts -> text_ok src -> wf_stmt root /\ is_expr root = false.
Proof.
  intros H Hs. destruct (tokenize nul src) as [l| | |] eqn:E.
  - pose proof (parse_safe nul src l E) as Hp. rewrite H in Hp. destruct Hp as ((ss & ->) & Hw). split; [exact (Hw Hs)|reflexivity].
  - unfold parse in H. rewrite E in H. discriminate.
  - unfold parse in H. rewrite E in H. discriminate.
  - unfold parse in H. rewrite E in H. discriminate.
Qed.
