(** Proofs about the executable builder. *)
From Coq Require Import ZArith List Lia Bool.
From Verif Require Import Base StringModel FloatModel ExeModel ExeSpec.
Import ListNotations.
Open Scope Z_scope.

(** What a slot becomes by the end of a history. *)
Definition settle (evs : list bevent) (s : slot) : slot :=
  match s with
  | Word w => Word w
  | Hole p => match first_set evs p with Some v => Word (u64 v) | None => Hole p end
  end.
Definition settle_instr (evs : list bevent) (i : binstr) : binstr :=
  mkbi (bi_op i) (map (settle evs) (bi_slots i)) (bi_off i) (bi_len i).

Lemma settle_nil s : settle [] s = s.
Proof. destruct s; reflexivity. Qed.

Lemma settle_instr_nil i : settle_instr [] i = i.
Proof.
  destruct i as [o ss a l]. unfold settle_instr. cbn. f_equal.
  rewrite <- (map_id ss) at 2. apply map_ext. intros s. apply settle_nil.
Qed.

Lemma settle_fill p v evs s : settle evs (fill_slot p v s) = settle (EvSet p v :: evs) s.
Proof.
  destruct s as [w|q]; cbn; [reflexivity|].
  destruct (Nat.eqb_spec p q); cbn; reflexivity.
Qed.

Lemma settle_instr_fill p v evs i : settle_instr evs (fill_instr p v i) = settle_instr (EvSet p v :: evs) i.
Proof.
  unfold settle_instr, fill_instr. cbn. f_equal. rewrite map_map. apply map_ext. intros s. apply settle_fill.
Qed.

(** A slot delivers an operand, given the string data. *)
Definition slot_ok (data : list Z) (ty : optype) (e : option operand) (s : slot) : Prop :=
  match e with
  | None => exists p, s = Hole p
  | Some o => exists w, s = Word w /\
    match ty, o with
    | TIdx, PIdx z => in_i64 z /\ w = u64 z
    | TInt, PInt z => in_i64 z /\ w = u64 z
    | TFlt, PFlt b => w = b
    | TStr, PStr t => Forall (fun c => 1 <= c < 256) t /\ 0 <= w /\ (Z.to_nat w <= length data)%nat /\
                      exists rest, skipn (Z.to_nat w) data = t ++ 0 :: rest
    | _, _ => False
    end
  end.

Inductive slots_ok (data : list Z) : list optype -> list (option operand) -> list slot -> Prop :=
| so_nil : slots_ok data [] [] []
| so_cons ty tys e es s ss : slot_ok data ty e s -> slots_ok data tys es ss -> slots_ok data (ty :: tys) (e :: es) (s :: ss).

Definition instr_ok (data : list Z) (e : opcode * list (option operand)) (i : binstr) : Prop :=
  bi_op i = fst e /\ slots_ok data (optypes (fst e)) (snd e) (bi_slots i).

Lemma slot_ok_mono data more ty e s : slot_ok data ty e s -> slot_ok (data ++ more) ty e s.
Proof.
  destruct e as [o|]; cbn; [|auto].
  intros (w & -> & H). exists w. split; [reflexivity|].
  destruct ty, o; try exact H.
  destruct H as (Hc & H0 & Hl & rest & Hr).
  split; [exact Hc|]. split; [exact H0|]. rewrite app_length. split; [lia|].
  rewrite skipn_app. replace (Z.to_nat w - length data)%nat with O by lia. cbn [skipn].
  rewrite Hr. exists (rest ++ more). rewrite <- app_assoc. reflexivity.
Qed.

Lemma slots_ok_mono data more tys es ss : slots_ok data tys es ss -> slots_ok (data ++ more) tys es ss.
Proof. induction 1; constructor; auto using slot_ok_mono. Qed.

Definition holes (code : list binstr) : list slot :=
  filter (fun s => match s with Hole _ => true | Word _ => false end) (flat_map bi_slots code).
Definition nholes (ss : list slot) : Z :=
  Z.of_nat (length (filter (fun s => match s with Hole _ => true | Word _ => false end) ss)).

Definition set_vals_ok (ls : list (option Z)) : Prop := Forall (fun o => match o with Some v => in_i64 v | None => True end) ls.

Lemma first_set_ok evs p v : Forall event_ok evs -> first_set evs p = Some v -> in_i64 v.
Proof.
  induction 1 as [|e evs He _ IH]; cbn; [discriminate|].
  destruct e as [|q w|]; auto. destruct (Nat.eqb q p); auto.
  intros [= <-]. exact He.
Qed.

(** What put_operands stores. *)
Lemma put_operands_spec future proms tys : forall os data promc d c ss,
  set_vals_ok proms -> Forall event_ok future -> Forall operand_ok os ->
  put_operands data promc proms tys os = ROk (d, c, ss) ->
  exists more, d = data ++ more /\ c = promc + nholes ss /\
    length more = Z.to_nat (fold_right Z.add 0 (map string_bytes os)) /\
    slots_ok d tys (delivers proms future tys os) (map (settle future) ss) /\
    Forall (fun s => match s with Hole p => nth_error proms p = Some None | Word _ => True end) ss.
Proof.
  induction tys as [|ty tys IH]; intros [|o os] data promc d c ss Hp Hf Ho H; cbn [put_operands] in H; try discriminate.
  { injection H as <- <- <-. exists []. rewrite app_nil_r. cbn. repeat split; try lia; constructor. }
  destruct (match o, ty with
       | PIdx z, TIdx => ROk (data, promc, Word (u64 z))
       | PInt z, TInt => ROk (data, promc, Word (u64 z))
       | PFlt f, TFlt => ROk (data, promc, Word (u64 f))
       | PStr s, TStr => ROk (data ++ s ++ [0], promc, Word (Z.of_nat (length data)))
       | PProm _, TStr => RErr
       | PProm p, _ =>
         match nth_error proms p with
         | None => RUB
         | Some None => ROk (data, promc + 1, Hole p)
         | Some (Some v) => ROk (data, promc, Word (u64 v))
         end
       | _, _ => RErr
       end) as [[[d1 c1] s]| |] eqn:E; try discriminate.
  destruct (put_operands d1 c1 proms tys os) as [[[d2 c2] ss2]| |] eqn:E2; try discriminate.
  injection H as <- <- <-.
  inversion Ho as [|? ? Ho1 Ho2]; subst.
  destruct (IH os d1 c1 d2 c2 ss2 Hp Hf Ho2 E2) as (more2 & Hd & Hc & Hl & Hs & Hh).
  assert (Hsb : 0 <= fold_right Z.add 0 (map string_bytes os)).
  { clear. induction os as [|o os IH]; cbn; [lia|]. destruct o; cbn; lia. }
  assert (Hone : exists more1, d1 = data ++ more1 /\ c1 = promc + nholes [s] /\
     length more1 = Z.to_nat (string_bytes o) /\ slot_ok d1 ty (deliver proms future ty o) (settle future s) /\
     match s with Hole p => nth_error proms p = Some None | Word _ => True end).
  { destruct o as [z|z|f|t|p]; destruct ty; try discriminate E;
      try (solve [injection E as <- <- <-; exists []; rewrite app_nil_r; (split; [reflexivity|]); (split; [cbn; lia|]);
           (split; [reflexivity|]); (split; [|exact I]); cbn in Ho1; eexists; (split; [reflexivity|]); cbn;
           (solve [split; [exact Ho1|reflexivity]] || (unfold u64; apply Z.mod_small; exact Ho1))]).
    - injection E as <- <- <-. exists (t ++ [0]). cbn [settle deliver slot_ok string_bytes].
      split; [reflexivity|]. split; [cbn; lia|]. split; [rewrite app_length; cbn; lia|]. split; [|exact I].
      eexists. split; [reflexivity|]. split; [exact Ho1|]. split; [lia|].
      rewrite Nat2Z.id, app_length. split; [lia|].
      exists []. rewrite skipn_app, skipn_all, Nat.sub_diag. reflexivity.
    - destruct (nth_error proms p) as [[v|]|] eqn:Ep; try discriminate; injection E as <- <- <-;
        exists []; rewrite app_nil_r; (split; [reflexivity|]); (split; [cbn; lia|]); (split; [reflexivity|]);
        cbn [settle deliver]; rewrite Ep; (split; [|exact I || exact Ep || reflexivity]).
      + eexists. split; [reflexivity|]. split; [|reflexivity].
        unfold set_vals_ok in Hp. rewrite Forall_forall in Hp. exact (Hp _ (nth_error_In _ _ Ep)).
      + destruct (first_set future p) as [v|] eqn:Ef; cbn; [|eauto].
        eexists. split; [reflexivity|]. split; [exact (first_set_ok _ _ _ Hf Ef)|reflexivity].
    - destruct (nth_error proms p) as [[v|]|] eqn:Ep; try discriminate; injection E as <- <- <-;
        exists []; rewrite app_nil_r; (split; [reflexivity|]); (split; [cbn; lia|]); (split; [reflexivity|]);
        cbn [settle deliver]; rewrite Ep; (split; [|exact I || exact Ep || reflexivity]).
      + eexists. split; [reflexivity|]. split; [|reflexivity].
        unfold set_vals_ok in Hp. rewrite Forall_forall in Hp. exact (Hp _ (nth_error_In _ _ Ep)).
      + destruct (first_set future p) as [v|] eqn:Ef; cbn; [|eauto].
        eexists. split; [reflexivity|]. split; [exact (first_set_ok _ _ _ Hf Ef)|reflexivity].
    - destruct (nth_error proms p) as [[v|]|] eqn:Ep; try discriminate; injection E as <- <- <-;
        exists []; rewrite app_nil_r; (split; [reflexivity|]); (split; [cbn; lia|]); (split; [reflexivity|]);
        cbn [settle deliver]; rewrite Ep; (split; [|exact I || exact Ep || reflexivity]).
      + eexists. split; reflexivity.
      + destruct (first_set future p) as [v|] eqn:Ef; cbn; [|eauto].
        eexists. split; reflexivity. }
  destruct Hone as (more1 & Hd1 & Hc1 & Hl1 & Hs1 & Hh1).
  exists (more1 ++ more2).
  split; [rewrite Hd, Hd1, app_assoc; reflexivity|].
  split. { rewrite Hc, Hc1. unfold nholes. destruct s; cbn [filter length]; lia. }
  split. { rewrite app_length, Hl, Hl1. cbn [map fold_right].
           assert (0 <= string_bytes o) by (destruct o; cbn; lia). lia. }
  split; [|constructor; assumption].
  cbn [map delivers]. constructor; [|exact Hs].
  rewrite Hd. apply slot_ok_mono. exact Hs1.
Qed.

Lemma nholes_app a b : nholes (a ++ b) = nholes a + nholes b.
Proof. unfold nholes. rewrite filter_app, app_length. lia. Qed.

Lemma nholes_fill p v ss :
  nholes (map (fill_slot p v) ss) = nholes ss - Z.of_nat (length (filter (is_hole p) ss)).
Proof.
  unfold nholes. induction ss as [|s ss IH]; [reflexivity|].
  destruct s as [w|q]; cbn [map fill_slot filter is_hole]; [exact IH|].
  destruct (Nat.eqb p q); cbn [filter length]; lia.
Qed.

Lemma flat_slots_fill p v code :
  flat_map bi_slots (map (fill_instr p v) code) = map (fill_slot p v) (flat_map bi_slots code).
Proof. induction code as [|i code IH]; [reflexivity|]. cbn. rewrite map_app, IH. reflexivity. Qed.

(** Invariant of the builder: the counter is the number of holes, and only unset labels have holes. *)
Definition binv (b : builder) : Prop :=
  b_promc b = nholes (flat_map bi_slots (b_code b)) /\
  Forall (fun s => match s with Hole p => nth_error (b_proms b) p = Some None | Word _ => True end) (flat_map bi_slots (b_code b)) /\
  set_vals_ok (b_proms b).

Lemma set_vals_upd ls p v : set_vals_ok ls -> in_i64 v -> set_vals_ok (upd ls p (Some v)).
Proof.
  unfold set_vals_ok. intros H Hv. revert p. induction H as [|o ls Ho H IH]; intros [|p]; cbn; constructor; auto.
Qed.

Lemma data_bytes_nonneg evs : 0 <= data_bytes evs.
Proof.
  induction evs as [|e evs IH]; cbn; [lia|]. destruct e as [| |op os off len]; auto.
  assert (0 <= fold_right Z.add 0 (map string_bytes os)); [|lia].
  clear. induction os as [|o os IH]; cbn; [lia|]. destruct o; cbn; lia.
Qed.

Lemma build_spec evs : forall b b', Forall event_ok evs -> binv b -> build b evs = ROk b' ->
  binv b' /\ exists more news,
    b_data b' = b_data b ++ more /\ length more = Z.to_nat (data_bytes evs) /\
    b_code b' = map (settle_instr evs) (b_code b) ++ news /\
    Forall2 (instr_ok (b_data b')) (emitted (b_proms b) evs) news.
Proof.
  induction evs as [|e evs IH]; intros b b' Hev Hb H; cbn [build] in H.
  { injection H as <-. split; [exact Hb|]. exists [], []. rewrite !app_nil_r.
    split; [reflexivity|]. split; [reflexivity|]. split; [|constructor].
    rewrite <- (map_id (b_code b)) at 1. apply map_ext. intros i. symmetry. apply settle_instr_nil. }
  inversion Hev as [|? ? He Hev']; subst.
  destruct (bstep b e) as [b1| |] eqn:E; try discriminate.
  destruct e as [|p v|op os off len]; cbn [bstep] in E.
  - injection E as <-.
    assert (Hb1 : binv (exeb_label b)).
    { destruct Hb as (H1 & H2 & H3). split; [exact H1|]. cbn. split.
      - eapply Forall_impl; [|exact H2]. intros [w|q] Hq; [exact I|].
        rewrite nth_error_app1; [exact Hq|]. apply nth_error_Some. congruence.
      - apply Forall_app. split; [exact H3|]. constructor; [exact I|constructor]. }
    destruct (IH _ _ Hev' Hb1 H) as (Hb' & more & news & Hd & Hl & Hc & Hf).
    split; [exact Hb'|]. exists more, news. repeat split; assumption.
  - unfold exeb_resolve in E. destruct (nth_error (b_proms b) p) as [old|] eqn:Ep; [|discriminate].
    injection E as <-.
    assert (Hb1 : binv (mkbd (b_data b) (map (fill_instr p v) (b_code b)) (b_promc b - count_holes p (b_code b))
                          (upd (b_proms b) p (Some v)))).
    { destruct Hb as (H1 & H2 & H3). split; [|split]; cbn.
      - rewrite flat_slots_fill, nholes_fill. unfold count_holes. lia.
      - rewrite flat_slots_fill. apply Forall_forall. intros s Hs.
        apply in_map_iff in Hs. destruct Hs as (s0 & <- & Hs0).
        rewrite Forall_forall in H2. specialize (H2 _ Hs0).
        destruct s0 as [w|q]; cbn; [exact I|].
        destruct (Nat.eqb_spec p q); [exact I|].
        rewrite nth_error_upd_other by congruence. exact H2.
      - apply set_vals_upd; assumption. }
    destruct (IH _ _ Hev' Hb1 H) as (Hb' & more & news & Hd & Hl & Hc & Hf).
    split; [exact Hb'|]. exists more, news. split; [exact Hd|]. split; [exact Hl|]. split; [|exact Hf].
    rewrite Hc. cbn [b_code]. rewrite map_map. f_equal. apply map_ext. intros i. apply settle_instr_fill.
  - unfold exeb_append in E. destruct (negb (Nat.eqb (length os) (length (optypes op)))); [discriminate|].
    destruct (put_operands (b_data b) (b_promc b) (b_proms b) (optypes op) os) as [[[d c] ss]| |] eqn:Ep; try discriminate.
    injection E as <-.
    destruct Hb as (H1 & H2 & H3).
    destruct (put_operands_spec evs _ _ _ _ _ _ _ _ H3 Hev' He Ep) as (more1 & Hd1 & Hc1 & Hl1 & Hs1 & Hh1).
    assert (Hb1 : binv (mkbd d (b_code b ++ [mkbi op ss off len]) c (b_proms b))).
    { split; [|split]; cbn.
      - rewrite flat_map_app, nholes_app. cbn. rewrite app_nil_r. lia.
      - rewrite flat_map_app. apply Forall_app. split; [exact H2|]. cbn. rewrite app_nil_r. exact Hh1.
      - exact H3. }
    destruct (IH _ _ Hev' Hb1 H) as (Hb' & more & news & Hd & Hl & Hc & Hf).
    split; [exact Hb'|]. exists (more1 ++ more), (settle_instr evs (mkbi op ss off len) :: news).
    cbn [b_data b_code b_proms] in *.
    split; [rewrite Hd, Hd1, app_assoc; reflexivity|].
    split. { rewrite app_length, Hl, Hl1. cbn [data_bytes]. pose proof (data_bytes_nonneg evs).
             assert (0 <= fold_right Z.add 0 (map string_bytes os)); [|lia].
             clear. induction os as [|o os IH]; cbn; [lia|]. destruct o; cbn; lia. }
    split. { rewrite Hc, map_app, <- app_assoc. reflexivity. }
    cbn [emitted]. constructor; [|exact Hf].
    split; [reflexivity|]. cbn. rewrite Hd. apply slots_ok_mono. exact Hs1.
Qed.

Lemma binv_new : binv exeb_new.
Proof. repeat split; constructor. Qed.

Lemma cstr_app t rest : Forall (fun c => 1 <= c < 256) t -> cstr (t ++ 0 :: rest) = Some t.
Proof.
  induction 1 as [|c t Hc _ IH]; [reflexivity|].
  cbn [app cstr]. destruct (Z.eqb_spec c 0); [lia|]. rewrite IH. reflexivity.
Qed.

Lemma wrap64_u64 z : in_i64 z -> wrap64 (u64 z) = z.
Proof.
  intros H. unfold wrap64, u64. rewrite Zplus_mod_idemp_l.
  pose proof (wrap64_id z H) as E. unfold wrap64 in E. exact E.
Qed.

Lemma wrap32_small z : 0 <= z < 2^31 -> wrap32 z = z.
Proof. intros H. apply wrap32_id. unfold in_int. lia. Qed.

Lemma fetch_operand_ok data ty o s : Z.of_nat (length data) < 2^31 ->
  slot_ok data ty (Some o) s -> fetch_operand data ty s = ROk o.
Proof.
  intros Hl (w & -> & H). destruct ty, o; try contradiction; cbn.
  - destruct H as [Hz ->]. rewrite wrap64_u64 by exact Hz. reflexivity.
  - destruct H as [Hz ->]. rewrite wrap64_u64 by exact Hz. reflexivity.
  - subst w. reflexivity.
  - destruct H as (Ht & H0 & Hw & rest & Hr).
    rewrite wrap32_small by lia.
    destruct (Z.ltb_spec w 0); [lia|]. rewrite Hr, cstr_app by exact Ht. reflexivity.
Qed.

Lemma fetch_operands_ok data tys es ss : Z.of_nat (length data) < 2^31 ->
  slots_ok data tys es ss -> forall os, es = map Some os -> fetch_operands data tys ss = ROk os.
Proof.
  intros Hl H. induction H as [|ty tys e es s ss Hs _ IH]; intros os E.
  - destruct os; [reflexivity|discriminate].
  - destruct os as [|o os]; [discriminate|]. injection E as -> E.
    cbn [fetch_operands]. rewrite (fetch_operand_ok _ _ _ _ Hl Hs), (IH os E). reflexivity.
Qed.

(** All labels used get a value. *)
Definition all_delivered (l : list (opcode * list (option operand))) : Prop :=
  Forall (fun e => ~ In None (snd e)) l.

Lemma nholes_zero ss : nholes ss = 0 -> forall s, In s ss -> exists w, s = Word w.
Proof.
  unfold nholes. induction ss as [|s0 ss IH]; intros H s Hs; [destruct Hs|].
  destruct Hs as [<-|Hs].
  - destruct s0; [eauto|]. cbn [filter length] in H. lia.
  - apply IH; [|exact Hs]. destruct s0; cbn [filter length] in H; lia.
Qed.

Lemma nholes_pos ss p : In (Hole p) ss -> 0 < nholes ss.
Proof.
  unfold nholes. induction ss as [|s0 ss IH]; intros H; [destruct H|].
  destruct H as [->|H]; [cbn [filter length]; lia|].
  specialize (IH H). destruct s0; cbn [filter length]; lia.
Qed.

Lemma slots_ok_none data tys es ss : slots_ok data tys es ss -> (In None es <-> exists p, In (Hole p) ss).
Proof.
  induction 1 as [|ty tys e es s ss Hs _ IH]; cbn.
  - split; [tauto|intros [p []]].
  - split.
    + intros [->|H]; [destruct Hs as [p ->]; exists p; auto|].
      apply IH in H. destruct H as [p Hp]. exists p. auto.
    + intros [p [->|Hp]].
      * left. destruct e as [o|]; [|reflexivity]. destruct Hs as (w & Hw & _). discriminate.
      * right. apply IH. eauto.
Qed.

Lemma no_none_map es : ~ In None es -> exists os : list operand, es = map Some os.
Proof.
  induction es as [|[o|] es IH]; intros H.
  - exists []. reflexivity.
  - destruct IH as [os ->]; [intros Hn; apply H; right; exact Hn|]. exists (o :: os). reflexivity.
  - exfalso. apply H. left. reflexivity.
Qed.

Lemma finalize_iff evs b : Forall event_ok evs -> build exeb_new evs = ROk b ->
  ((exists x, exeb_finalize b = ROk x) <-> all_delivered (emitted [] evs)).
Proof.
  intros Hev H.
  destruct (build_spec evs _ _ Hev binv_new H) as ((Hp & _ & _) & more & news & Hd & Hl & Hc & Hf).
  cbn in Hc. unfold exeb_finalize.
  assert (Hn : 0 <= nholes (flat_map bi_slots (b_code b))) by (unfold nholes; lia).
  split.
  - intros [x Hx]. destruct (Z.ltb_spec 0 (b_promc b)) as [|Hz]; [discriminate|].
    assert (Hz' : nholes (flat_map bi_slots (b_code b)) = 0) by lia.
    rewrite Hc in Hz'. clear -Hf Hz'. cbn [b_proms exeb_new] in Hf. unfold all_delivered.
    induction Hf as [|e i es is [Hi Hs] _ IH]; constructor.
    + intros Hn. apply (slots_ok_none _ _ _ _ Hs) in Hn. destruct Hn as [p Hp].
      apply nholes_pos in Hp. cbn in Hz'. rewrite nholes_app in Hz'.
      assert (0 <= nholes (flat_map bi_slots is)) by (unfold nholes; lia). lia.
    + apply IH. cbn in Hz'. rewrite nholes_app in Hz'.
      assert (0 <= nholes (bi_slots i)) by (unfold nholes; lia).
      assert (0 <= nholes (flat_map bi_slots is)) by (unfold nholes; lia). lia.
  - intros Ha. destruct (Z.ltb_spec 0 (b_promc b)) as [Hz|]; [|eauto].
    exfalso. rewrite Hp, Hc in Hz. clear -Hf Hz Ha. cbn [b_proms exeb_new] in Hf.
    induction Hf as [|e i es is [Hi Hs] _ IH]; [cbn in Hz; lia|].
    inversion Ha as [|? ? Ha1 Ha2]; subst.
    apply IH; [exact Ha2|]. cbn in Hz. rewrite nholes_app in Hz.
    assert (Hz0 : nholes (bi_slots i) = 0); [|lia].
    unfold nholes. replace (filter _ (bi_slots i)) with (@nil slot); [reflexivity|].
    assert (Hno : forall p, ~ In (Hole p) (bi_slots i)).
    { intros p Hp. apply Ha1. apply (slots_ok_none _ _ _ _ Hs). eauto. }
    clear -Hno. induction (bi_slots i) as [|s ss IH]; [reflexivity|].
    destruct s as [w|p]; [|exfalso; apply (Hno p); left; reflexivity].
    cbn [filter]. apply IH. intros p Hp. apply (Hno p). right. exact Hp.
Qed.

Lemma fetch_spec evs b x : Forall event_ok evs -> data_bytes evs < 2^31 ->
  build exeb_new evs = ROk b -> exeb_finalize b = ROk x ->
  forall i, 0 <= i ->
  match nth_error (emitted [] evs) (Z.to_nat i) with
  | Some (op, ds) => exists os, ds = map Some os /\ exe_fetch x i = ROk (Some (op, os))
  | None => exe_fetch x i = ROk None
  end.
Proof.
  intros Hev Hdl H Hx i Hi.
  pose proof (proj1 (finalize_iff evs b Hev H) (ex_intro _ _ Hx)) as Ha.
  destruct (build_spec evs _ _ Hev binv_new H) as ((Hp & _ & _) & more & news & Hd & Hl & Hc & Hf).
  cbn in Hc, Hd. cbn [b_proms exeb_new] in Hf.
  unfold exeb_finalize in Hx. destruct (0 <? b_promc b); [discriminate|]. injection Hx as <-.
  unfold exe_fetch. destruct (Z.ltb_spec i 0); [lia|]. cbn [x_body x_head]. rewrite Hc.
  assert (Hlen : Z.of_nat (length (b_data b)) < 2^31).
  { rewrite Hd, Hl. pose proof (data_bytes_nonneg evs). lia. }
  clear -Hf Ha Hlen. revert Hf Ha. generalize (emitted [] evs) as es. intros es Hf.
  generalize (Z.to_nat i) as n. induction Hf as [|e bi es is [Hi Hs] _ IH]; intros n Ha.
  - destruct n; reflexivity.
  - inversion Ha as [|? ? Ha1 Ha2]; subst. destruct n as [|n]; cbn [nth_error]; [|apply IH; exact Ha2].
    destruct e as [op ds]. cbn in *. destruct (no_none_map _ Ha1) as [os ->].
    exists os. split; [reflexivity|]. rewrite Hi, (fetch_operands_ok _ _ _ _ Hlen Hs os eq_refl). reflexivity.
Qed.

(** ** When building succeeds *)
Lemma put_operands_typed tys : forall os data promc proms,
  Forall2 (operand_typed (length proms)) tys os -> exists r, put_operands data promc proms tys os = ROk r.
Proof.
  induction tys as [|ty tys IH]; intros os data promc proms H; inversion H as [|? o ? os' Ho Hos]; subst.
  - cbn. eauto.
  - cbn [put_operands].
    assert (E : exists d c s, (match o, ty with
       | PIdx z, TIdx => ROk (data, promc, Word (u64 z))
       | PInt z, TInt => ROk (data, promc, Word (u64 z))
       | PFlt f, TFlt => ROk (data, promc, Word (u64 f))
       | PStr s, TStr => ROk (data ++ s ++ [0], promc, Word (Z.of_nat (length data)))
       | PProm _, TStr => RErr
       | PProm p, _ =>
         match nth_error proms p with
         | None => RUB
         | Some None => ROk (data, promc + 1, Hole p)
         | Some (Some v) => ROk (data, promc, Word (u64 v))
         end
       | _, _ => RErr
       end) = ROk (d, c, s)).
    { destruct o as [z|z|f|t|p], ty; cbn in Ho; try contradiction; try (do 3 eexists; reflexivity);
        destruct (nth_error proms p) as [[v|]|] eqn:Ep; try (do 3 eexists; reflexivity);
        apply nth_error_None in Ep; lia. }
    destruct E as (d & c & s & ->).
    destruct (IH os' d c proms Hos) as [[[d' c'] ss] ->]. eauto.
Qed.

Lemma put_operands_typed_conv tys : forall os data promc proms r,
  put_operands data promc proms tys os = ROk r -> Forall2 (operand_typed (length proms)) tys os.
Proof.
  induction tys as [|ty tys IH]; intros [|o os] data promc proms r H; cbn [put_operands] in H; try discriminate; [constructor|].
  destruct (match o, ty with
       | PIdx z, TIdx => ROk (data, promc, Word (u64 z))
       | PInt z, TInt => ROk (data, promc, Word (u64 z))
       | PFlt f, TFlt => ROk (data, promc, Word (u64 f))
       | PStr s, TStr => ROk (data ++ s ++ [0], promc, Word (Z.of_nat (length data)))
       | PProm _, TStr => RErr
       | PProm p, _ =>
         match nth_error proms p with
         | None => RUB
         | Some None => ROk (data, promc + 1, Hole p)
         | Some (Some v) => ROk (data, promc, Word (u64 v))
         end
       | _, _ => RErr
       end) as [[[d1 c1] s]| |] eqn:E; try discriminate.
  destruct (put_operands d1 c1 proms tys os) as [[[d2 c2] ss2]| |] eqn:E2; try discriminate.
  constructor; [|exact (IH _ _ _ _ _ E2)].
  destruct o as [z|z|f|t|p], ty; try discriminate E; cbn; try exact I;
    apply nth_error_Some; destruct (nth_error proms p) as [[v|]|]; try discriminate; congruence.
Qed.

Lemma Forall2_len {A B} (R : A -> B -> Prop) l l' : Forall2 R l l' -> length l = length l'.
Proof. induction 1; cbn; congruence. Qed.

Lemma build_iff evs : forall b, ((exists b', build b evs = ROk b') <-> history_typed (length (b_proms b)) evs).
Proof.
  induction evs as [|e evs IH]; intros b; cbn [build history_typed].
  { split; [auto|eauto]. }
  destruct e as [|p v|op os off len]; cbn [bstep].
  - rewrite IH. cbn [exeb_label b_proms]. rewrite app_length. cbn. rewrite Nat.add_1_r. reflexivity.
  - unfold exeb_resolve. destruct (nth_error (b_proms b) p) as [o|] eqn:Ep.
    + rewrite IH. cbn [b_proms]. rewrite upd_length.
      assert (p < length (b_proms b))%nat by (apply nth_error_Some; congruence). tauto.
    + split; [intros [b' Hb]; discriminate|]. intros [Hp _]. apply nth_error_None in Ep. lia.
  - unfold exeb_append. split.
    + destruct (negb (Nat.eqb (length os) (length (optypes op)))); [intros [b' Hb]; discriminate|].
      destruct (put_operands (b_data b) (b_promc b) (b_proms b) (optypes op) os) as [[[d c] ss]| |] eqn:E;
        try (intros [b' Hb]; discriminate).
      intros Hb. apply IH in Hb. cbn in Hb. split; [exact (put_operands_typed_conv _ _ _ _ _ _ E)|exact Hb].
    + intros [Ht Hr]. rewrite <- (Forall2_len _ _ _ Ht), Nat.eqb_refl. cbn [negb].
      destruct (put_operands_typed _ _ (b_data b) (b_promc b) (b_proms b) Ht) as [[[d c] ss] ->].
      apply IH. exact Hr.
Qed.
