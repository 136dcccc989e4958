(** The listing of programs made by the builder and by the compiler: proofs. *)
From Coq Require Import ZArith String List Lia Bool.
From Verif Require Import Base StringModel ExeModel ExeSpec ExeProofs AsmModel ShowModel ShowSpec ShowProofs AstModel CodegenModel CompSpec CodegenProofs CodegenProofs2 CodegenProofs3 RunProofs
  LexModel LexSpec ParseModel ParseSpec CompileModel CompileProofs DumpModel DumpSpec DumpProofs.
Import ListNotations.
Open Scope list_scope.
Open Scope Z_scope.

Lemma deliver_good n ls future ty o r : Forall event_ok future -> (forall p v, nth_error ls p = Some (Some v) -> in_i64 v) -> operand_ok o -> operand_typed n ty o -> deliver ls future ty o = Some r -> kind_is ty r /\ fits r.
Proof.
  intros F L O T D. destruct o as [z|z|b|s|p]; cbn [deliver operand_typed operand_ok] in *.
  1-4: injection D as <-; destruct ty; cbn in *; tauto.
  assert (K : match nth_error ls p with Some (Some v) => Some v | _ => first_set future p end <> None) by (intros E; rewrite E in D; discriminate D).
  destruct (match nth_error ls p with Some (Some v) => Some v | _ => first_set future p end) as [v|] eqn:E; [|contradiction].
  assert (in_i64 v). { destruct (nth_error ls p) as [[w|]|] eqn:N; [injection E as ->; exact (L _ _ N)|exact (first_set_ok _ _ _ F E)..]. }
  injection D as <-. destruct ty; cbn in *; tauto.
Qed.

Lemma delivers_good n ls future tys os : Forall event_ok future -> (forall p v, nth_error ls p = Some (Some v) -> in_i64 v) -> Forall operand_ok os -> Forall2 (operand_typed n) tys os ->
  forall rs, delivers ls future tys os = map Some rs -> Forall2 kind_is tys rs /\ Forall fits rs.
Proof.
  intros F L O T. revert O. induction T as [|ty o tys os T1 _ IH]; intros O [|r rs] D; cbn [delivers map] in D; try discriminate; [split; constructor|].
  inversion_clear O as [|? ? O1 O2]. injection D as D1 D2. destruct (deliver_good _ _ _ _ _ _ F L O1 T1 D1) as [K1 K2]. destruct (IH O2 rs D2) as [G1 G2]. split; constructor; assumption.
Qed.

Lemma upd_in (ls : list (option Z)) p v : in_i64 v -> (forall q w, nth_error ls q = Some (Some w) -> in_i64 w) -> forall q w, nth_error (upd ls p (Some v)) q = Some (Some w) -> in_i64 w.
Proof.
  intros V. revert p. induction ls as [|a ls IH]; intros p L q w H; [destruct p; destruct q; discriminate H|].
  destruct p as [|p]; destruct q as [|q]; cbn [upd nth_error] in H.
  - injection H as <-. exact V.
  - exact (L (S q) w H).
  - exact (L 0%nat w H).
  - exact (IH p (fun q w => L (S q) w) q w H).
Qed.

Lemma emitted_good evs : forall n ls, Forall event_ok evs -> history_typed n evs -> (forall p v, nth_error ls p = Some (Some v) -> in_i64 v) ->
  forall cs, emitted ls evs = map (fun c => (fst c, map Some (snd c))) cs -> Forall typed cs /\ Forall (fun c => Forall fits (snd c)) cs.
Proof.
  induction evs as [|e evs IH]; intros n ls E T L cs H; [destruct cs; [split; constructor|discriminate H]|]. inversion_clear E as [|? ? E1 E2]. destruct e as [|p v|op os off len]; cbn [emitted history_typed event_ok] in *.
  - refine (IH _ _ E2 T _ cs H). intros p v N. destruct (Nat.lt_ge_cases p (length ls)) as [K|K]; [rewrite nth_error_app1 in N by exact K; exact (L _ _ N)|].
    rewrite nth_error_app2 in N by exact K. destruct (p - length ls)%nat as [|[|?]]; discriminate N.
  - refine (IH _ _ E2 (proj2 T) _ cs H). exact (upd_in _ _ _ E1 L).
  - destruct cs as [|[op' rs] cs]; [discriminate H|]. cbn [map fst snd] in H. injection H as <- D R. destruct T as [T1 T2].
    destruct (delivers_good n _ _ _ _ E2 L E1 T1 rs D) as [K1 K2]. destruct (IH _ _ E2 T2 L cs R) as [G1 G2]. split; constructor; assumption.
Qed.

(** * Programs made by the builder *)
Lemma made_code evs x : Forall event_ok evs -> data_bytes evs < 2 ^ 31 -> made evs x ->
  exists cs, emitted [] evs = map (fun c => (fst c, map Some (snd c))) cs /\ has_code x cs /\ Forall typed cs /\ Forall (fun c => Forall fits (snd c)) cs.
Proof.
  intros E D (b & B & X).
  assert (C : exists cs, emitted [] evs = map (fun c => (fst c, map Some (snd c))) cs).
  { pose proof (fun i => fetch_spec evs b x E D B X (Z.of_nat i) ltac:(lia)) as F. revert F. generalize (emitted [] evs). intros l F.
    assert (G : Forall (fun c => exists os, snd c = map Some os) l).
    { apply Forall_forall. intros [op ds] I. apply In_nth_error in I. destruct I as [k Hk]. specialize (F k). rewrite Nat2Z.id, Hk in F. destruct F as (os & -> & _). exists os. reflexivity. }
    clear F. induction G as [|[op ds] l (os & Q) _ (cs & ->)]; [exists []; reflexivity|]. cbn [snd] in Q. subst ds. exists ((op, os) :: cs). reflexivity. }
  destruct C as [cs C]. exists cs. split; [exact C|]. split.
  - intros i Hi. pose proof (fetch_spec evs b x E D B X i Hi) as F. rewrite C, nth_error_map in F. destruct (nth_error cs (Z.to_nat i)) as [[op os]|]; cbn [option_map fst snd] in F; [|exact F].
    destruct F as (os' & Q & ->). assert (os' = os) as ->; [|reflexivity]. clear - Q. revert os' Q. induction os as [|o os IH]; intros [|o' os'] Q; try discriminate Q; [reflexivity|]. injection Q as -> Q. f_equal. exact (IH _ Q).
  - apply (emitted_good evs 0 [] E); [|intros p v N; destruct p; discriminate N|exact C]. apply (build_iff evs exeb_new). eauto.
Qed.

Section Pf.
Variable pf : Z -> list Z.

Lemma made_listed evs x : Forall event_ok evs -> data_bytes evs < 2 ^ 31 -> Z.of_nat (length (emitted [] evs)) < 2 ^ 31 -> made evs x ->
  exists cs t, emitted [] evs = map (fun c => (fst c, map Some (snd c))) cs /\ dump pf x = ROk t /\ listed pf 0 cs t.
Proof.
  intros E D L M. destruct (made_code evs x E D M) as (cs & C & H & T & F). destruct (dump_listed pf x cs H) as (t & Q & R); [|exact F|].
  { rewrite C, map_length in L. lia. } eauto 6.
Qed.

Lemma code_alike x y cs ds : has_code x cs -> has_code y ds -> Forall2 (alike pf) cs ds -> dump pf x = dump pf y.
Proof.
  intros Hx Hy A. unfold dump. rewrite (code_length _ _ Hx), (code_length _ _ Hy), <- (Forall2_len _ _ _ A). clear - Hx Hy A.
  assert (G : forall i, 0 <= i -> match exe_fetch x i, exe_fetch y i with
    | ROk (Some c), ROk (Some d) => alike pf c d | ROk None, ROk None => True | _, _ => False end).
  { intros i Hi. rewrite Hx, Hy by exact Hi. clear - A. generalize (Z.to_nat i). induction A as [|c d l l' A1 _ IH]; intros [|k]; cbn [nth_error]; [exact I..|exact A1|exact (IH k)]. }
  assert (K : 0 <= 0) by lia. revert K. generalize 0 at 2 3 4 as i. generalize (length cs) as n. induction n as [|n IH]; intros i Hi; [reflexivity|]. cbn [dump_loop].
  specialize (G i Hi). destruct (exe_fetch x i) as [[[o v]|]| |], (exe_fetch y i) as [[[o' v']|]| |]; try contradiction; [|reflexivity].
  destruct G as [G1 G2]. cbn [fst snd] in *. subst o'.
  assert (Q : operand_texts pf v = operand_texts pf v'). { clear - G2. induction G2 as [|a b l l' A _ IH]; [reflexivity|]. cbn [operand_texts]. rewrite (operand_alike pf _ _ A), IH. reflexivity. }
  rewrite Q, (IH (i + 1)) by lia. reflexivity.
Qed.

Lemma same_code x y cs ds : has_code x cs -> has_code y ds -> ((forall i, 0 <= i -> same_at pf x y i) <-> Forall2 (alike pf) cs ds).
Proof.
  intros Hx Hy. split.
  - intros S. assert (G : forall k, match nth_error cs k, nth_error ds k with Some c, Some d => alike pf c d | None, None => True | _, _ => False end).
    { intros k. specialize (S (Z.of_nat k) ltac:(lia)). unfold same_at in S. rewrite Hx, Hy, Nat2Z.id in S by lia. destruct (nth_error cs k) as [[o v]|], (nth_error ds k) as [[o' v']|]; auto. }
    clear - G. revert ds G. induction cs as [|c cs IH]; intros [|d ds] G; [constructor|destruct (G 0%nat)..|]. constructor; [exact (G 0%nat)|]. apply IH. intros k. exact (G (S k)).
  - intros A i Hi. unfold same_at. rewrite Hx, Hy by exact Hi. clear - A. generalize (Z.to_nat i). induction A as [|[o v] [o' v'] l l' A1 _ IH]; intros [|k]; cbn [nth_error]; [exact I..|exact A1|exact (IH k)].
Qed.

Lemma made_alike evs evs' x y : Forall event_ok evs -> data_bytes evs < 2 ^ 31 -> made evs x -> Forall event_ok evs' -> data_bytes evs' < 2 ^ 31 -> made evs' y ->
  (forall i, 0 <= i -> same_at pf x y i) -> dump pf x = dump pf y.
Proof.
  intros E D M E' D' M' S. destruct (made_code _ _ E D M) as (cs & _ & H & _). destruct (made_code _ _ E' D' M') as (ds & _ & H' & _).
  exact (code_alike x y cs ds H H' (proj1 (same_code x y cs ds H H') S)).
Qed.

Lemma code_one_line x cs : has_code x cs -> all_one_line x -> Forall (fun c => Forall one_line (snd c)) cs.
Proof.
  intros H A. apply Forall_forall. intros [o v] I. apply In_nth_error in I. destruct I as [k Hk]. apply (A (Z.of_nat k) o); [lia|]. rewrite H, Nat2Z.id, Hk by lia. reflexivity.
Qed.

Lemma made_tells evs evs' x y : (forall b, ~ In 32 (pf b) /\ ~ In 10 (pf b)) ->
  Forall event_ok evs -> data_bytes evs < 2 ^ 31 -> Z.of_nat (length (emitted [] evs)) < 2 ^ 31 -> made evs x -> all_one_line x ->
  Forall event_ok evs' -> data_bytes evs' < 2 ^ 31 -> Z.of_nat (length (emitted [] evs')) < 2 ^ 31 -> made evs' y -> all_one_line y ->
  dump pf x = dump pf y -> forall i, 0 <= i -> same_at pf x y i.
Proof.
  intros Pf E D L M A E' D' L' M' A' Q. destruct (made_code _ _ E D M) as (cs & C & H & T & F). destruct (made_code _ _ E' D' M') as (ds & C' & H' & T' & F').
  destruct (dump_listed pf x cs H) as (t & Q1 & R1); [rewrite C, map_length in L; lia|exact F|]. destruct (dump_listed pf y ds H') as (t' & Q2 & R2); [rewrite C', map_length in L'; lia|exact F'|].
  assert (t' = t) by congruence. subst t'. apply (same_code x y cs ds H H'). exact (listed_inj pf Pf cs 0 ds t T T' (code_one_line _ _ H A) (code_one_line _ _ H' A') R1 R2).
Qed.

(** * Programs made by the compiler *)
Lemma compiled_listed src x : text_ok src -> slen src < 2 ^ 26 -> compile src = ROk x ->
  exists ss t, reads src ss /\ dump pf x = ROk t /\ listed pf 0 (comp_program (SComp ss)) t.
Proof.
  intros T L H. destruct (compile_compiled src x T L H) as (ss & R & C & W & _ & evs & G & N & D).
  destruct (program_fetch _ _ W G N D) as (x' & C' & Fe & In). assert (x' = x) by congruence. subst x'.
  destruct (program_compiles _ _ G) as (_ & _ & He & _). rewrite He, map_length in N.
  destruct (dump_listed pf x (comp_program (SComp ss)) Fe) as (t & Q & Lt); [eapply Z.lt_trans; [exact N|lia]| |eauto 6].
  rewrite program_length in N. eapply Forall_impl; [|exact In]. intros c Hc. unfold instr_in in Hc. eapply Forall_impl; [|exact Hc]. intros [z|z|b|s|p] K; cbn in *; auto. unfold in_i64. lia.
Qed.
End Pf.
