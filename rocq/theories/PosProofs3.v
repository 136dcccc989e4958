(** Positions in compiled programs, and in the traces of programs that fail or are refused. *)
From Coq Require Import ZArith List Bool Lia String.
From Verif Require Import Base StringModel ExeModel ExeSpec ExeProofs ValueModel ObjModel VmModel AstModel LexModel LexSpec LexProofs ParseModel ParseSpec ParseSafe GrammarProofs CodegenModel CompSpec CodegenProofs2 CodegenProofs3 SrcModel RunProofs CompileModel CompileProofs.
From Verif Require Import AsmModel SourceModel ShowSpec FrameModel LimitSpec LimitProofs TraceModel TraceSpec TracePos TraceProofs PosModel PosSpec PosProofs PosProofs2.
Import ListNotations.
Open Scope list_scope.
Open Scope Z_scope.

Definition bare_in (i : binstr) : binstr := mkbi (bi_op i) (bi_slots i) 0 0.
Definition bare_bd (b : builder) : builder := mkbd (b_data b) (map bare_in (b_code b)) (b_promc b) (b_proms b).
Definition rmap {A B} (f : A -> B) (r : res A) : res B := match r with ROk a => ROk (f a) | RErr => RErr | RUB => RUB end.

Lemma flat_bare l : flat_map bi_slots (map bare_in l) = flat_map bi_slots l.
Proof. induction l as [|i l IH]; [reflexivity|]. cbn [map flat_map]. rewrite IH. reflexivity. Qed.
Lemma build_bare evs : forall b, build (bare_bd b) (map bare_ev evs) = rmap bare_bd (build b evs).
Proof.
  induction evs as [|e r IH]; intros b; [reflexivity|]. cbn [map build].
  assert (S : bstep (bare_bd b) (bare_ev e) = rmap bare_bd (bstep b e)).
  { destruct e as [|p v|op ops off len]; cbn [bare_ev bstep].
    - reflexivity.
    - unfold exeb_resolve. cbn [bare_bd b_proms b_data b_code b_promc]. destruct (nth_error _ _); [|reflexivity]. cbn [rmap]. f_equal.
      unfold bare_bd. cbn [b_data b_code b_promc b_proms]. unfold count_holes. rewrite flat_bare, !map_map. reflexivity.
    - unfold exeb_append. cbn [bare_bd b_proms b_data b_code b_promc]. destruct (negb _); [reflexivity|].
      destruct (put_operands _ _ _ _ _) as [[[d c] ss]| |]; [|reflexivity|reflexivity]. cbn [rmap]. f_equal. unfold bare_bd. cbn [b_data b_code b_promc b_proms].
      rewrite map_app. reflexivity. }
  rewrite S. destruct (bstep b e); cbn [rmap]; [apply IH|reflexivity|reflexivity].
Qed.

(** The place of each instruction is the one it was emitted with. *)
Fixpoint emissions (evs : list bevent) : list (opcode * list operand * pos) :=
  match evs with
  | [] => []
  | EvEmit op ops off len :: r => (op, ops, (off, len)) :: emissions r
  | _ :: r => emissions r
  end.
Definition place (i : binstr) : opcode * pos := (bi_op i, (bi_off i, bi_len i)).
Lemma build_places evs : forall b b', build b evs = ROk b' ->
  map place (b_code b') = map place (b_code b) ++ map (fun t => (fst (fst t), snd t)) (emissions evs).
Proof.
  induction evs as [|e r IH]; intros b b' H; cbn [build] in H; [injection H as <-; now rewrite app_nil_r|].
  destruct (bstep b e) as [b1| |] eqn:S; try discriminate. rewrite (IH _ _ H). destruct e as [|p v|op ops off len]; cbn [bstep] in S.
  - injection S as <-. reflexivity.
  - unfold exeb_resolve in S. destruct (nth_error _ _); [|discriminate]. injection S as <-. cbn [b_code emissions]. rewrite map_map. reflexivity.
  - unfold exeb_append in S. destruct (negb _); [discriminate|]. destruct (put_operands _ _ _ _ _) as [[[d c] ss]| |]; try discriminate. injection S as <-.
    cbn [b_code emissions]. rewrite map_app, <- app_assoc. reflexivity.
Qed.
Lemma emissions_ok src evs : Forall (ev_ok src) evs ->
  Forall (fun t => ins src (snd t) /\ (fst (fst t) = OP_PUSHVAR -> snd (fst t) = [PStr (piece src (fst (snd t)) (snd (snd t)))]) /\
    (fst (fst t) = OP_ASS -> exists name, snd (fst t) = [PStr name] /\ target src (fst (snd t)) (snd (snd t)) name)) (emissions evs).
Proof. induction 1 as [|e r K _ IH]; [constructor|]. destruct e; cbn [emissions]; [exact IH|exact IH|]. constructor; [exact K|exact IH]. Qed.
Lemma emitted_at evs : forall ls, exists f, List.length (emitted ls evs) = List.length (emissions evs) /\
  forall i t, nth_error (emissions evs) i = Some t -> exists ls' r, f i = (ls', r) /\ nth_error (emitted ls evs) i = Some (fst (fst t), delivers ls' r (optypes (fst (fst t))) (snd (fst t))).
Proof.
  induction evs as [|e r IH]; intros ls.
  - exists (fun _ => ([], [])). split; [reflexivity|]. intros [|i] t H; discriminate.
  - destruct e as [|p v|op ops off len]; cbn [emitted emissions].
    + apply IH. + apply IH.
    + destruct (IH ls) as (f & L & F). exists (fun i => match i with O => (ls, r) | S i => f i end). cbn [List.length]. split; [now rewrite L|].
      intros [|i] t H; cbn [nth_error] in *; [injection H as <-; eauto|apply F; exact H].
Qed.
Lemma emitted_bare evs : forall ls, emitted ls (map bare_ev evs) = emitted ls evs.
Proof.
  assert (F : forall evs p, first_set (map bare_ev evs) p = first_set evs p).
  { induction evs0 as [|e r IH]; intros p; [reflexivity|]. destruct e; cbn; rewrite ?IH; reflexivity. }
  assert (D : forall r ls tys os, delivers ls (map bare_ev r) tys os = delivers ls r tys os).
  { intros r ls tys. induction tys as [|ty tys IH]; intros [|o os]; try reflexivity. cbn [delivers]. rewrite IH. f_equal. unfold deliver. destruct o; try reflexivity. now rewrite F. }
  induction evs as [|e r IH]; intros ls; [reflexivity|]. destruct e; cbn [map bare_ev emitted]; rewrite IH; [reflexivity..|]. now rewrite D.
Qed.

Lemma fetch_bare x i : exe_fetch (mkexe (x_head x) (map bare_in (x_body x))) i = exe_fetch x i.
Proof. unfold exe_fetch. cbn [x_head x_body]. rewrite nth_error_map. destruct (i <? 0); [reflexivity|]. destruct (nth_error _ _) as [b|]; reflexivity. Qed.

(** * The tokens *)
Lemma tiles_in src t l : forall from, 0 <= from -> tiles src from l -> In t l -> from <= t_off t /\ 0 <= t_len t /\ t_off t + t_len t <= Z.of_nat (List.length src).
Proof.
  induction l as [|u r IH]; intros from F T I; [destruct I|]. cbn [tiles] in T. destruct T as (A & T). destruct r as [|v r].
  - destruct I as [<-|[]]. destruct T as (_ & L & O & _). lia.
  - destruct T as (_ & L & E & _ & T). destruct I as [<-|I]; [lia|]. specialize (IH (t_off u + t_len u) ltac:(lia) T I). lia.
Qed.
Lemma tiles_apart src t u l : forall from, 0 <= from -> tiles src from l -> In t l -> In u l ->
  t_off u + t_len u <= t_off t \/ t_off t + t_len t <= t_off u \/ t = u.
Proof.
  induction l as [|w r IH]; intros from F T I J; [destruct I|]. cbn [tiles] in T. destruct T as (A & T). destruct r as [|v r].
  - destruct I as [<-|[]], J as [<-|[]]. auto.
  - destruct T as (_ & L & E & _ & T). destruct I as [<-|I], J as [<-|J].
    + auto.
    + destruct (tiles_in src u _ (t_off w + t_len w) ltac:(lia) T J). lia.
    + destruct (tiles_in src t _ (t_off w + t_len w) ltac:(lia) T I). lia.
    + apply (IH (t_off w + t_len w) ltac:(lia) T I J).
Qed.
Lemma all_toks src l : tokenize true src = LOk l -> toks src (with_pos src l).
Proof.
  intros E. pose proof (tokens_tile _ _ _ E) as T. split.
  - destruct l; [destruct T|discriminate].
  - apply Forall_forall. intros x I. apply in_map_iff in I. destruct I as (t & <- & I). destruct (tiles_in src t l 0 ltac:(lia) T I) as (A & B & C). split; [split|].
    + cbn [fst snd]. split; (split; [unfold pend; cbn [fst snd]; lia|]); intros l' u E' J; rewrite E in E'; injection E' as <-;
        destruct (tiles_apart src t u l 0 ltac:(lia) T I J) as [G|[G|<-]]; unfold pend; cbn [fst snd]; lia.
    + unfold begins. rewrite E. exists t. auto.
    + split; [reflexivity|]. cbn [fst]. intros D. destruct (lex_tokd src (List.length src) true 0 l E) as (b & W & Fb & _).
      assert (J : In (t_kind t, text_of src t) (with_text src l)) by (apply (in_map (fun t => (t_kind t, text_of src t))); exact I).
      rewrite W in J. apply in_app_or in J. destruct J as [J|[J|[]]]; [rewrite Forall_forall in Fb; apply Fb, J|]. injection J as J _. congruence.
Qed.
Lemma bare_with src l : bare (with_pos src l) = with_text src l.
Proof. unfold bare, with_pos, with_text. rewrite map_map. reflexivity. Qed.

Lemma parse_rel src : rel src er_stmt (okS src) (parse_at true src) (parse true src).
Proof.
  unfold parse_at, parse. destruct (tokenize true src) as [l| | |] eqn:E; [|apply rel_err; [apply inn_end|unfold begins; now rewrite E]|reflexivity|reflexivity].
  pose proof (all_toks src l E) as T. rewrite <- bare_with. unfold q_tokens, parse_tokens.
  eapply rel_bind; [apply (r_compound src _ (rel_all src _)), T|]. intros ss ts K T'. apply rel_ok; [reflexivity| |exact T'].
  constructor; [apply comp_pos_in, K|exact K].
Qed.

Lemma program_good src root : okS src root ->
  match h_program (Z.of_nat (List.length src)) root with
  | Some evs => cg_program (er_stmt root) = Some (map bare_ev evs) /\ Forall (ev_ok src) evs
  | None => cg_program (er_stmt root) = None
  end.
Proof.
  intros K. assert (G : good src (g_seq (h_stmt None root) (h_emit (Z.of_nat (List.length src), 0) OP_EXIT [])) (g_seq (cg_stmt None (er_stmt root)) (g_emit OP_EXIT []))).
  { apply good_seq; [apply (proj1 (proj2 (proj2 (proj2 (proj2 (proj2 (code_good src)))))) root K)|]. apply good_emit; [|split; discriminate]. apply ins_at, inn_end. }
  specialize (G O 0). unfold h_program, cg_program. destruct (g_seq (h_stmt None root) _ O 0) as [[[e n'] p']|].
  - destruct G as (-> & G). auto.
  - now rewrite G.
Qed.

(** * Compiled programs *)
Lemma compile_positions src x : compile_at src = MExe x -> exists root ts evs b,
  parse true src = POk (er_stmt root) ts /\ cg_program (er_stmt root) = Some (map bare_ev evs) /\ Forall (ev_ok src) evs /\
  build exeb_new evs = ROk b /\ exeb_finalize b = ROk x.
Proof.
  unfold compile_at. pose proof (parse_rel src) as R. destruct (parse_at true src) as [root ts| | |]; try discriminate. destruct R as (P & K & _).
  pose proof (program_good src root K) as G. destruct (h_program _ root) as [evs|]; [|discriminate]. destruct G as (C & F).
  destruct (build exeb_new evs) as [b| |] eqn:B; try discriminate. destruct (exeb_finalize b) as [y| |] eqn:Fi; try discriminate. intros H. injection H as <-.
  exists root, (bare ts), evs, b. auto.
Qed.

Lemma finalize_bare b : exeb_finalize (bare_bd b) = rmap (fun x => mkexe (x_head x) (map bare_in (x_body x))) (exeb_finalize b).
Proof. unfold exeb_finalize. cbn [bare_bd b_promc]. destruct (0 <? _); reflexivity. Qed.
Lemma codegen_bare root evs : cg_program root = Some (map bare_ev evs) ->
  codegen root = Some (match build exeb_new evs with ROk b => rmap (fun x => mkexe (x_head x) (map bare_in (x_body x))) (exeb_finalize b) | RErr => RErr | RUB => RUB end).
Proof.
  intros C. unfold codegen. rewrite C. pose proof (build_bare evs exeb_new) as B. change (bare_bd exeb_new) with exeb_new in B. rewrite B.
  destruct (build exeb_new evs); cbn [rmap]; [|reflexivity|reflexivity]. now rewrite finalize_bare.
Qed.

Theorem same_program src :
  match compile_at src with
  | MExe x => exists y, compile src = ROk y /\ same_code x y
  | MErr _ => compile src = RErr
  | MUB => compile src = RUB
  end.
Proof.
  unfold compile_at, compile. pose proof (parse_rel src) as R. destruct (parse_at true src) as [root ts|off| |]; cbn [rel] in R.
  2: { destruct R as (-> & _). reflexivity. } 2: { now rewrite R. } 2: { now rewrite R. }
  destruct R as (-> & K & _). pose proof (program_good src root K) as G. destruct (h_program _ root) as [evs|].
  2: { unfold codegen. now rewrite G. }
  destruct G as (C & _). rewrite (codegen_bare _ _ C). destruct (build exeb_new evs) as [b| |]; [|reflexivity|reflexivity].
  destruct (exeb_finalize b) as [x| |]; cbn [rmap]; [|reflexivity|reflexivity]. eexists. split; [reflexivity|].
  split; [cbn [x_body]; now rewrite map_length|]. intros i. symmetry. apply fetch_bare.
Qed.

Lemma places_at src x : compile_at src = MExe x -> exists evs root ts, parse true src = POk (er_stmt root) ts /\ cg_program (er_stmt root) = Some (map bare_ev evs) /\
  Forall (ev_ok src) evs /\ map place (x_body x) = map (fun t => (fst (fst t), snd t)) (emissions evs).
Proof.
  intros H. destruct (compile_positions src x H) as (root & ts & evs & b & P & C & F & B & Fi). exists evs, root, ts. split; [exact P|]. split; [exact C|]. split; [exact F|].
  unfold exeb_finalize in Fi. destruct (0 <? _); [discriminate|]. injection Fi as <-. exact (build_places _ _ _ B).
Qed.

Lemma all_ins src x : compile_at src = MExe x -> Forall (fun i => ins src (bi_off i, bi_len i)) (x_body x).
Proof.
  intros H. destruct (places_at src x H) as (evs & root & ts & _ & _ & F & E). apply emissions_ok in F.
  apply Forall_forall. intros i I. apply (in_map place) in I. rewrite E in I. apply in_map_iff in I. destruct I as ([[op ops] [off len]] & Eq & I).
  rewrite Forall_forall in F. destruct (F _ I) as (A & _). cbn in Eq, A. unfold place in Eq. injection Eq as _ <- <-. exact A.
Qed.
Theorem all_inside src x : compile_at src = MExe x -> Forall (fun i => inside src (bi_off i) (bi_len i)) (x_body x).
Proof. intros H. eapply Forall_impl; [|exact (all_ins src x H)]. intros i I. exact (ins_inside src (_, _) I). Qed.
Theorem all_between src x : compile_at src = MExe x -> Forall (fun i => between src (bi_off i) /\ between src (bi_off i + bi_len i)) (x_body x).
Proof. intros H. eapply Forall_impl; [|exact (all_ins src x H)]. intros i [[_ A] [_ B]]. split; [exact A|exact B]. Qed.

Lemma names_there src x : text_ok src -> Z.of_nat (List.length src) < 2 ^ 26 -> compile_at src = MExe x ->
  forall i b, nth_error (x_body x) i = Some b -> bi_op b = OP_PUSHVAR \/ bi_op b = OP_ASS -> exists name, exe_fetch x (Z.of_nat i) = ROk (Some (bi_op b, [PStr name])) /\
    (bi_op b = OP_PUSHVAR -> name = piece src (bi_off b) (bi_len b)) /\ (bi_op b = OP_ASS -> target src (bi_off b) (bi_len b) name).
Proof.
  intros T L H i b N O. destruct (places_at src x H) as (evs & root & ts & P & C & F & E). apply emissions_ok in F.
  pose proof (f_equal (fun l => nth_error l i) E) as Ei. cbv beta in Ei. rewrite !nth_error_map, N in Ei. cbn [option_map] in Ei.
  destruct (nth_error (emissions evs) i) as [[[op ops] [off len]]|] eqn:Em; [|discriminate]. cbn in Ei. unfold place in Ei. injection Ei as E1 E2 E3.
  pose proof (nth_error_In _ _ Em) as I. rewrite Forall_forall in F. destruct (F _ I) as (_ & V1 & V2). cbn in V1, V2.
  assert (V : exists name, ops = [PStr name] /\ (op = OP_PUSHVAR -> name = piece src off len) /\ (op = OP_ASS -> target src off len name)).
  { rewrite <- E1 in *. destruct O as [O|O].
    - exists (piece src off len). split; [apply V1, O|]. split; [reflexivity|congruence].
    - destruct (V2 O) as (name & V3 & V4). exists name. split; [exact V3|]. split; [congruence|auto]. }
  clear V1 V2. destruct V as (name & -> & V). exists name. rewrite <- E2, <- E3, E1 in *. split; [|exact V]. clear V.
  pose proof (same_program src) as S. rewrite H in S. destruct S as (y & Cy & _ & Sy). rewrite Sy. clear Sy.
  destruct (compile_compiled src y T L Cy) as (ss & R & Co). apply reads_parse in R. rewrite P in R. injection R as R _. rewrite R in *.
  destruct (program_compiles _ _ C) as (_ & _ & Em' & _). rewrite emitted_bare in Em'.
  destruct (emitted_at evs []) as (f & _ & Fi). destruct (Fi _ _ Em) as (ls' & r & _ & Ne). cbn [fst snd] in Ne. rewrite Em', nth_error_map in Ne.
  destruct (nth_error (comp_program (SComp ss)) i) as [[op1 os]|] eqn:Nc; [|discriminate]. cbn in Ne. injection Ne as Eo Eos. rewrite Eo in *. cbn in Eos.
  destruct Co as (Cx & Wf & _ & evs' & C' & B1 & B2). rewrite C in C'. injection C' as <-. destruct (program_fetch _ _ Wf C B1 B2) as (x' & X' & Fe & _).
  rewrite Cx in X'. injection X' as <-. rewrite Fe by lia. rewrite Nat2Z.id, Nc. do 3 f_equal.
  destruct O as [-> | ->]; (destruct os as [|o [|]]; try discriminate Eos; cbn in Eos; injection Eos as ->; reflexivity).
Qed.
Theorem names_stand src x : text_ok src -> Z.of_nat (List.length src) < 2 ^ 26 -> compile_at src = MExe x ->
  forall i b, nth_error (x_body x) i = Some b -> bi_op b = OP_PUSHVAR -> exe_fetch x (Z.of_nat i) = ROk (Some (OP_PUSHVAR, [PStr (piece src (bi_off b) (bi_len b))])).
Proof.
  intros T L H i b N O. destruct (names_there src x T L H i b N (or_introl O)) as (name & F & V & _). rewrite F, O, (V O). reflexivity.
Qed.
Theorem targets_stand src x : text_ok src -> Z.of_nat (List.length src) < 2 ^ 26 -> compile_at src = MExe x ->
  forall i b, nth_error (x_body x) i = Some b -> bi_op b = OP_ASS ->
  exists name, exe_fetch x (Z.of_nat i) = ROk (Some (OP_ASS, [PStr name])) /\ target src (bi_off b) (bi_len b) name.
Proof.
  intros T L H i b N O. destruct (names_there src x T L H i b N (or_intror O)) as (name & F & _ & V). exists name. rewrite F, O. auto.
Qed.

Theorem error_inside src off : text_ok src -> Z.of_nat (List.length src) < 2 ^ 26 -> compile_at src = MErr off ->
  exists o, off = Some o /\ 0 <= o <= Z.of_nat (List.length src) /\ begins src o.
Proof.
  intros T L H. pose proof (same_program src) as S. rewrite H in S. pose proof (parse_rel src) as R.
  unfold compile_at in H. destruct (parse_at true src) as [root ts|o| |]; try discriminate.
  - exfalso. destruct R as (P & _). pose proof P as P'. apply grammar in P'. destruct P' as (l & ws & ss & A & B & C & D & _).
    assert (Rd : reads src ss) by (exists l, ws; auto). destruct (ok_stmts false ss) eqn:OK.
    + destruct (compile_good src ss T L Rd OK) as (x & X & _). congruence.
    + rewrite (compile_semantic src ss Rd OK) in S. discriminate.
  - injection H as <-. destruct R as (_ & [K _] & S'). exists o. auto.
Qed.

(** * Traces *)
Theorem compiled_calls E size text x name src n m s : compile_at text = MExe x -> named src name ->
  TraceSpec.readable src (Z.of_nat (List.length text)) text -> Z.of_nat (List.length text) < 2 ^ 31 -> 0 <= size ->
  steps E size x n (vm_start m) = SNext s -> step E size x s = SErr ->
  exists cs, failed_calls x text name s cs /\ leaves [(src, RunErr (error_frames x src s))] cs /\ cs <> [].
Proof.
  intros A B C D Z0 F G.
  assert (P' : Forall (fun i => 0 <= bi_off i <= Z.of_nat (List.length text)) (x_body x)) by (eapply Forall_impl; [|exact (all_inside _ _ A)]; intros i I; apply I).
  pose proof (error_frames_stand x src text name s B C D P') as S. destruct (reached_run _ _ _ _ _ _ Z0 F) as (W & _). unfold frames_of in W. cbn [List.length] in W.
  pose proof (calls_native_iff x s) as N. pose proof (native_room E size x s) as R.
  destruct (calls_native x s).
  - exists ((bytes_of "(no source)", None) :: call_at x text name (f_pc (v_cur s) + 1) :: map (fun f => call_at x text name (f_pc f)) (v_rest s)).
    split; [constructor; tauto|]. split; [|discriminate]. apply lv_one; [exact S|].
    specialize (R eq_refl G). cbn [List.length]. rewrite map_length. lia.
  - exists (call_at x text name (f_pc (v_cur s) + 1) :: map (fun f => call_at x text name (f_pc f)) (v_rest s)).
    split; [constructor; rewrite <- N; discriminate|]. split; [|discriminate]. apply lv_one; [exact S|].
    cbn [List.length]. rewrite map_length. lia.
Qed.
Theorem compiled_trace E size text x name src n m s : compile_at text = MExe x -> named src name ->
  TraceSpec.readable src (Z.of_nat (List.length text)) text -> Z.of_nat (List.length text) < 2 ^ 31 -> 0 <= size ->
  steps E size x n (vm_start m) = SNext s -> step E size x s = SErr ->
  exists r cs t, api_run rt_new src (RunErr (error_frames x src s)) = ROk (false, r) /\ failed_calls x text name s cs /\ trace_says 0 cs t /\
    forall fuel, (16 <= fuel)%nat -> print_trace fuel r = OOk (bytes_of "Stack trace:" ++ [10] ++ t).
Proof.
  intros A B C D Z0 F G. destruct (compiled_calls _ _ _ _ _ _ _ _ _ A B C D Z0 F G) as (cs & V & L & N).
  destruct (runtime_fails _ _ _ L N) as (r & t & R & T & P). exists r, cs, t. auto.
Qed.
Theorem refused_trace text off name src : text_ok text -> Z.of_nat (List.length text) < 2 ^ 26 -> compile_at text = MErr (Some off) -> named src name ->
  TraceSpec.readable src (Z.of_nat (List.length text)) text ->
  exists r t, api_run rt_new src (NoExe off) = ROk (false, r) /\ trace_says 0 [(name, Some (line_at text off))] t /\
    forall fuel, (16 <= fuel)%nat -> print_trace fuel r = OOk (bytes_of "Stack trace:" ++ [10] ++ t).
Proof.
  intros T L H N R. destruct (error_inside _ _ T L H) as (o & E & I). injection E as <-.
  assert (V : leaves [(src, NoExe off)] [(name, Some (line_at text off))]).
  { apply (lv_no [] []); [constructor|reflexivity| |cbn; lia]. apply ra_line; [exact N| |lia|lia]. destruct R as (R1 & R2). split; [lia|exact R2]. }
  destruct (runtime_survives _ _ V) as (r & A & P & _). destruct (P 16%nat ltac:(lia)) as (t & P1 & _ & P2).
  cbn [api_runs] in A. destruct (api_run rt_new src (NoExe off)) as [[ok r']| |] eqn:Q; try discriminate. injection A as ->.
  assert (ok = false).
  { unfold api_run in Q. cbv zeta in Q. destruct (push_failed _ _ _) as [r'| |]; try discriminate. destruct (src_step _ _ _); try discriminate. injection Q as <- _. reflexivity. }
  subst ok. exists r, t. split; [reflexivity|]. split; [apply P2; discriminate|]. eapply trace_more. exact P1.
Qed.
