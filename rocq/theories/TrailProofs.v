(** Traces of programs that import files. *)
From Coq Require Import ZArith String List Bool Lia.
From Verif Require Import Base StringModel ExeModel ValueModel ObjModel SysModel BuiltinModel ExeProofs LexModel ParseModel VmModel LimitSpec LimitProofs SourceModel AsmModel CompSpec CompileModel ImportModel ImportProofs ImportMore
  PosModel PosSpec PosProofs PosProofs2 PosProofs3 TraceModel TraceSpec TraceProofs TrailModel TrailSpec.
Import ListNotations.
Open Scope list_scope.
Open Scope Z_scope.

Definition small (fs : list Z -> option (list Z)) : Prop := forall p t, fs p = Some t -> Z.of_nat (List.length t) < 2 ^ 31.

Lemma texts_small fs : texts fs -> small fs.
Proof. intros T p t H. destruct (T _ _ H). lia. Qed.

Lemma cells_all (l : list Z) r : cells (List.length l) (map Some l ++ r) = Some l.
Proof. induction l as [|a l IH]; cbn; [destruct r; reflexivity|]. now rewrite IH. Qed.

Lemma from_file_is cwd fs big file s : small fs -> from_file cwd fs big file = ROk s -> exists path text, fs path = Some text /\ s = file_source path text /\ get_text s = Some text.
Proof.
  intros Sm H. unfold from_file in H. destruct file as [|h file]; [discriminate H|]. destruct (make_absolute _ _ _) as [p| |]; [|discriminate H|discriminate H].
  assert (K : forall q : option (list Z), match q with None => RUB | Some path => match fs path with None => RErr | Some content =>
      let size := wrap32 (Z.of_nat (List.length content)) in if size <? 0 then RErr else
      if big <? SIZEOF_SOURCE + Z.of_nat (List.length path) + size + 2 then RErr else ROk (mksource (Some path) (map Some (firstn (Z.to_nat size) content) ++ [Some 0]) size 1 true) end end = ROk s ->
      exists path text, fs path = Some text /\ s = file_source path text /\ get_text s = Some text).
  { intros q. destruct q as [path|]; [|discriminate]. destruct (fs path) as [text|] eqn:F; [|discriminate]. cbv zeta. pose proof (Sm _ _ F) as L.
    rewrite wrap32_id by (unfold in_int; lia). destruct (_ <? 0); [discriminate|]. destruct (big <? _); [discriminate|].
    rewrite Nat2Z.id, firstn_all. intros Q. injection Q as <-. exists path, text. split; [exact F|]. split; [reflexivity|].
    unfold get_text, get_size. cbn [s_size s_body]. rewrite Z.mod_small by lia. rewrite Nat2Z.id. apply cells_all. }
  destruct p as [| |b]; [discriminate H|exact (K (Some (h :: file)) H)|exact (K (c_string b) H)].
Qed.

Lemma load_in_file cwd fs big main u file u' : small fs -> load cwd fs big u file = ROk u' -> in_file fs main u'.
Proof.
  intros Sm H. unfold load in H. destruct (script_path _ _ _ _) as [[b|]| |]; try discriminate. destruct (c_string b) as [full|]; [|discriminate].
  destruct (from_file cwd fs big full) as [src| |] eqn:F; try discriminate. destruct (from_file_is _ _ _ _ _ Sm F) as (path & text & P & -> & G). rewrite G in H.
  destruct (get_after _) as [[| |]|]; [|discriminate H|discriminate H|discriminate H]. destruct (compile text) as [x| |] eqn:C; [|discriminate H|discriminate H]. injection H as <-. left. exists path, text. auto.
Qed.

Definition below_in (fs : list Z -> option (list Z)) (main : list Z * list Z) (b : below) : Prop := match b with BRun u _ => in_file fs main u | BNative => True end.
Definition all_in (fs : list Z -> option (list Z)) (main : list Z * list Z) (i : istate) : Prop := in_file fs main (i_prog i) /\ Forall (in_file fs main) (i_codes i) /\ Forall (below_in fs main) (i_rest i).

Section Trail.
Variables (E : env) (size : Z) (cwd : option (list Z)) (fs : list Z -> option (list Z)) (big : Z) (main : list Z * list Z).
Hypothesis Hsize : 256 <= size.
Hypothesis Sm : small fs.

Lemma istep_in i i' : all_in fs main i -> istep E size cwd fs big i = INext i' -> all_in fs main i'.
Proof.
  intros (A & B & C) H. rewrite istep_eq in H. destruct (sort_at i) eqn:K.
  - destruct (vstep _ _ _ i _) as [t| | | | | |]; try discriminate. cbn [go] in H. destruct (nth_error _ c) as [u|] eqn:N; [|discriminate]. injection H as <-.
    split; [exact (proj1 (Forall_forall _ _) B _ (nth_error_In _ _ N))|]. split; [exact B|]. constructor; assumption.
  - cbv zeta in H. destruct (32 <? _); [discriminate|]. destruct (_ || _); [discriminate|]. unfold do_import in H.
    repeat match goal with H : (match ?x with _ => _ end) = INext _ |- _ => destruct x eqn:?; try discriminate end.
    injection H as <-. split; [eapply load_in_file; eassumption|]. split; [exact B|]. constructor; [exact I|]. constructor; assumption.
  - destruct (vstep _ _ _ i _) as [t| | | | | |]; try discriminate. cbn [go] in H.
    assert (C' : Forall (below_in fs main) (if i_imp i then List.tl (i_rest i) else i_rest i)) by (destruct (i_imp i); [|exact C]; destruct (i_rest i); [constructor|now inversion C]).
    destruct (if i_imp i then _ else _) as [|[u imp|] r]; try discriminate. injection H as <-. inversion C'; subst. split; [assumption|]. split; assumption.
  - destruct (vstep _ _ _ i _) as [t| | | | | |]; try discriminate. injection H as <-. split; [exact A|]. split; [apply Forall_app; split; [exact B|constructor; [exact A|constructor]]|exact C].
  - destruct (vstep _ _ _ i _) as [t| | | | | |]; try discriminate. injection H as <-. split; [exact A|]. split; assumption.
Qed.
Lemma isteps_in k : forall i i', all_in fs main i -> isteps E size cwd fs big k i = INext i' -> all_in fs main i'.
Proof.
  induction k as [|k IH]; intros i i' A H; [injection H as <-; exact A|]. cbn [isteps] in H. destruct (istep E size cwd fs big i) as [j|] eqn:S; [|discriminate].
  eapply IH; [|exact H]. eapply istep_in; eassumption.
Qed.
Lemma reached_in u m i : in_file fs main u -> reached E size cwd fs big u m i -> all_in fs main i.
Proof. intros A (k & H). eapply isteps_in; [|exact H]. split; [exact A|]. split; constructor. Qed.

Lemma frame_stands u whole pc : in_file fs main u -> exists c, call_in fs main (pc, BRun u whole) c /\ stands_for (frame_of fs main u pc) c.
Proof.
  intros [(path & text & P & F & C)|(P & C & L)].
  - pose proof (same_program text) as S. destruct (compile_at text) as [x|off|] eqn:Q; [|congruence|congruence].
    destruct S as (y & Cy & S). rewrite C in Cy. injection Cy as <-. exists (call_at x text path pc). split; [econstructor; eassumption|].
    unfold frame_of. rewrite P, F, Q. constructor.
    + left. reflexivity.
    + split; [lia|]. cbn [s_body file_source]. rewrite firstn_app, map_length, Nat.sub_diag. cbn [firstn]. rewrite app_nil_r. rewrite <- (map_length Some text) at 1. apply firstn_all.
    + exact (Sm _ _ F).
    + eapply Forall_impl; [|exact (all_inside _ _ Q)]. intros i I. apply I.
  - pose proof (same_program (snd main)) as S. destruct (compile_at (snd main)) as [x|off|] eqn:Q; [|congruence|congruence].
    destruct S as (y & Cy & S). rewrite C in Cy. injection Cy as <-. exists (call_at x (snd main) (fst main) pc). split; [econstructor; eassumption|].
    unfold frame_of. rewrite P, Q. constructor.
    + left. reflexivity.
    + split; [lia|]. cbn [s_body string_source]. rewrite firstn_app, map_length, Nat.sub_diag. cbn [firstn]. rewrite app_nil_r. rewrite <- (map_length Some (snd main)) at 1. apply firstn_all.
    + lia.
    + eapply Forall_impl; [|exact (all_inside _ _ Q)]. intros i I. apply I.
Qed.
Lemma lower_stand l b : Forall (below_in fs main) b -> exists cs, Forall2 (call_in fs main) (combine l b) cs /\ Forall2 stands_for (map (lower_frame fs main) (combine l b)) cs.
Proof.
  intros H. revert l. induction H as [|x b Hx H IH]; intros l; [destruct l; exists []; split; constructor|]. destruct l as [|pc l]; [exists []; split; constructor|].
  destruct (IH l) as (cs & A & B). destruct x as [u w|].
  - destruct (frame_stands u w pc Hx) as (c & C1 & C2). exists (c :: cs). split; constructor; assumption.
  - exists ((bytes_of "(no source)", None) :: cs). split; constructor; try assumption; constructor.
Qed.
Lemma chain_length imp r b : ImportProofs.chain imp r b -> List.length r = List.length b.
Proof. induction 1; cbn [List.length]; congruence. Qed.

Lemma trail_stands i : all_in fs main i -> ichain i -> exists cs, trail_calls fs main i cs /\ Forall2 stands_for (trail fs main i) cs /\
  List.length cs = ((if calls_native (p_exe (i_prog i)) (i_vs i) then 1 else 0) + S (List.length (v_rest (i_vs i))))%nat.
Proof.
  intros (A & _ & B) C. destruct (frame_stands (i_prog i) (i_imp i) (f_pc (v_cur (i_vs i)) + 1) A) as (c & C1 & C2).
  destruct (lower_stand (map f_pc (v_rest (i_vs i))) (i_rest i) B) as (cs & D1 & D2). apply chain_length in C.
  assert (L : List.length cs = List.length (v_rest (i_vs i))) by (rewrite <- (ExeProofs.Forall2_len _ _ _ D1), combine_length, map_length; lia).
  exists ((if calls_native (p_exe (i_prog i)) (i_vs i) then [(bytes_of "(no source)", None)] else []) ++ c :: cs).
  pose proof (calls_native_iff (p_exe (i_prog i)) (i_vs i)) as N. split; [|split].
  - eexists _, (c :: cs). split; [reflexivity|]. split; [rewrite <- N; intros ->; reflexivity|]. split; [rewrite <- N; destruct (calls_native _ _); [congruence|reflexivity]|].
    split; [constructor; assumption|]. cbn [List.length]. now rewrite L.
  - unfold trail. apply Forall2_app; [destruct (calls_native _ _); repeat constructor|]. constructor; assumption.
  - destruct (calls_native _ _); cbn [app List.length]; lia.
Qed.

(** There was room for the frame of the native function that failed. *)
Lemma import_room i : calls_native (p_exe (i_prog i)) (i_vs i) = true -> istep E size cwd fs big i = IEnd SErr -> (List.length (v_rest (i_vs i)) + 2 <= 16)%nat.
Proof.
  intros N H. rewrite istep_eq in H. pose proof N as N'. apply calls_native_iff in N'. destruct N' as (ops & l & st & id & argc & Q1 & Q2 & Q3).
  destruct (sort_at i) eqn:K.
  - exfalso. unfold sort_at in K. rewrite Q1 in K. destruct ops as [|[] [|[] [|]]]; try discriminate. unfold called in K. rewrite Q2, Q3 in K. destruct (id =? N_import)%nat; discriminate.
  - cbv zeta in H. destruct (32 <? _); [discriminate|]. destruct (_ || _); [discriminate|]. unfold do_import in H. destruct (_ <=? Z.of_nat _) eqn:L; [discriminate|].
    apply Z.leb_gt in L. cbn [with_stack with_pc v_cur v_rest List.length] in L. unfold FrameModel.MAX_FRAMES in L. lia.
  - exfalso. unfold sort_at in K. rewrite Q1 in K. destruct ops as [|[] [|[] [|]]]; try discriminate. destruct (called _); discriminate.
  - exfalso. unfold sort_at in K. rewrite Q1 in K. destruct ops as [|[] [|[] [|]]]; try discriminate. destruct (called _); discriminate.
  - eapply native_room; [exact N|]. unfold vstep in H. destruct (step _ _ _ _) eqn:S in H; try discriminate. exact S.
Qed.

(** The imports that are refused. *)
Lemma parse_s objs args : parse_args objs (bytes_of "s") args = match args with VStr bs :: _ => OOk [PgStr bs] | _ => OErr end.
Proof. change (bytes_of "s") with [115]. destruct args as [|v r]; [reflexivity|]. destruct v; reflexivity. Qed.

Lemma handed_head argc expected st bs : (exists r, (let a := firstn (Z.to_nat (wrap32 argc)) st in if expected <? 0 then a else adjust expected a) = VStr bs :: r) <->
  (exists r, st = VStr bs :: r) /\ 1 <= wrap32 argc /\ expected <> 0.
Proof.
  cbv zeta. split.
  - intros (r & H). destruct (Z.ltb_spec expected 0) as [L|L].
    + destruct (Z.to_nat (wrap32 argc)) as [|n] eqn:N; [discriminate H|]. destruct st as [|v st]; [discriminate H|]. cbn in H. injection H as -> _. split; [eauto|lia].
    + unfold adjust in H. destruct (Z.to_nat expected) as [|e] eqn:X; [discriminate H|]. destruct (Z.to_nat (wrap32 argc)) as [|n] eqn:N; [discriminate H|].
      destruct st as [|v st]; [discriminate H|]. cbn in H. injection H as -> _. split; [eauto|lia].
  - intros ((r & ->) & A & B). destruct (Z.to_nat (wrap32 argc)) as [|n] eqn:N; [lia|]. destruct (Z.ltb_spec expected 0) as [L|L]; [cbn; eauto|].
    unfold adjust. destruct (Z.to_nat expected) as [|e] eqn:X; [lia|]. cbn. eauto.
Qed.

Lemma refused_next i lib off : refused_import cwd fs big i = Some (lib, off) -> exists path text, imports_next cwd fs big i path text /\ lib = file_source path text /\
  fs path = Some text /\ compile_at text = MErr (Some off).
Proof.
  unfold refused_import. intros H. destruct (exe_fetch _ _) as [[[op ops]|]| |] eqn:Q1; try discriminate H. destruct op; try discriminate H.
  destruct ops as [|[|argc| | |] [|[|want| | |] [|]]]; try discriminate H. destruct (f_stack _) as [|v st] eqn:Q2; [discriminate H|]. destruct v as [| | | | | | |l]; try discriminate H.
  destruct (nth_error _ l) as [o|] eqn:Q3; [|discriminate H]. destruct o as [| | | |id expected| | | |]; try discriminate H.
  destruct (Nat.eqb_spec id N_import) as [->|]; [|discriminate H]. cbn [negb] in H. rewrite parse_s in H.
  pose proof (handed_head argc expected st) as Hd. cbv zeta in Hd. cbv zeta in H.
  destruct (if expected <? 0 then _ else _) as [|v args]; [discriminate H|]. destruct v as [| | | |bs| | |]; try discriminate H.
  destruct (proj1 (Hd bs) (ex_intro _ args eq_refl)) as ((r & ->) & A & B).
  destruct (c_string _) as [file|] eqn:Q4; [|discriminate H]. destruct (script_path _ _ _ _) as [[b|]| |] eqn:Q5; try discriminate H.
  destruct (c_string b) as [full|] eqn:Q6; [|discriminate H]. destruct (from_file _ _ _ _) as [src| |] eqn:Q7; try discriminate H.
  destruct (from_file_is _ _ _ _ _ Sm Q7) as (path & text & P & -> & G). rewrite G in H. destruct (compile_at text) as [|[o|]|] eqn:Q8; try discriminate H. injection H as <- <-.
  exists path, text. split; [|auto]. exists argc, want, l, expected, bs, r, file, b, full, (file_source path text). repeat (split; [assumption|]). split; [reflexivity|exact P].
Qed.

Lemma next_refused i path text off : imports_next cwd fs big i path text -> compile_at text = MErr (Some off) -> refused_import cwd fs big i = Some (file_source path text, off).
Proof.
  intros (argc & want & l & expected & bs & st & file & b & full & src & Q1 & Q2 & Q3 & A & B & Q4 & Q5 & Q6 & Q7 & P1 & P2) C.
  unfold refused_import. rewrite Q1, Q2, Q3, Nat.eqb_refl. cbn [negb]. rewrite parse_s.
  destruct (proj2 (handed_head argc expected (VStr bs :: st) bs)) as (r & Hr); [split; [eauto|auto]|]. cbv zeta in Hr |- *. rewrite Hr.
  rewrite Q4, Q5, Q6, Q7.
  destruct (from_file_is _ _ _ _ _ Sm Q7) as (path' & text' & P & -> & G). cbn in P1. injection P1 as ->. rewrite P2 in P. injection P as <-. rewrite G, C. reflexivity.
Qed.

Lemma push_all_is r srcs frs : push_all (mkrt (r_cells r) (r_head r) (r_depth r) srcs) frs =
  mkrt (r_cells (push_all r frs)) (r_head (push_all r frs)) (r_depth (push_all r frs)) srcs.
Proof.
  induction frs as [|f frs IH]; [reflexivity|]. cbn [push_all]. rewrite IH. unfold push_cell. cbn [r_cells r_head r_depth r_srcs]. destruct (_ =? _); reflexivity.
Qed.

Lemma trail_inv u m src i : texts fs -> in_file fs main u -> reached E size cwd fs big u m i -> istep E size cwd fs big i = IEnd SErr ->
  exists r cs no l, run_failing cwd fs big main rt_new src i = ROk (false, r) /\ all_calls cwd fs big main i cs /\ inv no r l cs /\ (List.length cs <= 16)%nat /\ cs <> [].
Proof.
  intros Tx U R H. destruct (reached_kept E size cwd fs big Hsize u m i R) as (C & (W & _) & _). destruct (trail_stands i (reached_in _ _ _ U R) C) as (cs & A & B & L).
  unfold frames_of in W. cbn [List.length] in W. pose proof (import_room i) as Rm.
  assert (L16 : (List.length cs <= 16)%nat) by (destruct (calls_native _ _); [specialize (Rm eq_refl H)|]; lia).
  assert (N : cs <> []) by (intros ->; cbn in L; destruct (calls_native _ _) in L; discriminate L).
  unfold run_failing. destruct (refused_import cwd fs big i) as [[lib off]|] eqn:Q.
  - destruct (refused_next i lib off Q) as (path & text & I & -> & F & M). destruct (Tx _ _ F) as (T & Lt). destruct (error_inside _ _ T Lt M) as (o & Eo & Io & _). injection Eo as <-.
    rewrite push_all_is. destruct (inv_push_all true _ _ B rt_new [] [] inv_new) as (l & V); [cbn [List.length]; lia|]. rewrite app_nil_r in V.
    set (q := push_all rt_new (trail fs main i)) in *. assert (S0 : r_srcs q = []) by (unfold q; rewrite push_all_srcs; reflexivity).
    cbn [rt_new r_srcs List.length app]. set (ms := mksource (s_name src) (s_body src) (s_size src) 1 (s_file src)).
    pose proof (inv_srcs _ _ _ _ [None] V ltac:(rewrite S0; reflexivity)) as V1. pose proof (inv_len _ _ _ _ V) as Ll.
    assert (D : r_depth q = Z.of_nat (List.length cs)) by (destruct V; congruence).
    destruct (Nat.eq_dec (List.length cs) 16) as [X|X].
    + destruct (api_full (mkrt (r_cells q) (r_head q) (r_depth q) [Some ms]) (file_source path text) (NoExe off)) as (cells & Y & Yc); [cbn; lia|]. rewrite Y.
      cbn [r_srcs app r_cells r_head r_depth]. unfold src_step at 1. cbn. destruct V1 as [v_chain v_nodup v_depth v_shows v_zero v_failed v_no v_yes v_cells v_srcs]. cbn [r_cells r_head r_depth r_srcs] in *.
      assert (Vf : inv true (mkrt cells (r_head q) 16 [None; None]) l cs).
      { subst cells. constructor; cbn [r_cells r_head r_depth r_srcs]; auto; try lia.
        - apply chain_upd; auto.
        - eapply shows_all_grow; [|exact v_shows]. intros [|k] s0 Hs; cbn in *; try discriminate. destruct k; discriminate.
        - rewrite nth_error_upd_same; [discriminate|]. apply nth_error_Some. assumption.
        - intros k c0 Hk. apply v_cells with (c := c0). rewrite nth_error_upd_other in Hk; [exact Hk|discriminate].
        - intros [|[|k]] s0 Hs; try discriminate. destruct k; discriminate. }
      eexists _, cs, true, l. split; [reflexivity|]. split; [eapply ac_full; eassumption|]. split; [exact Vf|]. auto.
    + assert (Rf : refused_at (file_source path text) off (path, Some (line_at text off))).
      { apply ra_line; [left; reflexivity| |lia|lia]. split; [lia|]. cbn [s_body file_source]. rewrite firstn_app, map_length, Nat.sub_diag. cbn [firstn]. rewrite app_nil_r.
        rewrite <- (map_length Some text) at 1. apply firstn_all. }
      destruct (inv_refused _ _ _ _ off _ V1 Rf ltac:(lia)) as (r' & Y & Vf). rewrite api_refused in Y by (cbn; lia). rewrite api_refused by (cbn; lia).
      cbn [r_srcs app r_cells r_head r_depth List.length] in *. unfold src_step at 1. cbn [nth_error ms s_refs]. injection Y as <-.
      eexists _, _, _, _. split; [reflexivity|]. split; [eapply ac_refused; try eassumption; lia|]. split; [exact Vf|]. cbn [List.length]. split; [lia|discriminate].
  - assert (V : leaves [(src, RunErr (trail fs main i))] cs) by (apply lv_one; assumption).
    destruct (runtime_fails _ _ _ V N) as (r & t & X & _). destruct (leaves_inv _ _ V) as (r' & l & Y & I). cbn [api_runs] in Y. rewrite X in Y. injection Y as <-.
    eexists r, cs, _, l. split; [exact X|]. split; [|split; [exact I|auto]]. clear I. apply ac_run; [|exact A].
    intros path text off I M. pose proof I as (_ & _ & _ & _ & _ & _ & _ & _ & _ & _ & _ & _ & _ & _ & _ & _ & _ & _ & _ & _ & F). destruct (Tx _ _ F) as (T & Lt).
    destruct (error_inside _ _ T Lt M) as (o & -> & _). rewrite (next_refused _ _ _ _ I M) in Q. discriminate.
Qed.

Lemma trail_run u m src i : texts fs -> in_file fs main u -> reached E size cwd fs big u m i -> istep E size cwd fs big i = IEnd SErr ->
  exists r cs t, run_failing cwd fs big main rt_new src i = ROk (false, r) /\ all_calls cwd fs big main i cs /\ trace_says 0 cs t /\
    forall fuel, (16 <= fuel)%nat -> print_trace fuel r = OOk (bytes_of "Stack trace:" ++ [10] ++ t).
Proof.
  intros Tx U R H. destruct (trail_inv u m src i Tx U R H) as (r & cs & no & l & X & A & I & L & N).
  destruct (inv_trace _ _ _ _ 16%nat I L L) as (t & P1 & _ & P2). exists r, cs, t. split; [exact X|]. split; [exact A|]. split; [auto|]. eapply trace_more. exact P1.
Qed.

Lemma aborted_leaves u m src i : in_file fs main u -> reached E size cwd fs big u m i ->
  exists cs, active_calls fs main i cs /\ leaves [(src, RunErr (abort_trail fs main i))] cs /\ cs <> [].
Proof.
  intros U R. destruct (reached_kept E size cwd fs big Hsize u m i R) as (C & (W & _) & _). destruct (reached_in _ _ _ U R) as (A & _ & B).
  destruct (frame_stands (i_prog i) (i_imp i) (f_pc (v_cur (i_vs i))) A) as (c & C1 & C2).
  destruct (lower_stand (map f_pc (v_rest (i_vs i))) (i_rest i) B) as (cs & D1 & D2). apply chain_length in C.
  assert (L : List.length cs = List.length (v_rest (i_vs i))) by (rewrite <- (ExeProofs.Forall2_len _ _ _ D1), combine_length, map_length; lia).
  unfold frames_of in W. cbn [List.length] in W.
  assert (V : leaves [(src, RunErr (abort_trail fs main i))] (c :: cs)) by (apply lv_one; [constructor; assumption|cbn [List.length]; lia]).
  exists (c :: cs). split; [|split; [exact V|discriminate]]. split; [constructor; assumption|]. cbn [List.length]. now rewrite L.
Qed.
Lemma trail_aborted u m src i : in_file fs main u -> reached E size cwd fs big u m i ->
  exists r cs t, api_run rt_new src (RunErr (abort_trail fs main i)) = ROk (false, r) /\ active_calls fs main i cs /\ trace_says 0 cs t /\
    forall fuel, (16 <= fuel)%nat -> print_trace fuel r = OOk (bytes_of "Stack trace:" ++ [10] ++ t).
Proof.
  intros U R. destruct (aborted_leaves u m src i U R) as (cs & A & V & N). destruct (runtime_fails _ _ _ V N) as (r & t & X & Y & Z). exists r, cs, t. auto.
Qed.

(** * Limits *)
Lemma limit_kinds i :
  let below := map (lower_frame fs main) (combine (map f_pc (v_rest (i_vs i))) (i_rest i)) in
  let all := frame_of fs main (i_prog i) (f_pc (v_cur (i_vs i)) + 1) :: below in
  List.length (i_codes i) = List.length (v_codes (i_vs i)) ->
  (limit_trail size fs main i = (if i_imp i then List.tl below else below) /\ ends_call size (p_exe (i_prog i)) (i_vs i)) \/
  (exists u entry, limit_trail size fs main i = frame_of fs main u entry :: all /\ enters_in i u entry) \/
  (limit_trail size fs main i = RNative :: all /\ enters_import i) \/
  (limit_trail size fs main i = all /\ ~ ends_call size (p_exe (i_prog i)) (i_vs i) /\ (forall u entry, ~ enters_in i u entry) /\ ~ enters_import i).
Proof.
  cbv zeta. intros LC. unfold limit_trail, ends_call, enters_in, enters_import. destruct (exe_fetch _ _) as [[[op ops]|]| |] eqn:F.
  2-4: right; right; right; split; [reflexivity|]; split; [intros [(o & X)|(o & X & _)]; discriminate|]; split; [intros u e (? & ? & ? & ? & ? & ? & ? & X & _); discriminate|intros (? & ? & ? & ? & ? & X & _); discriminate].
  destruct op; try (right; right; right; split; [reflexivity|]; split; [intros [(o & X)|(o & X & _)]; discriminate|]; split; [intros u e (? & ? & ? & ? & ? & ? & ? & X & _); discriminate|intros (? & ? & ? & ? & ? & X & _); discriminate]).
  - (* CALL *)
    match goal with |- (_ /\ ?P) \/ _ => assert (Q : ~ P) by (intros [(o & X)|(o & X & _)]; discriminate) end.
    destruct ops as [|[ix|argc|b|t|p] ops];
      try (right; right; right; split; [reflexivity|]; split; [exact Q|]; split; [intros u e (? & ? & ? & ? & ? & ? & ? & X & _); discriminate|intros (? & ? & ? & ? & ? & X & _); discriminate]).
    destruct (f_stack (v_cur (i_vs i))) as [|[] st];
      try (right; right; right; split; [reflexivity|]; split; [exact Q|]; split; [intros u e (? & ? & ? & ? & ? & ? & ? & _ & X & _); discriminate|intros (? & ? & ? & ? & ? & _ & X & _); discriminate]).
    unfold FrameModel.MAX_FRAMES. cbn [List.length].
    destruct (Z.ltb_spec 32 (wrap32 argc)) as [A|A]; [|destruct (Z.leb_spec 16 (Z.of_nat (S (List.length (v_rest (i_vs i)))))) as [B|B]]; cbn [orb].
    1: right; right; right; split; [reflexivity|]; split; [exact Q|]; split;
         [intros u e (? & ? & ? & ? & ? & ? & ? & X & _ & _ & _ & _ & Y & _); injection X as <- <-; lia|intros (? & ? & ? & ? & ? & X & _ & _ & Y & _); injection X as <- <-; lia].
    1: right; right; right; split; [reflexivity|]; split; [exact Q|]; split;
         [intros u e (? & ? & ? & ? & ? & ? & ? & X & _ & _ & _ & _ & _ & Y); lia|intros (? & ? & ? & ? & ? & X & _ & _ & _ & Y); lia].
    destruct (nth_error (m_objs (v_mem (i_vs i))) l) as [[]|] eqn:N;
      try (right; right; right; split; [reflexivity|]; split; [exact Q|]; split;
        [intros u e (? & ? & ? & ? & ? & ? & ? & _ & X & Y & _); injection X as <- <-; rewrite N in Y; discriminate|intros (? & ? & ? & ? & ? & _ & X & Y & _); injection X as <- <-; rewrite N in Y; discriminate]).
    + destruct (nth_error (v_codes (i_vs i)) code) as [[entry n]|] eqn:K.
      2: { right; right; right; split; [reflexivity|]; split; [exact Q|]; split;
        [intros u e (? & ? & ? & ? & ? & ? & ? & _ & X & Y & W & _); injection X as <- <-; rewrite N in Y; injection Y as <- <-; rewrite K in W; discriminate
        |intros (? & ? & ? & ? & ? & _ & X & Y & _); injection X as <- <-; rewrite N in Y; discriminate]. }
      destruct (nth_error (i_codes i) code) as [u|] eqn:K2.
      2: { exfalso. apply nth_error_None in K2. assert (nth_error (v_codes (i_vs i)) code <> None) as K3 by congruence. apply nth_error_Some in K3. lia. }
      right; left. exists u, entry. split; [reflexivity|]. do 7 eexists. repeat split; eauto. lia.
    + destruct (Nat.eqb_spec id N_import) as [->|NI].
      * right; right; left. split; [reflexivity|]. do 5 eexists. repeat split; eauto. lia.
      * right; right; right; split; [reflexivity|]; split; [exact Q|]; split;
        [intros u e (? & ? & ? & ? & ? & ? & ? & _ & X & Y & _); injection X as <- <-; rewrite N in Y; discriminate|intros (? & ? & ? & ? & ? & _ & X & Y & _); injection X as <- <-; rewrite N in Y; congruence].
  - (* RETURN *) left. split; [reflexivity|]. left. eauto.
  - (* EXIT *)
    assert (P : (forall u entry, ~ (exists argc ops0 l st c clo n, ROk (Some (OP_EXIT, ops)) = ROk (Some (OP_CALL, PInt argc :: ops0)) /\
      f_stack (v_cur (i_vs i)) = VRef l :: st /\ nth_error (m_objs (v_mem (i_vs i))) l = Some (OFun c clo) /\ nth_error (v_codes (i_vs i)) c = Some (entry, n) /\
      nth_error (i_codes i) c = Some u /\ wrap32 argc <= 32 /\ (List.length (v_rest (i_vs i)) < 15)%nat)) /\
      ~ (exists argc ops0 l st expected, ROk (Some (OP_EXIT, ops)) = ROk (Some (OP_CALL, PInt argc :: ops0)) /\
      f_stack (v_cur (i_vs i)) = VRef l :: st /\ nth_error (m_objs (v_mem (i_vs i))) l = Some (ONative N_import expected) /\ wrap32 argc <= 32 /\
      (List.length (v_rest (i_vs i)) < 15)%nat)).
    { split; [intros u e (? & ? & ? & ? & ? & ? & ? & X & _); discriminate|intros (? & ? & ? & ? & ? & X & _); discriminate]. }
    unfold vpush, FrameModel.MAX_FRAME_STACK. destruct (Z.leb_spec 16 (Z.of_nat (List.length (f_stack (v_cur (i_vs i)))))) as [A|A]; [|destruct (Z.leb_spec size (used (i_vs i))) as [B|B]]; cbn [orb].
    + right; right; right. split; [reflexivity|]. split; [intros [(o & X)|(o & _ & Y & _)]; [discriminate|lia]|exact P].
    + right; right; right. split; [reflexivity|]. split; [intros [(o & X)|(o & _ & _ & Y)]; [discriminate|lia]|exact P].
    + left. split; [reflexivity|]. right. eauto.
Qed.

(** A program that ends with such a report was called or imported. *)
Lemma ends_inside i : ichain i -> ends_call size (p_exe (i_prog i)) (i_vs i) -> istep E size cwd fs big i = IEnd SLimit ->
  ((if i_imp i then 1 else 0) < List.length (v_rest (i_vs i)))%nat.
Proof.
  intros C X H. rewrite istep_eq in H. assert (K : sort_at i = KLast) by (unfold sort_at; destruct X as [(o & ->)|(o & -> & _)]; reflexivity). rewrite K in H.
  assert (G : vstep E size cwd i (if i_imp i then shorter (i_vs i) else i_vs i) = SLimit).
  { destruct (vstep _ _ _ _ _); cbn [go] in H; try congruence. destruct (if i_imp i then _ else _) as [|[]]; discriminate. }
  unfold vstep in G. unfold ichain in C. destruct (i_imp i).
  - destruct (v_rest (i_vs i)) as [|nf r] eqn:R.
    + exfalso. unfold shorter in G. rewrite R in G. exact (ends_deep _ _ _ _ X G R).
    + inversion C as [|u imp w f r' b C' E1 E2|]; subst. cbn [List.length]. lia.
  - pose proof (ends_deep _ _ _ _ X G). destruct (v_rest (i_vs i)); [congruence|]. cbn. lia.
Qed.

Lemma limit_leaves u m src i : in_file fs main u -> reached E size cwd fs big u m i -> istep E size cwd fs big i = IEnd SLimit ->
  exists cs, limit_calls_in size fs main i cs /\ leaves [(src, RunErr (limit_trail size fs main i))] cs /\ cs <> [].
Proof.
  intros U R H. destruct (reached_kept E size cwd fs big Hsize u m i R) as (C & (W & _) & LC). destruct (reached_in _ _ _ U R) as (A & A2 & B).
  destruct (frame_stands (i_prog i) (i_imp i) (f_pc (v_cur (i_vs i)) + 1) A) as (c & C1 & C2).
  destruct (lower_stand (map f_pc (v_rest (i_vs i))) (i_rest i) B) as (cs & D1 & D2). pose proof (chain_length _ _ _ C) as CL.
  assert (L : List.length cs = List.length (v_rest (i_vs i))) by (rewrite <- (ExeProofs.Forall2_len _ _ _ D1), combine_length, map_length; lia).
  unfold frames_of in W. cbn [List.length] in W. assert (BC : below_calls fs main i cs) by (split; assumption).
  assert (V : exists new, limit_calls_in size fs main i new /\ Forall2 stands_for (limit_trail size fs main i) new /\ (List.length new <= 16)%nat /\ new <> []).
  { destruct (limit_kinds i LC) as [[Q X]|[(u' & entry & Q & X)|[[Q X]|(Q & X1 & X2 & X3)]]]; rewrite Q.
    - eexists. split; [eapply li_ends; eassumption|]. pose proof (ends_inside i C X H) as Y. destruct (i_imp i).
      + destruct D2 as [|f0 c0 l0 cs0 D3 D4]; [cbn in L; lia|]. cbn [List.tl List.length] in *. split; [exact D4|]. split; [lia|]. intros ->. cbn in L. lia.
      + split; [exact D2|]. split; [lia|]. intros ->. cbn in L. lia.
    - pose proof X as (argc & ops & l & st & k & clo & n & _ & _ & _ & _ & K & _ & Y). assert (U' : in_file fs main u') by (eapply Forall_forall; [exact A2|eapply nth_error_In; exact K]).
      destruct (frame_stands u' false entry U') as (c' & C3 & C4). exists (c' :: c :: cs). split; [eapply li_enters; eassumption|].
      split; [repeat (constructor; [assumption|]); assumption|]. cbn [List.length]. split; [lia|discriminate].
    - exists ((bytes_of "(no source)", None) :: c :: cs). pose proof X as (argc & ops & l & st & k & _ & _ & _ & _ & Y). split; [apply li_import; assumption|].
      split; [constructor; [constructor|]; constructor; assumption|]. cbn [List.length]. split; [lia|discriminate].
    - exists (c :: cs). split; [apply li_plain; assumption|]. split; [constructor; assumption|]. cbn [List.length]. split; [lia|discriminate]. }
  destruct V as (new & V1 & V2 & V3 & V4). exists new. split; [exact V1|]. split; [exact (lv_one src _ _ V2 V3)|exact V4].
Qed.
Lemma trail_limit u m src i : in_file fs main u -> reached E size cwd fs big u m i -> istep E size cwd fs big i = IEnd SLimit ->
  exists r cs t, api_run rt_new src (RunErr (limit_trail size fs main i)) = ROk (false, r) /\ limit_calls_in size fs main i cs /\ trace_says 0 cs t /\
    forall fuel, (16 <= fuel)%nat -> print_trace fuel r = OOk (bytes_of "Stack trace:" ++ [10] ++ t).
Proof.
  intros U R H. destruct (limit_leaves u m src i U R H) as (cs & A & V & N). destruct (runtime_fails _ _ _ V N) as (r & t & X & Y & Z). exists r, cs, t. auto.
Qed.

(** * Behind the run *)
Lemma left_freed src o cs r ok : leaves [(src, o)] cs -> api_run rt_new src o = ROk (ok, r) -> forall fuel, (17 <= fuel)%nat -> exists r', rt_free fuel r = OOk r' /\ all_freed r'.
Proof. intros V X. destruct (runtime_survives _ _ V) as (r1 & A & _ & _ & F). cbn [api_runs] in A. rewrite X in A. injection A as <-. exact F. Qed.
Lemma trail_freed u m src i ok r : texts fs -> in_file fs main u -> reached E size cwd fs big u m i ->
  (istep E size cwd fs big i = IEnd SErr /\ run_failing cwd fs big main rt_new src i = ROk (ok, r)) \/
  (istep E size cwd fs big i = IEnd SLimit /\ api_run rt_new src (RunErr (limit_trail size fs main i)) = ROk (ok, r)) \/
  api_run rt_new src (RunErr (abort_trail fs main i)) = ROk (ok, r) ->
  forall fuel, (17 <= fuel)%nat -> exists r', rt_free fuel r = OOk r' /\ all_freed r'.
Proof.
  intros Tx U R [(H & X)|[(H & X)|X]] fuel F.
  - destruct (trail_inv u m src i Tx U R H) as (r1 & cs & no & l & Y & _ & I & L & _). rewrite X in Y. injection Y as -> <-. pose proof (inv_len _ _ _ _ I) as Q.
    eapply inv_free; [exact I|lia].
  - destruct (limit_leaves u m src i U R H) as (cs & _ & V & _). exact (left_freed _ _ _ _ _ V X fuel F).
  - destruct (aborted_leaves u m src i U R) as (cs & _ & V & _). exact (left_freed _ _ _ _ _ V X fuel F).
Qed.
End Trail.
