(** The way from a text to what it does. *)
From Coq Require Import ZArith List Lia Bool.
From Verif Require Import ValueModel ObjModel VmModel SrcModel Base StringModel ExeModel ExeSpec ExeProofs AstModel LexModel LexSpec LexProofs ParseModel ParseSpec ParseSafe GrammarProofs
  CodegenModel CompSpec CodegenProofs2 CodegenProofs3 ObjModel VmModel SrcModel RunProofs CompileModel.
Import ListNotations.
Open Scope Z_scope.

(** ** How long the code is *)

Definition cost (l : list instr) : Z := Z.of_nat (length l) + fold_right Z.add 0 (map (fun i => fold_right Z.add 0 (map string_bytes (snd i))) l).

Lemma cost_nil : cost [] = 0. Proof. reflexivity. Qed.
Lemma cost_nil' : cost (@nil (opcode * list operand)) = 0. Proof. reflexivity. Qed.
Lemma cost_cons i l : cost (i :: l) = 1 + fold_right Z.add 0 (map string_bytes (snd i)) + cost l.
Proof. unfold cost. cbn [length map fold_right]. lia. Qed.
Lemma cost_app a b : cost (a ++ b) = cost a + cost b.
Proof. induction a as [|i a IH]; [reflexivity|]. rewrite <- app_comm_cons, !cost_cons, IH. lia. Qed.

Definition slen (s : list Z) : Z := Z.of_nat (length s).

(** A bound on the code of a tree that does not depend on where and how it is used. *)
Fixpoint weight (e : expr) : Z :=
  match e with
  | EInt _ | EFlt _ | ENone | ETrue | EFalse => 1
  | EStr s | EIdent s => 2 + slen s
  | EUn _ a => weight a + 1
  | EBin _ a b | EPair a b | EArw a b | EAnd a b | EOr a b | EAss a b | ESel a b => weight a + weight b + 5
  | EList es => 1 + weights es
  | EMap ps => 1 + weight_pairs ps
  | ECall f args => weights args + weight f + 2
  | EFun ps body => 8 + weight_params ps + weight_stmt body
  end
with weights (es : exprs) : Z := match es with ENil => 0 | ECons e r => 2 + weight e + weights r end
with weight_pairs (ps : pairs) : Z := match ps with PNil => 0 | PCons k v r => 1 + weight k + weight v + weight_pairs r end
with weight_params (ps : params) : Z :=
  match ps with
  | ANil => 0
  | ACons s ty df r => 10 + 2 * slen s + (match ty with OYes t => weight t | ONo => 0 end) + (match df with OYes d => weight d | ONo => 0 end) + weight_params r
  end
with weight_stmt (s : stmt) : Z :=
  match s with
  | SExpr e => 1 + weight e
  | SBreak => 1
  | SIf c t => 1 + weight c + weight_stmt t
  | SIfElse c t f => 2 + weight c + weight_stmt t + weight_stmt f
  | SWhile c b => 2 + weight c + weight_stmt b
  | SDo b c => 1 + weight c + weight_stmt b
  | SComp ss => weight_stmts ss
  | SReturn e => 1 + weight e
  | SFunc s ps body => 8 + 2 * slen s + weight_params ps + weight_stmt body
  end
with weight_stmts (ss : stmts) : Z := match ss with SNil => 0 | SCons s r => weight_stmt s + weight_stmts r end.

Lemma weight_nonneg :
  (forall e, 1 <= weight e) /\ (forall es, 0 <= weights es) /\ (forall ps, 0 <= weight_pairs ps) /\ (forall ps, 0 <= weight_params ps) /\
  (forall o, match o with OYes e => 1 <= weight e | ONo => True end) /\
  (forall s, 0 <= weight_stmt s) /\ (forall ss, 0 <= weight_stmts ss).
Proof.
  apply ast_ind; intros; cbn [weight weights weight_pairs weight_params weight_stmt weight_stmts]; unfold slen; try lia; auto.
  repeat match goal with |- context [match ?x with ONo => _ | OYes _ => _ end] => destruct x end; lia.
Qed.

Ltac sizes :=
  repeat first [rewrite cost_app | rewrite cost_cons | rewrite cost_nil | rewrite cost_nil'];
  cbn [snd map fold_right string_bytes].

Lemma pop_cost s : cost (pop_code s) = if is_expr s then 1 else 0.
Proof. unfold pop_code. destruct (is_expr s); reflexivity. Qed.


Definition light (e : expr) : Prop := forall m pos, cost (comp_expr m e pos) <= weight e.

Lemma comp_cost :
  (forall e, light e /\ match e with EArw a b => light a /\ light b | _ => True end) /\
  (forall es, (forall pos, cost (comp_args es pos) <= weights es) /\ (forall i pos, cost (comp_items i es pos) <= weights es)) /\
  (forall ps pos, cost (comp_pairs ps pos) <= weight_pairs ps) /\
  (forall ps i pos, cost (comp_params i ps pos) <= weight_params ps) /\
  (forall o, match o with OYes e => light e | ONo => True end) /\
  (forall s brk pos, cost (comp_stmt brk s pos) + (if is_expr s then 1 else 0) <= weight_stmt s) /\
  (forall ss brk pos, cost (comp_stmts brk ss pos) <= weight_stmts ss).
Proof.
  pose proof weight_nonneg as (N1 & N2 & N3 & N4 & _ & N6 & N7).
  apply ast_ind; intros;
    repeat match goal with H : _ /\ _ |- _ => destruct H end;
    try (split; [intros md pos|first [exact I|split; assumption]]);
    try (split; [intros pos|intros ix pos]);
    cbn [comp_expr comp_args comp_items comp_pairs comp_params comp_stmt comp_stmts weight weights weight_pairs weight_params weight_stmt weight_stmts is_expr];
    try exact I; try assumption; unfold func_code, body_code; try destruct md.
  all: try match goal with |- context [match ?f with EArw _ _ => _ | _ => _ end] => is_var f; destruct f end.
  all: repeat match goal with H : _ /\ _ |- _ => destruct H end.
  all: repeat match goal with |- context [match ?x with ONo => _ | OYes _ => _ end] => destruct x end.
  all: sizes; rewrite ?pop_cost; unfold slen, light in *.
  all: repeat match goal with
    | H : forall m pos, cost (comp_expr m ?e pos) <= _ |- context [comp_expr ?m ?e ?p] => pose proof (H m p); generalize dependent (cost (comp_expr m e p)); intros
    | H : forall pos, cost (comp_args ?e pos) <= _ |- context [comp_args ?e ?p] => pose proof (H p); generalize dependent (cost (comp_args e p)); intros
    | H : forall i pos, cost (comp_items i ?e pos) <= _ |- context [comp_items ?i ?e ?p] => pose proof (H i p); generalize dependent (cost (comp_items i e p)); intros
    | H : forall pos, cost (comp_pairs ?e pos) <= _ |- context [comp_pairs ?e ?p] => pose proof (H p); generalize dependent (cost (comp_pairs e p)); intros
    | H : forall i pos, cost (comp_params i ?e pos) <= _ |- context [comp_params ?i ?e ?p] => pose proof (H i p); generalize dependent (cost (comp_params i e p)); intros
    | H : forall i pos, cost (comp_stmt i ?e pos) + _ <= _ |- context [comp_stmt ?i ?e ?p] => pose proof (H i p); generalize dependent (cost (comp_stmt i e p)); intros
    | H : forall i pos, cost (comp_stmts i ?e pos) <= _ |- context [comp_stmts ?i ?e ?p] => pose proof (H i p); generalize dependent (cost (comp_stmts i e p)); intros
    end.
  all: cbn [length anon_name weight i_pop1 snd map fold_right string_bytes] in *.
  all: repeat match goal with |- context [weight ?e] => lazymatch goal with H : 1 <= weight e |- _ => fail | _ => pose proof (N1 e) end end; lia.
Qed.

(** ** The code is not much longer than the text *)

Definition wl (ws : list word) : Z := fold_right (fun w a => slen (snd w) + a) 0 ws.

Lemma wl_app a b : wl (a ++ b) = wl a + wl b.
Proof. induction a as [|w a IH]; cbn [app wl fold_right]; [reflexivity|]. fold (wl (a ++ b)) (wl a). rewrite IH. lia. Qed.
Lemma wl_cons w a : wl (w :: a) = slen (snd w) + wl a.
Proof. reflexivity. Qed.
Lemma wl_nonneg a : 0 <= wl a.
Proof. induction a as [|w a IH]; [cbn; lia|]. rewrite wl_cons. unfold slen. lia. Qed.

Lemma name_length s : name s -> 1 <= slen s.
Proof. destruct s; [intros [[] _]|]. unfold slen. cbn [length]. lia. Qed.

Lemma spells_length q b t : spells q b t -> slen t <= slen b.
Proof. unfold slen. induction 1; cbn [length]; lia. Qed.

Lemma infix_length o : 1 <= slen (snd (infix_word o)).
Proof. destruct o; cbn; lia. Qed.
Lemma prefix_length o : 1 <= slen (snd (prefix_word o)).
Proof. destruct o; cbn; lia. Qed.

Lemma group_weight g : weight (group_expr g) <= weight (first_operand g) + fold_right (fun x a => 5 + weight (snd x) + a) 0 (others g).
Proof.
  induction g as [e|o l IHl r IHr]; cbn [group_expr first_operand others fold_right]; [lia|].
  assert (A : forall (a b : list (infix * expr)), fold_right (fun x a => 5 + weight (snd x) + a) 0 (a ++ b) =
    fold_right (fun x a => 5 + weight (snd x) + a) 0 a + fold_right (fun x a => 5 + weight (snd x) + a) 0 b).
  { intros a b. induction a as [|x a IH]; cbn [app fold_right]; lia. }
  rewrite A. cbn [fold_right snd]. destruct o; cbn [infix_node weight]; lia.
Qed.

Lemma written_weight :
  (forall e ws, wr_expr e ws -> weight e + 4 <= 16 * wl ws) /\
  (forall e ws, wr_post e ws -> weight e + 4 <= 16 * wl ws) /\
  (forall e ws, wr_pre e ws -> weight e + 4 <= 16 * wl ws) /\
  (forall t a e ws, wr_top t a e ws -> weight e + 4 <= 16 * wl ws) /\
  (forall (t a : bool) l ws, wr_chain t a l ws -> fold_right (fun x a => 5 + weight (snd x) + a) 0 l <= 16 * wl ws) /\
  (forall es ws, wr_items es ws -> weights es + 2 <= 16 * wl ws) /\
  (forall ps ws, wr_pairs ps ws -> weight_pairs ps <= 16 * wl ws) /\
  (forall k v (b : bool) ws, wr_entry k v b ws -> weight k + weight v + 1 <= 16 * wl ws) /\
  (forall s ps body ws, wr_fun s ps body ws -> 12 + 2 * slen s + weight_params ps + weight_stmt body <= 16 * wl ws) /\
  (forall ps ws, wr_params ps ws -> weight_params ps <= 16 * wl ws) /\
  (forall (c : Z) (a : bool) o ws, wr_opt c a o ws -> match o with OYes e => weight e | ONo => 0 end <= 16 * wl ws) /\
  (forall s ws, wr_stmt s ws -> weight_stmt s <= 16 * wl ws) /\
  (forall ss ws, wr_stmts ss ws -> weight_stmts ss <= 16 * wl ws).
Proof.
  pose proof weight_nonneg as (N1 & N2 & N3 & N4 & _ & N6 & N7).
  apply wr_ind; intros; try (match goal with |- context [if ?b then _ else _] => destruct b end);
    repeat match goal with H : name ?s |- _ => apply name_length in H end;
    repeat match goal with H : spells _ _ _ |- _ => apply spells_length in H end;
    repeat first [rewrite wl_app | rewrite wl_cons]; cbn [weight weights weight_pairs weight_params weight_stmt weight_stmts fold_right snd wl p
      w_arrow w_if w_else w_fun w_while w_do w_break w_return];
    try (pose proof (group_weight g)); try (pose proof (infix_length o)); try (pose proof (prefix_length u));
    unfold slen in *; cbn [length] in *; rewrite ?app_length; cbn [length]; try lia.
  - destruct s; [congruence|]. cbn [length]. lia.
  - cbn [weights] in *. lia.
Qed.

(** ** The data of a program *)

Definition obytes (o : option operand) : Z := match o with Some x => string_bytes x | None => 0 end.
Definition all_bytes (l : list (opcode * list (option operand))) : Z :=
  fold_right Z.add 0 (map (fun i => fold_right Z.add 0 (map obytes (snd i))) l).

Lemma delivered_bytes n ls fut tys os : Forall2 (operand_typed n) tys os ->
  fold_right Z.add 0 (map obytes (delivers ls fut tys os)) = fold_right Z.add 0 (map string_bytes os).
Proof.
  induction 1 as [|ty o tys os H _ IH]; [reflexivity|]. cbn [delivers map fold_right]. rewrite IH. f_equal.
  destruct o as [z|z|z|z|z]; try reflexivity. cbn [deliver]. destruct (match nth_error ls z with Some (Some v) => Some v | _ => _ end); [|reflexivity].
  destruct ty; cbn in *; try reflexivity; contradiction.
Qed.

Lemma emitted_bytes evs : forall n ls, history_typed n evs -> all_bytes (emitted ls evs) = data_bytes evs.
Proof.
  unfold all_bytes. induction evs as [|e evs IH]; intros n ls H; [reflexivity|]. destruct e as [|q v|op os off len]; cbn [history_typed emitted data_bytes] in *.
  - eapply IH; eauto.
  - destruct H. eapply IH; eauto.
  - destruct H as [H1 H2]. cbn [map fold_right snd]. rewrite (delivered_bytes n) by auto. rewrite (IH n) by auto. reflexivity.
Qed.

Lemma inj_bytes l : Z.of_nat (length (map inj l)) + all_bytes (map inj l) = cost l.
Proof.
  unfold cost, all_bytes. rewrite map_length. f_equal. induction l as [|i l IH]; [reflexivity|]. cbn [map fold_right]. rewrite IH. f_equal.
  unfold inj. cbn [snd]. rewrite map_map. reflexivity.
Qed.

Lemma program_cost root evs : cg_program root = Some evs ->
  Z.of_nat (length (emitted [] evs)) + data_bytes evs <= weight_stmt root + 1.
Proof.
  intros H. destruct (program_compiles root evs H) as (_ & Ht & He & _).
  rewrite <- (emitted_bytes evs O [] Ht), He, inj_bytes. unfold comp_program. rewrite cost_app.
  pose proof (proj1 (proj2 (proj2 (proj2 (proj2 (proj2 comp_cost))))) root 0 0).
  assert (cost [(OP_EXIT, [])] = 1) by reflexivity. destruct (is_expr root); lia.
Qed.

(** ** The words of a text *)

Definition reads (src : list Z) (ss : stmts) : Prop :=
  exists l ws, tokenize true src = LOk l /\ with_text src l = ws ++ [(KDone, [])] /\ wr_stmts ss ws.

Lemma text_length src t : 0 <= t_len t -> slen (text_of src t) <= t_len t.
Proof. intros H. unfold slen, text_of. rewrite firstn_length. lia. Qed.

Lemma tiles_length src l : forall from, tiles src from l -> 0 <= from <= slen src -> wl (with_text src l) <= slen src - from.
Proof.
  induction l as [|t l IH]; intros from H Hf; [destruct H|]. cbn [tiles] in H. destruct H as [H1 H].
  cbn [with_text map]. rewrite wl_cons. cbn [snd]. pose proof (text_length src t) as T. destruct l as [|t' l].
  - destruct H as (_ & H2 & H3 & _). cbn [map wl fold_right]. unfold slen in *. lia.
  - destruct H as (_ & H2 & H3 & _ & H4). specialize (IH _ H4). unfold with_text in IH. unfold slen in *. lia.
Qed.

Lemma reads_weight src ss : reads src ss -> weight_stmt (SComp ss) <= 16 * slen src.
Proof.
  intros (l & ws & A & B & C). pose proof (tiles_length src l 0 (tokens_tile _ _ _ A)) as T. rewrite B, wl_app in T.
  cbn [weight_stmt]. pose proof (proj2 (proj2 (proj2 (proj2 (proj2 (proj2 (proj2 (proj2 (proj2 (proj2 (proj2 (proj2 written_weight))))))))))) ss ws C).
  unfold wl at 2 in T. cbn [fold_right snd] in T. unfold slen in *. cbn [length] in T. lia.
Qed.

Lemma reads_parse src ss : reads src ss <-> parse true src = POk (SComp ss) [(KDone, [])].
Proof.
  split.
  - intros (l & ws & A & B & C). apply grammar. exists l, ws, ss. auto.
  - intros H. apply grammar in H. destruct H as (l & ws & ss' & A & B & C & D & _). injection D as <-. exists l, ws. auto.
Qed.

Lemma reads_one src ss ss' : reads src ss -> reads src ss' -> ss = ss'.
Proof. rewrite !reads_parse. congruence. Qed.

(** Texts of less than 64 MB. *)
Lemma compile_good src ss : text_ok src -> slen src < 2 ^ 26 -> reads src ss -> ok_stmts false ss = true ->
  exists x, compile src = ROk x /\ compiled (SComp ss) x.
Proof.
  intros T L R OK. pose proof (reads_weight src ss R) as W. apply reads_parse in R. destruct (parse_tree _ _ _ _ R T) as [Wf Ie].
  unfold compile. rewrite R.
  destruct (proj1 (proj2 (proj2 (proj2 (proj2 cg_good)))) (SComp ss) None O 0) as [_ Hs]. cbn [some ok_stmt] in Hs.
  destruct (Hs OK) as (evs & n' & E & _).
  assert (C : cg_program (SComp ss) = Some (evs ++ [EvEmit OP_EXIT [] 0 0])).
  { unfold cg_program, g_seq, g_emit. rewrite E. reflexivity. }
  pose proof (program_cost _ _ C) as B. pose proof (data_bytes_nonneg (evs ++ [EvEmit OP_EXIT [] 0 0])) as D.
  destruct (program_fetch _ _ Wf C ltac:(lia) ltac:(lia)) as (x & X & _). exists x. rewrite X. split; [reflexivity|].
  split; [exact X|]. split; [exact Wf|]. split; [exact Ie|]. eexists. split; [exact C|]. lia.
Qed.

(** A semantic error is not reported. *)
Lemma compile_semantic src ss : reads src ss -> ok_stmts false ss = false -> compile src = RUB.
Proof.
  intros R OK. apply reads_parse in R. unfold compile. rewrite R. unfold codegen, cg_program, g_seq.
  destruct (proj1 (proj2 (proj2 (proj2 (proj2 cg_good)))) (SComp ss) None O 0) as [Hf _]. rewrite (Hf OK). reflexivity.
Qed.

Lemma compile_iff src x : text_ok src -> slen src < 2 ^ 26 ->
  compile src = ROk x <-> exists ss, reads src ss /\ ok_stmts false ss = true /\ codegen (SComp ss) = Some (ROk x).
Proof.
  intros T L. split.
  - intros H. unfold compile in H. destruct (parse true src) as [root ts| | |] eqn:P; try discriminate.
    pose proof P as P'. apply grammar in P'. destruct P' as (l & ws & ss & A & B & C & -> & ->).
    exists ss. assert (R : reads src ss) by (exists l, ws; auto). split; [exact R|].
    destruct (ok_stmts false ss) eqn:OK; [|apply compile_semantic in R; [|exact OK]; unfold compile in R; rewrite P in R; rewrite R in H; discriminate].
    split; [reflexivity|]. destruct (codegen (SComp ss)); [congruence|discriminate].
  - intros (ss & R & OK & C). apply reads_parse in R. unfold compile. rewrite R, C. reflexivity.
Qed.

(** A text no program is written in. *)
Lemma compile_unreadable src : (forall ss, ~ reads src ss) -> compile src = RErr \/ (compile src = RUB /\ parse true src = PUB).
Proof.
  intros H. unfold compile. destruct (parse true src) as [root ts| | |] eqn:P; auto.
  - exfalso. pose proof P as P'. apply grammar in P'. destruct P' as (l & ws & ss & A & B & C & -> & ->). apply (H ss). exists l, ws. auto.
  - exfalso. exact (parse_total _ _ P).
Qed.

(** Running what was compiled. *)
Lemma compile_compiled src x : text_ok src -> slen src < 2 ^ 26 -> compile src = ROk x ->
  exists ss, reads src ss /\ compiled (SComp ss) x.
Proof.
  intros T L H. pose proof H as H'. apply compile_iff in H'; [|assumption..]. destruct H' as (ss & R & OK & _).
  destruct (compile_good src ss T L R OK) as (x' & H' & C). assert (x' = x) by congruence. subst x'. exists ss. auto.
Qed.

Lemma compile_runs src x : text_ok src -> slen src < 2 ^ 26 -> compile src = ROk x ->
  exists ss, reads src ss /\ (forall ss', reads src ss' -> ss' = ss) /\ forall E cap m n,
  (exists j, steps E cap x j (vm_start m) = SLimit) \/
  match run_program E n (SComp ss) m with
  | OOk (rets, st) => exists j, steps E cap x j (vm_start m) = SDone rets (t_mem st)
  | OErr => exists j, steps E cap x j (vm_start m) = SErr
  | OUB => exists j, steps E cap x j (vm_start m) = SUB
  | OLoop => exists j, steps E cap x j (vm_start m) = SLoop
  | OFuel => (exists j, steps E cap x j (vm_start m) = SLoop) \/ exists s, steps E cap x n (vm_start m) = SNext s
  end.
Proof.
  intros T L H. destruct (compile_compiled src x T L H) as (ss & R & C). exists ss. split; [exact R|].
  split; [intros ss' R'; exact (reads_one _ _ _ R' R)|]. intros E cap m n. exact (runs E cap (SComp ss) x C m n).
Qed.

Lemma compile_evaluates src ss x : text_ok src -> slen src < 2 ^ 26 -> reads src ss -> compile src = ROk x ->
  forall E cap m j r, steps E cap x j (vm_start m) = r -> (forall t, r <> SNext t) -> r <> SLimit -> r <> SLoop ->
  forall n, (j <= n)%nat ->
  match run_program E n (SComp ss) m with
  | OOk (rets, st) => r = SDone rets (t_mem st)
  | OErr => r = SErr
  | OUB => r = SUB
  | _ => False
  end.
Proof.
  intros T L R H E cap m j r H1 H2 H3 H4 n Hn. destruct (compile_compiled src x T L H) as (ss' & R' & C).
  rewrite (reads_one _ _ _ R R'). exact (run_evaluates E cap (SComp ss') x C m j r H1 H2 H3 H4 n Hn).
Qed.
