(** Properties of the tokenizer and the parser: C40-C45. *)
From Coq Require Import ZArith List Bool Lia.
From Verif Require Import Base AstModel CodegenModel LexModel LexSpec LexProofs ParseModel ParseSpec LayoutProofs CompSpec ParseSafe PrintProofs WriteProofs GrammarProofs ParseExamples.
Import ListNotations.
Open Scope Z_scope.

(** * C40 *)
Theorem C40_tokens_tile : forall nul src l, tokenize nul src = LOk l -> tiles src 0 l.
Proof. exact tokens_tile. Qed.
(** Tokenizing always answers; with a terminating NUL it never reads outside the text. *)
Theorem C40_tokenizing_ends : forall src, (forall nul, tokenize nul src <> LFuel) /\ tokenize true src <> LUB.
Proof. intros src. split; [intros nul; apply tokenize_total|apply lex_ub]. Qed.
Example C40_example : tokenize true src_tokens = LOk
  [mktok KIdent 0 1; mktok KLeq 2 2; mktok KInt 5 2; mktok (KC 61) 18 1; mktok KString 20 6; mktok (KC 59) 26 1; mktok KDone 27 0].
Proof. vm_compute. reflexivity. Qed.

(** * C41 *)
(** Of two operators side by side the first, if it has two characters, is never recognized. *)
Theorem C41_adjacent_refuted : forall nul a k b k', op_kind a k -> length a = 2%nat -> op_kind b k' ->
  exists l, tokenize nul (a ++ b) = LOk l /\ ~ In k (map t_kind (firstn 1 l)).
Proof. exact adjacent_operators. Qed.
(** What a run of operator characters gives: one operator if it is exactly one, else single characters until the rest is one. *)
Theorem C41_runs_partial : forall nul run rest l, Forall op_char run -> (forall c r, rest = c :: r -> ~ op_char c) ->
  tokenize nul (run ++ rest) = LOk l ->
  exists ks tail, run_tokens run ks /\ map (fun t => (t_kind t, t_len t)) l = ks ++ tail.
Proof. exact run_first. Qed.
(** Where words that would run together are kept apart, every word is one token. *)
Theorem C41_separated_partial : forall nul ws text, layout ws text ->
  exists l, tokenize nul text = LOk l /\ with_text text l = ws ++ [(KDone, [])].
Proof. exact layout_tokens. Qed.
Example C41_example : parse true src_adjacent = PErr /\
  tokenize true src_adjacent = LOk [mktok KIdent 0 1; mktok (KC 61) 1 1; mktok (KC 61) 2 1; mktok (KC 45) 3 1; mktok KInt 4 1;
    mktok (KC 59) 5 1; mktok KDone 6 0].
Proof. split; vm_compute; reflexivity. Qed.

(** * C42 *)
(** Every tree that can be written has a writing, and every text made of the words of a writing is parsed back to the tree. *)
Theorem C42_printing : forall ss, writable_stmts ss -> exists ws, wr_stmts ss ws /\ layout ws (spaced ws).
Proof. exact has_writing. Qed.
Theorem C42_parsing_inverts : forall nul ss ws text, wr_stmts ss ws -> layout ws text ->
  parse nul text = POk (SComp ss) [(KDone, [])].
Proof. exact read_back. Qed.
(** Whatever the parser gives can be written, and is read back from the writing. *)
Theorem C42_reparsing : forall nul nul' src root ts, parse nul src = POk root ts ->
  exists ss ws, root = SComp ss /\ wr_stmts ss ws /\ parse nul' (spaced ws) = POk root [(KDone, [])].
Proof. exact parse_print_parse. Qed.
(** The parser accepts exactly the token sequences of the grammar, with the tree the grammar gives them. *)
Theorem C42_grammar : forall nul src root ts, parse nul src = POk root ts <->
  exists l ws ss, tokenize nul src = LOk l /\ with_text src l = ws ++ [(KDone, [])] /\ wr_stmts ss ws /\ root = SComp ss /\ ts = [(KDone, [])].
Proof. exact grammar. Qed.
(** The grammar gives a text one tree at most. *)
Theorem C42_one_reading : forall ss ss' ws, wr_stmts ss ws -> wr_stmts ss' ws -> ss = ss'.
Proof. exact one_reading. Qed.
Example C42_example : writable_stmts src_tree /\ exists ss, parse true src_program = POk (SComp ss) [(KDone, [])].
Proof.
  split; [|eexists; vm_compute; reflexivity].
  assert (N : forall c, 97 <= c <= 122 -> name [c]).
  { intros c Hc. split; [split; [right; left; lia|constructor]|]. cbn. intuition discriminate. }
  cbn -[Z.pow rounded]. repeat split; try (apply N; lia); try lia; try reflexivity; auto.
  - exists [49], [53]. split; [discriminate|]. split; [discriminate|]. split; [repeat constructor; unfold digit; lia|].
    split; [repeat constructor; unfold digit; lia|]. split; [reflexivity|vm_compute; reflexivity].
Qed.

(** * C43 *)
(** A chain of operands has exactly one grouping in which stronger operators group first, of equal ones the left, assignments the
    right; that is the tree it is parsed to. *)
Theorem C43_chains : forall nul e l w0 w text, wr_pre e w0 -> wr_chain true true l w -> layout (w_return :: (w0 ++ w) ++ [p 59]) text ->
  exists g, well_grouped g /\ first_operand g = e /\ others g = l /\
    (forall g', well_grouped g' -> first_operand g' = e -> others g' = l -> g' = g) /\
    parse nul text = POk (SComp (SCons (SReturn (group_expr g)) SNil)) [(KDone, [])].
Proof. exact chains. Qed.
(** Conversely every chain in an accepted text is grouped so. *)
Theorem C43_only : forall nul src e ts, parse nul src = POk (SComp (SCons (SReturn e) SNil)) ts ->
  exists l g w0 w, tokenize nul src = LOk l /\ with_text src l = (w_return :: (w0 ++ w) ++ [p 59]) ++ [(KDone, [])] /\
    well_grouped g /\ group_expr g = e /\ wr_pre (first_operand g) w0 /\ wr_chain true true (others g) w.
Proof. exact chain_only. Qed.
Example C43_example : wr_pre chain_first [w_id 97] /\ wr_chain true true chain_others chain_words /\
  parse true src_chain = POk (SComp (SCons (SReturn chain_tree) SNil)) [(KDone, [])].
Proof.
  assert (N : forall c, 97 <= c <= 122 -> wr_pre (EIdent [c]) [w_id c]).
  { intros c Hc. apply pr_post, po_primary, wr_ident. split; [split; [right; left; lia|constructor]|]. cbn. intuition discriminate. }
  split; [apply N; lia|]. split; [|vm_compute; reflexivity].
  unfold chain_words, chain_others.
  apply (wc_cons true true IAss _ _ [w_id 98]); [auto|auto|apply N; lia|]. apply (wc_cons true true IAss _ _ [w_id 99]); [auto|auto|apply N; lia|].
  apply (wc_cons true true ISub _ _ [w_id 100]); [auto|auto|apply N; lia|]. apply (wc_cons true true ISub _ _ [w_id 101]); [auto|auto|apply N; lia|].
  apply (wc_cons true true IMul _ _ [p 45; w_id 102]); [auto|auto|apply (pr_un UNeg), N; lia|].
  apply (wc_cons true true IEql _ _ [w_id 103]); [auto|auto|apply N; lia|].
  apply (wc_cons true true IOr _ _ [(KNot, [110;111;116]); w_id 104]); [auto|auto|apply (pr_un UNot), N; lia|constructor].
Qed.

(** * C45 *)
(** Every text below the limit can be written between either quotes and the literal denotes it. *)
Theorem C45_literals : forall nul q t, quote_char q -> Z.of_nat (length t) < 4096 ->
  parse nul (q :: quoted q t ++ [q; 59]) = POk (SComp (SCons (SExpr (EStr t)) SNil)) [(KDone, [])].
Proof. exact quoted_literal. Qed.
(** The same for every other way to spell it, whatever surrounds it. *)
Theorem C45_spellings : forall nul q b t text, quote_char q -> spells q b t -> Z.of_nat (length t) < 4096 ->
  layout [(KString, q :: b ++ [q]); p 59] text -> parse nul text = POk (SComp (SCons (SExpr (EStr t)) SNil)) [(KDone, [])].
Proof. exact literal. Qed.
Example C45_example : Z.of_nat (length src_text) < 4096 /\ quoted 39 src_text <> src_text /\ quoted 34 src_text <> quoted 39 src_text.
Proof. split; [vm_compute; reflexivity|]. split; vm_compute; discriminate. Qed.

(** * C44 *)
(** Parsing a text always ends. *)
Theorem C44_parsing_ends : forall nul src, parse nul src <> PFuel.
Proof. exact parse_total. Qed.
(** It goes wrong at most when more braces are opened than closed. *)
Theorem C44_crash_needs_open_brace_partial : forall src l, tokenize true src = LOk l -> parse true src = PUB ->
  (count_kind (KC 125) l < count_kind (KC 123) l)%nat.
Proof. exact parse_crash. Qed.
(** An unfinished map literal at the end of the text makes the parser use a NULL token. *)
Theorem C44_open_map_refuted : exists src, parse true src = PUB.
Proof. exists src_open_map. vm_compute. reflexivity. Qed.
(** The trees have literals that fit their types, so the results about compiled programs (C27-C29) apply to them. *)
Theorem C44_trees : forall nul src root ts, parse nul src = POk root ts -> text_ok src -> wf_stmt root /\ is_expr root = false.
Proof. exact parse_tree. Qed.
Example C44_example : parse true src_open_fun = PUB /\ (exists ss, parse true src_program = POk (SComp ss) [(KDone, [])]) /\
  parse true src_wrong = PErr.
Proof. split; [vm_compute; reflexivity|]. split; [eexists; vm_compute; reflexivity|vm_compute; reflexivity]. Qed.

Print Assumptions C40_tokens_tile.
Print Assumptions C40_tokenizing_ends.
Print Assumptions C41_adjacent_refuted.
Print Assumptions C41_runs_partial.
Print Assumptions C41_separated_partial.
Print Assumptions C44_parsing_ends.
Print Assumptions C44_crash_needs_open_brace_partial.
Print Assumptions C44_open_map_refuted.
Print Assumptions C44_trees.
Print Assumptions C42_printing.
Print Assumptions C42_parsing_inverts.
Print Assumptions C42_reparsing.
Print Assumptions C42_grammar.
Print Assumptions C42_one_reading.
Print Assumptions C43_chains.
Print Assumptions C43_only.
Print Assumptions C45_literals.
Print Assumptions C45_spellings.
