(** C81: the picture of a program that the option --diagram-ast writes. *)
From Coq Require Import ZArith String List Bool Permutation.
From Verif Require Import Base StringModel AstModel ParseModel BuiltinModel ShowModel ShowSpec GraphModel GraphSpec GraphProofs GraphRead GraphNames GraphFinal.
Import ListNotations.
Open Scope string_scope.
Open Scope list_scope.
Open Scope Z_scope.

(** The text describes the drawing of the program: its labelled points in order, and its edges. *)
Theorem C81_text_is_the_drawing : forall fg root, fits root -> exists es,
  graphviz fg root = ROk (dot_text (dnodes 1 2 (spic fg root)) es) /\ Permutation es (dedges 1 2 (spic fg root)).
Proof. exact graphviz_text. Qed.
(** The same down to the characters of the text. *)
Theorem C81_lines : forall fg root, fits root -> dsize (spic fg root) < 2 ^ 31 -> exists es ls ms,
  graphviz fg root = ROk (bytes_of "digraph G {" ++ [10] ++ concat ls ++ [10] ++ concat ms ++ bytes_of "}" ++ [10]) /\
  Forall2 point_says (dnodes 1 2 (spic fg root)) ls /\ Forall2 edge_says es ms /\ Permutation es (dedges 1 2 (spic fg root)).
Proof. exact graphviz_lines. Qed.
(** What is drawn is the tree the parser finds; a text it refuses is refused. *)
Theorem C81_parsed : forall fg src root ts, parse true src = POk root ts -> diagram fg src = graphviz fg root.
Proof. intros fg src root ts H. pose proof (diagram_cases fg src) as D. now rewrite H in D. Qed.
Theorem C81_not_parsed : forall fg src, parse true src = PErr -> diagram fg src = RErr.
Proof. intros fg src H. pose proof (diagram_cases fg src) as D. now rewrite H in D. Qed.
Example C81_not_parsed_ex : parse true (bytes_of "x = ;") = PErr.
Proof. vm_compute. reflexivity. Qed.
(** It is a tree: every point but the first has exactly one edge to it, from a point with a smaller number, and only points of
    the tree have labels. *)
Theorem C81_drawn_as_tree : forall fg root, fits root -> exists n ns es,
  graphviz fg root = ROk (dot_text ns es) /\
  NoDup (map snd es) /\ (forall t, In t (map snd es) <-> 2 <= t <= n) /\ (forall a b, In (a, b) es -> 1 <= a < b) /\
  (forall a l, In (a, l) ns -> 1 <= a <= n).
Proof. exact drawn_as_tree. Qed.
(** Whatever characters the strings of the program contain, the text can be read in one way only. *)
Theorem C81_one_reading : forall fg r r' text, (forall b, plain (fg b)) -> fits r -> fits r' ->
  Forall plain (names r) -> Forall plain (names r') -> dsize (spic fg r) < 2 ^ 31 -> dsize (spic fg r') < 2 ^ 31 ->
  graphviz fg r = ROk text -> graphviz fg r' = ROk text ->
  dnodes 1 2 (spic fg r) = dnodes 1 2 (spic fg r') /\ Permutation (dedges 1 2 (spic fg r)) (dedges 1 2 (spic fg r')).
Proof. exact one_reading. Qed.
(** Every name of the program is shown, if tuples are only returned and there are no arrows. *)
Theorem C81_names_shown_partial : forall fg root x, simple root -> In x (names root) ->
  exists k, In (k, x) (dnodes 1 2 (spic fg root)).
Proof. exact name_is_drawn. Qed.
(** The left side of [a, b = f(1);] and the object of [x->g();] are not shown. *)
Theorem C81_names_shown_refuted : forall fg,
  (exists root, parse true (bytes_of "a, b = f(1);") = POk root [(LexModel.KDone, [])] /\ fits root /\
    In (bytes_of "a") (names root) /\ ~ In (bytes_of "a") (map snd (dnodes 1 2 (spic fg root)))) /\
  (exists root, parse true (bytes_of "x->g();") = POk root [(LexModel.KDone, [])] /\ fits root /\
    In (bytes_of "x") (names root) /\ ~ In (bytes_of "x") (map snd (dnodes 1 2 (spic fg root)))).
Proof. intros fg. split; [exact (name_lost fg)|exact (name_lost_arrow fg)]. Qed.
(** A return of more than 32 values is written past the end of an array. *)
Theorem C81_long_return_refuted : forall fg e r, 32 < tuple_len e -> graphviz fg (SComp (SCons (SReturn e) r)) = RUB.
Proof. exact long_return. Qed.
(** The label of a 32-bit number is the number; that of others is not. *)
Theorem C81_number_labels : forall fg z, - 2 ^ 31 <= z < 2 ^ 31 -> exists l, elems fg (EInt z) = [Dw [l] []] /\ int_shown z l.
Proof. intros fg z R. exact (ex_intro _ _ (conj eq_refl (int_label z R))). Qed.
Theorem C81_number_labels_refuted : forall fg, elems fg (EInt 4294967296) = elems fg (EInt 0).
Proof. reflexivity. Qed.
(** Each of any number of texts appended to a buffer is stored whole, with its NUL, inside the buffer. *)
Theorem C81_buffers_hold : forall lens, Forall (fun n => 0 <= n) lens ->
  Forall (fun p => snd p = fst p + 1) (fst (vappends (mkgbuf 0 0) lens)) /\
  b_used (snd (vappends (mkgbuf 0 0) lens)) = fold_right Z.add 0 lens /\
  b_used (snd (vappends (mkgbuf 0 0) lens)) <= b_size (snd (vappends (mkgbuf 0 0) lens)).
Proof. intros lens H. exact (vappends_all lens (mkgbuf 0 0) (conj (Z.le_refl 0) (Z.le_refl 0)) H). Qed.

(** The program [fun f(x) { return x, 1; } f("a b");]: drawn with eleven points; it meets the conditions. *)
Example C81_example :
  parse true draw_src = POk draw_root [(LexModel.KDone, [])] /\ fits draw_root /\ simple draw_root /\ Forall plain (names draw_root) /\
  dsize (spic no_float draw_root) = 11 /\ (forall b, plain (no_float b)) /\
  diagram no_float draw_src = graphviz no_float draw_root /\
  graphviz no_float draw_root = ROk (dot_text (dnodes 1 2 (spic no_float draw_root))
    [(2, 3); (3, 4); (6, 7); (6, 8); (5, 6); (2, 5); (1, 2); (9, 10); (9, 11); (1, 9)]).
Proof.
  split; [vm_compute; reflexivity|]. split; [cbn; intuition discriminate|]. split; [cbn; intuition|].
  split; [cbn; repeat constructor; discriminate|]. split; [vm_compute; reflexivity|]. split; [intros b; repeat constructor; discriminate|].
  split; vm_compute; reflexivity.
Qed.
(** A string with a quote, a backslash and a line break. *)
Example C81_escape_example : diagram no_float (bytes_of "'q' == 'a""b\\c\n';") =
  ROk (dot_text [(1, bytes_of "compound"); (2, bytes_of "=="); (3, bytes_of "q"); (4, [97; 92; 34; 98; 92; 92; 99; 92; 110])]
                [(2, 3); (2, 4); (1, 2)]).
Proof. vm_compute. reflexivity. Qed.
Example C81_buffer_example : vappends (mkgbuf 0 0) [5; 2; 9] = ([(5, 6); (2, 3); (9, 10)], mkgbuf 24 16).
Proof. vm_compute. reflexivity. Qed.

Print Assumptions C81_text_is_the_drawing.
Print Assumptions C81_drawn_as_tree.
Print Assumptions C81_one_reading.
Print Assumptions C81_names_shown_partial.
Print Assumptions C81_names_shown_refuted.
Print Assumptions C81_long_return_refuted.
Print Assumptions C81_number_labels.
Print Assumptions C81_number_labels_refuted.
Print Assumptions C81_buffers_hold.
Print Assumptions C81_lines.
Print Assumptions C81_parsed.
Print Assumptions C81_not_parsed.
