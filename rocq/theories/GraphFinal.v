(** Proofs for C81: the statements of PropsGraph.v. *)
From Coq Require Import ZArith String List Bool Permutation Lia.
From Verif Require Import Base StringModel AstModel ParseModel BuiltinModel ShowModel ShowSpec ShowProofs GraphModel GraphSpec GraphProofs GraphRead GraphNames.
Import ListNotations.
Open Scope string_scope.
Open Scope list_scope.
Open Scope Z_scope.

Lemma drawn_as_tree fg root : fits root -> exists n ns es,
  graphviz fg root = ROk (dot_text ns es) /\
  NoDup (map snd es) /\ (forall t, In t (map snd es) <-> 2 <= t <= n) /\ (forall a b, In (a, b) es -> 1 <= a < b) /\
  (forall a l, In (a, l) ns -> 1 <= a <= n).
Proof.
  intros F. destruct (graphviz_text fg root F) as (es & E & P). exists (dsize (spic fg root)), (dnodes 1 2 (spic fg root)), es.
  split; [exact E|]. apply drawn_tree. exact P.
Qed.

Lemma one_reading fg r r' text : (forall b, plain (fg b)) -> fits r -> fits r' -> Forall plain (names r) -> Forall plain (names r') ->
  dsize (spic fg r) < 2 ^ 31 -> dsize (spic fg r') < 2 ^ 31 ->
  graphviz fg r = ROk text -> graphviz fg r' = ROk text ->
  dnodes 1 2 (spic fg r) = dnodes 1 2 (spic fg r') /\ Permutation (dedges 1 2 (spic fg r)) (dedges 1 2 (spic fg r')).
Proof.
  intros FG F F' N N' L L' E E'. destruct (graphviz_text fg r F) as (es & T & P). destruct (graphviz_text fg r' F') as (es' & T' & P').
  rewrite T in E. rewrite T' in E'. injection E as E. injection E' as E'. rewrite <- E' in E.
  assert (OK : forall r es, Forall plain (names r) -> dsize (spic fg r) < 2 ^ 31 -> Permutation es (dedges 1 2 (spic fg r)) ->
    Forall node_ok (dnodes 1 2 (spic fg r)) /\ Forall edge_ok es).
  { intros q qs NQ LQ PQ. destruct (drawn_tree _ _ PQ) as (_ & A & B & C). split; apply Forall_forall.
    - intros [a l] I. split; cbn [fst snd]; [apply C in I; lia|].
      destruct (labels_quotable fg FG) as (_ & _ & _ & _ & _ & Q & _). specialize (Q q NQ). unfold lq in Q.
      rewrite <- (dnodes_labels _ 1 2) in Q. rewrite Forall_forall in Q. apply Q. apply in_map_iff. exists (a, l). auto.
    - intros [a b] I. assert (J : In b (map snd qs)) by (apply in_map_iff; exists (a, b); auto). apply A in J. apply B in I.
      split; cbn [fst snd]; lia. }
  destruct (OK r es N L P) as [O1 O2]. destruct (OK r' es' N' L' P') as [O3 O4].
  destruct (dot_text_unique _ _ _ _ O1 O3 O2 O4 E) as [X Y]. split; [exact X|]. subst es'.
  eapply Permutation_trans; [apply Permutation_sym; exact P|exact P'].
Qed.

Lemma int_label z : - 2 ^ 31 <= z < 2 ^ 31 -> int_shown z (int_text (low32 z)).
Proof.
  intros R. unfold low32. rewrite Z.mod_small by lia. replace (z + 2147483648 - 2147483648) with z by lia. apply int_text_shown. lia.
Qed.

(** Programs whose names are not shown. *)
Definition tuple_src : list Z := bytes_of "a, b = f(1);".
Definition arrow_src : list Z := bytes_of "x->g();".
Definition names_in (src : list Z) (x : list Z) : bool :=
  match parse true src with POk r _ => existsb (fun y => if list_eq_dec Z.eq_dec x y then true else false) (names r) | _ => false end.
Definition labels_in (fg : Z -> list Z) (src : list Z) : list (list Z) :=
  match parse true src with POk r _ => map snd (dnodes 1 2 (spic fg r)) | _ => [] end.

Lemma name_lost fg : exists root, parse true tuple_src = POk root [(LexModel.KDone, [])] /\ fits root /\ In (bytes_of "a") (names root) /\
  ~ In (bytes_of "a") (map snd (dnodes 1 2 (spic fg root))).
Proof.
  eexists. split; [vm_compute; reflexivity|]. split; [cbn; tauto|]. split; [cbn; tauto|]. cbn. intros H.
  repeat (destruct H as [H|H]; [discriminate H|]). exact H.
Qed.
Lemma name_lost_arrow fg : exists root, parse true arrow_src = POk root [(LexModel.KDone, [])] /\ fits root /\ In (bytes_of "x") (names root) /\
  ~ In (bytes_of "x") (map snd (dnodes 1 2 (spic fg root))).
Proof.
  eexists. split; [vm_compute; reflexivity|]. split; [cbn; tauto|]. split; [cbn; tauto|]. cbn. intros H.
  repeat (destruct H as [H|H]; [discriminate H|]). exact H.
Qed.

Lemma long_return fg e r : 32 < tuple_len e -> graphviz fg (SComp (SCons (SReturn e) r)) = RUB.
Proof.
  intros L. unfold graphviz, fresh. cbn [d_stmt d_stmts]. unfold child at 1, fresh. unfold RET_ROOM.
  destruct (Z.ltb_spec 32 (tuple_len e)); [reflexivity|lia].
Qed.

Definition draw_src : list Z := bytes_of "fun f(x) { return x, 1; } f(""a b"");".
Definition draw_root : stmt :=
  SComp (SCons (SFunc [102] (ACons [120] ONo ONo ANil) (SComp (SCons (SReturn (EPair (EIdent [120]) (EInt 1))) SNil)))
        (SCons (SExpr (ECall (EIdent [102]) (ECons (EStr [97; 32; 98]) ENil))) SNil)).
Definition no_float (b : Z) : list Z := bytes_of "0".

Lemma node_lines ns : Forall (fun p => 0 <= fst p < 2 ^ 31) ns -> exists ls, node_text ns = concat ls /\ Forall2 point_says ns ls.
Proof.
  induction ns as [|[k l] ns IH]; intros F; [exists []; split; [reflexivity|constructor]|]. inversion F as [|? ? A B]; subst. destruct (IH B) as (ls & E & G). cbn [fst] in A.
  exists (node_line k l :: ls). split; [cbn [node_text flat_map concat fst snd]; unfold node_text in E; now rewrite E|]. constructor; [|exact G].
  replace (node_line k l) with (9 :: bytes_of "node_" ++ int_text k ++ bytes_of " [label=""" ++ l ++ bytes_of """];" ++ [10]).
  - constructor. apply int_text_shown. lia.
  - unfold node_line, node_name. rewrite <- app_assoc. reflexivity.
Qed.
Lemma edge_lines es : Forall (fun p => 0 <= fst p < 2 ^ 31 /\ 0 <= snd p < 2 ^ 31) es -> exists ls, edge_text es = concat ls /\ Forall2 edge_says es ls.
Proof.
  induction es as [|[a b] es IH]; intros F; [exists []; split; [reflexivity|constructor]|]. inversion F as [|? ? A B]; subst. destruct (IH B) as (ls & E & G). cbn [fst snd] in A.
  exists (edge_line a b :: ls). split; [cbn [edge_text flat_map concat fst snd]; unfold edge_text in E; now rewrite E|]. constructor; [|exact G].
  replace (edge_line a b) with (9 :: bytes_of "node_" ++ int_text a ++ bytes_of " -> node_" ++ int_text b ++ bytes_of ";" ++ [10]).
  - constructor; apply int_text_shown; lia.
  - unfold edge_line, node_name. rewrite <- app_assoc. reflexivity.
Qed.
Lemma graphviz_lines fg root : fits root -> dsize (spic fg root) < 2 ^ 31 -> exists es ls ms,
  graphviz fg root = ROk (bytes_of "digraph G {" ++ [10] ++ concat ls ++ [10] ++ concat ms ++ bytes_of "}" ++ [10]) /\
  Forall2 point_says (dnodes 1 2 (spic fg root)) ls /\ Forall2 edge_says es ms /\ Permutation es (dedges 1 2 (spic fg root)).
Proof.
  intros F L. destruct (graphviz_text fg root F) as (es & T & P). destruct (drawn_tree _ _ P) as (_ & A & B & C).
  destruct (node_lines (dnodes 1 2 (spic fg root))) as (ls & E1 & F1).
  { apply Forall_forall. intros [k l] I. apply C in I. cbn. lia. }
  destruct (edge_lines es) as (ms & E2 & F2).
  { apply Forall_forall. intros [a b] I. assert (J : In b (map snd es)) by (apply in_map_iff; exists (a, b); auto). apply A in J. apply B in I. cbn. lia. }
  exists es, ls, ms. split; [rewrite T; unfold dot_text; now rewrite E1, E2|]. auto.
Qed.
Lemma diagram_cases fg src : match parse true src with POk root _ => diagram fg src = graphviz fg root | PErr => diagram fg src = RErr | _ => diagram fg src = RUB end.
Proof. unfold diagram. destruct (parse true src); reflexivity. Qed.
