(** Proofs for C81: every name of a program without tuples and arrows is a label; the two exceptions; buffers. *)
From Coq Require Import ZArith String List Bool Permutation Lia.
From Verif Require Import Base StringModel AstModel ParseModel BuiltinModel ShowModel GraphModel GraphSpec GraphProofs GraphRead.
Import ListNotations.
Open Scope list_scope.
Open Scope Z_scope.

(** [x] is a label of one of the drawings. *)
Definition shown (x : list Z) (ds : list drawing) : Prop := In x (flat_map all_labels ds).
Lemma shown_app x a b : shown x (a ++ b) <-> shown x a \/ shown x b.
Proof. unfold shown. rewrite flat_map_app, in_app_iff. reflexivity. Qed.
Lemma shown_cons x d r : shown x (d :: r) <-> In x (all_labels d) \/ shown x r.
Proof. unfold shown. cbn [flat_map]. rewrite in_app_iff. reflexivity. Qed.
Lemma shown_rev x a : shown x (rev a) <-> shown x a.
Proof.
  unfold shown. rewrite !in_flat_map. split; intros (d & I & J); exists d; split; auto; [now apply in_rev|now apply -> in_rev].
Qed.
Lemma shown_sub x ls ds : shown x ds -> In x (all_labels (Dw ls ds)).
Proof. intros H. cbn [all_labels]. apply in_or_app. now right. Qed.

(** An expression that is not a tuple has one drawing. *)
Lemma simple_one fg e : simple_e false e -> elems fg e = [one (elems fg e)].
Proof. destruct e; cbn; intros H; try reflexivity; contradiction. Qed.

Lemma names_shown fg :
  (forall e tup, simple_e tup e -> forall x, In x (names_e e) -> shown x (elems fg e)) /\
  (forall es, simple_es es -> forall x, In x (names_es es) -> shown x (items fg es)) /\
  (forall ps, simple_m ps -> forall x, In x (names_m ps) -> shown x (entries fg ps)) /\
  (forall ps, simple_p ps -> forall x, In x (names_p ps) -> shown x (parms fg ps)) /\
  (forall o, simple_o o -> forall x, In x (names_o o) -> shown x (opt fg o)) /\
  (forall s, simple s -> forall x, In x (names s) -> In x (all_labels (spic fg s))) /\
  (forall ss, simple_ss ss -> forall x, In x (names_ss ss) -> shown x (spics fg ss)).
Proof.
  assert (ONE : forall e x, simple_e false e -> shown x (elems fg e) -> In x (all_labels (one (elems fg e)))).
  { intros e x S H. rewrite simple_one in H by exact S. unfold shown in H. cbn [flat_map] in H. now rewrite app_nil_r in H. }
  apply ast_ind; intros; cbn [elems GraphSpec.items entries parms opt spic spics];
    cbn [names_e names_es names_m names_p names_o names names_ss] in *;
    cbn [simple_e simple_es simple_m simple_p simple_o simple simple_ss] in *;
    repeat match goal with H : _ /\ _ |- _ => destruct H end; try contradiction; try (destruct tup; [|contradiction]);
    repeat match goal with H : _ /\ _ |- _ => destruct H end;
    repeat match goal with H : In _ (_ ++ _) |- _ => apply in_app_or in H; destruct H | H : In _ (_ :: _) |- _ => destruct H; [subst|] end;
    try match goal with H : In _ [] |- _ => destruct H end;
    repeat match goal with H : ?S -> forall x, In x ?l -> _, K : ?S, J : In ?y ?l |- _ => specialize (H K y J) end;
    repeat match goal with H : forall t, simple_e t ?e -> forall x, In x ?l -> _, K : simple_e ?b ?e, J : In ?y ?l |- _ => specialize (H b K y J) end;
    try (left; now auto).
  all: try (rewrite !shown_cons; auto; fail).
  all: try (apply shown_sub; rewrite !shown_cons; auto; fail).
  all: try (apply shown_cons; left; apply shown_sub; rewrite ?shown_cons, ?shown_rev; auto 10; fail).
  all: first
    [ apply shown_cons; left; apply shown_sub; apply shown_cons; left; apply shown_sub; apply shown_rev; assumption
    | apply shown_cons; left; apply shown_sub; apply shown_app; tauto
    | apply shown_cons; left; left; reflexivity
    | apply ONE; assumption
    | apply shown_app; tauto
    | apply shown_sub; assumption
    | apply shown_sub; apply shown_cons; left; apply shown_sub; apply shown_rev; assumption
    | right; left; reflexivity ].
Qed.

Lemma name_is_drawn fg root x : simple root -> In x (names root) -> exists k, In (k, x) (dnodes 1 2 (spic fg root)).
Proof.
  intros S I. destruct (names_shown fg) as (_ & _ & _ & _ & _ & H & _). specialize (H root S x I).
  rewrite <- (dnodes_labels _ 1 2) in H. apply in_map_iff in H. destruct H as ([k y] & E & J). cbn in E. subst. eauto.
Qed.

(** Buffers: what is asked to be stored is stored. *)
Fixpoint vappends (b : gbuf) (lens : list Z) : list (Z * Z) * gbuf :=
  match lens with
  | [] => ([], b)
  | n :: r => let (w, b1) := vappend b n in let (ws, b2) := vappends b1 r in ((n, w) :: ws, b2)
  end.
Lemma vappends_all lens : forall b, 0 <= b_used b <= b_size b -> Forall (fun n => 0 <= n) lens ->
  Forall (fun p => snd p = fst p + 1) (fst (vappends b lens)) /\
  b_used (snd (vappends b lens)) = b_used b + fold_right Z.add 0 lens /\
  b_used (snd (vappends b lens)) <= b_size (snd (vappends b lens)).
Proof.
  induction lens as [|n r IH]; intros b B P; cbn [vappends].
  - cbn. split; [constructor|]. lia.
  - inversion P as [|? ? N PR]; subst. unfold vappend at 1 2 3.
    assert (E : b_used (ensure b (n + 1)) = b_used b /\ b_used b + n + 1 <= b_size (ensure b (n + 1))).
    { unfold ensure. destruct (Z.ltb_spec (b_size b) (b_used b + (n + 1))); [|lia].
      cbn [b_used b_size]. destruct (Z.ltb_spec (b_size b * 2) (b_size b + (n + 1))); lia. }
    destruct E as [E1 E2]. unfold vappend.
    specialize (IH (mkgbuf (b_size (ensure b (n + 1))) (b_used (ensure b (n + 1)) + n))). cbn [b_size b_used] in IH.
    destruct (vappends _ r) as [ws b2]. cbn [fst snd fold_right] in *. destruct IH as (A & U & S); [lia|exact PR|].
    split; [constructor; [cbn [fst snd]; lia|exact A]|]. lia.
Qed.
