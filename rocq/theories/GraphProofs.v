(** Proofs for C81. *)
From Coq Require Import ZArith String List Bool Permutation Lia.
From Verif Require Import Base StringModel AstModel ParseModel BuiltinModel ShowModel GraphModel GraphSpec.
Import ListNotations.
Open Scope list_scope.
Open Scope Z_scope.

Local Arguments Z.add : simpl never.
Local Arguments Z.sub : simpl never.

Lemma dsize_eq ls ds : dsize (Dw ls ds) = 1 + fsize ds.
Proof. reflexivity. Qed.
Lemma dnodes_eq ls ds : forall k j, dnodes k j (Dw ls ds) = map (pair k) ls ++ fnodes j ds.
Proof. reflexivity. Qed.
Lemma dedges_eq ls ds : forall k j, dedges k j (Dw ls ds) = fedges k j ds.
Proof. intros k. induction ds as [|d r IH]; intros; cbn; [reflexivity|]. f_equal. f_equal. apply IH. Qed.

Lemma fsize_app a b : fsize (a ++ b) = fsize a + fsize b.
Proof. induction a as [|d r IH]; cbn; [reflexivity|]. rewrite IH. lia. Qed.
Lemma fnodes_app a b : forall j, fnodes j (a ++ b) = fnodes j a ++ fnodes (j + fsize a) b.
Proof.
  induction a as [|d r IH]; intros; cbn; [now rewrite Z.add_0_r|]. rewrite IH, app_assoc. do 2 f_equal. lia.
Qed.
Lemma fedges_app k a b : forall j, fedges k j (a ++ b) = fedges k j a ++ fedges k (j + fsize a) b.
Proof.
  induction a as [|d r IH]; intros; cbn; [now rewrite Z.add_0_r|]. rewrite IH, app_assoc. do 3 f_equal. lia.
Qed.
Lemma node_text_app a b : node_text (a ++ b) = node_text a ++ node_text b.
Proof. apply flat_map_app. Qed.
Lemma edge_text_app a b : edge_text (a ++ b) = edge_text a ++ edge_text b.
Proof. apply flat_map_app. Qed.

(** Drawing below a point: the forest [fs] is added. *)
Definition emits (f : gv -> res gv) (name : Z) (fs : list drawing) : Prop :=
  forall g, exists es,
    f g = ROk (mkgv (g_head g ++ node_text (fnodes (g_count g + 1) fs)) (g_body g ++ edge_text es) (g_count g + fsize fs)) /\
    Permutation es (fedges name (g_count g + 1) fs).
(** Drawing at a given point. *)
Definition draws (f : Z -> gv -> res gv) (d : drawing) : Prop :=
  forall name g, exists es,
    f name g = ROk (mkgv (g_head g ++ node_text (dnodes name (g_count g + 1) d)) (g_body g ++ edge_text es) (g_count g + dsize d - 1)) /\
    Permutation es (dedges name (g_count g + 1) d).

Lemma gv_eta g : mkgv (g_head g) (g_body g) (g_count g) = g. Proof. now destruct g. Qed.

Lemma emits_nil name : emits (fun g => ROk g) name [].
Proof.
  intros g. exists []. cbn. split; [|constructor]. rewrite !app_nil_r, Z.add_0_r, gv_eta. reflexivity.
Qed.
Lemma emits_then f h name a b : emits f name a -> emits h name b -> emits (fun g => then_ (f g) h) name (a ++ b).
Proof.
  intros F H g. destruct (F g) as (es & Ef & Pf). rewrite Ef. cbn [then_].
  match goal with |- context [h ?x] => destruct (H x) as (es' & Eh & Ph) end. cbn in Eh, Ph.
  exists (es ++ es'). split.
  - rewrite Eh. do 2 f_equal.
    + rewrite fnodes_app, node_text_app, <- app_assoc. do 4 f_equal. lia.
    + now rewrite edge_text_app, app_assoc.
    + rewrite fsize_app. lia.
  - rewrite fedges_app. apply Permutation_app; [exact Pf|]. replace (g_count g + 1 + fsize a) with (g_count g + fsize a + 1) by lia. exact Ph.
Qed.
Lemma emits_child f d name : draws f d -> emits (child f name) name [d].
Proof.
  intros D g. unfold child, fresh. match goal with |- context [f ?k ?x] => destruct (D k x) as (es & Ef & Pf) end. cbn in Ef, Pf.
  rewrite Ef. exists (es ++ [(name, g_count g + 1)]). split.
  - unfold body. cbn [g_head g_body g_count]. do 2 f_equal.
    + cbn [fnodes]. now rewrite app_nil_r.
    + rewrite edge_text_app, app_assoc. cbn. now rewrite app_nil_r.
    + cbn [fsize]. lia.
  - cbn [fedges]. rewrite app_nil_r. eapply Permutation_trans; [apply Permutation_app_comm|]. cbn. constructor. exact Pf.
Qed.
Lemma draws_emits f l fs : (forall name, emits (f name) name fs) -> draws (fun name g => f name (head (node_line name l) g)) (Dw [l] fs).
Proof.
  intros E name g. destruct (E name (head (node_line name l) g)) as (es & Ef & Pf). exists es. cbn [head g_head g_body g_count] in Ef, Pf.
  rewrite dnodes_eq, dedges_eq, dsize_eq. split; [|exact Pf]. rewrite Ef. do 2 f_equal; [|lia].
  rewrite node_text_app, <- app_assoc. cbn. now rewrite app_nil_r.
Qed.
Lemma draws_leaf l : draws (fun name g => ROk (head (node_line name l) g)) (Dw [l] []).
Proof. apply (draws_emits (fun _ g => ROk g)). intros. apply emits_nil. Qed.

(** A point that is written with its edge before what is below it. *)
Lemma emits_point f l fs name : (forall k, emits (f k) k fs) ->
  emits (fun g => let (k, g) := fresh g in f k (body (edge_line name k) (head (node_line k l) g))) name [Dw [l] fs].
Proof.
  intros E g. unfold fresh. cbn [g_count].
  match goal with |- context [f ?k ?x] => destruct (E k x) as (es & Ef & Pf) end. cbn in Ef, Pf.
  rewrite Ef. exists ((name, g_count g + 1) :: es). split.
  - do 2 f_equal.
    + cbn [fnodes]. rewrite app_nil_r, dnodes_eq, node_text_app, <- app_assoc. cbn. rewrite app_nil_r.
      reflexivity.
    + cbn. rewrite <- app_assoc. reflexivity.
    + cbn [fsize]. rewrite dsize_eq. lia.
  - cbn [fedges]. rewrite app_nil_r, dedges_eq. now constructor.
Qed.

Lemma draws1 fa da l : draws fa da -> draws (fun name g => child fa name (head (node_line name l) g)) (Dw [l] [da]).
Proof. intros A. apply (draws_emits (fun name g => child fa name g)). intros. now apply emits_child. Qed.
Lemma draws2 fa da fb db l : draws fa da -> draws fb db ->
  draws (fun name g => then_ (child fa name (head (node_line name l) g)) (child fb name)) (Dw [l] [da; db]).
Proof.
  intros A B. apply (draws_emits (fun name g => then_ (child fa name g) (child fb name))). intros name.
  apply (emits_then (child fa name) (child fb name) name [da] [db]); now apply emits_child.
Qed.
Lemma draws3 fa da fb db fc dc l : draws fa da -> draws fb db -> draws fc dc ->
  draws (fun name g => then_ (then_ (child fa name (head (node_line name l) g)) (child fb name)) (child fc name)) (Dw [l] [da; db; dc]).
Proof.
  intros A B C. apply (draws_emits (fun name g => then_ (then_ (child fa name g) (child fb name)) (child fc name))). intros name.
  apply (emits_then (fun g => then_ (child fa name g) (child fb name)) (child fc name) name [da; db] [dc]); [|now apply emits_child].
  apply (emits_then (child fa name) (child fb name) name [da] [db]); now apply emits_child.
Qed.
Lemma draws_none : draws (fun _ g => ROk g) (Dw [] []).
Proof.
  intros name g. exists []. cbn. split; [|constructor]. rewrite !app_nil_r. replace (g_count g + (1 + 0) - 1) with (g_count g) by lia.
  now rewrite gv_eta.
Qed.
Lemma draws_func fp ps fb db l : (forall name, emits (fp name) name ps) -> draws fb db ->
  draws (fun name g =>
    let (k, g) := fresh (head (node_line name l) g) in
    then_ (fp k (body (edge_line name k) (head (node_line k (bytes_of "args")) g))) (child fb name))
   (Dw [l] [Dw [bytes_of "args"] ps; db]).
Proof.
  intros P B.
  apply (draws_emits (fun name g => let (k, g) := fresh g in
    then_ (fp k (body (edge_line name k) (head (node_line k (bytes_of "args")) g))) (child fb name))). intros name.
  apply (emits_then (fun g => let (k, g) := fresh g in fp k (body (edge_line name k) (head (node_line k (bytes_of "args")) g)))
           (child fb name) name [Dw [bytes_of "args"] ps] [db]); [|now apply emits_child].
  now apply emits_point.
Qed.

Lemma elems_some fg e : elems fg e <> [].
Proof. induction e; cbn; try discriminate. intros H. apply app_eq_nil in H. tauto. Qed.
Lemma one_pair fg a b : one (elems fg a ++ elems fg b) = Dw [] [].
Proof.
  pose proof (elems_some fg a) as A. pose proof (elems_some fg b) as B. destruct (elems fg a) as [|x [|y r]]; [easy| |reflexivity].
  destruct (elems fg b); [easy|]. reflexivity.
Qed.

Lemma un_sign_ok op : un_label op = bytes_of (un_sign op). Proof. destruct op; reflexivity. Qed.
Lemma bin_sign_ok op : bin_label op = bytes_of (bin_sign op). Proof. destruct op; reflexivity. Qed.

Lemma all_drawn fg :
  (forall e, fits_e e -> draws (d_expr fg false e) (one (elems fg e)) /\ forall name, emits (d_expr fg true e name) name (elems fg e)) /\
  (forall es, fits_es es -> forall name, emits (d_list fg es name) name (items fg es) /\ emits (d_args fg es name) name (rev (items fg es))) /\
  (forall ps, fits_m ps -> forall name, emits (d_map fg ps name) name (entries fg ps)) /\
  (forall ps, fits_p ps -> forall name, emits (d_params fg ps name) name (rev (parms fg ps))) /\
  (forall o, fits_o o -> forall name, emits (d_opt fg o name) name (opt fg o)) /\
  (forall s, fits s -> draws (d_stmt fg s) (spic fg s)) /\
  (forall ss, fits_ss ss -> forall name, emits (d_stmts fg ss name) name (spics fg ss)).
Proof.
  assert (TUP : forall e d, (forall a b, e <> EPair a b) -> elems fg e = [d] -> draws (d_expr fg false e) d ->
    draws (d_expr fg false e) (one (elems fg e)) /\ forall name, emits (d_expr fg true e name) name (elems fg e)).
  { intros e d NP E D. rewrite E. split; [exact D|]. intros name. destruct e; try (exfalso; eapply NP; reflexivity);
      exact (emits_child (d_expr fg false _) d name D). }
  apply ast_ind.
  - intros z _. eapply TUP; [discriminate|reflexivity|]. exact (draws_leaf _).
  - intros z _. eapply TUP; [discriminate|reflexivity|]. exact (draws_leaf _).
  - intros z _. eapply TUP; [discriminate|reflexivity|]. exact (draws_leaf _).
  - intros z _. eapply TUP; [discriminate|reflexivity|]. exact (draws_leaf _).
  - intros _. eapply TUP; [discriminate|reflexivity|]. exact (draws_leaf _).
  - intros _. eapply TUP; [discriminate|reflexivity|]. exact (draws_leaf _).
  - intros _. eapply TUP; [discriminate|reflexivity|]. exact (draws_leaf _).
  - intros op e IH F. eapply TUP; [discriminate|reflexivity|]. rewrite <- un_sign_ok. exact (draws1 _ _ _ (proj1 (IH F))).
  - intros op a IHa b IHb [Fa Fb]. eapply TUP; [discriminate|reflexivity|]. rewrite <- bin_sign_ok. exact (draws2 _ _ _ _ _ (proj1 (IHa Fa)) (proj1 (IHb Fb))).
  - intros a IHa b IHb [Fa Fb]. eapply TUP; [discriminate|reflexivity|]. exact (draws2 _ _ _ _ _ (proj1 (IHa Fa)) (proj1 (IHb Fb))).
  - intros a IHa b IHb [Fa Fb]. eapply TUP; [discriminate|reflexivity|]. exact (draws2 _ _ _ _ _ (proj1 (IHa Fa)) (proj1 (IHb Fb))).
  - intros a IHa b IHb [Fa Fb]. eapply TUP; [discriminate|reflexivity|]. exact (draws2 _ _ _ _ _ (proj1 (IHa Fa)) (proj1 (IHb Fb))).
  - intros a IHa b IHb [Fa Fb]. destruct (IHa Fa) as [_ Ta], (IHb Fb) as [_ Tb]. cbn [elems]. rewrite one_pair. split; [exact draws_none|].
    intros name. exact (emits_then _ _ name _ _ (Ta name) (Tb name)).
  - intros a IHa b IHb [Fa Fb]. eapply TUP; [discriminate|reflexivity|]. exact (draws1 _ _ _ (proj1 (IHb Fb))).
  - intros a IHa b IHb [Fa Fb]. eapply TUP; [discriminate|reflexivity|]. exact (draws2 _ _ _ _ _ (proj1 (IHa Fa)) (proj1 (IHb Fb))).
  - intros es IH F. eapply TUP; [discriminate|reflexivity|]. exact (draws_emits (d_list fg es) _ _ (fun name => proj1 (IH F name))).
  - intros es IH F. eapply TUP; [discriminate|reflexivity|]. exact (draws_emits (d_map fg es) _ _ (IH F)).
  - intros f IHf es IH [Ff F]. eapply TUP; [discriminate|reflexivity|].
    apply (draws_emits (fun name g => then_ (child (d_expr fg false f) name g) (d_args fg es name))). intros name.
    apply (emits_then (child (d_expr fg false f) name) (d_args fg es name) name [one (elems fg f)]).
    + apply emits_child. exact (proj1 (IHf Ff)).
    + exact (proj2 (IH F name)).
  - intros ps IHp b IHb [Fp Fb]. eapply TUP; [discriminate|reflexivity|]. exact (draws_func _ _ _ _ _ (IHp Fp) (IHb Fb)).
  - intros _ name. split; exact (emits_nil name).
  - intros e IHe r IH [Fe F] name. split.
    + exact (emits_then _ _ name [_] _ (emits_child _ _ name (proj1 (IHe Fe))) (proj1 (IH F name))).
    + exact (emits_then _ _ name _ [_] (proj2 (IH F name)) (emits_child _ _ name (proj1 (IHe Fe)))).
  - intros _ name. exact (emits_nil name).
  - intros k IHk v IHv r IH (Fk & Fv & F) name.
    refine (emits_then (fun g => let (n2, g) := fresh g in (fun n2 g => then_ (child (d_expr fg false k) n2 g) (child (d_expr fg false v) n2)) n2 (body (edge_line name n2) (head (node_line n2 (bytes_of "Entry")) g)))
       (d_map fg r name) name [_] _ _ (IH F name)).
    refine (emits_point (fun n2 g => then_ (child (d_expr fg false k) n2 g) (child (d_expr fg false v) n2)) (bytes_of "Entry") [one (elems fg k); one (elems fg v)] name _). intros n2.
    exact (emits_then _ _ n2 [_] [_] (emits_child _ _ n2 (proj1 (IHk Fk))) (emits_child _ _ n2 (proj1 (IHv Fv)))).
  - intros _ name. exact (emits_nil name).
  - intros x ty IHt df IHd r IH (Ft & Fd & F) name. cbn [parms rev].
    refine (emits_then _ (fun g => let (n3, g) := fresh g in (fun n3 g => then_ (d_opt fg df n3 g) (d_opt fg ty n3)) n3 (body (edge_line name n3) (head (node_line n3 x) g)))
       name _ [_] (IH F name) _).
    refine (emits_point (fun n3 g => then_ (d_opt fg df n3 g) (d_opt fg ty n3)) x (opt fg df ++ opt fg ty) name _). intros n3. exact (emits_then _ _ n3 _ _ (IHd Fd n3) (IHt Ft n3)).
  - intros _ name. exact (emits_nil name).
  - intros e IH F name. exact (emits_child _ _ name (proj1 (IH F))).
  - intros e IH F. exact (proj1 (IH F)).
  - intros _. exact (draws_leaf _).
  - intros c IHc t IHt [Fc Ft]. exact (draws2 _ _ _ _ _ (proj1 (IHc Fc)) (IHt Ft)).
  - intros c IHc t IHt f IHf (Fc & Ft & Ff). exact (draws3 _ _ _ _ _ _ _ (proj1 (IHc Fc)) (IHt Ft) (IHf Ff)).
  - intros c IHc b IHb [Fc Fb]. exact (draws2 _ _ _ _ _ (proj1 (IHc Fc)) (IHb Fb)).
  - intros b IHb c IHc [Fc Fb]. exact (draws2 _ _ _ _ _ (proj1 (IHc Fc)) (IHb Fb)).
  - intros ss IH F. exact (draws_emits (d_stmts fg ss) _ _ (IH F)).
  - intros e IH [L F]. intros name g.
    replace (d_stmt fg (SReturn e) name g) with (d_expr fg true e name (head (node_line name (bytes_of "return")) g)).
    + exact (draws_emits (d_expr fg true e) _ _ (proj2 (IH F)) name g).
    + cbn [d_stmt]. unfold RET_ROOM. destruct (Z.ltb_spec 32 (tuple_len e)); [lia|reflexivity].
  - intros x ps IHp b IHb [Fp Fb] name g.
    destruct (draws_func _ _ _ _ x (IHp Fp) (IHb Fb) name (head (node_line name (bytes_of "func")) g)) as (es & E & P).
    exists es. split; [|exact P]. etransitivity; [exact E|]. cbn [head g_head g_count g_body]. do 2 f_equal.
    cbn [spic]. rewrite !dnodes_eq. cbn [map app]. unfold node_text. cbn [flat_map fst snd]. now rewrite <- !app_assoc.
  - intros _ name. exact (emits_nil name).
  - intros s IHs r IH [Fs F] name. exact (emits_then _ _ name [_] _ (emits_child _ _ name (IHs Fs)) (IH F name)).
Qed.
