(** The imperative core: proofs. *)
From Coq Require Import ZArith List Bool Lia.
From Verif Require Import BuiltinModel SysProofs LookSpec LookProofs.
From Verif Require Import Base FloatModel StringModel ValueModel ExeModel ArithModel AstModel CodegenModel CompSpec MapModel MapSpec MapProofs MapProofs2 ObjModel VmModel SrcModel
  LexModel ParseModel FuelProofs RunProofs ParseSafe CompileModel CompileProofs DepthSpec DepthProofs ScopeSpec ScopeProofs CalcSpec CalcProofs WhileSpec.
Import ListNotations.
Open Scope Z_scope.

(** Few names, or names whose hashes are not negative (see C02 for the others). *)
Definition few (X : list (list Z)) : Prop :=
  Forall ident X /\ (Z.of_nat (length X) <= 4 \/ (Z.of_nat (length X) < 2 ^ 26 /\ Forall (fun x => 0 <= vhash (VStr x)) X)).

(** None of the names is a built-in one, in any later state of the heap. *)
Definition unknown (E : env) (m : mem) (X : list (list Z)) : Prop :=
  forall m' x, In x X -> m_pend m' = false -> (forall k o, nth_error (m_objs m) k = Some o -> nth_error (m_objs m') k = Some o) ->
  get_in E m' [e_builtins E] (VStr x) = OOk (None, m').

Lemma name_eqb_true a b : name_eqb a b = true <-> a = b.
Proof. unfold name_eqb. destruct (list_eq_dec Z.eq_dec a b); split; congruence. Qed.

Lemma firsts_names ks X : incl ks X -> (length (firsts name_eqb ks) <= length X)%nat.
Proof.
  intros H. assert (G : forall ks acc, NoDup acc -> incl acc X -> incl ks X ->
    NoDup (fold_left (fun acc k => if existsb (name_eqb k) acc then acc else acc ++ [k]) ks acc) /\
    incl (fold_left (fun acc k => if existsb (name_eqb k) acc then acc else acc ++ [k]) ks acc) X).
  { clear. induction ks as [|k ks IH]; intros acc N I1 I2; cbn [fold_left]; [auto|].
    assert (I3 : incl ks X) by (intros y Hy; apply I2; right; exact Hy).
    destruct (existsb (name_eqb k) acc) eqn:E; [apply IH; auto|]. apply IH; auto.
    - apply NoDup_Add with (a := k) (l := acc); [rewrite <- (app_nil_r acc) at 1; apply Add_app|]. split; [exact N|].
      intros Hin. assert (existsb (name_eqb k) acc = true); [|congruence]. apply existsb_exists. exists k. split; [exact Hin|now apply name_eqb_true].
    - intros y Hy. apply in_app_or in Hy. destruct Hy as [Hy|[<-|[]]]; [apply I1; exact Hy|apply I2; left; reflexivity]. }
  destruct (G ks [] (NoDup_nil _) ltac:(intros y [])) as [A B]; [exact H|]. apply NoDup_incl_length; assumption.
Qed.

Lemma few_tame X h : few X -> Forall (fun nv => In (fst nv) X) h -> tame_scope h.
Proof.
  intros [FI FW] HX. assert (D : (distinct name_eqb (removelast h) <= length X)%nat).
  { apply firsts_names. intros x Hx. apply in_map_iff in Hx. destruct Hx as (nv & <- & Hin).
    pose proof (last_Forall _ _ HX) as L. rewrite Forall_forall in L. exact (L _ Hin). }
  split; [|split].
  - eapply Forall_impl; [|exact HX]. intros nv Hin. rewrite Forall_forall in FI. exact (FI _ Hin).
  - destruct FW as [FW|[FW _]]; lia.
  - destruct FW as [FW|[_ FW]]; [left; lia|right]. eapply Forall_impl; [|exact HX]. intros nv Hin. rewrite Forall_forall in FW. exact (FW _ Hin).
Qed.

Lemma vars_new m l : nth_error (m_objs m) l = Some (OMap (new_map (-1))) -> vars m l [].
Proof. intros H. exists (new_map (-1)). split; [exact H|reflexivity]. Qed.

Section While.
Variables (E : env) (m0 : mem) (X : list (list Z)).
Hypothesis Few : few X.
Hypothesis Un : unknown E m0 X.
Let l := length (m_objs m0).
Let sc := mksc (VRef l) None.

(** The variables of the running program are the store. *)
Definition holds (s : store) (m : mem) : Prop :=
  m_pend m = false /\ (forall k o, nth_error (m_objs m0) k = Some o -> nth_error (m_objs m) k = Some o) /\
  (forall x v, s x = Some v -> basic v) /\
  exists h, vars m l h /\ Forall (fun nv => In (fst nv) X) h /\ forall x, assigned h x = s x.

Lemma holds_ident x : In x X -> ident x.
Proof. intros H. destruct Few as [F _]. rewrite Forall_forall in F. auto. Qed.

Lemma holds_get s m x : holds s m -> In x X -> get_var E m (VRef l) None x = OOk (s x, m).
Proof.
  intros (P & K & B & h & V & HX & A) Hx.
  rewrite (get_var_scopes E m l h None [] [] x P (holds_ident x Hx) V (few_tame X h Few HX) (chain_none m)).
  cbn [visible]. rewrite A. destruct (s x); [reflexivity|]. apply Un; auto.
Qed.

Lemma holds_set s m x v : holds s m -> In x X -> basic v -> exists m', set_var E m (VRef l) x v = OOk m' /\ holds (put_in s x v) m'.
Proof.
  intros (P & K & B & h & V & HX & A) Hx Bv.
  assert (HX' : Forall (fun nv => In (fst nv) X) (h ++ [(x, v)])) by (apply Forall_app; split; [exact HX|constructor; auto]).
  destruct (set_var_vars E m l h x v P V (few_tame _ _ Few HX')) as (m' & S & V' & P' & L & O). exists m'. split; [exact S|].
  split; [exact P'|]. split; [|split].
  - intros k o Hk. rewrite O; [auto|]. assert (k < length (m_objs m0))%nat by (apply nth_error_Some; congruence). unfold l. lia.
  - intros y w. unfold put_in. destruct (list_eq_dec Z.eq_dec y x); [intros [= <-]; exact Bv|apply B].
  - exists (h ++ [(x, v)]). split; [exact V'|]. split; [exact HX'|]. intros y. unfold assigned, last_stored. rewrite fold_left_app. cbn [fold_left fst snd].
    unfold put_in, name_eqb. destruct (list_eq_dec Z.eq_dec y x); [reflexivity|]. apply A.
Qed.

Lemma put_same st : put_mem st (t_mem st) = st.
Proof. destruct st; reflexivity. Qed.

(** * Expressions *)
Section Eval.
Variable A2 : params -> stmt -> list value -> value -> sst -> out (list value * sst).
Notation ev := (eval E A2).

Lemma eval_says : forall e mo g st, simple e -> incl (named e) X -> wf_expr e -> holds g (t_mem st) -> mo <> MTgt ->
  match says g e with
  | AVal r => ev mo e [] sc st = OOk ([r], st) /\ basic r
  | AErr => ev mo e [] sc st = OErr
  | ALost => ev mo e [] sc st = OUB
  | ANone => False
  end.
Proof.
  induction e; intros mo g st Si In Wf H Nm; cbn [simple] in Si; try contradiction; cbn [says]; cbn [wf_expr] in Wf; cbn [named] in In.
  - split; [reflexivity|exact Wf].
  - split; [reflexivity|exact I].
  - cbn [eval]. rewrite (vstring_chars _ Wf Si). split; [reflexivity|exact Wf].
  - pose proof (holds_get g (t_mem st) s H (In s (or_introl eq_refl))) as G. destruct (g s) as [v|] eqn:Es.
    + split; [|destruct H as (_ & _ & B & _); exact (B _ _ Es)]. destruct mo; try congruence; cbn [eval]; cbn [sc_locals sc_clo sc]; rewrite G; cbn [obind]; rewrite put_same; reflexivity.
    + destruct mo; try congruence; cbn [eval]; cbn [sc_locals sc_clo sc]; rewrite G; reflexivity.
  - split; [reflexivity|exact I].
  - split; [reflexivity|exact I].
  - split; [reflexivity|exact I].
  - destruct Si as [No Si]. specialize (IHe MVal g st Si In Wf H ltac:(discriminate)). cbn [eval]. destruct (says g e) as [v| | |]; cbn [andthen]; try contradiction;
      [|rewrite IHe; reflexivity..]. destruct IHe as [He Bv]. rewrite He. cbn [obind fst snd].
    pose proof (unary_means op (t_mem st) v No Bv) as U. destruct (means1 op v); try contradiction; [|rewrite U; reflexivity..].
    destruct U as [U Br]. rewrite U. cbn [obind]. rewrite put_same. split; [reflexivity|exact Br].
  - destruct Si as (No & P1 & P2), Wf as [W1 W2]. apply incl_app_inv in In. destruct In as [I1 I2].
    specialize (IHe1 MVal g st P1 I1 W1 H ltac:(discriminate)). specialize (IHe2 MVal g st P2 I2 W2 H ltac:(discriminate)). cbn [eval].
    destruct (says g e1) as [v| | |]; cbn [andthen]; try contradiction; [|rewrite IHe1; reflexivity..]. destruct IHe1 as [He1 B1]. rewrite He1. cbn [obind fst snd].
    destruct (says g e2) as [w| | |]; cbn [andthen]; try contradiction; [|rewrite IHe2; reflexivity..]. destruct IHe2 as [He2 B2]. rewrite He2. cbn [obind fst snd].
    pose proof (binary_means op (t_mem st) v w No B1 B2 (proj1 H)) as U. destruct (means2 op v w); try contradiction; [|rewrite U; reflexivity..].
    destruct U as [U Br]. rewrite U. cbn [obind]. rewrite put_same. split; [reflexivity|exact Br].
  - destruct Si as (P1 & P2), Wf as [W1 W2]. apply incl_app_inv in In. destruct In as [I1 I2].
    specialize (IHe1 MVal g st P1 I1 W1 H ltac:(discriminate)). specialize (IHe2 MVal g st P2 I2 W2 H ltac:(discriminate)). cbn [eval].
    destruct (says g e1) as [v| | |]; cbn [andthen]; try contradiction; [|rewrite IHe1; reflexivity..]. destruct IHe1 as [He1 B1]. rewrite He1. cbn [obind fst snd].
    destruct v as [|[]| | | | | |]; cbn [truth]; try contradiction; try reflexivity; [|split; [reflexivity|exact I]].
    destruct (says g e2) as [w| | |]; cbn [andthen]; try contradiction; [|rewrite IHe2; reflexivity..]. destruct IHe2 as [He2 B2]. rewrite He2. cbn [obind fst snd].
    destruct w as [|[]| | | | | |]; cbn [truth bool_answer]; try contradiction; try reflexivity; (split; [reflexivity|exact I]).
  - destruct Si as (P1 & P2), Wf as [W1 W2]. apply incl_app_inv in In. destruct In as [I1 I2].
    specialize (IHe1 MVal g st P1 I1 W1 H ltac:(discriminate)). specialize (IHe2 MVal g st P2 I2 W2 H ltac:(discriminate)). cbn [eval].
    destruct (says g e1) as [v| | |]; cbn [andthen]; try contradiction; [|rewrite IHe1; reflexivity..]. destruct IHe1 as [He1 B1]. rewrite He1. cbn [obind fst snd].
    destruct v as [|[]| | | | | |]; cbn [truth]; try contradiction; try reflexivity; [split; [reflexivity|exact I]|].
    destruct (says g e2) as [w| | |]; cbn [andthen]; try contradiction; [|rewrite IHe2; reflexivity..]. destruct IHe2 as [He2 B2]. rewrite He2. cbn [obind fst snd].
    destruct w as [|[]| | | | | |]; cbn [truth bool_answer]; try contradiction; try reflexivity; (split; [reflexivity|exact I]).
Qed.

Lemma eval_tells : forall e g st, simples e -> incl (named e) X -> wf_expr e -> holds g (t_mem st) ->
  match tells g e with
  | Gives vs => ev MRets e [] sc st = OOk (vs, st)
  | Fails => ev MRets e [] sc st = OErr
  | Lost => ev MRets e [] sc st = OUB
  | _ => False
  end.
Proof.
  assert (One : forall e g st, simple e -> incl (named e) X -> wf_expr e -> holds g (t_mem st) ->
    match (match says g e with AVal v => Gives [v] | ALost => Lost | _ => Fails end) with
    | Gives vs => ev MRets e [] sc st = OOk (vs, st) | Fails => ev MRets e [] sc st = OErr | Lost => ev MRets e [] sc st = OUB | _ => False end).
  { intros e g st Si In Wf H. pose proof (eval_says e MRets g st Si In Wf H ltac:(discriminate)) as G.
    destruct (says g e); try contradiction; try exact G. apply G. }
  induction e; intros g st Si In Wf H; try (exact (One _ g st Si In Wf H)).
  cbn [simples] in Si. destruct Si as [S1 S2]. cbn [named] in In. apply incl_app_inv in In. destruct In as [I1 I2]. cbn [wf_expr] in Wf. destruct Wf as [W1 W2].
  specialize (IHe1 g st S1 I1 W1 H). specialize (IHe2 g st S2 I2 W2 H). cbn [tells eval].
  destruct (tells g e1); try contradiction; [|rewrite IHe1; reflexivity..]. rewrite IHe1. cbn [obind].
  destruct (tells g e2); try contradiction; rewrite IHe2; reflexivity.
Qed.
End Eval.

(** * Statements *)
Definition comes (r : ending) (o : out (sig * sst)) : Prop :=
  match r with
  | Falls s => exists st, o = OOk (SigNext, st) /\ holds s (t_mem st)
  | Breaks s => exists st, o = OOk (SigBreak, st) /\ holds s (t_mem st)
  | Gives vs => exists st, o = OOk (SigRet vs, st) /\ m_pend (t_mem st) = false
  | Fails => o = OErr
  | Lost => o = OUB
  end.

Definition fine (t : stmt) : Prop := incl (mentions t) X /\ wf_stmt t.
Definition fines (ss : stmts) : Prop := incl (mentions_all ss) X /\ wf_stmts ss.

Lemma run_tests A2 c s st : simple c -> incl (named c) X -> wf_expr c -> holds s (t_mem st) ->
  match tests s c with
  | Yes => eval E A2 MVal c [] sc st = OOk ([VBool true], st)
  | No => eval E A2 MVal c [] sc st = OOk ([VBool false], st)
  | Bad r => (r = Fails /\ (eval E A2 MVal c [] sc st = OErr \/ exists v, eval E A2 MVal c [] sc st = OOk ([v], st) /\ (forall b, v <> VBool b))) \/ (r = Lost /\ eval E A2 MVal c [] sc st = OUB)
  end.
Proof.
  intros Si In Wf H. pose proof (eval_says A2 c MVal s st Si In Wf H ltac:(discriminate)) as G. unfold tests.
  destruct (says s c) as [v| | |]; try contradiction; [|auto..]. destruct G as [G _].
  destruct v as [|[]| | | | | |]; try exact G; left; (split; [reflexivity|]); right; eexists; (split; [exact G|discriminate]).
Qed.

Lemma run_assign A1 A2 x e s st : simple e -> incl (x :: named e) X -> wf_expr e -> holds s (t_mem st) ->
  match trouble (says s e) with
  | Some r => comes r (run_stmt E A1 A2 (SExpr (EAss (EIdent x) e)) sc st)
  | None => exists v, says s e = AVal v /\ comes (Falls (put_in s x v)) (run_stmt E A1 A2 (SExpr (EAss (EIdent x) e)) sc st)
  end.
Proof.
  intros Si In Wf H. assert (Ie : incl (named e) X) by (intros y Hy; apply In; right; exact Hy).
  pose proof (eval_says A2 e MVal s st Si Ie Wf H ltac:(discriminate)) as G.
  assert (Q : run_stmt E A1 A2 (SExpr (EAss (EIdent x) e)) sc st =
    obind (obind (eval E A2 MVal e [] sc st) (fun p => match fst p with
      | [v] => obind (set_var E (t_mem (snd p)) (VRef l) x v) (fun mm => OOk ([v], put_mem (snd p) mm)) | _ => OUB end)) (fun p => OOk (SigNext, snd p))).
  { cbn [run_stmt eval tuple_len]. change (1 =? 1) with true. cbn iota. destruct (eval E A2 MVal e [] sc st) as [[[|v [|]] st1]| | | |]; try reflexivity. cbn [obind fst snd sc_locals sc]. destruct (set_var E (t_mem st1) (VRef l) x v); reflexivity. }
  rewrite Q. destruct (says s e) as [v| | |]; try contradiction; cbn [trouble comes]; [|rewrite G; reflexivity..].
  destruct G as [G B]. exists v. split; [reflexivity|]. rewrite G. cbn [obind fst snd].
  destruct (holds_set s (t_mem st) x v H (In x (or_introl eq_refl)) B) as (m' & S & H'). rewrite S. cbn [obind snd].
  eexists. split; [reflexivity|]. exact H'.
Qed.

Lemma comes_fails_test A2 c s st r (k : list value * sst -> out (sig * sst)) :
  simple c -> incl (named c) X -> wf_expr c -> holds s (t_mem st) -> tests s c = Bad r ->
  (forall v, (forall b, v <> VBool b) -> k ([v], st) = OErr) -> comes r (obind (eval E A2 MVal c [] sc st) k).
Proof.
  intros Si In Wf H T K. pose proof (run_tests A2 c s st Si In Wf H) as G. rewrite T in G.
  destruct G as [[-> [G|(v & G & N)]]|[-> G]]; rewrite G; try reflexivity. cbn [obind]. exact (K v N).
Qed.

Lemma run_cons A1 A2 t ss st : run_stmts E A1 A2 (SCons t ss) sc st =
  obind (run_stmt E A1 A2 t sc st) (fun p => match fst p with SigNext => run_stmts E A1 A2 ss sc (snd p) | g => OOk (g, snd p) end).
Proof.
  transitivity (obind (run_stmt E A1 A2 t sc st) (fun p => let (g, st1) := p in match g with SigNext => run_stmts E A1 A2 ss sc st1 | _ => OOk (g, st1) end)); [reflexivity|].
  destruct (run_stmt E A1 A2 t sc st) as [[[] st1]| | | |]; reflexivity.
Qed.

(** One step of the fuel, for statements. *)
Lemma step_of n : run_stmt_n E (S n) = run_stmt E (run_stmt_n E n) (run_call_n E n).
Proof. reflexivity. Qed.

Definition meets (n : nat) (t : stmt) (r : ending) (st : sst) : Prop := comes r (run_stmt_n E n t sc st).

(** What the program does, the interpreter of the syntax tree does when it has enough fuel. *)
Scheme does_rec2 := Induction for does Sort Prop with does_all_rec2 := Induction for does_all Sort Prop.
Combined Scheme does_mut from does_rec2, does_all_rec2.

Ltac nobool := let v := fresh "v" in let N := fresh "N" in let y := fresh "y" in intros v N; destruct v as [|y| | | | | |]; try reflexivity; exfalso; exact (N y eq_refl).

Lemma does_comes :
  (forall s t r, does s t r -> forall lp, core lp t -> fine t -> exists n0, forall n st, (n0 <= n)%nat -> holds s (t_mem st) ->
    comes r (run_stmt E (run_stmt_n E n) (run_call_n E n) t sc st)) /\
  (forall s ss r, does_all s ss r -> forall lp, cores lp ss -> fines ss -> exists n0, forall n st, (n0 <= n)%nat -> holds s (t_mem st) ->
    comes r (run_stmts E (run_stmt_n E n) (run_call_n E n) ss sc st)).
Proof.
  apply does_mut.
  - intros s x e v Hv lp C [I W]. exists 0%nat. intros n st _ H. cbn [core] in C. cbn [mentions named] in I. cbn [wf_stmt wf_expr] in W.
    pose proof (run_assign (run_stmt_n E n) (run_call_n E n) x e s st C I (proj2 W) H) as G. rewrite Hv in G. cbn [trouble] in G. destruct G as (w & [= <-] & G). exact G.
  - intros s x e r Hv lp C [I W]. exists 0%nat. intros n st _ H. cbn [core] in C. cbn [mentions named] in I. cbn [wf_stmt wf_expr] in W.
    pose proof (run_assign (run_stmt_n E n) (run_call_n E n) x e s st C I (proj2 W) H) as G. rewrite Hv in G. exact G.
  - intros s lp C F. exists 0%nat. intros n st _ H. exists st. split; [reflexivity|exact H].
  - intros s c t r T D IH lp [C1 C2] [I W]. cbn [mentions] in I. apply incl_app_inv in I. destruct I as [I1 I2], W as [W1 W2].
    destruct (IH lp C2 (conj I2 W2)) as (n0 & G). exists n0. intros n st L H. cbn [run_stmt].
    pose proof (run_tests (run_call_n E n) c s st C1 I1 W1 H) as Q. rewrite T in Q. rewrite Q. cbn [obind]. exact (G n st L H).
  - intros s c t T lp [C1 C2] [I W]. cbn [mentions] in I. apply incl_app_inv in I. destruct I as [I1 I2], W as [W1 W2].
    exists 0%nat. intros n st L H. cbn [run_stmt].
    pose proof (run_tests (run_call_n E n) c s st C1 I1 W1 H) as Q. rewrite T in Q. rewrite Q. cbn [obind]. exists st. auto.
  - intros s c t r T lp [C1 C2] [I W]. cbn [mentions] in I. apply incl_app_inv in I. destruct I as [I1 I2], W as [W1 W2].
    exists 0%nat. intros n st L H. cbn [run_stmt]. apply (comes_fails_test _ c s); auto. nobool.
  - intros s c t f r T D IH lp (C1 & C2 & C3) [I W]. cbn [mentions] in I. apply incl_app_inv in I. destruct I as [I1 I2]. apply incl_app_inv in I2. destruct I2 as [I2 I3], W as (W1 & W2 & W3).
    destruct (IH lp C2 (conj I2 W2)) as (n0 & G). exists n0. intros n st L H. cbn [run_stmt].
    pose proof (run_tests (run_call_n E n) c s st C1 I1 W1 H) as Q. rewrite T in Q. rewrite Q. cbn [obind]. exact (G n st L H).
  - intros s c t f r T D IH lp (C1 & C2 & C3) [I W]. cbn [mentions] in I. apply incl_app_inv in I. destruct I as [I1 I2]. apply incl_app_inv in I2. destruct I2 as [I2 I3], W as (W1 & W2 & W3).
    destruct (IH lp C3 (conj I3 W3)) as (n0 & G). exists n0. intros n st L H. cbn [run_stmt].
    pose proof (run_tests (run_call_n E n) c s st C1 I1 W1 H) as Q. rewrite T in Q. rewrite Q. cbn [obind]. exact (G n st L H).
  - intros s c t f r T lp (C1 & C2 & C3) [I W]. cbn [mentions] in I. apply incl_app_inv in I. destruct I as [I1 I2]. destruct W as (W1 & W2 & W3).
    exists 0%nat. intros n st L H. cbn [run_stmt]. apply (comes_fails_test _ c s); auto. nobool.
  - intros s c b T lp [C1 C2] [I W]. cbn [mentions] in I. apply incl_app_inv in I. destruct I as [I1 I2], W as [W1 W2].
    exists 0%nat. intros n st L H. cbn [run_stmt].
    pose proof (run_tests (run_call_n E n) c s st C1 I1 W1 H) as Q. rewrite T in Q. rewrite Q. cbn [obind]. exists st. auto.
  - intros s c b r T lp [C1 C2] [I W]. cbn [mentions] in I. apply incl_app_inv in I. destruct I as [I1 I2], W as [W1 W2].
    exists 0%nat. intros n st L H. cbn [run_stmt]. apply (comes_fails_test _ c s); auto. nobool.
  - intros s c b s1 r T D IH D2 IH2 lp C F. pose proof C as [C1 C2]. pose proof F as [I W]. cbn [mentions] in I. apply incl_app_inv in I. destruct I as [I1 I2], W as [W1 W2].
    destruct (IH true C2 (conj I2 W2)) as (n1 & G1). destruct (IH2 lp C F) as (n2 & G2). exists (S (Nat.max n1 n2)). intros n st L H.
    destruct n as [|n]; [lia|]. cbn [run_stmt].
    pose proof (run_tests (run_call_n E (S n)) c s st C1 I1 W1 H) as Q. rewrite T in Q. rewrite Q. cbn [obind].
    destruct (G1 (S n) st ltac:(lia) H) as (st1 & Q1 & H1). rewrite Q1. cbn [obind]. rewrite step_of. apply G2; [lia|exact H1].
  - intros s c b s1 T D IH lp C F. pose proof C as [C1 C2]. pose proof F as [I W]. cbn [mentions] in I. apply incl_app_inv in I. destruct I as [I1 I2], W as [W1 W2].
    destruct (IH true C2 (conj I2 W2)) as (n1 & G1). exists n1. intros n st L H. cbn [run_stmt].
    pose proof (run_tests (run_call_n E n) c s st C1 I1 W1 H) as Q. rewrite T in Q. rewrite Q. cbn [obind].
    destruct (G1 n st L H) as (st1 & Q1 & H1). rewrite Q1. cbn [obind]. exists st1. auto.
  - intros s c b r T D IH Fi lp C F. pose proof C as [C1 C2]. pose proof F as [I W]. cbn [mentions] in I. apply incl_app_inv in I. destruct I as [I1 I2], W as [W1 W2].
    destruct (IH true C2 (conj I2 W2)) as (n1 & G1). exists n1. intros n st L H. cbn [run_stmt].
    pose proof (run_tests (run_call_n E n) c s st C1 I1 W1 H) as Q. rewrite T in Q. rewrite Q. cbn [obind].
    pose proof (G1 n st L H) as G. destruct r; try contradiction Fi; [destruct G as (st1 & -> & P); exists st1; auto|cbn [comes] in G; rewrite G; reflexivity..].
  - intros s b c s1 r D IH T D2 IH2 lp C F. pose proof C as [C1 C2]. pose proof F as [I W]. cbn [mentions] in I. apply incl_app_inv in I. destruct I as [I1 I2], W as [W1 W2].
    destruct (IH true C2 (conj I2 W1)) as (n1 & G1). destruct (IH2 lp C F) as (n2 & G2). exists (S (Nat.max n1 n2)). intros n st L H.
    destruct n as [|n]; [lia|]. cbn [run_stmt]. destruct (G1 (S n) st ltac:(lia) H) as (st1 & Q1 & H1). rewrite Q1. cbn [obind].
    pose proof (run_tests (run_call_n E (S n)) c s1 st1 C1 I1 W2 H1) as Q. rewrite T in Q. rewrite Q. cbn [obind]. rewrite step_of. apply G2; [lia|exact H1].
  - intros s b c s1 D IH T lp C F. pose proof C as [C1 C2]. pose proof F as [I W]. cbn [mentions] in I. apply incl_app_inv in I. destruct I as [I1 I2], W as [W1 W2].
    destruct (IH true C2 (conj I2 W1)) as (n1 & G1). exists n1. intros n st L H. cbn [run_stmt]. destruct (G1 n st L H) as (st1 & Q1 & H1). rewrite Q1. cbn [obind].
    pose proof (run_tests (run_call_n E n) c s1 st1 C1 I1 W2 H1) as Q. rewrite T in Q. rewrite Q. cbn [obind]. exists st1. auto.
  - intros s b c s1 r D IH T lp C F. pose proof C as [C1 C2]. pose proof F as [I W]. cbn [mentions] in I. apply incl_app_inv in I. destruct I as [I1 I2], W as [W1 W2].
    destruct (IH true C2 (conj I2 W1)) as (n1 & G1). exists n1. intros n st L H. cbn [run_stmt]. destruct (G1 n st L H) as (st1 & Q1 & H1). rewrite Q1. cbn [obind].
    apply (comes_fails_test _ c s1); auto. nobool.
  - intros s b c s1 D IH lp C F. pose proof C as [C1 C2]. pose proof F as [I W]. cbn [mentions] in I. apply incl_app_inv in I. destruct I as [I1 I2], W as [W1 W2].
    destruct (IH true C2 (conj I2 W1)) as (n1 & G1). exists n1. intros n st L H. cbn [run_stmt]. destruct (G1 n st L H) as (st1 & Q1 & H1). rewrite Q1. cbn [obind]. exists st1. auto.
  - intros s b c r D IH Fi lp C F. pose proof C as [C1 C2]. pose proof F as [I W]. cbn [mentions] in I. apply incl_app_inv in I. destruct I as [I1 I2], W as [W1 W2].
    destruct (IH true C2 (conj I2 W1)) as (n1 & G1). exists n1. intros n st L H. cbn [run_stmt].
    pose proof (G1 n st L H) as G. destruct r; try contradiction Fi; [destruct G as (st1 & -> & P); exists st1; auto|cbn [comes] in G; rewrite G; reflexivity..].
  - intros s ss r D IH lp C F. exact (IH lp C F).
  - intros s e r T lp C [I W]. exists 0%nat. intros n st _ H. cbn [run_stmt]. pose proof (eval_tells (run_call_n E n) e s st C I W H) as G. rewrite T in G.
    destruct r; try contradiction; rewrite G; try reflexivity. exists st. split; [reflexivity|apply H].
  - intros s lp C F. exists 0%nat. intros n st _ H. exists st. auto.
  - intros s t ss s1 r D IH D2 IH2 lp [C1 C2] [I W]. cbn [mentions_all] in I. apply incl_app_inv in I. destruct I as [I1 I2], W as [W1 W2].
    destruct (IH lp C1 (conj I1 W1)) as (n1 & G1). destruct (IH2 lp C2 (conj I2 W2)) as (n2 & G2). exists (Nat.max n1 n2). intros n st L H. rewrite run_cons.
    destruct (G1 n st ltac:(lia) H) as (st1 & Q1 & H1). rewrite Q1. cbn [obind fst snd]. apply G2; [lia|exact H1].
  - intros s t ss r D IH N lp [C1 C2] [I W]. cbn [mentions_all] in I. apply incl_app_inv in I. destruct I as [I1 I2], W as [W1 W2].
    destruct (IH lp C1 (conj I1 W1)) as (n1 & G1). exists n1. intros n st L H. rewrite run_cons. pose proof (G1 n st L H) as G.
    destruct r; [exfalso; exact (N _ eq_refl)|destruct G as (st1 & -> & P); exists st1; auto..|cbn [comes] in G; rewrite G; reflexivity|cbn [comes] in G; rewrite G; reflexivity].
Qed.

(** And what the interpreter does, the program does. *)
Scheme stmt_rec2 := Induction for stmt Sort Prop with stmts_rec2 := Induction for stmts Sort Prop.
Combined Scheme stmt_mut2 from stmt_rec2, stmts_rec2.

Definition known_end (o : out (sig * sst)) (P : ending -> Prop) : Prop := o = OFuel \/ exists r, P r /\ comes r o.

Lemma comes_does : forall n,
  (forall t lp s st, core lp t -> fine t -> holds s (t_mem st) -> known_end (run_stmt E (run_stmt_n E n) (run_call_n E n) t sc st) (does s t)) /\
  (forall ss lp s st, cores lp ss -> fines ss -> holds s (t_mem st) -> known_end (run_stmts E (run_stmt_n E n) (run_call_n E n) ss sc st) (does_all s ss)).
Proof.
  induction n as [n IHn] using lt_wf_ind. apply stmt_mut2.
  - intros e lp s st C [I W] H. destruct e; try contradiction C. destruct e1; try contradiction C. right. cbn [core] in C. cbn [mentions named] in I. cbn [wf_stmt wf_expr] in W.
    pose proof (run_assign (run_stmt_n E n) (run_call_n E n) s0 e2 s st C I (proj2 W) H) as G. destruct (trouble (says s e2)) as [r|] eqn:T.
    + exists r. split; [apply d_assign_bad; exact T|exact G].
    + destruct G as (v & Hv & G). exists (Falls (put_in s s0 v)). split; [constructor; exact Hv|exact G].
  - intros lp s st C F H. right. exists (Breaks s). split; [constructor|]. exists st. auto.
  - intros c t IH lp s st [C1 C2] [I W] H. cbn [mentions] in I. apply incl_app_inv in I. destruct I as [I1 I2], W as [W1 W2]. cbn [run_stmt].
    pose proof (run_tests (run_call_n E n) c s st C1 I1 W1 H) as Q. destruct (tests s c) as [| |r] eqn:T.
    + rewrite Q. cbn [obind]. destruct (IH lp s st C2 (conj I2 W2) H) as [G|(r & D & G)]; [left; exact G|right]. exists r. split; [apply d_if_yes; assumption|exact G].
    + rewrite Q. cbn [obind]. right. exists (Falls s). split; [apply d_if_no; exact T|]. exists st. auto.
    + right. exists r. split; [apply d_if_bad; exact T|]. apply (comes_fails_test _ c s); auto. nobool.
  - intros c t IHt f IHf lp s st (C1 & C2 & C3) [I W] H. cbn [mentions] in I. apply incl_app_inv in I. destruct I as [I1 I2]. apply incl_app_inv in I2. destruct I2 as [I2 I3], W as (W1 & W2 & W3). cbn [run_stmt].
    pose proof (run_tests (run_call_n E n) c s st C1 I1 W1 H) as Q. destruct (tests s c) as [| |r] eqn:T.
    + rewrite Q. cbn [obind]. destruct (IHt lp s st C2 (conj I2 W2) H) as [G|(r & D & G)]; [left; exact G|right]. exists r. split; [apply d_else_yes; assumption|exact G].
    + rewrite Q. cbn [obind]. destruct (IHf lp s st C3 (conj I3 W3) H) as [G|(r & D & G)]; [left; exact G|right]. exists r. split; [apply d_else_no; assumption|exact G].
    + right. exists r. split; [apply d_else_bad; exact T|]. apply (comes_fails_test _ c s); auto. nobool.
  - intros c b IH lp s st C F H. pose proof C as [C1 C2]. pose proof F as [I W]. cbn [mentions] in I. apply incl_app_inv in I. destruct I as [I1 I2], W as [W1 W2]. cbn [run_stmt].
    pose proof (run_tests (run_call_n E n) c s st C1 I1 W1 H) as Q. destruct (tests s c) as [| |r] eqn:T.
    + rewrite Q. cbn [obind]. destruct (IH true s st C2 (conj I2 W2) H) as [G|(r & D & G)]; [left; rewrite G; reflexivity|].
      destruct r; [| |right; eexists; (split; [apply d_while_final; [exact T|exact D|exact I0 || exact Logic.I]|])..].
      * destruct G as (st1 & -> & H1). cbn [obind]. destruct n as [|n]; [left; reflexivity|]. rewrite step_of.
        destruct (IHn n ltac:(lia)) as [IHs _]. destruct (IHs (SWhile c b) lp s0 st1 C F H1) as [G|(r & D2 & G)]; [left; exact G|right].
        exists r. split; [eapply d_while_next; eassumption|exact G].
      * destruct G as (st1 & -> & H1). right. exists (Falls s0). split; [apply d_while_break; assumption|]. exists st1. auto.
      * destruct G as (st1 & -> & P). exists st1. auto.
      * cbn [comes] in G. rewrite G. reflexivity.
      * cbn [comes] in G. rewrite G. reflexivity.
    + rewrite Q. cbn [obind]. right. exists (Falls s). split; [apply d_while_no; exact T|]. exists st. auto.
    + right. exists r. split; [apply d_while_bad; exact T|]. apply (comes_fails_test _ c s); auto. nobool.
  - intros b IH c lp s st C F H. pose proof C as [C1 C2]. pose proof F as [I W]. cbn [mentions] in I. apply incl_app_inv in I. destruct I as [I1 I2], W as [W1 W2]. cbn [run_stmt].
    destruct (IH true s st C2 (conj I2 W1) H) as [G|(r & D & G)]; [left; rewrite G; reflexivity|].
    destruct r; [| |right; eexists; (split; [apply d_do_final; [exact D|exact Logic.I]|])..].
    + destruct G as (st1 & -> & H1). cbn [obind].
      pose proof (run_tests (run_call_n E n) c s0 st1 C1 I1 W2 H1) as Q. destruct (tests s0 c) as [| |r] eqn:T.
      * rewrite Q. cbn [obind]. destruct n as [|n]; [left; reflexivity|]. rewrite step_of.
        destruct (IHn n ltac:(lia)) as [IHs _]. destruct (IHs (SDo b c) lp s0 st1 C F H1) as [G|(r & D2 & G)]; [left; exact G|right].
        exists r. split; [eapply d_do_next; eassumption|exact G].
      * rewrite Q. cbn [obind]. right. exists (Falls s0). split; [apply d_do_no; assumption|]. exists st1. auto.
      * right. exists r. split; [eapply d_do_bad; eassumption|]. apply (comes_fails_test _ c s0); auto. nobool.
    + destruct G as (st1 & -> & H1). right. exists (Falls s0). split; [apply d_do_break; assumption|]. exists st1. auto.
    + destruct G as (st1 & -> & P). exists st1. auto.
    + cbn [comes] in G. rewrite G. reflexivity.
    + cbn [comes] in G. rewrite G. reflexivity.
  - intros ss IH lp s st C F H. destruct (IH lp s st C F H) as [G|(r & D & G)]; [left; exact G|right]. exists r. split; [constructor; exact D|exact G].
  - intros e lp s st C [I W] H. right. exists (tells s e). split; [constructor; reflexivity|]. cbn [run_stmt].
    pose proof (eval_tells (run_call_n E n) e s st C I W H) as G.
    destruct (tells s e); try contradiction; rewrite G; try reflexivity. exists st. split; [reflexivity|apply H].
  - intros ? ? ? ? ? ? ? C. contradiction C.
  - intros lp s st C F H. right. exists (Falls s). split; [constructor|]. exists st. auto.
  - intros t IH ss IHs lp s st [C1 C2] [I W] H. cbn [mentions_all] in I. apply incl_app_inv in I. destruct I as [I1 I2], W as [W1 W2]. rewrite run_cons.
    destruct (IH lp s st C1 (conj I1 W1) H) as [G|(r & D & G)]; [left; rewrite G; reflexivity|].
    destruct r; [|right; eexists; (split; [apply d_leave; [exact D|discriminate]|])..].
    + destruct G as (st1 & -> & H1). cbn [obind]. destruct (IHs lp s0 st1 C2 (conj I2 W2) H1) as [G|(r & D2 & G)]; [left; exact G|right].
      exists r. split; [eapply d_next; eassumption|exact G].
    + destruct G as (st1 & -> & H1). exists st1. auto.
    + destruct G as (st1 & -> & P). exists st1. auto.
    + cbn [comes] in G. rewrite G. reflexivity.
    + cbn [comes] in G. rewrite G. reflexivity.
Qed.

(** Statements outside a loop do not break. *)
Lemma tells_no_break s e : forall s', tells s e <> Breaks s'.
Proof.
  induction e; intros s' Q; cbn [tells] in Q; try (match type of Q with match ?a with _ => _ end = _ => destruct a; discriminate end).
  destruct (tells s e1) eqn:Q1; try discriminate; [exact (IHe1 _ eq_refl)|]. destruct (tells s e2) eqn:Q2; try discriminate; exact (IHe2 _ eq_refl).
Qed.

Lemma no_breaks : (forall s t r, does s t r -> core false t -> forall s', r <> Breaks s') /\ (forall s ss r, does_all s ss r -> cores false ss -> forall s', r <> Breaks s').
Proof.
  assert (TB : forall s c r s', tests s c = Bad r -> r <> Breaks s').
  { intros s c r s'. unfold tests. destruct (says s c) as [[|[]| | | | | |]| | |]; intros [=]; subst; discriminate. }
  apply does_mut; try discriminate; intros; eauto.
  - intros ->. unfold trouble in e0. destruct (says s e); discriminate.
  - cbn [core] in H0. apply H, H0.
  - cbn [core] in H0. apply H, H0.
  - cbn [core] in H0. apply H, H0.
  - intros ->. exact i.
  - intros ->. exact i.
  - intros ->. exact (tells_no_break _ _ _ e0).
  - cbn [cores] in H1. apply H0, H1.
  - cbn [cores] in H0. apply H, H0.
Qed.

Lemma holds_select s m x : holds s m -> In x X -> select_of E m (VRef l) (VStr x) = OOk (s x, m).
Proof.
  intros (P & K & B & h & V & HX & A) Hx. unfold select_of. rewrite <- A. exact (select_vars E _ m l h x P V (few_tame X h Few HX) (holds_ident x Hx)).
Qed.

(** * The whole program *)
Hypothesis Pe : m_pend m0 = false.

Lemma start_holds : holds nothing (snd (alloc m0 (OMap (new_map (-1))))).
Proof.
  split; [exact Pe|]. split; [|split].
  - intros k o Hk. cbn. rewrite nth_error_app1; [exact Hk|]. apply nth_error_Some. congruence.
  - discriminate.
  - exists []. split; [|split; [constructor|reflexivity]]. apply vars_new. cbn. unfold l. rewrite nth_error_app2, Nat.sub_diag by lia. reflexivity.
Qed.

Definition printed (r : ending) (o : out (list value * sst)) : Prop :=
  match r with
  | Falls s => exists st, o = OOk ([VRef l], st) /\ holds s (t_mem st)
  | Gives vs => exists st, o = OOk (vs, st)
  | Fails => o = OErr
  | Lost => o = OUB
  | Breaks _ => False
  end.

Lemma program_comes n ss r : cores false ss -> does_all nothing ss r ->
  comes r (run_stmt_n E n (SComp ss) sc (mkst (snd (alloc m0 (OMap (new_map (-1))))) [])) -> printed r (run_program E n (SComp ss) m0).
Proof.
  intros C D G. unfold run_program. cbn [alloc snd] in *. change (VRef (length (m_objs m0))) with (VRef l) in *. fold sc.
  destruct r; cbn [comes printed] in *.
  - destruct G as (st & -> & H). cbn [obind]. unfold body_results. rewrite (proj1 H). eauto.
  - exact (proj2 no_breaks _ _ _ D C s eq_refl).
  - destruct G as (st & -> & P). cbn [obind]. unfold body_results. rewrite P. eauto.
  - rewrite G. reflexivity.
  - rewrite G. reflexivity.
Qed.

Lemma program_does ss r : cores false ss -> fines ss -> does_all nothing ss r -> exists n, printed r (run_program E n (SComp ss) m0).
Proof.
  intros C F D. destruct (proj2 does_comes _ _ _ D false C F) as (n0 & G). exists (S n0). apply program_comes; [exact C|exact D|].
  rewrite step_of. exact (G n0 (mkst (snd (alloc m0 (OMap (new_map (-1))))) []) (le_n _) start_holds).
Qed.

Lemma program_fuel ss n : cores false ss -> fines ss -> run_program E n (SComp ss) m0 = OFuel \/ exists r, does_all nothing ss r.
Proof.
  intros C F. destruct n as [|n]; [left; reflexivity|].
  destruct (proj2 (comes_does n) ss false nothing (mkst (snd (alloc m0 (OMap (new_map (-1))))) []) C F start_holds) as [G|(r & D & _)]; [left|right; eauto].
  unfold run_program. cbn [alloc snd] in *. change (VRef (length (m_objs m0))) with (VRef l) in *. fold sc. rewrite step_of.
  change (run_stmt E (run_stmt_n E n) (run_call_n E n) (SComp ss) sc) with (run_stmts E (run_stmt_n E n) (run_call_n E n) ss sc). rewrite G. reflexivity.
Qed.
End While.

(** * From the text on *)
Lemma simple_ok e : simple e -> ok_expr MVal e = true /\ ok_expr MRets e = true /\ callfree e = true /\ tuple_len e = 1.
Proof.
  induction e; cbn [simple]; intros P; try contradiction; cbn; try auto.
  - destruct P as [_ P]. destruct (IHe P) as (-> & _ & -> & _). auto.
  - destruct P as (_ & P1 & P2). destruct (IHe1 P1) as (-> & _ & -> & _). destruct (IHe2 P2) as (-> & _ & -> & _). auto.
  - destruct P as (P1 & P2). destruct (IHe1 P1) as (-> & _ & -> & _). destruct (IHe2 P2) as (-> & _ & -> & _). auto.
  - destruct P as (P1 & P2). destruct (IHe1 P1) as (-> & _ & -> & _). destruct (IHe2 P2) as (-> & _ & -> & _). auto.
Qed.

Lemma simples_ok e : simples e -> ok_expr MRets e = true /\ callfree e = true.
Proof.
  assert (One : forall e, simple e -> ok_expr MRets e = true /\ callfree e = true) by (intros e0 P; destruct (simple_ok e0 P) as (_ & A & B & _); auto).
  induction e; intros P; try exact (One _ P). cbn [simples] in P. destruct P as [P1 P2]. cbn. destruct (IHe1 P1) as [-> ->]. destruct (IHe2 P2) as [-> ->]. auto.
Qed.

Lemma simple_high M e : simple e -> forall m a, m <> MTgt -> fits_expr M m e a = true -> a + 1 <= M.
Proof.
  induction e; cbn [simple]; intros P m a N F; try contradiction; cbn [fits_expr] in F; rewrite ?andb_true_iff, ?Z.leb_le in F; try lia.
  - destruct P as [_ P]. exact (IHe P MVal a ltac:(discriminate) F).
  - destruct P as (_ & P & _). exact (IHe1 P MVal a ltac:(discriminate) (proj1 F)).
Qed.

Lemma simples_high M e : simples e -> forall a, fits_expr M MRets e a = true -> a + tuple_len e <= M.
Proof.
  assert (One : forall e, simple e -> forall a, fits_expr M MRets e a = true -> a + tuple_len e <= M).
  { intros e0 P a F. destruct (simple_ok e0 P) as (_ & _ & _ & ->). exact (simple_high M e0 P MRets a ltac:(discriminate) F). }
  induction e; intros P a F; try exact (One _ P a F). cbn [simples] in P. destruct P as [P1 P2]. cbn [fits_expr] in F. apply andb_true_iff in F. destruct F as [F1 F2].
  specialize (IHe1 P1 a F1). specialize (IHe2 P2 _ F2). cbn [tuple_len]. lia.
Qed.

Lemma core_ok : (forall t lp, core lp t -> fits_stmt 16 t = true -> ok_stmt lp t = true /\ callfree_stmt t = true) /\
  (forall ss lp, cores lp ss -> fits_stmts 16 ss = true -> ok_stmts lp ss = true /\ callfree_stmts ss = true).
Proof.
  apply stmt_mut2.
  - intros e lp C F. destruct e; try contradiction C. destruct e1; try contradiction C. cbn [core] in C. destruct (simple_ok _ C) as (A & _ & B & _).
    cbn [ok_stmt ok_expr callfree_stmt callfree value_mode tuple_len]. change (1 =? 1) with true. cbn iota. rewrite A, B. auto.
  - intros lp C F. cbn in *. auto.
  - intros c t IH lp [C1 C2] F. cbn [fits_stmt] in F. apply andb_true_iff in F. destruct F as [_ F]. destruct (simple_ok _ C1) as (A & _ & B & _).
    destruct (IH lp C2 F) as [G1 G2]. cbn [ok_stmt callfree_stmt]. rewrite A, B, G1, G2. auto.
  - intros c t IHt f IHf lp (C1 & C2 & C3) F. cbn [fits_stmt] in F. apply andb_true_iff in F. destruct F as [F F3]. apply andb_true_iff in F. destruct F as [_ F].
    destruct (simple_ok _ C1) as (A & _ & B & _). destruct (IHt lp C2 F) as [G1 G2]. destruct (IHf lp C3 F3) as [G3 G4]. cbn [ok_stmt callfree_stmt]. rewrite A, B, G1, G2, G3, G4. auto.
  - intros c t IH lp [C1 C2] F. cbn [fits_stmt] in F. apply andb_true_iff in F. destruct F as [_ F]. destruct (simple_ok _ C1) as (A & _ & B & _).
    destruct (IH true C2 F) as [G1 G2]. cbn [ok_stmt callfree_stmt]. rewrite A, B, G1, G2. auto.
  - intros t IH c lp [C1 C2] F. cbn [fits_stmt] in F. apply andb_true_iff in F. destruct F as [F _]. destruct (simple_ok _ C1) as (A & _ & B & _).
    destruct (IH true C2 F) as [G1 G2]. cbn [ok_stmt callfree_stmt]. rewrite A, B, G1, G2. auto.
  - intros ss IH lp C F. exact (IH lp C F).
  - intros e lp C F. cbn [core fits_stmt] in *. destruct (simples_ok e C) as [A B]. pose proof (simples_high 16 e C 0 F) as H.
    cbn [ok_stmt callfree_stmt]. rewrite A, B. replace (MAX_TUPLE <? tuple_len e) with false; [auto|]. symmetry. apply Z.ltb_ge. unfold MAX_TUPLE. lia.
  - intros ? ? ? ? ? C. contradiction C.
  - intros lp _ _. auto.
  - intros t IH ss IHs lp [C1 C2] F. cbn [fits_stmts] in F. apply andb_true_iff in F. destruct F as [F1 F2].
    destruct (IH lp C1 F1) as [G1 G2]. destruct (IHs lp C2 F2) as [G3 G4]. cbn [ok_stmts callfree_stmts]. rewrite G1, G2, G3, G4. auto.
Qed.

Lemma performs src ss X : text_ok src -> slen src < 2 ^ 26 -> reads src ss -> cores false ss -> incl (mentions_all ss) X -> few X -> fits_stmts 16 ss = true ->
  exists x, compile src = ROk x /\ forall E cap m, 256 <= cap -> m_pend m = false -> unknown E m X ->
  (forall r, does_all nothing ss r ->
    match r with
    | Falls s => exists j l m', steps E cap x j (vm_start m) = SDone [VRef l] m' /\ forall y, In y X -> select_of E m' (VRef l) (VStr y) = OOk (s y, m')
    | Gives vs => exists j m', steps E cap x j (vm_start m) = SDone vs m'
    | Fails => exists j, steps E cap x j (vm_start m) = SErr
    | Lost => exists j, steps E cap x j (vm_start m) = VmModel.SUB
    | Breaks _ => False
    end) /\
  (~ short_of_fuel E -> ~ (exists r, does_all nothing ss r) -> forall j, exists s, steps E cap x j (vm_start m) = SNext s).
Proof.
  intros T L R C I Fw Ft. destruct (proj2 core_ok ss false C Ft) as [OK Cf].
  assert (W : wf_stmts ss). { pose proof R as P. apply reads_parse in P. destruct (parse_tree _ _ _ _ P T) as [W _]. exact W. }
  destruct (compile_good src _ T L R OK) as (x & Cp & Cd). exists x. split; [exact Cp|]. intros E cap m Hc Pe Un.
  assert (Lim : forall P : Prop, (exists j, steps E cap x j (vm_start m) = SLimit) \/ P -> P).
  { intros P [[j Hl]|H]; [|exact H]. exfalso. exact (callfree_no_limit _ _ Cd Ft Cf E cap m j Hc Hl). }
  split.
  - intros r D. destruct (program_does E m X Fw Un Pe ss r C (conj I W) D) as (n & G). pose proof (Lim _ (runs E cap _ x Cd m n)) as H.
    destruct r; cbn [printed] in G.
    + destruct G as (st & Q & Hs). rewrite Q in H. destruct H as [j H]. exists j, (length (m_objs m)), (t_mem st). split; [exact H|]. intros y Hy. exact (holds_select E m X Fw s _ y Hs Hy).
    + contradiction.
    + destruct G as (st & Q). rewrite Q in H. destruct H as [j H]. eauto.
    + rewrite G in H. exact H.
    + rewrite G in H. exact H.
  - intros Sh Nd j. pose proof (Lim _ (runs_fuel E cap _ x Cd m j)) as H. destruct (program_fuel E m X Fw Un Pe ss j C (conj I W)) as [Q|Q]; [|contradiction].
    rewrite Q in H. destruct H as [[S _]|H]; [contradiction|exact H].
Qed.

(** * Names that are not built-in *)
Lemma unknown_none E m X : e_builtins E = None -> unknown E m X.
Proof. intros H m' x _ _ _. cbn [get_in]. rewrite H. reflexivity. Qed.

(** With the default builtins. *)
Lemma unknown_std E m X b : nth_error (m_objs m) b = Some (OSMap 0) -> (forall x, In x X -> no_nul x /\ ~ exists name, In name known_names /\ x = bytes_of name) ->
  unknown (std_env E (Some (VRef b))) m X.
Proof.
  intros Hb HX m' x Hx Pm K. cbn [get_in std_env e_builtins]. unfold select_of.
  assert (Q : forall n, obj_select (std_env E (Some (VRef b))) n m' (VRef b) (VStr x) = OOk (None, m')).
  { intros n. destruct (HX x Hx) as [N U]. destruct n; cbn [obj_select]; rewrite (K _ _ Hb); cbn [std_env e_smap]; exact (proj2 (known E x m' N) U). }
  rewrite Q. reflexivity.
Qed.

(** * The description has one answer *)
Lemma does_one : (forall s t r, does s t r -> forall r', does s t r' -> r = r') /\ (forall s ss r, does_all s ss r -> forall r', does_all s ss r' -> r = r').
Proof.
  apply does_mut; intros.
  all: match goal with D : does _ _ ?r' |- _ = ?r' => inversion D; subst; clear D | D : does_all _ _ ?r' |- _ = ?r' => inversion D; subst; clear D end.
  all: repeat match goal with
    | IH : forall r', does ?s ?t r' -> ?r = r', D : does ?s ?t ?q |- _ => pose proof (IH _ D); clear D
    | IH : forall r', does_all ?s ?t r' -> ?r = r', D : does_all ?s ?t ?q |- _ => pose proof (IH _ D); clear D end.
  all: repeat match goal with H : Falls _ = Falls _ |- _ => injection H as <- | H : Breaks _ = Breaks _ |- _ => injection H as <- end.
  all: repeat match goal with
    | IH : forall r', does ?s ?t r' -> ?r = r', D : does ?s ?t ?q |- _ => pose proof (IH _ D); clear D
    | IH : forall r', does_all ?s ?t r' -> ?r = r', D : does_all ?s ?t ?q |- _ => pose proof (IH _ D); clear D end.
  all: subst; try congruence; try contradiction; try (cbn in *; contradiction).
  all: try (match goal with H : trouble (says ?s ?e) = Some _, H2 : says ?s ?e = AVal _ |- _ => rewrite H2 in H; discriminate end).
  all: try (exfalso; match goal with H : forall s1, Falls ?x <> Falls s1 |- _ => exact (H x eq_refl) end).
Qed.

(** * Euclid's algorithm, as an example of a program with a loop *)
Definition n_a : list Z := [97].
Definition n_b : list Z := [98].
Definition n_t : list Z := [116].
Definition euclid_loop : stmt :=
  SWhile (EBin BNql (EIdent n_b) (EInt 0)) (SComp (SCons (SExpr (EAss (EIdent n_t) (EBin BMod (EIdent n_a) (EIdent n_b))))
    (SCons (SExpr (EAss (EIdent n_a) (EIdent n_b))) (SCons (SExpr (EAss (EIdent n_b) (EIdent n_t))) SNil)))).
Definition euclid (a b : Z) : stmts :=
  SCons (SExpr (EAss (EIdent n_a) (EInt a))) (SCons (SExpr (EAss (EIdent n_b) (EInt b))) (SCons euclid_loop (SCons (SReturn (EIdent n_a)) SNil))).

Lemma euclid_loops : forall n b a s, (Z.to_nat b < n)%nat -> 0 <= a -> 0 <= b -> s n_a = Some (VInt a) -> s n_b = Some (VInt b) ->
  exists s', does s euclid_loop (Falls s') /\ s' n_a = Some (VInt (Z.gcd a b)).
Proof.
  induction n as [|n IH]; intros b a s Hn Ha Hb Sa Sb; [lia|]. destruct (Z.eq_dec b 0) as [->|Nb].
  - exists s. split; [|rewrite Z.gcd_0_r, Z.abs_eq by exact Ha; exact Sa]. apply d_while_no. unfold tests. cbn. rewrite Sb. reflexivity.
  - pose proof (Z.rem_bound_pos a b Ha ltac:(lia)) as Hr.
    set (s1 := put_in s n_t (VInt (Z.rem a b))). set (s2 := put_in s1 n_a (VInt b)). set (s3 := put_in s2 n_b (VInt (Z.rem a b))).
    destruct (IH (Z.rem a b) b s3) as (s' & D & G); [lia|lia|lia|reflexivity|reflexivity|].
    exists s'. split.
    + apply d_while_next with (s1 := s3); [| |exact D].
      * unfold tests. cbn. rewrite Sb. cbn. replace (b =? 0) with false by (symmetry; apply Z.eqb_neq; exact Nb). reflexivity.
      * apply d_block. apply d_next with (s1 := s1).
        { apply d_assign. cbn. rewrite Sa, Sb. cbn. replace (b =? 0) with false by (symmetry; apply Z.eqb_neq; exact Nb).
          replace (b =? -1) with false by (symmetry; apply Z.eqb_neq; lia). rewrite andb_false_r. reflexivity. }
        apply d_next with (s1 := s2). { apply d_assign. cbn. unfold s1, put_in. cbn. exact (f_equal (fun o => match o with Some v => AVal v | None => AErr end) Sb). }
        apply d_next with (s1 := s3); [apply d_assign; reflexivity|apply d_nil].
    + rewrite G. f_equal. f_equal. rewrite (Z.rem_mod_nonneg a b Ha) by lia. rewrite Z.gcd_comm, Z.gcd_mod by exact Nb. apply Z.gcd_comm.
Qed.

Lemma euclid_does a b : 0 <= a -> 0 <= b -> does_all nothing (euclid a b) (Gives [VInt (Z.gcd a b)]).
Proof.
  intros Ha Hb. set (s1 := put_in nothing n_a (VInt a)). set (s2 := put_in s1 n_b (VInt b)).
  destruct (euclid_loops (S (Z.to_nat b)) b a s2) as (s3 & D & G); [lia|exact Ha|exact Hb|reflexivity|reflexivity|].
  apply d_next with (s1 := s1); [apply d_assign; reflexivity|]. apply d_next with (s1 := s2); [apply d_assign; reflexivity|].
  apply d_next with (s1 := s3); [exact D|]. apply d_leave; [|discriminate]. apply d_return. cbn. rewrite G. reflexivity.
Qed.

Lemma euclid_few : few [n_a; n_b; n_t].
Proof. split; [repeat constructor; vm_compute; try discriminate; reflexivity|left; cbn; lia]. Qed.

Lemma euclid_runs src a b : text_ok src -> slen src < 2 ^ 26 -> reads src (euclid a b) -> 0 <= a -> 0 <= b ->
  exists x, compile src = ROk x /\ forall E cap m, 256 <= cap -> m_pend m = false -> unknown E m [n_a; n_b; n_t] ->
  exists j m', steps E cap x j (vm_start m) = SDone [VInt (Z.gcd a b)] m'.
Proof.
  intros T L R Ha Hb. destruct (performs src (euclid a b) [n_a; n_b; n_t] T L R) as (x & C & H).
  - cbn; intuition discriminate.
  - intros y. cbn. tauto.
  - exact euclid_few.
  - reflexivity.
  - exists x. split; [exact C|]. intros E cap m Hc Pe Un. destruct (H E cap m Hc Pe Un) as [D _]. exact (D _ (euclid_does a b Ha Hb)).
Qed.
