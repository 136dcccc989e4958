(** The code generator and its resolved form (CompSpec.v). *)
From Coq Require Import ZArith List Lia Bool Permutation.
From Verif Require Import Base StringModel ExeModel ExeSpec ExeProofs AstModel CodegenModel CompSpec.
Import ListNotations.
Open Scope Z_scope.

(** * Induction with method calls as a case of their own *)

Definition not_arrow (e : expr) : Prop := match e with EArw _ _ => False | _ => True end.

Section Ind.
Variables (P : expr -> Prop) (Ps : exprs -> Prop) (Pp : pairs -> Prop) (Pa : params -> Prop) (Pt : stmt -> Prop) (Pts : stmts -> Prop).
Let Po (o : oexpr) : Prop := match o with ONo => True | OYes e => P e end.
Hypothesis hInt : forall z, P (EInt z).
Hypothesis hFlt : forall z, P (EFlt z).
Hypothesis hStr : forall z, P (EStr z).
Hypothesis hIdent : forall z, P (EIdent z).
Hypothesis hNone : P ENone.
Hypothesis hTrue : P ETrue.
Hypothesis hFalse : P EFalse.
Hypothesis hUn : forall op a, P a -> P (EUn op a).
Hypothesis hBin : forall op a b, P a -> P b -> P (EBin op a b).
Hypothesis hAnd : forall a b, P a -> P b -> P (EAnd a b).
Hypothesis hOr : forall a b, P a -> P b -> P (EOr a b).
Hypothesis hAss : forall a b, P a -> P b -> P (EAss a b).
Hypothesis hPair : forall a b, P a -> P b -> P (EPair a b).
Hypothesis hArw : forall a b, P a -> P b -> P (EArw a b).
Hypothesis hSel : forall a b, P a -> P b -> P (ESel a b).
Hypothesis hList : forall es, Ps es -> P (EList es).
Hypothesis hMap : forall ps, Pp ps -> P (EMap ps).
Hypothesis hCall : forall f args, not_arrow f -> P f -> Ps args -> P (ECall f args).
Hypothesis hMeth : forall a b args, P a -> P b -> Ps args -> P (ECall (EArw a b) args).
Hypothesis hFun : forall ps body, Pa ps -> Pt body -> P (EFun ps body).
Hypothesis hENil : Ps ENil.
Hypothesis hECons : forall e r, P e -> Ps r -> Ps (ECons e r).
Hypothesis hPNil : Pp PNil.
Hypothesis hPCons : forall k v r, P k -> P v -> Pp r -> Pp (PCons k v r).
Hypothesis hANil : Pa ANil.
Hypothesis hACons : forall name ty df r, Po ty -> Po df -> Pa r -> Pa (ACons name ty df r).
Hypothesis hSExpr : forall e, P e -> Pt (SExpr e).
Hypothesis hSBreak : Pt SBreak.
Hypothesis hSIf : forall c t, P c -> Pt t -> Pt (SIf c t).
Hypothesis hSIfElse : forall c t f, P c -> Pt t -> Pt f -> Pt (SIfElse c t f).
Hypothesis hSWhile : forall c b, P c -> Pt b -> Pt (SWhile c b).
Hypothesis hSDo : forall b c, Pt b -> P c -> Pt (SDo b c).
Hypothesis hSComp : forall ss, Pts ss -> Pt (SComp ss).
Hypothesis hSReturn : forall e, P e -> Pt (SReturn e).
Hypothesis hSFunc : forall name ps body, Pa ps -> Pt body -> Pt (SFunc name ps body).
Hypothesis hSNil : Pts SNil.
Hypothesis hSCons : forall s r, Pt s -> Pts r -> Pts (SCons s r).

Let Q (e : expr) : Prop := P e /\ match e with EArw a b => P a /\ P b | _ => True end.
Let Qo (o : oexpr) : Prop := match o with ONo => True | OYes e => P e end.

Lemma ast_ind2 :
  (forall e, P e) /\ (forall es, Ps es) /\ (forall ps, Pp ps) /\ (forall ps, Pa ps) /\ (forall s, Pt s) /\ (forall ss, Pts ss).
Proof.
  assert (H : (forall e, Q e) /\ (forall es, Ps es) /\ (forall ps, Pp ps) /\ (forall ps, Pa ps) /\ (forall o, Qo o) /\
    (forall s, Pt s) /\ (forall ss, Pts ss)).
  { apply ast_ind; unfold Q, Qo; intros;
      repeat match goal with H : P _ /\ _ |- _ => destruct H end;
      auto; try (split; [|exact I]; auto); auto.
    destruct f; try (apply hCall; auto; exact I).
    match goal with H : P _ /\ P _ |- _ => destruct H end. apply hMeth; auto. }
  destruct H as (H1 & H2 & H3 & H4 & _ & H6 & H7).
  split; [|auto]. intros e. apply H1.
Qed.
End Ind.

(** * Sizes *)

Lemma pop_size_code s : Z.of_nat (length (pop_code s)) = pop_size s.
Proof. unfold pop_code, pop_size. destruct (is_expr s); reflexivity. Qed.

Lemma pop_size_nonneg s : 0 <= pop_size s <= 1.
Proof. unfold pop_size. destruct (is_expr s); lia. Qed.

Ltac pops :=
  repeat match goal with
  | |- context [pop_size ?s] => lazymatch goal with K : 0 <= pop_size s <= 1 |- _ => fail | _ => pose proof (pop_size_nonneg s) end
  end.

Ltac inst_modes :=
  repeat match goal with
  | H : forall m : mode, @?Q m |- context [size_expr ?m ?e] =>
    lazymatch type of (H m) with
    | context [size_expr m e] =>
      let T := type of (H m) in let T := eval cbv beta in T in
      lazymatch goal with K : T |- _ => fail | _ => pose proof (H m : T) end
    end
  end.

Lemma size_nonneg :
  (forall e m, 0 <= size_expr m e) /\ (forall es, 0 <= size_args es /\ 0 <= size_items es) /\ (forall ps, 0 <= size_pairs ps) /\
  (forall ps, 0 <= size_params ps) /\ (forall s, 0 <= size_stmt s) /\ (forall ss, 0 <= size_stmts ss).
Proof.
  apply ast_ind2; intros; cbn [size_expr size_args size_items size_pairs size_params size_stmt size_stmts]; pops; inst_modes; try lia.
  - destruct m; inst_modes; lia.
  - match goal with H : forall m, 0 <= size_expr m f |- _ => pose proof (H MVal) end. destruct f; try contradiction; lia.
  - destruct ty, df; inst_modes; lia.
Qed.

Lemma call_size f args m : not_arrow f -> size_expr m (ECall f args) = size_args args + (size_expr MVal f + 1).
Proof. destruct f; intros H; try contradiction; reflexivity. Qed.
Lemma call_comp f args m pos : not_arrow f -> comp_expr m (ECall f args) pos =
  comp_args args pos ++ comp_expr MVal f (pos + size_args args) ++ [(OP_CALL, [PInt (exprs_len args); PInt (returns_of m)])].
Proof. destruct f; intros H; try contradiction; reflexivity. Qed.
Lemma call_ok f args m : not_arrow f -> ok_expr m (ECall f args) =
  match m with MTgt => false | _ => ok_exprs args && ok_expr MVal f end.
Proof. destruct f; intros H; try contradiction; reflexivity. Qed.
Lemma call_cg f args m : not_arrow f -> cg_expr m (ECall f args) =
  match m with MTgt => g_fail | _ => (cg_args args ;; cg_expr MVal f ;; g_emit OP_CALL [PInt (exprs_len args); PInt (returns_of m)])%gen end.
Proof. destruct f; intros H; try contradiction; reflexivity. Qed.

Ltac lens := rewrite ?app_length, ?Nat2Z.inj_add; cbn [length]; rewrite ?pop_size_code.

Lemma comp_size :
  (forall e m pos, Z.of_nat (length (comp_expr m e pos)) = size_expr m e) /\
  (forall es, (forall pos, Z.of_nat (length (comp_args es pos)) = size_args es) /\
              (forall i pos, Z.of_nat (length (comp_items i es pos)) = size_items es)) /\
  (forall ps pos, Z.of_nat (length (comp_pairs ps pos)) = size_pairs ps) /\
  (forall ps i pos, Z.of_nat (length (comp_params i ps pos)) = size_params ps) /\
  (forall s brk pos, Z.of_nat (length (comp_stmt brk s pos)) = size_stmt s) /\
  (forall ss brk pos, Z.of_nat (length (comp_stmts brk ss pos)) = size_stmts ss).
Proof.
  apply ast_ind2; intros; repeat match goal with H : (forall pos, _) /\ _ |- _ => destruct H | |- _ /\ _ => split; intros end;
    try (rewrite call_comp, call_size by assumption);
    cbn [comp_expr comp_args comp_items comp_pairs comp_params comp_stmt comp_stmts
         size_expr size_args size_items size_pairs size_params size_stmt size_stmts];
    unfold func_code, body_code;
    lens; repeat match goal with H : forall _, _ |- _ => rewrite H end; lens;
    try reflexivity; try lia.
  - destruct m; reflexivity.
  - destruct m; lens; repeat match goal with H : forall _, _ |- _ => rewrite H end; lia.
  - destruct ty, df; lens; repeat match goal with H : forall _, _ |- _ => rewrite H end; cbn [length]; lia.
Qed.

Lemma ok_size :
  (forall e m, ok_expr m e = true -> 1 <= size_expr m e) /\
  (forall es, ok_exprs es = true -> exprs_len es <= size_args es /\ exprs_len es <= size_items es) /\
  (forall ps, ok_pairs ps = true -> pairs_len ps <= size_pairs ps).
Proof.
  pose proof size_nonneg as (Se & Ss & Sp & Sa & St & _).
  assert (H : (forall e m, ok_expr m e = true -> 1 <= size_expr m e) /\
  (forall es, ok_exprs es = true -> exprs_len es <= size_args es /\ exprs_len es <= size_items es) /\
  (forall ps, ok_pairs ps = true -> pairs_len ps <= size_pairs ps) /\
  (forall ps : params, True) /\ (forall s : stmt, True) /\ (forall ss : stmts, True)); [|tauto].
  apply ast_ind2; intros; auto; try (rewrite call_size by assumption); try (rewrite call_ok in * by assumption);
    cbn [ok_expr ok_exprs ok_pairs size_expr size_args size_items size_pairs exprs_len pairs_len] in *;
    repeat match goal with H : _ && _ = true |- _ => apply andb_prop in H; destruct H end;
    try discriminate;
    repeat match goal with
    | |- context [size_expr ?m ?e] => lazymatch goal with K : 0 <= size_expr m e |- _ => fail | _ => pose proof (Se e m) end
    | |- context [size_args ?e] => lazymatch goal with K : 0 <= size_args e /\ _ |- _ => fail | _ => pose proof (Ss e) end
    | |- context [size_items ?e] => lazymatch goal with K : 0 <= size_args e /\ _ |- _ => fail | _ => pose proof (Ss e) end
    | |- context [size_pairs ?e] => lazymatch goal with K : 0 <= size_pairs e |- _ => fail | _ => pose proof (Sp e) end
    | |- context [size_params ?e] => lazymatch goal with K : 0 <= size_params e |- _ => fail | _ => pose proof (Sa e) end
    | |- context [size_stmt ?e] => lazymatch goal with K : 0 <= size_stmt e |- _ => fail | _ => pose proof (St e) end
    end; pops; try lia.
  - match goal with H : forall m, ok_expr m b = true -> _, K : ok_expr _ b = true |- _ => pose proof (H _ K) end. lia.
  - destruct m; try discriminate; apply andb_prop in H1; destruct H1 as [Ha Hb];
      repeat match goal with |- context [size_expr ?m ?e] => lazymatch goal with K : 0 <= size_expr m e |- _ => fail | _ => pose proof (Se e m) end end; try lia.
    specialize (H _ Ha); lia.
  - repeat match goal with
      H : ?a = true -> _, K : ?a = true |- _ => specialize (H K)
    | H : forall m, ok_expr m ?b = true -> _, K : ok_expr _ ?b = true |- _ => specialize (H _ K)
    end. lia.
  - repeat match goal with H : ?a = true -> _, K : ?a = true |- _ => specialize (H K) end. lia.
Qed.

(** * Label values *)

Fixpoint cnt (q : nat) (evs : list bevent) : nat :=
  match evs with
  | [] => O
  | EvSet p _ :: r => ((if Nat.eqb p q then 1 else 0) + cnt q r)%nat
  | _ :: r => cnt q r
  end.
Definition ind (n n' q : nat) : nat := if Nat.leb n q && Nat.ltb q n' then 1%nat else 0%nat.

Fixpoint agrees (V : nat -> option Z) (evs : list bevent) : Prop :=
  match evs with
  | [] => True
  | EvSet p v :: r => V p = Some v /\ agrees V r
  | _ :: r => agrees V r
  end.

Fixpoint bounded (lo hi : Z) (evs : list bevent) : Prop :=
  match evs with
  | [] => True
  | EvSet _ v :: r => lo <= v <= hi /\ bounded lo hi r
  | _ :: r => bounded lo hi r
  end.

Definition settled (V : nat -> option Z) (ty : optype) (o : operand) : option operand :=
  match o with
  | PProm p =>
    match V p with
    | Some v => Some (match ty with TIdx => PIdx v | TInt => PInt v | TFlt => PFlt (u64 v) | TStr => PStr [] end)
    | None => None
    end
  | _ => Some o
  end.
Fixpoint settleds (V : nat -> option Z) (tys : list optype) (os : list operand) : list (option operand) :=
  match tys, os with
  | ty :: tys', o :: os' => settled V ty o :: settleds V tys' os'
  | _, _ => []
  end.
Fixpoint emitted_with (V : nat -> option Z) (evs : list bevent) : list (opcode * list (option operand)) :=
  match evs with
  | [] => []
  | EvEmit op os _ _ :: r => (op, settleds V (optypes op) os) :: emitted_with V r
  | _ :: r => emitted_with V r
  end.

Lemma cnt_app q a b : cnt q (a ++ b) = (cnt q a + cnt q b)%nat.
Proof. induction a as [|[]]; cbn [app cnt]; lia. Qed.
Lemma agrees_app V a b : agrees V (a ++ b) <-> agrees V a /\ agrees V b.
Proof. induction a as [|[]]; cbn [app agrees]; tauto. Qed.
Lemma bounded_app lo hi a b : bounded lo hi (a ++ b) <-> bounded lo hi a /\ bounded lo hi b.
Proof. induction a as [|[]]; cbn [app bounded]; tauto. Qed.
Lemma bounded_weaken lo hi lo' hi' a : bounded lo hi a -> lo' <= lo -> hi <= hi' -> bounded lo' hi' a.
Proof. intros H ? ?. induction a as [|[]]; cbn [bounded] in *; intuition lia. Qed.
Lemma emitted_with_app V a b : emitted_with V (a ++ b) = emitted_with V a ++ emitted_with V b.
Proof. induction a as [|[]]; cbn [app emitted_with]; congruence. Qed.

Definition value_of (ls : list (option Z)) (future : list bevent) (q : nat) : option Z :=
  match nth_error ls q with Some (Some v) => Some v | _ => first_set future q end.

Lemma delivers_settleds ls r V : (forall q, V q = value_of ls r q) -> forall tys os, delivers ls r tys os = settleds V tys os.
Proof.
  intros H. induction tys as [|ty tys IH]; intros [|o os]; try reflexivity.
  cbn [delivers settleds]. rewrite IH. f_equal. destruct o; try reflexivity.
  cbn [deliver settled]. rewrite H. unfold value_of. reflexivity.
Qed.

Lemma cnt_zero_first q evs : cnt q evs = O -> first_set evs q = None.
Proof.
  induction evs as [|[|p v|]]; cbn [cnt first_set]; auto. destruct (Nat.eqb_spec p q); [lia|auto].
Qed.

Lemma emitted_resolved V : forall evs ls, history_typed (length ls) evs -> (forall q, cnt q evs <= 1)%nat ->
  (forall q v, nth_error ls q = Some (Some v) -> cnt q evs = O) ->
  (forall q, V q = value_of ls evs q) -> emitted ls evs = emitted_with V evs.
Proof.
  induction evs as [|[|p v|op os off len] evs IH]; intros ls Ht H1 H0 HV; cbn [emitted emitted_with]; [reflexivity| | |].
  - apply IH; cbn [history_typed cnt] in *.
    + rewrite app_length, Nat.add_1_r. exact Ht.
    + exact H1.
    + intros q v Hq. apply (H0 q v). destruct (Nat.lt_ge_cases q (length ls)) as [Hl|Hl].
      * rewrite nth_error_app1 in Hq by exact Hl. exact Hq.
      * rewrite nth_error_app2 in Hq by exact Hl. destruct (q - length ls)%nat as [|k]; [discriminate|]. destruct k; discriminate.
    + intros q. rewrite HV. unfold value_of. cbn [first_set].
      destruct (Nat.lt_ge_cases q (length ls)) as [Hl|Hl].
      * rewrite nth_error_app1 by exact Hl. reflexivity.
      * rewrite nth_error_app2 by exact Hl. rewrite (proj2 (nth_error_None ls q)) by exact Hl.
        destruct (q - length ls)%nat as [|k]; [reflexivity|]. destruct k; reflexivity.
  - cbn [history_typed cnt] in *. destruct Ht as [Hp Ht]. apply IH.
    + rewrite upd_length. exact Ht.
    + intros q. specialize (H1 q). lia.
    + intros q w Hq. destruct (Nat.eq_dec p q) as [<-|Hne].
      * specialize (H1 p). rewrite Nat.eqb_refl in H1. lia.
      * rewrite nth_error_upd_other in Hq by congruence. specialize (H0 q w Hq). lia.
    + intros q. rewrite HV. unfold value_of. cbn [first_set]. destruct (Nat.eqb_spec p q) as [<-|Hne].
      * rewrite nth_error_upd_same by exact Hp.
        destruct (nth_error ls p) as [[w|]|] eqn:E; try reflexivity.
        specialize (H0 p w E). rewrite Nat.eqb_refl in H0. lia.
      * rewrite nth_error_upd_other by congruence. reflexivity.
  - cbn [history_typed cnt] in *. destruct Ht as [_ Ht]. f_equal; [|apply IH; auto].
    f_equal. apply delivers_settleds. intros q. rewrite HV. reflexivity.
Qed.
