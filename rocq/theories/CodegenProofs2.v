(** The operations of the code generator emit the resolved code. *)
From Coq Require Import ZArith List Lia Bool.
From Verif Require Import Base StringModel ExeModel ExeSpec ExeProofs AstModel CodegenModel CompSpec CodegenProofs.
Import ListNotations.
Open Scope Z_scope.

Definition inj (i : instr) : opcode * list (option operand) := (fst i, map Some (snd i)).

Definition good (g : gen) (okb : bool) (sz : Z) (brk : option nat) (c : Z -> Z -> list instr) : Prop :=
  forall n p,
  (okb = false -> g n p = None) /\
  (okb = true -> exists evs n', g n p = Some (evs, n', p + sz) /\ (n <= n')%nat /\
     (forall q, cnt q evs = ind n n' q) /\
     ((forall q, brk = Some q -> (q < n)%nat) -> forall rest, history_typed n' rest -> history_typed n (evs ++ rest)) /\
     bounded p (p + sz) evs /\
     (forall V bv, agrees V evs -> (forall q, brk = Some q -> V q = Some bv) -> emitted_with V evs = map inj (c bv p))).

Definition some {A} (o : option A) : bool := match o with Some _ => true | None => false end.

Lemma intro_good (g : option (list bevent * nat * Z)) (n : nat) p sz brk c evs n' p' :
  g = Some (evs, n', p') -> p' = p + sz -> (n <= n')%nat ->
  (forall q, cnt q evs = ind n n' q) ->
  ((forall q, brk = Some q -> (q < n)%nat) -> forall rest, history_typed n' rest -> history_typed n (evs ++ rest)) ->
  bounded p (p + sz) evs ->
  (forall V bv, agrees V evs -> (forall q, brk = Some q -> V q = Some bv) -> emitted_with V evs = map inj (c bv p)) ->
  exists evs n', g = Some (evs, n', p + sz) /\ (n <= n')%nat /\
     (forall q, cnt q evs = ind n n' q) /\
     ((forall q, brk = Some q -> (q < n)%nat) -> forall rest, history_typed n' rest -> history_typed n (evs ++ rest)) /\
     bounded p (p + sz) evs /\
     (forall V bv, agrees V evs -> (forall q, brk = Some q -> V q = Some bv) -> emitted_with V evs = map inj (c bv p)).
Proof. intros -> -> ? ? ? ? ?. exists evs, n'. auto 10. Qed.

(** Run the next sub-generation in the goal. *)
Ltac take H n p b :=
  let Hf := fresh "Hf" in let Hs := fresh "Hs" in
  destruct (H n p) as [Hf Hs]; cbn [some] in Hf, Hs; destruct b eqn:?;
  [ clear Hf; destruct (Hs eq_refl) as (?evs & ?n' & ?E & ?Hn & ?Hc & ?Ht & ?Hb & ?He); clear Hs;
    match goal with E : _ = Some _ |- _ => rewrite E; clear E end
  | clear Hs; rewrite (Hf eq_refl); clear Hf ].

Ltac run :=
  repeat first
  [ match goal with
    | |- context [match cg_expr ?m ?e ?n ?p with Some _ => _ | None => _ end] =>
      match goal with H : forall m, good (cg_expr m e) _ _ _ _ |- _ => take (H m) n p (ok_expr m e) end
    | |- context [match cg_args ?e ?n ?p with Some _ => _ | None => _ end] =>
      match goal with H : good (cg_args e) _ _ _ _ |- _ => take H n p (ok_exprs e) end
    | |- context [match cg_items ?i ?e ?n ?p with Some _ => _ | None => _ end] =>
      match goal with H : forall i, good (cg_items i e) _ _ _ _ |- _ => take (H i) n p (ok_exprs e) end
    | |- context [match cg_pairs ?e ?n ?p with Some _ => _ | None => _ end] =>
      match goal with H : good (cg_pairs e) _ _ _ _ |- _ => take H n p (ok_pairs e) end
    | |- context [match cg_params ?i ?e ?n ?p with Some _ => _ | None => _ end] =>
      match goal with H : forall i, good (cg_params i e) _ _ _ _ |- _ => take (H i) n p (ok_params e) end
    | |- context [match cg_stmt ?b ?e ?n ?p with Some _ => _ | None => _ end] =>
      match goal with H : forall b, good (cg_stmt b e) _ _ _ _ |- _ => let v := eval cbn [some] in (some b) in take (H b) n p (ok_stmt v e) end
    | |- context [match cg_stmts ?b ?e ?n ?p with Some _ => _ | None => _ end] =>
      match goal with H : forall b, good (cg_stmts b e) _ _ _ _ |- _ => let v := eval cbn [some] in (some b) in take (H b) n p (ok_stmts v e) end
    end
  | progress unfold g_seq, g_label, g_emit, g_here, g_count, g_fail, g_nil, g_pop1, g_ass, g_func, for_value, value_mode
  | progress cbn [some andb negb] ].

Ltac count :=
  let q := fresh "q" in
  intros q; repeat (cbn [cnt app]; rewrite ?cnt_app); cbn [cnt app];
  repeat match goal with H : forall q, cnt q ?e = ind _ _ q |- context [cnt q ?e] => rewrite (H q) end;
  unfold ind;
  repeat match goal with
  | |- context [Nat.leb ?a ?b] => destruct (Nat.leb_spec a b)
  | |- context [Nat.ltb ?a ?b] => destruct (Nat.ltb_spec a b)
  | |- context [Nat.eqb ?a ?b] => destruct (Nat.eqb_spec a b)
  end; cbn [andb]; lia.

Ltac typed :=
  intros ?Hbrk ?rest ?Hrest;
  repeat first
  [ rewrite <- app_assoc
  | progress cbn [app history_typed]
  | assumption
  | lia
  | match goal with
    | Ht : _ -> forall rest, history_typed ?n2 rest -> history_typed ?n1 (?e ++ rest) |- history_typed ?n1 (?e ++ _) =>
      apply Ht; [try (intros ? ?; discriminate); try (intros ? [= <-]; lia); try (intros ? ?; match goal with H : forall q, _ = Some q -> _, K : _ = Some _ |- _ => specialize (H _ K); lia end)|]
    | Hn : _ |- (_ < _)%nat /\ _ => split
    | |- Forall2 _ _ _ /\ _ => split; [cbn [optypes unop_code binop_code]; repeat first [apply Forall2_cons | apply Forall2_nil | exact I | cbn [operand_typed]; lia]|]
    end ].

Ltac bnd :=
  repeat first
  [ progress cbn [app bounded]
  | rewrite bounded_app
  | match goal with
    | |- _ /\ _ => split
    | |- True => exact I
    | Hb : bounded ?a ?b ?e |- bounded _ _ ?e => apply (bounded_weaken _ _ _ _ _ Hb); lia
    end
  | lia ].

Ltac emits :=
  let V := fresh "V" in let bv := fresh "bv" in let HV := fresh "HV" in let Hbv := fresh "Hbv" in
  intros V bv HV Hbv;
  repeat (progress (cbn [agrees app] in HV; try rewrite ?agrees_app in HV));
  repeat match goal with H : _ /\ _ |- _ => destruct H end;
  repeat (rewrite ?emitted_with_app; cbn [emitted_with app]);
  rewrite ?map_app; cbn [map app];
  repeat match goal with
  | He : forall V bv, agrees V ?e -> (forall q, None = Some q -> _) -> emitted_with V ?e = _, HV : agrees ?V ?e |- context [emitted_with ?V ?e] =>
    rewrite (He V 0) by (solve [assumption | intros ? ?; discriminate])
  | He : forall V bv, agrees V ?e -> _ -> emitted_with V ?e = _, HV : agrees ?V ?e |- context [emitted_with ?V ?e] =>
    first [ erewrite (He V) by (solve [eassumption | intros ? ?; discriminate | intros ? [= <-]; eassumption ]) ]
  end.

Ltac sizes :=
  repeat match goal with
  | |- context [size_expr ?m ?e] => lazymatch goal with K : 0 <= size_expr m e |- _ => fail | _ => pose proof (proj1 size_nonneg e m) end
  | |- context [size_args ?e] => lazymatch goal with K : 0 <= size_args e /\ _ |- _ => fail | _ => pose proof (proj1 (proj2 size_nonneg) e) end
  | |- context [size_items ?e] => lazymatch goal with K : 0 <= size_args e /\ _ |- _ => fail | _ => pose proof (proj1 (proj2 size_nonneg) e) end
  | |- context [size_pairs ?e] => lazymatch goal with K : 0 <= size_pairs e |- _ => fail | _ => pose proof (proj1 (proj2 (proj2 size_nonneg)) e) end
  | |- context [size_params ?e] => lazymatch goal with K : 0 <= size_params e |- _ => fail | _ => pose proof (proj1 (proj2 (proj2 (proj2 size_nonneg))) e) end
  | |- context [size_stmt ?e] => lazymatch goal with K : 0 <= size_stmt e |- _ => fail | _ => pose proof (proj1 (proj2 (proj2 (proj2 (proj2 size_nonneg)))) e) end
  | |- context [size_stmts ?e] => lazymatch goal with K : 0 <= size_stmts e |- _ => fail | _ => pose proof (proj2 (proj2 (proj2 (proj2 (proj2 size_nonneg)))) e) end
  end; pops.

Ltac finish_good n p sz brk c :=
  sizes;
  first [ solve [split; [reflexivity|let X := fresh in intros X; rewrite ?andb_false_r in X; discriminate]]
        | split; [discriminate|intros _];
          eapply (intro_good _ n p sz brk c); [reflexivity|try lia|try lia|try count|try solve [typed]|try solve [bnd]|] ].

Ltac all :=
  lazymatch goal with |- good _ _ ?sz ?brk ?c =>
    let n := fresh "n" in let p := fresh "p" in intros n p; sizes; run; finish_good n p sz brk c end.

Ltac posn :=
  repeat first [reflexivity | match goal with |- _ = inj _ => unfold inj; cbn [fst snd map] end | lia | progress f_equal].

Ltac fin :=
  emits;
  cbn [comp_expr comp_args comp_items comp_pairs comp_params comp_stmt comp_stmts];
  unfold func_code, body_code, pop_code, pop_size;
  repeat match goal with H : is_expr _ = _ |- _ => rewrite H end;
  rewrite ?map_app; cbn [map app]; rewrite <- ?app_assoc; cbn [app];
  cbn [fst snd map optypes settleds settled unop_code binop_code];
  repeat match goal with H : ?V ?q = Some _ |- context [?V ?q] => rewrite H end;
  repeat (rewrite ?map_app; cbn [map app]);
  posn.

Ltac popif :=
  unfold g_func, g_pop_if, pop_size; repeat match goal with |- context [is_expr ?s] => destruct (is_expr s) eqn:? end.

Lemma cg_good :
  (forall e m, good (cg_expr m e) (ok_expr m e) (size_expr m e) None (fun _ => comp_expr m e)) /\
  (forall es, good (cg_args es) (ok_exprs es) (size_args es) None (fun _ => comp_args es) /\
              (forall i, good (cg_items i es) (ok_exprs es) (size_items es) None (fun _ => comp_items i es))) /\
  (forall ps, good (cg_pairs ps) (ok_pairs ps) (size_pairs ps) None (fun _ => comp_pairs ps)) /\
  (forall ps i, good (cg_params i ps) (ok_params ps) (size_params ps) None (fun _ => comp_params i ps)) /\
  (forall s brk, good (cg_stmt brk s) (ok_stmt (some brk) s) (size_stmt s) brk (fun bv => comp_stmt bv s)) /\
  (forall ss brk, good (cg_stmts brk ss) (ok_stmts (some brk) ss) (size_stmts ss) brk (fun bv => comp_stmts bv ss)).
Proof.
  apply ast_ind2; intros; repeat match goal with H : good _ _ _ _ _ /\ _ |- _ => destruct H | |- _ /\ _ => split; intros end;
    try (rewrite call_cg, call_size, call_ok by assumption);
    cbn [cg_expr cg_args cg_items cg_pairs cg_params cg_stmt cg_stmts
         ok_expr ok_exprs ok_pairs ok_params ok_stmt ok_stmts
         size_expr size_args size_items size_pairs size_params size_stmt size_stmts].
  - destruct m; all. all: fin.
  - destruct m; all. all: fin.
  - destruct m; all. all: fin.
  - destruct m; all. all: fin.
  - destruct m; all. all: fin.
  - destruct m; all. all: fin.
  - destruct m; all. all: fin.
  - destruct op, m; all. all: fin.
  - destruct op, m; all. all: fin.
  - destruct m; all. all: fin.
  - destruct m; all. all: fin.
  - destruct m; unfold for_value, value_mode; destruct (MAX_TUPLE <? tuple_len a); all. all: fin.
  - destruct m; all. all: fin.
  - all.
  - destruct m; all. all: fin.
  - destruct m; all. all: fin.
  - destruct m; all. all: fin.
  - destruct m; all. all: try rewrite call_comp by assumption; fin.
  - destruct m; all. all: fin.
  - destruct m; popif; all. all: fin.
  - all. all: fin.
  - all. all: fin.
  - all. all: fin.
  - all. all: fin.
  - all. all: fin.
  - all. all: fin.
  - all. all: fin.
  - destruct ty, df; all. all: fin.
  - intros n p. destruct (H MVal n p) as [Hf Hs]. split; [exact Hf|]. intros Ho. specialize (Hs Ho).
    destruct Hs as (evs & n' & ? & ? & ? & Ht & ? & He). exists evs, n'. split; [assumption|]. split; [assumption|]. split; [assumption|].
    split; [intros _; apply Ht; discriminate|]. split; [assumption|]. intros V bv HV Hb. apply (He V bv HV). discriminate.
  - destruct brk as [l|]; all.
    + intros Hbk rest Hr. cbn [app history_typed optypes]. split; [apply Forall2_cons; [exact (Hbk l eq_refl)|apply Forall2_nil]|exact Hr].
    + intros V bv _ Hbk. cbn. rewrite (Hbk l eq_refl). reflexivity.
  - popif; all. all: fin.
  - popif; all. all: fin.
  - popif; all. all: fin.
  - popif; all. all: fin.
  - exact (H brk).
  - destruct (MAX_TUPLE <? tuple_len e); all. all: fin.
  - popif; all. all: fin.
  - popif; all. all: fin.
  - popif; all. all: fin.
Qed.
