(** Positions: the functions of PosModel.v are those of ParseModel.v and CodegenModel.v, and every position lies in the text. *)
From Coq Require Import ZArith List Bool Lia.
From Verif Require Import Base StringModel ExeModel AstModel LexModel LexSpec LexProofs ParseModel GrammarProofs CodegenModel CompileModel PosModel PosSpec.
Import ListNotations.
Open Scope Z_scope.

Section Text.
Variable src : list Z.

Definition inn (z : Z) : Prop := 0 <= z <= Z.of_nat (length src) /\ between src z.
Definition ins (p : pos) : Prop := inn (fst p) /\ inn (pend p).
Lemma inn_zero : inn 0.
Proof.
  split; [lia|]. intros l t E I. apply tokens_tile in E. assert (G : forall l from, 0 <= from -> tiles src from l -> In t l -> 0 <= t_off t).
  { clear. induction l as [|u r IH]; intros from F T I; [destruct I|]. cbn [tiles] in T. destruct T as (A & T). destruct I as [<-|I]; [lia|]. destruct r; [destruct I|].
    destruct T as (_ & L & _ & _ & T). apply (IH (t_off u + t_len u) ltac:(lia) T I). }
  specialize (G l 0 ltac:(lia) E I). lia.
Qed.
Lemma inn_end : inn (Z.of_nat (length src)).
Proof.
  split; [lia|]. intros l t E I. apply tokens_tile in E. assert (G : forall l from, tiles src from l -> In t l -> t_off t + t_len t <= Z.of_nat (length src)).
  { clear. induction l as [|u r IH]; intros from T I; [destruct I|]. cbn [tiles] in T. destruct T as (A & T). destruct r.
    - destruct I as [<-|[]]. lia.
    - destruct T as (_ & L & E & _ & T). destruct I as [<-|I]; [exact E|]. apply (IH _ T I). }
  specialize (G l 0 E I). lia.
Qed.
Lemma ins_inside p : ins p -> inside src (fst p) (snd p).
Proof. intros [[A _] [B _]]. unfold pend in B. split; assumption. Qed.
Lemma ins_start p : ins p -> inn (fst p). Proof. intros [A B]. exact A. Qed.
Lemma ins_end p : ins p -> inn (pend p). Proof. intros [A B]. exact B. Qed.
Lemma ins_upto a b : inn a -> inn b -> ins (upto a b).
Proof. intros A B. split; [exact A|]. unfold pend, upto. cbn [fst snd]. replace (a + (b - a)) with b by lia. exact B. Qed.
Lemma ins_at a : inn a -> ins (a, 0).
Proof. intros A. split; [exact A|]. unfold pend. cbn [fst snd]. now rewrite Z.add_0_r. Qed.
Lemma ins_zero : ins (0, 0).
Proof. apply ins_at, inn_zero. Qed.

(** The trees whose nodes lie in the text, and whose names are what stands there. *)
Inductive okE : xexpr -> Prop :=
| k_int p z : ins p -> okE (XInt p z)
| k_flt p z : ins p -> okE (XFlt p z)
| k_str p s : ins p -> okE (XStr p s)
| k_ident p s : ins p -> piece src (fst p) (snd p) = s -> okE (XIdent p s)
| k_none p : ins p -> okE (XNone p)
| k_true p : ins p -> okE (XTrue p)
| k_false p : ins p -> okE (XFalse p)
| k_un p op e : ins p -> okE e -> okE (XUn p op e)
| k_bin p op a b : ins p -> okE a -> okE b -> okE (XBin p op a b)
| k_and p a b : ins p -> okE a -> okE b -> okE (XAnd p a b)
| k_or p a b : ins p -> okE a -> okE b -> okE (XOr p a b)
| k_ass p a b : ins p -> okE a -> okE b -> okE (XAss p a b)
| k_pair p a b : ins p -> okE a -> okE b -> okE (XPair p a b)
| k_arw p a b : ins p -> okE a -> okE b -> okE (XArw p a b)
| k_sel p a b : ins p -> okE a -> okE b -> okE (XSel p a b)
| k_list p es : ins p -> okEs es -> okE (XList p es)
| k_map p ps : ins p -> okPs ps -> okE (XMap p ps)
| k_call p f es : ins p -> okE f -> okEs es -> okE (XCall p f es)
| k_fun p ps b : ins p -> okAs ps -> okS b -> okE (XFun p ps b)
with okEs : xexprs -> Prop := k_nil : okEs XNil | k_cons e r : okE e -> okEs r -> okEs (XCons e r)
with okPs : xpairs -> Prop := k_pnil : okPs XPNil | k_pcons a b r : okE a -> okE b -> okPs r -> okPs (XPCons a b r)
with okAs : xparams -> Prop := k_anil : okAs XANil | k_acons p name ty df r : ins p -> target src (fst p) (snd p) name -> okO ty -> okO df -> okAs r -> okAs (XACons p name ty df r)
with okO : xoexpr -> Prop := k_no : okO XNo | k_yes e : okE e -> okO (XYes e)
with okS : xstmt -> Prop :=
| k_expr e : okE e -> okS (XSExpr e)
| k_break p : ins p -> okS (XBreak p)
| k_if p c t : ins p -> okE c -> okS t -> okS (XIf p c t)
| k_ifelse p c t f : ins p -> okE c -> okS t -> okS f -> okS (XIfElse p c t f)
| k_while p c b : ins p -> okE c -> okS b -> okS (XWhile p c b)
| k_do p b c : ins p -> okS b -> okE c -> okS (XDo p b c)
| k_comp p ss : ins p -> okSs ss -> okS (XComp p ss)
| k_return p e : ins p -> okE e -> okS (XReturn p e)
| k_func p name ps b : ins p -> target src (fst p) (snd p) name -> okAs ps -> okS b -> okS (XFunc p name ps b)
with okSs : xstmts -> Prop := k_snil : okSs XSNil | k_scons s r : okS s -> okSs r -> okSs (XSCons s r).

Lemma okE_pos e : okE e -> ins (epos e). Proof. destruct 1; assumption. Qed.
Lemma okS_pos s : okS s -> ins (spos s). Proof. destruct 1; try assumption. apply okE_pos. assumption. Qed.
Lemma last_end_in ss : okSs ss -> forall z, inn z -> inn (last_end z ss).
Proof. induction ss; intros K z Hz; cbn; [exact Hz|]. inversion K; subst. apply IHss; [assumption|]. apply ins_end, okS_pos. assumption. Qed.
Lemma comp_pos_in ss : okSs ss -> ins (comp_pos ss).
Proof.
  intros K. destruct ss; [apply ins_zero|]. cbn [comp_pos]. inversion K; subst. apply ins_upto; [apply ins_start, okS_pos; assumption|].
  apply last_end_in; [assumption|]. apply inn_zero.
Qed.

Definition tok_ok (t : ptok) : Prop :=
  (ins (snd t) /\ begins src (fst (snd t))) /\ snd (fst t) = piece src (fst (snd t)) (snd (snd t)) /\ (fst (fst t) <> KDone -> tokd (fst t)).
Definition toks (ts : list ptok) : Prop := ts <> [] /\ Forall tok_ok ts.

(** What a parsing function with positions has to do with the one without. *)
Definition rel {A B} (er : A -> B) (ok : A -> Prop) (q : qres A) (p : pres B) : Prop :=
  match q with
  | QOk a ts => p = POk (er a) (bare ts) /\ ok a /\ toks ts
  | QErr off => p = PErr /\ inn off /\ begins src off
  | QUB => p = PUB
  | QFuel => p = PFuel
  end.

Lemma rel_bind {A A' B B'} (er : A -> A') ok (er2 : B -> B') ok2 q p f g : rel er ok q p ->
  (forall a ts, ok a -> toks ts -> rel er2 ok2 (f a ts) (g (er a) (bare ts))) -> rel er2 ok2 (qbind q f) (pbind p g).
Proof.
  intros R F. destruct q as [a ts|off| |]; cbn in R |- *.
  - destruct R as (-> & K & T). apply F; assumption.
  - destruct R as (-> & K). split; [reflexivity|exact K].
  - rewrite R. reflexivity.
  - rewrite R. reflexivity.
Qed.
Lemma rel_next {B B'} (er : B -> B') ok ts f g : toks ts -> (forall ts', toks ts' -> rel er ok (f ts') (g (bare ts'))) ->
  rel er ok (qnext ts f) (next (bare ts) g).
Proof.
  intros T F. destruct ts as [|t [|u r]]; [reflexivity|reflexivity|]. cbn [qnext bare map]. unfold next. apply (F (u :: r)). destruct T as [_ T]. inversion T. split; [discriminate|assumption].
Qed.
Lemma rel_if {A B} (er : A -> B) ok (c : bool) q q' p p' : (c = true -> rel er ok q p) -> (c = false -> rel er ok q' p') ->
  rel er ok (if c then q else q') (if c then p else p').
Proof. destruct c; auto. Qed.
Lemma rel_ok {A B} (er : A -> B) (ok : A -> Prop) a b ts : b = er a -> ok a -> toks ts -> rel er ok (QOk a ts) (POk b (bare ts)).
Proof. intros -> K T. split; [reflexivity|split; assumption]. Qed.
Lemma tpos_in ts : toks ts -> ins (tpos ts).
Proof. intros [N T]. destruct T as [|[t p] r [[H _] _] T]; [contradiction|exact H]. Qed.
Lemma here_begins ts : toks ts -> begins src (here ts).
Proof. intros [N T]. destruct T as [|[t p] r [[_ H] _] T]; [contradiction|exact H]. Qed.
Lemma here_in ts : toks ts -> inn (here ts).
Proof. intros T. apply ins_start, tpos_in, T. Qed.
Lemma rel_err {A B} (er : A -> B) (ok : A -> Prop) z : inn z -> begins src z -> rel er ok (QErr z) PErr.
Proof. intros T S. split; [reflexivity|split; assumption]. Qed.
Lemma rel_ub {A B} (er : A -> B) (ok : A -> Prop) : rel er ok QUB PUB. Proof. reflexivity. Qed.
Lemma rel_fuel {A B} (er : A -> B) (ok : A -> Prop) : rel er ok QFuel PFuel. Proof. reflexivity. Qed.
Lemma tend_in ts : toks ts -> inn (pend (tpos ts)).
Proof. intros T. apply ins_end, tpos_in, T. Qed.
Lemma estart_in e : okE e -> inn (fst (epos e)). Proof. intros T. apply ins_start, okE_pos, T. Qed.
Lemma eend_in e : okE e -> inn (pend (epos e)). Proof. intros T. apply ins_end, okE_pos, T. Qed.
Lemma send_in s : okS s -> inn (pend (spos s)). Proof. intros T. apply ins_end, okS_pos, T. Qed.

Lemma binary_er k l r : er_expr (x_binary k l r) = binary_node k (er_expr l) (er_expr r).
Proof. destruct k; try reflexivity. cbn. repeat (destruct (_ =? _); [reflexivity|]). reflexivity. Qed.
Lemma binary_ok k l r : okE l -> okE r -> okE (x_binary k l r).
Proof.
  intros L R. assert (P : ins (upto (fst (epos l)) (pend (epos r)))) by (apply ins_upto; [apply estart_in|apply eend_in]; assumption).
  unfold x_binary. cbv zeta. destruct k; try (constructor; assumption).
  repeat match goal with |- context [if ?c then _ else _] => destruct c; [constructor; assumption|] end. constructor; assumption.
Qed.
Lemma index_rel node p items ts n (IH : forall e ts, okE e -> toks ts -> rel er_expr okE (q_post n e ts) (p_post n (er_expr e) (bare ts))) :
  okE node -> ins p -> okEs items -> toks ts ->
  rel er_expr okE (match x_index node p items with Some sel => q_post n sel ts | None => QErr (here ts) end)
                  (match index_node (er_expr node) (er_exprs items) with Some sel => p_post n sel (bare ts) | None => PErr end).
Proof.
  intros N P I T. destruct items as [|i [|j r]]; cbn [x_index index_node er_exprs].
  - apply rel_err; [apply here_in, T|apply here_begins, T].
  - apply (IH (XSel _ node i)); [|exact T]. inversion I; subst. constructor; [|assumption..]. apply ins_upto; [apply estart_in, N|apply ins_end, P].
  - apply (IH (XSel _ node (XList p (XCons i (XCons j r))))); [|exact T]. constructor; [|assumption|constructor; assumption]. apply ins_upto; [apply estart_in, N|apply ins_end, P].
Qed.

Lemma ident_ok ts : toks ts -> cur (bare ts) = KIdent -> piece src (fst (tpos ts)) (snd (tpos ts)) = txt (bare ts).
Proof. intros [N T]. destruct T as [|[[k s] p] r (H & E & _) T]; cbn; [discriminate|]. intros _. cbn in E. now rewrite E. Qed.
Lemma mark_ok ts c name : toks ts -> ch (bare ts) c = true -> c = 41 \/ c = 44 -> target src (fst (tpos ts)) (snd (tpos ts)) name.
Proof.
  intros [N T] C D. destruct T as [|[[k s] p] r (H & E & K) T]; [contradiction|]. cbn [ch is_k cur bare map fst snd tpos] in *.
  unfold ch, cur in C. apply ParseSafe.kind_eqb_eq in C. subst k. unfold target. rewrite <- E.
  specialize (K ltac:(discriminate)). cbn in K. rewrite K. destruct D as [-> | ->]; auto.
Qed.
Lemma fun_ok ts name stop : toks ts -> cur (bare ts) = KFun -> target src (fst (upto (here ts) stop)) (snd (upto (here ts) stop)) name.
Proof.
  intros [N T] C. destruct T as [|[[k s] [o n]] r (H & E & K) T]; [contradiction|]. cbn in C, E. subst k. specialize (K ltac:(discriminate)). cbn in K.
  assert (Hs : s = [102; 117; 110]) by (repeat (destruct K as [K|K]; [try discriminate K; injection K as <-; reflexivity|]); destruct K). rewrite Hs in E. clear K. right. left. cbn. assert (n = 3).
  { destruct H as [[[A _] [B _]] _]. unfold pend in B. cbn in A. unfold piece in E. pose proof (f_equal (@length Z) E) as L. rewrite firstn_length, skipn_length in L. cbn in L. cbn in B.
    lia. }
  subst n. symmetry. exact E.
Qed.

Definition er_fun (f : pos * pos * list Z * xparams * xstmt) : list Z * params * stmt :=
  let '(_, _, name, ps, b) := f in (name, er_params ps, er_stmt b).
Definition ok_fun (f : pos * pos * list Z * xparams * xstmt) : Prop :=
  let '(p, np, name, ps, b) := f in ins p /\ ins np /\ okAs ps /\ okS b /\ target src (fst p) (snd p) name.

Record all_rel (n : nat) : Prop := {
  r_prefix : forall ts, toks ts -> rel er_expr okE (q_prefix n ts) (p_prefix n (bare ts));
  r_post : forall e ts, okE e -> toks ts -> rel er_expr okE (q_post n e ts) (p_post n (er_expr e) (bare ts));
  r_seq : forall c ts, toks ts -> rel er_exprs okEs (q_seq n c ts) (p_seq n c (bare ts));
  r_pairs : forall ts, toks ts -> rel er_pairs okPs (q_pairs n ts) (p_pairs n (bare ts));
  r_primary : forall ts, toks ts -> rel er_expr okE (q_primary n ts) (p_primary n (bare ts));
  r_expr : forall tup ass ts, toks ts -> rel er_expr okE (q_expr n tup ass ts) (p_expr n tup ass (bare ts));
  r_expr2 : forall e min tup ass ts, okE e -> toks ts -> rel er_expr okE (q_expr2 n e min tup ass ts) (p_expr2 n (er_expr e) min tup ass (bare ts));
  r_inner : forall p e tup ass ts, okE e -> toks ts -> rel er_expr okE (q_inner n p e tup ass ts) (p_inner n p (er_expr e) tup ass (bare ts));
  r_stmt : forall ts, toks ts -> rel er_stmt okS (q_stmt n ts) (p_stmt n (bare ts));
  r_compound : forall c ts, toks ts -> rel er_stmts okSs (q_compound n c ts) (p_compound n c (bare ts));
  r_fundef : forall ts, toks ts -> cur (bare ts) = KFun -> rel er_fun ok_fun (q_fundef n ts) (p_fundef n (bare ts));
  r_params : forall ts, toks ts -> rel er_params okAs (q_params n ts) (p_params n (bare ts)) }.

Ltac places := solve [ assumption | apply here_in; assumption | apply tpos_in; assumption | apply tend_in; assumption | apply estart_in; assumption
  | apply eend_in; assumption | apply send_in; assumption | apply comp_pos_in; assumption
  | apply ins_upto; solve [apply here_in; assumption | apply tend_in; assumption | apply estart_in; assumption | apply eend_in; assumption | apply send_in; assumption | assumption]
  | reflexivity ].
Ltac oks := repeat first [places | constructor].
Ltac walk IH := repeat (cbv zeta; cbn [er_fun]; first
  [ eapply rel_bind; [|intros ? ? ? ?]
  | apply rel_next; [assumption|intros ? ?]
  | apply rel_if; intros ?
  | apply rel_err; [places|apply here_begins; assumption]
  | apply rel_ub | apply rel_fuel
  | apply (r_prefix _ IH); assumption | apply (r_seq _ IH); assumption
  | apply (r_pairs _ IH); assumption | apply (r_primary _ IH); assumption | apply (r_expr _ IH); assumption | apply (r_stmt _ IH); assumption
  | apply (r_compound _ IH); assumption | apply (r_fundef _ IH); [assumption|first [assumption|apply ParseSafe.is_true; assumption]] | apply (r_params _ IH); assumption
  | apply (r_post _ IH); [solve [oks]|assumption] | apply (r_expr2 _ IH); [solve [oks]|assumption] | apply (r_inner _ IH); [solve [oks]|assumption]
  | apply rel_ok; [reflexivity|solve [oks]|assumption] ]).

Lemma rel_all n : all_rel n.
Proof.
  induction n as [|n IH]; [constructor; intros; reflexivity|]. constructor.
  - intros ts T. cbn [q_prefix p_prefix]. apply rel_if; intros _; [walk IH|]. destruct (prefix_op _); walk IH.
  - intros e ts K T. cbn [q_post p_post]. apply rel_if; intros _.
    + cbv zeta. apply rel_next; [exact T|]. intros ts1 T1. apply rel_if; intros _; [walk IH|]. apply rel_next; [exact T1|]. intros ts2 T2.
      assert (P : ins (upto (fst (epos e)) (pend (tpos ts1)))) by places.
      destruct (is_k (bare ts) KArw).
      * apply (r_post _ IH (XArw _ e (XStr (tpos ts1) (txt (bare ts1)))) ts2); [oks|exact T2].
      * apply (r_post _ IH (XSel _ e (XStr (tpos ts1) (txt (bare ts1)))) ts2); [oks|exact T2].
    + apply rel_if; intros _.
      * cbv zeta. apply rel_next; [exact T|]. intros ts1 T1. eapply (rel_bind er_exprs okEs); [apply rel_if; intros _; [apply (rel_ok er_exprs okEs); [reflexivity|constructor|exact T1]|apply (r_seq _ IH), T1]|].
        intros items ts2 I T2. apply rel_next; [exact T2|]. intros ts3 T3. apply index_rel; [exact (r_post _ IH)|exact K|places|exact I|exact T3].
      * apply rel_if; intros _; [|walk IH].
        cbv zeta. apply rel_next; [exact T|]. intros ts1 T1. eapply (rel_bind er_exprs okEs); [apply rel_if; intros _; [apply (rel_ok er_exprs okEs); [reflexivity|constructor|exact T1]|apply (r_seq _ IH), T1]|].
        intros items ts2 I T2. apply rel_next; [exact T2|]. intros ts3 T3. apply (r_post _ IH (XCall _ e items)); [oks|exact T3].
  - intros c ts T. cbn [q_seq p_seq]. walk IH.
  - intros ts T. cbn [q_pairs p_pairs]. apply rel_if; intros KF.
    + eapply rel_bind; [apply (r_fundef _ IH); [exact T|apply ParseSafe.is_true, KF]|]. intros [[[[p np] name] ps] b] ts1 (F1 & F2 & F3 & F4 & F5) T1. cbn [er_fun]. walk IH.
    + apply rel_next; [exact T|]. intros ts1 T1. cbv zeta. eapply (rel_bind er_expr okE); [apply rel_if; intros _|intros ? ? ? ?]; walk IH.
  - intros ts T. cbn [q_primary p_primary]. destruct (cur (bare ts)) eqn:C; try solve [walk IH].
    + apply rel_if; intros _; [cbv zeta; apply rel_next; [exact T|]; intros ts1 T1; eapply (rel_bind er_exprs okEs); [apply rel_if; intros _; [apply (rel_ok er_exprs okEs); [reflexivity|constructor|exact T1]|apply (r_seq _ IH), T1]|intros ? ? ? ?]; walk IH|].
      apply rel_if; intros _; [|walk IH]. cbv zeta; apply rel_next; [exact T|]; intros ts1 T1. apply rel_if; intros _; [walk IH|]. eapply (rel_bind er_pairs okPs); [apply rel_if; intros _; [apply (rel_ok er_pairs okPs); [reflexivity|constructor|exact T1]|apply (r_pairs _ IH), T1]|intros ? ? ? ?]; walk IH.
    + destruct (string_value _); walk IH.
    + cbv zeta. apply rel_next; [exact T|]. intros ts1 T1. apply rel_ok; [reflexivity| |exact T1]. constructor; [places|apply ident_ok; assumption].
  - intros tup ass ts T. cbn [q_expr p_expr]. walk IH.
  - intros e min tup ass ts K T. cbn [q_expr2 p_expr2]. destruct (goes_on _ _ _ _); [|walk IH]. cbv zeta. apply rel_next; [exact T|]. intros ts1 T1.
    eapply rel_bind; [apply (r_prefix _ IH), T1|]. intros r ts2 R T2. eapply rel_bind; [apply (r_inner _ IH); assumption|]. intros r2 ts3 R2 T3.
    rewrite <- binary_er. apply (r_expr2 _ IH); [apply binary_ok; assumption|exact T3].
  - intros p e tup ass ts K T. cbn [q_inner p_inner]. destruct (precedence _); walk IH.
  - intros ts T. cbn [q_stmt p_stmt]. cbv zeta. apply rel_if; intros _; [walk IH|]. destruct (cur (bare ts)) eqn:KF; try solve [walk IH].
    eapply rel_bind; [apply (r_fundef _ IH); [exact T|exact KF]|]. intros [[[[p np] name] ps] b] ts1 (F1 & F2 & F3 & F4 & F5) T1. cbn [er_fun]. walk IH.
  - intros c ts T. cbn [q_compound p_compound]. walk IH.
  - intros ts T KF. cbn [q_fundef p_fundef]. cbv zeta. apply rel_next; [exact T|]. intros ts1 T1. apply rel_if; intros _; [walk IH|].
    apply rel_next; [exact T1|]. intros ts2 T2. apply rel_if; intros _; [walk IH|]. apply rel_next; [exact T2|]. intros ts3 T3.
    eapply (rel_bind er_params okAs); [apply rel_if; intros _; walk IH|]. intros ps ts4 P T4. apply rel_next; [exact T4|]. intros ts5 T5.
    apply rel_if; intros _; [walk IH|]. eapply rel_bind; [apply (r_stmt _ IH), T5|]. intros b ts6 B T6. apply rel_ok; [reflexivity| |exact T6].
    cbn [ok_fun]. split; [exact (ins_upto _ _ (here_in _ T) (send_in _ B))|]. split; [apply (tpos_in _ T1)|]. split; [exact P|]. split; [exact B|]. apply fun_ok; assumption.
  - intros ts T. cbn [q_params p_params]. cbv zeta. apply rel_if; intros _; [walk IH|]. apply rel_next; [exact T|]. intros ts1 T1.
    eapply (rel_bind er_oexpr okO); [apply rel_if; intros _; walk IH|]. intros ty ts2 Y T2.
    eapply (rel_bind er_oexpr okO); [apply rel_if; intros _; walk IH|]. intros df ts3 D T3.
    apply rel_if; intros C1; [apply rel_ok; [reflexivity|constructor; [places|apply (mark_ok _ 41); auto|assumption..|constructor]|exact T3]|].
    apply rel_if; intros C2; [walk IH|]. apply negb_false_iff in C2. apply rel_next; [exact T3|]. intros ts4 T4.
    eapply rel_bind; [apply (r_params _ IH), T4|]. intros r ts5 R T5. apply rel_ok; [reflexivity|constructor; [places|apply (mark_ok _ 44); auto|assumption..]|exact T5].
Qed.
End Text.
