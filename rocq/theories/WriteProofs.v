(** Every tree the parser gives can be written, and every writable tree has a text that is parsed to it: C42. *)
From Coq Require Import ZArith List Bool Lia.
From Verif Require Import Base FloatModel AstModel LexModel LexSpec LexProofs ParseModel ParseSpec LayoutProofs ParseMono ParseSafe PrintProofs.
Import ListNotations.
Open Scope Z_scope.

(** * Words that were written are words of the language *)
Lemma lex_p c : c <> 35 -> ~ letter c -> ~ digit c -> ~ quote_char c -> ~ white c ->
  (op_char c -> op_kind [c] (KC c)) -> lexeme (p c).
Proof.
  intros H1 H2 H3 H4 H5 H6. destruct (in_dec Z.eq_dec c [43; 45; 42; 47; 60; 62; 33; 61; 44; 124; 37]) as [H|H].
  - apply lx_operator, H6, H.
  - apply lx_char; auto.
Qed.
Ltac char := apply lex_p; [discriminate|unfold letter; lia|unfold digit; lia|unfold quote_char; lia|unfold white; lia|
  unfold op_char, op_kind; cbn; intuition discriminate].
Ltac resv := apply lx_reserved; cbn; tauto.

Lemma lex_infix o : lexeme (infix_word o).
Proof. destruct o; first [resv|apply lx_operator; unfold op_kind; cbn; tauto]. Qed.
Lemma lex_prefix u : lexeme (prefix_word u).
Proof. destruct u; first [resv|char]. Qed.

Ltac lxs := repeat match goal with
  | |- Forall lexeme (_ ++ _) => apply Forall_app; split
  | |- Forall lexeme (_ :: _) => constructor
  | |- Forall lexeme [] => constructor
  | |- Forall lexeme (if ?b then _ else _) => destruct b
  | |- Forall lexeme _ => assumption
  | |- lexeme (infix_word _) => apply lex_infix
  | |- lexeme (prefix_word _) => apply lex_prefix
  | |- lexeme (p _) => solve [char]
  | |- lexeme (KIdent, _) => apply lx_name; assumption
  | |- lexeme (KInt, _) => apply lx_int; assumption
  | |- lexeme (KFloat, _) => apply lx_float; assumption
  | |- lexeme (KString, _) => eapply lx_string; eassumption
  | |- lexeme w_arrow => apply lx_operator; unfold op_kind; cbn; tauto
  | |- lexeme _ => resv
  end.

Theorem written_words :
  (forall e ws, wr_expr e ws -> Forall lexeme ws) /\ (forall e ws, wr_post e ws -> Forall lexeme ws) /\
  (forall e ws, wr_pre e ws -> Forall lexeme ws) /\ (forall t a e ws, wr_top t a e ws -> Forall lexeme ws) /\
  (forall t a l ws, wr_chain t a l ws -> Forall lexeme ws) /\ (forall es ws, wr_items es ws -> Forall lexeme ws) /\
  (forall ps ws, wr_pairs ps ws -> Forall lexeme ws) /\ (forall k v b ws, wr_entry k v b ws -> Forall lexeme ws) /\
  (forall s ps body ws, wr_fun s ps body ws -> Forall lexeme ws) /\ (forall ps ws, wr_params ps ws -> Forall lexeme ws) /\
  (forall c a o ws, wr_opt c a o ws -> c = 58 \/ c = 61 -> Forall lexeme ws) /\ (forall s ws, wr_stmt s ws -> Forall lexeme ws) /\
  (forall ss ws, wr_stmts ss ws -> Forall lexeme ws).
Proof.
  apply wr_ind; intros; try solve [lxs].
  - lxs; auto.
  - lxs; auto.
  - constructor; [|assumption]. destruct H1 as [-> | ->]; char.
Qed.

Lemma spaced_layout ws : Forall lexeme ws -> layout ws (spaced ws).
Proof.
  assert (G : forall g, gap g -> Forall lexeme ws -> layout ws (g ++ spaced ws)).
  { induction ws as [|[k w] ws IH]; intros g Hg H.
    - cbn. rewrite app_nil_r. apply lay_end, last_plain, Hg.
    - inversion H; subst. unfold spaced. cbn [map concat snd]. fold (spaced ws). rewrite <- app_assoc.
      apply lay_word; auto.
      + cbn [app]. unfold apart. destruct w; [auto|]. unfold letter, digit, op_char. cbn. intuition (lia || discriminate).
      + apply (IH [32]); auto. apply gap_white; [left; reflexivity|constructor]. }
  intros H. apply (G [] gap_nil H).
Qed.

(** * Parsing what was written *)
Theorem read_back nul ss ws text : wr_stmts ss ws -> layout ws text -> parse nul text = POk (SComp ss) [(KDone, [])].
Proof.
  intros Hw Hl. destruct (layout_tokens nul ws text Hl) as (l & Hl1 & Hl2).
  pose proof (parse_total nul text) as Ht. unfold parse in *. rewrite Hl1 in *. rewrite Hl2 in *. unfold parse_tokens in *.
  destruct written as (_ & _ & _ & _ & _ & _ & _ & _ & _ & _ & _ & _ & W).
  destruct (W ss ws Hw KDone [] (or_intror eq_refl) []) as [n0 H0].
  set (f := parse_fuel _) in *. clearbody f.
  destruct (mono f (f + n0)%nat ltac:(lia)) as (_ & _ & _ & _ & _ & _ & _ & _ & _ & M & _).
  destruct (M KDone (ws ++ [(KDone, [])])) as [E|E].
  - rewrite E in Ht. contradiction Ht. reflexivity.
  - rewrite E, H0 by lia. reflexivity.
Qed.

(** * Writing *)
Lemma digits_of n : forall z, 0 <= z < 10 ^ Z.of_nat (S n) ->
  exists s, s <> [] /\ Forall digit s /\ length s = S n /\ decimal s = z.
Proof.
  induction n as [|n IH]; intros z Hz.
  - exists [48 + z]. change (10 ^ Z.of_nat 1) with 10 in Hz. repeat split; [discriminate|repeat constructor; lia|unfold decimal; cbn [fold_left]; lia].
  - assert (E : 10 ^ Z.of_nat (S (S n)) = 10 * 10 ^ Z.of_nat (S n)) by (rewrite (Nat2Z.inj_succ (S n)), Z.pow_succ_r; lia).
    destruct (IH (z / 10)) as (s & H1 & H2 & H3 & H4).
    { split; [apply Z.div_pos; lia|apply Z.div_lt_upper_bound; lia]. }
    exists (s ++ [48 + z mod 10]). pose proof (Z.mod_pos_bound z 10). split; [destruct s; discriminate|]. split.
    { apply Forall_app; split; auto. repeat constructor; lia. }
    split; [rewrite app_length, H3; cbn; lia|]. unfold decimal in *. rewrite fold_left_app, H4. cbn [fold_left].
    pose proof (Z.div_mod z 10). lia.
Qed.

Lemma write_int z : 0 <= z < 2 ^ 63 -> exists ws, wr_expr (EInt z) ws.
Proof.
  intros H. destruct (digits_of 18 z) as (s & H1 & H2 & H3 & H4).
  { assert (2 ^ 63 < 10 ^ Z.of_nat 19) by reflexivity. lia. }
  exists [(KInt, s)]. apply wr_int; auto; [rewrite H3; reflexivity|lia].
Qed.
Lemma write_str t : Z.of_nat (length t) < 4096 -> exists ws, wr_expr (EStr t) ws.
Proof. intros H. eexists. apply (wr_str 34 (quoted 34 t) t); auto; [left; reflexivity|apply quoted_spells; left; reflexivity]. Qed.

Lemma write_top t a e w : wr_expr e w -> wr_top t a e w.
Proof.
  intros H. replace w with (w ++ []) by apply app_nil_r. apply (wt_chain t a (Operand e) w []); [exact I|apply pr_post, po_primary, H|constructor].
Qed.
Lemma write_pre e w : wr_pre e w -> exists w, wr_expr e w.
Proof. intros H. eexists. apply wr_paren. apply (wt_chain true true (Operand e) w []); [exact I|exact H|constructor]. Qed.
Lemma write_post e w : wr_post e w -> exists w, wr_expr e w.
Proof. intros H. eapply write_pre, pr_post, H. Qed.
Lemma write_infix o a b : (exists w, wr_expr a w) -> (exists w, wr_expr b w) -> exists w, wr_expr (infix_node o a b) w.
Proof.
  intros [wa Ha] [wb Hb]. eexists. apply wr_paren. apply (wt_chain true true (Group o (Operand a) (Operand b)) wa (infix_word o :: wb ++ [])).
  - cbn. auto.
  - apply pr_post, po_primary, Ha.
  - cbn. constructor; [auto|auto|apply pr_post, po_primary, Hb|constructor].
Qed.
Definition binop_infix (o : binop) : infix :=
  match o with BAdd => IAdd | BSub => ISub | BMul => IMul | BDiv => IDiv | BMod => IMod | BEql => IEql | BNql => INql
  | BLss => ILss | BLeq => ILeq | BGrt => IGrt | BGeq => IGeq | BStp => IStp end.

Definition fun_case (k v : expr) : bool := match k, v with EStr _, EFun _ _ => true | _, _ => false end.

Theorem can_write :
  (forall e, (writable e -> exists ws, wr_expr e ws) /\
     (forall qs body s, e = EFun qs body -> name s /\ writable_params qs /\ writable_stmt body -> exists ws, wr_fun s qs body ws)) /\
  (forall es, writable_items es -> es = ENil \/ exists ws, wr_items es ws) /\
  (forall ps, writable_pairs ps -> ps = PNil \/ exists ws, wr_pairs ps ws) /\
  (forall ps, writable_params ps -> ps = ANil \/ exists ws, wr_params ps ws) /\
  (forall o, writable_opt o -> forall c a, exists ws, wr_opt c a o ws) /\
  (forall s, writable_stmt s -> exists ws, wr_stmt s ws) /\
  (forall ss, writable_stmts ss -> exists ws, wr_stmts ss ws).
Proof.
  assert (FUN : forall s ps body, name s -> (ps = ANil \/ exists ws, wr_params ps ws) -> (exists ws, wr_stmt body ws) ->
    exists ws, wr_fun s ps body ws).
  { intros s ps body Hs [->|[wp Hp]] [wb Hb]; eexists; [apply wf_none|eapply wf_some]; eassumption. }
  apply ast_ind.
  - intros z. split; [apply write_int|discriminate].
  - intros v. split; [|discriminate]. intros (ds & fs & H1 & H2 & H3 & H4 & H5 & ->). eexists. apply wr_flt; auto.
  - intros t. split; [apply write_str|discriminate].
  - intros s. split; [|discriminate]. intros H. eexists. apply wr_ident, H.
  - split; [|discriminate]. eexists. apply wr_none.
  - split; [|discriminate]. eexists. apply wr_true.
  - split; [|discriminate]. eexists. apply wr_false.
  - intros u e [IH _]. split; [|discriminate]. intros H. destruct (IH H) as [w Hw]. eapply write_pre, pr_un, pr_post, po_primary, Hw.
  - intros o a [IHa _] b [IHb _]. split; [|discriminate]. intros [Ha Hb].
    replace (EBin o a b) with (infix_node (binop_infix o) a b) by (destruct o; reflexivity). apply write_infix; auto.
  - intros a [IHa _] b [IHb _]. split; [|discriminate]. intros [Ha Hb]. apply (write_infix IAnd); auto.
  - intros a [IHa _] b [IHb _]. split; [|discriminate]. intros [Ha Hb]. apply (write_infix IOr); auto.
  - intros a [IHa _] b [IHb _]. split; [|discriminate]. intros [Ha Hb]. apply (write_infix IAss); auto.
  - intros a [IHa _] b [IHb _]. split; [|discriminate]. intros [Ha Hb]. apply (write_infix IPair); auto.
  - intros a [IHa _] b _. split; [|discriminate]. cbn [writable]. destruct b; try tauto. intros [Ha Hs].
    destruct (IHa Ha) as [w Hw]. eapply write_post, po_arw; [apply po_primary, Hw|exact Hs].
  - intros a [IHa _] b [IHb _]. split; [|discriminate]. intros H.
    assert (Hab : writable a /\ (writable b \/ exists s, b = EStr s /\ name s)).
    { cbn [writable] in H. destruct b; destruct H as [H1 H2]; (split; [exact H1|]); auto. destruct H2; [auto|right; eauto]. }
    destruct Hab as [Ha Hb]. destruct (IHa Ha) as [wa Hwa].
    destruct Hb as [Hb|(s & -> & Hs)]; [destruct (IHb Hb) as [wb Hwb]; eapply write_post, po_sel; [apply po_primary, Hwa|apply write_top, Hwb]|].
    eapply write_post, po_dot; [apply po_primary, Hwa|exact Hs].
  - intros es IH. split; [|discriminate]. intros H. destruct (IH H) as [->|[w Hw]]; eexists; [apply wr_list0|apply wr_list, Hw].
  - intros ps IH. split; [|discriminate]. intros H. destruct (IH H) as [->|[w Hw]]; eexists; [apply wr_map0|apply wr_map, Hw].
  - intros f [IHf _] es IH. split; [|discriminate]. intros [Hf He]. destruct (IHf Hf) as [wf Hwf].
    destruct (IH He) as [->|[w Hw]]; [eapply write_post, po_call0|eapply write_post, po_call]; try apply po_primary; eassumption.
  - intros ps IHp body IHb. split; [intros []|]. intros qs b s E (Hs & Hp & Hb). injection E as <- <-. apply FUN; auto.
  - left. reflexivity.
  - intros e [IH _] r IHr [He Hr]. right. destruct (IH He) as [w Hw]. destruct (IHr Hr) as [->|[wr Hwr]]; eexists;
      [apply wi_one|eapply wi_more]; try apply write_top; eassumption.
  - left. reflexivity.
  - intros k [IHk _] v [IHv Fv] r IHr [He Hr]. right.
    assert (E : exists b ws, wr_entry k v b ws).
    { destruct (fun_case k v) eqn:Ef.
      - destruct k, v; try discriminate. destruct (Fv _ _ s eq_refl He) as [w Hw]. eexists _, _. apply we_fun, Hw.
      - assert (Hkv : (writable k \/ exists s, k = EStr s /\ name s) /\ writable v).
        { destruct k; try (destruct He as [H1 H2]; split; [left; exact H1|exact H2]).
          destruct v; try discriminate; destruct He as [[H1|H1] H2]; (split; [|exact H2]); [left; exact H1|right; eauto|..];
            try (left; exact H1); right; eauto. }
        destruct Hkv as [Hk Hv]. destruct (IHv Hv) as [wv Hwv].
        destruct Hk as [Hk|(s & -> & Hs)]; [destruct (IHk Hk) as [wk Hwk]; eexists _, _; apply we_key; [apply write_top, wr_paren, write_top, Hwk|discriminate|apply write_top, Hwv]|].
        eexists _, _. apply we_name; [exact Hs|apply write_top, Hwv]. }
    destruct E as (b & w & Hw). destruct (IHr Hr) as [->|[wr Hwr]]; eexists; [eapply wp_last|eapply wp_more]; eassumption.
  - left. reflexivity.
  - intros s ty IHt df IHd r IHr (Hs & Ht & Hd & Hr). right. destruct (IHt Ht 58 false) as [wt Hwt]. destruct (IHd Hd 61 true) as [wd Hwd].
    destruct (IHr Hr) as [->|[wr Hwr]]; eexists; [eapply wa_last|eapply wa_more]; eassumption.
  - intros _ c a. eexists. apply wo_no.
  - intros e [IH _] H c a. destruct (IH H) as [w Hw]. eexists. apply wo_yes, write_top, Hw.
  - intros e [IH _] H. destruct (IH H) as [w Hw]. eexists. apply ws_expr; [apply write_top, wr_paren, write_top, Hw|discriminate].
  - intros _. eexists. apply ws_break.
  - intros c [IHc _] t IHt [Hc Ht]. destruct (IHc Hc), (IHt Ht). eexists. apply ws_if; try apply write_top; eassumption.
  - intros c [IHc _] t IHt f IHf (Hc & Ht & Hf & Ho). destruct (IHc Hc), (IHt Ht), (IHf Hf). eexists. apply ws_ifelse; try apply write_top; eassumption.
  - intros c [IHc _] b IHb [Hc Hb]. destruct (IHc Hc), (IHb Hb). eexists. apply ws_while; try apply write_top; eassumption.
  - intros b IHb c [IHc _] [Hc Hb]. destruct (IHc Hc), (IHb Hb). eexists. apply ws_do; try apply write_top; eassumption.
  - intros ss IH H. destruct (IH H). eexists. apply ws_comp; eassumption.
  - intros e [IH _] H. destruct (IH H). eexists. apply ws_return; try apply write_top; eassumption.
  - intros s ps IHp body IHb (Hs & Hp & Hb). destruct (FUN s ps body Hs (IHp Hp) (IHb Hb)). eexists. apply ws_fun; eassumption.
  - intros _. eexists. apply wss_nil.
  - intros s IHs r IHr [Hs Hr]. destruct (IHs Hs), (IHr Hr). eexists. apply wss_cons; eassumption.
Qed.

(** * What the parser gives can be written *)
Definition img {A} (Q : A -> list tok -> Prop) (x : pres A) : Prop := match x with POk a ts => Q a ts | _ => True end.
Lemma img_bind {A B} (Q1 : A -> list tok -> Prop) (Q : B -> list tok -> Prop) x f :
  img Q1 x -> (forall a ts, Q1 a ts -> img Q (f a ts)) -> img Q (pbind x f).
Proof. destruct x; cbn; auto. Qed.
Lemma img_weaken {A} (Q1 Q : A -> list tok -> Prop) x : img Q1 x -> (forall a ts, Q1 a ts -> Q a ts) -> img Q x.
Proof. destruct x; cbn; auto. Qed.

Lemma flt_value_written ds fs : Forall digit ds -> Forall digit fs ->
  flt_value (ds ++ 46 :: fs) = rounded (decimal (ds ++ fs)) (Z.to_pos (10 ^ Z.of_nat (length fs))).
Proof.
  intros Hd Hf. unfold flt_value. rewrite span_exact; [|eapply Forall_impl; [|exact Hd]; intros c; apply isdigit_spec|reflexivity].
  rewrite firstn_exact.
  replace (length ds + 1)%nat with (length (ds ++ [46])) by (rewrite app_length; reflexivity).
  replace (ds ++ 46 :: fs) with ((ds ++ [46]) ++ fs) by (rewrite <- app_assoc; reflexivity).
  rewrite skipn_exact. unfold rounded, decimal. rewrite decimal_value. reflexivity.
Qed.

Definition lexed (t : tok) : Prop :=
  match fst t with
  | KIdent => name (snd t)
  | KInt => Forall digit (snd t)
  | KFloat => exists ds fs, ds <> [] /\ fs <> [] /\ Forall digit ds /\ Forall digit fs /\ snd t = ds ++ 46 :: fs
  | _ => True
  end.
Lemma img_next {A} (Q : A -> list tok -> Prop) ts f : Forall lexed ts -> (forall r, Forall lexed r -> img Q (f r)) -> img Q (next ts f).
Proof. intros H Hf. destruct ts as [|t [|t' r]]; cbn; auto. inversion H; subst. apply Hf. assumption. Qed.
Lemma txt_lexed k ts : Forall lexed ts -> cur ts = k -> ts <> [] -> lexed (k, txt ts).
Proof. destruct ts as [|[k' s] r]; cbn; [congruence|]. intros H <- _. inversion H; subst. assumption. Qed.
Lemma cur_ne ts k : cur ts = k -> k <> KDone -> ts <> []. Proof. intros H ? ->. cbn in H. congruence. Qed.
Lemma txt_name ts : Forall lexed ts -> cur ts = KIdent -> name (txt ts).
Proof. intros H E. exact (txt_lexed _ ts H E (cur_ne ts _ E ltac:(discriminate))). Qed.

Lemma binary_writable k l r : writable l -> writable r -> writable (binary_node k l r).
Proof. intros Hl Hr. destruct k; cbn [binary_node]; repeat match goal with |- context [if ?b then _ else _] => destruct b end; cbn; auto. Qed.
Lemma index_writable set items e : writable set -> writable_items items -> index_node set items = Some e -> writable e.
Proof.
  intros Hs Hi. destruct items as [|i [|j r]]; cbn [index_node]; intros H; try discriminate; injection H as <-; [|cbn in *; tauto].
  destruct Hi as [Hi _]. destruct i; cbn in *; tauto.
Qed.

Lemma render_len n : forall s u v, (length s <= n)%nat -> 0 <= u < 4096 -> render s u = Some v -> u + Z.of_nat (length v) < 4096.
Proof.
  induction n as [|n IH]; intros s u v Hn Hu; destruct s as [|c r]; cbn [render length] in *; try lia;
    try (intros H; injection H as <-; cbn; lia).
  destruct (4096 <=? u + 1) eqn:E; [discriminate|apply Z.leb_gt in E].
  destruct (c =? 92).
  - destruct r as [|d r']; [intros H; injection H as <-; cbn [length]; lia|].
    destruct (escape d) as [e|]; [|discriminate].
    destruct (render r' (u + 1)) as [w|] eqn:Er; cbn; [|discriminate]. intros H; injection H as <-.
    apply IH in Er; cbn [length] in *; lia.
  - destruct (render r (u + 1)) as [w|] eqn:Er; cbn; [|discriminate]. intros H; injection H as <-.
    apply IH in Er; cbn [length] in *; lia.
Qed.

Ltac on := match goal with
  | |- context [if negb ?b then _ else _] =>
    match b with
    | ch ?ts ?c => let E := fresh "E" in destruct b eqn:E; [apply ch_true in E|]; cbn [negb]; [|exact I]
    | is_k ?ts ?k => let E := fresh "E" in destruct b eqn:E; [apply is_true in E|]; cbn [negb]; [|exact I]
    end
  end.
Ltac nxt := apply img_next; [assumption|]; let r := fresh "ts" in let H := fresh "Hl" in intros r H.
Ltac cal H := eapply img_bind; [apply H; auto|cbn beta]; let a := fresh "a" in let r := fresh "ts" in
  let H1 := fresh "Hl" in let H2 := fresh "Ha" in intros a r [H1 H2].

Definition good_fun (f : list Z * params * stmt) (ts : list tok) : Prop :=
  let '(s, ps, body) := f in Forall lexed ts /\ (name s /\ writable_params ps /\ writable_stmt body) /\ (open_if body = true -> cur ts <> KElse).

Theorem image n :
  (forall ts, Forall lexed ts -> img (fun e ts => Forall lexed ts /\ writable e) (p_prefix n ts)) /\
  (forall e ts, Forall lexed ts -> writable e -> img (fun e ts => Forall lexed ts /\ writable e) (p_post n e ts)) /\
  (forall c ts, Forall lexed ts -> img (fun e ts => Forall lexed ts /\ writable_items e) (p_seq n c ts)) /\
  (forall ts, Forall lexed ts -> img (fun e ts => Forall lexed ts /\ writable_pairs e) (p_pairs n ts)) /\
  (forall ts, Forall lexed ts -> img (fun e ts => Forall lexed ts /\ writable e) (p_primary n ts)) /\
  (forall t a ts, Forall lexed ts -> img (fun e ts => Forall lexed ts /\ writable e) (p_expr n t a ts)) /\
  (forall l mn t a ts, Forall lexed ts -> writable l -> img (fun e ts => Forall lexed ts /\ writable e) (p_expr2 n l mn t a ts)) /\
  (forall p r t a ts, Forall lexed ts -> writable r -> img (fun e ts => Forall lexed ts /\ writable e) (p_inner n p r t a ts)) /\
  (forall ts, Forall lexed ts -> img (fun s ts => Forall lexed ts /\ (writable_stmt s /\ (open_if s = true -> cur ts <> KElse))) (p_stmt n ts)) /\
  (forall k ts, Forall lexed ts -> img (fun e ts => Forall lexed ts /\ writable_stmts e) (p_compound n k ts)) /\
  (forall ts, Forall lexed ts -> img good_fun (p_fundef n ts)) /\
  (forall ts, Forall lexed ts -> img (fun e ts => Forall lexed ts /\ writable_params e) (p_params n ts)).
Proof.
  induction n as [|n IH]; [repeat split; intros; exact I|].
  destruct IH as (Iprefix & Ipost & Iseq & Ipairs & Iprim & Iexpr & Iexpr2 & Iinner & Istmt & Icomp & Ifun & Iparams).
  split; [|split; [|split; [|split; [|split; [|split; [|split; [|split; [|split; [|split; [|split]]]]]]]]]];
    cbn [p_prefix p_post p_seq p_pairs p_primary p_expr p_expr2 p_inner p_stmt p_compound p_fundef p_params]; cbv zeta.
  - (* prefix *) intros ts Hl. destruct (is_k ts KDone); [exact I|]. destruct (prefix_op (cur ts)) as [u|].
    + nxt. cal Iprefix. split; auto.
    + cal Iprim. apply Ipost; auto.
  - (* postfix *) intros e ts Hl He. destruct (ch ts 46 || is_k ts KArw).
    + nxt. on. nxt. apply Ipost; auto. pose proof (txt_name ts0 Hl0 E). destruct (is_k ts KArw); cbn; auto.
    + destruct (ch ts 91).
      { nxt. eapply img_bind with (Q1 := fun e ts => Forall lexed ts /\ writable_items e).
        - destruct (ch ts0 93); [split; [assumption|exact I]|apply Iseq; assumption].
        - intros items ts1 [H1 H2]. nxt. destruct (index_node e items) as [sel|] eqn:Ei; [|exact I].
          apply Ipost; auto. eapply index_writable; eauto. }
      destruct (ch ts 40); [|split; assumption].
      nxt. eapply img_bind with (Q1 := fun e ts => Forall lexed ts /\ writable_items e).
      { destruct (ch ts0 41); [split; [assumption|exact I]|apply Iseq; assumption]. }
      intros items ts1 [H1 H2]. nxt. apply Ipost; cbn; auto.
  - (* seq *) intros c ts Hl. cal Iexpr. destruct (ch ts0 c); [cbn; auto|]. on. nxt. cal Iseq. cbn; auto.
  - (* pairs *) intros ts Hl. destruct (is_k ts KFun).
    + eapply img_bind; [apply Ifun; assumption|]. intros [[s ps] body] ts1 (H1 & H2 & _).
      destruct (ch ts1 125); [cbn; auto|]. cal Ipairs. cbn; auto.
    + nxt. eapply img_bind with (Q1 := fun k ts => Forall lexed ts /\ (writable k \/ exists s, k = EStr s /\ name s)).
      { destruct (is_k ts KIdent && (is_k ts0 KDone || ch ts0 58)) eqn:Es.
        - apply andb_true_iff in Es as [Es _]. apply is_true in Es. split; [assumption|right]. eexists. split; [reflexivity|apply txt_name; assumption].
        - eapply img_weaken; [apply Iexpr; assumption|]. intros k ts1 [? ?]. auto. }
      intros k ts1 [H1 H2]. on. nxt. cal Iexpr.
      assert (Hkv : forall r, writable_pairs r -> writable_pairs (PCons k a r)).
      { intros r Hr. cbn [writable_pairs]. split; [|exact Hr]. destruct H2 as [H2|(s & -> & H2)].
        - destruct k; auto. destruct a; auto. destruct Ha.
        - destruct a; auto. destruct Ha. }
      destruct (ch ts3 125); [split; [assumption|apply Hkv; exact I]|]. on. nxt. cal Ipairs. split; auto.
  - (* primary *) intros ts Hl. destruct (cur ts) as [c| | | | | | | | | | | | | | | | | | | | | | |] eqn:Ec; try exact I.
    + destruct (c =? 91).
      { nxt. eapply img_bind with (Q1 := fun e ts => Forall lexed ts /\ writable_items e).
        - destruct (ch ts0 93); [split; [assumption|exact I]|apply Iseq; assumption].
        - intros items ts1 [H1 H2]. nxt. cbn; auto. }
      destruct (c =? 123).
      { nxt. destruct (is_k ts0 KDone); [exact I|]. eapply img_bind with (Q1 := fun e ts => Forall lexed ts /\ writable_pairs e).
        - destruct (ch ts0 125); [split; [assumption|exact I]|apply Ipairs; assumption].
        - intros items ts1 [H1 H2]. nxt. cbn; auto. }
      destruct (c =? 40); [|exact I]. nxt. cal Iexpr. on. nxt. split; auto.
    + pose proof (txt_lexed _ ts Hl Ec (cur_ne ts _ Ec ltac:(discriminate))) as Ht. cbn in Ht.
      destruct (NUM_MAX <=? _); [exact I|]. destruct (2 ^ 63 <=? _) eqn:Ev; [exact I|]. apply Z.leb_gt in Ev. nxt. split; [assumption|].
      cbn -[Z.pow]. split; [|lia]. apply dec_value_nonneg; [lia|]. eapply Forall_impl; [|exact Ht]. intros x. apply isdigit_spec.
    + pose proof (txt_lexed _ ts Hl Ec (cur_ne ts _ Ec ltac:(discriminate))) as Ht. cbn in Ht.
      destruct (NUM_MAX <=? _) eqn:Ev; [exact I|]. apply Z.leb_gt in Ev. unfold NUM_MAX in Ev. nxt. split; [assumption|].
      destruct Ht as (ds & fs & H1 & H2 & H3 & H4 & Et). rewrite Et in *. exists ds, fs. repeat (split; [assumption|]).
      apply flt_value_written; assumption.
    + destruct (string_value (txt ts)) as [v|] eqn:Es; [|exact I]. nxt. split; [assumption|]. cbn.
      unfold string_value in Es. eapply (render_len _ _ _ _ (le_n _)) in Es; lia.
    + pose proof (txt_name ts Hl Ec). nxt. cbn; auto.
    + nxt. cbn; auto.
    + nxt. cbn; auto.
    + nxt. cbn; auto.
  - (* expr *) intros t a ts Hl. cal Iprefix. destruct (is_k ts0 KDone); [split; assumption|]. apply Iexpr2; auto.
  - (* expr2 *) intros l mn t a ts Hl Hw. destruct (goes_on ts mn t a); [|split; assumption]. nxt. cal Iprefix. cal Iinner.
    apply Iexpr2; auto using binary_writable.
  - (* inner *) intros p r t a ts Hl Hr. destruct (precedence (cur ts)); [|split; assumption].
    destruct (_ || _); [|split; assumption]. cal Iexpr2. destruct (_ && _); [split; assumption|]. apply Iinner; auto.
  - (* stmt *) intros ts Hl. destruct (starts_expr (cur ts)).
    + cal Iexpr. on. nxt. cbn. repeat split; auto. discriminate.
    + destruct (cur ts) as [c| | | | | | | | | | | | | | | | | | | | | | |] eqn:Ec; try exact I.
      * destruct (c =? 123); [|exact I]. nxt. cal Icomp. nxt. cbn. repeat split; auto. discriminate.
      * nxt. cal Iexpr. on. nxt. cal Istmt. destruct Ha0 as [Ha0 Ho].
        destruct (is_k ts3 KElse) eqn:E2.
        -- apply is_true in E2. nxt. cal Istmt. destruct Ha1 as [Ha1 Ho1]. cbn. repeat split; auto.
           destruct (open_if a0) eqn:Eo; [contradiction Ho; auto|reflexivity].
        -- apply is_false in E2. cbn. auto.
      * eapply img_bind; [apply Ifun; assumption|]. intros [[s ps] body] ts1 (H1 & H2 & H3). cbn. auto.
      * nxt. cal Iexpr. on. nxt. cbn. repeat split; auto. discriminate.
      * nxt. cal Iexpr. on. nxt. cal Istmt. destruct Ha0 as [Ha0 Ho]. cbn. auto.
      * nxt. on. nxt. cbn. repeat split; auto. discriminate.
      * nxt. cal Istmt. destruct Ha as [Ha Ho]. on. nxt. cal Iexpr. on. nxt. cbn. repeat split; auto. discriminate.
  - (* compound *) intros k ts Hl. destruct (is_k ts k); [split; [assumption|exact I]|]. destruct (is_k ts KDone); [exact I|].
    cal Istmt. destruct Ha as [Ha _]. cal Icomp. cbn; auto.
  - (* fundef *) intros ts Hl. nxt. on. pose proof (txt_name ts0 Hl0 E). nxt. on. nxt.
    eapply img_bind with (Q1 := fun e ts => Forall lexed ts /\ writable_params e).
    { destruct (ch ts2 41); [split; [assumption|exact I]|apply Iparams; assumption]. }
    intros ps ts3 [H1 H2]. nxt. destruct (is_k ts4 KDone); [exact I|]. cal Istmt. destruct Ha as [Ha Ho]. cbn. auto.
  - (* params *) intros ts Hl. on. pose proof (txt_name ts Hl E). nxt.
    eapply img_bind with (Q1 := fun e ts => Forall lexed ts /\ writable_opt e).
    { destruct (ch ts0 58); [nxt; cal Iexpr; cbn; auto|cbn; auto]. }
    intros ty ts1 [H1 H2].
    eapply img_bind with (Q1 := fun e ts => Forall lexed ts /\ writable_opt e).
    { destruct (ch ts1 61); [nxt; cal Iexpr; cbn; auto|cbn; auto]. }
    intros df ts2 [H3 H4].
    destruct (ch ts2 41); [cbn; auto|]. on. nxt. cal Iparams. cbn; auto.
Qed.

(** * Tokens *)
Lemma span_firstn_app (P : Z -> bool) s : firstn (span P s) s ++ skipn (span P s) s = s.
Proof. apply firstn_skipn. Qed.

Lemma lex1_lexed nul s k n : lex1 nul s = LOk (k, n) -> lexed (k, firstn n s).
Proof.
  destruct s as [|c s]; [discriminate|]. unfold lex1.
  destruct (isident0 c) eqn:Ei.
  { cbv zeta. pose proof (span_forall isident (c :: s)) as Hf. assert (Hs : exists m, span isident (c :: s) = S m).
    { cbn [span]. replace (isident c) with true; [eauto|]. symmetry. apply isident_spec. left. apply isident0_spec, Ei. }
    destruct Hs as [m Hm]. assert (Hw : firstn (span isident (c :: s)) (c :: s) = c :: firstn m s) by (rewrite Hm; reflexivity).
    remember (firstn (span isident (c :: s)) (c :: s)) as w eqn:Ew. generalize dependent (span isident (c :: s)). intros n0 Ew Hm.
    pose proof (table_kind keywords w) as Hk. pose proof (table_none keywords w) as Hn.
    
    destruct (table keywords w) as [k'|] eqn:Et; intros H; injection H as <- <-; rewrite <- Ew.
    - specialize (Hk _ eq_refl). cbn in Hk. unfold lexed. cbn [fst snd]. 
      destruct k'; try exact I; intuition discriminate.
    - unfold lexed. cbn [fst snd]. unfold name. split.
      + rewrite Hw in *. inversion Hf; subst. split; [apply isident0_spec, Ei|].
        eapply Forall_impl; [|eassumption]. intros x. apply isident_spec.
      + specialize (Hn eq_refl). intros Hin. apply in_map_iff in Hin as ([k' w'] & E' & Hin). cbn in E'. subst w'.
        apply (Hn k'). cbn in Hin. cbn.
        repeat match goal with H : _ \/ _ |- _ => destruct H as [H|H]; [injection H as <- <-; tauto|] end. destruct Hin. }
  destruct (isdigit c) eqn:Ed.
  { cbv zeta. pose proof (span_forall isdigit (c :: s)) as Hd. assert (Hs : exists m, span isdigit (c :: s) = S m).
    { cbn [span]. rewrite Ed. eauto. }
    destruct Hs as [m' Hm']. assert (Hds : Forall digit (firstn (span isdigit (c :: s)) (c :: s))).
    { eapply Forall_impl; [|exact Hd]. intros x. apply isdigit_spec. }
    pose proof (firstn_skipn (span isdigit (c :: s)) (c :: s)) as Efs.
    set (m := span isdigit (c :: s)) in *.
    destruct (skipn m (c :: s)) as [|p [|d r]] eqn:Esk; intros H; [injection H as <- <-; exact Hds|injection H as <- <-; exact Hds|].
    destruct ((p =? 46) && isdigit d) eqn:Ep; [|injection H as <- <-; exact Hds]. injection H as <- <-.
    apply andb_true_iff in Ep as [Ep Epd]. apply Z.eqb_eq in Ep as ->.
    assert (Hm1 : skipn (m + 1) (c :: s) = d :: r) by (rewrite <- skipn_skipn', Esk; reflexivity).
    rewrite Hm1.
    assert (Hx : firstn (m + 1 + span isdigit (d :: r)) (c :: s) = firstn m (c :: s) ++ 46 :: firstn (span isdigit (d :: r)) (d :: r)).
    { set (q := span isdigit (d :: r)). rewrite <- Efs at 1. rewrite firstn_app.
      assert (Hlen : length (firstn m (c :: s)) = m). { apply firstn_length_le. unfold m. apply span_le. }
      rewrite Hlen. rewrite firstn_all2 by lia. f_equal. replace (m + 1 + q - m)%nat with (S q) by lia. reflexivity. }
    rewrite Hx. unfold lexed. cbn [fst snd]. eexists _, _. split; [|split; [|split; [exact Hds|split; [|reflexivity]]]].
    - rewrite Hm'. discriminate.
    - cbn [span]. rewrite Epd. discriminate.
    - eapply Forall_impl; [|apply span_forall]. intros x. apply isdigit_spec. }
  destruct ((c =? 39) || (c =? 34)).
  { destruct (scan_string c s); [intros H; injection H as <- <-; exact I|destruct nul; discriminate]. }
  destruct (isoper c); [|intros H; injection H as <- <-; exact I].
  cbv zeta. pose proof (table_kind operators (firstn (span isoper (c :: s)) (c :: s))) as Ht.
  destruct (table operators (firstn (span isoper (c :: s)) (c :: s))) as [k'|]; intros H; injection H as <- <-; [|exact I].
  specialize (Ht _ eq_refl). cbn in Ht. unfold lexed. cbn [fst]. destruct k'; try exact I; intuition discriminate.
Qed.

Lemma lex_lexed src fuel nul : forall off l,
  lex fuel nul (Z.of_nat off) (skipn off src) = LOk l -> Forall lexed (with_text src l).
Proof.
  induction fuel as [|f IH]; intros off l; cbn [lex]; set (s := skipn off src) in *; set (k := skip false s) in *;
    destruct (skipn k s) as [|c r] eqn:E; try discriminate.
  1,2: intros H; injection H as <-; cbn; repeat constructor.
  destruct (lex1 nul (c :: r)) as [[kd n]| | |] eqn:E1; try discriminate.
  assert (Hoff : Z.of_nat off + Z.of_nat k + Z.of_nat n = Z.of_nat (off + k + n)) by lia. rewrite Hoff.
  replace (skipn n (c :: r)) with (skipn (off + k + n) src)
    by (rewrite <- E; unfold s; rewrite !skipn_skipn'; f_equal; lia).
  destruct (lex f nul (Z.of_nat (off + k + n)) (skipn (off + k + n) src)) as [l'| | |] eqn:E2; try discriminate.
  intros H; injection H as <-. apply IH in E2. cbn [with_text map t_kind]. constructor; [|exact E2].
  assert (Ht : text_of src (mktok kd (Z.of_nat off + Z.of_nat k) (Z.of_nat n)) = firstn n (c :: r)).
  { unfold text_of. cbn [t_len t_off]. rewrite <- Nat2Z.inj_add, !Nat2Z.id, <- E. unfold s. rewrite skipn_skipn'. reflexivity. }
  rewrite Ht. eapply lex1_lexed; eassumption.
Qed.

Theorem parse_writable nul src root ts : parse nul src = POk root ts -> exists ss, root = SComp ss /\ writable_stmts ss.
Proof.
  unfold parse. destruct (tokenize nul src) as [l| | |] eqn:E; try discriminate.
  pose proof (lex_lexed src (length src) nul 0 l E) as Hl. unfold parse_tokens.
  destruct (image (parse_fuel (with_text src l))) as (_ & _ & _ & _ & _ & _ & _ & _ & _ & Hc & _).
  specialize (Hc KDone _ Hl). destruct (p_compound _ _ _) as [ss ts'| | |]; cbn; try discriminate.
  intros H; injection H as <- <-. exists ss. split; [reflexivity|apply Hc].
Qed.

(** Every writable tree has a text that gives it; so in particular every tree the parser gives. *)
Theorem print_parse nul ss : writable_stmts ss -> exists ws, wr_stmts ss ws /\ parse nul (spaced ws) = POk (SComp ss) [(KDone, [])].
Proof.
  intros H. destruct can_write as (_ & _ & _ & _ & _ & _ & W). destruct (W ss H) as [ws Hw]. exists ws. split; [exact Hw|].
  apply (read_back nul ss ws); [exact Hw|]. apply spaced_layout. destruct written_words as (_ & _ & _ & _ & _ & _ & _ & _ & _ & _ & _ & _ & L). eauto.
Qed.
Theorem parse_print_parse nul nul' src root ts : parse nul src = POk root ts ->
  exists ss ws, root = SComp ss /\ wr_stmts ss ws /\ parse nul' (spaced ws) = POk root [(KDone, [])].
Proof.
  intros H. destruct (parse_writable _ _ _ _ H) as (ss & -> & Hw). destruct (print_parse nul' ss Hw) as (ws & H1 & H2). eauto.
Qed.
