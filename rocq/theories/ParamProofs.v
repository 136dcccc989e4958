(** Parameters: proofs for C91. *)
From Coq Require Import ZArith List Bool Lia.
From Verif Require Import Base FloatModel StringModel ValueModel ExeModel AstModel CompSpec DepthSpec MapModel ObjModel VmModel CodegenModel CompileModel CompileProofs
  CalcSpec FuelProofs WhileSpec WhileProofs FunSpec FunProofs FunRun ParamSpec.
Import ListNotations.
Open Scope Z_scope.

Lemma fsays_literal calls w s e v : literal e = Some v -> fsays calls w s e = Told v.
Proof. destruct e; cbn; intros H; try discriminate; injection H as <-; reflexivity. Qed.
Lemma fargs_literals calls w s es : forall vs, literals es = Some vs -> fargs calls w s es = Told vs.
Proof.
  induction es as [|e r IH]; cbn [literals]; intros vs H; [injection H as <-; reflexivity|]. destruct (literal e) as [v|] eqn:Q; [|discriminate].
  destruct (literals r) as [us|]; [|discriminate]. injection H as <-. change (fargs calls w s (ECons e r)) with (tbind (fargs calls w s r) (fun vs => tbind (fsays calls w s e) (fun v => Told (v :: vs)))). rewrite (IH us eq_refl). cbn [tbind]. rewrite (fsays_literal calls w s e v Q). reflexivity.
Qed.

Lemma taken_in ps p v : forall vs, In (p, v) (taken ps vs) -> In (fst p) (map fst ps).
Proof. induction ps as [|q r IH]; cbn [taken map]; intros vs I; [contradiction|]. destruct I as [I|I]; [injection I as <- <-; left; reflexivity|right; exact (IH _ I)]. Qed.

Lemma receive_taken calls w s ps : Forall literal_default ps -> forall vs,
  if forallb suits (taken ps vs) then exists s', receive calls w s ps vs = Told s' /\ (NoDup (map fst ps) -> forall p v, In (p, v) (taken ps vs) -> s' (fst p) = Some v)
  else receive calls w s ps vs = Wrong.
Proof.
  induction 1 as [|[x [ty df]] r D F IH]; intros vs; cbn [taken forallb receive].
  - exists s. split; [reflexivity|]. intros _ p v [].
  - specialize (IH (tl vs)). destruct (forallb suits (taken r (tl vs))); [|rewrite IH, andb_false_r; reflexivity].
    rewrite andb_true_r. destruct IH as (s1 & -> & H). cbn [tbind].
    assert (Q : match df, hd VNone vs with Some d, VNone => fsays calls w s1 d | _, v => Told v end = Told (takes (x, (ty, df)) (hd VNone vs))).
    { unfold takes, literal_default in *. cbn [fst snd] in *. destruct df as [d|]; [|destruct (hd VNone vs); reflexivity].
      destruct (hd VNone vs); try reflexivity. destruct (literal d) as [u|] eqn:L; [|congruence]. exact (fsays_literal calls w s1 d u L). }
    rewrite Q. cbn [tbind]. set (v0 := takes (x, (ty, df)) (hd VNone vs)). unfold suits. cbn [fst snd].
    assert (G : exists s', Told (put_in s1 x v0) = Told s' /\ (NoDup (map fst ((x, (ty, df)) :: r)) -> forall p v, In (p, v) ((x, (ty, df), v0) :: taken r (tl vs)) -> s' (fst p) = Some v)).
    { eexists. split; [reflexivity|]. cbn [map fst]. intros N p v [I|I].
      - injection I as <- <-. cbn [fst]. unfold put_in. destruct (list_eq_dec Z.eq_dec x x); congruence.
      - inversion N as [|? ? N1 N2]; subst. unfold put_in. destruct (list_eq_dec Z.eq_dec (fst p) x) as [e|e].
        + exfalso. apply N1. rewrite <- e. exact (taken_in r p v _ I).
        + exact (H N2 p v I). }
    destruct ty as [t|]; [|exact G]. destruct (accepts t v0); [exact G|reflexivity].
Qed.

Lemma defined_one f d : defined [(f, d)] f = Some d.
Proof. unfold defined. cbn [find fst]. destruct (list_eq_dec Z.eq_dec f f); [reflexivity|congruence]. Qed.

Lemma says_return T n d w s f args : fstmt T (S n) d w s (SComp (SCons (SReturn (ECall (EIdent f) args)) SNil)) =
  tbind (fargs (fcall T n d) w s args) (fun vs => tbind (fcall T n d f (outer w s) vs) (fun rs => Told (Gave [hd VNone rs]))).
Proof.
  change (fstmt T (S n) d w s (SComp (SCons (SReturn (ECall (EIdent f) args)) SNil))) with
    (tbind (tbind (tbind (tbind (fargs (fcall T n d) w s args) (fun vs => tbind (fcall T n d f (outer w s) vs) (fun rs => Told (hd VNone rs)))) (fun v => Told [v])) (fun vs => Told (Gave vs)))
      (fun q => match q with Fell s1 => Told (Fell s1) | _ => Told q end)).
  destruct (fargs (fcall T n d) w s args); try reflexivity. cbn [tbind]. destruct (fcall T n d f (outer w s) a); reflexivity.
Qed.
Lemma call_step T n d f g vs ps body : T f = Some (ps, body) -> fcall T (S n) (Some (S d)) f g vs =
  tbind (receive (fcall T n (Some d)) (Some g) nothing ps vs) (fun s =>
  tbind (fdoes (fstmt T n (Some d)) (fcall T n (Some d)) (Some g) s body) (fun r => match r with Gave rs => Told rs | Fell _ => Told [] | Broke _ => Wrong end)).
Proof. intros H. cbn [fcall]. rewrite H. reflexivity. Qed.

Lemma params_run src f ps x args vs p v : text_ok src -> slen src < 2 ^ 26 -> reads src (program (asks f ps x) (calls_it f args)) ->
  fgood (asks f ps x) (calls_it f args) -> fits_stmts 16 (program (asks f ps x) (calls_it f args)) = true ->
  Forall literal_default ps -> NoDup (map fst ps) -> literals args = Some vs -> In (p, v) (taken ps vs) -> fst p = x ->
  exists c, compile src = ROk c /\ forall E cap m, 256 <= cap -> m_pend m = false -> unknown E m (fnames (asks f ps x) (calls_it f args)) ->
  knows_types E m (fkinds (asks f ps x)) ->
  if forallb suits (taken ps vs) then exists j m', steps E cap c j (vm_start m) = SDone [v] m' else exists j, steps E cap c j (vm_start m) = SErr.
Proof.
  intros T L R G F D N A I X. destruct (fperforms src _ _ T L R G F) as (c & C & H). exists c. split; [exact C|]. intros E cap m Hc Pe U K.
  specialize (H E cap m Hc Pe U K 2%nat).
  assert (Q : ftold (asks f ps x) (calls_it f args) 2 (Some 15%nat) = if forallb suits (taken ps vs) then Told (Gave [v]) else Wrong).
  { unfold ftold, calls_it. rewrite says_return, (fargs_literals _ _ _ args vs A). cbn [tbind].
    unfold asks. rewrite (call_step _ 0 14 f _ vs ps _ (defined_one _ _)).
    match goal with |- context [receive ?c ?w ?s ps vs] => pose proof (receive_taken c w s ps D vs) as Rc end.
    destruct (forallb suits (taken ps vs)).
    - destruct Rc as (s' & -> & Hs). cbn [tbind fdoes ftells fsays]. unfold see. rewrite <- X, (Hs N p v I). reflexivity.
    - rewrite Rc. reflexivity. }
  rewrite Q in H. destruct (forallb suits (taken ps vs)); exact H.
Qed.

(** * Default values see the parameters behind them *)
Definition earlier (a b : list Z) : list param := [(a, (None, None)); (b, (None, Some (EIdent a)))].
Definition later (a b : list Z) : list param := [(a, (None, Some (EIdent b))); (b, (None, None))].
Definition itself (f a : list Z) : list param := [(a, (None, Some (ECall (EIdent f) ENil)))].

Section Order.
Variables (src f a b : list Z).
Hypotheses (T : text_ok src) (L : slen src < 2 ^ 26) (D : a <> b).

Lemma earlier_run e v : reads src (program (asks f (earlier a b) b) (calls_it f (ECons e ENil))) -> fgood (asks f (earlier a b) b) (calls_it f (ECons e ENil)) ->
  fits_stmts 16 (program (asks f (earlier a b) b) (calls_it f (ECons e ENil))) = true -> literal e = Some v ->
  exists c, compile src = ROk c /\ forall E cap m, 256 <= cap -> m_pend m = false -> unknown E m [f; a; b] -> exists j, steps E cap c j (vm_start m) = SErr.
Proof.
  intros R G F A. destruct (fperforms src _ _ T L R G F) as (c & C & H). exists c. split; [exact C|]. intros E cap m Hc Pe U.
  assert (N : fnamed e = []) by (destruct e; try discriminate; reflexivity).
  specialize (H E cap m Hc Pe).
  assert (U2 : unknown E m (fnames (asks f (earlier a b) b) (calls_it f (ECons e ENil)))).
  { intros m' x Hx. apply U. unfold fnames, asks, calls_it, earlier in Hx. cbn in Hx. fold fnamed in Hx. rewrite ?N in Hx. cbn in Hx. cbn. tauto. }
  assert (K : knows_types E m (fkinds (asks f (earlier a b) b))) by (intros m' x k []).
  specialize (H U2 K 2%nat).
  assert (Q : ftold (asks f (earlier a b) b) (calls_it f (ECons e ENil)) 2 (Some 15%nat) = Wrong).
  { unfold ftold, calls_it. rewrite says_return, (fargs_literals _ _ _ (ECons e ENil) [v]) by (cbn [literals]; rewrite A; reflexivity). cbn [tbind].
    unfold asks. rewrite (call_step _ 0 14 f _ [v] (earlier a b) _ (defined_one _ _)). reflexivity. }
  rewrite Q in H. exact H.
Qed.
Lemma later_run e v : reads src (program (asks f (later a b) a) (calls_it f (ECons ENone (ECons e ENil)))) -> fgood (asks f (later a b) a) (calls_it f (ECons ENone (ECons e ENil))) ->
  fits_stmts 16 (program (asks f (later a b) a) (calls_it f (ECons ENone (ECons e ENil)))) = true -> literal e = Some v ->
  exists c, compile src = ROk c /\ forall E cap m, 256 <= cap -> m_pend m = false -> unknown E m [f; a; b] -> exists j m', steps E cap c j (vm_start m) = SDone [v] m'.
Proof.
  intros R G F A. destruct (fperforms src _ _ T L R G F) as (c & C & H). exists c. split; [exact C|]. intros E cap m Hc Pe U.
  assert (N : fnamed e = []) by (destruct e; try discriminate; reflexivity).
  specialize (H E cap m Hc Pe).
  assert (U2 : unknown E m (fnames (asks f (later a b) a) (calls_it f (ECons ENone (ECons e ENil))))).
  { intros m' x Hx. apply U. unfold fnames, asks, calls_it, later in Hx. cbn in Hx. fold fnamed in Hx. rewrite ?N in Hx. cbn in Hx. cbn. tauto. }
  assert (K : knows_types E m (fkinds (asks f (later a b) a))) by (intros m' x k []).
  specialize (H U2 K 2%nat).
  assert (Q : ftold (asks f (later a b) a) (calls_it f (ECons ENone (ECons e ENil))) 2 (Some 15%nat) = Told (Gave [v])).
  { unfold ftold, calls_it. rewrite says_return, (fargs_literals _ _ _ (ECons ENone (ECons e ENil)) [VNone; v]) by (cbn [literals literal]; rewrite A; reflexivity). cbn [tbind].
    unfold asks. rewrite (call_step _ 0 14 f _ [VNone; v] (later a b) _ (defined_one _ _)). unfold later. cbn [receive tl hd tbind fsays]. unfold see at 1.
    unfold put_in at 1. destruct (list_eq_dec Z.eq_dec b b); [|congruence]. cbn [tbind fdoes ftells fsays]. unfold see, put_in at 1. destruct (list_eq_dec Z.eq_dec a a); [|congruence]. reflexivity. }
  rewrite Q in H. exact H.
Qed.
End Order.

(** A default value that calls its own function. *)
Lemma itself_deep f a : forall n d g, (d < n)%nat -> fcall (defined (asks f (itself f a) a)) n (Some d) f g [] = Deep.
Proof.
  induction n as [|n IH]; intros d g Hd; [lia|]. destruct d as [|d]; [reflexivity|]. unfold asks. rewrite (call_step _ n d f g [] (itself f a) _ (defined_one _ _)).
  fold (asks f (itself f a) a).
  change (receive (fcall (defined (asks f (itself f a) a)) n (Some d)) (Some g) nothing (itself f a) []) with
    (tbind (tbind (fcall (defined (asks f (itself f a) a)) n (Some d) f g []) (fun rs => Told (hd VNone rs))) (fun v => Told (put_in nothing a v))).
  rewrite IH by lia. reflexivity.
Qed.
Lemma itself_run src f a : text_ok src -> slen src < 2 ^ 26 -> reads src (program (asks f (itself f a) a) (calls_it f ENil)) -> fgood (asks f (itself f a) a) (calls_it f ENil) ->
  fits_stmts 16 (program (asks f (itself f a) a) (calls_it f ENil)) = true ->
  exists c, compile src = ROk c /\ forall E cap m, 256 <= cap -> m_pend m = false -> unknown E m [f; a] -> ~ short_of_fuel E -> exists j, steps E cap c j (vm_start m) = SLimit.
Proof.
  intros T L R G F. destruct (fperforms src _ _ T L R G F) as (c & C & H). exists c. split; [exact C|]. intros E cap m Hc Pe U.
  specialize (H E cap m Hc Pe).
  assert (U2 : unknown E m (fnames (asks f (itself f a) a) (calls_it f ENil))).
  { intros m' x Hx. apply U. unfold fnames, asks, calls_it, itself in Hx. cbn in Hx. cbn. tauto. }
  assert (K : knows_types E m (fkinds (asks f (itself f a) a))) by (intros m' x k []).
  specialize (H U2 K 17%nat).
  assert (Q : ftold (asks f (itself f a) a) (calls_it f ENil) 17 (Some 15%nat) = Deep).
  { unfold ftold, calls_it. rewrite says_return. change (fargs (fcall (defined (asks f (itself f a) a)) 16 (Some 15%nat)) None nothing ENil) with (@Told (list value) []). cbn [tbind].
    rewrite itself_deep by lia. reflexivity. }
  rewrite Q in H. exact H.
Qed.
