(** What a program writes: proofs, on the syntax tree. *)
From Coq Require Import ZArith List Bool Lia String.
Close Scope string_scope.
From Verif Require Import BuiltinModel SysProofs LookSpec LookProofs ShowModel.
From Verif Require Import Base FloatModel StringModel ValueModel ExeModel ArithModel AstModel CodegenModel CompSpec MapModel MapSpec MapProofs MapProofs2 ObjModel VmModel SrcModel
  LexModel ParseModel FuelProofs RunProofs ScopeSpec ScopeProofs CalcSpec CalcProofs WhileSpec WhileProofs CopyProofs FunRun TalkModel TalkSpec.
Import ListNotations.
Open Scope list_scope.
Open Scope Z_scope.

(** The machine in which the program is stopped as soon as what it has written is [stop], and in which nothing but print and the names of the
    builtins is answered. *)
Definition talks (ff : Z -> list Z) (fb : nat -> list Z) (k : nat) (stop : list Z -> bool) (argv : list value) (m : mem) : out (list value * mem) :=
  match bin_print ff fb (m_objs m) argv with
  | OOk r => if stop (written k m ++ fst r) then OLoop else OOk ([], set_obj m k (stream (written k m ++ fst r)))
  | OErr => OErr
  | OUB => OUB
  | _ => OLoop
  end.
Definition dumb (b : option value) : env := mkenv (fun _ _ _ => OLoop) (fun _ _ _ => OLoop) (fun _ _ _ _ => OLoop) (fun _ _ _ _ _ => OLoop) b.
Definition watch (ff : Z -> list Z) (fb : nat -> list Z) (k : nat) (stop : list Z -> bool) (b : nat) : env :=
  mkenv (fun id => if (id =? N_print)%nat then talks ff fb k stop else fun _ _ => OLoop) (smap_select (dumb None)) (fun _ _ _ _ => OLoop) (fun _ _ _ _ _ => OLoop) (Some (VRef b)).
Definition never (t : list Z) : bool := false.

Lemma watch_select ff fb k stop b n m c key : obj_select (watch ff fb k stop b) n m c key = obj_select (std_env (dumb None) (Some (VRef b))) n m c key.
Proof. rewrite (select_mute (std_env _ _)), (select_mute (watch ff fb k stop b)). reflexivity. Qed.
Lemma watch_get ff fb k stop b scopes key m : get_in (watch ff fb k stop b) m scopes key = get_in (std_env (dumb None) (Some (VRef b))) m scopes key.
Proof. rewrite (get_mute (std_env _ _)), (get_mute (watch ff fb k stop b)). reflexivity. Qed.

Lemma written_stream k m o : nth_error (m_objs m) k = Some (stream o) -> written k m = o.
Proof. intros H. unfold written. rewrite H. reflexivity. Qed.

Lemma nth_upd_same {A} (l : list A) i x y : nth_error l i = Some x -> nth_error (upd l i y) i = Some y.
Proof. revert i; induction l as [|a l IH]; intros [|i] H; try discriminate; cbn in *; auto. Qed.
Lemma upd_same_length {A} (l : list A) i (x : A) : List.length (upd l i x) = List.length l.
Proof. revert i; induction l as [|a l IH]; intros [|i]; cbn; auto. Qed.

(** The texts of values that refer to no objects. *)
Lemma print_basic ff fb objs : forall vs fl, Forall basic vs -> print_args ff fb objs fl vs = OOk (List.concat (map (scalar_text ff) vs), fl).
Proof.
  induction vs as [|v vs IH]; intros fl F; [reflexivity|]. inversion_clear F as [|? ? B F2]. cbn [print_args].
  assert (Q : obj_print (depth objs) ff fb objs fl v = OOk (scalar_text ff v, fl)).
  { unfold depth. destruct v; try contradiction B; reflexivity. }
  rewrite Q. cbn [obind fst snd]. rewrite (IH fl F2). reflexivity.
Qed.

Section Talk.
Variables (ff : Z -> list Z) (fb : nat -> list Z) (k b l : nat) (text : value -> list Z) (X : list (list Z)) (stop : list Z -> bool).
Hypothesis Few : few X.
Hypothesis HX : forall x, In x X -> no_nul x /\ ~ exists name, In name known_names /\ x = bytes_of name.
Hypothesis Text : forall v, basic v -> text v = scalar_text ff v.
Let E := watch ff fb k stop b.
Let sc := mksc (VRef l) None.

(** The variables are the store, and [o] was written. *)
Definition tholds (s : store) (o : list Z) (m : mem) : Prop :=
  exists m0, List.length (m_objs m0) = l /\ nth_error (m_objs m0) b = Some (OSMap 0) /\ nth_error (m_objs m0) k = Some (stream o) /\ holds m0 X s m.

Lemma tunknown m0 : nth_error (m_objs m0) b = Some (OSMap 0) -> unknown E m0 X.
Proof.
  intros Hb m' x Hx Pm K. unfold E. rewrite watch_get. change (e_builtins (watch ff fb k stop b)) with (e_builtins (std_env (dumb None) (Some (VRef b)))).
  exact (unknown_std (dumb None) m0 X b Hb HX m' x Hx Pm K).
Qed.

Lemma tholds_out s o m : tholds s o m -> written k m = o /\ m_pend m = false.
Proof. intros (m0 & L & B & K & H). split; [|apply H]. apply written_stream. destruct H as (_ & H & _). exact (H _ _ K). Qed.

Lemma print_unnamed : ~ In the_print X.
Proof. intros H. destruct (HX _ H) as [_ N]. apply N. exists "print"%string. split; [cbn; tauto|reflexivity]. Qed.

Lemma assigned_in h x v : assigned h x = Some v -> exists w, In (x, w) h.
Proof.
  unfold assigned, last_stored. assert (G : forall h acc, fold_left (fun acc kv => if name_eqb x (fst kv) then Some (snd kv) else acc) h acc = Some v ->
    acc = Some v \/ exists w, In (x, w) h).
  { clear. induction h as [|[y w] h IH]; intros acc H; cbn [fold_left fst snd] in H; [auto|]. destruct (IH _ H) as [Q|(w' & Q)]; [|right; exists w'; right; exact Q].
    destruct (name_eqb x y) eqn:N; [|auto]. apply name_eqb_true in N. subst y. right. exists w. left. reflexivity. }
  intros H. destruct (G h None H) as [Q|Q]; [discriminate|exact Q].
Qed.

(** The name print finds the function. *)
Lemma print_found s o st A2 : tholds s o (t_mem st) ->
  eval E A2 MVal (EIdent the_print) [] sc st =
  OOk ([VRef (List.length (m_objs (t_mem st)))], put_mem st (mkmem (m_objs (t_mem st) ++ [ONative N_print (-1)]) (m_pend (t_mem st)))).
Proof.
  intros (m0 & L & B & K & H). cbn [eval]. cbn [sc_locals sc_clo sc]. destruct H as (P & Kp & Bs & h & V & HXs & A). rewrite L in V.
  rewrite (get_var_scopes E (t_mem st) l h None [] [] the_print P ltac:(repeat constructor; vm_compute; try discriminate; reflexivity) V (few_tame X h Few HXs) (chain_none _)).
  cbn [visible]. destruct (assigned h the_print) as [v|] eqn:Q.
  - exfalso. destruct (assigned_in _ _ _ Q) as (w & Hin). rewrite Forall_forall in HXs. exact (print_unnamed (HXs _ Hin)).
  - unfold E. rewrite watch_get. cbn [get_in e_builtins watch std_env]. unfold select_of. unfold depth. cbn [obj_select]. rewrite (Kp _ _ B). reflexivity.
Qed.

(** Saying [w] more. *)
Lemma tholds_write s o w m : tholds s o m ->
  tholds s (o ++ w) (set_obj (mkmem (m_objs m ++ [ONative N_print (-1)]) (m_pend m)) k (stream (o ++ w))).
Proof.
  intros (m0 & L & B & K & H). destruct H as (P & Kp & Bs & h & V & HXs & A).
  assert (Nb : k <> b) by (intros ->; rewrite B in K; discriminate).
  assert (Kl : (k < l)%nat) by (rewrite <- L; apply nth_error_Some; congruence).
  exists (mkmem (upd (m_objs m0) k (stream (o ++ w))) (m_pend m0)). cbn [m_objs set_obj].
  split; [rewrite upd_same_length; exact L|]. split; [rewrite nth_upd_other by exact Nb; exact B|]. split; [exact (nth_upd_same _ _ _ _ K)|].
  split; [exact P|]. cbn [m_objs set_obj m_pend]. split; [|split; [exact Bs|]].
  - intros j ob Hj. destruct (Nat.eq_dec k j) as [->|N].
    + rewrite (nth_upd_same _ _ _ _ K) in Hj. injection Hj as <-. apply (nth_upd_same _ _ (stream o)). rewrite nth_error_app1 by (apply nth_error_Some; rewrite (Kp _ _ K); discriminate). exact (Kp _ _ K).
    + rewrite nth_upd_other in Hj by exact N. rewrite nth_upd_other by exact N. rewrite nth_error_app1 by (apply nth_error_Some; rewrite (Kp _ _ Hj); discriminate). exact (Kp _ _ Hj).
  - exists h. split; [|split; [exact HXs|exact A]]. destruct V as (mo & V1 & V2). exists mo. split; [|exact V2]. unfold set_obj. cbn [m_objs]. rewrite upd_same_length.
    rewrite nth_upd_other by (rewrite L; lia). rewrite nth_error_app1 by (apply nth_error_Some; rewrite V1; discriminate). exact V1.
Qed.

Lemma args_cons E' A2 e r sc' st : eval_args E' A2 (ECons e r) sc' st =
  obind (eval_args E' A2 r sc' st) (fun p => obind (eval E' A2 MVal e [] sc' (snd p)) (fun q => OOk (fst q ++ fst p, snd q))).
Proof.
  change (eval_args E' A2 (ECons e r) sc' st) with
    (obind (eval_args E' A2 r sc' st) (fun p => let '(xs, st1) := p in obind (eval E' A2 MVal e [] sc' st1) (fun q => let '(x, st2) := q in OOk (x ++ xs, st2)))).
  destruct (eval_args E' A2 r sc' st) as [[xs st1]| | | |]; try reflexivity. cbn [obind fst snd]. destruct (eval E' A2 MVal e [] sc' st1) as [[x st2]| | | |]; reflexivity.
Qed.

Lemma eval_given A2 : forall es s o st, simple_all es -> incl (tnamed_all es) X -> wf_exprs es -> tholds s o (t_mem st) ->
  match given s es with
  | Gives vs => eval_args E A2 es sc st = OOk (vs, st) /\ Forall basic vs
  | Fails => eval_args E A2 es sc st = OErr
  | Lost => eval_args E A2 es sc st = OUB
  | _ => False
  end.
Proof.
  induction es as [|e r IH]; intros s o st Si In Wf H; [split; [reflexivity|constructor]|].
  destruct Si as [S1 S2], Wf as [W1 W2]. cbn [tnamed_all] in In. apply incl_app_inv in In. destruct In as [I1 I2].
  specialize (IH s o st S2 I2 W2 H). rewrite args_cons. cbn [given]. destruct (given s r) as [| |vs| |]; try contradiction; [|rewrite IH; reflexivity..].
  destruct IH as [IH F]. rewrite IH. cbn [obind fst snd]. destruct H as (m0 & L & B & K & H).
  pose proof (eval_says E m0 X Few (tunknown m0 B) A2 e MVal s st S1 I1 W1 H ltac:(discriminate)) as G. rewrite L in G. fold sc in G.
  destruct (says s e); try contradiction; [|rewrite G; reflexivity..]. destruct G as [G Bv]. rewrite G. cbn [obind app fst snd]. auto.
Qed.

(** * Statements *)
Definition tcomes (r : ending) (o : list Z) (out : out (sig * sst)) : Prop :=
  match r with
  | Falls s => exists st, out = OOk (SigNext, st) /\ tholds s o (t_mem st)
  | Breaks s => exists st, out = OOk (SigBreak, st) /\ tholds s o (t_mem st)
  | Gives vs => exists st, out = OOk (SigRet vs, st) /\ m_pend (t_mem st) = false /\ written k (t_mem st) = o
  | Fails => out = OErr
  | Lost => out = OUB
  end.

(** Whether the program is stopped on the way. *)
Fixpoint stopped (o : list Z) (ws : list (list Z)) : bool := match ws with [] => false | w :: r => stop (o ++ w) || stopped (o ++ w) r end.
Lemma stopped_app ws : forall o vs, stopped o (ws ++ vs) = stopped o ws || stopped (o ++ List.concat ws) vs.
Proof. induction ws as [|w ws IH]; intros o vs; cbn; [rewrite app_nil_r; reflexivity|]. rewrite IH, orb_assoc, <- app_assoc. reflexivity. Qed.

Definition heard (o : list Z) (d : deed) (out : out (sig * sst)) : Prop :=
  if stopped o (fst d) then out = OLoop else
  match snd d with None => out = OFuel | Some r => tcomes r (o ++ List.concat (fst d)) out end.

Lemma heard_ends o r out : tcomes r o out -> heard o (ends r) out.
Proof. intros H. unfold heard. cbn. rewrite app_nil_r. exact H. Qed.

Lemma heard_andso o d f out g : heard o d out ->
  (forall r, snd d = Some r -> tcomes r (o ++ List.concat (fst d)) out -> heard (o ++ List.concat (fst d)) (f r) (obind out g)) ->
  heard o (andso d f) (obind out g).
Proof.
  unfold heard, andso. intros H G. destruct (snd d) as [r|] eqn:Q.
  - cbn [fst snd]. rewrite stopped_app. destruct (stopped o (fst d)); [rewrite H; reflexivity|]. cbn [orb].
    specialize (G r eq_refl H). rewrite concat_app, app_assoc. exact G.
  - rewrite Q. destruct (stopped o (fst d)); rewrite H; reflexivity.
Qed.

Lemma tcomes_of m0 r out s o : List.length (m_objs m0) = l -> nth_error (m_objs m0) b = Some (OSMap 0) -> nth_error (m_objs m0) k = Some (stream o) ->
  comes m0 X r out -> (match r with Falls _ | Fails | Lost => True | _ => False end) -> forall _ : tholds s o (mkmem [] false) \/ True, tcomes r o out.
Proof.
  intros L B K C N _. destruct r; try contradiction; cbn [comes tcomes] in *; auto.
  destruct C as (st & Q & H). exists st. split; [exact Q|]. exists m0. auto.
Qed.

Lemma bad_test s c r : tests s c = Bad r -> r = Fails \/ r = Lost.
Proof. unfold tests. destruct (says s c) as [[|[]| | | | | |]| | |]; intros [=]; auto. Qed.

Definition tfine (t : stmt) : Prop := incl (tnames t) X /\ wf_stmt t.
Definition tfines (ss : stmts) : Prop := incl (tnames_all ss) X /\ wf_stmts ss.

Section One.
Variable n : nat.
Notation A1 := (run_stmt_n E n).
Notation A2 := (run_call_n E n).
Notation again := (act text n).
Hypothesis Again : forall t lp s o st, tcore lp t -> tfine t -> tholds s o (t_mem st) -> heard o (again s t) (A1 t sc st).

Lemma hear_test c s o st : simple c -> incl (named c) X -> wf_expr c -> tholds s o (t_mem st) ->
  match tests s c with
  | Yes => eval E A2 MVal c [] sc st = OOk ([VBool true], st)
  | No => eval E A2 MVal c [] sc st = OOk ([VBool false], st)
  | Bad r => forall g : list value * sst -> out (sig * sst), (forall v, (forall b, v <> VBool b) -> g ([v], st) = OErr) -> tcomes r o (obind (eval E A2 MVal c [] sc st) g)
  end.
Proof.
  intros Si I W (m0 & L & B & K & H). pose proof (run_tests E m0 X Few (tunknown m0 B) A2 c s st Si I W H) as G. rewrite L in G. fold sc in G.
  destruct (tests s c) as [| |r] eqn:T; try exact G. intros g Hg. destruct G as [[-> [G|(v & G & N)]]|[-> G]]; rewrite G; try reflexivity. cbn [obind tcomes]. exact (Hg v N).
Qed.

Ltac nobool := let v := fresh "v" in let N := fresh "N" in let y := fresh "y" in intros v N; destruct v as [|y| | | | | |]; try reflexivity; exfalso; exact (N y eq_refl).

Lemma hear_assign x e s o st : simple e -> incl (x :: named e) X -> wf_expr e -> tholds s o (t_mem st) ->
  heard o (match says s e with AVal v => ends (Falls (put_in s x v)) | ALost => ends Lost | _ => ends Fails end) (run_stmt E A1 A2 (SExpr (EAss (EIdent x) e)) sc st).
Proof.
  intros Si I W (m0 & L & B & K & H). pose proof (run_assign E m0 X Few (tunknown m0 B) A1 A2 x e s st Si I W H) as G. rewrite L in G. fold sc in G.
  destruct (says s e) as [v| | |]; cbn [trouble] in G; apply heard_ends; try exact G.
  destruct G as (w & [= <-] & st' & Q & H'). exists st'. split; [exact Q|]. exists m0. auto.
Qed.

Lemma hear_print args s o st : simple_all args -> incl (tnamed_all args) X -> wf_exprs args -> tholds s o (t_mem st) ->
  heard o (match given s args with Gives vs => ([List.concat (map text vs)], Some (Falls s)) | r => ends r end)
    (run_stmt E A1 A2 (SExpr (ECall (EIdent the_print) args)) sc st).
Proof.
  intros Si I W H. pose proof (eval_given A2 args s o st Si I W H) as G.
  assert (Q : run_stmt E A1 A2 (SExpr (ECall (EIdent the_print) args)) sc st =
    obind (obind (eval_args E A2 args sc st) (fun p => obind (eval E A2 MVal (EIdent the_print) [] sc (snd p)) (fun q =>
      match fst q with [fn] => call E A2 fn (fst p) 1 (snd q) | _ => OUB end))) (fun p => OOk (SigNext, snd p))).
  { change (run_stmt E A1 A2 (SExpr (ECall (EIdent the_print) args)) sc st) with
      (obind (obind (eval_args E A2 args sc st) (fun p => let '(xs, st1) := p in obind (eval E A2 MVal (EIdent the_print) [] sc st1) (fun q =>
        match q with ([fn], st2) => call E A2 fn xs 1 st2 | _ => OUB end))) (fun p => let '(_, st1) := p in OOk (SigNext, st1))).
    destruct (eval_args E A2 args sc st) as [[xs st1]| | | |]; try reflexivity. cbn [obind fst snd].
    destruct (eval E A2 MVal (EIdent the_print) [] sc st1) as [[[|fn [|]] st2]| | | |]; try reflexivity. cbn [obind fst snd].
    destruct (call E A2 fn xs 1 st2) as [[]| | | |]; reflexivity. }
  rewrite Q. destruct (given s args) as [| |vs| |]; try contradiction; [|apply heard_ends; rewrite G; reflexivity..].
  destruct G as [G F]. rewrite G. cbn [obind fst snd]. rewrite (print_found s o st A2 H). cbn [obind fst snd].
  unfold call. cbn [put_mem t_mem m_objs]. rewrite nth_error_app2, Nat.sub_diag by lia. cbn [nth_error].
  change (e_native E N_print) with (talks ff fb k stop). cbn [Z.ltb Z.compare]. unfold talks, bin_print. cbn [m_objs].
  rewrite (print_basic ff fb _ vs _ F). cbn [obind fst snd].
  destruct (tholds_out s o _ H) as [Ho _]. assert (Hw : written k (mkmem (m_objs (t_mem st) ++ [ONative N_print (-1)]) (m_pend (t_mem st))) = o).
  { destruct H as (m0 & L & B & K & H). destruct H as (_ & Kp & _). apply written_stream. cbn [m_objs]. rewrite nth_error_app1 by (apply nth_error_Some; rewrite (Kp _ _ K); discriminate). exact (Kp _ _ K). }
  rewrite Hw. replace (map (scalar_text ff) vs) with (map text vs) by (apply map_ext_in; intros v Hv; rewrite Forall_forall in F; exact (Text v (F v Hv))).
  unfold heard. cbn [fst snd stopped]. rewrite orb_false_r. destruct (stop (o ++ List.concat (map text vs))); [reflexivity|].
  cbn [obind]. change (results 1 []) with (OOk [VNone]). cbn [obind snd fst]. cbn [List.concat]. rewrite app_nil_r. eexists. split; [reflexivity|].
  cbn [put_mem t_mem]. apply tholds_write. exact H.
Qed.

Lemma hears :
  (forall t lp s o st, tcore lp t -> tfine t -> tholds s o (t_mem st) -> heard o (acts text again s t) (run_stmt E A1 A2 t sc st)) /\
  (forall ss lp s o st, tcores lp ss -> tfines ss -> tholds s o (t_mem st) -> heard o (acts_all text again s ss) (run_stmts E A1 A2 ss sc st)).
Proof.
  apply stmt_mut2.
  - intros e lp s o st C [I W] H. destruct e; try contradiction C.
    + destruct e1; try contradiction C. cbn [tcore] in C. cbn [tnames named] in I. cbn [wf_stmt wf_expr] in W. exact (hear_assign _ _ s o st C I (proj2 W) H).
    + destruct e; try contradiction C. destruct C as [-> C]. cbn [wf_stmt wf_expr] in W. exact (hear_print _ s o st C I (proj2 W) H).
  - intros lp s o st C F H. apply heard_ends. exists st. auto.
  - intros c t IH lp s o st [C1 C2] [I W] H. cbn [tnames] in I. apply incl_app_inv in I. destruct I as [I1 I2], W as [W1 W2]. cbn [run_stmt acts].
    pose proof (hear_test c s o st C1 I1 W1 H) as Q. destruct (tests s c) as [| |r] eqn:T.
    + rewrite Q. cbn [obind]. exact (IH lp s o st C2 (conj I2 W2) H).
    + rewrite Q. cbn [obind]. apply heard_ends. exists st. auto.
    + apply heard_ends. apply Q. nobool.
  - intros c t IHt f IHf lp s o st (C1 & C2 & C3) [I W] H. cbn [tnames] in I. apply incl_app_inv in I. destruct I as [I1 I2]. apply incl_app_inv in I2. destruct I2 as [I2 I3], W as (W1 & W2 & W3). cbn [run_stmt acts].
    pose proof (hear_test c s o st C1 I1 W1 H) as Q. destruct (tests s c) as [| |r] eqn:T.
    + rewrite Q. cbn [obind]. exact (IHt lp s o st C2 (conj I2 W2) H).
    + rewrite Q. cbn [obind]. exact (IHf lp s o st C3 (conj I3 W3) H).
    + apply heard_ends. apply Q. nobool.
  - intros c b0 IH lp s o st C F H. pose proof C as [C1 C2]. pose proof F as [I W]. cbn [tnames] in I. apply incl_app_inv in I. destruct I as [I1 I2], W as [W1 W2]. cbn [run_stmt acts].
    pose proof (hear_test c s o st C1 I1 W1 H) as Q. destruct (tests s c) as [| |r] eqn:T.
    + rewrite Q. cbn [obind]. apply heard_andso; [exact (IH true s o st C2 (conj I2 W2) H)|]. intros r _ G. destruct r; cbn [tcomes] in G.
      * destruct G as (st1 & -> & H1). cbn [obind]. exact (Again (SWhile c b0) lp s0 _ st1 C F H1).
      * destruct G as (st1 & -> & H1). apply heard_ends. exists st1. auto.
      * destruct G as (st1 & -> & P). apply heard_ends. exists st1. auto.
      * rewrite G. apply heard_ends. reflexivity.
      * rewrite G. apply heard_ends. reflexivity.
    + rewrite Q. cbn [obind]. apply heard_ends. exists st. auto.
    + apply heard_ends. apply Q. nobool.
  - intros b0 IH c lp s o st C F H. pose proof C as [C1 C2]. pose proof F as [I W]. cbn [tnames] in I. apply incl_app_inv in I. destruct I as [I1 I2], W as [W1 W2]. cbn [run_stmt acts].
    apply heard_andso; [exact (IH true s o st C2 (conj I2 W1) H)|]. intros r _ G. destruct r; cbn [tcomes] in G.
    + destruct G as (st1 & -> & H1). cbn [obind]. pose proof (hear_test c s0 _ st1 C1 I1 W2 H1) as Q. destruct (tests s0 c) as [| |r] eqn:T.
      * rewrite Q. cbn [obind]. exact (Again (SDo b0 c) lp s0 _ st1 C F H1).
      * rewrite Q. cbn [obind]. apply heard_ends. exists st1. auto.
      * apply heard_ends. apply Q. nobool.
    + destruct G as (st1 & -> & H1). apply heard_ends. exists st1. auto.
    + destruct G as (st1 & -> & P). apply heard_ends. exists st1. auto.
    + rewrite G. apply heard_ends. reflexivity.
    + rewrite G. apply heard_ends. reflexivity.
  - intros ss IH lp s o st C F H. exact (IH lp s o st C F H).
  - intros e lp s o st C [I W] H. cbn [acts run_stmt]. apply heard_ends. pose proof (tholds_out s o _ H) as [Ho Po]. destruct H as (m0 & L & B & K & H).
    pose proof (eval_tells E m0 X Few (tunknown m0 B) A2 e s st C I W H) as G. rewrite L in G. fold sc in G.
    destruct (tells s e); try contradiction; rewrite G; try reflexivity. exists st. auto.
  - intros ? ? ? ? ? ? ? ? C. contradiction C.
  - intros lp s o st C F H. apply heard_ends. exists st. auto.
  - intros t IH ss IHs lp s o st [C1 C2] [I W] H. cbn [tnames_all] in I. apply incl_app_inv in I. destruct I as [I1 I2], W as [W1 W2].
    assert (Q : run_stmts E A1 A2 (SCons t ss) sc st = obind (run_stmt E A1 A2 t sc st) (fun p => match fst p with SigNext => run_stmts E A1 A2 ss sc (snd p) | g => OOk (g, snd p) end)).
    { destruct H as (m0 & L & _). unfold sc. rewrite <- L. apply run_cons. }
    rewrite Q. cbn [acts_all]. apply heard_andso; [exact (IH lp s o st C1 (conj I1 W1) H)|]. intros r _ G. destruct r; cbn [tcomes] in G.
    + destruct G as (st1 & -> & H1). cbn [obind fst snd]. exact (IHs lp s0 _ st1 C2 (conj I2 W2) H1).
    + destruct G as (st1 & -> & H1). apply heard_ends. exists st1. auto.
    + destruct G as (st1 & -> & P). apply heard_ends. exists st1. auto.
    + rewrite G. apply heard_ends. reflexivity.
    + rewrite G. apply heard_ends. reflexivity.
Qed.
End One.

Lemma heard_all : forall n t lp s o st, tcore lp t -> tfine t -> tholds s o (t_mem st) -> heard o (act text n s t) (run_stmt_n E n t sc st).
Proof.
  induction n as [|n IH]; intros t lp s o st C F H; [reflexivity|]. rewrite step_of. cbn [act]. exact (proj1 (hears n IH) t lp s o st C F H).
Qed.
End Talk.

(** * No break outside a loop *)
Section NoBreak.
Variable text : value -> list Z.
Variable again : store -> stmt -> deed.
Hypothesis Again : forall s t lp s', tcore lp t -> (exists c b, t = SWhile c b \/ t = SDo b c) -> snd (again s t) <> Some (Breaks s').

Lemma ends_snd r : snd (ends r) = Some r.
Proof. reflexivity. Qed.

Lemma unbroken :
  (forall t s s', (tcore false t -> snd (acts text again s t) <> Some (Breaks s'))) /\
  (forall ss s s', tcores false ss -> snd (acts_all text again s ss) <> Some (Breaks s')).
Proof.
  apply stmt_mut2; cbn [acts acts_all tcore tcores].
  - intros e s s' C. destruct e; try contradiction C.
    + destruct e1; try contradiction C. destruct (says s e2); discriminate.
    + destruct e; try contradiction C. destruct C as [-> C]. assert (G : forall es, given s es <> Breaks s').
      { induction es as [|e r IH]; cbn [given]; [discriminate|]. destruct (given s r); try discriminate; try exact IH. destruct (says s e); discriminate. }
      specialize (G args). destruct (given s args); try discriminate; cbn; congruence.
  - discriminate.
  - intros c t IH s s' [_ C]. destruct (tests s c) as [| |r] eqn:T; [exact (IH s s' C)|discriminate|]. destruct (bad_test _ _ _ T); subst; discriminate.
  - intros c t IHt f IHf s s' (_ & C1 & C2). destruct (tests s c) as [| |r] eqn:T; [exact (IHt s s' C1)|exact (IHf s s' C2)|]. destruct (bad_test _ _ _ T); subst; discriminate.
  - intros c b IH s s' C. destruct (tests s c) as [| |r] eqn:T; [|discriminate|destruct (bad_test _ _ _ T); subst; discriminate].
    unfold andso. destruct (snd (acts text again s b)) as [[]|] eqn:Q; try discriminate; [|rewrite Q; discriminate]. cbn [snd]. apply (Again s0 (SWhile c b) false s' C). eauto.
  - intros b IH c s s' C. unfold andso. destruct (snd (acts text again s b)) as [[]|] eqn:Q; try discriminate; [|rewrite Q; discriminate]. cbn [snd].
    destruct (tests s0 c) as [| |r] eqn:T; [|discriminate|destruct (bad_test _ _ _ T); subst; discriminate]. apply (Again s0 (SDo b c) false s' C). eauto.
  - auto.
  - intros e s s' _ [= Q]. exact (tells_no_break _ _ _ Q).
  - intros. discriminate.
  - discriminate.
  - intros t IH ss IHs s s' [C1 C2].
    change (snd (andso (acts text again s t) (fun q => match q with Falls s1 => acts_all text again s1 ss | _ => ends q end)) <> Some (Breaks s')).
    unfold andso. pose proof (IH s) as G. destruct (snd (acts text again s t)) as [r|] eqn:Q; [|rewrite Q; discriminate].
    cbn [snd]. destruct r; try discriminate; [exact (IHs s0 s' C2)|]. exfalso. exact (G s0 C1 eq_refl).
Qed.
End NoBreak.

Lemma act_loop text : forall n s t s', (exists c b, t = SWhile c b \/ t = SDo b c) -> snd (act text n s t) <> Some (Breaks s').
Proof.
  induction n as [|n IH]; intros s t s' (c & b & [->| ->]); try discriminate; cbn [act acts].
  - destruct (tests s c) as [| |r] eqn:T; [|discriminate|destruct (bad_test _ _ _ T); subst; discriminate].
    unfold andso. destruct (snd (acts text (act text n) s b)) as [[]|] eqn:Q; try discriminate; [|rewrite Q; discriminate]. cbn [snd]. apply IH. eauto.
  - unfold andso. destruct (snd (acts text (act text n) s b)) as [[]|] eqn:Q; try discriminate; [|rewrite Q; discriminate]. cbn [snd].
    destruct (tests s0 c) as [| |r] eqn:T; [|discriminate|destruct (bad_test _ _ _ T); subst; discriminate]. apply IH. eauto.
Qed.

Lemma acting_unbroken text ss n s' : tcores false ss -> snd (acting text ss n) <> Some (Breaks s').
Proof.
  intros C. unfold acting. destruct n as [|n]; [discriminate|]. cbn [act acts]. apply (proj2 (unbroken text (act text n) (fun s t lp s2 _ L => act_loop text n s t s2 L))). exact C.
Qed.

(** * More rounds say no less *)
Definition more (d d' : deed) : Prop := match snd d with Some _ => d = d' | None => exists rest, fst d' = fst d ++ rest end.

Lemma more_refl d : more d d.
Proof. unfold more. destruct (snd d); [reflexivity|]. exists []. rewrite app_nil_r. reflexivity. Qed.

Lemma more_andso d d' f f' : more d d' -> (forall r, more (f r) (f' r)) -> more (andso d f) (andso d' f').
Proof.
  unfold andso. intros M G. unfold more in M. destruct (snd d) as [r|] eqn:Q.
  - subst d'. rewrite Q. specialize (G r). unfold more in *. cbn [fst snd]. destruct (snd (f r)) as [e|] eqn:Q2; [rewrite <- G, Q2; reflexivity|].
    destruct G as (rest & G). exists rest. rewrite G, app_assoc. reflexivity.
  - destruct M as (rest & M). unfold more. rewrite Q. destruct (snd d'); cbn [fst]; [|exists rest; exact M]. rewrite M, <- app_assoc. eauto.
Qed.

Section Rounds.
Variable text : value -> list Z.
Variables again again' : store -> stmt -> deed.
Hypothesis M : forall s t, more (again s t) (again' s t).
Lemma more_acts : (forall t s, more (acts text again s t) (acts text again' s t)) /\ (forall ss s, more (acts_all text again s ss) (acts_all text again' s ss)).
Proof.
  apply stmt_mut2; intros; cbn [acts acts_all]; try apply more_refl; try (destruct (tests s c); auto using more_refl; fail).
  - destruct (tests s c); auto using more_refl. apply more_andso; [auto|]. intros []; auto using more_refl.
  - apply more_andso; [auto|]. intros []; auto using more_refl. destruct (tests s0 c); auto using more_refl.
  - auto.
  - apply more_andso; [auto|]. intros []; auto using more_refl.
Qed.
End Rounds.

Lemma more_act text : forall n s t, more (act text n s t) (act text (S n) s t).
Proof.
  induction n as [|n IH]; intros s t; [exists (fst (act text 1 s t)); reflexivity|].
  change (more (acts text (act text n) s t) (acts text (act text (S n)) s t)). exact (proj1 (more_acts text _ _ IH) t s).
Qed.
Lemma more_trans a b c : more a b -> more b c -> more a c.
Proof.
  unfold more. intros A B. destruct (snd a) eqn:Qa; [subst b; rewrite Qa in B; exact B|]. destruct A as (r & A). destruct (snd b).
  - subst c. eauto.
  - destruct B as (r2 & B). exists (r ++ r2). rewrite B, A, app_assoc. reflexivity.
Qed.
Lemma more_acting text ss n n' : (n <= n')%nat -> more (acting text ss n) (acting text ss n').
Proof.
  induction 1 as [|n' _ IH]; [apply more_refl|]. eapply more_trans; [exact IH|apply more_act].
Qed.
