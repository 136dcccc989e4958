(** Functions with lists and maps: the description of CollSpec.v and the evaluation of the syntax tree. *)
From Coq Require Import ZArith List Bool Lia.
From Verif Require Import Base FloatModel StringModel ListModel SeqSpec ValueModel ExeModel ArithModel AstModel CodegenModel CompSpec MapModel MapSpec MapProofs MapProofs2 ObjModel VmModel SrcModel
  ScopeSpec ScopeProofs CalcSpec CalcProofs WhileSpec WhileProofs SimProofs FunSpec.
From Verif Require FunProofs.
From Verif Require Import CollSpec CollHeap.
Import ListNotations.
Open Scope Z_scope.

(** * States *)
(** Evaluation leaves the objects there are, but lists, maps, and what [q] allows; new lists and maps are new objects. *)
Definition moves (q : nat -> Prop) (loc : list nat) (st : sst) (loc' : list nat) (st' : sst) : Prop :=
  m_pend (t_mem st') = false /\ t_codes st' = t_codes st /\ (length (m_objs (t_mem st)) <= length (m_objs (t_mem st')))%nat /\
  (exists g, loc' = loc ++ g /\ Forall (fun l => (length (m_objs (t_mem st)) <= l)%nat) g) /\
  forall k o, ~ In k loc -> ~ q k -> nth_error (m_objs (t_mem st)) k = Some o -> nth_error (m_objs (t_mem st')) k = Some o.
Notation grows := (moves (fun _ => False)).
Notation keeps l := (moves (fun k => k = l)).

Lemma moves_refl q loc st : m_pend (t_mem st) = false -> moves q loc st loc st.
Proof. intros P. split; [exact P|]. split; [reflexivity|]. split; [lia|]. split; [exists []; split; [symmetry; apply app_nil_r|constructor]|auto]. Qed.

Lemma moves_trans q a la b lb c lc : moves q la a lb b -> moves q lb b lc c -> moves q la a lc c.
Proof.
  intros (_ & C1 & L1 & (g1 & -> & F1) & K1) (P & C2 & L2 & (g2 & -> & F2) & K2). split; [exact P|]. split; [congruence|]. split; [lia|]. split.
  - exists (g1 ++ g2). split; [symmetry; apply app_assoc|]. apply Forall_app. split; [exact F1|]. eapply Forall_impl; [|exact F2]. cbn beta. intros. lia.
  - intros k o N Nq Hk. apply K2; [|exact Nq|exact (K1 k o N Nq Hk)]. intros Hi. apply in_app_or in Hi. destruct Hi as [Hi|Hi]; [contradiction|].
    rewrite Forall_forall in F1. specialize (F1 k Hi). assert (k < length (m_objs (t_mem a)))%nat by (apply nth_error_Some; congruence). lia.
Qed.

Lemma moves_weak (p q : nat -> Prop) loc st loc' st' : (forall k, p k -> q k) -> moves p loc st loc' st' -> moves q loc st loc' st'.
Proof. intros W (P & C & L & G & K). split; [exact P|]. split; [exact C|]. split; [exact L|]. split; [exact G|]. intros k o N Nq. apply K; auto. Qed.
Lemma grows_keeps l loc st loc' st' : grows loc st loc' st' -> keeps l loc st loc' st'.
Proof. apply moves_weak. intros k []. Qed.

Lemma moves_loc q loc st loc' st' : moves q loc st loc' st' -> exists g, loc' = loc ++ g.
Proof. intros (_ & _ & _ & (g & Q & _) & _). eauto. Qed.

Lemma moves_out q loc st loc' st' k : moves q loc st loc' st' -> ~ In k loc -> (k < length (m_objs (t_mem st)))%nat -> ~ In k loc'.
Proof. intros (_ & _ & _ & (g & -> & F) & _) N L Hi. apply in_app_or in Hi. destruct Hi as [Hi|Hi]; [contradiction|]. rewrite Forall_forall in F. specialize (F k Hi). lia. Qed.

Lemma moves_alone q loc st m' : m_pend (t_mem st) = false -> left_alone loc (t_mem st) m' -> moves q loc st loc (put_mem st m').
Proof.
  intros P (Q & L & K). split; [cbn; congruence|]. split; [reflexivity|]. split; [cbn; lia|]. split; [exists []; split; [symmetry; apply app_nil_r|constructor]|].
  intros k o N _ Hk. cbn [put_mem t_mem]. rewrite K by exact N. exact Hk.
Qed.

Lemma moves_alloc q loc st o g : m_pend (t_mem st) = false -> (g = [] \/ g = [length (m_objs (t_mem st))]) -> moves q loc st (loc ++ g) (put_mem st (snd (alloc (t_mem st) o))).
Proof.
  intros P Hg. split; [exact P|]. split; [reflexivity|]. split; [cbn; rewrite app_length; lia|]. split.
  - exists g. split; [reflexivity|]. destruct Hg as [-> | ->]; [constructor|]. constructor; [lia|constructor].
  - intros k q' _ _ Hk. cbn. rewrite nth_error_app1; [exact Hk|]. apply nth_error_Some. congruence.
Qed.

Lemma at_map_more loc g (x : option value) : (forall v, x = Some v -> fine_v (length loc) v) -> option_map (at_ (loc ++ g)) x = option_map (at_ loc) x.
Proof. destruct x as [v|]; [|reflexivity]. intros H. cbn. rewrite (at_more loc g v (H v eq_refl)). reflexivity. Qed.

Section Fun.
Variables (E : env) (m0 : mem).
(** The names of the program, and all the names. *)
Variables (X : list (list Z)) (all : list (list Z)).
Hypothesis Few : few X.
Hypothesis All : Forall ident all.
Hypothesis Un : unknown E m0 all.
Hypothesis Pe0 : m_pend m0 = false.
Hypothesis XA : incl X all.
(** The names of types. *)
Variable KT : list (list Z).
Hypothesis Ty : FunProofs.knows_types E m0 KT.
Notation lg := (length (m_objs m0)).
Notation holds := (holds (length (m_objs m0))).

(** [cl] is what a function of the program remembers. *)
Definition closure_of (m : mem) (cl : nat) : Prop := nth_error (m_objs m) cl = Some (OClosure None (VRef lg)).

(** The variables of the program: those of the store, and the functions defined so far. *)
Definition knows (T : list Z -> option (list param * stmt)) (g : store) (loc : list nat) (st : sst) : Prop :=
  (forall x v, g x = Some v -> fine_v (length loc) v) /\
  exists hh, vars (t_mem st) lg hh /\ Forall (fun nv => In (fst nv) X) hh /\
  forall x, match T x with
  | Some (ps, body) => exists k c cl, assigned hh x = Some (VRef k) /\ nth_error (m_objs (t_mem st)) k = Some (OFun c (VRef cl)) /\
      closure_of (t_mem st) cl /\ nth_error (t_codes st) c = Some (plain ps, body)
  | None => assigned hh x = option_map (at_ loc) (g x)
  end.

Variable T : list Z -> option (list param * stmt).

Definition based (m : mem) : Prop := forall k o, nth_error (m_objs m0) k = Some o -> nth_error (m_objs m) k = Some o.

(** The scope a statement runs in. [Y]: the names of the function. *)
Definition place (w : option store) (Y : list (list Z)) (s : store) (sc : scope) (loc : list nat) (h : colls) (st : sst) : Prop :=
  m_pend (t_mem st) = false /\ based (t_mem st) /\ holds loc h (t_mem st) /\
  match w with
  | None => sc = mksc (VRef lg) None /\ Y = X /\ knows T s loc st
  | Some g => knows T g loc st /\ (forall x v, s x = Some v -> fine_v (length loc) v) /\ few Y /\ (forall x, In x Y -> T x = None) /\
    exists l cl hh, sc = mksc (VRef l) (Some (VRef cl)) /\ (lg < l)%nat /\ ~ In l loc /\ closure_of (t_mem st) cl /\
      vars (t_mem st) l hh /\ Forall (fun nv => In (fst nv) Y) hh /\ forall x, assigned hh x = option_map (at_ loc) (s x)
  end.

Lemma holds_apart loc h m k o : holds loc h m -> nth_error (m_objs m) k = Some o -> match o with OList _ | OMap _ => False | _ => True end -> ~ In k loc.
Proof. intros Hd Q N Hi. destruct (holds_in _ loc h m k Hd Hi) as (o' & Q' & N'). rewrite Q in Q'. injection Q' as <-. destruct o; contradiction. Qed.

Lemma holds_low loc h m k : holds loc h m -> (k <= lg)%nat -> ~ In k loc.
Proof. intros (_ & _ & B & _) L Hi. rewrite Forall_forall in B. specialize (B k Hi). lia. Qed.

Lemma vars_obj m l hh : vars m l hh -> exists mo, nth_error (m_objs m) l = Some (OMap mo).
Proof. intros (mo & Q & _). eauto. Qed.
Lemma vars_at m m' l hh : (forall o, nth_error (m_objs m) l = Some o -> nth_error (m_objs m') l = Some o) -> vars m l hh -> vars m' l hh.
Proof. intros K (mo & Q & I). exists mo. auto. Qed.

Lemma fine_store (s : store) (loc g : list nat) : (forall x v, s x = Some v -> fine_v (length loc) v) -> forall x v, s x = Some v -> fine_v (length (loc ++ g)) v.
Proof. intros F x v H. eapply fine_more; [|exact (F x v H)]. rewrite app_length. lia. Qed.

(** [q] allows neither functions, nor what they remember, nor the variables of the program. *)
Lemma knows_moves (q : nat -> Prop) T' g loc h st loc' st' : holds loc h (t_mem st) -> moves q loc st loc' st' -> ~ q lg ->
  (forall k o, q k -> nth_error (m_objs (t_mem st)) k = Some o -> exists mo, o = OMap mo) -> knows T' g loc st -> knows T' g loc' st'.
Proof.
  intros Hd (P & C & L & (gg & -> & Fg) & K) Nq Qm (B & hh & V & HX & A). split; [exact (fine_store g loc gg B)|]. exists hh.
  split; [eapply vars_at; [|exact V]; intros o; apply K; [apply (holds_low loc h (t_mem st)); [exact Hd|lia]|exact Nq]|]. split; [exact HX|].
  assert (Kf : forall k o, match o with OFun _ _ | OClosure _ _ => True | _ => False end -> nth_error (m_objs (t_mem st)) k = Some o -> nth_error (m_objs (t_mem st')) k = Some o).
  { intros k o N Hk. apply K; [|intros Hq; destruct (Qm k o Hq Hk) as [mo ->]; contradiction|exact Hk]. eapply holds_apart; [exact Hd|exact Hk|]. destruct o; try contradiction; exact I. }
  intros x. specialize (A x). destruct (T' x) as [[ps body]|].
  - destruct A as (k & c & cl & A1 & A2 & A3 & A4). exists k, c, cl. unfold closure_of in *. rewrite C. split; [exact A1|]. split; [apply Kf; [exact I|exact A2]|]. split; [apply Kf; [exact I|exact A3]|exact A4].
  - rewrite A. symmetry. apply at_map_more. intros v. apply B.
Qed.

Lemma based_moves (q : nat -> Prop) loc h st loc' st' : holds loc h (t_mem st) -> moves q loc st loc' st' -> (forall k, q k -> (lg <= k)%nat) -> based (t_mem st) -> based (t_mem st').
Proof.
  intros Hd (_ & _ & _ & _ & K) Q B k o Hk. assert (k < lg)%nat by (apply nth_error_Some; congruence).
  apply K; [apply (holds_low loc h (t_mem st)); [exact Hd|lia]|intros Hq; specialize (Q k Hq); lia|exact (B k o Hk)].
Qed.

Lemma place_grows w Y s sc loc h st loc' h' st' : grows loc st loc' st' -> holds loc' h' (t_mem st') -> place w Y s sc loc h st -> place w Y s sc loc' h' st'.
Proof.
  intros G Hd' (P & Bs & Hd & H). pose proof G as (P' & C & L & (gg & Ql & Fg) & K). split; [exact P'|].
  split; [exact (based_moves _ _ _ _ _ _ Hd G (fun k (f : False) => match f with end) Bs)|]. split; [exact Hd'|].
  assert (Kn : forall g, knows T g loc st -> knows T g loc' st') by (intros g; apply (knows_moves _ _ _ _ _ _ _ _ Hd G); [tauto|intros ? ? []]).
  destruct w as [g|].
  - destruct H as (Kg & B & Fw & Tn & l & cl & hh & -> & Lt & Nl & Cl & V & HY & A). split; [exact (Kn g Kg)|]. split; [subst loc'; exact (fine_store s loc gg B)|]. split; [exact Fw|]. split; [exact Tn|].
    destruct (vars_obj _ _ _ V) as [mo Om]. assert (Ll : (l < length (m_objs (t_mem st)))%nat) by (apply nth_error_Some; congruence).
    exists l, cl, hh. split; [reflexivity|]. split; [exact Lt|]. split; [exact (moves_out _ _ _ _ _ _ G Nl Ll)|].
    split; [apply K; [eapply holds_apart; [exact Hd|exact Cl|exact I]|tauto|exact Cl]|]. split; [eapply vars_at; [|exact V]; intros o; apply K; [exact Nl|tauto]|]. split; [exact HY|].
    intros x. rewrite A. subst loc'. symmetry. apply at_map_more. intros v. apply B.
  - destruct H as (-> & -> & Kg). split; [reflexivity|]. split; [reflexivity|]. exact (Kn s Kg).
Qed.

Definition where_ (sc : scope) : nat := match sc_locals sc with VRef l => l | _ => O end.

Lemma place_pend w Y s sc loc h st : place w Y s sc loc h st -> m_pend (t_mem st) = false.
Proof. intros H. apply H. Qed.
Lemma place_holds w Y s sc loc h st : place w Y s sc loc h st -> holds loc h (t_mem st).
Proof. intros H. apply H. Qed.
Lemma place_base w Y s sc loc h st : place w Y s sc loc h st -> based (t_mem st).
Proof. intros H. apply H. Qed.
Lemma place_knows w Y s sc loc h st : place w Y s sc loc h st -> knows T (outer w s) loc st.
Proof. intros (_ & _ & _ & H). destruct w; apply H. Qed.
Lemma holds_length loc h m : holds loc h m -> length loc = length h.
Proof. intros H. apply H. Qed.

Lemma place_lg w Y s sc loc h st : place w Y s sc loc h st -> (lg < length (m_objs (t_mem st)))%nat.
Proof. intros P. destruct (place_knows _ _ _ _ _ _ _ P) as (_ & hh & V & _). destruct (vars_obj _ _ _ V) as [mo Q]. apply nth_error_Some. congruence. Qed.

(** Reading a variable. *)
Lemma place_get w Y s sc loc h st x : place w Y s sc loc h st -> T x = None -> In x all ->
  get_var E (t_mem st) (sc_locals sc) (sc_clo sc) x = OOk (option_map (at_ loc) (see w s x), t_mem st) /\ (forall v, see w s x = Some v -> fine_v (length h) v).
Proof.
  intros (P & K & Hd & H) Tx Ax. pose proof All as Id. rewrite Forall_forall in Id. specialize (Id x Ax). rewrite <- (holds_length _ _ _ Hd). unfold see. destruct w as [g|].
  - destruct H as ((Bg & hg & Vg & HX & Ag) & B & Fw & Tn & l & cl & hh & -> & L & Nl & Cl & V & HY & A). cbn [sc_locals sc_clo].
    assert (Ch : chain (t_mem st) (Some (VRef cl)) [cl] [hg]) by (econstructor; [exact Cl|exact Vg|exact (few_tame X hg Few HX)|constructor]).
    rewrite (get_var_scopes E _ l hh _ _ _ x P Id V (few_tame Y hh Fw HY) Ch). cbn [visible]. rewrite A.
    split. 2:{ intros v. destruct (s x) eqn:Es; [intros [= <-]; exact (B _ _ Es)|apply Bg]. }
    destruct (s x); [reflexivity|]. specialize (Ag x). rewrite Tx in Ag. rewrite Ag. destruct (g x); [reflexivity|]. apply Un; auto.
  - destruct H as (-> & -> & Bg & hg & Vg & HX & Ag). cbn [sc_locals sc_clo].
    rewrite (get_var_scopes E _ lg hg None [] [] x P Id Vg (few_tame X hg Few HX) (chain_none _)). cbn [visible].
    specialize (Ag x). rewrite Tx in Ag. rewrite Ag.
    split. 2:{ intros v. destruct (s x) eqn:Es; [intros [= <-]; exact (Bg _ _ Es)|discriminate]. }
    destruct (s x); [reflexivity|]. apply Un; auto.
Qed.

(** Reading the name of a type. *)
Lemma kind_apart x k : In x KT -> kind_of x = Some k -> ~ In x all.
Proof. intros Hx Hk Ha. pose proof (Un m0 x Ha Pe0 (fun _ _ H => H)) as A. rewrite (Ty m0 x k Hx Hk Pe0 (fun _ _ H => H)) in A. discriminate. Qed.

Lemma place_kind w Y s sc loc h st x k : place w Y s sc loc h st -> incl Y all -> In x KT -> kind_of x = Some k ->
  get_var E (t_mem st) (sc_locals sc) (sc_clo sc) x = OOk (Some (FunProofs.kind_value k), t_mem st).
Proof.
  intros (P & Kp & Hd & H) IY Hx Hk. pose proof (FunProofs.kind_ident m0 x k Hk) as Id. pose proof (kind_apart x k Hx Hk) as N. destruct w as [g|].
  - destruct H as ((Bg & hg & Vg & HX & Ag) & B & Fw & Tn & l & cl & hh & -> & L & Nl & Cl & V & HY & A). cbn [sc_locals sc_clo].
    assert (Ch : chain (t_mem st) (Some (VRef cl)) [cl] [hg]) by (econstructor; [exact Cl|exact Vg|exact (few_tame X hg Few HX)|constructor]).
    rewrite (get_var_scopes E _ l hh _ _ _ x P Id V (few_tame Y hh Fw HY) Ch). cbn [visible].
    rewrite (FunProofs.assigned_outside Y x (fun i => N (IY x i)) hh HY), (FunProofs.assigned_outside X x (fun i => N (XA x i)) hg HX). apply Ty; auto.
  - destruct H as (-> & -> & Bg & hg & Vg & HX & Ag). cbn [sc_locals sc_clo].
    rewrite (get_var_scopes E _ lg hg None [] [] x P Id Vg (few_tame X hg Few HX) (chain_none _)). cbn [visible].
    rewrite (FunProofs.assigned_outside X x (fun i => N (XA x i)) hg HX). apply Ty; auto.
Qed.

(** Reading the name of a function. *)
Lemma place_fun w Y s sc loc h st f ps body : place w Y s sc loc h st -> T f = Some (ps, body) -> In f all ->
  exists k c cl, get_var E (t_mem st) (sc_locals sc) (sc_clo sc) f = OOk (Some (VRef k), t_mem st) /\
    nth_error (m_objs (t_mem st)) k = Some (OFun c (VRef cl)) /\ closure_of (t_mem st) cl /\ nth_error (t_codes st) c = Some (plain ps, body).
Proof.
  intros (P & K & Hd & H) Tf Af. pose proof All as Id. rewrite Forall_forall in Id. specialize (Id f Af). destruct w as [g|].
  - destruct H as ((Bg & hg & Vg & HX & Ag) & B & Fw & Tn & l & cl & hh & -> & L & Nl & Cl & V & HY & A). cbn [sc_locals sc_clo].
    assert (Ch : chain (t_mem st) (Some (VRef cl)) [cl] [hg]) by (econstructor; [exact Cl|exact Vg|exact (few_tame X hg Few HX)|constructor]).
    rewrite (get_var_scopes E _ l hh _ _ _ f P Id V (few_tame Y hh Fw HY) Ch). cbn [visible].
    specialize (Ag f). rewrite Tf in Ag. destruct Ag as (k & c & cl' & A1 & A2 & A3 & A4). rewrite A1.
    rewrite (FunProofs.assigned_outside Y f) by (try exact HY; intros Hf; rewrite (Tn f Hf) in Tf; discriminate). exists k, c, cl'. auto.
  - destruct H as (-> & -> & Bg & hg & Vg & HX & Ag). cbn [sc_locals sc_clo].
    rewrite (get_var_scopes E _ lg hg None [] [] f P Id Vg (few_tame X hg Few HX) (chain_none _)). cbn [visible].
    specialize (Ag f). rewrite Tf in Ag. destruct Ag as (k & c & cl' & A1 & A2 & A3 & A4). rewrite A1. exists k, c, cl'. auto.
Qed.

Lemma put_fine n (s : store) x v : (forall y u, s y = Some u -> fine_v n u) -> fine_v n v -> forall y u, put_in s x v y = Some u -> fine_v n u.
Proof. intros B Bv y u. unfold put_in. destruct (list_eq_dec Z.eq_dec y x); [intros [= <-]; exact Bv|apply B]. Qed.

(** Assigning a variable. *)
Lemma place_set w Y s sc loc h st x v : place w Y s sc loc h st -> T x = None -> In x Y -> fine_v (length h) v ->
  exists m', set_var E (t_mem st) (sc_locals sc) x (at_ loc v) = OOk m' /\ place w Y (put_in s x v) sc loc h (put_mem st m') /\ keeps (where_ sc) loc st loc (put_mem st m').
Proof.
  intros (P & K & Hd & H) Tx Hx Bv. rewrite <- (holds_length _ _ _ Hd) in Bv.
  assert (Ga : forall l m', ~ In l loc -> (lg <= l)%nat -> length (m_objs m') = length (m_objs (t_mem st)) -> m_pend m' = false -> (forall k, k <> l -> nth_error (m_objs m') k = nth_error (m_objs (t_mem st)) k) ->
    keeps l loc st loc (put_mem st m') /\ holds loc h m' /\ based m').
  { intros l m' Nl Ll Ln P' O. split; [|split].
    - split; [exact P'|]. split; [reflexivity|]. split; [cbn; lia|]. split; [exists []; split; [symmetry; apply app_nil_r|constructor]|].
      intros k o _ Nk Hk. cbn [put_mem t_mem]. rewrite O by exact Nk. exact Hk.
    - eapply holds_ext; [exact Hd|]. intros k Hk. apply O. intros ->. contradiction.
    - intros k o Hk. assert (k < lg)%nat by (apply nth_error_Some; congruence). rewrite O by lia. exact (K k o Hk). }
  destruct w as [g|].
  - destruct H as (Kg & B & Fw & Tn & l & cl & hh & -> & L & Nl & Cl & V & HY & A). cbn [sc_locals].
    assert (HY' : Forall (fun nv => In (fst nv) Y) (hh ++ [(x, at_ loc v)])) by (apply Forall_app; split; [exact HY|constructor; auto]).
    destruct (set_var_vars E (t_mem st) l hh x (at_ loc v) P V (few_tame _ _ Fw HY')) as (m' & S & V' & P' & Ln & O). exists m'. split; [exact S|].
    destruct (vars_obj _ _ _ V) as [mo Om]. destruct (Ga l m' Nl ltac:(lia) Ln P' O) as (Kp & Hd' & Bs'). split; [|exact Kp].
    split; [exact P'|]. split; [exact Bs'|]. split; [exact Hd'|]. split; [|split; [exact (put_fine _ _ _ _ B Bv)|split; [exact Fw|split; [exact Tn|]]]].
    + apply (knows_moves _ _ _ _ _ _ _ _ Hd Kp); [lia|intros k o -> Q; rewrite Om in Q; injection Q as <-; eauto|exact Kg].
    + exists l, cl, (hh ++ [(x, at_ loc v)]). split; [reflexivity|]. split; [exact L|]. split; [exact Nl|].
      split; [unfold closure_of; cbn [put_mem t_mem]; rewrite O; [exact Cl|]; intros ->; unfold closure_of in Cl; rewrite Om in Cl; discriminate|]. split; [exact V'|]. split; [exact HY'|].
      intros y. rewrite FunProofs.assigned_snoc. unfold put_in. destruct (list_eq_dec Z.eq_dec y x); [reflexivity|apply A].
  - destruct H as (-> & -> & Bg & hg & Vg & HX & Ag). cbn [sc_locals].
    assert (HX' : Forall (fun nv => In (fst nv) X) (hg ++ [(x, at_ loc v)])) by (apply Forall_app; split; [exact HX|constructor; auto]).
    destruct (set_var_vars E (t_mem st) lg hg x (at_ loc v) P Vg (few_tame _ _ Few HX')) as (m' & S & V' & P' & Ln & O). exists m'. split; [exact S|].
    destruct (vars_obj _ _ _ Vg) as [mo Om]. destruct (Ga lg m' (holds_low _ _ _ lg Hd ltac:(lia)) ltac:(lia) Ln P' O) as (Kp & Hd' & Bs'). split; [|exact Kp].
    split; [exact P'|]. split; [exact Bs'|]. split; [exact Hd'|]. split; [reflexivity|]. split; [reflexivity|]. split; [exact (put_fine _ _ _ _ Bg Bv)|].
    exists (hg ++ [(x, at_ loc v)]). split; [exact V'|]. split; [exact HX'|].
    intros y. specialize (Ag y). rewrite FunProofs.assigned_snoc. unfold put_in. destruct (list_eq_dec Z.eq_dec y x) as [->|N]; [rewrite Tx; reflexivity|].
    destruct (T y) as [[ps body]|]; [|exact Ag]. destruct Ag as (k & c & cl' & A1 & A2 & A3 & A4). exists k, c, cl'.
    assert (Kf : forall k o, (forall mo, o <> OMap mo) -> nth_error (m_objs (t_mem st)) k = Some o -> nth_error (m_objs m') k = Some o).
    { intros k' o No Hk. rewrite O; [exact Hk|]. intros ->. rewrite Om in Hk. injection Hk as <-. exact (No mo eq_refl). }
    split; [exact A1|]. cbn [put_mem t_mem t_codes]. split; [apply Kf; [discriminate|exact A2]|]. split; [apply Kf; [discriminate|exact A3]|exact A4].
Qed.

(** Changing a list or map. *)
Lemma place_stored w Y s sc loc h st col key v : place w Y s sc loc h st -> fine_v (length h) col -> fine_k key -> fine_v (length h) v ->
  agrees (fun h' m' => place w Y s sc loc h' (put_mem st m') /\ length h' = length h /\ grows loc st loc (put_mem st m')) (stored h col key v) (insert_of E (t_mem st) (at_ loc col) (at_ loc key) (at_ loc v)).
Proof.
  intros Pl Fc Fk Fv. eapply agrees_mono; [|exact (holds_stored E lg loc h (t_mem st) col key v (place_holds _ _ _ _ _ _ _ Pl) (place_pend _ _ _ _ _ _ _ Pl) Fc Fk Fv)].
  intros h' m' (Hd & Lh & Al). pose proof (moves_alone (fun _ => False) loc st m' (place_pend _ _ _ _ _ _ _ Pl) Al) as G. split; [|auto]. exact (place_grows _ _ _ _ _ _ _ _ _ _ G Hd Pl).
Qed.

(** A new list or map. *)
Lemma place_alloc w Y s sc loc h st o c : place w Y s sc loc h st -> (forall n l, object_of l n c (Some o)) ->
  place w Y s sc (loc ++ [length (m_objs (t_mem st))]) (h ++ [c]) (put_mem st (snd (alloc (t_mem st) o))) /\
  grows loc st (loc ++ [length (m_objs (t_mem st))]) (put_mem st (snd (alloc (t_mem st) o))).
Proof.
  intros Pl O. pose proof (moves_alloc (fun _ => False) loc st o _ (place_pend _ _ _ _ _ _ _ Pl) (or_intror eq_refl)) as G. split; [|exact G].
  refine (place_grows _ _ _ _ _ h _ _ _ _ G _ Pl). apply holds_alloc; [exact (place_holds _ _ _ _ _ _ _ Pl)|exact (place_lg _ _ _ _ _ _ _ Pl)|exact O].
Qed.

(** * Expressions *)
Lemma holds_more q loc h st loc' h' st' : holds loc h (t_mem st) -> holds loc' h' (t_mem st') -> moves q loc st loc' st' -> (length h <= length h')%nat.
Proof. intros H H' M. destruct (moves_loc _ _ _ _ _ M) as [g Q]. rewrite <- (holds_length _ _ _ H), <- (holds_length _ _ _ H'), Q, app_length. lia. Qed.
Lemma at_moves q loc h st loc' st' v : holds loc h (t_mem st) -> moves q loc st loc' st' -> fine_v (length h) v -> at_ loc' v = at_ loc v.
Proof. intros H M F. destruct (moves_loc _ _ _ _ _ M) as [g ->]. apply at_more. rewrite (holds_length _ _ _ H). exact F. Qed.
Lemma ats_moves q loc h st loc' st' vs : holds loc h (t_mem st) -> moves q loc st loc' st' -> Forall (fine_v (length h)) vs -> map (at_ loc') vs = map (at_ loc) vs.
Proof. intros H M F. destruct (moves_loc _ _ _ _ _ M) as [g ->]. apply ats_more. rewrite (holds_length _ _ _ H). exact F. Qed.

Section Level.
Variable A1 : stmt -> scope -> sst -> out (sig * sst).
Variable A2 : params -> stmt -> list value -> value -> sst -> out (list value * sst).
Variable again : option store -> store -> colls -> stmt -> tale cfate.
Variable calls : list Z -> store -> colls -> list value -> tale (list value * colls).

Definition valued (loc : list nat) (st : sst) (p : value * colls) (q : list value * sst) : Prop :=
  exists loc', fst q = [at_ loc' (fst p)] /\ fine_v (length (snd p)) (fst p) /\ holds loc' (snd p) (t_mem (snd q)) /\ grows loc st loc' (snd q).
Definition listed (loc : list nat) (st : sst) (p : list value * colls) (q : list value * sst) : Prop :=
  exists loc', fst q = map (at_ loc') (fst p) /\ Forall (fine_v (length (snd p))) (fst p) /\ holds loc' (snd p) (t_mem (snd q)) /\ grows loc st loc' (snd q).

Definition calls_agree (calls : list Z -> store -> colls -> list value -> tale (list value * colls))
  (A2 : params -> stmt -> list value -> value -> sst -> out (list value * sst)) : Prop :=
  forall f ps body g vs loc h st cl, T f = Some (ps, body) -> m_pend (t_mem st) = false -> based (t_mem st) -> holds loc h (t_mem st) ->
    knows T g loc st -> Forall (fine_v (length h)) vs -> closure_of (t_mem st) cl ->
    agrees (listed loc st) (calls f g h vs) (A2 (plain ps) body (adjust (params_len (plain ps)) (map (at_ loc) vs)) (VRef cl) st).
Hypothesis Hcall : calls_agree calls A2.

Notation ev := (eval E A2).

Lemma put_self st : put_mem st (t_mem st) = st.
Proof. destruct st; reflexivity. Qed.

Lemma take_fine k n rs : Forall (fine_v k) rs -> Forall (fine_v k) (firstn n (rs ++ repeat VNone n)).
Proof.
  intros H. apply Forall_forall. intros v Hv. assert (Hi : In v (rs ++ repeat VNone n)).
  { rewrite <- (firstn_skipn n). apply in_or_app. left. exact Hv. }
  apply in_app_or in Hi. destruct Hi as [Hi|Hi]; [rewrite Forall_forall in H; auto|]. apply repeat_spec in Hi. subst. exact I.
Qed.
Lemma take_at loc n rs : firstn n (map (at_ loc) rs ++ repeat VNone n) = map (at_ loc) (firstn n (rs ++ repeat VNone n)).
Proof.
  assert (R : map (at_ loc) (repeat VNone n) = repeat VNone n) by (induction n as [|k IH]; [reflexivity|cbn; f_equal; exact IH]).
  rewrite <- R at 1. rewrite <- map_app, firstn_map. reflexivity.
Qed.

(** A call, when [want] results are wanted. *)
Lemma call_agrees w Y s sc f ps body want loc h st vs : place w Y s sc loc h st -> T f = Some (ps, body) -> In f all -> 0 <= want <= 8 -> Forall (fine_v (length h)) vs ->
  agrees (fun rs p => exists loc', fst p = map (at_ loc') (firstn (Z.to_nat want) (fst rs ++ repeat VNone (Z.to_nat want))) /\ Forall (fine_v (length (snd rs))) (fst rs) /\
      holds loc' (snd rs) (t_mem (snd p)) /\ grows loc st loc' (snd p)) (calls f (outer w s) h vs)
    (obind (ev MVal (EIdent f) [] sc st) (fun p => match fst p with [fn] => call E A2 fn (map (at_ loc) vs) want (snd p) | _ => OUB end)).
Proof.
  intros Pl Tf Af Hw Bv. destruct (place_fun w Y s sc loc h st f ps body Pl Tf Af) as (k & c & cl & G & O & Cl & Co).
  cbn [eval]. rewrite G. cbn [obind]. unfold one. cbn [obind fst snd]. rewrite put_self. unfold call. rewrite O, Co.
  pose proof (Hcall f ps body (outer w s) vs loc h st cl Tf (place_pend _ _ _ _ _ _ _ Pl) (place_base _ _ _ _ _ _ _ Pl) (place_holds _ _ _ _ _ _ _ Pl) (place_knows _ _ _ _ _ _ _ Pl) Bv Cl) as H.
  destruct (calls f (outer w s) h vs) as [[rs h1]| | | | |]; cbn [agrees] in H |- *; try exact I; [|rewrite H; reflexivity..].
  destruct H as ([rets st1] & -> & (loc' & Q1 & Q2 & Q3 & Q4)). cbn [fst snd] in *. subst rets. cbn [obind]. rewrite (FunProofs.results_take m0 want _ Hw). cbn [obind].
  eexists. split; [reflexivity|]. exists loc'. cbn [fst snd]. rewrite take_at. auto.
Qed.

Scheme expr_rec4 := Induction for expr Sort Prop with exprs_rec4 := Induction for exprs Sort Prop with pairs_rec4 := Induction for pairs Sort Prop.
Combined Scheme expr_mut4 from expr_rec4, exprs_rec4, pairs_rec4.

Hypothesis Fall : forall f, T f <> None -> In f all.

Lemma eval_list mo es s sc st : ev mo (EList es) s sc st =
  obind (eval_items E A2 (fst (alloc (t_mem st) (OList (new_list (wrap32 (exprs_len es)))))) 0 es sc (put_mem st (snd (alloc (t_mem st) (OList (new_list (wrap32 (exprs_len es))))))))
    (fun st1 => one (fst (alloc (t_mem st) (OList (new_list (wrap32 (exprs_len es)))))) st1).
Proof. reflexivity. Qed.
Lemma eval_map mo ps s sc st : ev mo (EMap ps) s sc st =
  obind (eval_pairs E A2 (fst (alloc (t_mem st) (OMap (new_map (wrap32 (pairs_len ps)))))) ps sc (put_mem st (snd (alloc (t_mem st) (OMap (new_map (wrap32 (pairs_len ps))))))))
    (fun st1 => one (fst (alloc (t_mem st) (OMap (new_map (wrap32 (pairs_len ps)))))) st1).
Proof. reflexivity. Qed.

Lemma eval_item l i e r sc st : eval_items E A2 l i (ECons e r) sc st =
  obind (ev MVal e [] sc st) (fun p => match fst p with [v] => obind (insert_of E (t_mem (snd p)) l (VInt i) v) (fun mm => eval_items E A2 l (i + 1) r sc (put_mem (snd p) mm)) | _ => OUB end).
Proof.
  transitivity (obind (ev MVal e [] sc st) (fun p => let (x, st1) := p in match x with [v] => obind (insert_of E (t_mem st1) l (VInt i) v) (fun mm => eval_items E A2 l (i + 1) r sc (put_mem st1 mm)) | _ => OUB end)); [reflexivity|].
  destruct (ev MVal e [] sc st) as [[x st1]| | | |]; reflexivity.
Qed.
Lemma eval_pair l k e r sc st : eval_pairs E A2 l (PCons k e r) sc st =
  obind (ev MVal k [] sc st) (fun p => obind (ev MVal e [] sc (snd p)) (fun q => match fst p, fst q with
    | [key], [v] => obind (insert_of E (t_mem (snd q)) l key v) (fun mm => eval_pairs E A2 l r sc (put_mem (snd q) mm)) | _, _ => OUB end)).
Proof.
  transitivity (obind (ev MVal k [] sc st) (fun p => let (x, st1) := p in obind (ev MVal e [] sc st1) (fun q => let (y, st2) := q in match x, y with
    | [key], [v] => obind (insert_of E (t_mem st2) l key v) (fun mm => eval_pairs E A2 l r sc (put_mem st2 mm)) | _, _ => OUB end))); [reflexivity|].
  destruct (ev MVal k [] sc st) as [[x st1]| | | |]; try reflexivity. cbn [obind fst snd]. destruct (ev MVal e [] sc st1) as [[y st2]| | | |]; reflexivity.
Qed.

Lemma eval_sel mo a i s sc st : mo = MVal \/ mo = MRets -> ev mo (ESel a i) s sc st =
  obind (ev MVal a [] sc st) (fun p => obind (ev MVal i [] sc (snd p)) (fun q => match fst p, fst q with
    | [col], [key] => obind (select_or_none E (t_mem (snd q)) col key) (fun u => one (fst u) (put_mem (snd q) (snd u))) | _, _ => OUB end)).
Proof.
  intros M. transitivity (obind (ev MVal a [] sc st) (fun p => let (x, st1) := p in obind (ev MVal i [] sc st1) (fun q => let (y, st2) := q in match x, y with
    | [col], [key] => obind (select_or_none E (t_mem st2) col key) (fun u => let (r, mm) := u in one r (put_mem st2 mm)) | _, _ => OUB end))).
  { destruct M as [-> | ->]; reflexivity. }
  destruct (ev MVal a [] sc st) as [[x st1]| | | |]; try reflexivity. cbn [obind fst snd]. destruct (ev MVal i [] sc st1) as [[y st2]| | | |]; try reflexivity. cbn [obind fst snd].
  destruct x as [|col [|]]; try reflexivity. destruct y as [|key [|]]; try reflexivity. destruct (select_or_none E (t_mem st2) col key) as [[]| | | |]; reflexivity.
Qed.

Definition filled w Y s sc (loc : list nat) (st : sst) (h' : colls) (st' : sst) : Prop :=
  exists loc', place w Y s sc loc' h' st' /\ grows loc st loc' st'.

(** The value of an expression. *)
Lemma eval_csays :
  (forall e mo w Y s sc loc h st, csimple T e -> incl (cnamed e) all -> wf_expr e -> (mo = MVal \/ mo = MRets) -> place w Y s sc loc h st ->
    agrees (valued loc st) (csays calls w s h e) (ev mo e [] sc st)) /\
  (forall es w Y s sc loc h st, csimple_all T es -> incl (cnamed_all es) all -> wf_exprs es -> place w Y s sc loc h st ->
    agrees (listed loc st) (cargs calls w s h es) (eval_args E A2 es sc st) /\
    (forall k i, (k < length h)%nat -> agrees (filled w Y s sc loc st) (citems calls w s k i h es) (eval_items E A2 (VRef (nth k loc O)) i es sc st))) /\
  (forall ps w Y s sc loc h st, csimple_pairs T ps -> incl (cnamed_pairs ps) all -> wf_pairs ps -> place w Y s sc loc h st ->
    forall k, (k < length h)%nat -> agrees (filled w Y s sc loc st) (cpairs calls w s k h ps) (eval_pairs E A2 (VRef (nth k loc O)) ps sc st)).
Proof.
  assert (Same : forall w Y s sc loc h st v, place w Y s sc loc h st -> fine_v (length h) v -> agrees (valued loc st) (Tale (v, h)) (one (at_ loc v) st)).
  { intros w Y s sc loc h st v Pl F. apply agrees_tale. exists loc. split; [reflexivity|]. split; [exact F|]. split; [exact (place_holds _ _ _ _ _ _ _ Pl)|apply moves_refl, (place_pend _ _ _ _ _ _ _ Pl)]. }
  assert (Nth : forall loc (h : colls) loc' k, (k < length h)%nat -> length loc = length h -> (exists g, loc' = loc ++ g) -> nth k loc' O = nth k loc O).
  { intros loc h loc' k L Q [g ->]. apply app_nth1. lia. }
  apply expr_mut4; intros; cbn [csimple] in *; try contradiction.
  - exact (Same _ _ _ _ _ _ _ (VInt z) H3 H1).
  - exact (Same _ _ _ _ _ _ _ (VFloat bits) H3 I).
  - cbn [csays eval]. cbn [wf_expr] in H1. rewrite (vstring_chars _ H1 H). exact (Same _ _ _ _ _ _ _ (VStr s) H3 (conj H1 H)).
  - rename s into x. destruct (place_get w Y s0 sc loc h st x H3 H (H0 x (or_introl eq_refl))) as [G B].
    assert (Q : ev mo (EIdent x) [] sc st = obind (OOk (option_map (at_ loc) (see w s0 x), t_mem st)) (fun p => match fst p with Some v => one v (put_mem st (snd p)) | None => OErr end)).
    { destruct H2 as [-> | ->]; cbn [eval]; rewrite G; reflexivity. }
    rewrite Q. cbn [csays obind fst snd]. destruct (see w s0 x) as [v|]; [|reflexivity]. cbn [option_map]. rewrite put_self. exact (Same _ _ _ _ _ _ _ v H3 (B v eq_refl)).
  - exact (Same _ _ _ _ _ _ _ VNone H3 I).
  - exact (Same _ _ _ _ _ _ _ (VBool true) H3 I).
  - exact (Same _ _ _ _ _ _ _ (VBool false) H3 I).
  - destruct H0 as [N Si]. cbn [cnamed wf_expr] in *. cbn [csays eval]. eapply agrees_bind; [exact (H MVal w Y s sc loc h st Si H1 H2 (or_introl eq_refl) H4)|].
    intros [v h1] [xs st1] (loc1 & Q1 & F1 & D1 & G1). cbn [fst snd] in *. subst xs. pose proof (unary_coll op loc1 h1 (t_mem st1) v N F1) as U.
    destruct (means1 op v) as [r| | |]; cbn [answered and_then agrees]; try contradiction; [|rewrite U; reflexivity..]. destruct U as [-> Fr]. cbn [obind]. rewrite put_self.
    eexists. split; [reflexivity|]. exists loc1. auto.
  - destruct H1 as (N & S1 & S2). cbn [cnamed wf_expr] in *. apply incl_app_inv in H2. destruct H2 as [I1 I2], H3 as [W1 W2]. cbn [csays eval].
    eapply agrees_bind; [exact (H MVal w Y s sc loc h st S1 I1 W1 (or_introl eq_refl) H5)|]. intros [v h1] [xs st1] (loc1 & Q1 & F1 & D1 & G1). cbn [fst snd] in *. subst xs.
    eapply agrees_bind; [exact (H0 MVal w Y s sc loc1 h1 st1 S2 I2 W2 (or_introl eq_refl) (place_grows _ _ _ _ _ _ _ _ _ _ G1 D1 H5))|]. intros [u h2] [ys st2] (loc2 & Q2 & F2 & D2 & G2). cbn [fst snd] in *. subst ys.
    rewrite <- (at_moves _ _ _ _ _ _ _ D1 G2 F1). apply (fine_more _ _ _ (holds_more _ _ _ _ _ _ _ D1 D2 G2)) in F1.
    pose proof (binary_coll _ op loc2 h2 (t_mem st2) v u N F1 F2 (proj1 G2) D2) as U.
    destruct (cmeans2 h2 op v u) as [r| | |]; cbn [answered and_then agrees]; try contradiction; [|rewrite U; reflexivity..]. destruct U as [-> Fr]. cbn [obind]. rewrite put_self.
    eexists. split; [reflexivity|]. exists loc2. split; [reflexivity|]. split; [exact Fr|]. split; [exact D2|exact (moves_trans _ _ _ _ _ _ _ G1 G2)].
  - destruct H1 as (S1 & S2). cbn [cnamed wf_expr] in *. apply incl_app_inv in H2. destruct H2 as [I1 I2], H3 as [W1 W2]. cbn [csays eval].
    eapply agrees_bind; [exact (H MVal w Y s sc loc h st S1 I1 W1 (or_introl eq_refl) H5)|]. intros [v h1] [xs st1] (loc1 & Q1 & F1 & D1 & G1). cbn [fst snd] in *. subst xs.
    destruct v as [|[]| | | | | |]; try contradiction F1; try reflexivity; [|apply agrees_tale; exists loc1; auto]. cbn [at_].
    eapply agrees_bind; [exact (H0 MVal w Y s sc loc1 h1 st1 S2 I2 W2 (or_introl eq_refl) (place_grows _ _ _ _ _ _ _ _ _ _ G1 D1 H5))|]. intros [u h2] [ys st2] (loc2 & Q2 & F2 & D2 & G2). cbn [fst snd] in *. subst ys.
    destruct u; try contradiction F2; try reflexivity. apply agrees_tale. exists loc2. split; [reflexivity|]. split; [exact I|]. split; [exact D2|exact (moves_trans _ _ _ _ _ _ _ G1 G2)].
  - destruct H1 as (S1 & S2). cbn [cnamed wf_expr] in *. apply incl_app_inv in H2. destruct H2 as [I1 I2], H3 as [W1 W2]. cbn [csays eval].
    eapply agrees_bind; [exact (H MVal w Y s sc loc h st S1 I1 W1 (or_introl eq_refl) H5)|]. intros [v h1] [xs st1] (loc1 & Q1 & F1 & D1 & G1). cbn [fst snd] in *. subst xs.
    destruct v as [|[]| | | | | |]; try contradiction F1; try reflexivity; [apply agrees_tale; exists loc1; auto|]. cbn [at_].
    eapply agrees_bind; [exact (H0 MVal w Y s sc loc1 h1 st1 S2 I2 W2 (or_introl eq_refl) (place_grows _ _ _ _ _ _ _ _ _ _ G1 D1 H5))|]. intros [u h2] [ys st2] (loc2 & Q2 & F2 & D2 & G2). cbn [fst snd] in *. subst ys.
    destruct u; try contradiction F2; try reflexivity. apply agrees_tale. exists loc2. split; [reflexivity|]. split; [exact I|]. split; [exact D2|exact (moves_trans _ _ _ _ _ _ _ G1 G2)].
  - destruct H1 as (S1 & S2). cbn [cnamed wf_expr] in *. apply incl_app_inv in H2. destruct H2 as [I1 I2], H3 as [W1 W2]. rewrite (eval_sel _ _ _ _ _ _ H4). cbn [csays].
    eapply agrees_bind; [exact (H MVal w Y s sc loc h st S1 I1 W1 (or_introl eq_refl) H5)|]. intros [v h1] [xs st1] (loc1 & Q1 & F1 & D1 & G1). cbn [fst snd] in *. subst xs.
    eapply agrees_bind; [exact (H0 MVal w Y s sc loc1 h1 st1 S2 I2 W2 (or_introl eq_refl) (place_grows _ _ _ _ _ _ _ _ _ _ G1 D1 H5))|]. intros [u h2] [ys st2] (loc2 & Q2 & F2 & D2 & G2). cbn [fst snd] in *. subst ys.
    rewrite <- (at_moves _ _ _ _ _ _ _ D1 G2 F1). apply (fine_more _ _ _ (holds_more _ _ _ _ _ _ _ D1 D2 G2)) in F1.
    eapply agrees_bind; [exact (holds_found E _ loc2 h2 (t_mem st2) v u D2 (proj1 G2) F1 (fine_key _ _ F2))|]. intros r p [-> Fr]. cbn [fst snd]. rewrite put_self.
    apply agrees_tale. exists loc2. split; [reflexivity|]. split; [exact Fr|]. split; [exact D2|exact (moves_trans _ _ _ _ _ _ _ G1 G2)].
  - cbn [cnamed wf_expr] in *. rewrite eval_list.
    change (csays calls w s h (EList items)) with (and_then (citems calls w s (length h) 0 (h ++ [CList []]) items) (fun h1 => Tale (VRef (length h), h1))).
    destruct (place_alloc w Y s sc loc h st (OList (new_list (wrap32 (exprs_len items)))) (CList []) H4 (fun n l => object_new_list _ n l)) as [Pl G].
    pose proof (holds_length _ _ _ (place_holds _ _ _ _ _ _ _ H4)) as Ll.
    assert (Hk : (length h < length (h ++ [CList []]))%nat) by (rewrite app_length; cbn; lia).
    destruct (H w Y s sc _ _ _ H0 H1 H2 Pl) as [_ Hi]. specialize (Hi (length h) 0 Hk).
    assert (Qn : nth (length h) (loc ++ [length (m_objs (t_mem st))]) O = length (m_objs (t_mem st))) by (rewrite <- Ll, app_nth2, Nat.sub_diag by lia; reflexivity).
    rewrite Qn in Hi. change (fst (alloc (t_mem st) (OList (new_list (wrap32 (exprs_len items)))))) with (VRef (length (m_objs (t_mem st)))).
    eapply agrees_bind; [exact Hi|]. intros h1 st1 (loc1 & P1 & G1). apply agrees_tale. exists loc1. cbn [fst snd].
    assert (L1 : (length h < length h1)%nat) by (pose proof (holds_more _ _ _ _ _ _ _ (place_holds _ _ _ _ _ _ _ Pl) (place_holds _ _ _ _ _ _ _ P1) G1); lia).
    split; [|split; [exact L1|split; [exact (place_holds _ _ _ _ _ _ _ P1)|exact (moves_trans _ _ _ _ _ _ _ G G1)]]]. cbn [at_]. do 2 f_equal.
    rewrite (Nth _ _ loc1 (length h) Hk (holds_length _ _ _ (place_holds _ _ _ _ _ _ _ Pl)) (moves_loc _ _ _ _ _ G1)). symmetry. exact Qn.
  - cbn [cnamed wf_expr] in *. rewrite eval_map. destruct H0 as [Lp Sp].
    change (csays calls w s h (EMap items)) with (and_then (cpairs calls w s (length h) (h ++ [CMap []]) items) (fun h1 => Tale (VRef (length h), h1))).
    assert (Lw : wrap32 (pairs_len items) < 2 ^ 26).
    { assert (0 <= pairs_len items) by (clear; induction items; cbn [pairs_len]; lia). rewrite wrap32_id; [exact Lp|]. unfold in_int. lia. }
    destruct (place_alloc w Y s sc loc h st (OMap (new_map (wrap32 (pairs_len items)))) (CMap []) H4 (fun n l => object_new_map _ n l Lw)) as [Pl G].
    pose proof (holds_length _ _ _ (place_holds _ _ _ _ _ _ _ H4)) as Ll.
    assert (Hk : (length h < length (h ++ [CMap []]))%nat) by (rewrite app_length; cbn; lia).
    pose proof (H w Y s sc _ _ _ Sp H1 H2 Pl (length h) Hk) as Hi.
    assert (Qn : nth (length h) (loc ++ [length (m_objs (t_mem st))]) O = length (m_objs (t_mem st))) by (rewrite <- Ll, app_nth2, Nat.sub_diag by lia; reflexivity).
    rewrite Qn in Hi. change (fst (alloc (t_mem st) (OMap (new_map (wrap32 (pairs_len items)))))) with (VRef (length (m_objs (t_mem st)))).
    eapply agrees_bind; [exact Hi|]. intros h1 st1 (loc1 & P1 & G1). apply agrees_tale. exists loc1. cbn [fst snd].
    assert (L1 : (length h < length h1)%nat) by (pose proof (holds_more _ _ _ _ _ _ _ (place_holds _ _ _ _ _ _ _ Pl) (place_holds _ _ _ _ _ _ _ P1) G1); lia).
    split; [|split; [exact L1|split; [exact (place_holds _ _ _ _ _ _ _ P1)|exact (moves_trans _ _ _ _ _ _ _ G G1)]]]. cbn [at_]. do 2 f_equal.
    rewrite (Nth _ _ loc1 (length h) Hk (holds_length _ _ _ (place_holds _ _ _ _ _ _ _ Pl)) (moves_loc _ _ _ _ _ G1)). symmetry. exact Qn.
  - destruct f as [| | |x| | | | | | | | | | | | | | |]; try contradiction. destruct H1 as [Tf Sa]. cbn [cnamed wf_expr csays] in *. rewrite FunProofs.eval_call.
    eapply agrees_bind; [exact (proj1 (H0 w Y s sc loc h st Sa H2 (proj2 H3) H5))|]. intros [vs h1] [xs st1] (loc1 & Q1 & F1 & D1 & G1). cbn [fst snd] in *. subst xs.
    destruct (T x) as [[ps body]|] eqn:Tx; [|contradiction].
    assert (R1 : returns_of mo = 1) by (destruct H4 as [-> | ->]; reflexivity). rewrite R1.
    pose proof (call_agrees w Y s sc x ps body 1 loc1 h1 st1 vs (place_grows _ _ _ _ _ _ _ _ _ _ G1 D1 H5) Tx (Fall x ltac:(congruence)) ltac:(lia) F1) as C.
    destruct (calls x (outer w s) h1 vs) as [[rs h2]| | | | |]; cbn [agrees and_then] in C |- *; try exact I; [|exact C..]. destruct C as (p & -> & loc2 & Q & B & D & G). exists p. split; [reflexivity|]. exists loc2.
    change (Z.to_nat 1) with 1%nat in Q. cbn [fst snd] in *. split; [|split; [destruct rs; [exact I|inversion B; assumption]|split; [exact D|exact (moves_trans _ _ _ _ _ _ _ G1 G)]]].
    rewrite Q. destruct rs; reflexivity.
  - split.
    + apply agrees_tale. exists loc. split; [reflexivity|]. split; [constructor|]. split; [exact (place_holds _ _ _ _ _ _ _ H2)|apply moves_refl, (place_pend _ _ _ _ _ _ _ H2)].
    + intros k i Hk. apply agrees_tale. exists loc. split; [exact H2|apply moves_refl, (place_pend _ _ _ _ _ _ _ H2)].
  - cbn [csimple_all cnamed_all wf_exprs] in *. destruct H1 as [S1 S2]. apply incl_app_inv in H2. destruct H2 as [I1 I2], H3 as [W1 W2]. split.
    + change (cargs calls w s h (ECons e r)) with (and_then (cargs calls w s h r) (fun p => and_then (csays calls w s (snd p) e) (fun q => Tale (fst q :: fst p, snd q)))). cbn [eval_args].
      eapply agrees_bind; [exact (proj1 (H0 w Y s sc loc h st S2 I2 W2 H4))|]. intros [vs h1] [xs st1] (loc1 & Q1 & F1 & D1 & G1). cbn [fst snd] in *. subst xs.
      eapply agrees_bind; [exact (H MVal w Y s sc loc1 h1 st1 S1 I1 W1 (or_introl eq_refl) (place_grows _ _ _ _ _ _ _ _ _ _ G1 D1 H4))|]. intros [v h2] [ys st2] (loc2 & Q2 & F2 & D2 & G2). cbn [fst snd] in *. subst ys.
      apply agrees_tale. exists loc2. cbn [fst snd map app]. rewrite (ats_moves _ _ _ _ _ _ _ D1 G2 F1). split; [reflexivity|].
      split; [constructor; [exact F2|exact (fines_more _ _ _ (holds_more _ _ _ _ _ _ _ D1 D2 G2) F1)]|]. split; [exact D2|exact (moves_trans _ _ _ _ _ _ _ G1 G2)].
    + intros k i Hk. change (citems calls w s k i h (ECons e r)) with (and_then (csays calls w s h e) (fun p => and_then (stored (snd p) (VRef k) (VInt i) (fst p)) (fun h1 => citems calls w s k (i + 1) h1 r))).
      rewrite eval_item. eapply agrees_bind; [exact (H MVal w Y s sc loc h st S1 I1 W1 (or_introl eq_refl) H4)|]. intros [v h1] [ys st1] (loc1 & Q1 & F1 & D1 & G1). cbn [fst snd] in *. subst ys.
      pose proof (place_grows _ _ _ _ _ _ _ _ _ _ G1 D1 H4) as P1. pose proof (holds_more _ _ _ _ _ _ _ (place_holds _ _ _ _ _ _ _ H4) D1 G1) as L1.
      rewrite <- (Nth loc h loc1 k Hk (holds_length _ _ _ (place_holds _ _ _ _ _ _ _ H4)) (moves_loc _ _ _ _ _ G1)).
      eapply agrees_bind; [exact (place_stored w Y s sc loc1 h1 st1 (VRef k) (VInt i) v P1 ltac:(cbn; lia) I F1)|]. intros h2 m2 (P2 & L2 & G2).
      eapply agrees_mono; [|exact (proj2 (H0 w Y s sc loc1 h2 (put_mem st1 m2) S2 I2 W2 P2) k (i + 1) ltac:(lia))]. intros h3 st3 (loc3 & P3 & G3). exists loc3. split; [exact P3|].
      exact (moves_trans _ _ _ _ _ _ _ G1 (moves_trans _ _ _ _ _ _ _ G2 G3)).
  - apply agrees_tale. exists loc. split; [exact H2|apply moves_refl, (place_pend _ _ _ _ _ _ _ H2)].
  - cbn [csimple_pairs cnamed_pairs wf_pairs] in *. destruct H2 as (S1 & S2 & S3). apply incl_app_inv in H3. destruct H3 as [I1 I2]. apply incl_app_inv in I2. destruct I2 as [I2 I3], H4 as (W1 & W2 & W3).
    rename k into ke. rename k0 into k.
    change (cpairs calls w s k h (PCons ke v r)) with (and_then (csays calls w s h ke) (fun p => and_then (csays calls w s (snd p) v) (fun q => and_then (stored (snd q) (VRef k) (fst p) (fst q)) (fun h1 => cpairs calls w s k h1 r)))).
    rewrite eval_pair. eapply agrees_bind; [exact (H MVal w Y s sc loc h st S1 I1 W1 (or_introl eq_refl) H5)|]. intros [key h1] [ys st1] (loc1 & Q1 & F1 & D1 & G1). cbn [fst snd] in *. subst ys.
    pose proof (place_grows _ _ _ _ _ _ _ _ _ _ G1 D1 H5) as P1.
    eapply agrees_bind; [exact (H0 MVal w Y s sc loc1 h1 st1 S2 I2 W2 (or_introl eq_refl) P1)|]. intros [u h2] [ys st2] (loc2 & Q2 & F2 & D2 & G2). cbn [fst snd] in *. subst ys.
    pose proof (place_grows _ _ _ _ _ _ _ _ _ _ G2 D2 P1) as P2. pose proof (moves_trans _ _ _ _ _ _ _ G1 G2) as G12.
    pose proof (holds_more _ _ _ _ _ _ _ (place_holds _ _ _ _ _ _ _ H5) D2 G12) as L2.
    rewrite <- (Nth loc h loc2 k H6 (holds_length _ _ _ (place_holds _ _ _ _ _ _ _ H5)) (moves_loc _ _ _ _ _ G12)). rewrite <- (at_moves _ _ _ _ _ _ _ D1 G2 F1).
    eapply agrees_bind; [exact (place_stored w Y s sc loc2 h2 st2 (VRef k) key u P2 ltac:(cbn; lia) (fine_key _ _ F1) F2)|]. intros h3 m3 (P3 & L3 & G3).
    eapply agrees_mono; [|exact (H1 w Y s sc loc2 h3 (put_mem st2 m3) S3 I3 W3 P3 k ltac:(lia))]. intros h4 st4 (loc4 & P4 & G4). exists loc4. split; [exact P4|].
    exact (moves_trans _ _ _ _ _ _ _ G12 (moves_trans _ _ _ _ _ _ _ G3 G4)).
Qed.

(** The values of a tuple. *)
Lemma eval_ctells : forall e w Y s sc loc h st, ctuple T e -> incl (cnamed e) all -> wf_expr e -> place w Y s sc loc h st ->
  agrees (listed loc st) (ctells calls w s h e) (ev MRets e [] sc st).
Proof.
  assert (One : forall e w Y s sc loc h st, csimple T e -> incl (cnamed e) all -> wf_expr e -> place w Y s sc loc h st ->
    agrees (listed loc st) (and_then (csays calls w s h e) (fun p => Tale ([fst p], snd p))) (ev MRets e [] sc st)).
  { intros e w Y s sc loc h st Si In Wf P. pose proof (proj1 eval_csays e MRets w Y s sc loc h st Si In Wf (or_intror eq_refl) P) as H.
    destruct (csays calls w s h e) as [[v h1]| | | | |]; cbn [agrees and_then] in H |- *; try exact I; [|exact H..]. destruct H as (p & -> & loc1 & Q & B & D & G). exists p. split; [reflexivity|].
    exists loc1. split; [exact Q|]. split; [constructor; [exact B|constructor]|]. auto. }
  induction e; intros w Y st0 sc loc h st Si In Wf P; try (exact (One _ w Y st0 sc loc h st Si In Wf P)).
  cbn [ctuple cnamed wf_expr ctells eval] in *. destruct Si as [S1 S2]. apply incl_app_inv in In. destruct In as [I1 I2], Wf as [W1 W2].
  eapply agrees_bind; [exact (IHe1 w Y st0 sc loc h st S1 I1 W1 P)|]. intros [xs h1] [us st1] (loc1 & Q1 & F1 & D1 & G1). cbn [fst snd] in *. subst us.
  eapply agrees_bind; [exact (IHe2 w Y st0 sc loc1 h1 st1 S2 I2 W2 (place_grows _ _ _ _ _ _ _ _ _ _ G1 D1 P))|]. intros [ys h2] [us st2] (loc2 & Q2 & F2 & D2 & G2). cbn [fst snd] in *. subst us.
  apply agrees_tale. exists loc2. cbn [fst snd]. rewrite map_app, (ats_moves _ _ _ _ _ _ _ D1 G2 F1). split; [reflexivity|].
  split; [apply Forall_app; split; [exact (fines_more _ _ _ (holds_more _ _ _ _ _ _ _ D1 D2 G2) F1)|exact F2]|]. split; [exact D2|exact (moves_trans _ _ _ _ _ _ _ G1 G2)].
Qed.

(** Assigning several names. *)
Lemma put_firstn s : forall xs n vs, (length xs <= n)%nat -> put_all s xs (firstn n vs) = put_all s xs vs.
Proof.
  induction xs as [|x xs IH]; intros n vs Hn; [reflexivity|]. destruct n as [|n]; [cbn in Hn; lia|]. cbn [length] in Hn.
  destruct vs as [|v vs]; [reflexivity|]. cbn [firstn put_all tl hd]. rewrite (IH n vs) by lia. reflexivity.
Qed.
Lemma targets_len e : ftarget T e -> Z.of_nat (length (targets e)) = tuple_len e.
Proof. induction e; cbn [ftarget targets tuple_len]; intros H; try contradiction; [reflexivity|]. destruct H as [H1 H2]. rewrite app_length. specialize (IHe1 H1). specialize (IHe2 H2). lia. Qed.
Lemma targets_named e : ftarget T e -> cnamed e = targets e.
Proof. induction e; cbn [ftarget cnamed targets]; intros H; try contradiction; [reflexivity|]. destruct H as [H1 H2]. rewrite IHe1, IHe2 by assumption. reflexivity. Qed.
Lemma fine_parts k n (vs : list value) : Forall (fine_v k) vs -> Forall (fine_v k) (firstn n vs) /\ Forall (fine_v k) (skipn n vs).
Proof. intros B. rewrite <- (firstn_skipn n vs) in B. apply Forall_app in B. exact B. Qed.
Lemma tuple_pos e : 1 <= tuple_len e.
Proof. induction e; cbn [tuple_len]; lia. Qed.

Lemma assign_all w Y sc loc h : forall e vs s st, ftarget T e -> incl (targets e) Y -> Z.of_nat (length vs) = tuple_len e -> Forall (fine_v (length h)) vs -> place w Y s sc loc h st ->
  exists r st', ev MTgt e (map (at_ loc) vs) sc st = OOk (r, st') /\ place w Y (put_all s (targets e) vs) sc loc h st' /\ keeps (where_ sc) loc st loc st'.
Proof.
  induction e; intros vs st0 st Ta In Ln B P; cbn [ftarget] in Ta; try contradiction.
  - cbn [tuple_len] in Ln. destruct vs as [|v [|]]; cbn [length] in Ln; try lia. inversion B; subst.
    destruct (place_set w Y st0 sc loc h st s v P Ta (In s (or_introl eq_refl)) H1) as (m' & Q & P' & K). cbn [eval map]. rewrite Q. cbn [obind].
    exists [at_ loc v], (put_mem st m'). split; [reflexivity|]. cbn [targets put_all hd]. auto.
  - destruct Ta as [T1 T2]. cbn [targets tuple_len] in *. apply incl_app_inv in In. destruct In as [I1 I2].
    pose proof (targets_len e1 T1) as L1. pose proof (targets_len e2 T2) as L2. cbn [eval].
    replace (Z.to_nat (tuple_len e1)) with (length (targets e1)) by lia. rewrite skipn_map, firstn_map.
    destruct (IHe2 (skipn (length (targets e1)) vs) st0 st T2 I2) as (r2 & st2 & Q2 & P2 & K2); [rewrite skipn_length; lia|exact (proj2 (fine_parts _ _ _ B))|exact P|].
    rewrite Q2. cbn [obind].
    destruct (IHe1 (firstn (length (targets e1)) vs) _ st2 T1 I1 ltac:(rewrite firstn_length; lia) (proj1 (fine_parts _ _ _ B)) P2) as (r1 & st1 & Q1 & P1 & K1).
    rewrite Q1. exists r1, st1. split; [reflexivity|]. rewrite FunProofs.put_all_app. rewrite put_firstn in P1 by lia. split; [exact P1|exact (moves_trans _ _ _ _ _ _ _ K2 K1)].
Qed.

(** * Types *)
Notation stands := FunProofs.stands.
Notation below := FunProofs.below.
Lemma stands_moves q loc h st loc' st' t : holds loc h (t_mem st) -> moves q loc st loc' st' -> (forall k, ~ q k) -> forall v, stands (t_mem st) t v -> stands (t_mem st') t v.
Proof.
  intros Hd (_ & _ & _ & _ & K) Nq. assert (Kp : forall k o, match o with OList _ | OMap _ => False | _ => True end -> nth_error (m_objs (t_mem st)) k = Some o -> nth_error (m_objs (t_mem st')) k = Some o).
  { intros k o No Hk. apply K; [exact (holds_apart _ _ _ _ _ Hd Hk No)|apply Nq|exact Hk]. }
  induction t; cbn [FunProofs.stands]; intros v H; try exact H.
  - destruct op; try exact H. destruct H as (l & u & -> & N & S & B). exists l, u. split; [reflexivity|]. split; [apply Kp; [exact I|exact N]|]. auto.
  - destruct op; try exact H. destruct H as (l & u & r & -> & N & S1 & S2 & B1 & B2). exists l, u, r. split; [reflexivity|]. split; [apply Kp; [exact I|exact N]|]. auto.
Qed.

(** A new object which is not a list or map. *)
Lemma other_alloc w Y s sc loc h st o : place w Y s sc loc h st ->
  grows loc st loc (put_mem st (snd (alloc (t_mem st) o))) /\ place w Y s sc loc h (put_mem st (snd (alloc (t_mem st) o))).
Proof.
  intros P. pose proof (moves_alloc (fun _ => False) loc st o [] (place_pend _ _ _ _ _ _ _ P) (or_introl eq_refl)) as G. rewrite app_nil_r in G. split; [exact G|].
  refine (place_grows _ _ _ _ _ h _ _ _ _ G _ P). eapply holds_ext; [exact (place_holds _ _ _ _ _ _ _ P)|]. intros k Hk. cbn. apply nth_error_app1.
  destruct (holds_in _ loc h _ k (place_holds _ _ _ _ _ _ _ P) Hk) as (o' & Q & _). apply nth_error_Some. congruence.
Qed.

Lemma eval_type w Y s sc loc h : incl Y all -> forall t st, ftype t -> incl (type_names t) KT -> place w Y s sc loc h st ->
  exists v st', ev MVal t [] sc st = OOk ([v], st') /\ grows loc st loc st' /\ place w Y s sc loc h st' /\ stands (t_mem st') t v.
Proof.
  intros IY. induction t; intros st F N P; cbn [ftype] in F; try contradiction.
  - destruct (kind_of s0) as [k|] eqn:Q; [|contradiction].
    cbn [eval]. rewrite (place_kind w Y s sc loc h st s0 k P IY (N s0 (or_introl eq_refl)) Q). cbn [obind fst snd]. rewrite put_self.
    exists (FunProofs.kind_value k), st. split; [reflexivity|]. split; [apply moves_refl, P|]. split; [exact P|]. exists k. auto.
  - destruct op; try contradiction. cbn [type_names] in N. destruct (IHt st F N P) as (u & st1 & Q & G & P1 & S). cbn [eval]. rewrite Q. cbn [obind fst snd unop_code unary_op].
    eexists _, _. split; [reflexivity|]. destruct (other_alloc _ _ _ _ _ _ _ (ONullable u) P1) as [G2 P2]. split; [exact (moves_trans _ _ _ _ _ _ _ G G2)|]. split; [exact P2|].
    exists (length (m_objs (t_mem st1))), u. split; [reflexivity|]. split; [cbn; rewrite nth_error_app2, Nat.sub_diag by lia; reflexivity|].
    split; [|exact (FunProofs.stands_below _ _ _ S)]. exact (stands_moves _ _ _ _ _ _ _ (place_holds _ _ _ _ _ _ _ P1) G2 (fun _ f => f) _ S).
  - destruct op; try contradiction. cbn [type_names] in N. apply incl_app_inv in N. destruct N as [N1 N2], F as [F1 F2].
    destruct (IHt1 st F1 N1 P) as (u & st1 & Q1 & G1 & P1 & S1). destruct (IHt2 st1 F2 N2 P1) as (q & st2 & Q2 & G2 & P2 & S2).
    cbn [eval]. rewrite Q1. cbn [obind fst snd]. rewrite Q2. cbn [obind fst snd binop_code binary_op].
    eexists _, _. split; [reflexivity|]. destruct (other_alloc _ _ _ _ _ _ _ (OSum u q) P2) as [G3 P3]. split; [exact (moves_trans _ _ _ _ _ _ _ (moves_trans _ _ _ _ _ _ _ G1 G2) G3)|]. split; [exact P3|].
    pose proof (stands_moves _ _ _ _ _ _ _ (place_holds _ _ _ _ _ _ _ P1) G2 (fun _ f => f) _ S1) as S1'.
    exists (length (m_objs (t_mem st2))), u, q. split; [reflexivity|]. split; [cbn; rewrite nth_error_app2, Nat.sub_diag by lia; reflexivity|].
    split; [exact (stands_moves _ _ _ _ _ _ _ (place_holds _ _ _ _ _ _ _ P2) G3 (fun _ f => f) _ S1')|]. split; [exact (stands_moves _ _ _ _ _ _ _ (place_holds _ _ _ _ _ _ _ P2) G3 (fun _ f => f) _ S2)|].
    split; [exact (FunProofs.stands_below _ _ _ S1')|exact (FunProofs.stands_below _ _ _ S2)].
Qed.

Lemma accepts_type loc h m v : holds loc h m -> fine_v (length h) v -> forall t n p tv, stands m t tv -> below tv n -> is_type_of n m p tv (at_ loc v) = OOk (caccepts h t v, p).
Proof.
  intros Hd B. induction t; intros n p tv S L; cbn [FunProofs.stands] in S; try contradiction.
  - destruct S as (k & Q & ->). cbn [caccepts]. rewrite Q. destruct k as [|t]; destruct n; cbn [FunProofs.kind_value is_type_of]; try reflexivity; rewrite (belongs_coll _ loc h m v t Hd B); reflexivity.
  - destruct op; try contradiction. destruct S as (l & u & -> & N & S & Bl). cbn [FunProofs.below] in L. destruct n as [|n]; [lia|]. cbn [is_type_of]. rewrite N. cbn [caccepts].
    destruct v; try reflexivity; apply IHt; try exact S; destruct u; cbn in Bl |- *; try exact I; lia.
  - destruct op; try contradiction. destruct S as (l & u & q & -> & N & S1 & S2 & B1 & B2). cbn [FunProofs.below] in L. destruct n as [|n]; [lia|]. cbn [is_type_of]. rewrite N. cbn [caccepts].
    rewrite (IHt1 n p u S1) by (destruct u; cbn in B1 |- *; try exact I; lia). cbn [obind fst snd]. destruct (caccepts h t1 v); [reflexivity|]. cbn [orb].
    apply IHt2; [exact S2|]. destruct q; cbn in B2 |- *; try exact I; lia.
Qed.

Lemma accepts_is loc h m t tv v : holds loc h m -> fine_v (length h) v -> m_pend m = false -> stands m t tv -> is_type m tv (at_ loc v) = OOk (caccepts h t v, m).
Proof.
  intros Hd B P S. unfold is_type. rewrite (accepts_type loc h m v Hd B t _ _ tv S).
  - cbn [obind fst snd]. rewrite P. destruct m as [o p]. cbn in *. subst p. reflexivity.
  - pose proof (FunProofs.stands_below m t tv S) as L. destruct tv; try exact I. cbn [FunProofs.below] in *. unfold type_depth. lia.
Qed.

Lemma params_plain ps : params_len (plain ps) = Z.of_nat (length ps).
Proof. induction ps as [|[x [ty df]] ps IH]; [reflexivity|]. cbn [plain params_len length]. lia. Qed.

Lemma none_test loc h m v : holds loc h m -> m_pend m = false -> fine_v (length h) v ->
  compare_op m false (VType (type_of (rt_of (m_objs m)) (at_ loc v))) (VType TyNone) = OOk (VBool (match v with VNone => true | _ => false end)).
Proof.
  intros Hd P B. unfold compare_op. rewrite P. destruct (fine_basic loc _ v B) as [(k & -> & Hk)|[Bv ->]].
  - cbn [at_ type_of]. rewrite (holds_kind _ loc h m k Hd Hk). destruct (is_list h k); reflexivity.
  - destruct v; cbn in Bv |- *; try contradiction; reflexivity.
Qed.

Definition bound w Y sc (loc : list nat) (st : sst) (p : store * colls) (st' : sst) : Prop :=
  exists loc', place w Y (fst p) sc loc' (snd p) st' /\ keeps (where_ sc) loc st loc' st'.

(** Binding the parameters. *)
Lemma bind_all w Y sc s loc h : incl Y all -> forall ps vs st, length vs = length ps -> Forall (fine_v (length h)) vs -> incl (map fst ps) Y -> (forall x, In x (map fst ps) -> T x = None) ->
  Forall (cparam T) ps -> incl (cdefault_names ps) all -> incl (kind_names ps) KT -> wf_params (plain ps) -> place w Y s sc loc h st ->
  agrees (bound w Y sc loc st) (creceive calls w s h ps vs) (bind_params E A2 (plain ps) (map (at_ loc) vs) sc st).
Proof.
  intros IY. induction ps as [|[x [ty df]] ps IH]; intros vs st Ln B In Tn Fp Id Ik Wp P; destruct vs as [|v vs]; try discriminate.
  - apply agrees_tale. exists loc. split; [exact P|]. apply moves_refl. apply P.
  - injection Ln as Ln. inversion B as [|? ? Bv Bs]; subst. inversion Fp as [|? ? [F1 F2] F3]; subst. cbn [plain bind_params creceive tl hd map fst snd] in *.
    cbn [cdefault_names kind_names flat_map fst snd] in Id, Ik. apply incl_app_inv in Id, Ik. destruct Id as [Id1 Id2], Ik as [Ik1 Ik2]. destruct Wp as (_ & Wt & Wd & Wp).
    eapply agrees_bind; [exact (IH vs st Ln Bs (fun y Hy => In y (or_intror Hy)) (fun y Hy => Tn y (or_intror Hy)) F3 Id2 Ik2 Wp P)|].
    intros [s1 h1] st1 (loc1 & P1 & K1). cbn [fst snd] in *. pose proof (place_holds _ _ _ _ _ _ _ P) as D0. pose proof (place_holds _ _ _ _ _ _ _ P1) as D1.
    rewrite <- (at_moves _ _ _ _ _ _ _ D0 K1 Bv). apply (fine_more _ _ _ (holds_more _ _ _ _ _ _ _ D0 D1 K1)) in Bv.
    assert (Same : agrees (fun u (p : value * sst) => exists loc2, fst p = at_ loc2 (fst u) /\ fine_v (length (snd u)) (fst u) /\ holds loc2 (snd u) (t_mem (snd p)) /\ grows loc1 st1 loc2 (snd p)) (Tale (v, h1)) (OOk (at_ loc1 v, st1))).
    { apply agrees_tale. exists loc1. split; [reflexivity|]. split; [exact Bv|]. split; [exact D1|apply moves_refl, P1]. }
    eapply agrees_bind with (P := fun (u : value * colls) (p : value * sst) => exists loc2, fst p = at_ loc2 (fst u) /\ fine_v (length (snd u)) (fst u) /\ holds loc2 (snd u) (t_mem (snd p)) /\ grows loc1 st1 loc2 (snd p)).
    + destruct df as [d|]; cbn [maybe]; [|destruct v; exact Same].
      rewrite (none_test loc1 h1 (t_mem st1) v D1 (proj1 P1) Bv). cbn [obind].
      destruct v; try exact Same. clear Same.
      pose proof (proj1 eval_csays d MVal w Y s1 sc loc1 h1 st1 F2 Id1 Wd (or_introl eq_refl) P1) as H.
      destruct (csays calls w s1 h1 d) as [[u h2]| | | | |]; cbn [agrees] in H |- *; try exact I; [|rewrite H; reflexivity..].
      destruct H as ([xs st2] & -> & loc2 & Q & Bu & D2 & G). cbn [fst snd] in *. subst xs. eexists. split; [reflexivity|]. exists loc2. auto.
    + intros [u h2] [u' st2] (loc2 & Q & Bu & D2 & G). cbn [fst snd] in *. subst u'. pose proof (place_grows _ _ _ _ _ _ _ _ _ _ G D2 P1) as P2.
      assert (Set_ : forall st3, grows loc2 st2 loc2 st3 -> place w Y s1 sc loc2 h2 st3 -> agrees (bound w Y sc loc st) (Tale (put_in s1 x u, h2))
        (do mm <- set_var E (t_mem st3) (sc_locals sc) x (at_ loc2 u); OOk (put_mem st3 mm))).
      { intros st3 G3 P3.
        destruct (place_set w Y _ sc loc2 h2 st3 x u P3 (Tn x (or_introl eq_refl)) (In x (or_introl eq_refl)) Bu) as (m' & Q & P' & K'). rewrite Q. cbn [obind].
        apply agrees_tale. exists loc2. split; [exact P'|]. exact (moves_trans _ _ _ _ _ _ _ (moves_trans _ _ _ _ _ _ _ K1 (grows_keeps _ _ _ _ _ (moves_trans _ _ _ _ _ _ _ G G3))) K'). }
      destruct ty as [t|]; cbn [maybe]; [|cbn [obind]; apply Set_; [apply moves_refl, P2|exact P2]].
      destruct (eval_type w Y s1 sc loc2 h2 IY t st2 F1 Ik1 P2) as (tv & st3 & Q & G3 & P3 & S). rewrite Q. cbn [obind fst snd].
      rewrite (accepts_is loc2 h2 (t_mem st3) t tv u (place_holds _ _ _ _ _ _ _ P3) Bu (proj1 G3) S). cbn [obind fst snd]. destruct (caccepts h2 t u); [|reflexivity]. rewrite put_self. cbn [obind]. apply Set_; assumption.
Qed.

Lemma receive_firstn w s h : forall ps n vs, (length ps <= n)%nat -> creceive calls w s h ps (firstn n vs) = creceive calls w s h ps vs.
Proof.
  induction ps as [|[x [ty df]] ps IH]; intros n vs L; [reflexivity|]. cbn [length] in L. destruct n as [|n]; [lia|]. cbn [creceive]. destruct vs as [|v vs]; [reflexivity|].
  cbn [firstn tl hd]. rewrite IH by lia. reflexivity.
Qed.
Lemma receive_none w s h : forall ps vs k, creceive calls w s h ps (vs ++ repeat VNone k) = creceive calls w s h ps vs.
Proof.
  induction ps as [|[x [ty df]] ps IH]; intros vs k; [reflexivity|]. cbn [creceive]. destruct vs as [|v vs].
  - destruct k as [|k]; [reflexivity|]. cbn [app repeat tl hd]. change (repeat VNone k) with ([] ++ repeat VNone k). rewrite IH. reflexivity.
  - cbn [app tl hd]. rewrite IH. reflexivity.
Qed.

(** * Statements *)
Definition fated (lp : bool) (w : option store) (Y : list (list Z)) (sc : scope) (loc : list nat) (st : sst) (r : cfate) (p : sig * sst) : Prop :=
  exists loc', keeps (where_ sc) loc st loc' (snd p) /\
  match r with
  | CFell s h => fst p = SigNext /\ place w Y s sc loc' h (snd p)
  | CBroke s h => lp = true /\ fst p = SigBreak /\ place w Y s sc loc' h (snd p)
  | CGave vs h => fst p = SigRet (map (at_ loc') vs) /\ Forall (fine_v (length h)) vs /\ holds loc' h (t_mem (snd p))
  end.

Lemma fated_keeps lp w Y sc loc st loc1 st1 r p : keeps (where_ sc) loc st loc1 st1 -> fated lp w Y sc loc1 st1 r p -> fated lp w Y sc loc st r p.
Proof. intros K (loc' & K1 & H). exists loc'. split; [exact (moves_trans _ _ _ _ _ _ _ K K1)|exact H]. Qed.

Definition fine_in (Y : list (list Z)) (t : stmt) : Prop := incl (cmentions t) Y /\ wf_stmt t.
Definition fines_in (Y : list (list Z)) (ss : stmts) : Prop := incl (cmentions_all ss) Y /\ wf_stmts ss.

Definition stmts_agree (again : option store -> store -> colls -> stmt -> tale cfate) (A1 : stmt -> scope -> sst -> out (sig * sst)) : Prop :=
  forall t lp w Y s sc loc h st, ccore T lp t -> fine_in Y t -> incl Y all -> place w Y s sc loc h st -> agrees (fated lp w Y sc loc st) (again w s h t) (A1 t sc st).
Hypothesis Hagain : stmts_agree again A1.

Lemma test_agrees c w Y s sc loc h st : csimple T c -> incl (cnamed c) all -> wf_expr c -> place w Y s sc loc h st -> forall (k : bool * colls -> tale cfate) (j : list value * sst -> out (sig * sst)) Q,
  (forall b loc1 h1 st1, grows loc st loc1 st1 -> place w Y s sc loc1 h1 st1 -> agrees Q (k (b, h1)) (j ([VBool b], st1))) -> (forall v st1, (forall b, v <> VBool b) -> j ([v], st1) = OErr) ->
  agrees Q (and_then (ctest calls w s h c) k) (obind (ev MVal c [] sc st) j).
Proof.
  intros Si In Wf P k j Q K N. unfold ctest. pose proof (proj1 eval_csays c MVal w Y s sc loc h st Si In Wf (or_introl eq_refl) P) as H.
  destruct (csays calls w s h c) as [[v h1]| | | | |]; cbn [agrees and_then] in H |- *; try exact I; [|rewrite H; reflexivity..].
  destruct H as ([xs st1] & -> & loc1 & Qx & B & D & G). cbn [fst snd] in *. subst xs. cbn [obind].
  destruct v as [|b| | | | | |]; cbn [and_then agrees at_]; try (apply N; discriminate). exact (K b loc1 h1 st1 G (place_grows _ _ _ _ _ _ _ _ _ _ G D P)).
Qed.

Ltac notbool := let v := fresh "v" in let N := fresh "N" in let y := fresh "y" in intros v ? N; destruct v as [|y| | | | | |]; try reflexivity; exfalso; exact (N y eq_refl).

Lemma stmt_agrees :
  (forall t lp w Y s sc loc h st, ccore T lp t -> fine_in Y t -> incl Y all -> place w Y s sc loc h st -> agrees (fated lp w Y sc loc st) (cdoes again calls w s h t) (run_stmt E A1 A2 t sc st)) /\
  (forall ss lp w Y s sc loc h st, ccores T lp ss -> fines_in Y ss -> incl Y all -> place w Y s sc loc h st -> agrees (fated lp w Y sc loc st) (cdoes_all again calls w s h ss) (run_stmts E A1 A2 ss sc st)).
Proof.
  apply FunProofs.stmt_mut3.
  - intros e lp w Y s sc loc h st C [I W] IY P.
    assert (Ex : csimple T e -> agrees (fated lp w Y sc loc st) (and_then (csays calls w s h e) (fun p => Tale (CFell s (snd p)))) (run_stmt E A1 A2 (SExpr e) sc st)).
    { intros Si. cbn [run_stmt]. eapply agrees_bind; [exact (proj1 eval_csays e MVal w Y s sc loc h st Si (incl_tran I IY) W (or_introl eq_refl) P)|].
      intros [v h1] [xs st1] (loc1 & Q & B & D & G). cbn [fst snd] in *. apply agrees_tale. exists loc1. split; [exact (grows_keeps _ _ _ _ _ G)|]. split; [reflexivity|exact (place_grows _ _ _ _ _ _ _ _ _ _ G D P)]. }
    destruct e; try (exact (Ex C)). clear Ex. cbn [wf_stmt wf_expr cmentions cnamed] in *. destruct W as [W1 W2]. destruct e1; try contradiction C.
    + destruct C as [Tx Si]. apply incl_app_inv in I. destruct I as [I1 I2]. cbn [cdoes run_stmt].
      replace (ev MVal (EAss (EIdent s0) e2) [] sc st) with (obind (ev MVal e2 [] sc st) (fun p => ev MTgt (EIdent s0) (fst p) sc (snd p))).
      2:{ cbn [eval tuple_len]. change (1 =? 1) with true. cbn iota. destruct (ev MVal e2 [] sc st) as [[xs st1]| | | |]; reflexivity. }
      pose proof (proj1 eval_csays e2 MVal w Y s sc loc h st Si (incl_tran I2 IY) W2 (or_introl eq_refl) P) as H.
      destruct (csays calls w s h e2) as [[v h1]| | | | |]; cbn [agrees and_then] in H |- *; try exact I; [|rewrite H; reflexivity..]. destruct H as ([xs st1] & -> & loc1 & Q & B & D & G). cbn [fst snd] in *. subst xs. cbn [obind fst snd].
      destruct (assign_all w Y sc loc1 h1 (EIdent s0) [v] s st1 Tx (fun x Hx => I1 x Hx) eq_refl ltac:(auto) (place_grows _ _ _ _ _ _ _ _ _ _ G D P)) as (r & st' & Q & P' & K).
      cbn [map] in Q. rewrite Q. cbn [obind]. eexists. split; [reflexivity|]. cbn [targets put_all hd] in P'. exists loc1. split; [exact (moves_trans _ _ _ _ _ _ _ (grows_keeps _ _ _ _ _ G) K)|]. auto.
    + destruct e2; try contradiction C. destruct e2; try contradiction C. destruct C as (T1 & T2 & L8 & Tf & Sa). cbn [cnamed] in I. apply incl_app_inv in I. destruct I as [I1 I2].
      cbn [wf_expr] in W2. destruct W2 as [_ W2]. set (tg := EPair e1_1 e1_2) in *. assert (Tt : ftarget T tg) by (split; assumption).
      pose proof (tuple_pos e1_1). pose proof (tuple_pos e1_2).
      assert (L2 : tuple_len tg <> 1) by (cbn [tg tuple_len]; lia). assert (L0 : 2 <= tuple_len tg) by (cbn [tg tuple_len]; lia).
      replace (run_stmt E A1 A2 (SExpr (EAss tg (ECall (EIdent s0) args))) sc st) with
        (obind (ev (MCall (tuple_len tg)) (ECall (EIdent s0) args) [] sc st) (fun p => obind (ev MTgt tg (fst p) sc (snd p)) (fun q => OOk (SigNext, snd q)))).
      2:{ transitivity (obind (obind (ev (if tuple_len tg =? 1 then MVal else MCall (tuple_len tg)) (ECall (EIdent s0) args) [] sc st)
            (fun p => let (x, st1) := p in ev MTgt tg x sc st1)) (fun q => let (_, st1) := q in OOk (SigNext, st1))); [|reflexivity].
          destruct (Z.eqb_spec (tuple_len tg) 1); [contradiction|]. destruct (ev (MCall (tuple_len tg)) (ECall (EIdent s0) args) [] sc st) as [[xs st1]| | | |]; try reflexivity.
          cbn [obind fst snd]. destruct (ev MTgt tg xs sc st1) as [[]| | | |]; reflexivity. }
      rewrite FunProofs.eval_call. change (returns_of (MCall (tuple_len tg))) with (tuple_len tg).
      change (cdoes again calls w s h (SExpr (EAss tg (ECall (EIdent s0) args)))) with
        (and_then (cargs calls w s h args) (fun p => and_then (calls s0 (outer w s) (snd p) (fst p)) (fun q => Tale (CFell (put_all s (targets tg) (fst q)) (snd q))))).
      pose proof (proj1 (proj1 (proj2 eval_csays) args w Y s sc loc h st Sa (incl_tran I2 IY) W2 P)) as Ha.
      destruct (cargs calls w s h args) as [[vs h1]| | | | |]; cbn [agrees and_then] in Ha |- *; try exact I; [|rewrite Ha; reflexivity..]. destruct Ha as ([xs st1] & -> & loc1 & Q1 & B1 & D1 & G1). cbn [fst snd] in *. subst xs. cbn [obind fst snd].
      destruct (T s0) as [[ps body]|] eqn:Tx; [|contradiction].
      pose proof (call_agrees w Y s sc s0 ps body (tuple_len tg) loc1 h1 st1 vs (place_grows _ _ _ _ _ _ _ _ _ _ G1 D1 P) Tx (Fall s0 ltac:(congruence)) ltac:(lia) B1) as Hc.
      destruct (calls s0 (outer w s) h1 vs) as [[rs h2]| | | | |]; cbn [agrees and_then] in Hc |- *; try exact I; [|rewrite Hc; reflexivity..]. destruct Hc as ([us st2] & -> & loc2 & Q2 & B2 & D2 & G2). cbn [fst snd] in *. subst us. cbn [obind fst snd].
      destruct (assign_all w Y sc loc2 h2 tg (firstn (Z.to_nat (tuple_len tg)) (rs ++ repeat VNone (Z.to_nat (tuple_len tg)))) s st2 Tt) as (r & st' & Q & P' & K).
      * intros x Hx. apply I1. change (cnamed e1_1 ++ cnamed e1_2) with (cnamed tg). rewrite targets_named; assumption.
      * rewrite firstn_length, app_length, repeat_length. lia.
      * apply take_fine. exact B2.
      * exact (place_grows _ _ _ _ _ _ _ _ _ _ (moves_trans _ _ _ _ _ _ _ G1 G2) D2 P).
      * rewrite Q. cbn [obind snd]. eexists. split; [reflexivity|]. exists loc2. cbn [snd]. split; [exact (moves_trans _ _ _ _ _ _ _ (grows_keeps _ _ _ _ _ (moves_trans _ _ _ _ _ _ _ G1 G2)) K)|]. split; [reflexivity|].
        rewrite put_firstn, FunProofs.put_all_none in P' by (pose proof (targets_len tg Tt); lia). exact P'.
    + destruct C as (C1 & C2 & C3). destruct W1 as [Wa Wi]. cbn [cnamed] in I. apply incl_app_inv in I. destruct I as [I1 I2]. apply incl_app_inv in I1. destruct I1 as [Ia Ii].
      cbn [cdoes]. replace (run_stmt E A1 A2 (SExpr (EAss (ESel e1_1 e1_2) e2)) sc st) with
        (obind (ev MVal e2 [] sc st) (fun p => obind (ev MVal e1_1 [] sc (snd p)) (fun q => obind (ev MVal e1_2 [] sc (snd q)) (fun u =>
          match fst q, fst u with [col], [key] => match fst p with [v] => obind (insert_of E (t_mem (snd u)) col key v) (fun mm => OOk (SigNext, put_mem (snd u) mm)) | _ => OUB end | _, _ => OUB end)))).
      2:{ cbn [run_stmt eval tuple_len]. change (1 =? 1) with true. cbn iota. destruct (ev MVal e2 [] sc st) as [[xs st1]| | | |]; try reflexivity. cbn [obind fst snd].
          destruct (ev MVal e1_1 [] sc st1) as [[ys st2]| | | |]; try reflexivity. cbn [obind fst snd]. destruct (ev MVal e1_2 [] sc st2) as [[zs st3]| | | |]; try reflexivity. cbn [obind fst snd].
          destruct ys as [|col [|]]; try reflexivity. destruct zs as [|key [|]]; try reflexivity. destruct xs as [|v [|]]; try reflexivity. destruct (insert_of E (t_mem st3) col key v); reflexivity. }
      eapply agrees_bind; [exact (proj1 eval_csays e2 MVal w Y s sc loc h st C3 (incl_tran I2 IY) W2 (or_introl eq_refl) P)|]. intros [v h1] [xs st1] (loc1 & Q1 & F1 & D1 & G1). cbn [fst snd] in *. subst xs.
      pose proof (place_grows _ _ _ _ _ _ _ _ _ _ G1 D1 P) as P1.
      eapply agrees_bind; [exact (proj1 eval_csays e1_1 MVal w Y s sc loc1 h1 st1 C1 (incl_tran Ia IY) Wa (or_introl eq_refl) P1)|]. intros [col h2] [xs st2] (loc2 & Q2 & F2 & D2 & G2). cbn [fst snd] in *. subst xs.
      pose proof (place_grows _ _ _ _ _ _ _ _ _ _ G2 D2 P1) as P2.
      eapply agrees_bind; [exact (proj1 eval_csays e1_2 MVal w Y s sc loc2 h2 st2 C2 (incl_tran Ii IY) Wi (or_introl eq_refl) P2)|]. intros [key h3] [xs st3] (loc3 & Q3 & F3 & D3 & G3). cbn [fst snd] in *. subst xs.
      pose proof (place_grows _ _ _ _ _ _ _ _ _ _ G3 D3 P2) as P3. pose proof (moves_trans _ _ _ _ _ _ _ G2 G3) as G23.
      rewrite <- (at_moves _ _ _ _ _ _ _ D2 G3 F2). apply (fine_more _ _ _ (holds_more _ _ _ _ _ _ _ D2 D3 G3)) in F2.
      rewrite <- (at_moves _ _ _ _ _ _ _ D1 G23 F1). apply (fine_more _ _ _ (holds_more _ _ _ _ _ _ _ D1 D3 G23)) in F1.
      eapply agrees_bind; [exact (place_stored w Y s sc loc3 h3 st3 col key v P3 F2 (fine_key _ _ F3) F1)|]. intros h4 m4 (P4 & _ & G4). apply agrees_tale. exists loc3. cbn [fst snd].
      split; [exact (grows_keeps _ _ _ _ _ (moves_trans _ _ _ _ _ _ _ G1 (moves_trans _ _ _ _ _ _ _ G23 G4)))|]. auto.
  - intros lp w Y s sc loc h st C F IY P. apply agrees_tale. exists loc. split; [apply moves_refl, P|]. split; [exact C|]. split; [reflexivity|exact P].
  - intros c t IH lp w Y s sc loc h st [C1 C2] [I W] IY P. cbn [cmentions wf_stmt cdoes run_stmt] in *. apply incl_app_inv in I. destruct I as [I1 I2], W as [W1 W2].
    apply (test_agrees c w Y s sc loc h st C1 (incl_tran I1 IY) W1 P); [|notbool]. intros b loc1 h1 st1 G P1. cbn [fst snd]. destruct b.
    + eapply agrees_mono; [|exact (IH lp w Y s sc loc1 h1 st1 C2 (conj I2 W2) IY P1)]. intros a q. apply fated_keeps, grows_keeps, G.
    + apply agrees_tale. exists loc1. split; [exact (grows_keeps _ _ _ _ _ G)|]. split; [reflexivity|exact P1].
  - intros c t IHt f IHf lp w Y s sc loc h st (C1 & C2 & C3) [I W] IY P. cbn [cmentions wf_stmt cdoes run_stmt] in *. apply incl_app_inv in I. destruct I as [I1 I2]. apply incl_app_inv in I2. destruct I2 as [I2 I3], W as (W1 & W2 & W3).
    apply (test_agrees c w Y s sc loc h st C1 (incl_tran I1 IY) W1 P); [|notbool]. intros b loc1 h1 st1 G P1. cbn [fst snd]. destruct b.
    + eapply agrees_mono; [|exact (IHt lp w Y s sc loc1 h1 st1 C2 (conj I2 W2) IY P1)]. intros a q. apply fated_keeps, grows_keeps, G.
    + eapply agrees_mono; [|exact (IHf lp w Y s sc loc1 h1 st1 C3 (conj I3 W3) IY P1)]. intros a q. apply fated_keeps, grows_keeps, G.
  - intros c b IH lp w Y s sc loc h st C F IY P. pose proof C as [C1 C2]. pose proof F as [I W]. cbn [cmentions wf_stmt cdoes run_stmt] in *. apply incl_app_inv in I. destruct I as [I1 I2], W as [W1 W2].
    apply (test_agrees c w Y s sc loc h st C1 (incl_tran I1 IY) W1 P); [|notbool]. intros y loc1 h1 st1 G P1. cbn [fst snd]. destruct y.
    + eapply agrees_bind; [exact (IH true w Y s sc loc1 h1 st1 C2 (conj I2 W2) IY P1)|]. intros r [g st2] (loc2 & K & H). cbn [fst snd] in *.
      pose proof (moves_trans _ _ _ _ _ _ _ (grows_keeps (where_ sc) _ _ _ _ G) K) as K2. destruct r as [s1 h2|s1 h2|vs h2]; [destruct H as [-> H]|destruct H as (Lp & -> & H)|destruct H as [-> H]].
      * eapply agrees_mono; [|exact (Hagain (SWhile c b) lp w Y s1 sc loc2 h2 st2 C F IY H)]. intros a q. apply fated_keeps, K2.
      * apply agrees_tale. exists loc2. split; [exact K2|]. auto.
      * apply agrees_tale. exists loc2. split; [exact K2|]. auto.
    + apply agrees_tale. exists loc1. split; [exact (grows_keeps _ _ _ _ _ G)|]. split; [reflexivity|exact P1].
  - intros b IH c lp w Y s sc loc h st C F IY P. pose proof C as [C1 C2]. pose proof F as [I W]. cbn [cmentions wf_stmt cdoes run_stmt] in *. apply incl_app_inv in I. destruct I as [I1 I2], W as [W1 W2].
    eapply agrees_bind; [exact (IH true w Y s sc loc h st C2 (conj I2 W1) IY P)|]. intros r [g st1] (loc1 & K & H). cbn [fst snd] in *.
    destruct r as [s1 h1|s1 h1|vs h1]; [destruct H as [-> H]|destruct H as (Lp & -> & H)|destruct H as [-> H]].
    + apply (test_agrees c w Y s1 sc loc1 h1 st1 C1 (incl_tran I1 IY) W2 H); [|notbool]. intros y loc2 h2 st2 G P2. cbn [fst snd].
      pose proof (moves_trans _ _ _ _ _ _ _ K (grows_keeps (where_ sc) _ _ _ _ G)) as K2. destruct y.
      * eapply agrees_mono; [|exact (Hagain (SDo b c) lp w Y s1 sc loc2 h2 st2 C F IY P2)]. intros a q. apply fated_keeps, K2.
      * apply agrees_tale. exists loc2. split; [exact K2|]. split; [reflexivity|exact P2].
    + apply agrees_tale. exists loc1. split; [exact K|]. auto.
    + apply agrees_tale. exists loc1. split; [exact K|]. auto.
  - intros ss IH lp w Y s sc loc h st C F IY P. exact (IH lp w Y s sc loc h st C F IY P).
  - intros e lp w Y s sc loc h st C [I W] IY P. cbn [cdoes run_stmt]. eapply agrees_bind; [exact (eval_ctells e w Y s sc loc h st C (incl_tran I IY) W P)|].
    intros [vs h1] [us st1] (loc1 & Q & B & D & G). cbn [fst snd] in *. subst us. apply agrees_tale. exists loc1. split; [exact (grows_keeps _ _ _ _ _ G)|]. auto.
  - intros ? ? ? ? lp w Y s sc loc h st C. contradiction C.
  - intros lp w Y s sc loc h st C F IY P. apply agrees_tale. exists loc. split; [apply moves_refl, P|]. split; [reflexivity|exact P].
  - intros t IH ss IHs lp w Y s sc loc h st [C1 C2] [I W] IY P. cbn [cmentions_all wf_stmts cdoes_all] in *. apply incl_app_inv in I. destruct I as [I1 I2], W as [W1 W2]. rewrite FunProofs.run_cons2.
    eapply agrees_bind; [exact (IH lp w Y s sc loc h st C1 (conj I1 W1) IY P)|]. intros r [g st1] (loc1 & K & H). cbn [fst snd] in *. destruct r as [s1 h1|s1 h1|vs h1]; [destruct H as [-> H]|destruct H as (Lp & -> & H)|destruct H as [-> H]].
    + eapply agrees_mono; [|exact (IHs lp w Y s1 sc loc1 h1 st1 C2 (conj I2 W2) IY H)]. intros a q. apply fated_keeps, K.
    + apply agrees_tale. exists loc1. split; [exact K|]. auto.
    + apply agrees_tale. exists loc1. split; [exact K|]. auto.
Qed.

(** * Calls *)
(** What is asked of the functions. *)
Definition good_defs : Prop := forall f ps body, T f = Some (ps, body) ->
  ccore T false body /\ wf_stmt body /\ few (once (map fst ps ++ cmentions body)) /\ incl (map fst ps ++ cmentions body) all /\ (forall x, In x (map fst ps ++ cmentions body) -> T x = None) /\
  Forall (cparam T) ps /\ incl (cdefault_names ps) all /\ incl (kind_names ps) KT /\ wf_params (plain ps).
Hypothesis Good : good_defs.

Definition cbody (f : list Z) (g : store) (h : colls) (vs : list value) : tale (list value * colls) :=
  match T f with
  | Some (ps, body) =>
    and_then (creceive calls (Some g) nothing h ps vs) (fun p =>
    and_then (cdoes again calls (Some g) (fst p) (snd p) body) (fun r => match r with CGave rs h1 => Tale (rs, h1) | CFell _ h1 => Tale ([], h1) | CBroke _ _ => Errs end))
  | None => Errs
  end.

Lemma adjust_fine k p vs : Forall (fine_v k) vs -> Forall (fine_v k) (adjust p vs).
Proof.
  intros B. unfold adjust. apply Forall_app. split; [exact (proj1 (fine_parts _ _ _ B))|]. apply Forall_forall. intros v Hv. apply repeat_spec in Hv. subst. exact I.
Qed.
Lemma adjust_at loc p vs : adjust p (map (at_ loc) vs) = map (at_ loc) (adjust p vs).
Proof.
  unfold adjust. rewrite map_app, firstn_map, map_length. f_equal. generalize (Z.to_nat p - length vs)%nat. intros n. induction n as [|n IH]; [reflexivity|]. cbn. f_equal. exact IH.
Qed.
Lemma adjust_len p vs : length (adjust p vs) = Z.to_nat p.
Proof. unfold adjust. rewrite app_length, firstn_length, repeat_length. lia. Qed.

Lemma call_bodies : calls_agree cbody (run_call E A1 A2).
Proof.
  intros f ps body g vs loc h st cl Tf P K Hd Kn B Cl. unfold cbody. rewrite Tf. destruct (Good f ps body Tf) as (C & W & Fw & IY & Tn & Fp & Id & Ik & Wp).
  unfold run_call. cbn [alloc]. set (l := length (m_objs (t_mem st))). set (mm := mkmem (m_objs (t_mem st) ++ [OMap (new_map (-1))]) (m_pend (t_mem st))).
  set (sc := mksc (VRef l) (Some (VRef cl))). set (Y := once (map fst ps ++ cmentions body)) in *.
  assert (HY : forall x, In x Y <-> In x (map fst ps ++ cmentions body)) by (intros x; apply FunProofs.in_once).
  assert (Tn' : forall x, In x Y -> T x = None) by (intros x Hx; apply Tn, HY, Hx). assert (IY' : incl Y all) by (intros x Hx; apply IY, HY, Hx).
  assert (Gr : forall k o, nth_error (m_objs (t_mem st)) k = Some o -> nth_error (m_objs mm) k = Some o).
  { intros k o Hk. cbn [mm m_objs]. rewrite nth_error_app1; [exact Hk|]. apply nth_error_Some. congruence. }
  assert (Nl : ~ In l loc).
  { intros Hi. destruct (holds_in _ loc h _ l Hd Hi) as (o' & Q & _). assert (nth_error (m_objs (t_mem st)) l = None) by (apply nth_error_None; unfold l; lia). congruence. }
  assert (Hd0 : holds loc h mm).
  { eapply holds_ext; [exact Hd|]. intros k Hk. destruct (holds_in _ loc h _ k Hd Hk) as (o' & Q & _). rewrite Q. apply Gr. exact Q. }
  assert (G0 : grows loc st loc (put_mem st mm)).
  { split; [exact P|]. split; [reflexivity|]. split; [cbn; rewrite app_length; lia|]. split; [exists []; split; [symmetry; apply app_nil_r|constructor]|]. intros k o _ _. apply Gr. }
  assert (Pl : place (Some g) Y nothing sc loc h (put_mem st mm)).
  { split; [exact P|]. split; [intros k o Hk; apply Gr, K, Hk|]. split; [exact Hd0|].
    split; [apply (knows_moves _ _ _ _ _ _ _ _ Hd G0); [tauto|intros ? ? []|exact Kn]|]. split; [discriminate|]. split; [exact Fw|]. split; [exact Tn'|].
    exists l, cl, []. split; [reflexivity|]. split.
    { destruct Kn as (_ & hh & (mo & Q & _) & _). unfold l. apply nth_error_Some. congruence. }
    split; [exact Nl|]. split; [apply Gr, Cl|]. split; [|split; [constructor|reflexivity]]. apply vars_new. cbn [put_mem t_mem mm m_objs]. unfold l. rewrite nth_error_app2, Nat.sub_diag by lia. reflexivity. }
  assert (Bd : agrees (bound (Some g) Y sc loc (put_mem st mm)) (creceive calls (Some g) nothing h ps vs)
    (bind_params E A2 (plain ps) (adjust (params_len (plain ps)) (map (at_ loc) vs)) sc (put_mem st mm))).
  { assert (Ra : creceive calls (Some g) nothing h ps (adjust (params_len (plain ps)) vs) = creceive calls (Some g) nothing h ps vs).
    { unfold adjust. rewrite receive_none, receive_firstn by (rewrite params_plain; lia). reflexivity. }
    rewrite <- Ra, adjust_at. apply bind_all; auto.
    - rewrite adjust_len, params_plain. apply Nat2Z.id.
    - apply adjust_fine, B.
    - intros x Hx. apply HY, in_or_app. left. exact Hx.
    - intros x Hx. apply Tn, in_or_app. left. exact Hx. }
  eapply agrees_bind; [exact Bd|]. clear Bd. intros [s0 h1] st1 (loc1 & P1 & K1). cbn [fst snd] in *.
  eapply agrees_bind; [exact (proj1 stmt_agrees body false (Some g) Y _ sc loc1 h1 st1 C (conj (fun x Hx => proj2 (HY x) (in_or_app _ _ _ (or_intror Hx))) W) IY' P1)|].
  intros r [sg st2] (loc2 & K2 & H). cbn [fst snd] in *.
  assert (G2 : grows loc st loc2 st2).
  { pose proof (moves_trans _ _ _ _ _ _ _ K1 K2) as (Pe & Co & Le & (gg & Ql & Fg) & Kp). split; [exact Pe|]. split; [exact Co|]. cbn [put_mem t_mem mm m_objs] in Le, Fg. rewrite app_length in Le, Fg. cbn [length] in Le, Fg.
    split; [lia|]. split; [exists gg; split; [exact Ql|]; eapply Forall_impl; [|exact Fg]; cbn beta; intros; lia|].
    intros k o Nk _ Hk. apply Kp; [exact Nk| |exact (Gr k o Hk)]. cbn [where_ sc_locals sc]. assert (k < l)%nat by (unfold l; apply nth_error_Some; congruence). lia. }
  unfold body_results. rewrite (proj1 G2). destruct r as [s1 h2|s1 h2|rs h2]; [destruct H as [-> H]|destruct H as [Lp _]; discriminate|destruct H as (-> & H & H')]; apply agrees_tale; exists loc2; cbn [fst snd].
  - split; [reflexivity|]. split; [constructor|]. split; [exact (place_holds _ _ _ _ _ _ _ H)|exact G2].
  - auto.
Qed.
End Level.

(** * Levels *)
Hypothesis Fall : forall f, T f <> None -> In f all.
Hypothesis Good : good_defs.

Lemma levels_d : forall n d, stmts_agree (cstmt T n d) (run_stmt_d E n d) /\ calls_agree (ccall T n d) (run_call_d E n d).
Proof.
  induction n as [|n IH]; intros d.
  - split; [intros t lp w Y s sc loc h st C F IY P; reflexivity|intros f ps body g vs loc h st cl Tf P K Hd Kn B Cl; destruct d as [[|d]|]; reflexivity].
  - split.
    + destruct (IH d) as [IHs IHc]. intros t lp w Y s sc loc h st C F IY P. exact (proj1 (stmt_agrees _ _ _ _ IHc Fall IHs) t lp w Y s sc loc h st C F IY P).
    + destruct (IH (option_map pred d)) as [IHs IHc]. intros f ps body g vs loc h st cl Tf P K Hd Kn B Cl.
      pose proof (call_bodies _ _ _ _ IHc Fall IHs Good f ps body g vs loc h st cl Tf P K Hd Kn B Cl) as H. unfold cbody in H. cbn [ccall run_call_d].
      destruct d as [[|d]|]; [reflexivity|exact H|exact H].
Qed.

Lemma levels_plain : forall n, stmts_agree (cstmt T n None) (run_stmt_n E n) /\ calls_agree (ccall T n None) (run_call_n E n).
Proof.
  induction n as [|n [IHs IHc]].
  - split; [intros t lp w Y s sc loc h st C F IY P; reflexivity|intros f ps body g vs loc h st cl Tf P K Hd Kn B Cl; reflexivity].
  - split.
    + intros t lp w Y s sc loc h st C F IY P. exact (proj1 (stmt_agrees _ _ _ _ IHc Fall IHs) t lp w Y s sc loc h st C F IY P).
    + intros f ps body g vs loc h st cl Tf P K Hd Kn B Cl.
      pose proof (call_bodies _ _ _ _ IHc Fall IHs Good f ps body g vs loc h st cl Tf P K Hd Kn B Cl) as H. unfold cbody in H. exact H.
Qed.
End Fun.

(** * Whole programs *)
(** What is asked of a program: different names for its functions, which are only called; few names in each scope; no name of a builtin. *)
Definition cgood (ds : list definition) (ss : stmts) : Prop :=
  NoDup (map fst ds) /\ ccores (defined ds) false ss /\
  few (once (map fst ds ++ cmentions_all ss)) /\ (forall x, In x (cmentions_all ss) -> defined ds x = None) /\
  Forall (fun d => ccore (defined ds) false (snd (snd d)) /\ few (once (map fst (fst (snd d)) ++ cmentions (snd (snd d)))) /\
    (forall x, In x (map fst (fst (snd d)) ++ cmentions (snd (snd d))) -> defined ds x = None) /\
    Forall (cparam (defined ds)) (fst (snd d)) /\ Forall ident (cdefault_names (fst (snd d)))) ds.
(** All the names, but those of types. *)
Definition cnames (ds : list definition) (ss : stmts) : list (list Z) :=
  map fst ds ++ cmentions_all ss ++ flat_map (fun d => (map fst (fst (snd d)) ++ cmentions (snd (snd d))) ++ cdefault_names (fst (snd d))) ds.
Definition ckinds (ds : list definition) : list (list Z) := flat_map (fun d => kind_names (fst (snd d))) ds.

Definition cended (E : env) (m : mem) (X : list (list Z)) (r : cfate) (p : list value * sst) : Prop :=
  exists loc, match r with
  | CFell s h => fst p = [VRef (length (m_objs m))] /\ holds (length (m_objs m)) loc h (t_mem (snd p)) /\ m_pend (t_mem (snd p)) = false /\
      forall x, In x X -> select_of E (t_mem (snd p)) (VRef (length (m_objs m))) (VStr x) = OOk (option_map (at_ loc) (s x), t_mem (snd p))
  | CGave vs h => fst p = map (at_ loc) vs /\ holds (length (m_objs m)) loc h (t_mem (snd p)) /\ m_pend (t_mem (snd p)) = false
  | CBroke _ _ => False
  end.

Section Whole.
Variables (E : env) (m : mem) (ds : list definition) (ss : stmts).
Hypothesis G : cgood ds ss.
Hypothesis W : wf_stmts (program ds ss).
Hypothesis Pe : m_pend m = false.
Hypothesis Un : unknown E m (cnames ds ss).
Hypothesis Ty : FunProofs.knows_types E m (ckinds ds).
Let X := once (map fst ds ++ cmentions_all ss).

Lemma cgood_all : Forall ident (cnames ds ss).
Proof.
  destruct G as (N & C & [F _] & _ & D). unfold cnames. rewrite app_assoc. apply Forall_app. split; [apply Forall_forall; intros x Hx; rewrite Forall_forall in F; apply F, FunProofs.in_once, Hx|]. apply Forall_forall. intros x Hx.
  apply in_flat_map in Hx. destruct Hx as (d & Hd & Hx). rewrite Forall_forall in D. destruct (D d Hd) as (_ & [F2 _] & _ & _ & F3). rewrite Forall_forall in F2, F3.
  apply in_app_or in Hx. destruct Hx as [Hx|Hx]; [apply F2, FunProofs.in_once, Hx|apply F3, Hx].
Qed.

Lemma cgood_incl : incl X (cnames ds ss).
Proof. intros x Hx. unfold cnames. rewrite app_assoc. apply in_or_app. left. exact (proj1 (FunProofs.in_once x _) Hx). Qed.

Lemma cgood_defs : good_defs (cnames ds ss) (ckinds ds) (defined ds).
Proof.
  intros f ps body Tf. destruct G as (N & C & F & _ & D). apply FunProofs.defined_in in Tf. destruct (FunProofs.wf_program ds ss W) as [_ W2]. rewrite Forall_forall in D, W2.
  destruct (D _ Tf) as (D1 & D2 & D3 & D4 & D5). cbn [fst snd] in *. split; [exact D1|]. split; [exact (proj1 (W2 _ Tf))|]. split; [exact D2|].
  assert (I0 : incl ((map fst ps ++ cmentions body) ++ cdefault_names ps) (cnames ds ss)).
  { intros x Hx. unfold cnames. apply in_or_app. right. apply in_or_app. right. apply in_flat_map. exists (f, (ps, body)). auto. }
  apply incl_app_inv in I0. destruct I0 as [I1 I2]. split; [exact I1|]. split; [exact D3|]. split; [exact D4|]. split; [exact I2|]. split; [|exact (proj2 (W2 _ Tf))].
  intros x Hx. unfold ckinds. apply in_flat_map. exists (f, (ps, body)). auto.
Qed.

Lemma cgood_funs f : defined ds f <> None -> In f (cnames ds ss).
Proof.
  intros H. destruct (defined ds f) as [q|] eqn:Q; [|contradiction]. apply FunProofs.defined_in in Q. unfold cnames. apply in_or_app. left. apply in_map_iff. exists (f, q). auto.
Qed.

Lemma cprogram A1 A2 again calls : calls_agree m X (defined ds) calls A2 -> stmts_agree m X (cnames ds ss) (defined ds) again A1 ->
  agrees (cended E m (cmentions_all ss)) (cdoes_all again calls None nothing [] ss)
    (do (g, st) <- run_stmts E A1 A2 (program ds ss) (mksc (VRef (length (m_objs m))) None) (mkst (snd (alloc m (OMap (new_map (-1))))) []);
     body_results g [VRef (length (m_objs m))] st).
Proof.
  intros Hc Ha. pose proof G as (N & C & F & Tn & D).
  destruct (FunProofs.define_all E m X F A1 A2 ss ds (fun _ => None) _ (FunProofs.ready_start m X Pe)) as (st & Q & R).
  { intros x Hx. apply FunProofs.in_once, in_or_app. left. exact Hx. }
  rewrite Q. assert (R' : FunProofs.ready m X (defined ds) st).
  { eapply FunProofs.ready_ext; [|exact R]. intros x. rewrite (FunProofs.later_defined ds N). destruct (defined ds x); reflexivity. }
  destruct R' as (P & K & (_ & hh & V & HX & A)).
  pose proof (proj2 (stmt_agrees E m X (cnames ds ss) F cgood_all Un (ckinds ds) (defined ds) A1 A2 again calls Hc cgood_funs Ha) ss false None X nothing (mksc (VRef (length (m_objs m))) None) [] [] st C) as H.
  rewrite (then_tale (cdoes_all again calls None nothing [] ss)). eapply agrees_bind; [apply H|].
  - split; [intros x Hx; apply FunProofs.in_once, in_or_app; right; exact Hx|]. exact (proj1 (FunProofs.wf_program ds ss W)).
  - intros x Hx. unfold cnames. rewrite app_assoc. apply in_or_app. left. exact (proj1 (FunProofs.in_once x _) Hx).
  - split; [exact P|]. split; [exact K|]. split; [|split; [reflexivity|split; [reflexivity|]]].
    + split; [reflexivity|]. split; [constructor|]. split; [constructor|]. intros k c Hk. destruct k; discriminate.
    + split; [discriminate|]. exists hh. split; [exact V|]. split; [exact HX|]. intros x. specialize (A x). destruct (defined ds x) as [[ps body]|]; exact A.
  - intros r [sg st2] (loc & Kp & Hr). cbn [fst snd] in *. unfold body_results. rewrite (proj1 Kp).
    destruct r as [s1 h1|s1 h1|vs h1]; [destruct Hr as [-> Hr]|destruct Hr as [Lp _]; discriminate|destruct Hr as (-> & _ & Hr)]; apply agrees_tale; exists loc; cbn [fst snd].
    + split; [reflexivity|]. split; [exact (place_holds _ _ _ _ _ _ _ _ _ _ Hr)|]. split; [exact (proj1 Kp)|]. intros x Hx. destruct Hr as (_ & _ & _ & _ & _ & _ & h & V2 & HX2 & A2'). specialize (A2' x). rewrite (Tn x Hx) in A2'. rewrite <- A2'. unfold select_of.
      apply (select_vars E _ (t_mem st2) _ h x (proj1 Kp) V2 (few_tame X h F HX2)). pose proof cgood_all as Id. rewrite Forall_forall in Id. apply Id. unfold cnames. apply in_or_app. right. apply in_or_app. left. exact Hx.
    + split; [reflexivity|]. split; [exact Hr|exact (proj1 Kp)].
Qed.

Lemma cprogram_d n d : agrees (cended E m (cmentions_all ss)) (ctold ds ss n d) (run_program_d E n d (SComp (program ds ss)) m).
Proof.
  destruct n as [|n]; [reflexivity|].
  destruct (levels_d E m X (cnames ds ss) (proj1 (proj2 (proj2 G))) cgood_all Un Pe cgood_incl (ckinds ds) Ty (defined ds) cgood_funs cgood_defs n d) as [Hs Hc].
  exact (cprogram _ _ _ _ Hc Hs).
Qed.

Lemma cprogram_plain n : agrees (cended E m (cmentions_all ss)) (ctold ds ss n None) (run_program E n (SComp (program ds ss)) m).
Proof.
  destruct n as [|n]; [reflexivity|].
  destruct (levels_plain E m X (cnames ds ss) (proj1 (proj2 (proj2 G))) cgood_all Un Pe cgood_incl (ckinds ds) Ty (defined ds) cgood_funs cgood_defs n) as [Hs Hc].
  exact (cprogram _ _ _ _ Hc Hs).
Qed.
End Whole.
