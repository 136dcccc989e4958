(** Functions: the description of FunSpec.v and the evaluation of the syntax tree. *)
From Coq Require Import ZArith List Bool Lia.
From Verif Require Import Base FloatModel StringModel ValueModel ExeModel ArithModel AstModel CodegenModel CompSpec MapModel MapSpec MapProofs MapProofs2 ObjModel VmModel SrcModel
  ScopeSpec ScopeProofs CalcSpec CalcProofs WhileSpec WhileProofs SimProofs FunSpec.
Import ListNotations.
Open Scope Z_scope.

(** Each name once. *)
Lemma in_once x xs : In x (once xs) <-> In x xs.
Proof. apply nodup_In. Qed.

(** * Outcomes *)
Definition agrees {A B} (P : A -> B -> Prop) (t : told A) (o : out B) : Prop :=
  match t with
  | Told a => exists b, o = OOk b /\ P a b
  | Wrong => o = OErr
  | Overflows => o = OUB
  | Deep => o = OLoop
  | Unfinished => o = OFuel
  end.

Lemma agrees_bind {A B C D} (P : A -> B -> Prop) (Q : C -> D -> Prop) t o f g :
  agrees P t o -> (forall a b, P a b -> agrees Q (f a) (g b)) -> agrees Q (tbind t f) (obind o g).
Proof. destruct t; cbn [agrees tbind]; intros H K; [|rewrite H; reflexivity..]. destruct H as (b & -> & H). cbn [obind]. exact (K _ _ H). Qed.

Lemma tbind_told {A} (t : told A) : t = tbind t Told.
Proof. destruct t; reflexivity. Qed.

Lemma agrees_told {A B} (P : A -> B -> Prop) a b : P a b -> agrees P (Told a) (OOk b).
Proof. intros H. exists b. auto. Qed.

Lemma agrees_mono {A B} (P Q : A -> B -> Prop) t o : (forall a b, P a b -> Q a b) -> agrees P t o -> agrees Q t o.
Proof. intros K. destruct t; cbn [agrees]; auto. intros (b & E & H). eauto. Qed.

(** * States *)
(** Evaluation leaves the objects there are. *)
Definition grows (st st' : sst) : Prop :=
  m_pend (t_mem st') = false /\ t_codes st' = t_codes st /\
  forall k o, nth_error (m_objs (t_mem st)) k = Some o -> nth_error (m_objs (t_mem st')) k = Some o.
(** A statement changes one of them. *)
Definition keeps (l : nat) (st st' : sst) : Prop :=
  m_pend (t_mem st') = false /\ t_codes st' = t_codes st /\
  forall k o, k <> l -> nth_error (m_objs (t_mem st)) k = Some o -> nth_error (m_objs (t_mem st')) k = Some o.

Lemma grows_refl st : m_pend (t_mem st) = false -> grows st st.
Proof. unfold grows. auto. Qed.
Lemma grows_trans a b c : grows a b -> grows b c -> grows a c.
Proof. intros (_ & C1 & K1) (P & C2 & K2). split; [exact P|]. split; [congruence|auto]. Qed.
Lemma grows_keeps l st st' : grows st st' -> keeps l st st'.
Proof. intros (P & C & K). split; [exact P|]. split; [exact C|auto]. Qed.
Lemma keeps_trans l a b c : keeps l a b -> keeps l b c -> keeps l a c.
Proof. intros (_ & C1 & K1) (P & C2 & K2). split; [exact P|]. split; [congruence|auto]. Qed.

Lemma vars_kept m m' l h : (forall k o, nth_error (m_objs m) k = Some o -> nth_error (m_objs m') k = Some o) -> vars m l h -> vars m' l h.
Proof. intros K (mo & V & I). exists mo. auto. Qed.

Lemma assigned_snoc h x v y : assigned (h ++ [(x, v)]) y = if list_eq_dec Z.eq_dec y x then Some v else assigned h y.
Proof. unfold assigned, last_stored. rewrite fold_left_app. cbn [fold_left fst snd]. unfold name_eqb. destruct (list_eq_dec Z.eq_dec y x); reflexivity. Qed.

(** The built-in names of types, in any later state of the heap. *)
Definition kind_value (k : kind) : value := match k with Anything => VAny | Of t => VType t end.
Definition knows_types (E : env) (m : mem) (KT : list (list Z)) : Prop :=
  forall m' x k, In x KT -> kind_of x = Some k -> m_pend m' = false -> (forall i o, nth_error (m_objs m) i = Some o -> nth_error (m_objs m') i = Some o) ->
  get_in E m' [e_builtins E] (VStr x) = OOk (Some (kind_value k), m').

Section Fun.
Variables (E : env) (m0 : mem).
(** The names of the program, and all the names. *)
Variables (X : list (list Z)) (all : list (list Z)).
Hypothesis Few : few X.
Hypothesis All : Forall ident all.
Hypothesis Un : unknown E m0 all.
Hypothesis Pe0 : m_pend m0 = false.
Hypothesis XA : incl X all.
(** The names of types. *)
Variable KT : list (list Z).
Hypothesis Ty : knows_types E m0 KT.
Let lg := length (m_objs m0).

(** [cl] is what a function of the program remembers. *)
Definition closure_of (m : mem) (cl : nat) : Prop := nth_error (m_objs m) cl = Some (OClosure None (VRef lg)).

(** The variables of the program: those of the store, and the functions defined so far. *)
Definition knows (T : list Z -> option (list param * stmt)) (g : store) (st : sst) : Prop :=
  (forall x v, g x = Some v -> basic v) /\
  exists h, vars (t_mem st) lg h /\ Forall (fun nv => In (fst nv) X) h /\
  forall x, match T x with
  | Some (ps, body) => exists k c cl, assigned h x = Some (VRef k) /\ nth_error (m_objs (t_mem st)) k = Some (OFun c (VRef cl)) /\
      closure_of (t_mem st) cl /\ nth_error (t_codes st) c = Some (plain ps, body)
  | None => assigned h x = g x
  end.

Variable T : list Z -> option (list param * stmt).

(** The scope a statement runs in. [Y]: the names of the function. *)
Definition place (w : option store) (Y : list (list Z)) (s : store) (sc : scope) (st : sst) : Prop :=
  m_pend (t_mem st) = false /\ (forall k o, nth_error (m_objs m0) k = Some o -> nth_error (m_objs (t_mem st)) k = Some o) /\
  match w with
  | None => sc = mksc (VRef lg) None /\ Y = X /\ knows T s st
  | Some g => knows T g st /\ (forall x v, s x = Some v -> basic v) /\ few Y /\ (forall x, In x Y -> T x = None) /\
    exists l cl h, sc = mksc (VRef l) (Some (VRef cl)) /\ (lg < l)%nat /\ closure_of (t_mem st) cl /\
      vars (t_mem st) l h /\ Forall (fun nv => In (fst nv) Y) h /\ forall x, assigned h x = s x
  end.

Lemma knows_grows T' g st st' : grows st st' -> knows T' g st -> knows T' g st'.
Proof.
  intros (P & C & K) (B & h & V & HX & A). split; [exact B|]. exists h. split; [exact (vars_kept _ _ _ _ K V)|]. split; [exact HX|].
  intros x. specialize (A x). destruct (T' x) as [[ps body]|]; [|exact A]. destruct A as (k & c & cl & A1 & A2 & A3 & A4).
  exists k, c, cl. unfold closure_of in *. rewrite C. auto.
Qed.

Lemma place_grows w Y s sc st st' : grows st st' -> place w Y s sc st -> place w Y s sc st'.
Proof.
  intros G (P & K & H). pose proof G as (P' & C & K'). split; [exact P'|]. split; [auto|]. destruct w as [g|].
  - destruct H as (Kn & B & Fw & Tn & l & cl & h & -> & L & Cl & V & HY & A). split; [exact (knows_grows _ _ _ _ G Kn)|]. split; [exact B|]. split; [exact Fw|]. split; [exact Tn|].
    exists l, cl, h. split; [reflexivity|]. split; [exact L|]. split; [apply K'; exact Cl|]. split; [exact (vars_kept _ _ _ _ K' V)|]. auto.
  - destruct H as (-> & -> & Kn). split; [reflexivity|]. split; [reflexivity|]. exact (knows_grows _ _ _ _ G Kn).
Qed.

Definition where_ (sc : scope) : nat := match sc_locals sc with VRef l => l | _ => O end.

Lemma knows_tame T' g st : knows T' g st -> exists h, vars (t_mem st) lg h /\ tame_scope h.
Proof. intros (B & h & V & HX & A). exists h. split; [exact V|]. exact (few_tame X h Few HX). Qed.

(** Reading a variable. *)
Lemma place_get w Y s sc st x : place w Y s sc st -> T x = None -> In x all ->
  get_var E (t_mem st) (sc_locals sc) (sc_clo sc) x = OOk (see w s x, t_mem st) /\ (forall v, see w s x = Some v -> basic v).
Proof.
  intros (P & K & H) Tx Ax. pose proof All as Id. rewrite Forall_forall in Id. specialize (Id x Ax). unfold see. destruct w as [g|].
  - destruct H as ((Bg & hg & Vg & HX & Ag) & B & Fw & Tn & l & cl & h & -> & L & Cl & V & HY & A). cbn [sc_locals sc_clo].
    assert (Ch : chain (t_mem st) (Some (VRef cl)) [cl] [hg]) by (econstructor; [exact Cl|exact Vg|exact (few_tame X hg Few HX)|constructor]).
    rewrite (get_var_scopes E _ l h _ _ _ x P Id V (few_tame Y h Fw HY) Ch). cbn [visible]. rewrite A.
    split. 2:{ intros v. destruct (s x) eqn:Es; [intros [= <-]; exact (B _ _ Es)|apply Bg]. }
    destruct (s x); [reflexivity|]. specialize (Ag x). rewrite Tx in Ag. rewrite Ag. destruct (g x); [reflexivity|]. apply Un; auto.
  - destruct H as (-> & -> & Bg & hg & Vg & HX & Ag). cbn [sc_locals sc_clo].
    rewrite (get_var_scopes E _ lg hg None [] [] x P Id Vg (few_tame X hg Few HX) (chain_none _)). cbn [visible].
    specialize (Ag x). rewrite Tx in Ag. rewrite Ag.
    split. 2:{ intros v. destruct (s x) eqn:Es; [intros [= <-]; exact (Bg _ _ Es)|discriminate]. }
    destruct (s x); [reflexivity|]. apply Un; auto.
Qed.

(** Reading the name of a type. *)
Lemma kind_ident x k : kind_of x = Some k -> ident x.
Proof.
  unfold kind_of. destruct (find _ kinds) as [q|] eqn:F; [|discriminate]. intros _. apply find_some in F. destruct F as [I Q].
  destruct (list_eq_dec Z.eq_dec (letters (fst q)) x) as [<-|]; [|discriminate]. clear Q.
  assert (A : forallb (fun q => forallb (fun c => (1 <=? c) && (c <? 128)) (letters (fst q)) && (Z.of_nat (length (letters (fst q))) <? 100)) kinds = true) by reflexivity.
  rewrite forallb_forall in A. specialize (A q I). apply andb_true_iff in A. destruct A as [A B]. apply Z.ltb_lt in B. split; [|lia].
  apply Forall_forall. intros c Hc. rewrite forallb_forall in A. specialize (A c Hc). apply andb_true_iff in A. rewrite Z.leb_le, Z.ltb_lt in A. exact A.
Qed.

Lemma kind_apart x k : In x KT -> kind_of x = Some k -> ~ In x all.
Proof. intros Hx Hk Ha. pose proof (Un m0 x Ha Pe0 (fun _ _ H => H)) as A. rewrite (Ty m0 x k Hx Hk Pe0 (fun _ _ H => H)) in A. discriminate. Qed.

Lemma assigned_outside (Y : list (list Z)) x : ~ In x Y -> forall h, Forall (fun nv => In (fst nv) Y) h -> assigned h x = None.
Proof.
  intros N h. induction h as [|[y v] h IH] using rev_ind; [reflexivity|]. intros F. apply Forall_app in F. destruct F as [F1 F2]. rewrite assigned_snoc.
  destruct (list_eq_dec Z.eq_dec x y) as [->|]; [|exact (IH F1)]. inversion F2; subst. cbn in *. contradiction.
Qed.

Lemma place_kind w Y s sc st x k : place w Y s sc st -> incl Y all -> incl X all -> In x KT -> kind_of x = Some k ->
  get_var E (t_mem st) (sc_locals sc) (sc_clo sc) x = OOk (Some (kind_value k), t_mem st).
Proof.
  intros (P & Kp & H) IY IX Hx Hk. pose proof (kind_ident x k Hk) as Id. pose proof (kind_apart x k Hx Hk) as N. destruct w as [g|].
  - destruct H as ((Bg & hg & Vg & HX & Ag) & B & Fw & Tn & l & cl & h & -> & L & Cl & V & HY & A). cbn [sc_locals sc_clo].
    assert (Ch : chain (t_mem st) (Some (VRef cl)) [cl] [hg]) by (econstructor; [exact Cl|exact Vg|exact (few_tame X hg Few HX)|constructor]).
    rewrite (get_var_scopes E _ l h _ _ _ x P Id V (few_tame Y h Fw HY) Ch). cbn [visible].
    rewrite (assigned_outside Y x (fun i => N (IY x i)) h HY), (assigned_outside X x (fun i => N (IX x i)) hg HX). apply Ty; auto.
  - destruct H as (-> & -> & Bg & hg & Vg & HX & Ag). cbn [sc_locals sc_clo].
    rewrite (get_var_scopes E _ lg hg None [] [] x P Id Vg (few_tame X hg Few HX) (chain_none _)). cbn [visible].
    rewrite (assigned_outside X x (fun i => N (IX x i)) hg HX). apply Ty; auto.
Qed.

(** Reading the name of a function. *)
Lemma place_fun w Y s sc st f ps body : place w Y s sc st -> T f = Some (ps, body) -> In f all ->
  exists k c cl, get_var E (t_mem st) (sc_locals sc) (sc_clo sc) f = OOk (Some (VRef k), t_mem st) /\
    nth_error (m_objs (t_mem st)) k = Some (OFun c (VRef cl)) /\ closure_of (t_mem st) cl /\ nth_error (t_codes st) c = Some (plain ps, body).
Proof.
  intros (P & K & H) Tf Af. pose proof All as Id. rewrite Forall_forall in Id. specialize (Id f Af). destruct w as [g|].
  - destruct H as ((Bg & hg & Vg & HX & Ag) & B & Fw & Tn & l & cl & h & -> & L & Cl & V & HY & A). cbn [sc_locals sc_clo].
    assert (Ch : chain (t_mem st) (Some (VRef cl)) [cl] [hg]) by (econstructor; [exact Cl|exact Vg|exact (few_tame X hg Few HX)|constructor]).
    rewrite (get_var_scopes E _ l h _ _ _ f P Id V (few_tame Y h Fw HY) Ch). cbn [visible].
    specialize (Ag f). rewrite Tf in Ag. destruct Ag as (k & c & cl' & A1 & A2 & A3 & A4). rewrite A1.
    assert (N : assigned h f = None).
    { destruct (assigned h f) as [v|] eqn:Ef; [|reflexivity]. exfalso. assert (Q : forall h, Forall (fun nv => In (fst nv) Y) h -> assigned h f = None).
      { clear - Tf Tn. intros h. induction h as [|[y v] h IH] using rev_ind; [reflexivity|]. intros F. apply Forall_app in F. destruct F as [F1 F2]. rewrite assigned_snoc.
        destruct (list_eq_dec Z.eq_dec f y) as [->|]; [|exact (IH F1)]. inversion F2; subst. cbn in *. rewrite (Tn y) in Tf by assumption. discriminate. }
      rewrite (Q h HY) in Ef. discriminate. }
    rewrite N. exists k, c, cl'. auto.
  - destruct H as (-> & -> & Bg & hg & Vg & HX & Ag). cbn [sc_locals sc_clo].
    rewrite (get_var_scopes E _ lg hg None [] [] f P Id Vg (few_tame X hg Few HX) (chain_none _)). cbn [visible].
    specialize (Ag f). rewrite Tf in Ag. destruct Ag as (k & c & cl' & A1 & A2 & A3 & A4). rewrite A1. exists k, c, cl'. auto.
Qed.

Lemma put_basic (s : store) x v : (forall y u, s y = Some u -> basic u) -> basic v -> forall y u, put_in s x v y = Some u -> basic u.
Proof. intros B Bv y u. unfold put_in. destruct (list_eq_dec Z.eq_dec y x); [intros [= <-]; exact Bv|apply B]. Qed.

(** Assigning a variable. *)
Lemma place_set w Y s sc st x v : place w Y s sc st -> T x = None -> In x Y -> basic v ->
  exists m', set_var E (t_mem st) (sc_locals sc) x v = OOk m' /\ place w Y (put_in s x v) sc (put_mem st m') /\ keeps (where_ sc) st (put_mem st m').
Proof.
  intros (P & K & H) Tx Hx Bv. destruct w as [g|].
  - destruct H as ((Bg & hg & Vg & HX & Ag) & B & Fw & Tn & l & cl & h & -> & L & Cl & V & HY & A). cbn [sc_locals].
    assert (HY' : Forall (fun nv => In (fst nv) Y) (h ++ [(x, v)])) by (apply Forall_app; split; [exact HY|constructor; auto]).
    destruct (set_var_vars E (t_mem st) l h x v P V (few_tame _ _ Fw HY')) as (m' & S & V' & P' & Ln & O). exists m'. split; [exact S|].
    assert (Om : exists mo, nth_error (m_objs (t_mem st)) l = Some (OMap mo)) by (destruct V as (mo & Q & _); eauto). destruct Om as [mo Om].
    assert (Kp : forall k o, (forall mo, o <> OMap mo) -> nth_error (m_objs (t_mem st)) k = Some o -> nth_error (m_objs m') k = Some o).
    { intros k o No Hk. rewrite O; [exact Hk|]. intros ->. rewrite Om in Hk. injection Hk as <-. exact (No mo eq_refl). }
    split.
    + split; [exact P'|]. cbn [put_mem t_mem]. split.
      { intros k o Hk. rewrite O; [auto|]. assert (k < length (m_objs m0))%nat by (apply nth_error_Some; congruence). unfold lg in L. lia. }
      split; [|split; [exact (put_basic _ _ _ B Bv)|split; [exact Fw|split; [exact Tn|]]]].
      * split; [exact Bg|]. exists hg. split; [|split; [exact HX|]].
        { destruct Vg as (mg & Q1 & Q2). exists mg. split; [|exact Q2]. cbn [put_mem t_mem]. rewrite O; [exact Q1|]. lia. }
        intros y. specialize (Ag y). destruct (T y) as [[ps body]|]; [|exact Ag]. destruct Ag as (k & c & cl' & A1 & A2 & A3 & A4). exists k, c, cl'.
        split; [exact A1|]. cbn [put_mem t_mem t_codes]. split; [apply Kp; [discriminate|exact A2]|]. split; [apply Kp; [discriminate|exact A3]|exact A4].
      * exists l, cl, (h ++ [(x, v)]). split; [reflexivity|]. split; [exact L|]. split; [apply Kp; [discriminate|exact Cl]|]. split; [exact V'|]. split; [exact HY'|].
        intros y. rewrite assigned_snoc. unfold put_in. destruct (list_eq_dec Z.eq_dec y x); [reflexivity|apply A].
    + split; [exact P'|]. split; [reflexivity|]. intros k o Hk Ho. cbn [put_mem t_mem]. rewrite O; [exact Ho|]. exact Hk.
  - destruct H as (-> & -> & Bg & hg & Vg & HX & Ag). cbn [sc_locals].
    assert (HX' : Forall (fun nv => In (fst nv) X) (hg ++ [(x, v)])) by (apply Forall_app; split; [exact HX|constructor; auto]).
    destruct (set_var_vars E (t_mem st) lg hg x v P Vg (few_tame _ _ Few HX')) as (m' & S & V' & P' & Ln & O). exists m'. split; [exact S|].
    assert (Om : exists mo, nth_error (m_objs (t_mem st)) lg = Some (OMap mo)) by (destruct Vg as (mo & Q & _); eauto). destruct Om as [mo Om].
    assert (Kp : forall k o, (forall mo, o <> OMap mo) -> nth_error (m_objs (t_mem st)) k = Some o -> nth_error (m_objs m') k = Some o).
    { intros k o No Hk. rewrite O; [exact Hk|]. intros ->. rewrite Om in Hk. injection Hk as <-. exact (No mo eq_refl). }
    split.
    + split; [exact P'|]. cbn [put_mem t_mem]. split.
      { intros k o Hk. rewrite O; [auto|]. assert (k < length (m_objs m0))%nat by (apply nth_error_Some; congruence). unfold lg. lia. }
      split; [reflexivity|]. split; [reflexivity|]. split; [exact (put_basic _ _ _ Bg Bv)|]. exists (hg ++ [(x, v)]). split; [exact V'|]. split; [exact HX'|].
      intros y. specialize (Ag y). rewrite assigned_snoc. unfold put_in. destruct (list_eq_dec Z.eq_dec y x) as [->|N]; [rewrite Tx; reflexivity|].
      destruct (T y) as [[ps body]|]; [|exact Ag]. destruct Ag as (k & c & cl' & A1 & A2 & A3 & A4). exists k, c, cl'.
      split; [exact A1|]. cbn [put_mem t_mem t_codes]. split; [apply Kp; [discriminate|exact A2]|]. split; [apply Kp; [discriminate|exact A3]|exact A4].
    + split; [exact P'|]. split; [reflexivity|]. intros k o Hk Ho. cbn [put_mem t_mem]. rewrite O; [exact Ho|]. exact Hk.
Qed.

Lemma place_pend w Y s sc st : place w Y s sc st -> m_pend (t_mem st) = false.
Proof. intros H. apply H. Qed.

Lemma place_knows w Y s sc st : place w Y s sc st -> knows T (outer w s) st.
Proof. intros (_ & _ & H). destruct w; apply H. Qed.

Lemma place_base w Y s sc st : place w Y s sc st -> forall k o, nth_error (m_objs m0) k = Some o -> nth_error (m_objs (t_mem st)) k = Some o.
Proof. intros (_ & K & _). exact K. Qed.

(** * Expressions *)
Section Level.
Variable A1 : stmt -> scope -> sst -> out (sig * sst).
Variable A2 : params -> stmt -> list value -> value -> sst -> out (list value * sst).
Variable again : option store -> store -> stmt -> told fate.
Variable calls : list Z -> store -> list value -> told (list value).

Definition called (st : sst) (rs : list value) (p : list value * sst) : Prop := fst p = rs /\ Forall basic rs /\ grows st (snd p).
Definition calls_agree (calls : list Z -> store -> list value -> told (list value))
  (A2 : params -> stmt -> list value -> value -> sst -> out (list value * sst)) : Prop :=
  forall f ps body g vs st cl, T f = Some (ps, body) -> m_pend (t_mem st) = false ->
    (forall k o, nth_error (m_objs m0) k = Some o -> nth_error (m_objs (t_mem st)) k = Some o) ->
    knows T g st -> Forall basic vs -> closure_of (t_mem st) cl ->
    agrees (called st) (calls f g vs) (A2 (plain ps) body (adjust (params_len (plain ps)) vs) (VRef cl) st).
Hypothesis Hcall : calls_agree calls A2.

Definition valued (st : sst) (v : value) (p : list value * sst) : Prop := fst p = [v] /\ basic v /\ grows st (snd p).
Definition listed (st : sst) (vs : list value) (p : list value * sst) : Prop := fst p = vs /\ Forall basic vs /\ grows st (snd p).

Notation ev := (eval E A2).

Lemma put_self st : put_mem st (t_mem st) = st.
Proof. destruct st; reflexivity. Qed.

Lemma results_take n rs : 0 <= n <= 8 -> results n rs = OOk (firstn (Z.to_nat n) (rs ++ repeat VNone (Z.to_nat n))).
Proof.
  intros Hn. unfold results, MAX_RETS. destruct (Z.ltb_spec 8 (Z.min (Z.of_nat (length rs)) n)); [lia|]. f_equal.
  rewrite firstn_app. destruct (Z.le_gt_cases n (Z.of_nat (length rs))).
  - rewrite Z.min_r by lia. replace (Z.to_nat (n - Z.of_nat (length rs))) with O by lia. cbn [repeat]. rewrite app_nil_r.
    replace (Z.to_nat n - length rs)%nat with O by lia. cbn [firstn]. rewrite app_nil_r. reflexivity.
  - rewrite Z.min_l by lia. rewrite Nat2Z.id, firstn_all, (firstn_all2 rs) by lia. f_equal.
    replace (Z.to_nat (n - Z.of_nat (length rs))) with (Z.to_nat n - length rs)%nat by lia.
    assert (Q : forall a b, (a <= b)%nat -> firstn a (repeat VNone b) = repeat VNone a).
    { induction a as [|a IH]; intros b Hb; [reflexivity|]. destruct b; [lia|]. cbn. f_equal. apply IH. lia. }
    symmetry. apply Q. lia.
Qed.

Lemma take_basic n rs : Forall basic rs -> Forall basic (firstn n (rs ++ repeat VNone n)).
Proof.
  intros H. apply Forall_forall. intros v Hv. assert (Hi : In v (rs ++ repeat VNone n)).
  { rewrite <- (firstn_skipn n). apply in_or_app. left. exact Hv. }
  apply in_app_or in Hi. destruct Hi as [Hi|Hi]; [rewrite Forall_forall in H; auto|]. apply repeat_spec in Hi. subst. exact I.
Qed.

(** A call, when [want] results are wanted. *)
Lemma call_agrees w Y s sc f ps body want st vs : place w Y s sc st -> T f = Some (ps, body) -> In f all -> 0 <= want <= 8 -> Forall basic vs ->
  agrees (fun rs p => fst p = firstn (Z.to_nat want) (rs ++ repeat VNone (Z.to_nat want)) /\ Forall basic rs /\ grows st (snd p)) (calls f (outer w s) vs)
    (obind (ev MVal (EIdent f) [] sc st) (fun p => match fst p with [fn] => call E A2 fn vs want (snd p) | _ => OUB end)).
Proof.
  intros Pl Tf Af Hw Bv. destruct (place_fun w Y s sc st f ps body Pl Tf Af) as (k & c & cl & G & O & Cl & Co).
  cbn [eval]. rewrite G. cbn [obind]. unfold one. cbn [obind fst snd]. rewrite put_self. unfold call. rewrite O, Co.
  pose proof (Hcall f ps body (outer w s) vs st cl Tf (place_pend _ _ _ _ _ Pl) (place_base _ _ _ _ _ Pl) (place_knows _ _ _ _ _ Pl) Bv Cl) as H.
  destruct (calls f (outer w s) vs) as [rs| | | |]; cbn [agrees] in H |- *; [|rewrite H; reflexivity..].
  destruct H as ([rets st1] & -> & (Q1 & Q2 & Q3)). cbn [fst snd] in *. subst rets. cbn [obind]. rewrite (results_take want rs Hw). cbn [obind].
  eexists. split; [reflexivity|]. auto.
Qed.

Scheme expr_rec2 := Induction for expr Sort Prop with exprs_rec2 := Induction for exprs Sort Prop.
Combined Scheme expr_mut2 from expr_rec2, exprs_rec2.

Lemma tell_un op st v : op <> UNlb -> basic v -> m_pend (t_mem st) = false -> forall st0, grows st0 st ->
  agrees (valued st0) (tell (means1 op v)) (obind (unary_op (unop_code op) (t_mem st) v) (fun p => let (r, mm) := p in one r (put_mem st mm))).
Proof.
  intros N B P st0 G. pose proof (unary_means op (t_mem st) v N B) as U. destruct (means1 op v); cbn [tell agrees]; try contradiction; [|rewrite U; reflexivity..].
  destruct U as [-> Br]. cbn [obind]. eexists. split; [reflexivity|]. rewrite put_self. split; [reflexivity|]. auto.
Qed.

Lemma tell_bin op st v u : op <> BStp -> basic v -> basic u -> m_pend (t_mem st) = false -> forall st0, grows st0 st ->
  agrees (valued st0) (tell (means2 op v u)) (obind (binary_op (binop_code op) (t_mem st) v u) (fun p => let (r, mm) := p in one r (put_mem st mm))).
Proof.
  intros N B B' P st0 G. pose proof (binary_means op (t_mem st) v u N B B' P) as U. destruct (means2 op v u); cbn [tell agrees]; try contradiction; [|rewrite U; reflexivity..].
  destruct U as [-> Br]. cbn [obind]. eexists. split; [reflexivity|]. rewrite put_self. split; [reflexivity|]. auto.
Qed.


Hypothesis Fall : forall f, T f <> None -> In f all.

Lemma eval_call mo f args sc st : ev mo (ECall (EIdent f) args) [] sc st =
  obind (eval_args E A2 args sc st) (fun p => obind (ev MVal (EIdent f) [] sc (snd p)) (fun q => match fst q with [fn] => call E A2 fn (fst p) (returns_of mo) (snd q) | _ => OUB end)).
Proof.
  transitivity (obind (eval_args E A2 args sc st) (fun p => let (xs, st1) := p in obind (ev MVal (EIdent f) [] sc st1)
    (fun q => let (x, st2) := q in match x with [fn] => call E A2 fn xs (returns_of mo) st2 | _ => OUB end))); [reflexivity|].
  destruct (eval_args E A2 args sc st) as [[xs st1]| | | |]; try reflexivity. cbn [obind fst snd].
  destruct (ev MVal (EIdent f) [] sc st1) as [[x st2]| | | |]; reflexivity.
Qed.

(** The value of an expression. *)
Lemma eval_fsays :
  (forall e mo w Y s sc st, fsimple T e -> incl (fnamed e) all -> wf_expr e -> (mo = MVal \/ mo = MRets) -> place w Y s sc st ->
    agrees (valued st) (fsays calls w s e) (ev mo e [] sc st)) /\
  (forall es w Y s sc st, fsimple_all T es -> incl (fnamed_all es) all -> wf_exprs es -> place w Y s sc st ->
    agrees (listed st) (fargs calls w s es) (eval_args E A2 es sc st)).
Proof.
  apply expr_mut2; intros; cbn [fsimple] in *; try contradiction.
  - apply agrees_told. split; [reflexivity|]. split; [exact H1|apply grows_refl, (place_pend _ _ _ _ _ H3)].
  - apply agrees_told. split; [reflexivity|]. split; [exact I|apply grows_refl, (place_pend _ _ _ _ _ H3)].
  - cbn [fsays eval]. cbn [wf_expr] in H1. rewrite (vstring_chars _ H1 H). apply agrees_told. split; [reflexivity|]. split; [exact H1|apply grows_refl, (place_pend _ _ _ _ _ H3)].
  - rename s into x. destruct (place_get w Y s0 sc st x H3 H (H0 x (or_introl eq_refl))) as [G B].
    assert (Q : ev mo (EIdent x) [] sc st = obind (OOk (see w s0 x, t_mem st)) (fun p => match fst p with Some v => one v (put_mem st (snd p)) | None => OErr end)).
    { destruct H2 as [-> | ->]; cbn [eval]; rewrite G; reflexivity. }
    rewrite Q. cbn [fsays obind fst snd]. destruct (see w s0 x) as [v|]; [|reflexivity]. rewrite put_self. apply agrees_told.
    split; [reflexivity|]. split; [exact (B v eq_refl)|apply grows_refl, (place_pend _ _ _ _ _ H3)].
  - apply agrees_told. split; [reflexivity|]. split; [exact I|apply grows_refl, (place_pend _ _ _ _ _ H3)].
  - apply agrees_told. split; [reflexivity|]. split; [exact I|apply grows_refl, (place_pend _ _ _ _ _ H3)].
  - apply agrees_told. split; [reflexivity|]. split; [exact I|apply grows_refl, (place_pend _ _ _ _ _ H3)].
  - destruct H0 as [N Si]. cbn [fnamed wf_expr] in *. cbn [fsays eval]. eapply agrees_bind; [exact (H MVal w Y s sc st Si H1 H2 (or_introl eq_refl) H4)|].
    intros v [xs st1] (Q1 & B1 & G1). cbn [fst snd] in *. subst xs. apply tell_un; auto. apply G1.
  - destruct H1 as (N & S1 & S2). cbn [fnamed wf_expr] in *. apply incl_app_inv in H2. destruct H2 as [I1 I2], H3 as [W1 W2]. cbn [fsays eval].
    eapply agrees_bind; [exact (H MVal w Y s sc st S1 I1 W1 (or_introl eq_refl) H5)|]. intros v [xs st1] (Q1 & B1 & G1). cbn [fst snd] in *. subst xs.
    eapply agrees_bind; [exact (H0 MVal w Y s sc st1 S2 I2 W2 (or_introl eq_refl) (place_grows _ _ _ _ _ _ G1 H5))|]. intros u [ys st2] (Q2 & B2 & G2). cbn [fst snd] in *. subst ys.
    apply tell_bin; auto; [apply G2|exact (grows_trans _ _ _ G1 G2)].
  - destruct H1 as (S1 & S2). cbn [fnamed wf_expr] in *. apply incl_app_inv in H2. destruct H2 as [I1 I2], H3 as [W1 W2]. cbn [fsays eval].
    eapply agrees_bind; [exact (H MVal w Y s sc st S1 I1 W1 (or_introl eq_refl) H5)|]. intros v [xs st1] (Q1 & B1 & G1). cbn [fst snd] in *. subst xs.
    destruct v as [|[]| | | | | |]; try contradiction; try reflexivity; [|apply agrees_told; split; [reflexivity|auto]].
    eapply agrees_bind; [exact (H0 MVal w Y s sc st1 S2 I2 W2 (or_introl eq_refl) (place_grows _ _ _ _ _ _ G1 H5))|]. intros u [ys st2] (Q2 & B2 & G2). cbn [fst snd] in *. subst ys.
    destruct u; try contradiction; try reflexivity. apply agrees_told. split; [reflexivity|]. split; [exact I|exact (grows_trans _ _ _ G1 G2)].
  - destruct H1 as (S1 & S2). cbn [fnamed wf_expr] in *. apply incl_app_inv in H2. destruct H2 as [I1 I2], H3 as [W1 W2]. cbn [fsays eval].
    eapply agrees_bind; [exact (H MVal w Y s sc st S1 I1 W1 (or_introl eq_refl) H5)|]. intros v [xs st1] (Q1 & B1 & G1). cbn [fst snd] in *. subst xs.
    destruct v as [|[]| | | | | |]; try contradiction; try reflexivity; [apply agrees_told; split; [reflexivity|auto]|].
    eapply agrees_bind; [exact (H0 MVal w Y s sc st1 S2 I2 W2 (or_introl eq_refl) (place_grows _ _ _ _ _ _ G1 H5))|]. intros u [ys st2] (Q2 & B2 & G2). cbn [fst snd] in *. subst ys.
    destruct u; try contradiction; try reflexivity. apply agrees_told. split; [reflexivity|]. split; [exact I|exact (grows_trans _ _ _ G1 G2)].
  - destruct f as [| | |x| | | | | | | | | | | | | | |]; try contradiction. destruct H1 as [Tf Sa]. cbn [fnamed wf_expr fsays] in *. rewrite eval_call.
    eapply agrees_bind; [exact (H0 w Y s sc st Sa H2 (proj2 H3) H5)|]. intros vs [xs st1] (Q1 & B1 & G1). cbn [fst snd] in *. subst xs.
    destruct (T x) as [[ps body]|] eqn:Tx; [|contradiction].
    assert (R1 : returns_of mo = 1) by (destruct H4 as [-> | ->]; reflexivity). rewrite R1.
    pose proof (call_agrees w Y s sc x ps body 1 st1 vs (place_grows _ _ _ _ _ _ G1 H5) Tx (Fall x ltac:(congruence)) ltac:(lia) B1) as C.
    destruct (calls x (outer w s) vs) as [rs| | | |]; cbn [agrees tbind] in C |- *; [|exact C..]. destruct C as (p & -> & Q & B & G). exists p. split; [reflexivity|].
    change (Z.to_nat 1) with 1%nat in Q. split; [|split; [destruct rs; [exact I|inversion B; assumption]|exact (grows_trans _ _ _ G1 G)]].
    rewrite Q. destruct rs; reflexivity.
  - apply agrees_told. split; [reflexivity|]. split; [constructor|apply grows_refl, (place_pend _ _ _ _ _ H2)].
  - cbn [fsimple_all fnamed_all wf_exprs fargs eval_args] in *. destruct H1 as [S1 S2]. apply incl_app_inv in H2. destruct H2 as [I1 I2], H3 as [W1 W2].
    eapply agrees_bind; [exact (H0 w Y s sc st S2 I2 W2 H4)|]. intros vs [xs st1] (Q1 & B1 & G1). cbn [fst snd] in *. subst xs.
    eapply agrees_bind; [exact (H MVal w Y s sc st1 S1 I1 W1 (or_introl eq_refl) (place_grows _ _ _ _ _ _ G1 H4))|]. intros v [ys st2] (Q2 & B2 & G2). cbn [fst snd] in *. subst ys.
    apply agrees_told. split; [reflexivity|]. split; [constructor; assumption|exact (grows_trans _ _ _ G1 G2)].
Qed.

(** The values of a tuple. *)
Lemma eval_ftells : forall e w Y s sc st, ftuple T e -> incl (fnamed e) all -> wf_expr e -> place w Y s sc st ->
  agrees (listed st) (ftells calls w s e) (ev MRets e [] sc st).
Proof.
  assert (One : forall e w Y s sc st, fsimple T e -> incl (fnamed e) all -> wf_expr e -> place w Y s sc st ->
    agrees (listed st) (tbind (fsays calls w s e) (fun v => Told [v])) (ev MRets e [] sc st)).
  { intros e w Y s sc st Si In Wf P. pose proof (proj1 eval_fsays e MRets w Y s sc st Si In Wf (or_intror eq_refl) P) as H.
    destruct (fsays calls w s e) as [v| | | |]; cbn [agrees tbind] in H |- *; [|exact H..]. destruct H as (p & -> & Q & B & G). exists p. split; [reflexivity|]. split; [exact Q|auto]. }
  induction e; intros w Y st0 sc st Si In Wf P; try (exact (One _ w Y st0 sc st Si In Wf P)).
  cbn [ftuple fnamed wf_expr ftells eval] in *. destruct Si as [S1 S2]. apply incl_app_inv in In. destruct In as [I1 I2], Wf as [W1 W2].
  eapply agrees_bind; [exact (IHe1 w Y st0 sc st S1 I1 W1 P)|]. intros xs [us st1] (Q1 & B1 & G1). cbn [fst snd] in *. subst us.
  eapply agrees_bind; [exact (IHe2 w Y st0 sc st1 S2 I2 W2 (place_grows _ _ _ _ _ _ G1 P))|]. intros ys [us st2] (Q2 & B2 & G2). cbn [fst snd] in *. subst us.
  apply agrees_told. split; [reflexivity|]. split; [apply Forall_app; auto|exact (grows_trans _ _ _ G1 G2)].
Qed.

(** Assigning several names. *)
Lemma put_all_app s : forall xs ys vs, put_all s (xs ++ ys) vs = put_all (put_all s ys (skipn (length xs) vs)) xs vs.
Proof. induction xs as [|x xs IH]; intros ys vs; [reflexivity|]. cbn [app put_all length]. rewrite IH. destruct vs; [rewrite skipn_nil|]; reflexivity. Qed.

Lemma put_all_firstn s : forall xs n vs, (length xs <= n)%nat -> put_all s xs (firstn n vs) = put_all s xs vs.
Proof.
  induction xs as [|x xs IH]; intros n vs Hn; [reflexivity|]. destruct n as [|n]; [cbn in Hn; lia|]. cbn [length] in Hn.
  destruct vs as [|v vs]; [reflexivity|]. cbn [firstn put_all tl hd]. rewrite (IH n vs) by lia. reflexivity.
Qed.

Lemma put_all_none s : forall xs vs k, put_all s xs (vs ++ repeat VNone k) = put_all s xs vs.
Proof.
  induction xs as [|x xs IH]; intros vs k; [reflexivity|]. destruct vs as [|v vs].
  - destruct k as [|k]; [reflexivity|]. cbn [app repeat put_all tl hd]. pose proof (IH [] k) as Q. cbn [app] in Q. rewrite Q. reflexivity.
  - cbn [app put_all tl hd]. rewrite IH. reflexivity.
Qed.

Lemma target_len e : ftarget T e -> Z.of_nat (length (targets e)) = tuple_len e.
Proof. induction e; cbn [ftarget targets tuple_len]; intros H; try contradiction; [reflexivity|]. destruct H as [H1 H2]. rewrite app_length. specialize (IHe1 H1). specialize (IHe2 H2). lia. Qed.

Lemma target_none e : ftarget T e -> forall x, In x (targets e) -> T x = None.
Proof. induction e; cbn [ftarget targets]; intros H x Hx; try contradiction; [destruct Hx as [<-|[]]; exact H|]. destruct H as [H1 H2]. apply in_app_or in Hx. destruct Hx; auto. Qed.

Lemma basic_parts n (vs : list value) : Forall basic vs -> Forall basic (firstn n vs) /\ Forall basic (skipn n vs).
Proof. intros B. rewrite <- (firstn_skipn n vs) in B. apply Forall_app in B. exact B. Qed.

Lemma assign_all w Y sc : forall e vs s st, ftarget T e -> incl (targets e) Y -> Z.of_nat (length vs) = tuple_len e -> Forall basic vs -> place w Y s sc st ->
  exists r st', ev MTgt e vs sc st = OOk (r, st') /\ place w Y (put_all s (targets e) vs) sc st' /\ keeps (where_ sc) st st'.
Proof.
  induction e; intros vs st0 st Ta In Ln B P; cbn [ftarget] in Ta; try contradiction.
  - cbn [tuple_len] in Ln. destruct vs as [|v [|]]; cbn [length] in Ln; try lia. inversion B; subst.
    destruct (place_set w Y st0 sc st s v P Ta (In s (or_introl eq_refl)) H1) as (m' & Q & P' & K). cbn [eval]. rewrite Q. cbn [obind].
    exists [v], (put_mem st m'). split; [reflexivity|]. cbn [targets put_all hd]. auto.
  - destruct Ta as [T1 T2]. cbn [targets tuple_len] in *. apply incl_app_inv in In. destruct In as [I1 I2].
    pose proof (target_len e1 T1) as L1. pose proof (target_len e2 T2) as L2. cbn [eval].
    replace (Z.to_nat (tuple_len e1)) with (length (targets e1)) by lia.
    destruct (IHe2 (skipn (length (targets e1)) vs) st0 st T2 I2) as (r2 & st2 & Q2 & P2 & K2); [rewrite skipn_length; lia|exact (proj2 (basic_parts _ _ B))|exact P|].
    rewrite Q2. cbn [obind].
    destruct (IHe1 (firstn (length (targets e1)) vs) _ st2 T1 I1 ltac:(rewrite firstn_length; lia) (proj1 (basic_parts _ _ B)) P2) as (r1 & st1 & Q1 & P1 & K1).
    rewrite Q1. exists r1, st1. split; [reflexivity|]. rewrite put_all_app. rewrite put_all_firstn in P1 by lia. split; [exact P1|exact (keeps_trans _ _ _ _ K2 K1)].
Qed.

(** Binding the parameters. *)
(** * Types *)
(** What a type expression becomes: types of types lie before them in the heap. *)
Definition below (v : value) (l : nat) : Prop := match v with VRef k => (k < l)%nat | _ => True end.
Fixpoint stands (m : mem) (t : expr) (v : value) : Prop :=
  match t with
  | EIdent x => exists k, kind_of x = Some k /\ v = kind_value k
  | EUn UNlb a => exists l u, v = VRef l /\ nth_error (m_objs m) l = Some (ONullable u) /\ stands m a u /\ below u l
  | EBin BStp a b => exists l u q, v = VRef l /\ nth_error (m_objs m) l = Some (OSum u q) /\ stands m a u /\ stands m b q /\ below u l /\ below q l
  | _ => False
  end.

Lemma stands_kept m m' t : (forall k o, nth_error (m_objs m) k = Some o -> nth_error (m_objs m') k = Some o) -> forall v, stands m t v -> stands m' t v.
Proof.
  intros K'. induction t; cbn [stands]; intros v H; try exact H.
  - destruct op; try exact H. destruct H as (l & u & -> & N & S & B). exists l, u. auto 6.
  - destruct op; try exact H. destruct H as (l & u & q & -> & N & S1 & S2 & B1 & B2). exists l, u, q. auto 8.
Qed.

Lemma stands_below m t v : stands m t v -> below v (length (m_objs m)).
Proof.
  destruct t; cbn [stands]; intros H; try contradiction.
  - destruct H as ([|k] & _ & ->); exact I.
  - destruct op; try contradiction. destruct H as (l & u & -> & N & _). cbn. apply nth_error_Some. congruence.
  - destruct op; try contradiction. destruct H as (l & u & q & -> & N & _). cbn. apply nth_error_Some. congruence.
Qed.

Lemma grows_alloc st o : m_pend (t_mem st) = false -> grows st (put_mem st (snd (alloc (t_mem st) o))).
Proof.
  intros P. split; [exact P|]. split; [reflexivity|]. intros k q Hk. cbn. rewrite nth_error_app1; [exact Hk|]. apply nth_error_Some. congruence.
Qed.

Lemma eval_type w Y s sc : incl Y all -> forall t st, ftype t -> incl (type_names t) KT -> place w Y s sc st ->
  exists v st', ev MVal t [] sc st = OOk ([v], st') /\ grows st st' /\ stands (t_mem st') t v.
Proof.
  intros IY. induction t; intros st F N P; cbn [ftype] in F; try contradiction.
  - destruct (kind_of s0) as [k|] eqn:Q; [|contradiction].
    cbn [eval]. rewrite (place_kind w Y s sc st s0 k P IY XA (N s0 (or_introl eq_refl)) Q). cbn [obind fst snd]. rewrite put_self.
    exists (kind_value k), st. split; [reflexivity|]. split; [apply grows_refl, P|]. exists k. auto.
  - destruct op; try contradiction. cbn [type_names] in N. destruct (IHt st F N P) as (u & st1 & Q & G & S). cbn [eval]. rewrite Q. cbn [obind fst snd unop_code unary_op].
    eexists _, _. split; [reflexivity|]. pose proof (grows_alloc st1 (ONullable u) (proj1 G)) as G2. split; [exact (grows_trans _ _ _ G G2)|].
    exists (length (m_objs (t_mem st1))), u. split; [reflexivity|]. split; [cbn; rewrite nth_error_app2, Nat.sub_diag by lia; reflexivity|].
    split; [|exact (stands_below _ _ _ S)]. exact (stands_kept _ _ _ (proj2 (proj2 G2)) _ S).
  - destruct op; try contradiction. cbn [type_names] in N. apply incl_app_inv in N. destruct N as [N1 N2], F as [F1 F2].
    destruct (IHt1 st F1 N1 P) as (u & st1 & Q1 & G1 & S1). destruct (IHt2 st1 F2 N2 (place_grows _ _ _ _ _ _ G1 P)) as (q & st2 & Q2 & G2 & S2).
    cbn [eval]. rewrite Q1. cbn [obind fst snd]. rewrite Q2. cbn [obind fst snd binop_code binary_op].
    eexists _, _. split; [reflexivity|]. pose proof (grows_alloc st2 (OSum u q) (proj1 G2)) as G3. split; [exact (grows_trans _ _ _ (grows_trans _ _ _ G1 G2) G3)|].
    pose proof (stands_kept _ _ _ (proj2 (proj2 G2)) _ S1) as S1'.
    exists (length (m_objs (t_mem st2))), u, q. split; [reflexivity|]. split; [cbn; rewrite nth_error_app2, Nat.sub_diag by lia; reflexivity|].
    split; [exact (stands_kept _ _ _ (proj2 (proj2 G3)) _ S1')|]. split; [exact (stands_kept _ _ _ (proj2 (proj2 G3)) _ S2)|].
    split; [exact (stands_below _ _ _ S1')|exact (stands_below _ _ _ S2)].
Qed.

Lemma belongs_type rt v t : basic v -> tyname_eqb (type_of rt v) t = belongs v t.
Proof. destruct v; cbn; intros B; try contradiction; destruct t; reflexivity. Qed.

Lemma accepts_type m v : basic v -> forall t n p tv, stands m t tv -> below tv n -> is_type_of n m p tv v = OOk (accepts t v, p).
Proof.
  intros B. induction t; intros n p tv S L; cbn [stands] in S; try contradiction.
  - destruct S as (k & Q & ->). cbn [accepts]. rewrite Q. destruct k as [|t]; destruct n; cbn [kind_value is_type_of]; try reflexivity; rewrite belongs_type by exact B; reflexivity.
  - destruct op; try contradiction. destruct S as (l & u & -> & N & S & Bl). cbn [below] in L. destruct n as [|n]; [lia|]. cbn [is_type_of]. rewrite N. cbn [accepts].
    destruct v; try reflexivity; apply IHt; try exact S; destruct u; cbn in Bl |- *; try exact I; lia.
  - destruct op; try contradiction. destruct S as (l & u & q & -> & N & S1 & S2 & B1 & B2). cbn [below] in L. destruct n as [|n]; [lia|]. cbn [is_type_of]. rewrite N. cbn [accepts].
    rewrite (IHt1 n p u S1) by (destruct u; cbn in B1 |- *; try exact I; lia). cbn [obind fst snd]. destruct (accepts t1 v); [reflexivity|]. cbn [orb].
    apply IHt2; [exact S2|]. destruct q; cbn in B2 |- *; try exact I; lia.
Qed.

Lemma accepts_is m t tv v : basic v -> m_pend m = false -> stands m t tv -> is_type m tv v = OOk (accepts t v, m).
Proof.
  intros B P S. unfold is_type. rewrite (accepts_type m v B t _ _ tv S).
  - cbn [obind fst snd]. rewrite P. destruct m as [o p]. cbn in *. subst p. reflexivity.
  - pose proof (stands_below m t tv S) as L. destruct tv; try exact I. cbn [below] in *. unfold type_depth. lia.
Qed.

Lemma plain_len ps : params_len (plain ps) = Z.of_nat (length ps).
Proof. induction ps as [|[x [ty df]] ps IH]; [reflexivity|]. cbn [plain params_len length]. lia. Qed.

Lemma none_test m v : m_pend m = false -> basic v -> compare_op m false (VType (type_of (rt_of (m_objs m)) v)) (VType TyNone) = OOk (VBool (match v with VNone => true | _ => false end)).
Proof. intros P B. unfold compare_op. rewrite P. destruct v; cbn in B |- *; try contradiction; reflexivity. Qed.

Lemma bind_all w Y sc s : incl Y all -> forall ps vs st, length vs = length ps -> Forall basic vs -> incl (map fst ps) Y -> (forall x, In x (map fst ps) -> T x = None) ->
  Forall (fparam T) ps -> incl (default_names ps) all -> incl (kind_names ps) KT -> wf_params (plain ps) -> place w Y s sc st ->
  agrees (fun s' st' => place w Y s' sc st' /\ keeps (where_ sc) st st') (receive calls w s ps vs) (bind_params E A2 (plain ps) vs sc st).
Proof.
  intros IY. induction ps as [|[x [ty df]] ps IH]; intros vs st Ln B In Tn Fp Id Ik Wp P; destruct vs as [|v vs]; try discriminate.
  - apply agrees_told. split; [exact P|]. apply grows_keeps, grows_refl. apply P.
  - injection Ln as Ln. inversion B as [|? ? Bv Bs]; subst. inversion Fp as [|? ? [F1 F2] F3]; subst. cbn [plain bind_params receive tl hd map fst snd] in *.
    cbn [default_names kind_names flat_map fst snd] in Id, Ik. apply incl_app_inv in Id, Ik. destruct Id as [Id1 Id2], Ik as [Ik1 Ik2]. destruct Wp as (_ & Wt & Wd & Wp).
    eapply agrees_bind; [exact (IH vs st Ln Bs (fun y Hy => In y (or_intror Hy)) (fun y Hy => Tn y (or_intror Hy)) F3 Id2 Ik2 Wp P)|].
    intros s1 st1 [P1 K1].
    eapply agrees_bind with (P := fun u (p : value * sst) => fst p = u /\ basic u /\ grows st1 (snd p)).
    + destruct df as [d|]; cbn [maybe].
      2:{ destruct v; try contradiction; apply agrees_told; (split; [reflexivity|split; [exact Bv|apply grows_refl, P1]]). }
      rewrite (none_test (t_mem st1) v (proj1 P1) Bv). cbn [obind].
      destruct v; try contradiction; try (apply agrees_told; (split; [reflexivity|split; [exact Bv|apply grows_refl, P1]])).
      rewrite (tbind_told (fsays calls w s1 d)). eapply agrees_bind; [exact (proj1 eval_fsays d MVal w Y s1 sc st1 F2 Id1 Wd (or_introl eq_refl) P1)|].
      intros u [xs st2] (Q & Bu & G). cbn [fst snd] in *. subst xs. apply agrees_told. auto.
    + intros u [u' st2] (Q & Bu & G). cbn [fst snd] in *. subst u'. pose proof (place_grows _ _ _ _ _ _ G P1) as P2.
      assert (Set_ : forall st3, grows st2 st3 -> agrees (fun s' st' => place w Y s' sc st' /\ keeps (where_ sc) st st') (Told (put_in s1 x u))
        (do mm <- set_var E (t_mem st3) (sc_locals sc) x u; OOk (put_mem st3 mm))).
      { intros st3 G3. pose proof (place_grows _ _ _ _ _ _ G3 P2) as P3.
        destruct (place_set w Y _ sc st3 x u P3 (Tn x (or_introl eq_refl)) (In x (or_introl eq_refl)) Bu) as (m' & Q & P' & K'). rewrite Q. cbn [obind].
        apply agrees_told. split; [exact P'|]. exact (keeps_trans _ _ _ _ (keeps_trans _ _ _ _ K1 (grows_keeps _ _ _ (grows_trans _ _ _ G G3))) K'). }
      destruct ty as [t|]; cbn [maybe]; [|cbn [obind]; apply Set_, grows_refl, P2].
      destruct (eval_type w Y s1 sc IY t st2 F1 Ik1 P2) as (tv & st3 & Q & G3 & S). rewrite Q. cbn [obind fst snd].
      rewrite (accepts_is (t_mem st3) t tv u Bu (proj1 G3) S). cbn [obind fst snd]. destruct (accepts t u); [|reflexivity]. rewrite put_self. cbn [obind]. apply Set_, G3.
Qed.

Lemma receive_firstn w s : forall ps n vs, (length ps <= n)%nat -> receive calls w s ps (firstn n vs) = receive calls w s ps vs.
Proof.
  induction ps as [|[x [ty df]] ps IH]; intros n vs L; [reflexivity|]. cbn [length] in L. destruct n as [|n]; [lia|]. cbn [receive]. destruct vs as [|v vs]; [reflexivity|].
  cbn [firstn tl hd]. rewrite IH by lia. reflexivity.
Qed.
Lemma receive_none w s : forall ps vs k, receive calls w s ps (vs ++ repeat VNone k) = receive calls w s ps vs.
Proof.
  induction ps as [|[x [ty df]] ps IH]; intros vs k; [reflexivity|]. cbn [receive]. destruct vs as [|v vs].
  - destruct k as [|k]; [reflexivity|]. cbn [app repeat tl hd]. change (repeat VNone k) with ([] ++ repeat VNone k). rewrite IH. reflexivity.
  - cbn [app tl hd]. rewrite IH. reflexivity.
Qed.

(** * Statements *)
Definition fated (lp : bool) (w : option store) (Y : list (list Z)) (sc : scope) (st : sst) (r : fate) (p : sig * sst) : Prop :=
  keeps (where_ sc) st (snd p) /\
  match r with
  | Fell s => fst p = SigNext /\ place w Y s sc (snd p)
  | Broke s => lp = true /\ fst p = SigBreak /\ place w Y s sc (snd p)
  | Gave vs => fst p = SigRet vs /\ Forall basic vs
  end.

Lemma fated_keeps lp w Y sc st st1 r p : keeps (where_ sc) st st1 -> fated lp w Y sc st1 r p -> fated lp w Y sc st r p.
Proof. intros K [K1 H]. split; [exact (keeps_trans _ _ _ _ K K1)|exact H]. Qed.

Definition fine_in (Y : list (list Z)) (t : stmt) : Prop := incl (fmentions t) Y /\ wf_stmt t.
Definition fines_in (Y : list (list Z)) (ss : stmts) : Prop := incl (fmentions_all ss) Y /\ wf_stmts ss.

Definition stmts_agree (again : option store -> store -> stmt -> told fate) (A1 : stmt -> scope -> sst -> out (sig * sst)) : Prop :=
  forall t lp w Y s sc st, fcore T lp t -> fine_in Y t -> incl Y all -> place w Y s sc st -> agrees (fated lp w Y sc st) (again w s t) (A1 t sc st).
Hypothesis Hagain : stmts_agree again A1.

Lemma test_agrees c w Y s sc st : fsimple T c -> incl (fnamed c) all -> wf_expr c -> place w Y s sc st -> forall (k : bool -> told fate) (j : list value * sst -> out (sig * sst)) Q,
  (forall b st1, grows st st1 -> agrees Q (k b) (j ([VBool b], st1))) -> (forall v st1, (forall b, v <> VBool b) -> j ([v], st1) = OErr) ->
  agrees Q (tbind (ftest calls w s c) k) (obind (ev MVal c [] sc st) j).
Proof.
  intros Si In Wf P k j Q K N. unfold ftest. pose proof (proj1 eval_fsays c MVal w Y s sc st Si In Wf (or_introl eq_refl) P) as H.
  destruct (fsays calls w s c) as [v| | | |]; cbn [agrees tbind] in H |- *; [|rewrite H; reflexivity..].
  destruct H as ([xs st1] & -> & Qx & B & G). cbn [fst snd] in *. subst xs. cbn [obind].
  destruct v as [|b| | | | | |]; cbn [tbind agrees]; try (apply N; discriminate). exact (K b st1 G).
Qed.

Scheme stmt_rec3 := Induction for stmt Sort Prop with stmts_rec3 := Induction for stmts Sort Prop.
Combined Scheme stmt_mut3 from stmt_rec3, stmts_rec3.

Ltac notbool := let v := fresh "v" in let N := fresh "N" in let y := fresh "y" in intros v ? N; destruct v as [|y| | | | | |]; try reflexivity; exfalso; exact (N y eq_refl).

Lemma run_cons2 t ss sc st : run_stmts E A1 A2 (SCons t ss) sc st =
  obind (run_stmt E A1 A2 t sc st) (fun p => match fst p with SigNext => run_stmts E A1 A2 ss sc (snd p) | g => OOk (g, snd p) end).
Proof.
  transitivity (obind (run_stmt E A1 A2 t sc st) (fun p => let (g, st1) := p in match g with SigNext => run_stmts E A1 A2 ss sc st1 | _ => OOk (g, st1) end)); [reflexivity|].
  destruct (run_stmt E A1 A2 t sc st) as [[[] st1]| | | |]; reflexivity.
Qed.

Lemma target_named e : ftarget T e -> fnamed e = targets e.
Proof. induction e; cbn [ftarget fnamed targets]; intros H; try contradiction; [reflexivity|]. destruct H as [H1 H2]. rewrite IHe1, IHe2 by assumption. reflexivity. Qed.

Lemma tuple_len_pos e : 1 <= tuple_len e.
Proof. induction e; cbn [tuple_len]; lia. Qed.

Lemma stmt_agrees :
  (forall t lp w Y s sc st, fcore T lp t -> fine_in Y t -> incl Y all -> place w Y s sc st -> agrees (fated lp w Y sc st) (fdoes again calls w s t) (run_stmt E A1 A2 t sc st)) /\
  (forall ss lp w Y s sc st, fcores T lp ss -> fines_in Y ss -> incl Y all -> place w Y s sc st -> agrees (fated lp w Y sc st) (fdoes_all again calls w s ss) (run_stmts E A1 A2 ss sc st)).
Proof.
  apply stmt_mut3.
  - intros e lp w Y s sc st C [I W] IY P.
    assert (Ex : fsimple T e -> agrees (fated lp w Y sc st) (tbind (fsays calls w s e) (fun _ => Told (Fell s))) (run_stmt E A1 A2 (SExpr e) sc st)).
    { intros Si. cbn [run_stmt]. eapply agrees_bind; [exact (proj1 eval_fsays e MVal w Y s sc st Si (incl_tran I IY) W (or_introl eq_refl) P)|].
      intros v [xs st1] (Q & B & G). cbn [fst snd] in *. apply agrees_told. split; [exact (grows_keeps _ _ _ G)|]. split; [reflexivity|exact (place_grows _ _ _ _ _ _ G P)]. }
    destruct e; try (exact (Ex C)). clear Ex. cbn [wf_stmt wf_expr fmentions fnamed] in *. destruct W as [W1 W2]. destruct e1; try contradiction C.
    + destruct C as [Tx Si]. apply incl_app_inv in I. destruct I as [I1 I2]. cbn [fdoes run_stmt].
      replace (ev MVal (EAss (EIdent s0) e2) [] sc st) with (obind (ev MVal e2 [] sc st) (fun p => ev MTgt (EIdent s0) (fst p) sc (snd p))).
      2:{ cbn [eval tuple_len]. change (1 =? 1) with true. cbn iota. destruct (ev MVal e2 [] sc st) as [[xs st1]| | | |]; reflexivity. }
      pose proof (proj1 eval_fsays e2 MVal w Y s sc st Si (incl_tran I2 IY) W2 (or_introl eq_refl) P) as H.
      destruct (fsays calls w s e2) as [v| | | |]; cbn [agrees tbind] in H |- *; [|rewrite H; reflexivity..]. destruct H as ([xs st1] & -> & Q & B & G). cbn [fst snd] in *. subst xs. cbn [obind fst snd].
      destruct (assign_all w Y sc (EIdent s0) [v] s st1 Tx (fun x Hx => I1 x Hx) eq_refl ltac:(auto) (place_grows _ _ _ _ _ _ G P)) as (r & st' & Q & P' & K).
      rewrite Q. cbn [obind]. eexists. split; [reflexivity|]. cbn [targets put_all hd] in P'. split; [exact (keeps_trans _ _ _ _ (grows_keeps _ _ _ G) K)|]. auto.
    + destruct e2; try contradiction C. destruct e2; try contradiction C. destruct C as (T1 & T2 & L8 & Tf & Sa). cbn [fnamed] in I. apply incl_app_inv in I. destruct I as [I1 I2].
      cbn [wf_expr] in W2. destruct W2 as [_ W2]. set (tg := EPair e1_1 e1_2) in *. assert (Tt : ftarget T tg) by (split; assumption).
      pose proof (tuple_len_pos e1_1). pose proof (tuple_len_pos e1_2).
      assert (L2 : tuple_len tg <> 1) by (cbn [tg tuple_len]; lia). assert (L0 : 2 <= tuple_len tg) by (cbn [tg tuple_len]; lia).
      replace (run_stmt E A1 A2 (SExpr (EAss tg (ECall (EIdent s0) args))) sc st) with
        (obind (ev (MCall (tuple_len tg)) (ECall (EIdent s0) args) [] sc st) (fun p => obind (ev MTgt tg (fst p) sc (snd p)) (fun q => OOk (SigNext, snd q)))).
      2:{ transitivity (obind (obind (ev (if tuple_len tg =? 1 then MVal else MCall (tuple_len tg)) (ECall (EIdent s0) args) [] sc st)
            (fun p => let (x, st1) := p in ev MTgt tg x sc st1)) (fun q => let (_, st1) := q in OOk (SigNext, st1))); [|reflexivity].
          destruct (Z.eqb_spec (tuple_len tg) 1); [contradiction|]. destruct (ev (MCall (tuple_len tg)) (ECall (EIdent s0) args) [] sc st) as [[xs st1]| | | |]; try reflexivity.
          cbn [obind fst snd]. destruct (ev MTgt tg xs sc st1) as [[]| | | |]; reflexivity. }
      rewrite eval_call. change (returns_of (MCall (tuple_len tg))) with (tuple_len tg).
      change (fdoes again calls w s (SExpr (EAss tg (ECall (EIdent s0) args)))) with
        (tbind (fargs calls w s args) (fun vs => tbind (calls s0 (outer w s) vs) (fun rs => Told (Fell (put_all s (targets tg) rs))))).
      pose proof (proj2 eval_fsays args w Y s sc st Sa (incl_tran I2 IY) W2 P) as Ha.
      destruct (fargs calls w s args) as [vs| | | |]; cbn [agrees tbind] in Ha |- *; [|rewrite Ha; reflexivity..]. destruct Ha as ([xs st1] & -> & Q1 & B1 & G1). cbn [fst snd] in *. subst xs. cbn [obind fst snd].
      destruct (T s0) as [[ps body]|] eqn:Tx; [|contradiction].
      pose proof (call_agrees w Y s sc s0 ps body (tuple_len tg) st1 vs (place_grows _ _ _ _ _ _ G1 P) Tx (Fall s0 ltac:(congruence)) ltac:(lia) B1) as Hc.
      destruct (calls s0 (outer w s) vs) as [rs| | | |]; cbn [agrees tbind] in Hc |- *; [|rewrite Hc; reflexivity..]. destruct Hc as ([us st2] & -> & Q2 & B2 & G2). cbn [fst snd] in *. subst us. cbn [obind fst snd].
      destruct (assign_all w Y sc tg (firstn (Z.to_nat (tuple_len tg)) (rs ++ repeat VNone (Z.to_nat (tuple_len tg)))) s st2 Tt) as (r & st' & Q & P' & K).
      * intros x Hx. apply I1. change (fnamed e1_1 ++ fnamed e1_2) with (fnamed tg). rewrite target_named; assumption.
      * rewrite firstn_length, app_length, repeat_length. lia.
      * apply take_basic. exact B2.
      * exact (place_grows _ _ _ _ _ _ (grows_trans _ _ _ G1 G2) P).
      * rewrite Q. cbn [obind snd]. eexists. split; [reflexivity|]. cbn [snd]. split; [exact (keeps_trans _ _ _ _ (grows_keeps _ _ _ (grows_trans _ _ _ G1 G2)) K)|]. split; [reflexivity|].
        rewrite put_all_firstn, put_all_none in P' by (pose proof (target_len tg Tt); lia). exact P'.
  - intros lp w Y s sc st C F IY P. apply agrees_told. split; [apply grows_keeps, grows_refl, P|]. split; [exact C|]. split; [reflexivity|exact P].
  - intros c t IH lp w Y s sc st [C1 C2] [I W] IY P. cbn [fmentions wf_stmt fdoes run_stmt] in *. apply incl_app_inv in I. destruct I as [I1 I2], W as [W1 W2].
    apply (test_agrees c w Y s sc st C1 (incl_tran I1 IY) W1 P); [|notbool]. intros b st1 G. destruct b.
    + eapply agrees_mono; [|exact (IH lp w Y s sc st1 C2 (conj I2 W2) IY (place_grows _ _ _ _ _ _ G P))]. intros a q. apply fated_keeps, grows_keeps, G.
    + apply agrees_told. split; [exact (grows_keeps _ _ _ G)|]. split; [reflexivity|exact (place_grows _ _ _ _ _ _ G P)].
  - intros c t IHt f IHf lp w Y s sc st (C1 & C2 & C3) [I W] IY P. cbn [fmentions wf_stmt fdoes run_stmt] in *. apply incl_app_inv in I. destruct I as [I1 I2]. apply incl_app_inv in I2. destruct I2 as [I2 I3], W as (W1 & W2 & W3).
    apply (test_agrees c w Y s sc st C1 (incl_tran I1 IY) W1 P); [|notbool]. intros b st1 G. destruct b.
    + eapply agrees_mono; [|exact (IHt lp w Y s sc st1 C2 (conj I2 W2) IY (place_grows _ _ _ _ _ _ G P))]. intros a q. apply fated_keeps, grows_keeps, G.
    + eapply agrees_mono; [|exact (IHf lp w Y s sc st1 C3 (conj I3 W3) IY (place_grows _ _ _ _ _ _ G P))]. intros a q. apply fated_keeps, grows_keeps, G.
  - intros c b IH lp w Y s sc st C F IY P. pose proof C as [C1 C2]. pose proof F as [I W]. cbn [fmentions wf_stmt fdoes run_stmt] in *. apply incl_app_inv in I. destruct I as [I1 I2], W as [W1 W2].
    apply (test_agrees c w Y s sc st C1 (incl_tran I1 IY) W1 P); [|notbool]. intros y st1 G. destruct y.
    + eapply agrees_bind; [exact (IH true w Y s sc st1 C2 (conj I2 W2) IY (place_grows _ _ _ _ _ _ G P))|]. intros r [g st2] [K H]. cbn [fst snd] in *.
      pose proof (keeps_trans _ _ _ _ (grows_keeps (where_ sc) _ _ G) K) as K2. destruct r as [s1|s1|vs]; [destruct H as [-> H]|destruct H as (Lp & -> & H)|destruct H as [-> H]].
      * eapply agrees_mono; [|exact (Hagain (SWhile c b) lp w Y s1 sc st2 C F IY H)]. intros a q. apply fated_keeps, K2.
      * apply agrees_told. split; [exact K2|]. auto.
      * apply agrees_told. split; [exact K2|]. auto.
    + apply agrees_told. split; [exact (grows_keeps _ _ _ G)|]. split; [reflexivity|exact (place_grows _ _ _ _ _ _ G P)].
  - intros b IH c lp w Y s sc st C F IY P. pose proof C as [C1 C2]. pose proof F as [I W]. cbn [fmentions wf_stmt fdoes run_stmt] in *. apply incl_app_inv in I. destruct I as [I1 I2], W as [W1 W2].
    eapply agrees_bind; [exact (IH true w Y s sc st C2 (conj I2 W1) IY P)|]. intros r [g st1] [K H]. cbn [fst snd] in *.
    destruct r as [s1|s1|vs]; [destruct H as [-> H]|destruct H as (Lp & -> & H)|destruct H as [-> H]].
    + apply (test_agrees c w Y s1 sc st1 C1 (incl_tran I1 IY) W2 H); [|notbool]. intros y st2 G.
      pose proof (keeps_trans _ _ _ _ K (grows_keeps (where_ sc) _ _ G)) as K2. destruct y.
      * eapply agrees_mono; [|exact (Hagain (SDo b c) lp w Y s1 sc st2 C F IY (place_grows _ _ _ _ _ _ G H))]. intros a q. apply fated_keeps, K2.
      * apply agrees_told. split; [exact K2|]. split; [reflexivity|exact (place_grows _ _ _ _ _ _ G H)].
    + apply agrees_told. split; [exact K|]. auto.
    + apply agrees_told. split; [exact K|]. auto.
  - intros ss IH lp w Y s sc st C F IY P. exact (IH lp w Y s sc st C F IY P).
  - intros e lp w Y s sc st C [I W] IY P. cbn [fdoes run_stmt]. eapply agrees_bind; [exact (eval_ftells e w Y s sc st C (incl_tran I IY) W P)|].
    intros vs [us st1] (Q & B & G). cbn [fst snd] in *. subst us. apply agrees_told. split; [exact (grows_keeps _ _ _ G)|]. auto.
  - intros ? ? ? ? lp w Y s sc st C. contradiction C.
  - intros lp w Y s sc st C F IY P. apply agrees_told. split; [apply grows_keeps, grows_refl, P|]. split; [reflexivity|exact P].
  - intros t IH ss IHs lp w Y s sc st [C1 C2] [I W] IY P. cbn [fmentions_all wf_stmts fdoes_all] in *. apply incl_app_inv in I. destruct I as [I1 I2], W as [W1 W2]. rewrite run_cons2.
    eapply agrees_bind; [exact (IH lp w Y s sc st C1 (conj I1 W1) IY P)|]. intros r [g st1] [K H]. cbn [fst snd] in *. destruct r as [s1|s1|vs]; [destruct H as [-> H]|destruct H as (Lp & -> & H)|destruct H as [-> H]].
    + eapply agrees_mono; [|exact (IHs lp w Y s1 sc st1 C2 (conj I2 W2) IY H)]. intros a q. apply fated_keeps, K.
    + apply agrees_told. split; [exact K|]. auto.
    + apply agrees_told. split; [exact K|]. auto.
Qed.

(** * Calls *)
(** What is asked of the functions. *)
Definition good_defs : Prop := forall f ps body, T f = Some (ps, body) ->
  fcore T false body /\ wf_stmt body /\ few (once (map fst ps ++ fmentions body)) /\ incl (map fst ps ++ fmentions body) all /\ (forall x, In x (map fst ps ++ fmentions body) -> T x = None) /\
  Forall (fparam T) ps /\ incl (default_names ps) all /\ incl (kind_names ps) KT /\ wf_params (plain ps).
Hypothesis Good : good_defs.

Definition fbody (f : list Z) (g : store) (vs : list value) : told (list value) :=
  match T f with
  | Some (ps, body) =>
    tbind (receive calls (Some g) nothing ps vs) (fun s =>
    tbind (fdoes again calls (Some g) s body) (fun r => match r with Gave rs => Told rs | Fell _ => Told [] | Broke _ => Wrong end))
  | None => Wrong
  end.

Lemma adjust_basic p vs : Forall basic vs -> Forall basic (adjust p vs).
Proof.
  intros B. unfold adjust. apply Forall_app. split; [exact (proj1 (basic_parts _ _ B))|]. apply Forall_forall. intros v Hv. apply repeat_spec in Hv. subst. exact I.
Qed.

Lemma adjust_length p vs : length (adjust p vs) = Z.to_nat p.
Proof. unfold adjust. rewrite app_length, firstn_length, repeat_length. lia. Qed.

Lemma call_bodies : calls_agree fbody (run_call E A1 A2).
Proof.
  intros f ps body g vs st cl Tf P K Kn B Cl. unfold fbody. rewrite Tf. destruct (Good f ps body Tf) as (C & W & Fw & IY & Tn & Fp & Id & Ik & Wp).
  unfold run_call. cbn [alloc]. set (l := length (m_objs (t_mem st))). set (mm := mkmem (m_objs (t_mem st) ++ [OMap (new_map (-1))]) (m_pend (t_mem st))).
  set (sc := mksc (VRef l) (Some (VRef cl))). set (Y := once (map fst ps ++ fmentions body)) in *.
  assert (HY : forall x, In x Y <-> In x (map fst ps ++ fmentions body)) by (intros x; apply in_once).
  assert (Tn' : forall x, In x Y -> T x = None) by (intros x Hx; apply Tn, HY, Hx). assert (IY' : incl Y all) by (intros x Hx; apply IY, HY, Hx).
  assert (Gr : forall k o, nth_error (m_objs (t_mem st)) k = Some o -> nth_error (m_objs mm) k = Some o).
  { intros k o Hk. cbn [mm m_objs]. rewrite nth_error_app1; [exact Hk|]. apply nth_error_Some. congruence. }
  assert (G0 : grows st (put_mem st mm)) by (split; [exact P|split; [reflexivity|exact Gr]]).
  assert (Pl : place (Some g) Y nothing sc (put_mem st mm)).
  { split; [exact P|]. split; [intros k o Hk; apply Gr, K, Hk|]. split; [exact (knows_grows _ _ _ _ G0 Kn)|]. split; [discriminate|]. split; [exact Fw|]. split; [exact Tn'|].
    exists l, cl, []. split; [reflexivity|]. split.
    { destruct Kn as (_ & h & (mo & Q & _) & _). unfold l. apply nth_error_Some. congruence. }
    split; [apply Gr, Cl|]. split; [|split; [constructor|reflexivity]]. apply vars_new. cbn [put_mem t_mem mm m_objs]. unfold l. rewrite nth_error_app2, Nat.sub_diag by lia. reflexivity. }
  assert (Bd : agrees (fun s' st' => place (Some g) Y s' sc st' /\ keeps (where_ sc) (put_mem st mm) st') (receive calls (Some g) nothing ps vs)
    (bind_params E A2 (plain ps) (adjust (params_len (plain ps)) vs) sc (put_mem st mm))).
  { assert (Ra : receive calls (Some g) nothing ps (adjust (params_len (plain ps)) vs) = receive calls (Some g) nothing ps vs).
    { unfold adjust. rewrite receive_none, receive_firstn by (rewrite plain_len; lia). reflexivity. }
    rewrite <- Ra. apply bind_all; auto.
    - rewrite adjust_length, plain_len. apply Nat2Z.id.
    - apply adjust_basic, B.
    - intros x Hx. apply HY, in_or_app. left. exact Hx.
    - intros x Hx. apply Tn, in_or_app. left. exact Hx. }
  eapply agrees_bind; [exact Bd|]. clear Bd. intros s0 st1 [P1 K1].
  eapply agrees_bind; [exact (proj1 stmt_agrees body false (Some g) Y _ sc st1 C (conj (fun x Hx => proj2 (HY x) (in_or_app _ _ _ (or_intror Hx))) W) IY' P1)|].
  intros r [sg st2] [K2 H]. cbn [fst snd] in *.
  assert (G2 : grows st st2).
  { pose proof (keeps_trans _ _ _ _ K1 K2) as (Pe & Co & Kp). split; [exact Pe|]. split; [exact Co|]. intros k o Hk. apply Kp; [|exact (Gr k o Hk)].
    cbn [where_ sc_locals sc]. assert (k < l)%nat by (unfold l; apply nth_error_Some; congruence). lia. }
  unfold body_results. rewrite (proj1 G2). destruct r as [s1|s1|rs]; [destruct H as [-> H]|destruct H as [Lp _]; discriminate|destruct H as [-> H]]; apply agrees_told; (split; [reflexivity|auto]).
Qed.
End Level.

(** * Levels *)

Hypothesis Fall : forall f, T f <> None -> In f all.
Hypothesis Good : good_defs.

Lemma levels_d : forall n d, stmts_agree (fstmt T n d) (run_stmt_d E n d) /\ calls_agree (fcall T n d) (run_call_d E n d).
Proof.
  induction n as [|n IH]; intros d.
  - split; [intros t lp w Y s sc st C F IY P; reflexivity|intros f ps body g vs st cl Tf P K Kn B Cl; destruct d as [[|d]|]; reflexivity].
  - split.
    + destruct (IH d) as [IHs IHc]. intros t lp w Y s sc st C F IY P. exact (proj1 (stmt_agrees _ _ _ _ IHc Fall IHs) t lp w Y s sc st C F IY P).
    + destruct (IH (option_map pred d)) as [IHs IHc]. intros f ps body g vs st cl Tf P K Kn B Cl.
      pose proof (call_bodies _ _ _ _ IHc Fall IHs Good f ps body g vs st cl Tf P K Kn B Cl) as H. unfold fbody in H. cbn [fcall run_call_d].
      destruct d as [[|d]|]; [reflexivity|exact H|exact H].
Qed.

Lemma levels_plain : forall n, stmts_agree (fstmt T n None) (run_stmt_n E n) /\ calls_agree (fcall T n None) (run_call_n E n).
Proof.
  induction n as [|n [IHs IHc]].
  - split; [intros t lp w Y s sc st C F IY P; reflexivity|intros f ps body g vs st cl Tf P K Kn B Cl; reflexivity].
  - split.
    + intros t lp w Y s sc st C F IY P. exact (proj1 (stmt_agrees _ _ _ _ IHc Fall IHs) t lp w Y s sc st C F IY P).
    + intros f ps body g vs st cl Tf P K Kn B Cl.
      pose proof (call_bodies _ _ _ _ IHc Fall IHs Good f ps body g vs st cl Tf P K Kn B Cl) as H. unfold fbody in H. exact H.
Qed.
End Fun.

(** * Definitions *)
Section Defs.
Variables (E : env) (m0 : mem) (X : list (list Z)).
Hypothesis Few : few X.
Let lg := length (m_objs m0).
Let top := mksc (VRef lg) None.

Definition ready (T : list Z -> option (list param * stmt)) (st : sst) : Prop :=
  m_pend (t_mem st) = false /\ (forall k o, nth_error (m_objs m0) k = Some o -> nth_error (m_objs (t_mem st)) k = Some o) /\ knows m0 X T nothing st.

Lemma ready_ext T T' st : (forall x, T' x = T x) -> ready T st -> ready T' st.
Proof. intros Q (P & K & B & h & V & HX & A). split; [exact P|]. split; [exact K|]. split; [exact B|]. exists h. split; [exact V|]. split; [exact HX|]. intros x. rewrite Q. exact (A x). Qed.

Lemma define_one A1 A2 T st f ps body : ready T st -> In f X ->
  exists st', run_stmt E A1 A2 (SFunc f (plain ps) body) top st = OOk (SigNext, st') /\
    ready (fun x => if list_eq_dec Z.eq_dec x f then Some (ps, body) else T x) st'.
Proof.
  intros (P & K & B & h & V & HX & A) Hf. cbn [run_stmt]. unfold new_function. cbn [alloc fst snd t_mem t_codes top sc_clo sc_locals m_objs m_pend].
  set (n := length (m_objs (t_mem st))). set (cl := OClosure None (VRef lg)).
  rewrite app_length. cbn [length]. fold n. set (fn := OFun (length (t_codes st)) (VRef n)).
  set (m2 := mkmem ((m_objs (t_mem st) ++ [cl]) ++ [fn]) (m_pend (t_mem st))).
  assert (Gr : forall k o, nth_error (m_objs (t_mem st)) k = Some o -> nth_error (m_objs m2) k = Some o).
  { intros k o Hk. assert (k < length (m_objs (t_mem st)))%nat by (apply nth_error_Some; congruence). cbn [m2 m_objs]. rewrite <- app_assoc, nth_error_app1 by lia. exact Hk. }
  assert (Ncl : nth_error (m_objs m2) n = Some cl).
  { cbn [m2 m_objs]. rewrite <- app_assoc. unfold n. rewrite nth_error_app2, Nat.sub_diag by lia. reflexivity. }
  assert (Nfn : nth_error (m_objs m2) (n + 1) = Some fn).
  { cbn [m2 m_objs]. rewrite <- app_assoc. unfold n. rewrite nth_error_app2 by lia. replace (length (m_objs (t_mem st)) + 1 - length (m_objs (t_mem st)))%nat with 1%nat by lia. reflexivity. }
  assert (HX' : Forall (fun nv => In (fst nv) X) (h ++ [(f, VRef (n + 1))])) by (apply Forall_app; split; [exact HX|constructor; auto]).
  pose proof (vars_kept _ m2 lg h Gr V) as V2.
  destruct (set_var_vars E m2 lg h f (VRef (n + 1)) P V2 (few_tame _ _ Few HX')) as (m' & S & V' & P' & Ln & O). rewrite S. cbn [obind].
  eexists. split; [reflexivity|]. cbn [put_mem t_mem t_codes].
  assert (Om : exists mo, nth_error (m_objs m2) lg = Some (OMap mo)) by (destruct V2 as (mo & Q & _); eauto). destruct Om as [mo Om].
  assert (Kp : forall k o, (forall mo, o <> OMap mo) -> nth_error (m_objs m2) k = Some o -> nth_error (m_objs m') k = Some o).
  { intros k o No Hk. rewrite O; [exact Hk|]. intros ->. rewrite Om in Hk. injection Hk as <-. exact (No mo eq_refl). }
  split; [exact P'|]. split.
  { intros k o Hk. cbn [put_mem t_mem]. rewrite O; [apply Gr, K, Hk|]. assert (k < length (m_objs m0))%nat by (apply nth_error_Some; congruence). unfold lg. lia. }
  split; [discriminate|]. exists (h ++ [(f, VRef (n + 1))]). split; [exact V'|]. split; [exact HX'|].
  intros x. rewrite assigned_snoc. cbn [put_mem t_mem t_codes]. destruct (list_eq_dec Z.eq_dec x f) as [->|N].
  - exists (n + 1)%nat, (length (t_codes st)), n. split; [reflexivity|]. split; [apply Kp; [discriminate|exact Nfn]|]. split; [apply Kp; [discriminate|exact Ncl]|].
    rewrite nth_error_app2, Nat.sub_diag by lia. reflexivity.
  - specialize (A x). destruct (T x) as [[ps' body']|]; [|exact A]. destruct A as (k & c & c2 & A1' & A2' & A3 & A4). exists k, c, c2. split; [exact A1'|].
    split; [apply Kp; [discriminate|apply Gr, A2']|]. split; [apply Kp; [discriminate|apply Gr, A3]|].
    rewrite nth_error_app1; [exact A4|]. apply nth_error_Some. congruence.
Qed.

(** Later definitions replace earlier ones; with different names the order does not matter. *)
Fixpoint later (ds : list definition) (T : list Z -> option (list param * stmt)) : list Z -> option (list param * stmt) :=
  match ds with
  | [] => T
  | d :: r => later r (fun x => if list_eq_dec Z.eq_dec x (fst d) then Some (snd d) else T x)
  end.

Lemma later_not ds : forall T x, ~ In x (map fst ds) -> later ds T x = T x.
Proof.
  induction ds as [|d ds IH]; intros T x N; [reflexivity|]. cbn [later map] in *. rewrite IH by (intros H; apply N; right; exact H).
  destruct (list_eq_dec Z.eq_dec x (fst d)) as [->|]; [exfalso; apply N; left; reflexivity|reflexivity].
Qed.

Lemma later_defined ds : NoDup (map fst ds) -> forall T x, later ds T x = match defined ds x with Some q => Some q | None => T x end.
Proof.
  induction ds as [|d ds IH]; intros N T x; [reflexivity|]. inversion N as [|? ? N1 N2]; subst. unfold defined. cbn [later find].
  destruct (list_eq_dec Z.eq_dec (fst d) x) as [<-|Q].
  - rewrite later_not by exact N1. destruct (list_eq_dec Z.eq_dec (fst d) (fst d)); [reflexivity|contradiction].
  - rewrite (IH N2). unfold defined. destruct (find _ ds); [reflexivity|]. destruct (list_eq_dec Z.eq_dec x (fst d)); [congruence|reflexivity].
Qed.

Lemma define_all A1 A2 ss : forall ds T st, ready T st -> incl (map fst ds) X ->
  exists st', run_stmts E A1 A2 (program ds ss) top st = run_stmts E A1 A2 ss top st' /\ ready (later ds T) st'.
Proof.
  induction ds as [|[f [ps body]] ds IH]; intros T st R In; [exists st; auto|]. cbn [program later map fst snd] in *.
  destruct (define_one A1 A2 T st f ps body R (In f (or_introl eq_refl))) as (st1 & Q & R1). rewrite run_cons2, Q. cbn [obind fst snd].
  destruct (IH _ st1 R1 (fun x Hx => In x (or_intror Hx))) as (st2 & Q2 & R2). exists st2. split; [exact Q2|exact R2].
Qed.

Lemma ready_start : m_pend m0 = false -> ready (fun _ => None) (mkst (snd (alloc m0 (OMap (new_map (-1))))) []).
Proof.
  intros P. split; [exact P|]. split; [|split; [discriminate|]].
  - intros k o Hk. cbn. rewrite nth_error_app1; [exact Hk|]. apply nth_error_Some. congruence.
  - exists []. split; [|split; [constructor|reflexivity]]. apply vars_new. cbn. unfold lg. rewrite nth_error_app2, Nat.sub_diag by lia. reflexivity.
Qed.
End Defs.

(** * Whole programs *)

(** What is asked of a program: different names for its functions, which are only called; few names in each scope; no name of a builtin. *)
Definition fgood (ds : list definition) (ss : stmts) : Prop :=
  NoDup (map fst ds) /\ fcores (defined ds) false ss /\
  few (once (map fst ds ++ fmentions_all ss)) /\ (forall x, In x (fmentions_all ss) -> defined ds x = None) /\
  Forall (fun d => fcore (defined ds) false (snd (snd d)) /\ few (once (map fst (fst (snd d)) ++ fmentions (snd (snd d)))) /\
    (forall x, In x (map fst (fst (snd d)) ++ fmentions (snd (snd d))) -> defined ds x = None) /\
    Forall (fparam (defined ds)) (fst (snd d)) /\ Forall ident (default_names (fst (snd d)))) ds.
(** All the names, but those of types. *)
Definition fnames (ds : list definition) (ss : stmts) : list (list Z) :=
  map fst ds ++ fmentions_all ss ++ flat_map (fun d => (map fst (fst (snd d)) ++ fmentions (snd (snd d))) ++ default_names (fst (snd d))) ds.
Definition fkinds (ds : list definition) : list (list Z) := flat_map (fun d => kind_names (fst (snd d))) ds.

Definition fended (E : env) (m : mem) (X : list (list Z)) (r : fate) (p : list value * sst) : Prop :=
  match r with
  | Fell s => fst p = [VRef (length (m_objs m))] /\ forall x, In x X -> select_of E (t_mem (snd p)) (VRef (length (m_objs m))) (VStr x) = OOk (s x, t_mem (snd p))
  | Gave vs => fst p = vs
  | Broke _ => False
  end.

Lemma defined_in ds f q : defined ds f = Some q -> In (f, q) ds.
Proof.
  induction ds as [|d ds IH]; [discriminate|]. unfold defined. cbn [find]. destruct (list_eq_dec Z.eq_dec (fst d) f) as [<-|]; [intros [= <-]; destruct d; left; reflexivity|].
  intros H. right. exact (IH H).
Qed.

Lemma wf_program ds : forall ss, wf_stmts (program ds ss) -> wf_stmts ss /\ Forall (fun d => wf_stmt (snd (snd d)) /\ wf_params (plain (fst (snd d)))) ds.
Proof.
  induction ds as [|[f [ps body]] ds IH]; intros ss W; [split; [exact W|constructor]|]. cbn [program] in W. destruct W as [(_ & W0 & W1) W2].
  destruct (IH ss W2) as [W3 W4]. split; [exact W3|]. constructor; [split; assumption|assumption].
Qed.

Section Whole.
Variables (E : env) (m : mem) (ds : list definition) (ss : stmts).
Hypothesis G : fgood ds ss.
Hypothesis W : wf_stmts (program ds ss).
Hypothesis Pe : m_pend m = false.
Hypothesis Un : unknown E m (fnames ds ss).
Hypothesis Ty : knows_types E m (fkinds ds).
Let X := once (map fst ds ++ fmentions_all ss).

Lemma fgood_all : Forall ident (fnames ds ss).
Proof.
  destruct G as (N & C & [F _] & _ & D). unfold fnames. rewrite app_assoc. apply Forall_app. split; [apply Forall_forall; intros x Hx; rewrite Forall_forall in F; apply F, in_once, Hx|]. apply Forall_forall. intros x Hx.
  apply in_flat_map in Hx. destruct Hx as (d & Hd & Hx). rewrite Forall_forall in D. destruct (D d Hd) as (_ & [F2 _] & _ & _ & F3). rewrite Forall_forall in F2, F3.
  apply in_app_or in Hx. destruct Hx as [Hx|Hx]; [apply F2, in_once, Hx|apply F3, Hx].
Qed.

Lemma fgood_incl : incl X (fnames ds ss).
Proof. intros x Hx. unfold fnames. rewrite app_assoc. apply in_or_app. left. exact (proj1 (in_once x _) Hx). Qed.

Lemma fgood_defs : good_defs (fnames ds ss) (fkinds ds) (defined ds).
Proof.
  intros f ps body Tf. destruct G as (N & C & F & _ & D). apply defined_in in Tf. destruct (wf_program ds ss W) as [_ W2]. rewrite Forall_forall in D, W2.
  destruct (D _ Tf) as (D1 & D2 & D3 & D4 & D5). cbn [fst snd] in *. split; [exact D1|]. split; [exact (proj1 (W2 _ Tf))|]. split; [exact D2|].
  assert (I0 : incl ((map fst ps ++ fmentions body) ++ default_names ps) (fnames ds ss)).
  { intros x Hx. unfold fnames. apply in_or_app. right. apply in_or_app. right. apply in_flat_map. exists (f, (ps, body)). auto. }
  apply incl_app_inv in I0. destruct I0 as [I1 I2]. split; [exact I1|]. split; [exact D3|]. split; [exact D4|]. split; [exact I2|]. split; [|exact (proj2 (W2 _ Tf))].
  intros x Hx. unfold fkinds. apply in_flat_map. exists (f, (ps, body)). auto.
Qed.

Lemma fgood_funs f : defined ds f <> None -> In f (fnames ds ss).
Proof.
  intros H. destruct (defined ds f) as [q|] eqn:Q; [|contradiction]. apply defined_in in Q. unfold fnames. apply in_or_app. left. apply in_map_iff. exists (f, q). auto.
Qed.

Lemma fprogram A1 A2 again calls : calls_agree m X (defined ds) calls A2 -> stmts_agree m X (fnames ds ss) (defined ds) again A1 ->
  agrees (fended E m (fmentions_all ss)) (fdoes_all again calls None nothing ss)
    (do (g, st) <- run_stmts E A1 A2 (program ds ss) (mksc (VRef (length (m_objs m))) None) (mkst (snd (alloc m (OMap (new_map (-1))))) []);
     body_results g [VRef (length (m_objs m))] st).
Proof.
  intros Hc Ha. pose proof G as (N & C & F & Tn & D).
  destruct (define_all E m X F A1 A2 ss ds (fun _ => None) _ (ready_start m X Pe)) as (st & Q & R).
  { intros x Hx. apply in_once, in_or_app. left. exact Hx. }
  rewrite Q. assert (R' : ready m X (defined ds) st).
  { eapply ready_ext; [|exact R]. intros x. rewrite (later_defined ds N). destruct (defined ds x); reflexivity. }
  destruct R' as (P & K & Kn).
  pose proof (proj2 (stmt_agrees E m X (fnames ds ss) F fgood_all Un (defined ds) A1 A2 again calls Hc fgood_funs Ha) ss false None X nothing (mksc (VRef (length (m_objs m))) None) st C) as H.
  rewrite (tbind_told (fdoes_all again calls None nothing ss)). eapply agrees_bind; [apply H|].
  - split; [intros x Hx; apply in_once, in_or_app; right; exact Hx|]. exact (proj1 (wf_program ds ss W)).
  - intros x Hx. unfold fnames. rewrite app_assoc. apply in_or_app. left. exact (proj1 (in_once x _) Hx).
  - split; [exact P|]. split; [exact K|]. auto.
  - intros r [sg st2] [Kp Hr]. cbn [fst snd] in *. unfold body_results. rewrite (proj1 Kp).
    destruct r as [s1|s1|vs]; [destruct Hr as [-> Hr]|destruct Hr as [Lp _]; discriminate|destruct Hr as [-> Hr]]; apply agrees_told; cbn [fended fst snd].
    + split; [reflexivity|]. intros x Hx. destruct Hr as (_ & _ & _ & _ & _ & h & V & HX & A). specialize (A x). rewrite (Tn x Hx) in A. rewrite <- A. unfold select_of.
      apply (select_vars E _ (t_mem st2) _ h x (proj1 Kp) V (few_tame X h F HX)). pose proof fgood_all as Id. rewrite Forall_forall in Id. apply Id. unfold fnames. apply in_or_app. right. apply in_or_app. left. exact Hx.
    + reflexivity.
Qed.

Lemma fprogram_d n d : agrees (fended E m (fmentions_all ss)) (ftold ds ss n d) (run_program_d E n d (SComp (program ds ss)) m).
Proof.
  destruct n as [|n]; [reflexivity|].
  destruct (levels_d E m X (fnames ds ss) (proj1 (proj2 (proj2 G))) fgood_all Un Pe fgood_incl (fkinds ds) Ty (defined ds) fgood_funs fgood_defs n d) as [Hs Hc].
  exact (fprogram _ _ _ _ Hc Hs).
Qed.

Lemma fprogram_plain n : agrees (fended E m (fmentions_all ss)) (ftold ds ss n None) (run_program E n (SComp (program ds ss)) m).
Proof.
  destruct n as [|n]; [reflexivity|].
  destruct (levels_plain E m X (fnames ds ss) (proj1 (proj2 (proj2 G))) fgood_all Un Pe fgood_incl (fkinds ds) Ty (defined ds) fgood_funs fgood_defs n) as [Hs Hc].
  exact (fprogram _ _ _ _ Hc Hs).
Qed.
End Whole.
