(** Programs with lists: the description of ListsSpec.v and the evaluation of the syntax tree. *)
From Coq Require Import ZArith List Bool Lia.
From Verif Require Import Base Utf8Model Utf8Spec Utf8Proofs FloatModel StringModel TextProofs ListModel SeqSpec ListProofs ValueModel ExeModel ArithModel AstModel CodegenModel CompSpec
  MapModel MapSpec MapProofs MapProofs2 ObjModel VmModel SrcModel LexModel ParseModel FuelProofs RunProofs ParseSafe CompileModel CompileProofs DepthSpec DepthProofs
  ScopeSpec ScopeProofs CalcSpec CalcProofs WhileSpec WhileProofs FunSpec.
From Verif Require FunProofs.
From Verif Require Import ListsSpec.
Import ListNotations.
Open Scope Z_scope.

(** * Outcomes; about what is not told anything may happen *)
Definition follows {A B} (P : A -> B -> Prop) (t : told A) (o : out B) : Prop :=
  match t with
  | Told a => exists b, o = OOk b /\ P a b
  | Wrong => o = OErr
  | Overflows => o = OUB
  | Deep => True
  | Unfinished => o = OFuel
  end.

Lemma follows_bind {A B C D} (P : A -> B -> Prop) (Q : C -> D -> Prop) t o f g :
  follows P t o -> (forall a b, P a b -> follows Q (f a) (g b)) -> follows Q (tbind t f) (obind o g).
Proof. destruct t; cbn [follows tbind]; intros H K; try exact I; [|rewrite H; reflexivity..]. destruct H as (b & -> & H). cbn [obind]. exact (K _ _ H). Qed.
Lemma follows_told {A B} (P : A -> B -> Prop) a b : P a b -> follows P (Told a) (OOk b).
Proof. intros H. exists b. auto. Qed.
Lemma follows_mono {A B} (P Q : A -> B -> Prop) t o : (forall a b, P a b -> Q a b) -> follows P t o -> follows Q t o.
Proof. intros K. destruct t; cbn [follows]; auto. intros (b & E & H). eauto. Qed.

(** * Characters *)
Lemma characters_n_chars : forall cs n, Forall loose_char cs -> (length (concat cs) <= n)%nat -> characters_n n (concat cs) = cs.
Proof.
  induction cs as [|c cs IH]; intros n F L; [destruct n; reflexivity|]. inversion F as [|? ? Hc Hcs]; subst. destruct c as [|b r]; [destruct Hc as [_ []]|].
  cbn [concat] in *. rewrite app_length in L. cbn [length] in L. destruct n as [|n]; [lia|]. destruct Hc as (_ & Hl & _).
  cbn [characters_n app]. rewrite <- Hl. change (b :: r ++ concat cs) with ((b :: r) ++ concat cs). rewrite firstn_app_exact.
  f_equal. rewrite skipn_app, skipn_all, Nat.sub_diag. cbn [app skipn]. apply IH; [exact Hcs|lia].
Qed.

Lemma characters_chars cs : Forall loose_char cs -> characters (concat cs) = cs.
Proof. intros F. apply characters_n_chars; auto. Qed.

Lemma zget_map {A B} (f : A -> B) s i : seq_get (map f s) i = option_map f (seq_get s i).
Proof. unfold seq_get, zget. destruct (i <? 0); [reflexivity|]. rewrite nth_error_map. reflexivity. Qed.

Lemma seq_set_map {A B} (f : A -> B) s i v : seq_set (map f s) i (f v) = option_map (map f) (seq_set s i v).
Proof.
  unfold seq_set. rewrite map_length. destruct (i =? _); [cbn; rewrite map_app; reflexivity|]. destruct (_ && _); [|reflexivity].
  cbn [option_map]. rewrite map_app, map_cons, firstn_map, skipn_map. reflexivity.
Qed.

Lemma seq_set_length {A} (s : list A) i v s' : seq_set s i v = Some s' -> (length s' <= S (length s))%nat.
Proof.
  unfold seq_set. destruct (Z.eqb_spec i (Z.of_nat (length s))); [intros [= <-]; rewrite app_length; cbn; lia|].
  destruct ((0 <=? i) && (i <? Z.of_nat (length s))) eqn:B; [|discriminate]. rewrite andb_true_iff, Z.leb_le, Z.ltb_lt in B. intros H.
  replace s' with (firstn (Z.to_nat i) s ++ v :: skipn (S (Z.to_nat i)) s) by congruence.
  rewrite app_length, firstn_length. change (length (v :: skipn (S (Z.to_nat i)) s)) with (S (length (skipn (S (Z.to_nat i)) s))). rewrite skipn_length. lia.
Qed.

Lemma seq_set_all {A} (P : A -> Prop) s i v s' : seq_set s i v = Some s' -> Forall P s -> P v -> Forall P s'.
Proof.
  unfold seq_set. destruct (i =? _); [intros [= <-] F V; apply Forall_app; auto|]. destruct (_ && _); [|discriminate]. intros H F V.
  replace s' with (firstn (Z.to_nat i) s ++ v :: skipn (S (Z.to_nat i)) s) by congruence.
  rewrite <- (firstn_skipn (Z.to_nat i) s) in F. apply Forall_app in F. destruct F as [F1 F2]. apply Forall_app. split; [exact F1|]. constructor; [exact V|].
  assert (G : forall n, Forall P (skipn n s) -> Forall P (skipn (S n) s)); [|apply G, F2]. clear. induction s as [|a s IH]; intros n H; [constructor|].
  destruct n as [|n]; [inversion H; assumption|]. exact (IH n H).
Qed.

(** * Values *)
Section Lists.
Variables (E : env) (m0 : mem) (X : list (list Z)).
Hypothesis Few : few X.
Hypothesis Un : unknown E m0 X.
Notation lg := (length (m_objs m0)).
Notation sc := (mksc (VRef lg) None).

Definition sh (v : value) : value := match v with VRef k => VRef (S lg + k) | _ => v end.
Definition fine_v (n : nat) (v : value) : Prop := match v with VRef k => (k < n)%nat | VStr s => text_ok s /\ chars s | _ => basic v end.

Lemma fine_more n n' v : (n <= n')%nat -> fine_v n v -> fine_v n' v.
Proof. intros L. destruct v; cbn; auto. lia. Qed.

Lemma fine_basic n v : fine_v n v -> (exists k, v = VRef k /\ (k < n)%nat) \/ (basic v /\ sh v = v).
Proof. destruct v; cbn; intros H; try (right; split; [exact H|reflexivity]); [right; split; [apply H|reflexivity]|left; eauto]. Qed.

(** What is kept: the variables at [lg], then the lists. *)
Definition kept (s : store) (h : lists) (m : mem) : Prop :=
  m_pend m = false /\ (forall k o, nth_error (m_objs m0) k = Some o -> nth_error (m_objs m) k = Some o) /\
  length (m_objs m) = (S lg + length h)%nat /\
  (forall x v, s x = Some v -> fine_v (length h) v) /\
  (forall k xs, nth_error h k = Some xs -> Forall (fine_v (length h)) xs /\ Z.of_nat (length xs) <= 2 ^ 30 /\
    exists lo, nth_error (m_objs m) (S lg + k) = Some (OList lo) /\ rep lo (map sh xs) /\ 8 <= l_cap lo) /\
  exists hh, vars m lg hh /\ Forall (fun nv => In (fst nv) X) hh /\ forall x, assigned hh x = option_map sh (s x).

Lemma kept_ident x : In x X -> ident x.
Proof. intros H. destruct Few as [F _]. rewrite Forall_forall in F. auto. Qed.

Lemma kept_get s h m x : kept s h m -> In x X -> get_var E m (VRef lg) None x = OOk (option_map sh (s x), m).
Proof.
  intros (P & K & L & B & Ls & hh & V & HX & A) Hx.
  rewrite (get_var_scopes E m lg hh None [] [] x P (kept_ident x Hx) V (few_tame X hh Few HX) (chain_none m)).
  cbn [visible]. rewrite A. destruct (s x); [reflexivity|]. apply Un; auto.
Qed.

Lemma kept_select s h m x : kept s h m -> In x X -> select_of E m (VRef lg) (VStr x) = OOk (option_map sh (s x), m).
Proof.
  intros (P & K & L & B & Ls & hh & V & HX & A) Hx. unfold select_of. rewrite <- A. exact (select_vars E _ m lg hh x P V (few_tame X hh Few HX) (kept_ident x Hx)).
Qed.

Lemma kept_set s h m x v : kept s h m -> In x X -> fine_v (length h) v -> exists m', set_var E m (VRef lg) x (sh v) = OOk m' /\ kept (put_in s x v) h m'.
Proof.
  intros (P & K & L & B & Ls & hh & V & HX & A) Hx Bv.
  assert (HX' : Forall (fun nv => In (fst nv) X) (hh ++ [(x, sh v)])) by (apply Forall_app; split; [exact HX|constructor; auto]).
  destruct (set_var_vars E m lg hh x (sh v) P V (few_tame _ _ Few HX')) as (m' & S & V' & P' & L' & O). exists m'. split; [exact S|].
  split; [exact P'|]. split; [|split; [congruence|split; [|split]]].
  - intros k o Hk. rewrite O; [auto|]. assert (k < lg)%nat by (apply nth_error_Some; congruence). lia.
  - intros y w. unfold put_in. destruct (list_eq_dec Z.eq_dec y x); [intros [= <-]; exact Bv|apply B].
  - intros k xs Hk. destruct (Ls k xs Hk) as (F & Le & lo & Q & R). split; [exact F|]. split; [exact Le|]. exists lo. split; [rewrite O by lia; exact Q|exact R].
  - exists (hh ++ [(x, sh v)]). split; [exact V'|]. split; [exact HX'|]. intros y. rewrite FunProofs.assigned_snoc. unfold put_in.
    destruct (list_eq_dec Z.eq_dec y x); [reflexivity|]. apply A.
Qed.

Lemma kept_alloc s h m c : kept s h m -> fst (alloc m (OList (new_list c))) = VRef (S lg + length h) /\ kept s (h ++ [[]]) (snd (alloc m (OList (new_list c)))).
Proof.
  intros (P & K & L & B & Ls & hh & (mo & V & Hi) & HX & A). cbn [alloc fst snd]. split; [congruence|].
  assert (Gr : forall k o, nth_error (m_objs m) k = Some o -> nth_error (m_objs m ++ [OList (new_list c)]) k = Some o).
  { intros k o Hk. rewrite nth_error_app1; [exact Hk|]. apply nth_error_Some. congruence. }
  split; [exact P|]. split; [intros k o Hk; apply Gr, K, Hk|]. split; [cbn [m_objs]; rewrite !app_length, L; cbn [length]; lia|].
  assert (Le : (length h <= length (h ++ [[]]))%nat) by (rewrite app_length; lia). split; [intros x v Hv; exact (fine_more _ _ _ Le (B x v Hv))|]. split.
  - intros k xs Hk. destruct (Nat.lt_ge_cases k (length h)) as [Lt|Ge].
    + rewrite nth_error_app1 in Hk by exact Lt. destruct (Ls k xs Hk) as (F & Sm & lo & Q & R). split; [exact (Forall_impl _ (fun v => fine_more _ _ v Le) F)|].
      split; [exact Sm|]. exists lo. split; [apply Gr, Q|exact R].
    + rewrite nth_error_app2 in Hk by exact Ge. destruct (k - length h)%nat as [|d] eqn:D; [|destruct d; discriminate Hk]. injection Hk as <-.
      split; [constructor|]. split; [cbn; lia|]. exists (new_list c). split; [|split; [apply rep_new|apply new_list_cap]].
      cbn [m_objs]. rewrite nth_error_app2 by lia. replace (S lg + k - length (m_objs m))%nat with 0%nat by lia. reflexivity.
  - exists hh. split; [exists mo; split; [apply Gr, V|exact Hi]|]. auto.
Qed.

Lemma near_in i : near i = true -> in_int i.
Proof. unfold near, in_int. rewrite andb_true_iff, Z.leb_le, Z.ltb_lt. lia. Qed.

Lemma kept_list s h m k xs lo : kept s h m -> nth_error h k = Some xs -> forall ys, Forall (fine_v (length h)) ys -> Z.of_nat (length ys) <= 2 ^ 30 -> rep lo (map sh ys) -> 8 <= l_cap lo ->
  kept s (upd h k ys) (set_obj m (S lg + k) (OList lo)).
Proof.
  intros (P & K & L & B & Ls & hh & (mo & V & Hi) & HX & A) Hk ys Fy Sy R C.
  assert (Lk : (k < length h)%nat) by (apply nth_error_Some; congruence).
  assert (Ot : forall j, j <> (S lg + k)%nat -> nth_error (m_objs (set_obj m (S lg + k) (OList lo))) j = nth_error (m_objs m) j).
  { intros j N. cbn [set_obj m_objs]. apply nth_error_upd_other. auto. }
  split; [exact P|]. split; [|split; [cbn [set_obj m_objs]; rewrite !upd_length; exact L|split; [rewrite upd_length; exact B|split]]].
  - intros j o Hj. rewrite Ot; [auto|]. assert (j < lg)%nat by (apply nth_error_Some; congruence). lia.
  - intros j zs Hj. rewrite upd_length. destruct (Nat.eq_dec j k) as [->|N].
    + rewrite nth_error_upd_same in Hj by exact Lk. injection Hj as <-. split; [exact Fy|]. split; [exact Sy|]. exists lo. split; [|auto].
      cbn [set_obj m_objs]. apply nth_error_upd_same. lia.
    + rewrite nth_error_upd_other in Hj by auto. destruct (Ls j zs Hj) as (F & Sm & lj & Q & Rj). split; [exact F|]. split; [exact Sm|]. exists lj. split; [rewrite Ot by lia; exact Q|exact Rj].
  - exists hh. split; [exists mo; split; [rewrite Ot by lia; exact V|exact Hi]|]. auto.
Qed.

Lemma kept_place s h m k xs i v : kept s h m -> nth_error h k = Some xs -> near i = true -> short xs = true -> fine_v (length h) v ->
  match seq_set xs i v with
  | Some ys => exists m', insert_of E m (VRef (S lg + k)) (VInt i) (sh v) = OOk m' /\ kept s (upd h k ys) m'
  | None => insert_of E m (VRef (S lg + k)) (VInt i) (sh v) = OErr
  end.
Proof.
  intros Kp Hk Ni Sx Fv. pose proof Kp as (P & K & L & B & Ls & _). destruct (Ls k xs Hk) as (F & Sm & lo & Q & R & C). unfold short in Sx. apply Z.ltb_lt in Sx.
  unfold insert_of. rewrite Q. pose proof (insert_spec lo (map sh xs) i (sh v) R C ltac:(rewrite map_length; exact Sx) (near_in i Ni)) as H. rewrite seq_set_map in H.
  destruct (seq_set xs i v) as [ys|] eqn:S; cbn [option_map] in H; [|rewrite H; reflexivity]. destruct H as (lo' & -> & R' & C'). eexists. split; [reflexivity|].
  apply (kept_list s h m k xs lo' Kp Hk ys); [exact (seq_set_all _ _ _ _ _ S F Fv)| |exact R'|lia]. pose proof (seq_set_length _ _ _ _ S). lia.
Qed.

Lemma kept_pend s h m : kept s h m -> set_pend m false = m /\ forall b, set_pend (set_pend m b) false = m.
Proof. intros (P & _). destruct m as [os p]. cbn in *. subst p. auto. Qed.

Lemma text_part cs c : In c cs -> text_ok (concat cs) -> text_ok c.
Proof. unfold text_ok. rewrite !Forall_forall. intros H T z Hz. apply T, in_concat. eauto. Qed.

Lemma kept_pick s h m col key : kept s h m -> fine_v (length h) col -> fine_v (length h) key ->
  follows (fun v p => p = (sh v, m) /\ fine_v (length h) v) (picked h col key) (select_or_none E m (sh col) (sh key)).
Proof.
  intros Kp Fc Fk. destruct (kept_pend s h m Kp) as [Pf Pb]. pose proof Kp as (P & K & L & B & Ls & _).
  assert (Un2 : forall o, select_of E m (sh col) (sh key) = OOk (o, m) \/ (o = None /\ select_of E m (sh col) (sh key) = OOk (o, set_pend m true)) ->
    select_or_none E m (sh col) (sh key) = OOk (match o with Some v => v | None => VNone end, m)).
  { intros o H. unfold select_or_none. rewrite Pf, P. destruct H as [-> |[-> ->]]; cbn [obind fst snd]; rewrite ?Pf, ?Pb; reflexivity. }
  assert (No : select_of E m (sh col) (sh key) = OOk (None, set_pend m true) -> follows (fun v p => p = (sh v, m) /\ fine_v (length h) v) (Told VNone) (select_or_none E m (sh col) (sh key))).
  { intros H. rewrite (Un2 None) by auto. apply follows_told. split; [reflexivity|exact I]. }
  unfold select_of in *. destruct col as [| | | |bs| | |k]; try contradiction Fc.
  1-4: cbn [picked]; apply No; destruct (depth (m_objs m)); reflexivity.
  - cbn [sh] in *. assert (Q : forall key', obj_select E (depth (m_objs m)) m (VStr bs) key' = keyed m key' (fun i => match str_select (str_of bs) i with ROk s => ROk (VStr (s_bytes s)) | RErr => RErr | RUB => RUB end))
      by (intros key'; destruct (depth (m_objs m)); reflexivity).
    destruct key as [| |i| | | | |]; try (cbn [picked]; apply No; rewrite Q; reflexivity).
    cbn [picked]. destruct (near i) eqn:Ni; [|exact I]. apply near_in in Ni. cbn [sh] in *. destruct Fc as [Tx (cs & Fl & Cc & Ln)]. subst bs.
    rewrite (characters_chars cs Fl). assert (So : str_of (concat cs) = mkstr (Z.of_nat (length cs)) (concat cs)).
    { pose proof (from_string_chars cs [] Fl) as H. unfold from_string in H. destruct (Z.ltb_spec (Z.of_nat (length (concat cs))) 0); [lia|]. rewrite Nat2Z.id, app_nil_r, Nat.ltb_irrefl in H.
      unfold str_of. destruct (utf8_strlen (concat cs) (length (concat cs))); try discriminate H. rewrite firstn_all in H. injection H as ->. reflexivity. }
    assert (Lc : Z.of_nat (length cs) < 2 ^ 31).
    { assert (H : (length cs <= length (concat cs))%nat); [|lia]. clear -Fl. induction Fl as [|c cs Hc _ IH]; [cbn; lia|]. cbn [concat length]. rewrite app_length. destruct c; [destruct Hc as [_ []]|cbn [length]; lia]. }
    unfold seq_get, zget. destruct (Z.ltb_spec i 0).
    { apply No. rewrite Q. cbn [keyed]. rewrite str_select_out by (auto). reflexivity. }
    destruct (nth_error cs (Z.to_nat i)) as [c|] eqn:Nc.
    + assert (Ic : In c cs) by (eapply nth_error_In; eauto). assert (Lo : loose_char c) by (rewrite Forall_forall in Fl; auto).
      rewrite (Un2 (Some (VStr c))). { apply follows_told. split; [reflexivity|]. split; [exact (text_part cs c Ic Tx)|]. exists [c]. split; [auto|]. split; [cbn; apply app_nil_r|].
        assert (H1 : (length c <= 4)%nat); [|lia]. destruct c as [|b r]; [cbn; lia|]. destruct Lo as (_ & -> & _). unfold lead_len. repeat destruct (_ <? _); lia. }
      left. rewrite Q. cbn [keyed]. rewrite So. pose proof (str_select_chars cs (Z.to_nat i) c Fl Lc Nc) as H1. rewrite Z2Nat.id in H1 by lia. rewrite H1. reflexivity.
    + apply nth_error_None in Nc. apply No. rewrite Q. cbn [keyed]. rewrite str_select_out; [reflexivity|exact Ni|]. right. rewrite So. cbn [s_count]. lia.
  - cbn [fine_v] in Fc. destruct (nth_error h k) as [xs|] eqn:Hk; [|apply nth_error_None in Hk; lia]. destruct (Ls k xs Hk) as (F & Sm & lo & Ho & R & C). cbn [sh] in *.
    assert (Q : forall key', obj_select E (depth (m_objs m)) m (VRef (S lg + k)) key' = keyed m key' (list_select lo)) by (intros key'; destruct (depth (m_objs m)); cbn [obj_select]; rewrite Ho; reflexivity).
    destruct key as [| |i| | | | |]; try (cbn [picked]; apply No; rewrite Q; reflexivity).
    cbn [picked]. destruct (near i) eqn:Ni; [|exact I]. apply near_in in Ni. rewrite Hk. cbn [sh] in *.
    assert (Sel : keyed m (VInt i) (list_select lo) = match seq_get xs i with Some v => OOk (Some (sh v), m) | None => OOk (None, set_pend m true) end).
    { cbn [keyed]. rewrite (select_spec lo (map sh xs) i R ltac:(rewrite map_length; lia) Ni), zget_map. destruct (seq_get xs i); reflexivity. }
    destruct (seq_get xs i) as [v|] eqn:G.
    + rewrite (Un2 (Some (sh v))) by (left; rewrite Q; exact Sel). apply follows_told. split; [reflexivity|]. unfold seq_get, zget in G. destruct (i <? 0); [discriminate|].
      rewrite Forall_forall in F. apply F. eapply nth_error_In, G.
    + apply No. rewrite Q. exact Sel.
Qed.

(** * Operators *)
Lemma answer_fine op v w r n : lmeans2 op v w = AVal r -> (exists b, r = VBool b) \/ (exists z, r = VInt z) \/ (exists z, r = VFloat z) \/ n = O.
Proof.
  intros H. assert (G : means2 op v w = AVal r) by (destruct op, v, w; try exact H; discriminate H). clear H. revert G.
  unfold means2, order, arith, bool_answer, fits64, as_double.
  destruct op, v, w; try discriminate; repeat match goal with |- context [if ?b then _ else _] => destruct b end; try discriminate; intros [= <-]; eauto.
Qed.

Lemma binary_lists op m n v w : op <> BStp -> fine_v n v -> fine_v n w -> m_pend m = false ->
  (forall k, (k < n)%nat -> exists lo, nth_error (m_objs m) (S lg + k) = Some (OList lo)) ->
  match lmeans2 op v w with
  | AVal r => binary_op (binop_code op) m (sh v) (sh w) = OOk (r, m) /\ sh r = r /\ fine_v n r
  | AErr => binary_op (binop_code op) m (sh v) (sh w) = OErr
  | ALost => binary_op (binop_code op) m (sh v) (sh w) = OUB
  | ANone => False
  end.
Proof.
  intros N Fv Fw P Ls.
  assert (Rt : forall k, (k < n)%nat -> rt_of (m_objs m) (S lg + k) = TyList) by (intros k Hk; unfold rt_of; destruct (Ls k Hk) as [lo ->]; reflexivity).
  assert (Fr : forall r, lmeans2 op v w = AVal r -> basic r -> sh r = r /\ fine_v n r).
  { intros r Hr Br. destruct (answer_fine op v w r 1 Hr) as [[b ->]|[[z ->]|[[z ->]|?]]]; try discriminate; auto. }
  destruct (fine_basic n v Fv) as [(a & -> & Ha)|[Bv ->]], (fine_basic n w Fw) as [(b & -> & Hb)|[Bw ->]].
  - destruct op; try congruence; cbn [binop_code lmeans2 sh]; try reflexivity;
      unfold binary_op, compare_op, obj_compare; cbn [type_of]; rewrite (Rt a Ha), (Rt b Hb); reflexivity.
  - destruct op; try congruence; destruct w; try contradiction Bw; cbn [binop_code lmeans2 sh]; try reflexivity;
      unfold binary_op, compare_op, obj_compare; cbn [type_of]; rewrite (Rt a Ha); cbn [tyname_eqb negb]; cbv beta iota; rewrite ?P; (split; [reflexivity|split; [reflexivity|exact I]]).
  - destruct op; try congruence; destruct v; try contradiction Bv; cbn [binop_code lmeans2 sh]; try reflexivity;
      unfold binary_op, compare_op, obj_compare; cbn [type_of]; rewrite (Rt b Hb); cbn [tyname_eqb negb]; cbv beta iota; rewrite ?P; (split; [reflexivity|split; [reflexivity|exact I]]).
  - assert (Q : lmeans2 op v w = means2 op v w) by (destruct op, v; try reflexivity; contradiction Bv). rewrite Q in *.
    pose proof (binary_means op m v w N Bv Bw P) as U. destruct (means2 op v w) as [r| | |]; try exact U. destruct U as [U Br]. split; [exact U|]. apply Fr; auto.
Qed.

Lemma unary_lists op m n v : op <> UNlb -> fine_v n v ->
  match means1 op v with
  | AVal r => unary_op (unop_code op) m (sh v) = OOk (sh r, m) /\ fine_v n r
  | AErr => unary_op (unop_code op) m (sh v) = OErr
  | ALost => unary_op (unop_code op) m (sh v) = OUB
  | ANone => False
  end.
Proof.
  intros N Fv. destruct (fine_basic n v Fv) as [(a & -> & Ha)|[Bv Sv]].
  - destruct op; try congruence; cbn [means1 unop_code sh]; try reflexivity. split; [reflexivity|exact Fv].
  - rewrite Sv. pose proof (unary_means op m v N Bv) as U. destruct (means1 op v) as [r| | |] eqn:M; try exact U. destruct U as [U Br].
    assert (G : sh r = r /\ fine_v n r).
    { destruct op; try congruence; cbn [means1] in M; [injection M as <-; auto|..]; destruct v; try discriminate M; unfold bool_answer, fits64 in M;
        repeat match type of M with context [if ?b then _ else _] => destruct b end; try discriminate M; injection M as <-; auto. }
    destruct G as [-> G]. auto.
Qed.

(** * Expressions *)
Section Eval.
Variable A2 : params -> stmt -> list value -> value -> sst -> out (list value * sst).
Notation ev := (eval E A2).

Definition valued (s : store) (h : lists) (p : value * lists) (q : list value * sst) : Prop :=
  fst q = [sh (fst p)] /\ fine_v (length (snd p)) (fst p) /\ kept s (snd p) (t_mem (snd q)) /\ exists g, snd p = h ++ g.
Definition filled (s : store) (k : nat) (h h' : lists) (st' : sst) : Prop :=
  kept s h' (t_mem st') /\ (length h <= length h')%nat /\ firstn k h' = firstn k h.

Lemma kept_lists s h m k : kept s h m -> (k < length h)%nat -> exists lo, nth_error (m_objs m) (S lg + k) = Some (OList lo).
Proof. intros (_ & _ & _ & _ & Ls & _) Hk. destruct (nth_error h k) as [xs|] eqn:Q; [|apply nth_error_None in Q; lia]. destruct (Ls k xs Q) as (_ & _ & lo & G & _). eauto. Qed.

Lemma more_app (h g : lists) : (length h <= length (h ++ g))%nat.
Proof. rewrite app_length. lia. Qed.

Lemma eval_list mo es s st : ev mo (EList es) s sc st =
  obind (eval_items E A2 (fst (alloc (t_mem st) (OList (new_list (wrap32 (exprs_len es)))))) 0 es sc (put_mem st (snd (alloc (t_mem st) (OList (new_list (wrap32 (exprs_len es))))))))
    (fun st1 => one (fst (alloc (t_mem st) (OList (new_list (wrap32 (exprs_len es)))))) st1).
Proof. reflexivity. Qed.

Lemma eval_item l i e r st : eval_items E A2 l i (ECons e r) sc st =
  obind (ev MVal e [] sc st) (fun p => match fst p with [v] => obind (insert_of E (t_mem (snd p)) l (VInt i) v) (fun mm => eval_items E A2 l (i + 1) r sc (put_mem (snd p) mm)) | _ => OUB end).
Proof.
  transitivity (obind (ev MVal e [] sc st) (fun p => let (x, st1) := p in match x with [v] => obind (insert_of E (t_mem st1) l (VInt i) v) (fun mm => eval_items E A2 l (i + 1) r sc (put_mem st1 mm)) | _ => OUB end)); [reflexivity|].
  destruct (ev MVal e [] sc st) as [[x st1]| | | |]; reflexivity.
Qed.

Lemma eval_sel mo a i s st : mo = MVal \/ mo = MRets -> ev mo (ESel a i) s sc st =
  obind (ev MVal a [] sc st) (fun p => obind (ev MVal i [] sc (snd p)) (fun q => match fst p, fst q with
    | [col], [key] => obind (select_or_none E (t_mem (snd q)) col key) (fun u => one (fst u) (put_mem (snd q) (snd u))) | _, _ => OUB end)).
Proof.
  intros M. transitivity (obind (ev MVal a [] sc st) (fun p => let (x, st1) := p in obind (ev MVal i [] sc st1) (fun q => let (y, st2) := q in match x, y with
    | [col], [key] => obind (select_or_none E (t_mem st2) col key) (fun u => let (r, mm) := u in one r (put_mem st2 mm)) | _, _ => OUB end))).
  { destruct M as [-> | ->]; reflexivity. }
  destruct (ev MVal a [] sc st) as [[x st1]| | | |]; try reflexivity. cbn [obind fst snd]. destruct (ev MVal i [] sc st1) as [[y st2]| | | |]; try reflexivity. cbn [obind fst snd].
  destruct x as [|col [|]]; try reflexivity. destruct y as [|key [|]]; try reflexivity. destruct (select_or_none E (t_mem st2) col key) as [[]| | | |]; reflexivity.
Qed.

Lemma eval_lsays :
  (forall e mo s h st, lsimple e -> incl (lnamed e) X -> wf_expr e -> (mo = MVal \/ mo = MRets) -> kept s h (t_mem st) ->
    follows (valued s h) (lsays s h e) (ev mo e [] sc st)) /\
  (forall es s k h xs st, lsimples es -> incl (lnameds es) X -> wf_exprs es -> kept s h (t_mem st) -> nth_error h k = Some xs ->
    follows (filled s k h) (litems s k h es) (eval_items E A2 (VRef (S lg + k)) (Z.of_nat (length xs)) es sc st)).
Proof.
  assert (Same : forall s h st v, fine_v (length h) v -> kept s h (t_mem st) -> follows (valued s h) (Told (v, h)) (one (sh v) st)).
  { intros s h st v F K. apply follows_told. split; [reflexivity|]. split; [exact F|]. split; [exact K|]. exists []. symmetry. apply app_nil_r. }
  apply FunProofs.expr_mut2; intros; cbn [lsimple] in *; try contradiction.
  - exact (Same s h st (VInt z) H1 H3).
  - exact (Same s h st (VFloat bits) I H3).
  - cbn [lsays eval]. cbn [wf_expr] in H1. rewrite (vstring_chars _ H1 H). exact (Same s0 h st (VStr s) (conj H1 H) H3).
  - rename s into x. pose proof (kept_get s0 h (t_mem st) x H3 (H0 x (or_introl eq_refl))) as G.
    assert (Q : ev mo (EIdent x) [] sc st = match option_map sh (s0 x) with Some v => one v st | None => OErr end).
    { destruct H2 as [-> | ->]; cbn [eval sc_locals sc_clo]; rewrite G; cbn [obind]; destruct (option_map sh (s0 x)); rewrite ?put_same; reflexivity. }
    rewrite Q. cbn [lsays]. destruct (s0 x) as [v|] eqn:Sx; [|reflexivity]. cbn [option_map]. apply Same; [|exact H3]. destruct H3 as (_ & _ & _ & B & _). exact (B x v Sx).
  - exact (Same s h st VNone I H3).
  - exact (Same s h st (VBool true) I H3).
  - exact (Same s h st (VBool false) I H3).
  - destruct H0 as [N Si]. cbn [lnamed wf_expr] in *. cbn [lsays eval]. eapply follows_bind; [exact (H MVal s h st Si H1 H2 (or_introl eq_refl) H4)|].
    intros [v h1] [ys st1] (Q1 & F1 & K1 & g1 & G1). cbn [fst snd] in *. subst ys. pose proof (unary_lists op (t_mem st1) (length h1) v N F1) as U.
    destruct (means1 op v) as [r| | |]; cbn [tell tbind follows]; try contradiction; [|rewrite U; reflexivity..]. destruct U as [-> Fr]. cbn [obind]. rewrite put_same.
    eexists. split; [reflexivity|]. split; [reflexivity|]. split; [exact Fr|]. split; [exact K1|eauto].
  - destruct H1 as (N & S1 & S2). cbn [lnamed wf_expr] in *. apply incl_app_inv in H2. destruct H2 as [I1 I2], H3 as [W1 W2]. cbn [lsays eval].
    eapply follows_bind; [exact (H MVal s h st S1 I1 W1 (or_introl eq_refl) H5)|]. intros [v h1] [ys st1] (Q1 & F1 & K1 & g1 & G1). cbn [fst snd] in *. subst ys.
    eapply follows_bind; [exact (H0 MVal s h1 st1 S2 I2 W2 (or_introl eq_refl) K1)|]. intros [u h2] [ys st2] (Q2 & F2 & K2 & g2 & G2). cbn [fst snd] in *. subst ys.
    pose proof (binary_lists op (t_mem st2) (length h2) v u N (fine_more (length h1) (length h2) v (eq_ind_r (fun x : lists => (length h1 <= length x)%nat) (more_app h1 g2) G2) F1) F2 (proj1 K2) (fun k => kept_lists _ _ _ k K2)) as U.
    destruct (lmeans2 op v u) as [r| | |]; cbn [tell tbind follows]; try contradiction; [|rewrite U; reflexivity..]. destruct U as [-> [Sr Fr]]. cbn [obind]. rewrite put_same.
    eexists. split; [reflexivity|]. split; [cbn [fst]; rewrite Sr; reflexivity|]. split; [exact Fr|]. split; [exact K2|]. exists (g1 ++ g2). subst. cbn [snd]. symmetry. apply app_assoc.
  - destruct H1 as (S1 & S2). cbn [lnamed wf_expr] in *. apply incl_app_inv in H2. destruct H2 as [I1 I2], H3 as [W1 W2]. cbn [lsays eval].
    eapply follows_bind; [exact (H MVal s h st S1 I1 W1 (or_introl eq_refl) H5)|]. intros [v h1] [ys st1] (Q1 & F1 & K1 & g1 & G1). cbn [fst snd] in *. subst ys.
    destruct v as [|[]| | | | | |]; try contradiction F1; try reflexivity; [|apply follows_told; split; [reflexivity|split; [exact I|eauto]]]. cbn [sh].
    eapply follows_bind; [exact (H0 MVal s h1 st1 S2 I2 W2 (or_introl eq_refl) K1)|]. intros [u h2] [ys st2] (Q2 & F2 & K2 & g2 & G2). cbn [fst snd] in *. subst ys.
    destruct u; try contradiction F2; try reflexivity. apply follows_told. split; [reflexivity|]. split; [exact I|]. split; [exact K2|]. exists (g1 ++ g2). subst. cbn [snd]. symmetry. apply app_assoc.
  - destruct H1 as (S1 & S2). cbn [lnamed wf_expr] in *. apply incl_app_inv in H2. destruct H2 as [I1 I2], H3 as [W1 W2]. cbn [lsays eval].
    eapply follows_bind; [exact (H MVal s h st S1 I1 W1 (or_introl eq_refl) H5)|]. intros [v h1] [ys st1] (Q1 & F1 & K1 & g1 & G1). cbn [fst snd] in *. subst ys.
    destruct v as [|[]| | | | | |]; try contradiction F1; try reflexivity; [apply follows_told; split; [reflexivity|split; [exact I|eauto]]|]. cbn [sh].
    eapply follows_bind; [exact (H0 MVal s h1 st1 S2 I2 W2 (or_introl eq_refl) K1)|]. intros [u h2] [ys st2] (Q2 & F2 & K2 & g2 & G2). cbn [fst snd] in *. subst ys.
    destruct u; try contradiction F2; try reflexivity. apply follows_told. split; [reflexivity|]. split; [exact I|]. split; [exact K2|]. exists (g1 ++ g2). subst. cbn [snd]. symmetry. apply app_assoc.
  - destruct H1 as (S1 & S2). cbn [lnamed wf_expr] in *. apply incl_app_inv in H2. destruct H2 as [I1 I2], H3 as [W1 W2]. rewrite (eval_sel _ _ _ _ _ H4). cbn [lsays].
    eapply follows_bind; [exact (H MVal s h st S1 I1 W1 (or_introl eq_refl) H5)|]. intros [v h1] [ys st1] (Q1 & F1 & K1 & g1 & G1). cbn [fst snd] in *. subst ys.
    eapply follows_bind; [exact (H0 MVal s h1 st1 S2 I2 W2 (or_introl eq_refl) K1)|]. intros [u h2] [ys st2] (Q2 & F2 & K2 & g2 & G2). cbn [fst snd] in *. subst ys.
    eapply follows_bind; [exact (kept_pick s h2 (t_mem st2) v u K2 (fine_more (length h1) (length h2) v (eq_ind_r (fun x : lists => (length h1 <= length x)%nat) (more_app h1 g2) G2) F1) F2)|]. intros r p [-> Fr]. cbn [fst snd]. rewrite put_same.
    apply follows_told. split; [reflexivity|]. split; [exact Fr|]. split; [exact K2|]. exists (g1 ++ g2). subst. cbn [snd]. symmetry. apply app_assoc.
  - cbn [lnamed wf_expr] in *. rewrite eval_list. change (lsays s h (EList items)) with (tbind (litems s (length h) (h ++ [[]]) items) (fun h1 => Told (VRef (length h), h1))).
    destruct (kept_alloc s h (t_mem st) (wrap32 (exprs_len items)) H4) as [Q K]. rewrite Q.
    eapply follows_bind; [exact (H s (length h) (h ++ [[]]) [] (put_mem st _) H0 H1 H2 K ltac:(rewrite nth_error_app2, Nat.sub_diag by lia; reflexivity))|].
    intros h1 st1 (K1 & L1 & F1). apply follows_told. split; [reflexivity|]. rewrite app_length in L1. cbn [length fst snd] in *.
    split; [cbn; lia|]. split; [exact K1|]. exists (skipn (length h) h1). rewrite <- (firstn_skipn (length h) h1) at 1. f_equal. rewrite F1. apply firstn_app_exact.
  - apply follows_told. split; [exact H2|]. auto.
  - destruct H1 as [S1 S2]. cbn [lnameds wf_exprs] in *. apply incl_app_inv in H2. destruct H2 as [I1 I2], H3 as [W1 W2]. rewrite eval_item.
    change (litems s k h (ECons e r)) with (tbind (lsays s h e) (fun p => let xs := nth k (snd p) [] in if short xs then litems s k (upd (snd p) k (xs ++ [fst p])) r else Deep)).
    eapply follows_bind; [exact (H MVal s h st S1 I1 W1 (or_introl eq_refl) H4)|]. intros [v h1] [ys st1] (Q1 & F1 & K1 & g1 & G1). cbn [fst snd] in *. subst ys. cbv zeta.
    assert (Lk : (k < length h)%nat) by (apply nth_error_Some; congruence).
    assert (Hk : nth_error h1 k = Some xs) by (subst h1; rewrite nth_error_app1 by exact Lk; exact H5). rewrite (nth_error_nth h1 k [] Hk).
    destruct (short xs) eqn:Sx; [|exact I]. assert (Nx : near (Z.of_nat (length xs)) = true).
    { unfold short in Sx. apply Z.ltb_lt in Sx. unfold near. apply andb_true_iff. rewrite Z.leb_le, Z.ltb_lt. lia. }
    pose proof (kept_place s h1 (t_mem st1) k xs (Z.of_nat (length xs)) v K1 Hk Nx Sx F1) as P.
    assert (Qs : seq_set xs (Z.of_nat (length xs)) v = Some (xs ++ [v])) by (unfold seq_set; rewrite Z.eqb_refl; reflexivity).
    rewrite Qs in P. destruct P as (m' & -> & K2). cbn [obind].
    assert (L1 : length (upd h1 k (xs ++ [v])) = length h1) by apply upd_length.
    replace (Z.of_nat (length xs) + 1) with (Z.of_nat (length (xs ++ [v]))) by (rewrite app_length; cbn [length]; lia).
    eapply follows_mono; [|exact (H0 s k (upd h1 k (xs ++ [v])) (xs ++ [v]) (put_mem st1 m') S2 I2 W2 K2 ltac:(apply nth_error_upd_same; subst h1; rewrite app_length; lia))].
    intros h2 st2 (K3 & L3 & F3). split; [exact K3|]. split; [rewrite L1 in L3; subst h1; rewrite app_length in L3; lia|]. rewrite F3, firstn_upd by lia. subst h1.
    rewrite firstn_app. replace (k - length h)%nat with 0%nat by lia. cbn [firstn]. apply app_nil_r.
Qed.

Definition listed (s : store) (h : lists) (p : list value * lists) (q : list value * sst) : Prop :=
  fst q = map sh (fst p) /\ Forall (fine_v (length (snd p))) (fst p) /\ kept s (snd p) (t_mem (snd q)) /\ exists g, snd p = h ++ g.

Lemma eval_ltells : forall e s h st, ltuple e -> incl (lnamed e) X -> wf_expr e -> kept s h (t_mem st) ->
  follows (listed s h) (ltells s h e) (ev MRets e [] sc st).
Proof.
  assert (One : forall e s h st, lsimple e -> incl (lnamed e) X -> wf_expr e -> kept s h (t_mem st) ->
    follows (listed s h) (tbind (lsays s h e) (fun p => Told ([fst p], snd p))) (ev MRets e [] sc st)).
  { intros e s h st Si In W K. pose proof (proj1 eval_lsays e MRets s h st Si In W (or_intror eq_refl) K) as G.
    destruct (lsays s h e) as [[v h1]| | | |]; cbn [follows tbind] in *; try exact G. destruct G as ([xs st1] & -> & Q & F & K1 & Ex). cbn [fst snd] in *. subst xs.
    eexists. split; [reflexivity|]. split; [reflexivity|]. split; [cbn [fst]; auto|]. auto. }
  induction e; intros s0 h st Si In W K; try exact (One _ s0 h st Si In W K). clear One.
  cbn [ltuple] in Si. destruct Si as [S1 S2]. cbn [lnamed] in In. apply incl_app_inv in In. destruct In as [I1 I2]. cbn [wf_expr] in W. destruct W as [W1 W2].
  cbn [ltells eval]. eapply follows_bind; [exact (IHe1 s0 h st S1 I1 W1 K)|]. intros [vs h1] [xs st1] (Q1 & F1 & K1 & g1 & G1). cbn [fst snd] in *. subst xs.
  eapply follows_bind; [exact (IHe2 s0 h1 st1 S2 I2 W2 K1)|]. intros [ws h2] [xs st2] (Q2 & F2 & K2 & g2 & G2). cbn [fst snd] in *. subst xs.
  apply follows_told. split; [cbn [fst]; symmetry; apply map_app|]. split; [|split; [exact K2|exists (g1 ++ g2); cbn [snd]; subst; symmetry; apply app_assoc]].
  cbn [fst snd]. apply Forall_app. split; [|exact F2]. apply (Forall_impl _ (fun v => fine_more (length h1) (length h2) v ltac:(subst h2; apply more_app))), F1.
Qed.
End Eval.

(** * Statements *)
Definition fated (lp : bool) (r : lfate) (q : sig * sst) : Prop :=
  match r with
  | LFell s h => fst q = SigNext /\ kept s h (t_mem (snd q))
  | LBroke s h => lp = true /\ fst q = SigBreak /\ kept s h (t_mem (snd q))
  | LGave vs h => fst q = SigRet (map sh vs) /\ Forall (fine_v (length h)) vs /\ exists s, kept s h (t_mem (snd q))
  end.

Definition lfine (t : stmt) : Prop := incl (lmentions t) X /\ wf_stmt t.
Definition lfines (ss : stmts) : Prop := incl (lmentions_all ss) X /\ wf_stmts ss.

Section Level.
Variables (A1 : stmt -> scope -> sst -> out (sig * sst)) (A2 : params -> stmt -> list value -> value -> sst -> out (list value * sst)).
Variable again : store -> lists -> stmt -> told lfate.
Hypothesis Hagain : forall t lp s h st, lcore lp t -> lfine t -> kept s h (t_mem st) -> follows (fated lp) (again s h t) (A1 t sc st).
Notation ev := (eval E A2).

Lemma test_follows {B D} (Q : B -> D -> Prop) c s h st f (g : list value * sst -> out D) : lsimple c -> incl (lnamed c) X -> wf_expr c -> kept s h (t_mem st) ->
  (forall b h1 st1, kept s h1 (t_mem st1) -> follows Q (f (b, h1)) (g ([VBool b], st1))) -> (forall v st1, (forall b, v <> VBool b) -> g ([v], st1) = OErr) ->
  follows Q (tbind (ltest s h c) f) (obind (ev MVal c [] sc st) g).
Proof.
  intros Si In W K Y N. pose proof (proj1 (eval_lsays A2) c MVal s h st Si In W (or_introl eq_refl) K) as G. unfold ltest.
  destruct (lsays s h c) as [[v h1]| | | |]; cbn [tbind follows] in *; try exact I; [|rewrite G; reflexivity..]. destruct G as ([xs st1] & -> & Qx & Fv & K1 & _). cbn [fst snd] in *. subst xs. cbn [obind].
  destruct v; cbn [tbind follows fst snd]; try contradiction Fv; try (apply N; discriminate). exact (Y _ _ _ K1).
Qed.

Ltac notbool := let v := fresh "v" in let N := fresh "N" in let y := fresh "y" in intros v ? N; destruct v as [|y| | | | | |]; try reflexivity; exfalso; exact (N y eq_refl).

Lemma run_consl t ss st : run_stmts E A1 A2 (SCons t ss) sc st =
  obind (run_stmt E A1 A2 t sc st) (fun p => match fst p with SigNext => run_stmts E A1 A2 ss sc (snd p) | g => OOk (g, snd p) end).
Proof.
  transitivity (obind (run_stmt E A1 A2 t sc st) (fun p => let (g, st1) := p in match g with SigNext => run_stmts E A1 A2 ss sc st1 | _ => OOk (g, st1) end)); [reflexivity|].
  destruct (run_stmt E A1 A2 t sc st) as [[[] st1]| | | |]; reflexivity.
Qed.

Lemma stmt_follows :
  (forall t lp s h st, lcore lp t -> lfine t -> kept s h (t_mem st) -> follows (fated lp) (ldoes again s h t) (run_stmt E A1 A2 t sc st)) /\
  (forall ss lp s h st, lcores lp ss -> lfines ss -> kept s h (t_mem st) -> follows (fated lp) (ldoes_all again s h ss) (run_stmts E A1 A2 ss sc st)).
Proof.
  apply stmt_mut2.
  - intros e lp s h st C [In W] K.
    assert (Ex : lsimple e -> follows (fated lp) (tbind (lsays s h e) (fun p => Told (LFell s (snd p)))) (run_stmt E A1 A2 (SExpr e) sc st)).
    { intros Si. cbn [run_stmt]. eapply follows_bind; [exact (proj1 (eval_lsays A2) e MVal s h st Si In W (or_introl eq_refl) K)|].
      intros [v h1] [xs st1] (Q & F & K1 & _). cbn [fst snd] in *. apply follows_told. split; [reflexivity|exact K1]. }
    destruct e; try (exact (Ex C)). clear Ex. cbn [wf_stmt wf_expr lmentions lnamed] in *. destruct W as [W1 W2]. destruct e1; try contradiction C.
    + apply incl_app_inv in In. destruct In as [I1 I2]. cbn [ldoes run_stmt].
      replace (ev MVal (EAss (EIdent s0) e2) [] sc st) with (obind (ev MVal e2 [] sc st) (fun p => match fst p with [v] => obind (set_var E (t_mem (snd p)) (VRef lg) s0 v) (fun mm => OOk ([v], put_mem (snd p) mm)) | _ => OUB end)).
      2:{ cbn [eval tuple_len]. change (1 =? 1) with true. cbn iota. destruct (ev MVal e2 [] sc st) as [[xs st1]| | | |]; try reflexivity. }
      pose proof (proj1 (eval_lsays A2) e2 MVal s h st C I2 W2 (or_introl eq_refl) K) as G.
      destruct (lsays s h e2) as [[v h1]| | | |]; cbn [follows tbind] in G |- *; try exact I; [|rewrite G; reflexivity..]. destruct G as ([xs st1] & -> & Q & F & K1 & _). cbn [fst snd] in *. subst xs. cbn [obind fst snd].
      destruct (kept_set s h1 (t_mem st1) s0 v K1 (I1 s0 (or_introl eq_refl)) F) as (m' & -> & K2). cbn [obind]. eexists. split; [reflexivity|]. split; [reflexivity|exact K2].
    + destruct C as (C1 & C2 & C3). destruct W1 as [Wa Wi]. cbn [lnamed] in In. apply incl_app_inv in In. destruct In as [I1 I2]. apply incl_app_inv in I1. destruct I1 as [Ia Ii].
      cbn [ldoes]. replace (run_stmt E A1 A2 (SExpr (EAss (ESel e1_1 e1_2) e2)) sc st) with
        (obind (ev MVal e2 [] sc st) (fun p => obind (ev MVal e1_1 [] sc (snd p)) (fun q => obind (ev MVal e1_2 [] sc (snd q)) (fun u =>
          match fst q, fst u with [col], [key] => match fst p with [v] => obind (insert_of E (t_mem (snd u)) col key v) (fun mm => OOk (SigNext, put_mem (snd u) mm)) | _ => OUB end | _, _ => OUB end)))).
      2:{ cbn [run_stmt eval tuple_len]. change (1 =? 1) with true. cbn iota. destruct (ev MVal e2 [] sc st) as [[xs st1]| | | |]; try reflexivity. cbn [obind fst snd].
          destruct (ev MVal e1_1 [] sc st1) as [[ys st2]| | | |]; try reflexivity. cbn [obind fst snd]. destruct (ev MVal e1_2 [] sc st2) as [[zs st3]| | | |]; try reflexivity. cbn [obind fst snd].
          destruct ys as [|col [|]]; try reflexivity. destruct zs as [|key [|]]; try reflexivity. destruct xs as [|v [|]]; try reflexivity. destruct (insert_of E (t_mem st3) col key v); reflexivity. }
      eapply follows_bind; [exact (proj1 (eval_lsays A2) e2 MVal s h st C3 I2 W2 (or_introl eq_refl) K)|]. intros [v h1] [xs st1] (Q1 & F1 & K1 & g1 & G1). cbn [fst snd] in *. subst xs.
      eapply follows_bind; [exact (proj1 (eval_lsays A2) e1_1 MVal s h1 st1 C1 Ia Wa (or_introl eq_refl) K1)|]. intros [col h2] [xs st2] (Q2 & F2 & K2 & g2 & G2). cbn [fst snd] in *. subst xs.
      eapply follows_bind; [exact (proj1 (eval_lsays A2) e1_2 MVal s h2 st2 C2 Ii Wi (or_introl eq_refl) K2)|]. intros [key h3] [xs st3] (Q3 & F3 & K3 & g3 & G3). cbn [fst snd] in *. subst xs.
      assert (L2 : (length h1 <= length h2)%nat) by (subst h2; apply more_app). assert (L3 : (length h2 <= length h3)%nat) by (subst h3; apply more_app).
      apply (fine_more _ (length h3)) in F1; [|lia]. apply (fine_more _ (length h3)) in F2; [|lia].
      assert (Er : (forall k, col <> VRef k) -> follows (fated lp) (@Wrong lfate) (obind (insert_of E (t_mem st3) (sh col) (sh key) (sh v)) (fun mm => OOk (SigNext, put_mem st3 mm)))).
      { intros N. destruct col; try reflexivity. exfalso. exact (N _ eq_refl). }
      destruct col as [| | | | | | |k]; try (apply Er; discriminate). clear Er. cbn [fine_v] in F2. destruct (kept_lists s h3 (t_mem st3) k K3 F2) as [lo Ho].
      assert (Er : (forall i, key <> VInt i) -> follows (fated lp) (@Wrong lfate) (obind (insert_of E (t_mem st3) (sh (VRef k)) (sh key) (sh v)) (fun mm => OOk (SigNext, put_mem st3 mm)))).
      { intros N. cbn [sh insert_of]. rewrite Ho. destruct key; try reflexivity. exfalso. exact (N _ eq_refl). }
      destruct key as [| |i| | | | |]; try (apply Er; discriminate). clear Er. cbn [placed].
      destruct (nth_error h3 k) as [ys|] eqn:Hk; [|apply nth_error_None in Hk; lia]. destruct (near i) eqn:Ni; [|exact I]. destruct (short ys) eqn:Sy; [|exact I]. cbn [andb].
      pose proof (kept_place s h3 (t_mem st3) k ys i v K3 Hk Ni Sy F1) as P. cbn [sh]. destruct (seq_set ys i v) as [zs|]; [|rewrite P; reflexivity].
      destruct P as (m' & -> & K4). apply follows_told. split; [reflexivity|exact K4].
  - intros lp s h st C F K. apply follows_told. split; [exact C|]. split; [reflexivity|exact K].
  - intros c t IH lp s h st [C1 C2] [In W] K. cbn [lmentions wf_stmt ldoes run_stmt] in *. apply incl_app_inv in In. destruct In as [I1 I2], W as [W1 W2].
    apply (test_follows _ c s h st _ _ C1 I1 W1 K); [|notbool]. intros b h1 st1 K1. cbn [fst snd]. destruct b; [exact (IH lp s h1 st1 C2 (conj I2 W2) K1)|].
    apply follows_told. split; [reflexivity|exact K1].
  - intros c t IHt f IHf lp s h st (C1 & C2 & C3) [In W] K. cbn [lmentions wf_stmt ldoes run_stmt] in *. apply incl_app_inv in In. destruct In as [I1 I2]. apply incl_app_inv in I2. destruct I2 as [I2 I3], W as (W1 & W2 & W3).
    apply (test_follows _ c s h st _ _ C1 I1 W1 K); [|notbool]. intros b h1 st1 K1. cbn [fst snd]. destruct b; [exact (IHt lp s h1 st1 C2 (conj I2 W2) K1)|exact (IHf lp s h1 st1 C3 (conj I3 W3) K1)].
  - intros c b IH lp s h st C F K. pose proof C as [C1 C2]. pose proof F as [In W]. cbn [lmentions wf_stmt ldoes run_stmt] in *. apply incl_app_inv in In. destruct In as [I1 I2], W as [W1 W2].
    apply (test_follows _ c s h st _ _ C1 I1 W1 K); [|notbool]. intros y h1 st1 K1. cbn [fst snd]. destruct y; [|apply follows_told; split; [reflexivity|exact K1]].
    eapply follows_bind; [exact (IH true s h1 st1 C2 (conj I2 W2) K1)|]. intros r [g st2] H. destruct r as [s1 h2|s1 h2|vs h2]; cbn [fated fst snd] in H;
      [destruct H as [-> H]|destruct H as (_ & -> & H)|destruct H as [-> H]].
    + exact (Hagain (SWhile c b) lp s1 h2 st2 C F H).
    + apply follows_told. split; [reflexivity|exact H].
    + apply follows_told. split; [reflexivity|exact H].
  - intros b IH c lp s h st C F K. pose proof C as [C1 C2]. pose proof F as [In W]. cbn [lmentions wf_stmt ldoes run_stmt] in *. apply incl_app_inv in In. destruct In as [I1 I2], W as [W1 W2].
    eapply follows_bind; [exact (IH true s h st C2 (conj I2 W1) K)|]. intros r [g st1] H. destruct r as [s1 h1|s1 h1|vs h1]; cbn [fated fst snd] in H;
      [destruct H as [-> H]|destruct H as (_ & -> & H)|destruct H as [-> H]].
    + apply (test_follows _ c s1 h1 st1 _ _ C1 I1 W2 H); [|notbool]. intros y h2 st2 K2. cbn [fst snd]. destruct y; [exact (Hagain (SDo b c) lp s1 h2 st2 C F K2)|].
      apply follows_told. split; [reflexivity|exact K2].
    + apply follows_told. split; [reflexivity|exact H].
    + apply follows_told. split; [reflexivity|exact H].
  - intros ss IH lp s h st C F K. exact (IH lp s h st C F K).
  - intros e lp s h st C [In W] K. cbn [ldoes run_stmt]. eapply follows_bind; [exact (eval_ltells A2 e s h st C In W K)|].
    intros [vs h1] [us st1] (Q & B & K1 & _). cbn [fst snd] in *. subst us. apply follows_told. split; [reflexivity|]. split; [exact B|exists s; exact K1].
  - intros ? ? ? ? lp s h st C. contradiction C.
  - intros lp s h st C F K. apply follows_told. split; [reflexivity|exact K].
  - intros t IH ss IHs lp s h st [C1 C2] [In W] K. cbn [lmentions_all wf_stmts ldoes_all] in *. apply incl_app_inv in In. destruct In as [I1 I2], W as [W1 W2]. rewrite run_consl.
    eapply follows_bind; [exact (IH lp s h st C1 (conj I1 W1) K)|]. intros r [g st1] H. destruct r as [s1 h1|s1 h1|vs h1]; cbn [fated fst snd] in H;
      [destruct H as [-> H]|destruct H as (Lp & -> & H)|destruct H as [-> H]].
    + exact (IHs lp s1 h1 st1 C2 (conj I2 W2) H).
    + apply follows_told. split; [exact Lp|]. split; [reflexivity|exact H].
    + apply follows_told. split; [reflexivity|exact H].
Qed.
End Level.

Lemma levels_lists : forall n t lp s h st, lcore lp t -> lfine t -> kept s h (t_mem st) -> follows (fated lp) (lstmt n s h t) (run_stmt_n E n t sc st).
Proof.
  induction n as [|n IH]; intros t lp s h st C F K; [reflexivity|]. exact (proj1 (stmt_follows _ _ _ IH) t lp s h st C F K).
Qed.

(** * The whole program *)
Hypothesis Pe : m_pend m0 = false.

Lemma start_kept : kept nothing [] (snd (alloc m0 (OMap (new_map (-1))))).
Proof.
  split; [exact Pe|]. split; [|split; [cbn; rewrite app_length; cbn; lia|split; [discriminate|split]]].
  - intros k o Hk. cbn. rewrite nth_error_app1; [exact Hk|]. apply nth_error_Some. congruence.
  - intros k xs Hk. destruct k; discriminate Hk.
  - exists []. split; [|split; [constructor|reflexivity]]. apply vars_new. cbn. rewrite nth_error_app2, Nat.sub_diag by lia. reflexivity.
Qed.

Definition lprinted (r : lfate) (p : list value * sst) : Prop :=
  match r with
  | LFell s h => fst p = [VRef lg] /\ kept s h (t_mem (snd p))
  | LBroke _ _ => False
  | LGave vs h => fst p = map sh vs /\ Forall (fine_v (length h)) vs /\ exists s, kept s h (t_mem (snd p))
  end.

Lemma program_lists ss n : lcores false ss -> lfines ss -> follows lprinted (ltold ss n) (run_program E n (SComp ss) m0).
Proof.
  intros C F. unfold run_program, ltold. cbn [alloc]. pose proof (levels_lists n (SComp ss) false nothing [] (mkst (snd (alloc m0 (OMap (new_map (-1))))) []) C F start_kept) as G.
  cbn [alloc snd] in G. destruct (lstmt n nothing [] (SComp ss)) as [r| | | |]; cbn [follows] in G |- *; try exact I; [|rewrite G; reflexivity..].
  destruct G as ([sg st] & -> & G). cbn [obind]. unfold body_results. destruct r as [s h|s h|vs h]; cbn [fated fst snd] in G.
  - destruct G as [-> K]. rewrite (proj1 K). eexists. split; [reflexivity|]. split; [reflexivity|exact K].
  - destruct G as [G _]. discriminate.
  - destruct G as (-> & B & s & K). rewrite (proj1 K). eexists. split; [reflexivity|]. split; [reflexivity|]. split; [exact B|exists s; exact K].
Qed.

(** Seen from outside: what selecting from a list gives. *)
Lemma kept_seen s h m k xs i : kept s h m -> nth_error h k = Some xs -> near i = true ->
  select_of E m (VRef (S lg + k)) (VInt i) = match seq_get xs i with Some v => OOk (Some (sh v), m) | None => OOk (None, set_pend m true) end.
Proof.
  intros (P & K & L & B & Ls & _) Hk Ni. destruct (Ls k xs Hk) as (F & Sm & lo & Ho & R & C). apply near_in in Ni. unfold select_of.
  assert (Q : obj_select E (depth (m_objs m)) m (VRef (S lg + k)) (VInt i) = keyed m (VInt i) (list_select lo)) by (destruct (depth (m_objs m)); cbn [obj_select]; rewrite Ho; reflexivity).
  rewrite Q. cbn [keyed]. rewrite (select_spec lo (map sh xs) i R ltac:(rewrite map_length; lia) Ni), zget_map. destruct (seq_get xs i); reflexivity.
Qed.
End Lists.

(** * From the text on *)
Lemma lsimple_ok : (forall e, lsimple e -> ok_expr MVal e = true /\ ok_expr MRets e = true /\ callfree e = true /\ tuple_len e = 1) /\
  (forall es, lsimples es -> ok_exprs es = true /\ callfrees es = true).
Proof.
  apply FunProofs.expr_mut2; intros; cbn [lsimple] in *; try contradiction; cbn; try auto.
  - destruct H0 as [_ P]. destruct (H P) as (-> & _ & -> & _). auto.
  - destruct H1 as (_ & P1 & P2). destruct (H P1) as (-> & _ & -> & _). destruct (H0 P2) as (-> & _ & -> & _). auto.
  - destruct H1 as (P1 & P2). destruct (H P1) as (-> & _ & -> & _). destruct (H0 P2) as (-> & _ & -> & _). auto.
  - destruct H1 as (P1 & P2). destruct (H P1) as (-> & _ & -> & _). destruct (H0 P2) as (-> & _ & -> & _). auto.
  - destruct H1 as (P1 & P2). destruct (H P1) as (-> & _ & -> & _). destruct (H0 P2) as (-> & _ & -> & _). auto.
  - destruct (H H0) as [-> ->]. auto.
  - destruct H1 as [P1 P2]. destruct (H P1) as (-> & _ & -> & _). destruct (H0 P2) as [-> ->]. auto.
Qed.

Lemma ltuple_ok e : ltuple e -> ok_expr MRets e = true /\ callfree e = true.
Proof.
  assert (One : forall e, lsimple e -> ok_expr MRets e = true /\ callfree e = true) by (intros e0 P; destruct (proj1 lsimple_ok e0 P) as (_ & A & B & _); auto).
  induction e; intros P; try exact (One _ P). cbn [ltuple] in P. destruct P as [P1 P2]. cbn. destruct (IHe1 P1) as [-> ->]. destruct (IHe2 P2) as [-> ->]. auto.
Qed.

Lemma lsimple_high M e : lsimple e -> forall m a, m <> MTgt -> fits_expr M m e a = true -> a + 1 <= M.
Proof.
  induction e; cbn [lsimple]; intros P m a N F; try contradiction; cbn [fits_expr] in F; rewrite ?andb_true_iff, ?Z.leb_le in F; try lia.
  - destruct P as [_ P]. exact (IHe P MVal a ltac:(discriminate) F).
  - destruct P as (_ & P & _). exact (IHe1 P MVal a ltac:(discriminate) (proj1 F)).
  - destruct P as (P & _). destruct m; try congruence; exact (IHe1 P MVal a ltac:(discriminate) (proj1 F)).
Qed.

Lemma ltuple_high M e : ltuple e -> forall a, fits_expr M MRets e a = true -> a + tuple_len e <= M.
Proof.
  assert (One : forall e, lsimple e -> forall a, fits_expr M MRets e a = true -> a + tuple_len e <= M).
  { intros e0 P a F. destruct (proj1 lsimple_ok e0 P) as (_ & _ & _ & ->). exact (lsimple_high M e0 P MRets a ltac:(discriminate) F). }
  induction e; intros P a F; try exact (One _ P a F). cbn [ltuple] in P. destruct P as [P1 P2]. cbn [fits_expr] in F. apply andb_true_iff in F. destruct F as [F1 F2].
  specialize (IHe1 P1 a F1). specialize (IHe2 P2 _ F2). cbn [tuple_len]. lia.
Qed.

Lemma lcore_ok : (forall t lp, lcore lp t -> fits_stmt 16 t = true -> ok_stmt lp t = true /\ callfree_stmt t = true) /\
  (forall ss lp, lcores lp ss -> fits_stmts 16 ss = true -> ok_stmts lp ss = true /\ callfree_stmts ss = true).
Proof.
  apply stmt_mut2.
  - intros e lp C F.
    assert (Ex : lsimple e -> ok_stmt lp (SExpr e) = true /\ callfree_stmt (SExpr e) = true) by (intros P; destruct (proj1 lsimple_ok e P) as (A & _ & B & _); cbn [ok_stmt callfree_stmt]; auto).
    destruct e; try (exact (Ex C)). clear Ex. destruct e1; try contradiction C; cbn [lcore] in C.
    + destruct (proj1 lsimple_ok _ C) as (A & _ & B & _). cbn [ok_stmt ok_expr callfree_stmt callfree value_mode tuple_len]. change (1 =? 1) with true. cbn iota. rewrite A, B. auto.
    + destruct C as (C1 & C2 & C3). destruct (proj1 lsimple_ok _ C1) as (A1 & _ & B1 & _). destruct (proj1 lsimple_ok _ C2) as (A2 & _ & B2 & _). destruct (proj1 lsimple_ok _ C3) as (A3 & _ & B3 & _).
      cbn [ok_stmt ok_expr callfree_stmt callfree value_mode tuple_len]. change (1 =? 1) with true. cbn iota. rewrite A1, A2, A3, B1, B2, B3. auto.
  - intros lp C F. cbn in *. auto.
  - intros c t IH lp [C1 C2] F. cbn [fits_stmt] in F. apply andb_true_iff in F. destruct F as [_ F]. destruct (proj1 lsimple_ok _ C1) as (A & _ & B & _).
    destruct (IH lp C2 F) as [G1 G2]. cbn [ok_stmt callfree_stmt]. rewrite A, B, G1, G2. auto.
  - intros c t IHt f IHf lp (C1 & C2 & C3) F. cbn [fits_stmt] in F. apply andb_true_iff in F. destruct F as [F F3]. apply andb_true_iff in F. destruct F as [_ F].
    destruct (proj1 lsimple_ok _ C1) as (A & _ & B & _). destruct (IHt lp C2 F) as [G1 G2]. destruct (IHf lp C3 F3) as [G3 G4]. cbn [ok_stmt callfree_stmt]. rewrite A, B, G1, G2, G3, G4. auto.
  - intros c t IH lp [C1 C2] F. cbn [fits_stmt] in F. apply andb_true_iff in F. destruct F as [_ F]. destruct (proj1 lsimple_ok _ C1) as (A & _ & B & _).
    destruct (IH true C2 F) as [G1 G2]. cbn [ok_stmt callfree_stmt]. rewrite A, B, G1, G2. auto.
  - intros t IH c lp [C1 C2] F. cbn [fits_stmt] in F. apply andb_true_iff in F. destruct F as [F _]. destruct (proj1 lsimple_ok _ C1) as (A & _ & B & _).
    destruct (IH true C2 F) as [G1 G2]. cbn [ok_stmt callfree_stmt]. rewrite A, B, G1, G2. auto.
  - intros ss IH lp C F. exact (IH lp C F).
  - intros e lp C F. cbn [lcore fits_stmt] in *. destruct (ltuple_ok e C) as [A B]. pose proof (ltuple_high 16 e C 0 F) as H.
    cbn [ok_stmt callfree_stmt]. rewrite A, B. replace (MAX_TUPLE <? tuple_len e) with false; [auto|]. symmetry. apply Z.ltb_ge. unfold MAX_TUPLE. lia.
  - intros ? ? ? ? ? C. contradiction C.
  - intros lp _ _. auto.
  - intros t IH ss IHs lp [C1 C2] F. cbn [fits_stmts] in F. apply andb_true_iff in F. destruct F as [F1 F2].
    destruct (IH lp C1 F1) as [G1 G2]. destruct (IHs lp C2 F2) as [G3 G4]. cbn [ok_stmts callfree_stmts]. rewrite G1, G2, G3, G4. auto.
Qed.

(** The lists of a heap, starting at [b]: what selecting from them gives. *)
Definition shows (E : env) (b : nat) (h : lists) (m : mem) : Prop :=
  forall k xs i, nth_error h k = Some xs -> - 2 ^ 31 <= i < 2 ^ 31 -> exists m', select_of E m (VRef (b + k)) (VInt i) = OOk (option_map (moved b) (seq_get xs i), m').

Lemma kept_shows E m0 X s h m : kept m0 X s h m -> shows E (S (length (m_objs m0))) h m.
Proof.
  intros K k xs i Hk Hi. assert (Ni : near i = true) by (unfold near; apply andb_true_iff; rewrite Z.leb_le, Z.ltb_lt; exact Hi).
  rewrite (kept_seen E m0 X s h m k xs i K Hk Ni). destruct (seq_get xs i); eexists; reflexivity.
Qed.

Lemma lperforms src ss X : text_ok src -> slen src < 2 ^ 26 -> reads src ss -> lcores false ss -> incl (lmentions_all ss) X -> few X -> fits_stmts 16 ss = true ->
  exists x, compile src = ROk x /\ forall E cap m, 256 <= cap -> m_pend m = false -> unknown E m X ->
  (forall n, match ltold ss n with
    | Told (LFell s h) => exists j l b m', steps E cap x j (vm_start m) = SDone [VRef l] m' /\ shows E b h m' /\
        forall y, In y X -> select_of E m' (VRef l) (VStr y) = OOk (option_map (moved b) (s y), m')
    | Told (LGave vs h) => exists j b m', steps E cap x j (vm_start m) = SDone (map (moved b) vs) m' /\ shows E b h m'
    | Told (LBroke _ _) => False
    | Wrong => exists j, steps E cap x j (vm_start m) = SErr
    | Overflows => exists j, steps E cap x j (vm_start m) = VmModel.SUB
    | Deep | Unfinished => True
    end) /\
  (~ short_of_fuel E -> (forall n, ltold ss n = Unfinished) -> forall j, exists s, steps E cap x j (vm_start m) = SNext s).
Proof.
  intros T L R C I Fw Ft. destruct (proj2 lcore_ok ss false C Ft) as [OK Cf].
  assert (W : wf_stmts ss). { pose proof R as P. apply reads_parse in P. destruct (parse_tree _ _ _ _ P T) as [W _]. exact W. }
  destruct (compile_good src _ T L R OK) as (x & Cp & Cd). exists x. split; [exact Cp|]. intros E cap m Hc Pe Un.
  assert (Lim : forall P : Prop, (exists j, steps E cap x j (vm_start m) = SLimit) \/ P -> P).
  { intros P [[j Hl]|H]; [|exact H]. exfalso. exact (callfree_no_limit _ _ Cd Ft Cf E cap m j Hc Hl). }
  split.
  - intros n. pose proof (program_lists E m X Fw Un Pe ss n C (conj I W)) as G. pose proof (Lim _ (runs E cap _ x Cd m n)) as H.
    destruct (ltold ss n) as [r| | | |]; cbn [follows] in G; auto; [|rewrite G in H; exact H..]. destruct G as ([vs st] & Q & G). rewrite Q in H. destruct H as [j H].
    destruct r as [s h|s h|us h]; cbn [lprinted fst snd] in G.
    + destruct G as [-> K]. exists j, (length (m_objs m)), (S (length (m_objs m))), (t_mem st). split; [exact H|]. split; [exact (kept_shows E m X s h _ K)|].
      intros y Hy. exact (kept_select E m X Fw s h _ y K Hy).
    + exact G.
    + destruct G as (-> & _ & s & K). exists j, (S (length (m_objs m))), (t_mem st). split; [exact H|exact (kept_shows E m X s h _ K)].
  - intros Sh Nd j. pose proof (Lim _ (runs_fuel E cap _ x Cd m j)) as H. pose proof (program_lists E m X Fw Un Pe ss j C (conj I W)) as Q. rewrite Nd in Q. cbn [follows] in Q.
    rewrite Q in H. destruct H as [[S _]|H]; [contradiction|exact H].
Qed.

(** * More fuel *)
Definition more {A} (t t' : told A) : Prop := t <> Unfinished -> t' = t.
Lemma more_refl {A} (t : told A) : more t t.
Proof. intros _. reflexivity. Qed.
Lemma more_bind {A B} (t t' : told A) (f f' : A -> told B) : more t t' -> (forall a, more (f a) (f' a)) -> more (tbind t f) (tbind t' f').
Proof. unfold more. intros H K. destruct t; cbn [tbind]; intros N; try (rewrite H by discriminate; reflexivity); [|congruence]. rewrite H by discriminate. cbn [tbind]. apply K, N. Qed.

Lemma does_more again again' : (forall s h t, more (again s h t) (again' s h t)) ->
  (forall t s h, more (ldoes again s h t) (ldoes again' s h t)) /\ (forall ss s h, more (ldoes_all again s h ss) (ldoes_all again' s h ss)).
Proof.
  intros Ha. apply stmt_mut2; try (intros; apply more_refl).
  - intros c t IH s h. cbn [ldoes]. apply more_bind; [apply more_refl|]. intros [[] h1]; cbn [fst snd]; [apply IH|apply more_refl].
  - intros c t IHt f IHf s h. cbn [ldoes]. apply more_bind; [apply more_refl|]. intros [[] h1]; cbn [fst snd]; auto.
  - intros c b IH s h. cbn [ldoes]. apply more_bind; [apply more_refl|]. intros [[] h1]; cbn [fst snd]; [|apply more_refl]. apply more_bind; [apply IH|]. intros []; [apply Ha|apply more_refl|apply more_refl].
  - intros b IH c s h. cbn [ldoes]. apply more_bind; [apply IH|]. intros [s1 h1|s1 h1|vs h1]; try apply more_refl. apply more_bind; [apply more_refl|]. intros [[] h2]; cbn [fst snd]; [apply Ha|apply more_refl].
  - intros ss IH s h. exact (IH s h).
  - intros t IH ss IHs s h. cbn [ldoes_all]. apply more_bind; [apply IH|]. intros []; [apply IHs|apply more_refl|apply more_refl].
Qed.

Lemma ltold_more ss n k : (n <= k)%nat -> ltold ss n <> Unfinished -> ltold ss k = ltold ss n.
Proof.
  assert (H : forall n k, (n <= k)%nat -> forall s h t, more (lstmt n s h t) (lstmt k s h t)).
  { clear. induction n as [|n IH]; intros k L s h t; [intros N; exfalso; exact (N eq_refl)|]. destruct k as [|k]; [lia|]. cbn [lstmt].
    apply (proj1 (does_more (lstmt n) (lstmt k) (IH k ltac:(lia)))). }
  intros L. exact (H n k L nothing [] (SComp ss)).
Qed.
