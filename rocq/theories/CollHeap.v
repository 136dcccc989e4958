(** Lists and maps in the heap: the described ones of CollSpec.v and the objects of the runtime. *)
From Coq Require Import ZArith List Bool Lia.
From Verif Require Import Base Utf8Model Utf8Spec Utf8Proofs FloatModel StringModel TextProofs ListModel SeqSpec ListProofs ValueModel ExeModel ArithModel AstModel CodegenModel CompSpec
  MapModel MapSpec MapProofs MapProofs2 ObjModel VmModel SrcModel ScopeSpec ScopeProofs CopyProofs CalcSpec CalcProofs WhileSpec WhileProofs FunSpec ListsSpec.
From Verif Require FunProofs ListsProofs.
From Verif Require Import CollSpec.
Import ListNotations.
Open Scope Z_scope.

(** * Outcomes; about what is not told anything may happen *)
Definition agrees {A B} (P : A -> B -> Prop) (t : tale A) (o : out B) : Prop :=
  match t with
  | Tale a => exists b, o = OOk b /\ P a b
  | Errs => o = OErr
  | Spills => o = OUB
  | TooDeep => o = OLoop
  | Cut => o = OFuel
  | Silent => True
  end.

Lemma agrees_bind {A B C D} (P : A -> B -> Prop) (Q : C -> D -> Prop) t o f g :
  agrees P t o -> (forall a b, P a b -> agrees Q (f a) (g b)) -> agrees Q (and_then t f) (obind o g).
Proof. destruct t; cbn [agrees and_then]; intros H K; try exact I; [|rewrite H; reflexivity..]. destruct H as (b & -> & H). cbn [obind]. exact (K _ _ H). Qed.
Lemma then_tale {A} (t : tale A) : t = and_then t Tale.
Proof. destruct t; reflexivity. Qed.
Lemma agrees_tale {A B} (P : A -> B -> Prop) a b : P a b -> agrees P (Tale a) (OOk b).
Proof. intros H. exists b. auto. Qed.
Lemma agrees_mono {A B} (P Q : A -> B -> Prop) t o : (forall a b, P a b -> Q a b) -> agrees P t o -> agrees Q t o.
Proof. intros K. destruct t; cbn [agrees]; auto. intros (b & E & H). eauto. Qed.

(** * Values *)
Definition fine_v (n : nat) (v : value) : Prop := match v with VRef k => (k < n)%nat | VStr s => text_ok s /\ chars s | _ => basic v end.

Lemma fine_more n n' v : (n <= n')%nat -> fine_v n v -> fine_v n' v.
Proof. intros L. destruct v; cbn; auto. lia. Qed.
Lemma fines_more n n' vs : (n <= n')%nat -> Forall (fine_v n) vs -> Forall (fine_v n') vs.
Proof. intros L. apply Forall_impl. intros v. apply fine_more, L. Qed.
Lemma fine_basic loc n v : fine_v n v -> (exists k, v = VRef k /\ (k < n)%nat) \/ (basic v /\ at_ loc v = v).
Proof. destruct v; cbn; intros H; try (right; split; [exact H|reflexivity]); [right; split; [apply H|reflexivity]|left; eauto]. Qed.

Lemma at_more loc g v : fine_v (length loc) v -> at_ (loc ++ g) v = at_ loc v.
Proof. destruct v; cbn; try reflexivity. intros H. rewrite app_nth1 by exact H. reflexivity. Qed.
Lemma ats_more loc g vs : Forall (fine_v (length loc)) vs -> map (at_ (loc ++ g)) vs = map (at_ loc) vs.
Proof. intros F. apply map_ext_in. intros v Hv. rewrite Forall_forall in F. apply at_more, F, Hv. Qed.

(** * Keys *)
Definition fine_k (k : value) : Prop := match k with VStr s => text_ok s /\ chars s | _ => True end.
Definition key_ok (k : value) : Prop := usable k = true /\ fine_k k.
Lemma fine_key n k : fine_v n k -> fine_k k.
Proof. destruct k; cbn; auto. Qed.

Lemma usable_good k : key_ok k -> good_key k.
Proof.
  intros [U F]. destruct k; cbn in U, F; try discriminate; repeat split; auto.
  - destruct F as [F _]. intros H. unfold text_ok in F. rewrite Forall_forall in F. specialize (F _ H). lia.
  - destruct F as [F _]. unfold text_ok in F. eapply Forall_impl; [|exact F]. unfold is_byte. intros. lia.
  - destruct F as [_ (cs & _ & _ & L)]. exact L.
Qed.

Lemma usable_at loc k : usable k = true -> at_ loc k = k.
Proof. destruct k; cbn; auto. discriminate. Qed.

Lemma usable_same a b : key_ok a -> key_ok b -> veqb a b = same a b.
Proof.
  intros Ka Kb. assert (St : forall x y, a = VStr x -> b = VStr y -> veqb a b = same a b).
  { intros x y -> ->. pose proof (binary_means BEql (mkmem [] false) (VStr x) (VStr y) ltac:(discriminate) (proj1 (proj2 Ka)) (proj1 (proj2 Kb)) eq_refl) as H. cbn [means2 binop_code binary_op] in H. destruct H as [H _].
    unfold compare_op in H. rewrite (good_cmp _ _ _ (usable_good _ Ka) (usable_good _ Kb)) in H. cbn [m_pend obind] in H. injection H as H. exact H. }
  destruct Ka as [Ua _], Kb as [Ub _]. destruct a; try discriminate Ua; destruct b; try discriminate Ub; try exact (St _ _ eq_refl eq_refl); unfold veqb, obj_compare; cbn; try reflexivity.
  - destruct (Bool.eqb _ _); reflexivity.
  - destruct (_ =? _); reflexivity.
Qed.

Definition moved (loc : list nat) (kvs : list (value * value)) : list (value * value) := map (fun kv => (fst kv, at_ loc (snd kv))) kvs.

Lemma read_moved loc key : key_ok key -> forall kvs, Forall (fun kv => key_ok (fst kv)) kvs -> a_read veqb (moved loc kvs) key = option_map (at_ loc) (a_read same kvs key).
Proof.
  intros U kvs. induction 1 as [|[k v] kvs Uk _ IH]; [reflexivity|]. cbn [moved map a_read fst snd] in *. rewrite (usable_same key k U Uk).
  destruct (same key k); [reflexivity|exact IH].
Qed.
Lemma store_moved loc key v : key_ok key -> forall kvs, Forall (fun kv => key_ok (fst kv)) kvs -> a_store veqb (moved loc kvs) key (at_ loc v) = moved loc (a_store same kvs key v).
Proof.
  intros U kvs. induction 1 as [|[k w] kvs Uk _ IH]; [reflexivity|]. cbn [moved map a_store fst snd] in *. rewrite (usable_same key k U Uk).
  destruct (same key k); [reflexivity|]. cbn [map fst snd]. f_equal. exact IH.
Qed.
Lemma store_all (P Q : value -> Prop) key v : P key -> Q v -> forall kvs, Forall (fun kv => P (fst kv) /\ Q (snd kv)) kvs -> Forall (fun kv => P (fst kv) /\ Q (snd kv)) (a_store same kvs key v).
Proof.
  intros Pk Qv kvs. induction 1 as [|[k w] kvs [Hk Hw] F IH]; cbn [a_store]; [constructor; [auto|constructor]|]. cbn [fst snd] in *. destruct (same key k); constructor; cbn [fst snd]; auto.
Qed.
Lemma read_all (Q : value -> Prop) key v : forall kvs, Forall (fun kv => Q (snd kv)) kvs -> a_read same kvs key = Some v -> Q v.
Proof. induction 1 as [|[k w] kvs Hw F IH]; cbn [a_read]; [discriminate|]. destruct (same key k); [intros [= <-]; exact Hw|exact IH]. Qed.

(** * Objects *)
Section Heap.
Variables (E : env) (lg : nat).

Definition object_of (loc : list nat) (n : nat) (c : coll) (o : option hobj) : Prop :=
  match c with
  | CList xs => Forall (fine_v n) xs /\ Z.of_nat (length xs) <= 2 ^ 30 /\ exists lo, o = Some (OList lo) /\ rep lo (map (at_ loc) xs) /\ 8 <= l_cap lo
  | CMap kvs => Forall (fun kv => key_ok (fst kv) /\ fine_v n (snd kv)) kvs /\ exists mo, o = Some (OMap mo) /\ wfm mo /\ abs mo = moved loc kvs
  end.

(** The described lists and maps are in the heap, each in its own place. *)
Definition holds (loc : list nat) (h : colls) (m : mem) : Prop :=
  length loc = length h /\ NoDup loc /\ Forall (fun l => (lg < l)%nat) loc /\
  forall k c, nth_error h k = Some c -> object_of loc (length h) c (nth_error (m_objs m) (nth k loc O)).

Lemma object_grows loc g n n' c o : length loc = n -> (n <= n')%nat -> object_of loc n c o -> object_of (loc ++ g) n' c o.
Proof.
  intros <- L. destruct c as [xs|kvs]; cbn [object_of].
  - intros (F & Sm & lo & Q & R & C). split; [exact (fines_more _ _ _ L F)|]. split; [exact Sm|]. exists lo. split; [exact Q|]. split; [rewrite (ats_more _ _ _ F); exact R|exact C].
  - intros (F & mo & Q & W & A). split.
    { eapply Forall_impl; [|exact F]. intros kv [K V]. split; [exact K|exact (fine_more _ _ _ L V)]. }
    exists mo. split; [exact Q|]. split; [exact W|]. rewrite A. unfold moved. apply map_ext_in. intros kv Hkv. rewrite Forall_forall in F. destruct (F kv Hkv) as [_ V]. rewrite (at_more loc g _ V). reflexivity.
Qed.

Lemma holds_coll loc h m k c : holds loc h m -> nth_error h k = Some c -> object_of loc (length h) c (nth_error (m_objs m) (nth k loc O)).
Proof. intros (_ & _ & _ & H). apply H. Qed.

Lemma holds_in loc h m l : holds loc h m -> In l loc -> exists o, nth_error (m_objs m) l = Some o /\ match o with OList _ | OMap _ => True | _ => False end.
Proof.
  intros (L & _ & _ & H) Hi. apply In_nth with (d := O) in Hi. destruct Hi as (k & Hk & <-). destruct (nth_error h k) as [c|] eqn:Q; [|apply nth_error_None in Q; lia].
  specialize (H k c Q). destruct c; [destruct H as (_ & _ & lo & -> & _)|destruct H as (_ & mo & -> & _)]; eexists; (split; [reflexivity|exact I]).
Qed.

(** Only what is in these places matters. *)
Lemma holds_ext loc h m m' : holds loc h m -> (forall l, In l loc -> nth_error (m_objs m') l = nth_error (m_objs m) l) -> holds loc h m'.
Proof.
  intros (L & N & B & H) Q. split; [exact L|]. split; [exact N|]. split; [exact B|]. intros k c Hk. rewrite Q; [exact (H k c Hk)|]. apply nth_In.
  rewrite L. apply nth_error_Some. congruence.
Qed.

(** A new list or map. *)
Lemma holds_alloc loc h m o c : holds loc h m -> (lg < length (m_objs m))%nat -> (forall n l, object_of l n c (Some o)) ->
  holds (loc ++ [length (m_objs m)]) (h ++ [c]) (snd (alloc m o)).
Proof.
  intros Hd Lg Ob. pose proof Hd as (L & N & B & H). split; [rewrite !app_length; cbn [length]; lia|]. split; [|split].
  - assert (Ni : ~ In (length (m_objs m)) loc).
    { intros Hi. destruct (holds_in loc h m _ Hd Hi) as (o' & Q & _). assert (nth_error (m_objs m) (length (m_objs m)) = None) by (apply nth_error_None; lia). congruence. }
    clear -N Ni. induction loc as [|a l IH]; cbn [app]; [constructor; [intros []|constructor]|]. inversion N; subst. constructor.
    + intros H. apply in_app_or in H. destruct H as [H|[<-|[]]]; [contradiction|]. apply Ni. left. reflexivity.
    + apply IH; [assumption|]. intros H. apply Ni. right. exact H.
  - apply Forall_app. split; [exact B|]. constructor; [exact Lg|constructor].
  - intros k d Hk. cbn [alloc snd m_objs]. destruct (Nat.lt_ge_cases k (length h)) as [Lt|Ge].
    + rewrite nth_error_app1 in Hk by exact Lt. rewrite app_nth1 by lia. specialize (H k d Hk).
      assert (Lo : (nth k loc O < length (m_objs m))%nat).
      { destruct (holds_in loc h m (nth k loc O) Hd) as (o' & Q & _); [apply nth_In; lia|]. apply nth_error_Some. congruence. }
      rewrite nth_error_app1 by exact Lo. apply (object_grows loc _ (length h)); [exact L|rewrite app_length; lia|exact H].
    + rewrite nth_error_app2 in Hk by exact Ge. destruct (k - length h)%nat as [|d'] eqn:D; [|destruct d'; discriminate Hk]. injection Hk as <-.
      rewrite app_nth2 by lia. replace (k - length loc)%nat with O by lia. cbn [nth]. rewrite nth_error_app2, Nat.sub_diag by lia. cbn [nth_error]. apply Ob.
Qed.

Lemma object_new_list c n l : object_of l n (CList []) (Some (OList (new_list c))).
Proof. split; [constructor|]. split; [cbn; lia|]. exists (new_list c). split; [reflexivity|]. split; [apply rep_new|apply new_list_cap]. Qed.
Lemma object_new_map c n l : c < 2 ^ 26 -> object_of l n (CMap []) (Some (OMap (new_map c))).
Proof. intros L. split; [constructor|]. exists (new_map c). split; [reflexivity|]. destruct (new_map_wf (V := value) vhash veqb good_key c L) as [W A]. split; [exact W|exact A]. Qed.

(** One of them changes. *)
Lemma holds_upd loc h m k c o : holds loc h m -> (k < length h)%nat -> object_of loc (length h) c (Some o) -> holds loc (upd h k c) (set_obj m (nth k loc O) o).
Proof.
  intros Hd Lk Ob. pose proof Hd as (L & N & B & H). split; [rewrite upd_length; exact L|]. split; [exact N|]. split; [exact B|].
  intros j d Hj. rewrite upd_length. cbn [set_obj m_objs]. destruct (Nat.eq_dec j k) as [->|Ne].
  - rewrite nth_error_upd_same in Hj by exact Lk. injection Hj as <-. rewrite nth_error_upd_same; [exact Ob|].
    destruct (holds_in loc h m (nth k loc O)) as (o' & Q & _); [exact Hd|apply nth_In; lia|]. apply nth_error_Some. congruence.
  - rewrite nth_error_upd_other in Hj by auto. assert (Lj : (j < length h)%nat) by (apply nth_error_Some; congruence).
    rewrite nth_error_upd_other; [exact (H j d Hj)|]. intros Q. apply Ne. symmetry. apply (proj1 (NoDup_nth loc O) N); lia.
Qed.

(** What a store leaves alone. *)
Definition left_alone (loc : list nat) (m m' : mem) : Prop :=
  m_pend m' = m_pend m /\ length (m_objs m') = length (m_objs m) /\ forall k, ~ In k loc -> nth_error (m_objs m') k = nth_error (m_objs m) k.

Lemma set_left loc m k o : In k loc -> left_alone loc m (set_obj m k o).
Proof.
  intros Hi. split; [reflexivity|]. split; [apply upd_length|]. intros j N. cbn [set_obj m_objs]. apply nth_error_upd_other. intros ->. contradiction.
Qed.

Lemma holds_stored loc h m col key v : holds loc h m -> m_pend m = false -> fine_v (length h) col -> fine_k key -> fine_v (length h) v ->
  agrees (fun h' m' => holds loc h' m' /\ length h' = length h /\ left_alone loc m m') (stored h col key v) (insert_of E m (at_ loc col) (at_ loc key) (at_ loc v)).
Proof.
  intros Hd P Fc Fk Fv. destruct col as [| | | | | | |k]; try reflexivity. cbn [fine_v] in Fc. cbn [stored]. pose proof Hd as (L & _ & _ & H).
  destruct (nth_error h k) as [c|] eqn:Hk; [|apply nth_error_None in Hk; lia]. specialize (H k c Hk). assert (Hi : In (nth k loc O) loc) by (apply nth_In; lia).
  destruct c as [xs|kvs]; cbn [object_of] in H.
  - destruct H as (F & Sm & lo & Q & R & C). cbn [at_ insert_of]. rewrite Q. destruct key as [| |i| | | | |]; try reflexivity. cbn [at_].
    destruct (near i) eqn:Ni; [|exact I]. destruct (brief xs) eqn:Bx; [|exact I]. cbn [andb]. unfold brief in Bx. apply Z.ltb_lt in Bx.
    pose proof (insert_spec lo (map (at_ loc) xs) i (at_ loc v) R C ltac:(rewrite map_length; exact Bx) (ListsProofs.near_in i Ni)) as G. rewrite ListsProofs.seq_set_map in G.
    destruct (seq_set xs i v) as [ys|] eqn:S; cbn [option_map] in G; [|rewrite G; reflexivity]. destruct G as (lo' & -> & R' & C').
    apply agrees_tale. split; [|split; [apply upd_length|apply set_left, Hi]]. apply holds_upd; [exact Hd|exact Fc|]. cbn [object_of].
    split; [exact (ListsProofs.seq_set_all _ _ _ _ _ S F Fv)|]. split; [pose proof (ListsProofs.seq_set_length _ _ _ _ S); lia|]. exists lo'. split; [reflexivity|]. split; [exact R'|lia].
  - destruct H as (F & mo & Q & W & A). cbn [at_ insert_of]. rewrite Q. destruct (usable key) eqn:Uk; [|exact I]. destruct (roomy kvs) eqn:Ro; [|exact I]. cbn [andb].
    assert (Gk : good_key key) by (apply usable_good; split; assumption). fold (at_ loc key). rewrite (usable_at loc key Uk).
    assert (Fk' : Forall (fun kv => key_ok (fst kv)) kvs) by (eapply Forall_impl; [|exact F]; intros kv H; apply H).
    assert (Ks : m_keys mo = map fst kvs).
    { assert (Le : length (m_keys mo) = length (m_vals mo)) by (symmetry; apply W). transitivity (map fst (abs mo)); [|rewrite A; unfold moved; rewrite map_map; reflexivity].
      unfold abs. clear -Le. revert Le. generalize (m_vals mo). induction (m_keys mo) as [|x r IH]; intros [|y s] Le; try discriminate; [reflexivity|]. cbn. f_equal. apply IH. injection Le as Le. exact Le. }
    assert (Lk : length (m_keys mo) = length kvs) by (rewrite Ks; apply map_length).
    assert (Cap : 5 <= calc_capacity (msize mo)).
    { destruct W as [Wc _]. destruct (c_size _ _ _ _ _ Wc) as (e & He & Ee). unfold msize. rewrite Ee. assert (2 ^ 3 <= 2 ^ Z.of_nat e) by (apply Z.pow_le_mono_r; lia). unfold calc_capacity. lia. }
    unfold insert_of. rewrite (store_good copy_of m _ mo key (at_ loc v) P (wf_good mo W) Gk (copy_scalar _ _ _ (good_scalar _ Gk))).
    unfold roomy in Ro. apply orb_true_iff in Ro.
    destruct (inst insert_refines mo key (at_ loc v) W Gk) as (mo' & Ei & W' & A' & _).
    { rewrite Lk. destruct Ro as [Ro|Ro]; [apply Z.ltb_lt in Ro; lia|]. apply andb_true_iff in Ro. destruct Ro as [Ro _]. apply Z.ltb_lt in Ro. exact Ro. }
    { destruct Ro as [Ro|Ro]; [right; apply Z.ltb_lt in Ro; lia|]. left. apply andb_true_iff in Ro. destruct Ro as [_ Ro]. rewrite Ks. apply Forall_map, Forall_forall. intros kv Hkv.
      rewrite forallb_forall in Ro. specialize (Ro kv Hkv). unfold vhash. destruct (scalar_hash (fst kv)); [apply Z.leb_le, Ro|discriminate]. }
    rewrite Ei. apply agrees_tale. split; [|split; [apply upd_length|apply set_left, Hi]]. apply holds_upd; [exact Hd|exact Fc|]. cbn [object_of].
    split; [apply store_all; [split; assumption|exact Fv|exact F]|]. exists mo'. split; [reflexivity|]. split; [exact W'|]. rewrite A', A. apply store_moved; [split; assumption|exact Fk'].
Qed.

Lemma pend_same m : m_pend m = false -> set_pend m false = m /\ forall b, set_pend (set_pend m b) false = m.
Proof. intros P. destruct m as [os p]. cbn in *. subst p. auto. Qed.

Lemma holds_found loc h m col key : holds loc h m -> m_pend m = false -> fine_v (length h) col -> fine_k key ->
  agrees (fun v p => p = (at_ loc v, m) /\ fine_v (length h) v) (found h col key) (select_or_none E m (at_ loc col) (at_ loc key)).
Proof.
  intros Hd P Fc Fk. destruct (pend_same m P) as [Pf Pb].
  assert (Un2 : forall o, select_of E m (at_ loc col) (at_ loc key) = OOk (o, m) \/ (o = None /\ select_of E m (at_ loc col) (at_ loc key) = OOk (o, set_pend m true)) ->
    select_or_none E m (at_ loc col) (at_ loc key) = OOk (match o with Some v => v | None => VNone end, m)).
  { intros o H. unfold select_or_none. rewrite Pf, P. destruct H as [-> |[-> ->]]; cbn [obind fst snd]; rewrite ?Pf, ?Pb; reflexivity. }
  assert (No : select_of E m (at_ loc col) (at_ loc key) = OOk (None, set_pend m true) -> agrees (fun v p => p = (at_ loc v, m) /\ fine_v (length h) v) (Tale VNone) (select_or_none E m (at_ loc col) (at_ loc key))).
  { intros H. rewrite (Un2 None) by auto. apply agrees_tale. split; [reflexivity|exact I]. }
  unfold select_of in *. destruct col as [| | | |bs| | |k]; try contradiction Fc.
  1-4: cbn [found]; apply No; destruct (depth (m_objs m)); reflexivity.
  - cbn [at_] in *. assert (Q : forall key', obj_select E (depth (m_objs m)) m (VStr bs) key' = keyed m key' (fun i => match str_select (str_of bs) i with ROk s => ROk (VStr (s_bytes s)) | RErr => RErr | RUB => RUB end))
      by (intros key'; destruct (depth (m_objs m)); reflexivity).
    destruct key as [| |i| | | | |]; try (cbn [found]; apply No; rewrite Q; reflexivity).
    cbn [found]. destruct (near i) eqn:Ni; [|exact I]. apply ListsProofs.near_in in Ni. cbn [at_] in *. destruct Fc as [Tx (cs & Fl & Cc & Ln)]. subst bs.
    rewrite (ListsProofs.characters_chars cs Fl). assert (So : str_of (concat cs) = mkstr (Z.of_nat (length cs)) (concat cs)).
    { pose proof (from_string_chars cs [] Fl) as H. unfold from_string in H. destruct (Z.ltb_spec (Z.of_nat (length (concat cs))) 0); [lia|]. rewrite Nat2Z.id, app_nil_r, Nat.ltb_irrefl in H.
      unfold str_of. destruct (utf8_strlen (concat cs) (length (concat cs))); try discriminate H. rewrite firstn_all in H. injection H as ->. reflexivity. }
    assert (Lc : Z.of_nat (length cs) < 2 ^ 31).
    { assert (H : (length cs <= length (concat cs))%nat); [|lia]. clear -Fl. induction Fl as [|c cs Hc _ IH]; [cbn; lia|]. cbn [concat length]. rewrite app_length. destruct c; [destruct Hc as [_ []]|cbn [length]; lia]. }
    unfold seq_get, zget. destruct (Z.ltb_spec i 0).
    { apply No. rewrite Q. cbn [keyed]. rewrite str_select_out by (auto). reflexivity. }
    destruct (nth_error cs (Z.to_nat i)) as [c|] eqn:Nc.
    + assert (Ic : In c cs) by (eapply nth_error_In; eauto). assert (Lo : loose_char c) by (rewrite Forall_forall in Fl; auto).
      rewrite (Un2 (Some (VStr c))). { apply agrees_tale. split; [reflexivity|]. split; [exact (ListsProofs.text_part cs c Ic Tx)|]. exists [c]. split; [auto|]. split; [cbn; apply app_nil_r|].
        assert (H1 : (length c <= 4)%nat); [|lia]. destruct c as [|b r]; [cbn; lia|]. destruct Lo as (_ & -> & _). unfold lead_len. repeat destruct (_ <? _); lia. }
      left. rewrite Q. cbn [keyed]. rewrite So. pose proof (str_select_chars cs (Z.to_nat i) c Fl Lc Nc) as H1. rewrite Z2Nat.id in H1 by lia. rewrite H1. reflexivity.
    + apply nth_error_None in Nc. apply No. rewrite Q. cbn [keyed]. rewrite str_select_out; [reflexivity|exact Ni|]. right. rewrite So. cbn [s_count]. lia.
  - cbn [fine_v] in Fc. destruct (nth_error h k) as [c|] eqn:Hk; [|apply nth_error_None in Hk; lia]. pose proof (holds_coll loc h m k c Hd Hk) as H. cbn [at_ found] in *. rewrite Hk.
    destruct c as [xs|kvs]; cbn [object_of] in H.
    + destruct H as (F & Sm & lo & Ho & R & C).
      assert (Q : forall key', obj_select E (depth (m_objs m)) m (VRef (nth k loc O)) key' = keyed m key' (list_select lo)) by (intros key'; destruct (depth (m_objs m)); cbn [obj_select]; rewrite Ho; reflexivity).
      destruct key as [| |i| | | | |]; try (apply No; rewrite Q; reflexivity).
      destruct (near i) eqn:Ni; [|exact I]. apply ListsProofs.near_in in Ni. cbn [at_] in *.
      assert (Sel : keyed m (VInt i) (list_select lo) = match seq_get xs i with Some v => OOk (Some (at_ loc v), m) | None => OOk (None, set_pend m true) end).
      { cbn [keyed]. rewrite (select_spec lo (map (at_ loc) xs) i R ltac:(rewrite map_length; lia) Ni), ListsProofs.zget_map. destruct (seq_get xs i); reflexivity. }
      destruct (seq_get xs i) as [v|] eqn:G.
      * rewrite (Un2 (Some (at_ loc v))) by (left; rewrite Q; exact Sel). apply agrees_tale. split; [reflexivity|]. unfold seq_get, zget in G. destruct (i <? 0); [discriminate|].
        rewrite Forall_forall in F. apply F. eapply nth_error_In, G.
      * apply No. rewrite Q. exact Sel.
    + destruct H as (F & mo & Ho & W & A). destruct (usable key) eqn:Uk; [|exact I].
      assert (Sel : obj_select E (depth (m_objs m)) m (VRef (nth k loc O)) (at_ loc key) = OOk (option_map (at_ loc) (a_read same kvs key), m)).
      { rewrite (usable_at loc key Uk). destruct (depth (m_objs m)); cbn [obj_select]; rewrite Ho, (good_sel m mo key P W (usable_good _ (conj Uk Fk))); change (combine (m_keys mo) (m_vals mo)) with (abs mo);
          rewrite A, read_moved; try reflexivity; try (split; assumption); (eapply Forall_impl; [|exact F]; intros kv Hkv; apply Hkv). }
      rewrite (Un2 (option_map (at_ loc) (a_read same kvs key))) by (left; exact Sel).
      destruct (a_read same kvs key) as [v|] eqn:G; cbn [option_map]; apply agrees_tale; (split; [reflexivity|]); [|exact I].
      eapply (read_all (fine_v (length h))); [|exact G]. eapply Forall_impl; [|exact F]. intros kv Hkv. apply Hkv.
Qed.

(** * Operators and types *)
Lemma holds_kind loc h m k : holds loc h m -> (k < length h)%nat -> rt_of (m_objs m) (nth k loc O) = (if is_list h k then TyList else TyMap).
Proof.
  intros Hd Lk. unfold rt_of, is_list. destruct (nth_error h k) as [c|] eqn:Hk; [|apply nth_error_None in Hk; lia]. pose proof (holds_coll loc h m k c Hd Hk) as H.
  destruct c; cbn [object_of] in H; [destruct H as (_ & _ & lo & -> & _)|destruct H as (_ & mo & -> & _)]; reflexivity.
Qed.

Lemma answer_fine op v w r : means2 op v w = AVal r -> (exists b, r = VBool b) \/ (exists z, r = VInt z) \/ (exists z, r = VFloat z).
Proof.
  unfold means2, order, arith, bool_answer, fits64, as_double.
  destruct op, v, w; try discriminate; repeat match goal with |- context [if ?b then _ else _] => destruct b end; try discriminate; intros [= <-]; eauto.
Qed.

Lemma binary_coll op loc h m v w : op <> BStp -> fine_v (length h) v -> fine_v (length h) w -> m_pend m = false -> holds loc h m ->
  match cmeans2 h op v w with
  | AVal r => binary_op (binop_code op) m (at_ loc v) (at_ loc w) = OOk (at_ loc r, m) /\ fine_v (length h) r
  | AErr => binary_op (binop_code op) m (at_ loc v) (at_ loc w) = OErr
  | ALost => binary_op (binop_code op) m (at_ loc v) (at_ loc w) = OUB
  | ANone => False
  end.
Proof.
  intros N Fv Fw P Hd. pose proof (fun k => holds_kind loc h m k Hd) as Rt.
  destruct (fine_basic loc _ v Fv) as [(a & -> & Ha)|[Bv Sv]], (fine_basic loc _ w Fw) as [(b & -> & Hb)|[Bw Sw]].
  - destruct op; try congruence; cbn [binop_code cmeans2 at_]; try reflexivity;
      unfold binary_op, compare_op, obj_compare; cbn [type_of]; rewrite (Rt a Ha), (Rt b Hb); destruct (is_list h a), (is_list h b); cbn [Bool.eqb tyname_eqb negb]; rewrite ?P; try reflexivity; (split; [reflexivity|exact I]).
  - rewrite Sw. destruct op; try congruence; destruct w; try contradiction Bw; cbn [binop_code cmeans2 at_]; try reflexivity;
      unfold binary_op, compare_op, obj_compare; cbn [type_of]; rewrite (Rt a Ha); destruct (is_list h a); cbn [tyname_eqb negb]; cbv beta iota; rewrite ?P; (split; [reflexivity|exact I]).
  - rewrite Sv. destruct op; try congruence; destruct v; try contradiction Bv; cbn [binop_code cmeans2 at_]; try reflexivity;
      unfold binary_op, compare_op, obj_compare; cbn [type_of]; rewrite (Rt b Hb); destruct (is_list h b); cbn [tyname_eqb negb]; cbv beta iota; rewrite ?P; (split; [reflexivity|exact I]).
  - rewrite Sv, Sw. assert (Q : cmeans2 h op v w = means2 op v w) by (destruct op, v; try reflexivity; contradiction Bv). rewrite Q in *.
    pose proof (binary_means op m v w N Bv Bw P) as U. destruct (means2 op v w) as [r| | |] eqn:M; try exact U. destruct U as [U Br].
    destruct (answer_fine op v w r M) as [[b ->]|[[z ->]|[z ->]]]; (split; [exact U|exact Br]).
Qed.

Lemma unary_coll op loc (h : colls) m v : op <> UNlb -> fine_v (length h) v ->
  match means1 op v with
  | AVal r => unary_op (unop_code op) m (at_ loc v) = OOk (at_ loc r, m) /\ fine_v (length h) r
  | AErr => unary_op (unop_code op) m (at_ loc v) = OErr
  | ALost => unary_op (unop_code op) m (at_ loc v) = OUB
  | ANone => False
  end.
Proof.
  intros N Fv. destruct (fine_basic loc _ v Fv) as [(a & -> & Ha)|[Bv Sv]].
  - destruct op; try congruence; cbn [means1 unop_code at_]; try reflexivity. split; [reflexivity|exact Fv].
  - rewrite Sv. pose proof (unary_means op m v N Bv) as U. destruct (means1 op v) as [r| | |] eqn:M; try exact U. destruct U as [U Br].
    assert (G : at_ loc r = r /\ fine_v (length h) r).
    { destruct op; try congruence; cbn [means1] in M; [injection M as <-; auto|..]; destruct v; try discriminate M; unfold bool_answer, fits64 in M;
        repeat match type of M with context [if ?b then _ else _] => destruct b end; try discriminate M; injection M as <-; auto. }
    destruct G as [-> G]. auto.
Qed.

Lemma belongs_coll loc h m v t : holds loc h m -> fine_v (length h) v -> tyname_eqb (type_of (rt_of (m_objs m)) (at_ loc v)) t = cbelongs h v t.
Proof.
  intros Hd F. destruct (fine_basic loc _ v F) as [(k & -> & Hk)|[B S]].
  - cbn [at_ type_of cbelongs]. rewrite (holds_kind loc h m k Hd Hk). unfold is_list. destruct (nth_error h k) as [[]|] eqn:Q; [destruct t; reflexivity..|]. apply nth_error_None in Q. lia.
  - rewrite S. destruct v; try contradiction B; cbn; destruct t; reflexivity.
Qed.
End Heap.
