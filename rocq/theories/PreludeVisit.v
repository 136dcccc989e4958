(** A whole iteration: makeIterator, then any number of calls of next, over lists and over maps. *)
From Coq Require Import ZArith String List Bool Lia.
From Verif Require Import Base Utf8Model Utf8Spec Utf8Proofs HashModel StringModel TextProofs ValueModel SeqSpec ListModel ListProofs MapModel MapSpec MapProofs MapProofs2 ObjModel AstModel CodegenModel VmModel SrcModel
  BuiltinModel PreludeModel PreludeRun PreludeProofs PreludeText PreludeUser PreludeIter PreludeNext.
Import ListNotations.
Open Scope Z_scope.

Lemma fresh E extra cx s o ks vs lk : nth_error (P ++ extra) s = Some o -> collection E o ks vs lk ->
  let n := length (P ++ extra) in
  iterator E (extra ++ mgi_new n s (length (C ++ cx)) lk) (cx ++ [fn_next]) (n + 1) s o ks vs lk (n + 3) (n + 5) (length (C ++ cx)) (n + 4) n None.
Proof.
  intros Hs K n.
  assert (A : forall i, nth_error (P ++ extra ++ mgi_new n s (length (C ++ cx)) lk) (n + i) = nth_error (mgi_new n s (length (C ++ cx)) lk) i).
  { intros i. rewrite app_assoc. unfold n. rewrite nth_error_app2 by lia. f_equal. lia. }
  constructor.
  - rewrite A. reflexivity.
  - unfold n. rewrite app_length. lia.
  - rewrite app_assoc. apply nth_pre. exact Hs.
  - assert (s < n)%nat by (apply nth_error_Some; fold n; rewrite Hs; discriminate). lia.
  - rewrite A. reflexivity.
  - rewrite A. reflexivity.
  - rewrite app_assoc, nth_error_app2 by lia. rewrite Nat.sub_diag. reflexivity.
  - split; [rewrite A; reflexivity|]. rewrite <- (Nat.add_0_r n) at 2. rewrite A. reflexivity.
  - exact K.
  - exact I.
Qed.

Lemma iterate E f st s o ks vs lk : with_prelude st -> nth_error (m_objs (t_mem st)) s = Some o -> collection E o ks vs lk -> no_method E o -> (2 <= f)%nat ->
  exists it st', call (UE E) (run_call_n (UE E) f) (VRef 38) [VRef s] 1 st = OOk ([it], st') /\ with_prelude st' /\
  forall n, visit E f it n st' = OOk (map (item ks vs) (seq 0 n)).
Proof.
  intros (extra & cx & ->) Hs K Hm Hf. destruct f as [|[|f]]; [lia|lia|]. cbn [t_mem m_objs] in Hs.
  destruct (mi_ok E f s o ks vs lk extra cx Hs K Hm) as [t A]. cbv zeta in A.
  set (n := length (P ++ extra ++ t)) in A.
  exists (VRef (n + 1)), (Out ((extra ++ t) ++ mgi_new n s (length (C ++ cx)) lk) (cx ++ [fn_next])). split; [|split].
  - unfold call. cbn [t_mem m_objs t_codes].
    rewrite (nth_pre hobj P extra 38 (OFun 11 (VRef 37))) by (vm_compute; reflexivity).
    rewrite (nth_pre _ C cx 11 fn_mi) by (vm_compute; reflexivity).
    rewrite (surjective_pairing fn_mi). change (adjust (params_len (fst fn_mi)) [VRef s]) with [VRef s; VNone].
    change (mkst (mkmem (P ++ extra) false) (C ++ cx)) with (Out extra cx). rewrite A. reflexivity.
  - eexists. eexists. reflexivity.
  - intros m. eapply (visits E f m _ _ _ _ _ _ _ _ _ _ _ _ _ None). apply (fresh E (extra ++ t) cx s o ks vs lk); [|exact K].
    rewrite app_assoc. apply nth_pre. exact Hs.
Qed.

(** * Lists *)
Lemma rep_map {A B} (g : A -> B) l s : rep l s ->
  rep (mklobj (l_cap l) (l_count l) (map (fun c => match c with Some z => Some (g z) | None => None end) (l_cells l))) (map g s).
Proof.
  intros (H1 & H2 & H3 & H4). unfold rep. cbn [l_cap l_count l_cells]. rewrite !map_length. repeat split; try assumption.
  rewrite firstn_map, H4, !map_map. reflexivity.
Qed.

Definition list_keys (n : nat) : list value := map (fun i => VInt (Z.of_nat i)) (seq 0 n).

Lemma list_collection E lo vs : rep lo vs -> Z.of_nat (length vs) <= 2 ^ 30 -> exists lk, collection E (OList lo) (list_keys (length vs)) vs lk.
Proof.
  intros R Hn. destruct (keysof_spec lo vs R Hn) as (l' & K & R').
  eexists. constructor.
  - left. reflexivity.
  - unfold list_keys. rewrite map_length, seq_length. reflexivity.
  - intros i k v Hk Hv. unfold list_keys in Hk. rewrite nth_error_map in Hk.
    destruct (nth_error (seq 0 (length vs)) i) as [j|] eqn:Ej; [|discriminate]. injection Hk as <-.
    assert (i < length vs)%nat by (apply nth_error_Some; rewrite Hv; discriminate).
    assert (j = i) as ->.
    { pose proof (nth_error_nth _ _ 0%nat Ej) as X. rewrite seq_nth in X by lia. lia. }
    intros objs l Hl. unfold select_or_none, select_of, set_pend. cbn [m_objs m_pend]. destruct (depth objs); cbn [obj_select m_objs]; rewrite Hl; cbn [keyed];
    
    rewrite (select_spec lo vs _ R) by (unfold in_int; lia);
    unfold seq_get; rewrite zget_nth, Hv; reflexivity.
  - intros other objs l Hl. unfold bin_keysof. cbn [m_objs]. rewrite Hl, K. cbn [ints_list of_res obind alloc ret1]. reflexivity.
  - apply (rep_map VInt) in R'. rewrite map_map in R'. exact R'.
  - unfold list_keys. rewrite map_length, seq_length. exact Hn.
Qed.

Lemma iterate_list E f st s lo vs : with_prelude st -> nth_error (m_objs (t_mem st)) s = Some (OList lo) -> rep lo vs -> Z.of_nat (length vs) <= 2 ^ 30 -> (2 <= f)%nat ->
  exists it st', call (UE E) (run_call_n (UE E) f) (VRef 38) [VRef s] 1 st = OOk ([it], st') /\ with_prelude st' /\
  forall n, visit E f it n st' = OOk (map (fun i => match nth_error vs i with Some v => [v; VInt (Z.of_nat i); VInt (Z.of_nat i)] | None => [VNone; VNone; VNone] end) (seq 0 n)).
Proof.
  intros W Hs R Hn Hf. destruct (list_collection E lo vs R Hn) as [lk K].
  destruct (iterate E f st s _ _ _ lk W Hs K) as (it & st' & A & W' & V); [intros X; discriminate X|assumption|].
  exists it, st'. split; [exact A|]. split; [exact W'|]. intros n. rewrite V. f_equal. apply map_ext. intros i. unfold item.
  destruct (nth_error vs i) eqn:Ev; [|reflexivity].
  assert (i < length vs)%nat by (apply nth_error_Some; rewrite Ev; discriminate).
  assert (nth_error (list_keys (length vs)) i = Some (VInt (Z.of_nat i))) as ->; [|reflexivity].
  unfold list_keys. apply (map_nth_error (fun i => VInt (Z.of_nat i))). rewrite (nth_error_nth' _ 0%nat) by (rewrite seq_length; lia). rewrite seq_nth by lia. reflexivity.
Qed.

(** * Maps *)
Lemma select_ext {V} h1 h2 c1 c2 (m : hmap value V) key : h1 key = h2 key -> (forall k, c1 key k = c2 key k) ->
  map_select h1 c1 m key = map_select h2 c2 m key.
Proof.
  intros Hh Hc. unfold map_select, find_slot. rewrite Hh.
  assert (X : forall f s, find_loop c1 f m key s = find_loop c2 f m key s).
  { induction f as [|f IH]; intros p; [reflexivity|]. cbn [find_loop]. destruct (zget _ _); [|reflexivity].
    destruct (_ =? _); [reflexivity|]. destruct (zget _ _); [|reflexivity]. rewrite Hc, IH. reflexivity. }
  rewrite X. reflexivity.
Qed.

Lemma good_hash objs k : good_key k -> hash_of objs k = OOk (vhash k).
Proof.
  intros (H & _ & S). unfold hash_of, vhash. unfold depth. destruct k; cbn in H; try contradiction; cbn [obj_hash scalar_hash]; try reflexivity.
  destruct (str_hash (str_of bytes)) eqn:E; [reflexivity|]. exfalso. unfold str_hash, s_mem, str_of in E. cbn [s_count s_bytes] in E.
  destruct S as [HB HL]. pose proof (strlen_total bytes (length bytes) HB (le_n _)) as SL.
  assert (X : forall n, 0 <= n <= Z.of_nat (length bytes) -> hashbytes (bytes ++ [0]) (Z.to_nat n) <> None).
  { intros n Hn. unfold hashbytes. destruct (bytes ++ [0]) eqn:Eb; [destruct bytes; discriminate|]. rewrite <- Eb.
    destruct (Nat.ltb_spec (length (bytes ++ [0])) (Z.to_nat n)) as [Hx|_]; [rewrite app_length in Hx; cbn [length] in Hx; lia|discriminate]. }
  destruct SL as [ES|(n & ES & R' & _)]; rewrite ES in E.
  - revert E. change (Z.to_nat (-1)) with (Z.to_nat 0). apply X. lia.
  - revert E. apply X. lia.
Qed.

Lemma good_sel (m : mem) mo k : m_pend m = false -> wf vhash veqb good_key mo -> good_key k ->
  map_sel m mo k = OOk (a_read veqb (combine (m_keys mo) (m_vals mo)) k, m).
Proof.
  intros Hp W G. unfold map_sel. rewrite (good_hash _ _ G). cbn [obind].
  rewrite (select_ext _ vhash _ (obj_compare (rt_of (m_objs m))) mo k).
  - rewrite (select_refines vhash (obj_compare (rt_of (m_objs m))) veqb good_key); auto using veqb_refl, veqb_hash, vhash_int; try exact veqb_trans.
    + unfold abs. destruct (a_read _ _ _); reflexivity.
    + intros. apply good_cmp; auto.
    + intros. apply veqb_sym.
  - unfold hash_or0. rewrite (good_hash _ _ G). reflexivity.
  - intros k'. unfold map_cmp. rewrite Hp. destruct (obj_compare _ _ _) as [[|]|]; reflexivity.
Qed.

(** What a map holds after the stores [h]. *)
Definition filled (num : Z) (h : list (value * value)) (mo : hmap value value) : Prop :=
  small_history veqb num h /\ tame vhash veqb num h /\ Forall (fun kv => good_key (fst kv)) h /\
  map_inserts vhash (obj_compare (fun _ => TyList)) (new_map num) h = InsOk mo.

Lemma filled_sel num h mo : filled num h mo -> m_keys mo = firsts veqb (map fst h) /\
  forall m k, m_pend m = false -> good_key k -> map_sel m mo k = OOk (last_stored veqb h k, m).
Proof.
  intros (A & B & G & I).
  destruct (map_history (V := value) vhash (obj_compare (fun _ => TyList)) veqb good_key) with (num := num) (h := h) as (m' & I' & _ & Ec & Ek & _ & W);
    auto using veqb_refl, veqb_hash, vhash_int; try exact veqb_trans.
  { intros. apply good_cmp; auto. }
  { intros. apply veqb_sym. }
  rewrite I in I'. injection I' as <-. split; [rewrite <- a_stores_fst; exact Ek|].
  intros m k Hp Gk. rewrite (good_sel m mo k Hp W Gk). unfold map_keys in Ec. rewrite Ec.
  rewrite (a_read_stores veqb good_key); auto using veqb_refl; try exact veqb_trans.
  intros. apply veqb_sym.
Qed.

Definition the_value (h : list (value * value)) (k : value) : value := match last_stored veqb h k with Some v => v | None => VNone end.

Lemma filled_answers E num h mo k : filled num h mo -> good_key k -> answers (UE E) (OMap mo) k (the_value h k).
Proof.
  intros F G objs l Hl. destruct (filled_sel num h mo F) as [_ S].
  unfold select_or_none, select_of, set_pend. cbn [m_objs m_pend].
  rewrite (sel_map _ _ (mkmem objs false) l mo k Hl). rewrite (S (mkmem objs false) k eq_refl G). reflexivity.
Qed.

Lemma firsts_in {K} (eqb : K -> K -> bool) ks k : In k (firsts eqb ks) -> In k ks.
Proof.
  unfold firsts. enough (X : forall acc, In k (fold_left (fun acc k => if existsb (eqb k) acc then acc else acc ++ [k]) ks acc) -> In k acc \/ In k ks).
  { intros H. destruct (X [] H) as [[]|]; assumption. }
  induction ks as [|x ks IH]; intros acc H; [left; assumption|]. cbn [fold_left] in H. destruct (IH _ H) as [H1|H1]; [|right; now right].
  destruct (existsb (eqb x) acc); [left; assumption|]. apply in_app_or in H1. destruct H1 as [|[<-|[]]]; [left; assumption|right; now left].
Qed.

Lemma firsts_length {K} (eqb : K -> K -> bool) ks : (length (firsts eqb ks) <= length ks)%nat.
Proof.
  unfold firsts. enough (X : forall acc, (length (fold_left (fun acc k => if existsb (eqb k) acc then acc else acc ++ [k]) ks acc) <= length acc + length ks)%nat) by apply (X []).
  induction ks as [|x ks IH]; intros acc; [cbn [fold_left length]; lia|]. cbn [fold_left]. specialize (IH (if existsb (eqb x) acc then acc else acc ++ [x])).
  destruct (existsb (eqb x) acc); [cbn [length]; lia|]. rewrite app_length in IH. cbn [length] in *. lia.
Qed.

Lemma map_collection E num h mo : filled num h mo -> exists lk,
  collection E (OMap mo) (firsts veqb (map fst h)) (map (the_value h) (firsts veqb (map fst h))) lk.
Proof.
  intros F. pose proof F as ((_ & Hl) & _ & G & _). destruct (filled_sel num h mo F) as [Ek _].
  exists (new_list2 (m_keys mo)). constructor.
  - right. reflexivity.
  - now rewrite map_length.
  - intros i k v Hk Hv. rewrite nth_error_map, Hk in Hv. injection Hv as <-. apply (filled_answers E num h mo k F).
    apply nth_error_In, firsts_in, in_map_iff in Hk. destruct Hk as (kv & <- & Hin). rewrite Forall_forall in G. now apply G.
  - intros other objs l Hn. unfold bin_keysof. cbn [m_objs]. rewrite Hn. reflexivity.
  - rewrite <- Ek. apply rep_new2.
  - pose proof (distinct_at_most veqb h) as X. unfold distinct in X at 1. lia.
Qed.

Lemma iter_good : good_key (VStr (b "iter")).
Proof.
  split; [|split].
  - cbn. intuition discriminate.
  - exact I.
  - split; [|vm_compute; reflexivity]. repeat constructor; unfold is_byte; vm_compute; discriminate.
Qed.

Lemma iterate_map E f st s num h mo : with_prelude st -> nth_error (m_objs (t_mem st)) s = Some (OMap mo) -> filled num h mo ->
  the_value h (VStr (b "iter")) = VNone -> (2 <= f)%nat ->
  exists it st', call (UE E) (run_call_n (UE E) f) (VRef 38) [VRef s] 1 st = OOk ([it], st') /\ with_prelude st' /\
  forall n, visit E f it n st' = OOk (map (fun i => match nth_error (firsts veqb (map fst h)) i with
    Some k => [the_value h k; k; VInt (Z.of_nat i)] | None => [VNone; VNone; VNone] end) (seq 0 n)).
Proof.
  intros W Hs F Hm Hf. destruct (map_collection E num h mo F) as [lk K].
  destruct (iterate E f st s _ _ _ lk W Hs K) as (it & st' & A & W' & V); [|assumption|].
  { intros _. rewrite <- Hm. apply (filled_answers E num h mo _ F). apply iter_good. }
  exists it, st'. split; [exact A|]. split; [exact W'|]. intros n. rewrite V. f_equal. apply map_ext. intros i. unfold item.
  rewrite nth_error_map. destruct (nth_error (firsts veqb (map fst h)) i); reflexivity.
Qed.

(** * The call as an expression *)
Lemma next_expr E f name sc st it : eval (UE E) (run_call_n (UE E) f) MVal (EIdent name) [] sc st = OOk ([it], st) ->
  eval (UE E) (run_call_n (UE E) f) (MCall 3) (ECall (EArw (EIdent name) (EStr (b "next"))) ENil) [] sc st = call_next E f it st.
Proof.
  intros H.
  change (obind (eval (UE E) (run_call_n (UE E) f) MVal (EIdent name) [] sc st) (fun '(x, st2) =>
    obind (eval (UE E) (run_call_n (UE E) f) MVal (EStr (b "next")) [] sc st2) (fun '(y, st3) =>
      match x, y with
      | [self], [key] => obind (select_or_none (UE E) (t_mem st3) self key) (fun '(fn, mm) =>
          call (UE E) (run_call_n (UE E) f) fn (self :: []) 3 (put_mem st3 mm))
      | _, _ => OUB
      end)) = call_next E f it st).
  rewrite H. cbn [obind].
  replace (eval (UE E) (run_call_n (UE E) f) MVal (EStr (b "next")) [] sc st) with (OOk ([VStr (b "next")], st)) by (symmetry; vm_compute; reflexivity).
  cbn [obind]. unfold call_next. destruct (select_or_none (UE E) (t_mem st) it (VStr (b "next"))) as [[fn mm]| | | |]; reflexivity.
Qed.
