From Coq Require Import ZArith List Lia Bool Permutation.
From Verif Require Import Base StringModel UtilModel ListProofs.
Import ListNotations.
Open Scope Z_scope.

Ltac Zify.zify_post_hook ::= Z.div_mod_to_equations.

(** * Stack *)
(** Specification: a list with the most recent value first, and a capacity. *)
Definition sp_push {A} (cap : Z) (l : list A) (x : A) : option (list A) :=
  if Z.of_nat (length l) <? cap then Some (x :: l) else None.
Definition sp_pop {A} (l : list A) (n : Z) : option (list A) :=
  if n <=? Z.of_nat (length l) then Some (skipn (Z.to_nat n) l) else None.

Definition srep {A} (s : stack A) (l : list A) : Prop :=
  k_used s = Z.of_nat (length l) /\ k_size s = Z.of_nat (length (k_body s)) /\ (length l <= length (k_body s))%nat /\
  firstn (length l) (k_body s) = map Some (rev l).

Lemma srep_new {A} size : srep (stack_new (A := A) size) [].
Proof.
  unfold srep, stack_new. cbn [k_used k_size k_body length firstn rev map]. rewrite repeat_length.
  repeat split; try lia. destruct (Z.ltb_spec size 0); lia.
Qed.

Lemma nth_error_rev {A} (l : list A) i : (i < length l)%nat -> nth_error (rev l) i = nth_error l (length l - 1 - i).
Proof.
  revert i. induction l as [|a l IH]; intros i H; [cbn in H; lia|]. cbn [rev length] in *.
  destruct (Nat.eq_dec i (length l)) as [->|N].
  - rewrite nth_error_app2 by (rewrite rev_length; lia). rewrite rev_length, Nat.sub_diag.
    replace (S (length l) - 1 - length l)%nat with 0%nat by lia. reflexivity.
  - rewrite nth_error_app1 by (rewrite rev_length; lia). rewrite IH by lia.
    replace (S (length l) - 1 - i)%nat with (S (length l - 1 - i)) by lia. reflexivity.
Qed.

Lemma stack_top_spec {A} (s : stack A) l n : srep s l -> n <= 0 -> stack_top s n = ROk (nth_error l (Z.to_nat (- n))).
Proof.
  intros (H1 & H2 & H3 & H4) Hn. unfold stack_top. rewrite H1.
  destruct (Z.eqb_spec (Z.of_nat (length l)) 0) as [E|E].
  - destruct l; [|cbn in E; lia]. destruct (Z.to_nat (- n)); reflexivity.
  - destruct (Z.ltb_spec (Z.of_nat (length l) + n - 1) 0) as [L|L].
    + f_equal. symmetry. apply nth_error_None. lia.
    + assert (I : (Z.to_nat (Z.of_nat (length l) + n - 1) < length l)%nat) by lia.
      destruct (nth_error (rev l) (Z.to_nat (Z.of_nat (length l) + n - 1))) as [x|] eqn:Ex.
      2:{ apply nth_error_None in Ex. rewrite rev_length in Ex. lia. }
      assert (F : nth_error (k_body s) (Z.to_nat (Z.of_nat (length l) + n - 1)) = Some (Some x)).
      { apply (nth_firstn_some (k_body s) (rev l)); [rewrite rev_length; assumption|assumption]. }
      unfold zget. destruct (Z.ltb_spec (Z.of_nat (length l) + n - 1) 0); [lia|]. rewrite F.
      rewrite nth_error_rev in Ex by assumption. do 1 f_equal.
      replace (Z.to_nat (- n)) with (length l - 1 - Z.to_nat (Z.of_nat (length l) + n - 1))%nat by lia. auto.
Qed.

Lemma stack_push_spec {A} (s : stack A) l x : srep s l ->
  match sp_push (k_size s) l x with
  | Some l' => exists s', stack_push s x = ROk (Some s') /\ srep s' l' /\ k_size s' = k_size s
  | None => stack_push s x = ROk None
  end.
Proof.
  intros (H1 & H2 & H3 & H4). unfold sp_push, stack_push. rewrite H1.
  destruct (Z.ltb_spec (Z.of_nat (length l)) (k_size s)).
  - destruct (Z.eqb_spec (Z.of_nat (length l)) (k_size s)); [lia|].
    destruct (Z.leb_spec (Z.of_nat (length (k_body s))) (Z.of_nat (length l))); [lia|].
    eexists. split; [reflexivity|]. split; [|reflexivity].
    unfold srep. cbn [k_used k_size k_body length rev]. rewrite upd_length, Nat2Z.id. repeat split; try lia.
    rewrite firstn_S_upd by lia. rewrite H4, map_app. reflexivity.
  - destruct (Z.eqb_spec (Z.of_nat (length l)) (k_size s)); [reflexivity|lia].
Qed.

Lemma stack_pop_spec {A} (s : stack A) l n : srep s l -> 0 <= n ->
  match sp_pop l n with
  | Some l' => exists s', stack_pop s n = Some s' /\ srep s' l' /\ k_size s' = k_size s
  | None => stack_pop s n = None
  end.
Proof.
  intros (H1 & H2 & H3 & H4) Hn. unfold sp_pop, stack_pop. rewrite H1.
  destruct (Z.leb_spec n (Z.of_nat (length l))), (Z.ltb_spec (Z.of_nat (length l)) n); try lia; [|reflexivity].
  eexists. split; [reflexivity|]. split; [|reflexivity].
  unfold srep. cbn [k_used k_size k_body]. rewrite skipn_length. repeat split; try lia.
  assert (E : firstn (length l - Z.to_nat n) (firstn (length l) (k_body s)) = firstn (length l - Z.to_nat n) (k_body s)).
  { rewrite firstn_firstn. f_equal. lia. }
  rewrite <- E, H4, firstn_map. f_equal.
  rewrite <- (firstn_skipn (Z.to_nat n) l) at 2. rewrite rev_app_distr, firstn_app, rev_length, skipn_length, Nat.sub_diag.
  cbn [firstn]. rewrite app_nil_r. rewrite <- (firstn_all (rev (skipn (Z.to_nat n) l))) at 2.
  rewrite rev_length, skipn_length. reflexivity.
Qed.

(** Histories. *)
Inductive sop (A : Type) := SPush (x : A) | SPop (n : Z).
Arguments SPush {A}. Arguments SPop {A}.

(** Model: state after the history and the verdicts. *)
Fixpoint srun {A} (s : stack A) (ops : list (sop A)) : res (stack A * list bool) :=
  match ops with
  | [] => ROk (s, [])
  | SPush x :: r =>
    match stack_push s x with
    | ROk (Some s') => match srun s' r with ROk (s2, bs) => ROk (s2, true :: bs) | RErr => RErr | RUB => RUB end
    | ROk None => match srun s r with ROk (s2, bs) => ROk (s2, false :: bs) | RErr => RErr | RUB => RUB end
    | _ => RUB
    end
  | SPop n :: r =>
    match stack_pop s n with
    | Some s' => match srun s' r with ROk (s2, bs) => ROk (s2, true :: bs) | RErr => RErr | RUB => RUB end
    | None => match srun s r with ROk (s2, bs) => ROk (s2, false :: bs) | RErr => RErr | RUB => RUB end
    end
  end.
(** Specification. *)
Fixpoint sp_run {A} (cap : Z) (l : list A) (ops : list (sop A)) : list A * list bool :=
  match ops with
  | [] => (l, [])
  | op :: r =>
    match (match op with SPush x => sp_push cap l x | SPop n => sp_pop l n end) with
    | Some l' => let (l2, bs) := sp_run cap l' r in (l2, true :: bs)
    | None => let (l2, bs) := sp_run cap l r in (l2, false :: bs)
    end
  end.

Lemma srun_spec {A} ops : forall (s : stack A) l, srep s l ->
  Forall (fun op => match op with SPop n => 0 <= n | _ => True end) ops ->
  exists s', srun s ops = ROk (s', snd (sp_run (k_size s) l ops)) /\ srep s' (fst (sp_run (k_size s) l ops)).
Proof.
  induction ops as [|op ops IH]; intros s l R HF; [exists s; auto|].
  inversion HF as [|? ? H1 H2]; subst. cbn [srun sp_run]. destruct op as [x|n].
  - pose proof (stack_push_spec s l x R) as P. destruct (sp_push (k_size s) l x) as [l'|].
    + destruct P as (s' & E & R' & Ek). rewrite E. destruct (IH s' l' R' H2) as (s2 & E2 & R2). rewrite Ek in *.
      destruct (sp_run (k_size s) l' ops). cbn [fst snd] in *. rewrite E2. eauto.
    + rewrite P. destruct (IH s l R H2) as (s2 & E2 & R2).
      destruct (sp_run (k_size s) l ops). cbn [fst snd] in *. rewrite E2. eauto.
  - pose proof (stack_pop_spec s l n R H1) as P. destruct (sp_pop l n) as [l'|].
    + destruct P as (s' & E & R' & Ek). rewrite E. destruct (IH s' l' R' H2) as (s2 & E2 & R2). rewrite Ek in *.
      destruct (sp_run (k_size s) l' ops). cbn [fst snd] in *. rewrite E2. eauto.
    + rewrite P. destruct (IH s l R H2) as (s2 & E2 & R2).
      destruct (sp_run (k_size s) l ops). cbn [fst snd] in *. rewrite E2. eauto.
Qed.

Lemma stack_history {A} size (ops : list (sop A)) :
  Forall (fun op => match op with SPop n => 0 <= n | _ => True end) ops ->
  let cap := if size <? 0 then 1024 else size in
  exists s, srun (stack_new size) ops = ROk (s, snd (sp_run cap [] ops)) /\
    k_used s = Z.of_nat (length (fst (sp_run cap [] ops))) /\
    forall n, n <= 0 -> stack_top s n = ROk (nth_error (fst (sp_run cap [] ops)) (Z.to_nat (- n))).
Proof.
  intros HF cap. destruct (srun_spec ops (stack_new size) [] (srep_new size) HF) as (s & E & R).
  exists s. split; [exact E|]. split; [apply R|]. intros n Hn. apply stack_top_spec; assumption.
Qed.

(** * Arena *)
Definition disjoint (b c : block) : Prop :=
  bl_chunk b <> bl_chunk c \/ bl_off b + bl_len b <= bl_off c \/ bl_off c + bl_len c <= bl_off b.

Definition inside (chunks : list Z) (b : block) : Prop :=
  bl_off b mod 8 = 0 /\ 0 <= bl_off b /\
  exists sz, nth_error (rev chunks) (bl_chunk b) = Some sz /\ bl_off b + bl_len b <= sz.

Definition blocks_of (bs : list (option block)) : list block :=
  flat_map (fun o => match o with Some b => [b] | None => [] end) bs.

Record arena_ok (a : arena) (prev : list block) : Prop := {
  ao_used : 0 <= a_used a;
  ao_head : exists r, a_chunks a = a_size a :: r;
  ao_in : Forall (inside (a_chunks a)) prev;
  ao_tail : forall b, In b prev -> bl_chunk b = (length (a_chunks a) - 1)%nat -> bl_off b + bl_len b <= a_used a;
  ao_dis : ForallOrdPairs disjoint prev
}.

Lemma align8_spec x : 0 <= x -> align8 x mod 8 = 0 /\ x <= align8 x < x + 8.
Proof. intros H. unfold align8. destruct (Z.eqb_spec (x mod 8) 0); lia. Qed.

Lemma FOP_app {A} (R : A -> A -> Prop) l x : ForallOrdPairs R l -> (forall y, In y l -> R y x) -> ForallOrdPairs R (l ++ [x]).
Proof.
  induction 1 as [|a l Ha H IH]; intros Hx; cbn [app].
  - constructor; constructor.
  - constructor.
    + apply Forall_app. split; [assumption|]. constructor; [apply Hx; left; reflexivity|constructor].
    + apply IH. intros y Hy. apply Hx. right. assumption.
Qed.

Lemma inside_grow chunks c b : inside chunks b -> inside (c :: chunks) b.
Proof.
  intros (H1 & H2 & sz & H3 & H4). split; [assumption|]. split; [assumption|]. exists sz. split; [|assumption].
  cbn [rev]. rewrite nth_error_app1 by (eapply nth_error_Some_lt; eassumption). assumption.
Qed.

Lemma arena_malloc_ok ok a req prev : arena_ok a prev -> 0 <= req ->
  let '(a', b) := arena_malloc ok a req in
  match b with
  | Some b => arena_ok a' (prev ++ [b]) /\ bl_len b = req
  | None => arena_ok a' prev
  end.
Proof.
  intros H Hr. destruct (ao_head _ _ H) as (r & Er). pose proof (ao_used _ _ H) as Hu.
  destruct (align8_spec (a_used a + 8) ltac:(lia)) as [A1 A2].
  unfold arena_malloc. destruct (Z.ltb_spec (a_size a) (align8 (a_used a + 8) + req)).
  - destruct ok.
    + cbn [bl_len]. change (align8 8) with 8. split; [|reflexivity]. constructor; cbn [a_used a_size a_chunks].
      * lia.
      * eauto.
      * apply Forall_app. split.
        -- eapply Forall_impl; [|apply (ao_in _ _ H)]. intros. apply inside_grow. assumption.
        -- constructor; [|constructor]. split; [reflexivity|]. split; [cbn; lia|].
           exists (Z.max (a_min a) (req + 8)). cbn [bl_chunk bl_off bl_len rev]. split; [|lia].
           rewrite nth_error_app2 by (rewrite rev_length; lia). rewrite rev_length, Nat.sub_diag. reflexivity.
      * intros b Hb Hc. apply in_app_or in Hb. cbn [length] in Hc. destruct Hb as [Hb|[<-|[]]]; [|cbn; lia].
        pose proof (ao_in _ _ H) as F. rewrite Forall_forall in F. destruct (F b Hb) as (_ & _ & sz & N & _).
        apply nth_error_Some_lt in N. rewrite rev_length in N. lia.
      * apply FOP_app; [apply (ao_dis _ _ H)|]. intros y Hy. left. cbn [bl_chunk].
        pose proof (ao_in _ _ H) as F. rewrite Forall_forall in F. destruct (F y Hy) as (_ & _ & sz & N & _).
        apply nth_error_Some_lt in N. rewrite rev_length in N. lia.
    + constructor; cbn [a_used a_size a_chunks]; try lia; try apply H; eauto.
      intros b Hb Hc. pose proof (ao_tail _ _ H b Hb Hc). lia.
  - cbn [bl_len]. split; [|reflexivity]. constructor; cbn [a_used a_size a_chunks].
    + lia.
    + eauto.
    + apply Forall_app. split; [apply (ao_in _ _ H)|]. constructor; [|constructor].
      split; [exact A1|]. split; [cbn; lia|]. exists (a_size a). cbn [bl_chunk bl_off bl_len]. split; [|lia].
      rewrite Er. cbn [rev length]. rewrite nth_error_app2 by (rewrite rev_length; lia). rewrite rev_length.
      replace (S (length r) - 1 - length r)%nat with 0%nat by lia. reflexivity.
    + intros b Hb Hc. apply in_app_or in Hb. destruct Hb as [Hb|[<-|[]]]; [|cbn; lia].
      pose proof (ao_tail _ _ H b Hb Hc). lia.
    + apply FOP_app; [apply (ao_dis _ _ H)|]. intros y Hy. unfold disjoint. cbn [bl_chunk bl_off bl_len].
      destruct (Nat.eq_dec (bl_chunk y) (length (a_chunks a) - 1)) as [E|E]; [|left; assumption].
      right. left. pose proof (ao_tail _ _ H y Hy E). lia.
Qed.

Lemma arena_run_ok l : forall a prev, arena_ok a prev -> Forall (fun r => 0 <= fst r) l ->
  arena_ok (fst (arena_run a l)) (prev ++ blocks_of (snd (arena_run a l))) /\
  length (snd (arena_run a l)) = length l /\
  (forall i b, nth_error (snd (arena_run a l)) i = Some (Some b) -> exists ok, nth_error l i = Some (bl_len b, ok)).
Proof.
  induction l as [|[req ok] l IH]; intros a prev H HF.
  - cbn [arena_run fst snd blocks_of flat_map length]. rewrite app_nil_r. split; [assumption|]. split; [reflexivity|].
    intros i b Hi. destruct i; discriminate.
  - inversion HF as [|? ? H1 H2]; subst. cbn [fst] in H1. cbn [arena_run].
    pose proof (arena_malloc_ok ok a req prev H H1) as P. destruct (arena_malloc ok a req) as [a1 b].
    destruct b as [b|].
    + destruct P as [P Pl]. destruct (IH a1 _ P H2) as (Q1 & Q2 & Q3). destruct (arena_run a1 l) as [a2 bs]. cbn [fst snd] in *.
      unfold blocks_of in *. cbn [flat_map app]. rewrite <- app_assoc in Q1. split; [exact Q1|]. split; [cbn; lia|].
      intros [|i] c Hc; cbn [nth_error] in *; [|apply Q3; assumption]. injection Hc as <-. rewrite Pl. eauto.
    + destruct (IH a1 _ P H2) as (Q1 & Q2 & Q3). destruct (arena_run a1 l) as [a2 bs]. cbn [fst snd] in *.
      unfold blocks_of in *. cbn [flat_map app]. split; [exact Q1|]. split; [cbn; lia|].
      intros [|i] c Hc; cbn [nth_error] in *; [discriminate|apply Q3; assumption].
Qed.

Lemma arena_init_ok fs cs : arena_ok (arena_init2 fs cs) [].
Proof.
  unfold arena_init2. constructor; cbn [a_used a_size a_chunks]; eauto; try lia; try constructor. intros b [].
Qed.

Lemma arena_init3_ok ms cs a : arena_init3 ms cs = Some a -> arena_ok a [].
Proof.
  unfold arena_init3. destruct (_ <? _); [discriminate|]. intros [= <-].
  constructor; cbn [a_used a_size a_chunks]; eauto; try lia; try constructor. intros b [].
Qed.

(** * Bucket list *)
Definition bl_bytes (b : blist) : list Z := concat (map bk_data (bl_init b)) ++ bk_data (bl_tail b).

Definition blist_ok (b : blist) (bytes : list Z) : Prop :=
  bl_bytes b = bytes /\ Forall (fun k => Z.of_nat (length (bk_data k)) <= bk_size k) (bl_init b ++ [bl_tail b]) /\
  0 < bk_size (bl_tail b).

Lemma bl_bytes_add b n : bl_bytes (add_bucket b n) = bl_bytes b.
Proof. unfold bl_bytes, add_bucket. cbn [bl_init bl_tail bk_data]. rewrite map_app, concat_app. cbn. rewrite !app_nil_r. reflexivity. Qed.

Lemma bl_bytes_write b d : bl_bytes (tail_write b d) = bl_bytes b ++ d.
Proof. unfold bl_bytes, tail_write. cbn [bl_init bl_tail bk_data]. rewrite app_assoc. reflexivity. Qed.

Lemma Forall_snoc {A} (P : A -> Prop) l x : Forall P (l ++ [x]) <-> Forall P l /\ P x.
Proof.
  rewrite Forall_app. split; intros [H1 H2]; (split; [assumption|]).
  - inversion H2; assumption.
  - constructor; [assumption|constructor].
Qed.

Lemma blist_ok_write b bytes d : blist_ok b bytes ->
  Z.of_nat (length (bk_data (bl_tail b))) + Z.of_nat (length d) <= bk_size (bl_tail b) ->
  blist_ok (tail_write b d) (bytes ++ d).
Proof.
  intros (H1 & H2 & H3) Hd. split; [rewrite bl_bytes_write, H1; reflexivity|]. split; [|exact H3].
  unfold tail_write. cbn [bl_init bl_tail]. apply Forall_snoc in H2. apply Forall_snoc. split; [apply H2|].
  cbn [bk_data bk_size]. rewrite app_length. lia.
Qed.

Lemma blist_ok_add b bytes n : blist_ok b bytes -> 0 < n -> blist_ok (add_bucket b n) bytes.
Proof.
  intros (H1 & H2 & H3) Hn. split; [rewrite bl_bytes_add; assumption|]. split; [|exact Hn].
  unfold add_bucket. cbn [bl_init bl_tail]. apply Forall_snoc. split; [assumption|]. cbn. lia.
Qed.

Lemma append_loop_spec fuel : forall b bytes data, blist_ok b bytes ->
  (2 * length data + (if (bk_size (bl_tail b) - Z.of_nat (length (bk_data (bl_tail b))) =? 0)%Z then 2 else 1) <= fuel)%nat ->
  exists b', append_loop fuel b data = Some b' /\ blist_ok b' (bytes ++ data) /\ bl_size b' = bl_size b.
Proof.
  induction fuel; intros b bytes data H Hf; cbn [append_loop].
  - destruct (_ =? 0); lia.
  - destruct data as [|x data].
    + exists b. rewrite app_nil_r. auto.
    + set (d := x :: data) in *. assert (Ld : (1 <= length d)%nat) by (cbn; lia).
      set (left := bk_size (bl_tail b) - Z.of_nat (length (bk_data (bl_tail b)))) in *.
      destruct (Z.eqb_spec left 0) as [E|E].
      * rewrite E, Z.min_r by lia. change (Z.to_nat 0) with 0%nat. cbn [firstn skipn].
        pose proof (blist_ok_add b bytes 4096 H ltac:(lia)) as H1.
        pose proof (blist_ok_write _ _ [] H1 ltac:(cbn; lia)) as H2. rewrite app_nil_r in H2.
        destruct (IHfuel _ _ d H2) as (b' & E1 & E2 & E3).
        { unfold tail_write, add_bucket. cbn [bl_tail bk_data bk_size length]. cbn. cbn in Hf. lia. }
        exists b'. split; [assumption|]. split; [assumption|]. rewrite E3. reflexivity.
      * assert (P : 0 < left).
        { destruct H as (_ & H & _). apply Forall_snoc in H. destruct H as [_ H]. unfold left. lia. }
        set (c := Z.to_nat (Z.min (Z.of_nat (length d)) left)).
        assert (Lf : length (firstn c d) = c) by (rewrite firstn_length; lia).
        pose proof (blist_ok_write b bytes (firstn c d) H ltac:(unfold left in *; lia)) as H2.
        destruct (IHfuel _ _ (skipn c d) H2) as (b' & E1 & E2 & E3).
        { rewrite skipn_length. assert (1 <= c)%nat by lia. destruct (_ =? 0); lia. }
        exists b'. split; [assumption|]. rewrite <- app_assoc, firstn_skipn in E2. auto.
Qed.

Lemma copy_loop_spec ks : forall len, 0 <= len -> copy_loop ks len = firstn (Z.to_nat len) (concat (map bk_data ks)).
Proof.
  induction ks as [|k ks IH]; intros len Hl; cbn [copy_loop map concat].
  - rewrite firstn_nil. reflexivity.
  - destruct (Z.leb_spec len 0); [replace len with 0 by lia; reflexivity|].
    rewrite IH by lia. rewrite firstn_app. f_equal.
    + destruct (Z.min_spec len (Z.of_nat (length (bk_data k)))) as [[A B]|[A B]]; rewrite B; [reflexivity|].
      rewrite Nat2Z.id, firstn_all. symmetry. apply firstn_all2. lia.
    + f_equal. lia.
Qed.

Definition blist_full (b : blist) (bytes : list Z) : Prop := blist_ok b bytes /\ bl_size b = Z.of_nat (length bytes).

Lemma blist_copy_spec b bytes len : blist_full b bytes ->
  blist_copy b len = if len <? 0 then bytes else firstn (Z.to_nat len) bytes.
Proof.
  intros [(H1 & _) H2]. unfold blist_copy.
  assert (E : concat (map bk_data (bl_init b ++ [bl_tail b])) = bytes).
  { rewrite map_app, concat_app. cbn. rewrite app_nil_r. exact H1. }
  destruct (Z.ltb_spec len 0); rewrite copy_loop_spec by lia; rewrite E; [|reflexivity].
  rewrite H2, Nat2Z.id. apply firstn_all.
Qed.

Lemma blist_new_full : blist_full blist_new [].
Proof. split; [|reflexivity]. split; [reflexivity|]. split; [|reflexivity]. repeat constructor. cbn. lia. Qed.

Lemma blist_append_full b bytes data fuel : blist_full b bytes -> (2 * length data + 2 <= fuel)%nat ->
  exists b', blist_append fuel b data = Some b' /\ blist_full b' (bytes ++ data).
Proof.
  intros [H1 H2] Hf. unfold blist_append.
  destruct (append_loop_spec fuel b bytes data H1) as (b' & E1 & E2 & E3); [destruct (_ =? 0); lia|].
  rewrite E1. eexists. split; [reflexivity|]. split; [exact E2|]. cbn [bl_size]. rewrite app_length. lia.
Qed.

Lemma blist_append2_full b bytes data : blist_full b bytes -> blist_full (fst (blist_append2 b data)) (bytes ++ data).
Proof.
  intros [H1 H2]. unfold blist_append2. cbn [fst].
  destruct (Z.ltb_spec (bk_size (bl_tail b)) (Z.of_nat (length (bk_data (bl_tail b))) + Z.of_nat (length data))).
  - pose proof (blist_ok_add b bytes (Z.max 4096 (Z.of_nat (length data))) H1 ltac:(lia)) as H3.
    pose proof (blist_ok_write _ _ data H3 ltac:(cbn; lia)) as H4.
    split; [exact H4|]. cbn [bl_size tail_write add_bucket]. rewrite app_length. lia.
  - pose proof (blist_ok_write _ _ data H1 ltac:(lia)) as H4.
    split; [exact H4|]. cbn [bl_size tail_write]. rewrite app_length. lia.
Qed.

(** The bytes at a place. *)
Definition bytes_at (b : blist) (place : nat * nat) (n : nat) : list Z :=
  match nth_error (bl_init b ++ [bl_tail b]) (fst place) with
  | Some k => firstn n (skipn (snd place) (bk_data k))
  | None => []
  end.

Lemma append2_place b data : bytes_at (fst (blist_append2 b data)) (snd (blist_append2 b data)) (length data) = data.
Proof.
  unfold blist_append2, bytes_at. cbn [fst snd].
  set (b1 := if _ <? _ then _ else _). unfold tail_write. cbn [bl_init bl_tail bk_data].
  rewrite nth_error_app2, Nat.sub_diag by lia. cbn [nth_error bk_data].
  rewrite skipn_app, skipn_all, Nat.sub_diag. cbn [skipn app]. apply firstn_all.
Qed.

(** Later appends do not move or change bytes already there. *)
Definition extends (b b' : blist) : Prop :=
  forall i k, nth_error (bl_init b ++ [bl_tail b]) i = Some k ->
  exists k' ext, nth_error (bl_init b' ++ [bl_tail b']) i = Some k' /\ bk_data k' = bk_data k ++ ext.

Lemma extends_refl b : extends b b.
Proof. intros i k H. exists k, []. rewrite app_nil_r. auto. Qed.
Lemma extends_trans a b c : extends a b -> extends b c -> extends a c.
Proof.
  intros H1 H2 i k H. destruct (H1 i k H) as (k1 & e1 & A1 & B1). destruct (H2 i k1 A1) as (k2 & e2 & A2 & B2).
  exists k2, (e1 ++ e2). rewrite B2, B1, app_assoc. auto.
Qed.
Lemma extends_add b n : extends b (add_bucket b n).
Proof.
  intros i k H. exists k, []. rewrite app_nil_r. split; [|reflexivity]. unfold add_bucket. cbn [bl_init bl_tail].
  rewrite nth_error_app1 by (eapply nth_error_Some_lt; eassumption). assumption.
Qed.
Lemma extends_write b d : extends b (tail_write b d).
Proof.
  intros i k H. unfold tail_write. cbn [bl_init bl_tail].
  destruct (Nat.lt_ge_cases i (length (bl_init b))) as [L|L].
  - rewrite nth_error_app1 in H by assumption. exists k, []. rewrite app_nil_r, nth_error_app1 by assumption. auto.
  - rewrite nth_error_app2 in H by assumption. rewrite nth_error_app2 by assumption.
    destruct (i - length (bl_init b))%nat as [|[|j]]; cbn [nth_error] in *; try discriminate.
    injection H as <-. eexists. exists d. split; reflexivity.
Qed.
Lemma extends_size b b' n : extends b b' -> extends b (mkblist (bl_init b') (bl_tail b') n).
Proof. auto. Qed.
Lemma append2_extends b data : extends b (fst (blist_append2 b data)).
Proof.
  unfold blist_append2. cbn [fst]. apply extends_size. eapply extends_trans; [|apply extends_write].
  destruct (_ <? _); [apply extends_add|apply extends_refl].
Qed.
Lemma append_loop_extends fuel : forall b data b', append_loop fuel b data = Some b' -> extends b b'.
Proof.
  induction fuel; intros b data b'; cbn [append_loop]; [discriminate|]. destruct data; [intros [= <-]; apply extends_refl|].
  intros H. apply IHfuel in H. eapply extends_trans; [|exact H]. eapply extends_trans; [|apply extends_write].
  destruct (_ =? 0); [apply extends_add|apply extends_refl].
Qed.
Lemma append_extends fuel b data b' : blist_append fuel b data = Some b' -> extends b b'.
Proof.
  unfold blist_append. destruct (append_loop fuel b data) eqn:E; [|discriminate]. intros [= <-].
  apply extends_size. eapply append_loop_extends. eassumption.
Qed.
Lemma extends_place b b' place n : extends b b' -> length (bytes_at b place n) = n ->
  bytes_at b' place n = bytes_at b place n.
Proof.
  unfold bytes_at. intros H L. destruct (nth_error (bl_init b ++ [bl_tail b]) (fst place)) as [k|] eqn:E.
  - destruct (H _ _ E) as (k' & ext & E' & D). rewrite E', D.
    rewrite firstn_length, skipn_length in L.
    rewrite skipn_app, firstn_app, skipn_length.
    replace (n - (length (bk_data k) - snd place))%nat with 0%nat by lia. cbn [firstn]. apply app_nil_r.
  - cbn in L. subst n. destruct (nth_error (bl_init b' ++ _) _); reflexivity.
Qed.

(** A history of appends: plain or in place. *)
Inductive blop := BAppend (data : list Z) | BAppend2 (data : list Z).
Definition blop_data (o : blop) : list Z := match o with BAppend d | BAppend2 d => d end.
Fixpoint blrun (b : blist) (ops : list blop) : option (blist * list (option (nat * nat))) :=
  match ops with
  | [] => Some (b, [])
  | BAppend d :: r =>
    match blist_append (2 * length d + 2) b d with
    | Some b' => match blrun b' r with Some (b2, ps) => Some (b2, None :: ps) | None => None end
    | None => None
    end
  | BAppend2 d :: r =>
    let (b', p) := blist_append2 b d in
    match blrun b' r with Some (b2, ps) => Some (b2, Some p :: ps) | None => None end
  end.

Lemma blrun_spec ops : forall b bytes, blist_full b bytes ->
  exists b' ps, blrun b ops = Some (b', ps) /\ blist_full b' (bytes ++ concat (map blop_data ops)) /\ extends b b' /\
    forall i d p, nth_error ops i = Some (BAppend2 d) -> nth_error ps i = Some (Some p) -> bytes_at b' p (length d) = d.
Proof.
  induction ops as [|op ops IH]; intros b bytes H.
  - exists b, []. cbn. rewrite app_nil_r. repeat split; auto; try apply H; try apply extends_refl. intros [|i]; discriminate.
  - destruct op as [d|d]; cbn [blrun map blop_data concat].
    + destruct (blist_append_full b bytes d _ H (le_n _)) as (b1 & E & H1). rewrite E.
      destruct (IH b1 _ H1) as (b' & ps & E2 & H2 & X & P). rewrite E2. exists b', (None :: ps).
      split; [reflexivity|]. rewrite <- app_assoc in H2. split; [assumption|].
      split; [eapply extends_trans; [eapply append_extends; eassumption|assumption]|].
      intros [|i] d' p; cbn [nth_error]; [discriminate|apply P].
    + pose proof (blist_append2_full b bytes d H) as H1. pose proof (append2_place b d) as PL.
      pose proof (append2_extends b d) as X0. destruct (blist_append2 b d) as [b1 p1]. cbn [fst snd] in *.
      destruct (IH b1 _ H1) as (b' & ps & E2 & H2 & X & P). rewrite E2. exists b', (Some p1 :: ps).
      split; [reflexivity|]. rewrite <- app_assoc in H2. split; [assumption|].
      split; [eapply extends_trans; eassumption|].
      intros [|i] d' p; cbn [nth_error].
      * intros [= <-] [= <-]. rewrite (extends_place b1 b'); [assumption|assumption|]. rewrite PL. reflexivity.
      * apply P.
Qed.

(** * Promise *)
Definition holds (mem : list Z) (addr : nat) (bytes : list Z) : Prop := firstn (length bytes) (skipn addr mem) = bytes.
Definition in_mem (mem : list Z) (n addr : nat) : Prop := (addr + n <= length mem)%nat.
Definition apart (n a b : nat) : Prop := (a + n <= b \/ b + n <= a)%nat.

Lemma mem_write_length mem a bs : in_mem mem (length bs) a -> length (mem_write mem a bs) = length mem.
Proof. unfold in_mem, mem_write. intros H. rewrite !app_length, firstn_length, skipn_length. lia. Qed.

Lemma nth_error_mem_write mem a bs i : in_mem mem (length bs) a ->
  nth_error (mem_write mem a bs) i = if ((a <=? i) && (i <? a + length bs))%nat then nth_error bs (i - a) else nth_error mem i.
Proof.
  unfold in_mem, mem_write. intros H.
  assert (Lf : length (firstn a mem) = a) by (rewrite firstn_length; lia).
  destruct (Nat.leb_spec a i); cbn [andb].
  - rewrite nth_error_app2 by lia. rewrite Lf. destruct (Nat.ltb_spec i (a + length bs)).
    + rewrite nth_error_app1 by lia. reflexivity.
    + rewrite nth_error_app2 by lia.
      rewrite <- (firstn_skipn (a + length bs) mem) at 2.
      rewrite nth_error_app2 by (rewrite firstn_length; lia). f_equal. rewrite firstn_length. lia.
  - rewrite nth_error_app1 by lia. rewrite <- (firstn_skipn a mem) at 2. rewrite nth_error_app1 by lia. reflexivity.
Qed.

Lemma holds_nth mem addr bytes : in_mem mem (length bytes) addr ->
  (forall j, (j < length bytes)%nat -> nth_error mem (addr + j) = nth_error bytes j) -> holds mem addr bytes.
Proof.
  unfold holds, in_mem. intros H. revert mem addr H. induction bytes as [|b bytes IH]; intros mem addr H Hj; [reflexivity|].
  cbn [length] in *. destruct (skipn addr mem) as [|x r] eqn:E.
  - apply (f_equal (@length Z)) in E. rewrite skipn_length in E. cbn in E. lia.
  - assert (N : forall j, nth_error mem (addr + j) = nth_error (x :: r) j).
    { intros j. rewrite <- (firstn_skipn addr mem), E. rewrite nth_error_app2 by (rewrite firstn_length; lia).
      rewrite firstn_length. f_equal. lia. }
    cbn [firstn]. f_equal.
    + specialize (Hj 0%nat ltac:(lia)). rewrite N in Hj. cbn in Hj. congruence.
    + assert (L : (length bytes <= length r)%nat).
      { apply (f_equal (@length Z)) in E. rewrite skipn_length in E. cbn in E. lia. }
      specialize (IH r 0%nat ltac:(lia)). cbn [skipn] in IH. apply IH. intros j Hlt. cbn [Nat.add].
      specialize (Hj (S j) ltac:(lia)). rewrite N in Hj. cbn in Hj. assumption.
Qed.

Lemma fill_gaps_spec data gaps : forall w,
  Forall (in_mem (pw_mem w) (length data)) (map fst gaps) ->
  ForallOrdPairs (apart (length data)) (map fst gaps) ->
  let w' := fill_gaps gaps data w in
  length (pw_mem w') = length (pw_mem w) /\
  Forall (fun d => holds (pw_mem w') d data) (map fst gaps) /\
  (forall i, (forall d, In d (map fst gaps) -> ~ (d <= i < d + length data)%nat) ->
     nth_error (pw_mem w') i = nth_error (pw_mem w) i) /\
  pw_log w' = pw_log w ++ flat_map (fun g => match snd g with Some id => [id] | None => [] end) gaps.
Proof.
  induction gaps as [|[d cb] gaps IH]; intros w HI HD; cbn [fill_gaps map fst].
  - cbn. rewrite app_nil_r. auto.
  - inversion HI as [|? ? I1 I2]; subst. inversion HD as [|? ? D1 D2]; subst. cbn [map fst] in *.
    set (w1 := mkpw (mem_write (pw_mem w) d data) (run_cb cb (pw_log w))).
    assert (L1 : length (pw_mem w1) = length (pw_mem w)) by (apply mem_write_length; assumption).
    destruct (IH w1) as (A & B & C & D).
    { eapply Forall_impl; [|exact I2]. unfold in_mem. intros. rewrite L1. assumption. }
    { assumption. }
    cbv zeta in *. split; [lia|]. split; [|split].
    + constructor; [|assumption]. apply holds_nth; [unfold in_mem in *; lia|].
      intros j Hj. rewrite C.
      * unfold w1. cbn [pw_mem]. rewrite nth_error_mem_write by assumption.
        destruct (Nat.leb_spec d (d + j)); [|lia]. destruct (Nat.ltb_spec (d + j) (d + length data)); [|lia]. cbn [andb].
        f_equal. lia.
      * intros d' Hd'. rewrite Forall_forall in D1. specialize (D1 d' Hd'). unfold apart in D1. lia.
    + intros i Hi. rewrite C by (intros d' Hd'; apply Hi; right; assumption).
      unfold w1. cbn [pw_mem]. rewrite nth_error_mem_write by assumption.
      specialize (Hi d (or_introl eq_refl)).
      destruct (Nat.leb_spec d i); cbn [andb]; [|reflexivity]. destruct (Nat.ltb_spec i (d + length data)); [lia|reflexivity].
    + rewrite D. unfold w1. cbn [pw_log flat_map snd]. destruct cb; cbn [run_cb]; [rewrite <- app_assoc|]; reflexivity.
Qed.

Lemma subscribes_unset subs : forall gaps w, subscribes (mkpromise None gaps) subs w = (mkpromise None (rev subs ++ gaps), w).
Proof.
  induction subs as [|[d cb] subs IH]; intros gaps w; [reflexivity|]. cbn [subscribes promise_subscribe pr_value pr_gaps].
  rewrite IH. cbn [rev]. rewrite <- app_assoc. reflexivity.
Qed.

Lemma subscribes_set subs data : forall gaps w,
  subscribes (mkpromise (Some data) gaps) subs w = (mkpromise (Some data) gaps, fill_gaps subs data w).
Proof.
  induction subs as [|[d cb] subs IH]; intros gaps w; [reflexivity|]. cbn [subscribes promise_subscribe pr_value fill_gaps].
  apply IH.
Qed.

Lemma fill_gaps_app a : forall b data w, fill_gaps (a ++ b) data w = fill_gaps b data (fill_gaps a data w).
Proof. induction a as [|[d cb] a IH]; intros; [reflexivity|]. cbn [app fill_gaps]. apply IH. Qed.

Lemma apart_sym n a b : apart n a b -> apart n b a.
Proof. unfold apart. lia. Qed.

Lemma FOP_perm {A} (R : A -> A -> Prop) (S : forall x y, R x y -> R y x) l l' :
  Permutation l l' -> ForallOrdPairs R l -> ForallOrdPairs R l'.
Proof.
  induction 1; intros H1.
  - constructor.
  - inversion H1 as [|? ? F1 F2]; subst. constructor; [|auto]. eapply Permutation_Forall; eassumption.
  - inversion H1 as [|? ? F1 F2]; subst. inversion F2 as [|? ? F3 F4]; subst. inversion F1; subst.
    constructor; [constructor; auto|]. constructor; auto.
  - auto.
Qed.

Lemma promise_history pre post data mem log :
  let subs := pre ++ post in
  Forall (in_mem mem (length data)) (map fst subs) ->
  ForallOrdPairs (apart (length data)) (map fst subs) ->
  let (p1, w1) := subscribes promise_new pre (mkpw mem log) in
  let (p2, w2) := promise_resolve p1 data w1 in
  let (p3, w3) := subscribes p2 post w2 in
  w1 = mkpw mem log /\
  (forall d, In d (map fst subs) -> holds (pw_mem w3) d data) /\
  length (pw_mem w3) = length mem /\
  (forall i, (forall d, In d (map fst subs) -> ~ (d <= i < d + length data)%nat) -> nth_error (pw_mem w3) i = nth_error mem i) /\
  (exists cbs, pw_log w3 = log ++ cbs /\
     Permutation cbs (flat_map (fun g => match snd g with Some id => [id] | None => [] end) subs)).
Proof.
  intros subs HI HD. unfold promise_new. rewrite subscribes_unset, app_nil_r. unfold promise_resolve. cbn [pr_gaps].
  rewrite subscribes_set, <- fill_gaps_app.
  assert (P : Permutation subs (rev pre ++ post)) by (apply Permutation_app_tail, Permutation_rev).
  assert (PM : Permutation (map fst subs) (map fst (rev pre ++ post))) by (apply Permutation_map; assumption).
  destruct (fill_gaps_spec data (rev pre ++ post) (mkpw mem log)) as (A & B & C & D).
  { eapply Permutation_Forall; [exact PM|exact HI]. }
  { eapply FOP_perm; [intros x y; apply apart_sym|exact PM|exact HD]. }
  cbv zeta in *. cbn [pw_mem pw_log] in *. split; [reflexivity|]. split; [|split; [assumption|split]].
  - intros d Hd. rewrite Forall_forall in B. apply B. eapply Permutation_in; [exact PM|exact Hd].
  - intros i Hi. apply C. intros d Hd. apply Hi. eapply Permutation_in; [apply Permutation_sym; exact PM|exact Hd].
  - eexists. split; [exact D|]. apply Permutation_flat_map, Permutation_sym. exact P.
Qed.
