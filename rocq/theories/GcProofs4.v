From Coq Require Import ZArith List Lia Bool Permutation.
From Verif Require Import Base ListProofs GcModel GcSpec GcProofs GcProofs2 GcProofs3.
Import ListNotations.
Open Scope Z_scope.

Lemma gc_preserves : forall dok h born log0 fuel roots h' roots' log,
  history dok h born log0 -> (forall a, In (Some a) roots -> is_obj (h_mem h) a) ->
  collect_garbage dok fuel h roots = GOk (h', roots', true, log) ->
  exists f,
    (forall a b, reach (h_mem h) roots a -> reach (h_mem h) roots b -> f a = f b -> a = b) /\
    (forall a o, h_mem h a = Some (CObj o) -> o_static o = true -> f a = a) /\
    roots' = map (option_map f) roots /\
    (forall a o, reach (h_mem h) roots a -> h_mem h a = Some (CObj o) -> h_mem h' (f a) = Some (CObj (rename f o))).
Proof.
  intros dok h born log0 fuel roots h' roots' log H Hr E. destruct (history_spec _ _ _ _ H) as [W _].
  destruct (gc_any_fuel _ _ _ _ _ _ _ _ W Hr E) as [A _]. destruct (A eq_refl) as (f & live & dead & G). exists f.
  split; [apply (r_inj _ _ _ _ _ _ _ _ G)|]. split; [intros a o Ha Sa; apply (r_static _ _ _ _ _ _ _ _ G a o Ha Sa)|].
  split; [apply (r_roots _ _ _ _ _ _ _ _ G)|apply (r_copy _ _ _ _ _ _ _ _ G)].
Qed.

Lemma gc_succeeds : forall dok h born log0 fuel roots,
  history dok h born log0 -> (forall a, In (Some a) roots -> is_obj (h_mem h) a) -> (h_next h + 3 <= fuel)%nat ->
  exists h' roots' ok log, collect_garbage dok fuel h roots = GOk (h', roots', ok, log) /\
    (forall live, (forall a, In a live <-> reach (h_mem h) roots a /\ dynamic (h_mem h) a) ->
       total_cost (h_mem h) live <= h_size h -> (forall d, dok d = true) -> ok = true).
Proof.
  intros dok h born log0 fuel roots H Hr Hf. destruct (history_spec _ _ _ _ H) as [W _].
  destruct (gc_total dok fuel h roots W Hr Hf) as (h' & roots' & ok & log & E & _ & B). exists h', roots', ok, log. split; [exact E|].
  intros live HL HC HD. destruct ok; [reflexivity|]. exfalso. destruct (B eq_refl) as [(l & N & I & C)|(a & o & _ & _ & _ & D)].
  - assert (total_cost (h_mem h) l <= total_cost (h_mem h) live); [|lia].
    apply total_cost_incl; [apply cost_pos; exact W|exact N|]. intros a Ha. apply HL. apply I. exact Ha.
  - rewrite HD in D. discriminate.
Qed.

Lemma gc_once : forall dok h born log,
  history dok h born log -> exists rest, heap_free h = GOk rest /\ Permutation (log ++ rest) born.
Proof.
  intros dok h born log H. destruct (history_spec _ _ _ _ H) as [W P]. eexists. split; [apply (heap_free_spec _ W)|exact P].
Qed.

Lemma gc_finalizes : forall dok h born log0 fuel roots h' roots' log,
  history dok h born log0 -> (forall a, In (Some a) roots -> is_obj (h_mem h) a) ->
  collect_garbage dok fuel h roots = GOk (h', roots', true, log) ->
  exists dead, NoDup dead /\
    (forall a, In a dead <-> ~ reach (h_mem h) roots a /\ exists o, h_mem h a = Some (CObj o) /\ o_static o = false /\ o_dtor o = true) /\
    Permutation (map Some log) (map (fun a => option_map o_data (get_obj h a)) dead).
Proof.
  intros dok h born log0 fuel roots h' roots' log H Hr E. destruct (history_spec _ _ _ _ H) as [W _].
  destruct (gc_any_fuel _ _ _ _ _ _ _ _ W Hr E) as [A _]. destruct (A eq_refl) as (f & live & dead & G). exists dead.
  assert (DI : forall a, In a dead <-> In a (h_pend h) /\ ~ In a live).
  { intros a. rewrite (r_dead _ _ _ _ _ _ _ _ G), filter_In. destruct (in_dec Nat.eq_dec a live); intuition discriminate. }
  split; [|split].
  - rewrite (r_dead _ _ _ _ _ _ _ _ G). apply NoDup_filter, (w_pend _ W).
  - intros a. rewrite DI, (w_pend_iff _ W), (r_live _ _ _ _ _ _ _ _ G). split.
    + intros [(o & Eo & So & Do) N]. split; [|exists o; auto]. intros R. apply N. split; [exact R|]. exists o. auto.
    + intros [N (o & Eo & So & Do)]. split; [exists o; auto|]. intros [R _]. contradiction.
  - rewrite (r_log _ _ _ _ _ _ _ _ G). apply Permutation_refl'. clear G.
    assert (HO : forall a, In a dead -> is_obj (h_mem h) a) by (intros a Ha; apply DI in Ha; destruct Ha as [Ha _]; apply (w_pend_iff _ W) in Ha; destruct Ha as (o & Eo & _); exists o; exact Eo).
    clear DI. induction dead as [|a l IH]; [reflexivity|]. unfold deads in *. cbn [flat_map map]. destruct (HO a (or_introl eq_refl)) as (o & Eo).
    unfold get_obj at 1. rewrite Eo. cbn [app map option_map]. f_equal. apply IH. intros x Hx. apply HO. right. exact Hx.
Qed.

Lemma gc_reclaims : forall dok h born log0 fuel roots h' roots' log,
  history dok h born log0 -> (forall a, In (Some a) roots -> is_obj (h_mem h) a) ->
  collect_garbage dok fuel h roots = GOk (h', roots', true, log) ->
  exists live, NoDup live /\ (forall a, In a live <-> reach (h_mem h) roots a /\ dynamic (h_mem h) a) /\
    h_objcount h' = Z.of_nat (length live) /\ h_used h' <= total_cost (h_mem h) live /\
    (exists live', NoDup live' /\ length live' = length live /\ forall b, dynamic (h_mem h') b <-> In b live') /\
    (forall b, dynamic (h_mem h') b -> reach (h_mem h') roots' b).
Proof.
  intros dok h born log0 fuel roots h' roots' log H Hr E. destruct (history_spec _ _ _ _ H) as [W _].
  destruct (gc_any_fuel _ _ _ _ _ _ _ _ W Hr E) as [A _]. destruct (A eq_refl) as (f & live & dead & G). exists live.
  pose proof (r_live _ _ _ _ _ _ _ _ G) as RL. pose proof (r_copy _ _ _ _ _ _ _ _ G) as RC.
  split; [apply (r_live_nd _ _ _ _ _ _ _ _ G)|]. split; [exact RL|]. split; [apply (r_count _ _ _ _ _ _ _ _ G)|].
  split; [apply (r_used _ _ _ _ _ _ _ _ G)|]. split.
  - exists (map f live). split; [|split; [apply map_length|]].
    + assert (RR : forall a, In a live -> reach (h_mem h) roots a) by (intros a Ha; apply RL; exact Ha).
      pose proof (r_inj _ _ _ _ _ _ _ _ G) as RI. pose proof (r_live_nd _ _ _ _ _ _ _ _ G) as ND. clear - RR RI ND.
      induction ND as [|x l Hx ND IH]; cbn [map]; constructor.
      * intros Hi. apply in_map_iff in Hi. destruct Hi as (y & Ey & Hy). assert (x = y); [|congruence].
        apply RI; [apply RR; left; reflexivity|apply RR; right; exact Hy|congruence].
      * apply IH. intros a Ha. apply RR. right. exact Ha.
    + intros b. rewrite in_map_iff. split.
      * intros Hb. destruct (r_only _ _ _ _ _ _ _ _ G b Hb) as (a & Ra & Da & ->). exists a. split; [reflexivity|]. apply RL. auto.
      * intros (a & <- & Ha). apply RL in Ha. destruct Ha as [Ra (o & Eo & So)]. exists (rename f o). split; [apply RC; assumption|exact So].
  - intros b Hb. destruct (r_only _ _ _ _ _ _ _ _ G b Hb) as (a & Ra & Da & ->). clear Da Hb. rewrite (r_roots _ _ _ _ _ _ _ _ G).
    induction Ra as [a Ha|a o Ha IH Eo|a o c Ha IH Eo Hc].
    + apply reach_root. change (Some (f a)) with (option_map f (Some a)). apply in_map. exact Ha.
    + change (f (o_type o)) with (o_type (rename f o)). eapply reach_type; [exact IH|]. apply RC; assumption.
    + eapply reach_ref; [exact IH|apply RC; eassumption|]. cbn [rename o_refs]. change (Some (f c)) with (option_map f (Some c)). apply in_map. exact Hc.
Qed.

(** Object 0 is the type of types; 1..3 form a program: a cycle 1 -> 2 -> 1 and a dead object with a destructor. *)
Definition ex_mem : nat -> option cell := fun a => match a with 0%nat => Some (CObj (mkobj 0 true 200 [] [] 0 false)) | _ => None end.
Definition ex_o (refs : list (option nat)) (d : Z) (dt : bool) := mkobj 0 false 40 [13] refs d dt.
Definition ex_after (x : option (heap * nat)) : heap := match x with Some (h, _) => h | None => heap_new 0 ex_mem 1 end.
Definition ex_h0 := heap_new 256 ex_mem 1.
Definition ex_h1 := ex_after (heap_malloc ex_h0 (ex_o [None] 11 true)).
Definition ex_h2 := ex_after (heap_malloc ex_h1 (ex_o [Some 1%nat; Some 0%nat] 12 false)).
Definition ex_h3 := ex_after (heap_malloc ex_h2 (ex_o [Some 2%nat] 13 true)).
Definition ex_h4 := set_mem ex_h3 1%nat (CObj (ex_o [Some 2%nat] 11 true)).

Lemma ex_static : static_heap ex_mem 1.
Proof.
  intros a c H. destruct a; [|discriminate]. injection H as <-. split; [lia|]. eexists. split; [reflexivity|]. cbn.
  repeat (split; [reflexivity || lia|]). eexists. split; [reflexivity|]. auto.
Qed.

Lemma ex_ok h refs d dt : is_obj (h_mem h) 0 -> (forall b, In (Some b) refs -> is_obj (h_mem h) b) -> obj_ok h (ex_o refs d dt).
Proof. intros A B. repeat split; cbn; auto; try lia. repeat constructor; lia. Qed.

Lemma ex_history dok : history dok ex_h4 [13; 11] [].
Proof.
  assert (H0 : history dok ex_h0 [] []) by (apply hi_new; [lia|apply ex_static]).
  assert (H1 : history dok ex_h1 [11] []).
  { eapply (hi_alloc _ _ _ _ (ex_o [None] 11 true) _ 1%nat H0); [|reflexivity]. apply ex_ok; [eexists; reflexivity|]. intros b [[=]|[]]. }
  assert (H2 : history dok ex_h2 [11] []).
  { eapply (hi_alloc _ _ _ _ (ex_o [Some 1%nat; Some 0%nat] 12 false) _ 2%nat H1); [|reflexivity]. apply ex_ok; [eexists; reflexivity|].
    intros b [[= <-]|[[= <-]|[]]]; eexists; reflexivity. }
  assert (H3 : history dok ex_h3 [13; 11] []).
  { eapply (hi_alloc _ _ _ _ (ex_o [Some 2%nat] 13 true) _ 3%nat H2); [|reflexivity]. apply ex_ok; [eexists; reflexivity|].
    intros b [[= <-]|[]]; eexists; reflexivity. }
  eapply (hi_write _ _ _ _ 1%nat (ex_o [None] 11 true) _ H3); try reflexivity. apply ex_ok; [eexists; reflexivity|].
  intros b [[= <-]|[]]; eexists; reflexivity.
Qed.

(** Two reachable finalizable objects that do not fit in a pool of 64 bytes. *)
Definition bad_h0 := heap_new 64 ex_mem 1.
Definition bad_o (d : Z) := mkobj 0 false 40 [] [] d true.
Definition bad_h1 := ex_after (heap_malloc bad_h0 (bad_o 7)).
Definition bad_h2 := ex_after (heap_malloc bad_h1 (bad_o 8)).

Lemma bad_history dok : history dok bad_h2 [8; 7] [].
Proof.
  assert (H0 : history dok bad_h0 [] []) by (apply hi_new; [lia|apply ex_static]).
  assert (OK : forall h d, is_obj (h_mem h) 0 -> obj_ok h (bad_o d)) by (intros h d A; repeat split; cbn; auto; try lia; contradiction).
  assert (H1 : history dok bad_h1 [7] []).
  { eapply (hi_alloc _ _ _ _ (bad_o 7) _ 1%nat H0); [|reflexivity]. apply OK. eexists. reflexivity. }
  eapply (hi_alloc _ _ _ _ (bad_o 8) _ 2%nat H1); [|reflexivity]. apply OK. eexists. reflexivity.
Qed.

Lemma bad_run : exists h' roots' log, collect_garbage (fun _ => true) 10 bad_h2 [Some 1%nat; Some 2%nat] = GOk (h', roots', false, log) /\
  log = [8] /\ heap_free h' = GOk [7; 8].
Proof. do 3 eexists. split; [vm_compute; reflexivity|]. split; reflexivity. Qed.

Lemma gc_failed_witness :
  ~ (forall dok h born log0 fuel roots h' roots' log, history dok h born log0 -> (forall a, In (Some a) roots -> is_obj (h_mem h) a) ->
       collect_garbage dok fuel h roots = GOk (h', roots', false, log) ->
       exists rest, heap_free h' = GOk rest /\ Permutation (log0 ++ log ++ rest) born).
Proof.
  intros H. destruct bad_run as (h' & roots' & log & E & EL & EF).
  destruct (H (fun _ => true) bad_h2 [8; 7] [] 10%nat [Some 1%nat; Some 2%nat] h' roots' log (bad_history _)) as (rest & F & P).
  - intros a [[= <-]|[[= <-]|[]]]; eexists; reflexivity.
  - exact E.
  - rewrite EF in F. injection F as <-. rewrite EL in P. apply Permutation_length in P. discriminate P.
Qed.
