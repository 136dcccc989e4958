(** C80: the heap of heap.c holds the same state after a collection. *)
From Coq Require Import ZArith List Lia Bool.
From Verif Require Import Base StringModel ValueModel MapModel ListModel ExeModel ObjModel VmModel GcModel GcSpec GcProofs GcProofs2 GcProofs3 GcProofs4 MoveSpec MoveExamples.
Import ListNotations.
Open Scope Z_scope.

Section Heap.
Variables (sc : value -> Z) (tag : hobj -> Z).

Section Slots.
Context {h : heap} {rep : nat -> nat} {h' : heap} {f : nat -> nat} {roots : list (option nat)}.
Hypothesis Obj : forall a o, reach (h_mem h) roots a -> h_mem h a = Some (CObj o) -> h_mem h' (f a) = Some (CObj (rename f o)).

Lemma vslot_move ov slot : vslot sc h rep ov slot -> (forall a, slot = Some a -> reach (h_mem h) roots a) ->
  vslot sc h' (fun l => f (rep l)) ov (option_map f slot).
Proof.
  intros V R. destruct ov as [v|], slot as [a|]; try contradiction; cbn in *; auto.
  assert (G : (exists o, h_mem h a = Some (CObj o) /\ o_refs o = [] /\ o_data o = sc v) ->
    exists o, h_mem h' (f a) = Some (CObj o) /\ o_refs o = [] /\ o_data o = sc v).
  { intros (o & A & B & C). exists (rename f o). split; [apply Obj; auto|]. cbn. rewrite B. auto. }
  destruct v; auto.
Qed.
Lemma vslots_move ovs slots : Forall2 (vslot sc h rep) ovs slots -> (forall a, In (Some a) slots -> reach (h_mem h) roots a) ->
  Forall2 (vslot sc h' (fun l => f (rep l))) ovs (map (option_map f) slots).
Proof.
  induction 1 as [|v s vs ss Hv Hr IH]; intros R; constructor.
  - apply vslot_move; [exact Hv|]. intros a ->. apply R. left. reflexivity.
  - apply IH. intros a A. apply R. right. exact A.
Qed.
Lemma vslot_in ovs slots l : Forall2 (vslot sc h rep) ovs slots -> In (Some (VRef l)) ovs -> In (Some (rep l)) slots.
Proof.
  induction 1 as [|v s vs ss Hv Hr IH]; intros H; [destruct H|]. destruct H as [->|H]; [|right; auto].
  destruct s as [a|]; cbn in Hv; [|contradiction]. subst a. left. reflexivity.
Qed.
Lemma vslot_obj ovs slots a : Forall2 (vslot sc h rep) ovs slots -> In (Some a) slots -> is_obj (h_mem h) a \/ exists l, In (Some (VRef l)) ovs /\ a = rep l.
Proof.
  induction 1 as [|v s vs ss Hv Hr IH]; intros H; [destruct H|]. destruct H as [->|H].
  - destruct v as [v|]; cbn in Hv; [|contradiction].
    destruct v; try (left; destruct Hv as (o & A & _); exists o; exact A). right. exists l. split; [left; reflexivity|exact Hv].
  - destruct (IH H) as [G|(l & G & ->)]; [left; exact G|]. right. exists l. split; [right; exact G|reflexivity].
Qed.
End Slots.

Lemma root_live b s l : In (Some (VRef l)) (root_values b s) <-> b = Some (VRef l) \/ exists fr, In fr (v_cur s :: v_rest s) /\ frame_refers fr l.
Proof.
  unfold root_values, frame_refers. generalize (v_cur s :: v_rest s) as frs. intros frs. split.
  - intros [H|H]; [left; exact H|right]. apply in_app_or in H. destruct H as [H|H].
    + apply in_flat_map in H. destruct H as (fr & F & [H|[H|[]]]); exists fr; (split; [exact F|]); [left; congruence|right; left; exact H].
    + apply in_map_iff in H. destruct H as (v & E & H). injection E as ->. apply in_flat_map in H. destruct H as (fr & F & H). exists fr. auto.
  - intros [->|(fr & F & H)]; [left; reflexivity|right]. apply in_or_app. destruct H as [H|[H|H]].
    + left. apply in_flat_map. exists fr. split; [exact F|]. left. congruence.
    + left. apply in_flat_map. exists fr. split; [exact F|]. right. left. exact H.
    + right. apply in_map_iff. exists (VRef l). split; [reflexivity|]. apply in_flat_map. exists fr. auto.
Qed.

Theorem heap_keeps_state dok h born log0 b s rep roots fuel h' roots' log :
  history dok h born log0 -> represents sc tag b s h rep roots ->
  collect_garbage dok fuel h roots = GOk (h', roots', true, log) ->
  exists rep', represents sc tag b s h' rep' roots'.
Proof.
  intros Hi (Ob & Inj & Ro) G.
  assert (Lr : forall l, In (Some (VRef l)) (root_values b s) -> live b s l).
  { intros l H. apply root_live in H. destruct H as [H|(fr & F & H)]; [apply live_builtins; exact H|eapply live_frame; eassumption]. }
  assert (RO : forall a, In (Some a) roots -> is_obj (h_mem h) a).
  { intros a A. destruct (vslot_obj _ _ _ Ro A) as [K|(l & K & ->)]; [exact K|]. destruct (Ob l (Lr l K)) as (ho & o & _ & O & _). exists o. exact O. }
  destruct (gc_preserves dok h born log0 fuel roots h' roots' log Hi RO G) as (f & F1 & F2 & F3 & F4).
  assert (Lreach : forall l, live b s l -> reach (h_mem h) roots (rep l)).
  { intros l H. induction H as [l H|fr l F H|l ho l2 H IH N Rf].
    - apply reach_root. eapply vslot_in; [exact Ro|]. apply root_live. left. exact H.
    - apply reach_root. eapply vslot_in; [exact Ro|]. apply root_live. right. exists fr. auto.
    - destruct (Ob l H) as (ho2 & o & N2 & O & _ & Sl & Ti). rewrite N in N2. injection N2 as <-.
      eapply reach_ref; [exact IH|exact O|]. eapply vslot_in; [exact Sl|]. apply Ti, Rf. }
  exists (fun l => f (rep l)). split; [|split].
  - intros l L. destruct (Ob l L) as (ho & o & N & O & D & Sl & Ti). exists ho, (rename f o). split; [exact N|].
    split; [apply F4; auto|]. split; [exact D|]. split; [|exact Ti]. apply (vslots_move F4); [exact Sl|].
    intros a A. eapply reach_ref; [apply Lreach, L|exact O|exact A].
  - intros l k L K E. apply Inj; [exact L|exact K|]. apply F1; auto.
  - rewrite F3. apply (vslots_move F4); [exact Ro|]. intros a A. apply reach_root. exact A.
Qed.
End Heap.

(** ** The state [before] of MoveExamples as a heap: 1 builtins, 2 the string x, 3 and 4 numbers, 5 the list, 6 dropped, 7 the variables. *)
Definition show_sc (v : value) : Z := match v with VInt z => z | VStr s => 1000 + Z.of_nat (length s) | _ => 0 end.
Definition show_tag (o : hobj) : Z := match o with OSMap _ => 11 | OMap _ => 12 | OList lo => 100 + l_count lo | _ => 0 end.
Fixpoint mallocs (h : heap) (os : list obj) : heap := match os with [] => h | o :: r => mallocs (ex_after (heap_malloc h o)) r end.
Definition hp_objs : list obj :=
  [ex_o [] 11 false; ex_o [] 1001 false; ex_o [] 1 false; ex_o [] 2 false; ex_o [Some 3%nat; Some 4%nat] 102 false; ex_o [Some 3%nat] 101 false;
   ex_o [Some 2%nat; Some 5%nat] 12 false].
Definition hp : heap := mallocs (heap_new 1024 ex_mem 1) hp_objs.
Definition hp_rep (l : nat) : nat := match l with 0%nat => 1%nat | 1%nat => 7%nat | _ => 5%nat end.

Lemma mallocs_history dok : forall os h, history dok h [] [] -> (forall k o, nth_error os k = Some o ->
    let g := mallocs h (firstn k os) in o_dtor o = false /\ obj_ok g o /\ exists h' a, heap_malloc g o = Some (h', a)) ->
  history dok (mallocs h os) [] [].
Proof.
  induction os as [|o r IH]; intros h H A; [exact H|]. cbn [mallocs].
  destruct (A 0%nat o eq_refl) as (D & K & h' & a & E). cbn in E. rewrite E. cbn [ex_after]. apply IH.
  - pose proof (hi_alloc _ _ _ _ _ _ _ H K E) as Q. rewrite D in Q. exact Q.
  - intros k q Q. specialize (A (S k) q Q). cbn in A. rewrite E in A. exact A.
Qed.
Definition is_objb (h : heap) (a : nat) : bool := match h_mem h a with Some (CObj _) => true | _ => false end.
Lemma is_objb_ok h a : is_objb h a = true -> is_obj (h_mem h) a.
Proof. unfold is_objb, is_obj. destruct (h_mem h a) as [[o|]|]; try discriminate. eauto. Qed.
Definition refs_okb (h : heap) (o : obj) : bool := is_objb h 0 && forallb (fun r => match r with Some a => is_objb h a | None => true end) (o_refs o).
Definition goesb (h : heap) (o : obj) : bool := match heap_malloc h o with Some _ => true | None => false end.
Lemma hp_history dok : history dok hp [] [].
Proof.
  apply mallocs_history; [apply hi_new; [lia|apply ex_static]|].
  assert (G : forall k o, nth_error hp_objs k = Some o -> let g := mallocs (heap_new 1024 ex_mem 1) (firstn k hp_objs) in
    (exists refs d, o = ex_o refs d false) /\ refs_okb g o = true /\ goesb g o = true).
  { intros k o. do 7 (destruct k as [|k]; [intros [= <-]; split; [do 2 eexists; reflexivity|]; split; vm_compute; reflexivity|]). destruct k; discriminate. }
  intros k o H. destruct (G k o H) as ((refs & d & ->) & A & B). cbv zeta. split; [reflexivity|]. split.
  - apply andb_prop in A. destruct A as [A1 A2]. apply ex_ok; [apply is_objb_ok, A1|]. intros b K. rewrite forallb_forall in A2. apply is_objb_ok. exact (A2 _ K).
  - unfold goesb in B. destruct (heap_malloc _ _) as [[h' a]|]; [eauto|discriminate].
Qed.
Lemma hp_at a o : (match h_mem hp a with Some (CObj q) => if list_eq_dec (fun x y : option nat => ltac:(decide equality; apply Nat.eq_dec)) (o_refs q) (o_refs o) then
    (o_type q =? o_type o)%nat && eqb (o_static q) (o_static o) && (o_size q =? o_size o) && eqb (o_dtor q) (o_dtor o) && (o_data q =? o_data o) &&
    (if list_eq_dec Z.eq_dec (o_exts q) (o_exts o) then true else false) else false | _ => false end) = true -> h_mem hp a = Some (CObj o).
Proof.
  destruct (h_mem hp a) as [[q|]|]; try discriminate. destruct (list_eq_dec _ (o_refs q) _) as [E|]; [|discriminate].
  intros H. repeat (apply andb_prop in H; destruct H as [H ?]). destruct (list_eq_dec _ (o_exts q) _); [|discriminate].
  destruct q, o. cbn in *. f_equal. f_equal. apply Nat.eqb_eq in H. apply eqb_prop in H4, H2. apply Z.eqb_eq in H3, H1. congruence.
Qed.
Lemma hp_represents : represents show_sc show_tag (Some (VRef 0)) before hp hp_rep [Some 1%nat; Some 7%nat; None].
Proof.
  split; [|split].
  - intros l L. apply before_live in L.
    destruct L as [->|[->| ->]]; (eexists; eexists; split; [reflexivity|]; split; [|split; [|split]]).
    1: apply (hp_at 1 (ex_o [] 11 false)); vm_compute; reflexivity.
    4: apply (hp_at 7 (ex_o [Some 2%nat; Some 5%nat] 12 false)); vm_compute; reflexivity.
    7: apply (hp_at 5 (ex_o [Some 3%nat; Some 4%nat] 102 false)); vm_compute; reflexivity.
    1, 4, 7: reflexivity.
    1: constructor.
    2: constructor; [exists (ex_o [] 1001 false); split; [apply hp_at; vm_compute; reflexivity|split; reflexivity]|constructor; [reflexivity|constructor]].
    3: constructor; [exists (ex_o [] 1 false); split; [apply hp_at; vm_compute; reflexivity|split; reflexivity]|
       constructor; [exists (ex_o [] 2 false); split; [apply hp_at; vm_compute; reflexivity|split; reflexivity]|constructor]].
    all: intros k Rf; inversion Rf; subst; cbn in *; repeat match goal with H : _ \/ _ |- _ => destruct H end; try contradiction; try discriminate; auto.
    all: match goal with H : VRef _ = VRef _ |- _ => injection H as <- end; auto.
  - intros l k A B. apply before_live in A, B. destruct A as [->|[->| ->]], B as [->|[->| ->]]; cbn; congruence.
  - change (root_values (Some (VRef 0)) before) with [Some (VRef 0); Some (VRef 1); None].
    constructor; [reflexivity|]. constructor; [reflexivity|]. constructor; [exact I|constructor].
Qed.
