(** What a program writes: proofs, on the machine. *)
From Coq Require Import ZArith List Bool Lia.
From Verif Require Import BuiltinModel SysProofs LookSpec LookProofs ShowModel.
From Verif Require Import Base FloatModel StringModel ValueModel ListModel ExeModel ArithModel AstModel CodegenModel CompSpec MapModel MapSpec MapProofs MapProofs2 ObjModel FrameModel VmModel SrcModel
  LexModel ParseModel FuelProofs RunProofs ScopeSpec ScopeProofs CalcSpec CalcProofs WhileSpec WhileProofs CopyProofs FunRun TalkModel TalkSpec TalkProofs.
Import ListNotations.
Open Scope Z_scope.

(** * No instruction but CALL changes the stream *)
Section Keeps.
Variables (k : nat) (it : value).
Definition here (m : mem) : Prop := nth_error (m_objs m) k = Some (ONullable it).

Lemma here_alloc m o : here m -> here (snd (alloc m o)).
Proof. unfold here. intros H. cbn. rewrite nth_error_app1; [exact H|]. apply nth_error_Some. congruence. Qed.
Lemma here_set m l o : l <> k -> here m -> here (set_obj m l o).
Proof. unfold here, set_obj. intros N H. cbn. rewrite nth_upd_other by exact N. exact H. Qed.
Lemma here_new m : here m -> length (m_objs m) <> k.
Proof. unfold here. intros H Q. assert (k < length (m_objs m))%nat by (apply nth_error_Some; congruence). lia. Qed.

Definition holds_on {A} (f : A -> mem) (x : out A) : Prop := match x with OOk a => here (f a) | _ => True end.
Definition tame (cp : mem -> value -> out (value * mem)) : Prop := forall m v, here m -> holds_on snd (cp m v).

Lemma bind_holds {A B} (f : A -> mem) (g : B -> mem) x h : holds_on f x -> (forall a, here (f a) -> holds_on g (h a)) -> holds_on g (obind x h).
Proof. destruct x; cbn; auto. Qed.
Lemma bind_free {A B} (g : B -> mem) (x : out A) h : (forall a, holds_on g (h a)) -> holds_on g (obind x h).
Proof. destruct x; cbn; auto. Qed.

Lemma store_keeps cp m l mo key val : tame cp -> l <> k -> here m -> holds_on (fun m => m) (map_store cp m l mo key val).
Proof.
  intros T N H. unfold map_store. apply bind_free. intros mo'. apply bind_free. intros _.
  destruct (find_slot _ _ mo' key).
  all: try (destruct (put _ _ mo' key key val); cbn; auto using here_set; fail).
  apply bind_holds with (f := snd); [apply T; exact H|]. intros a Ha. destruct (put _ _ mo' key (fst a) val); cbn; auto using here_set.
Qed.
Lemma copy_all_keeps cp : tame cp -> forall vs m, here m -> holds_on snd (copy_all cp m vs).
Proof.
  intros T. induction vs as [|v r IH]; intros m H; [exact H|]. cbn [copy_all]. apply bind_holds with (f := snd); [apply T; exact H|]. intros a Ha.
  destruct (m_pend (snd a)); [exact I|]. apply bind_holds with (f := snd); [apply IH; exact Ha|]. intros y Hy. exact Hy.
Qed.
Lemma copy_pairs_keeps cp l : tame cp -> l <> k -> forall kvs m, here m -> holds_on (fun m => m) (copy_pairs cp m l kvs).
Proof.
  intros T N. induction kvs as [|[a v] r IH]; intros m H; [exact H|]. cbn [copy_pairs]. apply bind_holds with (f := snd); [apply T; exact H|]. intros k2 H2.
  apply bind_holds with (f := snd); [apply T; exact H2|]. intros v2 H3. destruct (nth_error (m_objs (snd v2)) l) as [[]|]; try exact I.
  apply bind_holds with (f := fun m => m); [apply store_keeps; assumption|]. intros m2 H4. apply IH. exact H4.
Qed.
Lemma copy_keeps : forall n, tame (obj_copy n).
Proof.
  induction n as [|n IH]; intros m v H; destruct v; cbn [obj_copy]; try exact I; try exact H.
  destruct (nth_error (m_objs m) l) as [[]|]; try exact I; try exact H.
  - destruct (list_items l0) as [vs|]; [|exact I]. pose proof (here_new m H) as Nn. pose proof (here_alloc m (OList (new_list (l_count l0))) H) as Ha.
    destruct (alloc m _) as [v2 m2]. cbn [snd] in Ha. apply bind_holds with (f := snd); [apply copy_all_keeps; assumption|]. intros a Ha2. cbn. apply here_set; assumption.
  - pose proof (here_new m H) as Nn. pose proof (here_alloc m (OMap (new_map (map_count m0))) H) as Ha.
    destruct (alloc m _) as [v2 m2]. cbn [snd] in Ha. apply bind_holds with (f := fun m => m); [apply copy_pairs_keeps; assumption|]. intros a Ha2. exact Ha2.
Qed.

Lemma keyed_keeps m key f : here m -> holds_on snd (keyed m key f).
Proof. intros H. unfold keyed. repeat match goal with |- holds_on _ (match ?x with _ => _ end) => destruct x end; cbn; auto. Qed.
Lemma map_sel_keeps m mo key : here m -> holds_on snd (map_sel m mo key).
Proof. intros H. unfold map_sel. repeat match goal with |- holds_on _ (match ?x with _ => _ end) => destruct x | |- holds_on _ (obind _ _) => apply bind_free; intros end; cbn; auto. Qed.

Section Env.
Variables (ff : Z -> list Z) (fb : nat -> list Z) (kk b : nat) (stop : list Z -> bool).
Notation W := (watch ff fb kk stop b).
Lemma select_keeps : forall n m c key, here m -> holds_on snd (obj_select W n m c key).
Proof.
  assert (Sm : forall id key m, here m -> holds_on snd (e_smap W id key m)).
  { intros id key m H. cbn [e_smap watch]. unfold smap_select.
    assert (G : forall bs sl, holds_on snd (match slot_of bs sl with Some x => let (v, m') := slot_value m x in OOk (Some v, m') | None => if (id =? 0)%nat then OOk (None, m) else OUB end)).
    { intros bs sl. destruct (slot_of bs sl) as [x|]; [|destruct (id =? 0)%nat; [exact H|exact I]]. destruct x; cbn [slot_value]; try exact H; exact (here_alloc m _ H). }
    destruct id as [|[|[|[|[|[|id]]]]]]; try exact I; destruct key; try exact H; apply G. }
  induction n as [|n IH]; intros m c key H; destruct c; cbn [obj_select]; try exact H; try (apply keyed_keeps; exact H).
  - destruct (nth_error (m_objs m) l) as [[]|]; try exact I; try exact H; auto using keyed_keeps, map_sel_keeps.
  - destruct (nth_error (m_objs m) l) as [[]|]; try exact I; try exact H; auto using keyed_keeps, map_sel_keeps.
    apply bind_holds with (f := snd); [apply IH; exact H|]. intros r Hr. destruct (m_pend (snd r)); [exact Hr|]. destruct (fst r); [exact Hr|]. destruct prev; [apply IH; exact Hr|exact Hr].
Qed.
Lemma get_keeps scopes key : forall m, here m -> holds_on snd (get_in W m scopes key).
Proof.
  induction scopes as [|[o|] r IH]; intros m H; [exact H| |apply IH; exact H]. cbn [get_in]. apply bind_holds with (f := snd); [apply select_keeps; exact H|].
  intros a Ha. destruct (fst a); [exact Ha|apply IH; exact Ha].
Qed.
Lemma insert_keeps m c key v : here m -> holds_on (fun m => m) (insert_of W m c key v).
Proof.
  intros H. unfold insert_of. destruct c; try exact I. destruct (nth_error (m_objs m) l) as [o|] eqn:Q; [|exact I].
  assert (N : (forall w, o <> ONullable w) -> l <> k) by (intros D ->; unfold here in H; rewrite H in Q; injection Q as <-; exact (D it eq_refl)).
  destruct o; try exact I.
  - destruct key; try exact I. destruct (list_insert l0 z v); cbn; auto. apply here_set; [apply N; discriminate|exact H].
  - apply store_keeps; [intros mm vv Hm; apply copy_keeps; exact Hm|apply N; discriminate|exact H].
Qed.

(** A state with the stream, with one frame and no functions. *)
Definition calm (s : vstate) : Prop := here (v_mem s) /\ v_codes s = [] /\ v_rest s = [].
Definition good (r : sres) : Prop := forall s', r = SNext s' -> calm s'.

Lemma good_lift {A} (x : out A) f h : holds_on f x -> (forall a, here (f a) -> good (h a)) -> good (lift x h).
Proof. intros H G. destruct x; cbn; try (intros ? [=]; fail). apply G. exact H. Qed.
Lemma good_free {A} (x : out A) h : (forall a, good (h a)) -> good (lift x h).
Proof. intros G. destruct x; cbn; try (intros ? [=]; fail). apply G. Qed.
Lemma good_next s : calm s -> good (SNext s).
Proof. intros H s' [= <-]. exact H. Qed.
Lemma push_calm cap s v s' : vpush cap s v = Some s' -> calm s -> calm s'.
Proof. unfold vpush. destruct (_ || _); [discriminate|]. intros [= <-] H. exact H. Qed.
Lemma pushes_calm cap vs : forall s s', vpushes cap s vs = Some s' -> calm s -> calm s'.
Proof.
  induction vs as [|v r IH]; intros s s' H C; cbn [vpushes] in H; [injection H as <-; exact C|]. destruct (vpush cap s v) as [s1|] eqn:Q; [|discriminate].
  exact (IH _ _ H (push_calm _ _ _ _ Q C)).
Qed.
Lemma good_push cap s v : calm s -> good (npush cap s v).
Proof. intros H s' Q. unfold npush in Q. destruct (vpush cap s v) as [s1|] eqn:P; [|discriminate]. injection Q as <-. exact (push_calm _ _ _ _ P H). Qed.
Lemma calm_mem s m : calm s -> here m -> calm (with_mem s m).
Proof. intros (A & B & C) H. repeat split; assumption. Qed.
Lemma calm_stack s st : calm s -> calm (with_stack s st).
Proof. intros H. exact H. Qed.
Lemma calm_pc s pc : calm s -> calm (with_pc s pc).
Proof. intros H. exact H. Qed.
Lemma good_finish cap s : calm s -> good (finish cap s).
Proof. intros (A & B & C) s'. unfold finish. destruct (m_pend _); [discriminate|]. rewrite C. discriminate. Qed.

Lemma exec_calm cap s op ops : calm s -> op <> OP_PUSHFUN -> op <> OP_CALL -> good (exec W cap s op ops).
Proof.
  intros C N1 N2. assert (H : here (v_mem s)) by apply C.
  destruct op; try congruence; unfold exec.
  all: repeat match goal with
    | |- good (match ?x with [] => _ | _ :: _ => _ end) => destruct x
    | |- good (match ?x with PInt _ => _ | _ => _ end) => destruct x
    end; try (intros ? [=]; fail).
  all: try (apply good_push; exact C).
  all: try (apply good_next; exact C).
  all: try (apply good_finish; exact C).
  all: repeat match goal with
    | |- good (lift (select_or_none _ _ _ _) _) => apply good_lift with (f := snd); [|intros a Ha; apply good_push; apply calm_mem; [exact C|exact Ha]];
        unfold select_or_none; apply bind_holds with (f := snd); [apply select_keeps; exact H|intros a Ha; exact Ha]
    | |- good (lift (insert_of _ _ _ _ _) _) => apply good_lift with (f := fun m => m); [apply insert_keeps; exact H|intros a Ha; apply good_next; apply calm_mem; [exact C|exact Ha]]
    | |- good (lift (set_var _ _ _ _ _) _) => apply good_lift with (f := fun m => m); [|intros a Ha; apply good_next; apply calm_mem; [exact C|exact Ha]];
        unfold set_var; apply bind_free; intros; apply insert_keeps; exact H
    | |- good (lift (get_var _ _ _ _ _) _) => apply good_lift with (f := snd); [|intros [[v|] m'] Ha; [apply good_push; apply calm_mem; [exact C|exact Ha]|intros ? [=]]];
        unfold get_var; apply bind_free; intros; apply get_keeps; exact H
    | |- good (lift (unary_op _ _ _) _) => apply good_lift with (f := snd); [|intros a Ha; apply good_push; apply calm_mem; [exact C|exact Ha]];
        cbn [unary_op]; first [exact H | apply here_alloc; exact H | apply bind_free; intros; exact H]
    | |- good (lift (binary_op _ _ _ _) _) => apply good_lift with (f := snd); [|intros a Ha; apply good_push; apply calm_mem; [exact C|exact Ha]];
        cbn [binary_op]; first [exact H | apply here_alloc; exact H | apply bind_free; intros; exact H]
    | |- good (lift (is_type _ _ _) _) => apply good_lift with (f := snd); [|intros [[] m'] Ha; [apply good_next; apply calm_mem; [exact C|exact Ha]|intros ? [=]]];
        unfold is_type; apply bind_free; intros; exact H
    | |- good (lift (vstring _) _) => apply good_free; intros; apply good_push; exact C
    | |- good (if ?x then _ else _) => destruct x
    | |- good (match vpush ?c ?s ?v with _ => _ end) => let Q := fresh in destruct (vpush c s v) eqn:Q; [apply good_finish; exact (push_calm _ _ _ _ Q C)|intros ? [=]]
    | |- good (let (_, _) := alloc ?m ?o in _) => let Q := fresh in pose proof (here_alloc m o H) as Q; destruct (alloc m o); apply good_push; apply calm_mem; [exact C|exact Q]
    end; try (intros ? [=]; fail); try (apply good_next; exact C).
  all: match goal with |- good (match ?x with _ => _ end) => destruct x end; try (intros ? [=]; fail).
  all: apply good_next; destruct (Bool.eqb _ _); exact C.
Qed.
End Env.
End Keeps.
