(** The operations on objects always answer; only what comes from outside (natives, static maps, remaining types) can run out of fuel. *)
From Coq Require Import ZArith List Lia Bool.
From Verif Require Import Base StringModel ValueModel MapModel ListModel ExeModel ArithModel ObjModel VmModel.
Import ListNotations.
Open Scope Z_scope.

Definition short_of_fuel (E : env) : Prop :=
  (exists id args m, e_native E id args m = OFuel) \/ (exists id k m, e_smap E id k m = OFuel) \/
  (exists t id k m, e_fselect E t id k m = OFuel) \/ (exists t id k v m, e_finsert E t id k v m = OFuel).

Section Answers.
Variable P : Prop.

(** [o] does not run out of fuel, unless [P]. *)
Definition answers {A} (o : out A) : Prop := o = OFuel -> P.

Lemma answers_bind {A B} (o : out A) (f : A -> out B) : answers o -> (forall a, answers (f a)) -> answers (obind o f).
Proof. unfold answers. destruct o; cbn; auto; intros H1 H2; try discriminate; eauto. Qed.

Ltac ans := repeat first
  [ assumption | discriminate | (intros ?; discriminate)
  | match goal with |- answers (obind _ _) => apply answers_bind; [|intros] end
  | match goal with |- answers (match ?x with _ => _ end) => destruct x end
  | match goal with |- answers (let (_, _) := ?x in _) => destruct x end ].

Lemma hash_sum_answers h : (forall v, answers (h v)) -> forall vs acc, answers (hash_sum h vs acc).
Proof. intros H. induction vs as [|v vs IH]; intros acc; cbn [hash_sum]; ans; auto. Qed.

Lemma hash_answers objs : forall n v, answers (obj_hash n objs v).
Proof.
  induction n as [|n IH]; intros v; destruct v; cbn [obj_hash]; ans; try (apply hash_sum_answers; exact IH).
Qed.

Lemma hashes_answers objs ks : answers (hashes_ok objs ks).
Proof. induction ks as [|k ks IH]; cbn [hashes_ok]; ans. apply hash_answers. Qed.

Lemma store_answers cp m l mo key v : (forall m v, answers (cp m v)) -> answers (map_store cp m l mo key v).
Proof.
  intros H. unfold map_store. ans; try apply hash_answers; try apply hashes_answers; try apply H.
Qed.

Lemma copy_all_answers cp : (forall m v, answers (cp m v)) -> forall vs m, answers (copy_all cp m vs).
Proof. intros H. induction vs as [|v vs IH]; intros m; cbn [copy_all]; ans; auto. Qed.

Lemma copy_pairs_answers cp l : (forall m v, answers (cp m v)) -> forall kvs m, answers (copy_pairs cp m l kvs).
Proof. intros H. induction kvs as [|[k v] kvs IH]; intros m; cbn [copy_pairs]; ans; auto. now apply store_answers. Qed.

Lemma copy_answers : forall n m v, answers (obj_copy n m v).
Proof.
  induction n as [|n IH]; intros m v; destruct v; cbn [obj_copy]; ans; [apply copy_all_answers; exact IH|apply copy_pairs_answers; exact IH].
Qed.

Lemma keyed_answers m key f : answers (keyed m key f).
Proof. unfold keyed. ans. Qed.

Lemma map_sel_answers m mo key : answers (map_sel m mo key).
Proof. unfold map_sel. ans. apply hash_answers. Qed.

Lemma match_all_answers rec sel : (forall p t v, answers (rec p t v)) -> (forall p k, answers (sel p k)) ->
  forall kvs p, answers (match_all rec sel p kvs).
Proof. intros H1 H2. induction kvs as [|[k t] kvs IH]; intros p; cbn [match_all]; ans; auto. Qed.

Lemma sel_flag_answers m o p k : answers (sel_flag m o p k).
Proof. unfold sel_flag. ans; [apply keyed_answers|apply map_sel_answers]. Qed.

Lemma is_type_of_answers m : forall n p t v, answers (is_type_of n m p t v).
Proof.
  induction n as [|n IH]; intros p t v; destruct t; cbn [is_type_of]; ans; auto; apply match_all_answers; auto; intros; apply sel_flag_answers.
Qed.

Lemma is_type_answers m t v : answers (is_type m t v).
Proof. unfold is_type. ans. apply is_type_of_answers. Qed.

Lemma vstring_answers s : answers (vstring s).
Proof. unfold vstring. ans. Qed.

Lemma of_res_answers {A} (r : res A) : answers (of_res r).
Proof. destruct r; ans. Qed.

Lemma compare_answers m n a b : answers (compare_op m n a b).
Proof. unfold compare_op. ans. Qed.

Lemma binary_answers op m a b : answers (binary_op op m a b).
Proof. unfold binary_op. destruct op; ans; first [apply of_res_answers|apply compare_answers]. Qed.

Lemma unary_answers op m a : answers (unary_op op m a).
Proof. unfold unary_op. destruct op; ans; apply of_res_answers. Qed.

Lemma results_answers w r : answers (results w r).
Proof. unfold results. ans. Qed.

(** With an environment. *)
End Answers.

Section Env.
Variable E : env.
Notation answers := (answers (short_of_fuel E)).

Ltac ans2 := repeat first
  [ assumption | discriminate | (intros ?; discriminate)
  | match goal with |- FuelProofs.answers _ (obind _ _) => apply answers_bind; [|intros] end
  | match goal with |- FuelProofs.answers _ (match ?x with _ => _ end) => destruct x end ].

Lemma native_answers id args m : answers (e_native E id args m).
Proof. intros H. left. eauto. Qed.

Lemma obj_select_answers : forall n m col key, answers (obj_select E n m col key).
Proof.
  induction n as [|n IH]; intros m col key; destruct col; cbn [obj_select]; ans2; auto using keyed_answers, map_sel_answers.
  all: intros H; unfold short_of_fuel; eauto 8.
Qed.

Lemma select_answers m col key : answers (select_of E m col key).
Proof. apply obj_select_answers. Qed.

Lemma insert_answers m col key v : answers (insert_of E m col key v).
Proof.
  unfold insert_of. ans2; [apply store_answers; intros; apply copy_answers|]. intros H. right. right. right. eauto 6.
Qed.

Lemma set_var_answers m l n v : answers (set_var E m l n v).
Proof. unfold set_var. ans2; [apply vstring_answers|apply insert_answers]. Qed.

Lemma get_in_answers key : forall sc m, answers (get_in E m sc key).
Proof. induction sc as [|[o|] sc IH]; intros m; cbn [get_in]; ans2; auto. apply select_answers. Qed.

Lemma get_var_answers m l c n : answers (get_var E m l c n).
Proof. unfold get_var. apply answers_bind; [apply vstring_answers|intros; apply get_in_answers]. Qed.

Lemma select_or_none_answers m col key : answers (select_or_none E m col key).
Proof. unfold select_or_none. ans2. apply select_answers. Qed.
End Env.
