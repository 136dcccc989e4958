(** More fuel does not change what the parser answers. *)
From Coq Require Import ZArith List Bool Lia.
From Verif Require Import Base AstModel LexModel ParseModel.
Import ListNotations.
Open Scope Z_scope.

Definition pre {A} (x y : pres A) : Prop := x = PFuel \/ x = y.

Lemma pre_refl {A} (x : pres A) : pre x x. Proof. right; reflexivity. Qed.
Lemma pre_bind {A B} (x y : pres A) (f g : A -> list tok -> pres B) :
  pre x y -> (forall a ts, pre (f a ts) (g a ts)) -> pre (pbind x f) (pbind y g).
Proof. intros [->| ->] H; [left; reflexivity|]. destruct y; cbn; auto using pre_refl. Qed.
Lemma pre_next {A} ts (f g : list tok -> pres A) : (forall ts', pre (f ts') (g ts')) -> pre (next ts f) (next ts g).
Proof. intros H. destruct ts as [|? [|? ?]]; cbn; auto using pre_refl. Qed.


Theorem mono n : forall m, (n <= m)%nat ->
  (forall ts, pre (p_prefix n ts) (p_prefix m ts)) /\
  (forall e ts, pre (p_post n e ts) (p_post m e ts)) /\
  (forall c ts, pre (p_seq n c ts) (p_seq m c ts)) /\
  (forall ts, pre (p_pairs n ts) (p_pairs m ts)) /\
  (forall ts, pre (p_primary n ts) (p_primary m ts)) /\
  (forall t a ts, pre (p_expr n t a ts) (p_expr m t a ts)) /\
  (forall l mn t a ts, pre (p_expr2 n l mn t a ts) (p_expr2 m l mn t a ts)) /\
  (forall p r t a ts, pre (p_inner n p r t a ts) (p_inner m p r t a ts)) /\
  (forall ts, pre (p_stmt n ts) (p_stmt m ts)) /\
  (forall k ts, pre (p_compound n k ts) (p_compound m k ts)) /\
  (forall ts, pre (p_fundef n ts) (p_fundef m ts)) /\
  (forall ts, pre (p_params n ts) (p_params m ts)).
Proof.
  induction n as [|n IH]; intros m Hm.
  - repeat split; intros; left; reflexivity.
  - destruct m as [|m]; [lia|]. specialize (IH m ltac:(lia)).
    destruct IH as (I1 & I2 & I3 & I4 & I5 & I6 & I7 & I8 & I9 & I10 & I11 & I12).
    repeat split; intros;
      cbn [p_prefix p_post p_seq p_pairs p_primary p_expr p_expr2 p_inner p_stmt p_compound p_fundef p_params]; cbv zeta.
    all: repeat (match goal with
      | |- pre ?x ?x => apply pre_refl
      | |- pre (pbind _ _) (pbind _ _) => apply pre_bind; [|intros ? ?]
      | |- pre (next _ _) (next _ _) => apply pre_next; intros ?
      | |- pre (match ?x with _ => _ end) _ => destruct x
      | |- pre _ _ => first [apply I1|apply I2|apply I3|apply I4|apply I5|apply I6|apply I7|apply I8|apply I9|apply I10|apply I11|apply I12]
      end).
Qed.
