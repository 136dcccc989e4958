(** Programs for the examples of PropsWhile.v. *)
From Coq Require Import ZArith String List Bool Lia.
From Verif Require Import BuiltinModel SysProofs LookSpec.
From Verif Require Import Base StringModel FloatModel AstModel LexModel ParseModel ParseExamples ExeModel ValueModel MapModel ObjModel VmModel VmExamples
  CompSpec DepthSpec CodegenModel CompileModel CompileProofs CalcSpec FuelProofs WhileSpec WhileProofs.
Import ListNotations.
Open Scope Z_scope.

Definition src_euclid : list Z := bytes "a = 123456789012; b = 9876543210; while b != 0: { t = a % b; a = b; b = t; } return a;".
Definition src_million : list Z := bytes "s = 0; i = 0; while i < 1000000: { s = s + i; i = i + 1; }".
Definition src_forever : list Z := bytes "x = 0; do { if x == 1: break; x = x * 2; } while x < 1;".
Definition std0 : env := std_env env0 (Some (VRef 0)).
Definition mem_std : mem := mkmem [OSMap 0] false.

Lemma ex_unknown X : (forall x, In x X -> exists c, x = [c] /\ c <> 0) -> unknown std0 mem_std X.
Proof.
  intros H. apply unknown_std; [reflexivity|]. intros x Hx. destruct (H x Hx) as (c & -> & Hc). split; [intros [Q|[]]; congruence|].
  intros (name & Hin & Q). assert (L : List.length (bytes_of name) = 1%nat) by (rewrite <- Q; reflexivity). revert L. clear Q H Hx.
  cbn in Hin. repeat (destruct Hin as [<-|Hin]; [discriminate|]). contradiction.
Qed.

Definition v_s : list Z := [115].
Definition v_i : list Z := [105].
Definition million_body : stmt := SComp (SCons (SExpr (EAss (EIdent v_s) (EBin BAdd (EIdent v_s) (EIdent v_i)))) (SCons (SExpr (EAss (EIdent v_i) (EBin BAdd (EIdent v_i) (EInt 1)))) SNil)).
Definition million : stmts :=
  SCons (SExpr (EAss (EIdent v_s) (EInt 0))) (SCons (SExpr (EAss (EIdent v_i) (EInt 0))) (SCons (SWhile (EBin BLss (EIdent v_i) (EInt 1000000)) million_body) SNil)).

Lemma million_rounds : forall n i s, Z.of_nat n = 1000000 - i -> 0 <= i -> s v_i = Some (VInt i) -> s v_s = Some (VInt (i * (i - 1) / 2)) ->
  exists s', does s (SWhile (EBin BLss (EIdent v_i) (EInt 1000000)) million_body) (Falls s') /\ s' v_s = Some (VInt 499999500000) /\ s' v_i = Some (VInt 1000000).
Proof.
  induction n as [|n IH]; intros i s Hn Hi Si Ss.
  - assert (i = 1000000) by lia. subst i. exists s. split; [|split; [exact Ss|exact Si]]. apply d_while_no. unfold tests. cbn. rewrite Si. reflexivity.
  - assert (E2 : i * (i - 1) / 2 + i = (i + 1) * (i + 1 - 1) / 2).
    { rewrite <- Z.div_add by lia. f_equal. lia. }
    assert (B : 0 <= i * (i - 1) / 2 < 2 ^ 40).
    { split; [apply Z.div_pos; [destruct (Z.eq_dec i 0); nia|lia]|]. apply Z.div_lt_upper_bound; [lia|]. nia. }
    set (s1 := put_in s v_s (VInt ((i + 1) * (i + 1 - 1) / 2))). set (s2 := put_in s1 v_i (VInt (i + 1))).
    destruct (IH (i + 1) s2) as (s' & D & G); [lia|lia|reflexivity|reflexivity|]. exists s'. split; [|exact G].
    apply d_while_next with (s1 := s2); [| |exact D].
    + unfold tests. cbn. rewrite Si. cbn. replace (i <? 1000000) with true by (symmetry; apply Z.ltb_lt; lia). reflexivity.
    + apply d_block. apply d_next with (s1 := s1); [|apply d_next with (s1 := s2); [|apply d_nil]]; apply d_assign.
      * cbn. rewrite Ss, Si. cbn. rewrite E2. unfold fits64. replace ((-2 ^ 63 <=? _) && _) with true; [reflexivity|].
        symmetry. apply andb_true_iff. rewrite Z.leb_le, Z.ltb_lt. rewrite <- E2. lia.
      * unfold s1. cbn [says]. replace (put_in s v_s (VInt ((i + 1) * (i + 1 - 1) / 2)) v_i) with (s v_i) by reflexivity. rewrite Si. cbn. unfold fits64.
        replace ((-2 ^ 63 <=? _) && _) with true; [reflexivity|]. symmetry. apply andb_true_iff. rewrite Z.leb_le, Z.ltb_lt. lia.
Qed.

Definition v_x : list Z := [120].
Definition forever_body : stmt :=
  SComp (SCons (SIf (EBin BEql (EIdent v_x) (EInt 1)) SBreak) (SCons (SExpr (EAss (EIdent v_x) (EBin BMul (EIdent v_x) (EInt 2)))) SNil)).
Definition forever : stmts := SCons (SExpr (EAss (EIdent v_x) (EInt 0))) (SCons (SDo forever_body (EBin BLss (EIdent v_x) (EInt 1))) SNil).

Lemma forever_round s r : s v_x = Some (VInt 0) -> does s forever_body r -> exists s', r = Falls s' /\ s' v_x = Some (VInt 0).
Proof.
  intros Sx D. exists (put_in s v_x (VInt 0)). split; [|reflexivity]. apply (proj1 does_one _ _ _ D). apply d_block.
  apply d_next with (s1 := s); [apply d_if_no; unfold tests; cbn; rewrite Sx; reflexivity|].
  apply d_next with (s1 := put_in s v_x (VInt 0)); [|apply d_nil]. apply d_assign. cbn. rewrite Sx. reflexivity.
Qed.
Lemma forever_loops s t r : does s t r -> t = SDo forever_body (EBin BLss (EIdent v_x) (EInt 1)) -> s v_x = Some (VInt 0) -> False.
Proof.
  intros D. induction D; intros Q Sx; try discriminate Q; injection Q as -> ->.
  - destruct (forever_round _ _ Sx D1) as (s' & [= ->] & G). exact (IHD2 eq_refl G).
  - destruct (forever_round _ _ Sx D) as (s' & [= ->] & G). unfold tests in H. cbn in H. rewrite G in H. discriminate.
  - destruct (forever_round _ _ Sx D) as (s' & [= ->] & G). unfold tests in H. cbn in H. rewrite G in H. discriminate.
  - destruct (forever_round _ _ Sx D) as (s' & Q & G). discriminate.
  - destruct (forever_round _ _ Sx D) as (s' & -> & G). exact H.
Qed.

