(** Programs for the examples of PropsTalk.v. *)
From Coq Require Import ZArith String List Bool Lia.
From Verif Require Import BuiltinModel SysProofs LookSpec ShowModel ShowSpec ShowProofs.
From Verif Require Import Base StringModel FloatModel AstModel LexModel ParseModel ParseExamples ExeModel ValueModel MapModel ObjModel VmModel VmExamples
  CompSpec DepthSpec CodegenModel CompileModel CompileProofs CalcSpec CalcProofs CalcExamples FuelProofs RunProofs WhileSpec WhileProofs WhileExamples DumpExamples TalkModel TalkSpec TalkProofs TalkEnd.
Import ListNotations.
Open Scope Z_scope.

Ltac tfine := cbn -[chars]; intuition (try discriminate; try reflexivity; chars_solve).

(** Counting down from [n]. *)
Definition count_loop : stmt :=
  SWhile (EBin BGrt (EIdent v_i) (EInt 0)) (SComp (SCons (SExpr (ECall (EIdent the_print) (ECons (EIdent v_i) (ECons (EStr [32]) ENil))))
    (SCons (SExpr (EAss (EIdent v_i) (EBin BSub (EIdent v_i) (EInt 1)))) SNil))).
Definition countdown (n : Z) : stmts := SCons (SExpr (EAss (EIdent v_i) (EInt n))) (SCons count_loop SNil).
Fixpoint down (n : nat) : list Z := match n with O => [] | S p => Z.of_nat n :: down p end.

Lemma sub_one z : - 2 ^ 63 <= z - 1 < 2 ^ 63 -> means2 BSub (VInt z) (VInt 1) = AVal (VInt (z - 1)).
Proof.
  intros B. cbn. unfold fits64. replace ((-2 ^ 63 <=? _) && _) with true; [reflexivity|]. symmetry. apply andb_true_iff. rewrite Z.leb_le, Z.ltb_lt. lia.
Qed.

Lemma count_acts text : forall n d s, s v_i = Some (VInt (Z.of_nat n)) -> Z.of_nat n < 2 ^ 63 ->
  exists s', act text (S (n + d)) s count_loop = (map (fun i => text (VInt i) ++ text (VStr [32])) (down n), Some (Falls s')) /\ s' v_i = Some (VInt 0).
Proof.
  induction n as [|n IH]; intros d s Si B.
  - exists s. split; [|exact Si]. unfold count_loop. cbn [act acts]. unfold tests. cbn. rewrite Si. reflexivity.
  - destruct (IH d (put_in s v_i (VInt (Z.of_nat n)))) as (s' & A & Z'); [reflexivity|lia|]. exists s'. split; [|exact Z'].
    assert (G : act text (S (S n + d)) s count_loop = andso (acts_all text (act text (S n + d)) s (SCons (SExpr (ECall (EIdent the_print) (ECons (EIdent v_i) (ECons (EStr [32]) ENil))))
      (SCons (SExpr (EAss (EIdent v_i) (EBin BSub (EIdent v_i) (EInt 1)))) SNil))) (fun r => match r with Falls s1 => act text (S n + d) s1 count_loop | Breaks s1 => ends (Falls s1) | _ => ends r end)).
    { unfold count_loop. cbn [act acts]. unfold tests. cbn [says andthen]. rewrite Si. cbn [andthen means2]. cbn. reflexivity. }
    assert (Bd : forall again, acts_all text again s (SCons (SExpr (ECall (EIdent the_print) (ECons (EIdent v_i) (ECons (EStr [32]) ENil))))
      (SCons (SExpr (EAss (EIdent v_i) (EBin BSub (EIdent v_i) (EInt 1)))) SNil)) = ([text (VInt (Z.of_nat (S n))) ++ text (VStr [32])], Some (Falls (put_in s v_i (VInt (Z.of_nat n)))))).
    { intros again. cbn [acts_all acts given says andthen]. rewrite Si. unfold andso. cbn [snd fst]. rewrite Si. cbn [andthen]. rewrite sub_one by lia.
      replace (Z.of_nat (S n) - 1) with (Z.of_nat n) by lia. cbn [ends snd fst app map List.concat]. rewrite app_nil_r. reflexivity. }
    rewrite G, Bd. unfold andso. cbn [snd fst]. change (S n + d)%nat with (S (n + d)). rewrite A. reflexivity.
Qed.

Lemma countdown_acts text n : 0 <= n < 2 ^ 63 -> exists s', acting text (countdown n) (S (S (Z.to_nat n))) =
  (map (fun i => text (VInt i) ++ text (VStr [32])) (down (Z.to_nat n)), Some (Falls s')) /\ s' v_i = Some (VInt 0).
Proof.
  intros B. destruct (count_acts text (Z.to_nat n) 0 (put_in nothing v_i (VInt n))) as (s' & A & Q); [cbn; rewrite Z2Nat.id by lia; reflexivity|rewrite Z2Nat.id; lia|].
  exists s'. split; [|exact Q]. rewrite Nat.add_0_r in A. unfold acting.
  change (act text (S (S (Z.to_nat n))) nothing (SComp (countdown n))) with
    (andso (ends (Falls (put_in nothing v_i (VInt n)))) (fun p => match p with Falls s0 =>
       andso (acts text (act text (S (Z.to_nat n))) s0 count_loop) (fun q => match q with Falls s1 => ends (Falls s1) | _ => ends q end) | _ => ends p end)).
  unfold andso at 1. cbn [ends snd fst app].
  assert (M : acts text (act text (S (Z.to_nat n))) (put_in nothing v_i (VInt n)) count_loop = act text (S (S (Z.to_nat n))) (put_in nothing v_i (VInt n)) count_loop) by reflexivity.
  rewrite M. pose proof (more_act text (S (Z.to_nat n)) (put_in nothing v_i (VInt n)) count_loop) as Mo. rewrite A in Mo. cbn [more snd] in Mo. rewrite <- Mo.
  unfold andso. cbn [snd fst ends]. rewrite app_nil_r. reflexivity.
Qed.

Lemma short_names X : (forall x, In x X -> exists c, x = [c] /\ c <> 0) -> forall y, In y X -> no_nul y /\ ~ exists name, In name known_names /\ y = bytes_of name.
Proof.
  intros H x Hx. destruct (H x Hx) as (c & -> & Hc). split; [intros [Q|[]]; congruence|].
  intros (name & Hin & Q). assert (L : List.length (bytes_of name) = 1%nat) by (rewrite <- Q; reflexivity). revert L. clear Q H Hx.
  cbn in Hin. repeat (destruct Hin as [<-|Hin]; [discriminate|]). contradiction.
Qed.

Lemma countdown_writes src n : text_ok src -> slen src < 2 ^ 26 -> reads src (countdown n) -> 0 <= n < 2 ^ 63 ->
  exists x, compile src = ROk x /\ forall E0 ff fb text k b cap m, (forall v, basic v -> scalar_shown ff v (text v)) -> 256 <= cap -> m_pend m = false ->
  nth_error (m_objs m) b = Some (OSMap 0) -> nth_error (m_objs m) k = Some (stream []) ->
  exists j l m', steps (loud ff fb k (std_env E0 (Some (VRef b)))) cap x j (vm_start m) = SDone [VRef l] m' /\
    written k m' = List.concat (map (fun i => text (VInt i) ++ text (VStr [32])) (down (Z.to_nat n))).
Proof.
  intros T Ln R B.
  assert (C : tcores false (countdown n)) by tfine.
  assert (Fw : few [v_i]) by (split; [repeat constructor; vm_compute; try discriminate; reflexivity|left; cbn; lia]).
  assert (HX : forall y, In y [v_i] -> no_nul y /\ ~ exists name, In name known_names /\ y = bytes_of name).
  { apply short_names. intros y [<-|[]]. eexists. split; [reflexivity|discriminate]. }
  destruct (talking src (countdown n) [v_i] T Ln R C) as (x & Cp & Cd & F); [intros y; cbn; tauto|exact Fw|exact HX|reflexivity|].
  exists x. split; [exact Cp|]. intros E0 ff fb text k b cap m Text Hc Pe Hb Hk. destruct (countdown_acts text n B) as (s' & A & _).
  destruct (ends_so (countdown n) [v_i] x E0 ff fb text k b cap m Cd C F Fw HX eq_refl Text Hc Pe Hb Hk _ _ _ A) as (j & l & m' & J & Wr & _). eauto.
Qed.

Definition src_count : list Z := bytes "i = 12; while i > 0: { print(i, ' '); i = i - 1; }".
Definition src_yes : list Z := bytes "while true: print('y');".
Definition yes : stmts := SCons (SWhile ETrue (SExpr (ECall (EIdent the_print) (ECons (EStr [121]) ENil)))) SNil.
Definition src_oops : list Z := bytes "print('ab', 7, true); x = none; print(x + 1, 'never');".
Definition oops : stmts :=
  SCons (SExpr (ECall (EIdent the_print) (ECons (EStr [97; 98]) (ECons (EInt 7) (ECons ETrue ENil)))))
  (SCons (SExpr (EAss (EIdent v_x) ENone))
  (SCons (SExpr (ECall (EIdent the_print) (ECons (EBin BAdd (EIdent v_x) (EInt 1)) (ECons (EStr [110; 101; 118; 101; 114]) ENil)))) SNil)).
Definition no_floats (z : Z) : list Z := [].
Definition no_bufs (n : nat) : list Z := [].
Definition mem_talk : mem := mkmem [OSMap 0; stream []] false.

Lemma scalar_texts ff v : basic v -> scalar_shown ff v (scalar_text ff v).
Proof. intros B. apply scalar_text_shown; destruct v; try contradiction B; try exact I; exact B. Qed.

Lemma yes_acts text : forall n s, act text n s (SWhile ETrue (SExpr (ECall (EIdent the_print) (ECons (EStr [121]) ENil)))) = (repeat (text (VStr [121])) n, None).
Proof.
  induction n as [|n IH]; intros s; [reflexivity|]. cbn [act acts]. unfold tests. cbn [says bool_answer given andso snd fst]. unfold andso. cbn [snd fst]. rewrite IH. cbn. rewrite app_nil_r. reflexivity.
Qed.
Lemma yes_acting text n : acting text yes (S n) = (repeat (text (VStr [121])) (S n), None).
Proof.
  unfold acting. change (act text (S n) nothing (SComp yes)) with
    (andso (act text (S n) nothing (SWhile ETrue (SExpr (ECall (EIdent the_print) (ECons (EStr [121]) ENil))))) (fun q => match q with Falls s1 => ends (Falls s1) | _ => ends q end)).
  rewrite yes_acts. reflexivity.
Qed.
Lemma yes_goes text n : snd (acting text yes n) = None.
Proof. destruct n; [reflexivity|]. rewrite yes_acting. reflexivity. Qed.

Lemma oops_acting : exists n, acting (scalar_text no_floats) oops n = ([[97; 98; 55; 116; 114; 117; 101]], Some Fails).
Proof. exists 1%nat. vm_compute. reflexivity. Qed.
