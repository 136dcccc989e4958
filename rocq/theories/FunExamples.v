(** Programs for the examples of PropsFun.v. *)
From Coq Require Import ZArith String List Bool Lia.
From Verif Require Import BuiltinModel SysProofs LookSpec MapProofs2 ScopeProofs.
From Verif Require Import Base StringModel FloatModel AstModel LexModel ParseModel ParseExamples ExeModel ValueModel MapModel ObjModel VmModel VmExamples
  CompSpec DepthSpec CodegenModel CompileModel CompileProofs CalcSpec CalcExamples FuelProofs WhileSpec WhileProofs WhileExamples FunSpec FunProofs FunRun.
Import ListNotations.
Open Scope Z_scope.

Definition src_fact (s : string) : list Z := bytes ("fun f(n) { if n < 2: return 1; return n * f(n - 1); } return f(" ++ s ++ ");").

(** Two results, a call in a loop, the variables of the program seen from a function. *)
Definition src_divide : list Z :=
  bytes "fun h(a, b) { q = 0; while a >= b: { a = a - b; q = q + 1; } return q, a; } fun g(x) return x + k; k = 100; q, r, t = h(g(17, 5), 9);".

(** Functions that call each other. *)
Definition src_parity : list Z :=
  bytes "fun e(n) { if n == 0: return true; return o(n - 1); } fun o(n) { if n == 0: return false; return e(n - 1); } return e(10), e(7), o(3);".

(** A function called forever, a call after the other. *)
Definition src_calls : list Z := bytes "fun f(x) return x; y = 0; while f(y) == 0: y = f(y);".


(** The definitions at the beginning of a program, and what is behind them. *)
Definition given (o : oexpr) : option expr := match o with OYes e => Some e | ONo => None end.
Fixpoint params_of (ps : params) : list param := match ps with ANil => [] | ACons p ty df r => (p, (given ty, given df)) :: params_of r end.
Fixpoint parts (ss : stmts) : list definition * stmts :=
  match ss with
  | SCons (SFunc f ps body) r => let '(ds, q) := parts r in ((f, (params_of ps, body)) :: ds, q)
  | _ => ([], ss)
  end.
Definition parts_of (src : list Z) : list definition * stmts := match parse true src with POk (SComp ss) _ => parts ss | _ => ([], SNil) end.

(** [few], decided. *)
Definition few_b (X : list (list Z)) : bool :=
  forallb (fun x => forallb (fun c => (1 <=? c) && (c <? 128)) x && (Z.of_nat (length x) <? 2 ^ 31)) X &&
  ((Z.of_nat (length X) <=? 4) || ((Z.of_nat (length X) <? 2 ^ 26) && forallb (fun x => 0 <=? vhash (VStr x)) X)).
Lemma few_b_ok X : few_b X = true -> few X.
Proof.
  unfold few_b, few. intros H. apply andb_true_iff in H. destruct H as [A B]. rewrite forallb_forall in A. split.
  - apply Forall_forall. intros x Hx. specialize (A x Hx). apply andb_true_iff in A. destruct A as [A1 A2]. split; [|apply Z.ltb_lt; exact A2].
    rewrite forallb_forall in A1. apply Forall_forall. intros c Hc. specialize (A1 c Hc). apply andb_true_iff in A1. rewrite Z.leb_le, Z.ltb_lt in A1. exact A1.
  - apply orb_true_iff in B. destruct B as [B|B]; [left; apply Z.leb_le; exact B|right]. apply andb_true_iff in B. destruct B as [B1 B2]. split; [apply Z.ltb_lt; exact B1|].
    rewrite forallb_forall in B2. apply Forall_forall. intros x Hx. apply Z.leb_le. exact (B2 x Hx).
Qed.
Definition idents_b (X : list (list Z)) : bool := forallb (fun x => forallb (fun c => (1 <=? c) && (c <? 128)) x && (Z.of_nat (length x) <? 2 ^ 31)) X.
Lemma idents_b_ok X : idents_b X = true -> Forall ident X.
Proof.
  unfold idents_b. intros A. rewrite forallb_forall in A. apply Forall_forall. intros x Hx. specialize (A x Hx). apply andb_true_iff in A. destruct A as [A1 A2].
  split; [|apply Z.ltb_lt; exact A2]. rewrite forallb_forall in A1. apply Forall_forall. intros c Hc. specialize (A1 c Hc).
  apply andb_true_iff in A1. rewrite Z.leb_le, Z.ltb_lt in A1. exact A1.
Qed.
Ltac fine := cbn -[chars]; intuition (try discriminate; chars_solve).
Ltac fgood_solve :=
  unfold fgood; split; [cbn [map fst]; repeat (apply NoDup_cons; [cbn; intuition discriminate|]); apply NoDup_nil|];
  split; [fine|];
  split; [apply few_b_ok; vm_compute; reflexivity|];
  split; [intros x Hx; cbn in Hx; intuition (subst; reflexivity)|];
  repeat (apply Forall_cons; [split; [fine|split; [apply few_b_ok; vm_compute; reflexivity|
    split; [intros x Hx; cbn in Hx; intuition (subst; reflexivity)|
      split; [cbn [fst snd]; repeat (apply Forall_cons; [split; fine|]); apply Forall_nil|apply idents_b_ok; vm_compute; reflexivity]]]]|]); apply Forall_nil.

Definition divide : list definition * stmts := Eval vm_compute in parts_of src_divide.
Definition parity : list definition * stmts := Eval vm_compute in parts_of src_parity.
Definition calls_ever : list definition * stmts := Eval vm_compute in parts_of src_calls.
Lemma divide_good : fgood (fst divide) (snd divide).
Proof. unfold divide. cbn [fst snd]. fgood_solve. Qed.
Lemma parity_good : fgood (fst parity) (snd parity).
Proof. unfold parity. cbn [fst snd]. fgood_solve. Qed.
Lemma calls_good : fgood (fst calls_ever) (snd calls_ever).
Proof. unfold calls_ever. cbn [fst snd]. fgood_solve. Qed.

(** The loop of calls does not end. *)
Definition v_y : list Z := [121].
Definition v_f : list Z := [102].
Definition loop_calls : stmt :=
  SWhile (EBin BEql (ECall (EIdent v_f) (ECons (EIdent v_y) ENil)) (EInt 0)) (SExpr (EAss (EIdent v_y) (ECall (EIdent v_f) (ECons (EIdent v_y) ENil)))).

Lemma fstmt_step T n d w s t : fstmt T (S n) d w s t = fdoes (fstmt T n d) (fcall T n d) w s t.
Proof. reflexivity. Qed.
Lemma loop_calls_ever n : forall s, s v_y = Some (VInt 0) -> fstmt (defined (fst calls_ever)) n (Some 15%nat) None s loop_calls = Unfinished.
Proof.
  induction n as [|n IH]; intros s Hs; [reflexivity|]. rewrite fstmt_step. unfold loop_calls. cbn [fdoes]. unfold ftest. cbn [fsays fargs outer]. unfold see. rewrite Hs. cbn [tbind].
  destruct n as [|n]; [reflexivity|].
  assert (Q : forall g, fcall (defined (fst calls_ever)) (S n) (Some 15%nat) v_f g [VInt 0] = Told [VInt 0]) by reflexivity.
  rewrite Q. cbn [tbind hd]. change (tell (means2 BEql (VInt 0) (VInt 0))) with (Told (VBool true)). cbn [tbind].  apply IH. reflexivity.
Qed.
Lemma calls_unfinished n : ftold (fst calls_ever) (snd calls_ever) n (Some 15%nat) = Unfinished.
Proof.
  destruct n as [|n]; [reflexivity|]. unfold ftold. rewrite fstmt_step. unfold calls_ever at 3. cbn [snd fdoes fdoes_all]. cbn [fsays tbind]. unfold ftest. cbn [fsays fargs outer]. 
  change (see None (put_in nothing [121] (VInt 0)) [121]) with (Some (VInt 0)). cbn [tbind].
  destruct n as [|n]; [reflexivity|].
  assert (Q : forall g, fcall (defined (fst calls_ever)) (S n) (Some 15%nat) [102] g [VInt 0] = Told [VInt 0]) by reflexivity.
  rewrite Q. cbn [tbind hd]. change (tell (means2 BEql (VInt 0) (VInt 0))) with (Told (VBool true)). cbn [tbind]. 
  fold v_y v_f. fold loop_calls. rewrite loop_calls_ever; reflexivity.
Qed.

(** The names of the examples have one character. *)
Definition short_names (X : list (list Z)) : bool := forallb (fun x => match x with [c] => negb (c =? 0) | _ => false end) X.
Lemma short_unknown X : short_names X = true -> unknown std0 mem_std X.
Proof.
  intros H. apply ex_unknown. intros x Hx. unfold short_names in H. rewrite forallb_forall in H. specialize (H x Hx).
  destruct x as [|c [|? ?]]; try discriminate. exists c. split; [reflexivity|]. intros ->. discriminate.
Qed.

Lemma divide_told : match ftold (fst divide) (snd divide) 40 (Some 15%nat) with
  | Told (Fell s) => s [113] = Some (VInt 13) /\ s [114] = Some (VInt 0) /\ s [116] = Some VNone
  | _ => False
  end.
Proof.
  assert (H : match ftold (fst divide) (snd divide) 40 (Some 15%nat) with Told (Fell s) => Some (s [113], s [114], s [116]) | _ => None end = Some (Some (VInt 13), Some (VInt 0), Some VNone))
    by (vm_compute; reflexivity).
  destruct (ftold (fst divide) (snd divide) 40 (Some 15%nat)) as [[s|s|vs]| | | |]; try discriminate. injection H as -> -> ->. auto.
Qed.

(** Strings, types and default values of parameters. *)
Definition src_params (call : string) : list Z := bytes ("fun f(a: int | String = 'x', b: ?float, c: any = 7) return a; return f(" ++ call ++ ");").
Definition src_earlier : list Z := bytes "fun f(a, b = a) return b; return f(1);".
Definition src_later : list Z := bytes "fun f(a = b, b) return a; return f(none, 'w');".
Definition src_itself : list Z := bytes "fun f(a = f()) return a; return f();".
(** A default value is computed anew at each call. *)
Definition src_anew : list Z := bytes "fun f(a = k, s: String = 'one') { if s == 'one': return a; return a * 2; } k = 1; x = f(); k = 20; y = f(none, 'two');".

Definition params_1 : list definition * stmts := Eval vm_compute in parts_of (src_params "").
Definition params_2 : list definition * stmts := Eval vm_compute in parts_of (src_params "5, none").
Definition params_3 : list definition * stmts := Eval vm_compute in parts_of (src_params "'yes', 1").
Definition earlier_p : list definition * stmts := Eval vm_compute in parts_of src_earlier.
Definition later_p : list definition * stmts := Eval vm_compute in parts_of src_later.
Definition itself_p : list definition * stmts := Eval vm_compute in parts_of src_itself.
Definition anew : list definition * stmts := Eval vm_compute in parts_of src_anew.
Definition ps_example : list param := match fst params_1 with (_, (ps, _)) :: _ => ps | [] => [] end.

Lemma params_1_good : fgood (fst params_1) (snd params_1). Proof. unfold params_1. cbn [fst snd]. fgood_solve. Qed.
Lemma params_2_good : fgood (fst params_2) (snd params_2). Proof. unfold params_2. cbn [fst snd]. fgood_solve. Qed.
Lemma params_3_good : fgood (fst params_3) (snd params_3). Proof. unfold params_3. cbn [fst snd]. fgood_solve. Qed.
Lemma earlier_good : fgood (fst earlier_p) (snd earlier_p). Proof. unfold earlier_p. cbn [fst snd]. fgood_solve. Qed.
Lemma later_good : fgood (fst later_p) (snd later_p). Proof. unfold later_p. cbn [fst snd]. fgood_solve. Qed.
Lemma itself_good : fgood (fst itself_p) (snd itself_p). Proof. unfold itself_p. cbn [fst snd]. fgood_solve. Qed.
Lemma anew_good : fgood (fst anew) (snd anew). Proof. unfold anew. cbn [fst snd]. fgood_solve. Qed.
Lemma anew_told : match ftold (fst anew) (snd anew) 10 (Some 15%nat) with
  | Told (Fell s) => s [120] = Some (VInt 1) /\ s [121] = Some (VInt 40)
  | _ => False
  end.
Proof.
  assert (H : match ftold (fst anew) (snd anew) 10 (Some 15%nat) with Told (Fell s) => Some (s [120], s [121]) | _ => None end = Some (Some (VInt 1), Some (VInt 40)))
    by (vm_compute; reflexivity).
  destruct (ftold (fst anew) (snd anew) 10 (Some 15%nat)) as [[s|s|vs]| | | |]; try discriminate. injection H as -> ->. auto.
Qed.
