(** Programs for the examples of PropsColl.v. *)
From Coq Require Import ZArith String List Bool Lia.
From Verif Require Import BuiltinModel SysProofs LookSpec MapProofs2 ScopeProofs.
From Verif Require Import Base StringModel FloatModel AstModel LexModel ParseModel ParseExamples ExeModel ValueModel MapModel ObjModel VmModel VmExamples
  CompSpec DepthSpec CodegenModel CompileModel CompileProofs CalcSpec CalcExamples FuelProofs WhileSpec WhileProofs WhileExamples FunSpec FunProofs FunRun FunExamples.
From Verif Require Import CollSpec CollHeap CollProofs CollRun.
Import ListNotations.
Open Scope Z_scope.

(** A function fills a list of the program; two names for one list. *)
Definition src_fill : list Z := bytes "fun f(l, k) l[k] = k * k; a = []; i = 0; while i < 4: { f(a, i); i = i + 1; } b = a; b[0] = 'x'; return a[0], a[3], a[4], b;".
(** Counting in a map. *)
Definition src_tally : list Z :=
  bytes "fun c(m: Map, w) { if m[w] == none: m[w] = 1; else m[w] = m[w] + 1; return [w, m]; } m = {'x': 5}; i = 0; while i < 3: { r = c(m, ['y', 'x', 'y'][i]); i = i + 1; }".
(** Behind the end of a list; a list is no map; one list more than there is room for calls. *)
Definition src_behind : list Z := bytes "fun f(l) l[2] = 1; return f([0]);".
Definition src_kind : list Z := bytes "fun f(l: Map) return l; return f([0]);".
Definition src_nested : list Z := bytes "fun f(l) return [f(l)]; return f([0]);".

Definition fill : list definition * stmts := Eval vm_compute in parts_of src_fill.
Definition tally : list definition * stmts := Eval vm_compute in parts_of src_tally.
Definition behind : list definition * stmts := Eval vm_compute in parts_of src_behind.
Definition wrong_kind : list definition * stmts := Eval vm_compute in parts_of src_kind.
Definition nested : list definition * stmts := Eval vm_compute in parts_of src_nested.

Ltac cfine := cbn -[chars]; intuition (try discriminate; try reflexivity; chars_solve).
Ltac cgood_solve :=
  unfold cgood; split; [cbn [map fst]; repeat (apply NoDup_cons; [cbn; intuition discriminate|]); apply NoDup_nil|];
  split; [cfine|];
  split; [apply few_b_ok; vm_compute; reflexivity|];
  split; [intros x Hx; cbn in Hx; intuition (subst; reflexivity)|];
  repeat (apply Forall_cons; [split; [cfine|split; [apply few_b_ok; vm_compute; reflexivity|
    split; [intros x Hx; cbn in Hx; intuition (subst; reflexivity)|
      split; [cbn [fst snd]; repeat (apply Forall_cons; [split; cfine|]); apply Forall_nil|apply idents_b_ok; vm_compute; reflexivity]]]]|]); apply Forall_nil.

Lemma fill_good : cgood (fst fill) (snd fill). Proof. unfold fill. cbn [fst snd]. cgood_solve. Qed.
Lemma tally_good : cgood (fst tally) (snd tally). Proof. unfold tally. cbn [fst snd]. cgood_solve. Qed.
Lemma behind_good : cgood (fst behind) (snd behind). Proof. unfold behind. cbn [fst snd]. cgood_solve. Qed.
Lemma kind_good : cgood (fst wrong_kind) (snd wrong_kind). Proof. unfold wrong_kind. cbn [fst snd]. cgood_solve. Qed.
Lemma nested_good : cgood (fst nested) (snd nested). Proof. unfold nested. cbn [fst snd]. cgood_solve. Qed.

Lemma tally_told : match ctold (fst tally) (snd tally) 40 (Some 15%nat) with
  | Tale (CFell s h) => s [109] = Some (VRef 0) /\ s [114] = Some (VRef 6) /\ length h = 7%nat /\
      nth_error h 0 = Some (CMap [(VStr [120], VInt 6); (VStr [121], VInt 2)]) /\ nth_error h 6 = Some (CList [VStr [121]; VRef 0])
  | _ => False
  end.
Proof.
  assert (H : match ctold (fst tally) (snd tally) 40 (Some 15%nat) with Tale (CFell s h) => Some (s [109], s [114], length h, nth_error h 0, nth_error h 6) | _ => None end =
    Some (Some (VRef 0), Some (VRef 6), 7%nat, Some (CMap [(VStr [120], VInt 6); (VStr [121], VInt 2)]), Some (CList [VStr [121]; VRef 0]))) by (vm_compute; reflexivity).
  destruct (ctold (fst tally) (snd tally) 40 (Some 15%nat)) as [[s h|s h|vs h]| | | | |]; try discriminate.
  set (a := nth_error h 0) in *. set (b := nth_error h 6) in *. clearbody a b. injection H as -> -> -> -> ->. auto.
Qed.

(** Nothing is silent about the lists in lists: there is always more to tell. *)
Lemma nested_calls n : forall g h v, ccall (defined (fst nested)) n None [102] g h [v] = Cut.
Proof.
  induction n as [|n IH]; intros g h v; [reflexivity|]. cbn [ccall option_map].
  change (defined (fst nested) [102]) with (Some ([([108], (None, None)) : param], SReturn (EList (ECons (ECall (EIdent [102]) (ECons (EIdent [108]) ENil)) ENil)))).
  cbn [creceive hd tl and_then fst snd cdoes ctells csays]. cbn [citems csays cargs]. unfold see, outer. change (put_in nothing [108] v [108]) with (Some v). cbn [and_then fst snd]. rewrite IH. reflexivity.
Qed.
Lemma nested_main again (calls : list Z -> store -> colls -> list value -> tale (list value * colls)) :
  calls [102] nothing [CList [VInt 0]] [VRef 0] = Cut -> cdoes again calls None nothing [] (SComp (snd nested)) = Cut.
Proof. intros H. vm_compute in H |- *. rewrite H. reflexivity. Qed.
Lemma nested_told n : ctold (fst nested) (snd nested) n None = Cut.
Proof. destruct n as [|n]; [reflexivity|]. apply nested_main, nested_calls. Qed.
Lemma key_x : fine_k (VStr [120]).
Proof. split; [constructor; [lia|constructor]|chars_solve]. Qed.
Lemma key_y : fine_k (VStr [121]).
Proof. split; [constructor; [lia|constructor]|chars_solve]. Qed.

(** A list that becomes its own item, again and again. *)
Definition src_itself_ever : list Z := bytes "fun f(l) l[0] = l; a = []; while true: f(a);".
Definition itself_ever : list definition * stmts := Eval vm_compute in parts_of src_itself_ever.
Lemma itself_ever_good : cgood (fst itself_ever) (snd itself_ever). Proof. unfold itself_ever. cbn [fst snd]. cgood_solve. Qed.
Definition itself_loop : stmt := SWhile ETrue (SExpr (ECall (EIdent [102]) (ECons (EIdent [97]) ENil))).
Definition itself_colls (h : colls) : Prop := h = [CList []] \/ h = [CList [VRef 0]].
Lemma itself_call n g h : itself_colls h -> ccall (defined (fst itself_ever)) (S n) (Some 15%nat) [102] g h [VRef 0] = Tale ([], [CList [VRef 0]]).
Proof. intros [-> | ->]; reflexivity. Qed.
Lemma itself_round again (calls : list Z -> store -> colls -> list value -> tale (list value * colls)) s h : s [97] = Some (VRef 0) ->
  cdoes again calls None s h itself_loop = and_then (calls [102] s h [VRef 0]) (fun q => again None s (snd q) itself_loop).
Proof.
  intros Hs. unfold itself_loop. cbn [cdoes]. unfold ctest. cbn [csays and_then fst snd]. cbn [cargs csays]. unfold see, outer. rewrite Hs. cbn [and_then fst snd].
  destruct (calls [102] s h [VRef 0]); reflexivity.
Qed.
Lemma itself_loops n : forall s h, s [97] = Some (VRef 0) -> itself_colls h -> cstmt (defined (fst itself_ever)) n (Some 15%nat) None s h itself_loop = Cut.
Proof.
  induction n as [|n IH]; intros s h Hs Hh; [reflexivity|].
  change (cdoes (cstmt (defined (fst itself_ever)) n (Some 15%nat)) (ccall (defined (fst itself_ever)) n (Some 15%nat)) None s h itself_loop = Cut).
  rewrite itself_round by exact Hs. destruct n as [|n]; [reflexivity|]. rewrite itself_call by exact Hh. cbn [and_then snd]. apply IH; [exact Hs|right; reflexivity].
Qed.
Lemma itself_main again (calls : list Z -> store -> colls -> list value -> tale (list value * colls)) :
  cdoes again calls None (put_in nothing [97] (VRef 0)) [CList []] itself_loop = Cut -> cdoes again calls None nothing [] (SComp (snd itself_ever)) = Cut.
Proof.
  intros H. change (cdoes again calls None nothing [] (SComp (snd itself_ever))) with
    (and_then (cdoes again calls None (put_in nothing [97] (VRef 0)) [CList []] itself_loop) (fun q => match q with CFell s1 h1 => Tale (CFell s1 h1) | _ => Tale q end)).
  rewrite H. reflexivity.
Qed.
Lemma itself_told n : ctold (fst itself_ever) (snd itself_ever) n (Some 15%nat) = Cut.
Proof.
  destruct n as [|n]; [reflexivity|]. apply itself_main. apply (itself_loops (S n)); [reflexivity|left; reflexivity].
Qed.
