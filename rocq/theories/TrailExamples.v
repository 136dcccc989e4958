(** Examples for C99: files that import each other, and programs in them that fail. *)
From Coq Require Import ZArith String List Lia Bool.
From Verif Require Import Base StringModel AsmModel ParseExamples ExeModel ValueModel MapModel ObjModel SysModel BuiltinModel CompSpec CompileModel VmModel VmExamples WhileExamples
  SourceModel ImportModel ImportMore ImportExamples PosModel TraceModel TrailModel TrailSpec.
Import ListNotations.
Open Scope list_scope.
Open Scope Z_scope.

Definition shelf : list (list Z * list Z) :=
  [(bytes "/t/m", bytes "a = 1;
b = import('lib');
return b;");
   (bytes "/t/lib", bytes "fun f(x)
{ return x + none;
}
k = 1;
return f(k);");
   (bytes "/t/n", bytes "
return import('bad');");
   (bytes "/t/bad", bytes "x = 1;

return (;");
   (bytes "/t/self", bytes "x = 1;
return import('self');");
   (bytes "/t/res", bytes "
print((a, b, c = import('many')), 1, 2, 3, 4, 5, 6, 7, 8, 9, 10, 11, 12, 13, 14);");
   (bytes "/t/many", bytes "return 1;");
   (bytes "/t/deep", bytes "k = import('grow');
return k(1);");
   (bytes "/t/grow", bytes "fun f(x)
  return f(x);
return f;");
   (bytes "/t/c0", bytes "return import('c1');"); (bytes "/t/c1", bytes "return import('c2');"); (bytes "/t/c2", bytes "return import('c3');");
   (bytes "/t/c3", bytes "return import('c4');"); (bytes "/t/c4", bytes "return import('c5');"); (bytes "/t/c5", bytes "return import('c6');");
   (bytes "/t/c6", bytes "return import('c7');"); (bytes "/t/c7", bytes "return import('bad');")].
Definition on_shelf (path : list Z) : option (list Z) := option_map snd (find (fun e => if list_eq_dec Z.eq_dec (fst e) path then true else false) shelf).

(** run.c:1182-1193: there is no program that is not in a file; a program in a string with a name. *)
Definition no_main : list Z * list Z := ([], []).
Definition text_main : list Z * list Z := (bytes "cmd", bytes "a = 1;
b = import('/t/lib');").
Definition main_prog (main : list Z * list Z) : option program := match compile (snd main) with ROk x => Some (mkprog x None) | _ => None end.
Lemma main_prog_in main u : main_prog main = Some u -> Z.of_nat (List.length (snd main)) < 2 ^ 26 -> in_file on_shelf main u.
Proof.
  unfold main_prog. destruct (compile (snd main)) as [x| |] eqn:C; try discriminate. intros H L. injection H as <-. right. split; [reflexivity|]. split; [exact C|exact L].
Qed.

Lemma shelf_texts : texts on_shelf.
Proof.
  intros path text H. unfold on_shelf in H. destruct (find _ shelf) as [e|] eqn:F; [|discriminate]. injection H as <-. apply find_some in F. destruct F as (F & _).
  assert (A : forallb (fun e => forallb (fun c => (1 <=? c) && (c <? 256)) (snd e) && (Z.of_nat (List.length (snd e)) <? 2 ^ 26)) shelf = true) by (vm_compute; reflexivity).
  rewrite forallb_forall in A. specialize (A _ F). apply andb_true_iff in A. destruct A as (A & B). apply Z.ltb_lt in B. split; [|exact B].
  unfold text_ok. apply Forall_forall. rewrite forallb_forall in A. intros c Hc. specialize (A c Hc). lia.
Qed.

Definition file_prog (path : list Z) : option program :=
  match on_shelf path with Some t => match compile t with ROk x => Some (mkprog x (Some path)) | _ => None end | None => None end.
Lemma file_prog_in path u : file_prog path = Some u -> in_file on_shelf no_main u.
Proof.
  unfold file_prog. destruct (on_shelf path) as [t|] eqn:F; [|discriminate]. destruct (compile t) as [x| |] eqn:C; try discriminate. intros H. injection H as <-.
  left. exists path, t. auto.
Qed.

(** Whether a text stands somewhere in another. *)
Fixpoint starts (p t : list Z) : bool := match p, t with [], _ => true | a :: p, b :: t => (a =? b) && starts p t | _, [] => false end.
Fixpoint has (p t : list Z) : bool := starts p t || match t with [] => false | _ :: t' => has p t' end.
Lemma starts_app p b : starts p (p ++ b) = true.
Proof. induction p as [|a p IH]; [reflexivity|]. cbn. rewrite Z.eqb_refl. exact IH. Qed.
Lemma has_app p a b : has p (a ++ p ++ b) = true.
Proof.
  induction a as [|c a IH]; cbn [app].
  - destruct (p ++ b) eqn:E; cbn [has]; rewrite <- E, starts_app; reflexivity.
  - cbn [has]. rewrite IH. apply orb_true_r.
Qed.

Definition shelf_source (path : list Z) : source := file_source path (match on_shelf path with Some t => t | None => [] end).

Lemma place_lost : exists u i r t path text off, texts on_shelf /\ in_file on_shelf no_main u /\ reached std0 256 home on_shelf (2 ^ 20) u mem_std i /\
  istep std0 256 home on_shelf (2 ^ 20) i = IEnd SErr /\ imports_next home on_shelf (2 ^ 20) i path text /\ compile_at text = MErr (Some off) /\
  run_failing home on_shelf (2 ^ 20) no_main rt_new (shelf_source (bytes "/t/c0")) i = ROk (false, r) /\ print_trace 16 r = OOk t /\
  ~ exists a b, t = a ++ path ++ b.
Proof.
  destruct (file_prog (bytes "/t/c0")) as [u|] eqn:P; [|vm_compute in P; discriminate P]. exists u. pose proof (file_prog_in _ _ P) as I. vm_compute in P. injection P as <-.
  eexists _, _, _, (bytes "/t/bad"), _, _. split; [exact shelf_texts|]. split; [exact I|]. split; [exists 23%nat; vm_compute; reflexivity|].
  split; [vm_compute; reflexivity|]. split.
  { do 10 eexists. repeat (split; [vm_compute; first [reflexivity|discriminate]|]). vm_compute. reflexivity. }
  repeat (split; [vm_compute; reflexivity|]). intros (a & b & H). apply (f_equal (has (bytes "/t/bad"))) in H. rewrite has_app in H. vm_compute in H. discriminate H.
Qed.
