(** Concrete programs used beside the theorems of PropsVm.v. *)
From Coq Require Import ZArith List Bool String Ascii.
From Verif Require Import Base StringModel ValueModel MapModel ListModel ExeModel ArithModel ObjModel AstModel CodegenModel VmModel
  SrcModel CompSpec RunProofs.
Import ListNotations.
Open Scope Z_scope.

Definition str (s : string) : list Z := map (fun a => Z.of_nat (nat_of_ascii a)) (list_ascii_of_string s).
Definition mem0 : mem := mkmem [] false.
(** An environment without builtins. *)
Definition env0 : env := mkenv (fun _ _ _ => OErr) (fun _ _ m => OOk (None, m)) (fun _ _ _ m => OOk (None, m)) (fun _ _ _ _ _ => OErr) None.

Fixpoint block (l : list stmt) : stmts := match l with [] => SNil | s :: r => SCons s (block r) end.
Fixpoint args (l : list expr) : exprs := match l with [] => ENil | e :: r => ECons e (args r) end.
Definition var (s : string) : expr := EIdent (str s).
Definition set (s : string) (e : expr) : stmt := SExpr (EAss (var s) e).

(** fun add(a, b) return a + b;  i = 0; while i < 3: i = add(i, 1);  if i == 3 and not false: return i, add(i, 4); *)
Definition prog1 : stmt := SComp (block [
  SFunc (str "add") (ACons (str "a") ONo ONo (ACons (str "b") ONo ONo ANil)) (SReturn (EBin BAdd (var "a") (var "b")));
  set "i" (EInt 0);
  SWhile (EBin BLss (var "i") (EInt 3)) (set "i" (ECall (var "add") (args [var "i"; EInt 1])));
  SIf (EAnd (EBin BEql (var "i") (EInt 3)) (EUn UNot EFalse)) (SReturn (EPair (var "i") (ECall (var "add") (args [var "i"; EInt 4]))))
])%string.

Definition exe_of (p : stmt) : executable := match codegen p with Some (ROk x) => x | _ => mkexe [] [] end.
Definition evs_of (p : stmt) := match cg_program p with Some e => e | None => [] end.

Ltac bytes := repeat (apply Forall_cons; [split; vm_compute; congruence|]); apply Forall_nil.
Ltac show_compiled p :=
  split; [vm_compute; reflexivity|]; split;
  [|split; [reflexivity|]; exists (evs_of p); split; [vm_compute; reflexivity|]; split; vm_compute; reflexivity].

Ltac show_wf := cbn; repeat split; try (vm_compute; congruence); bytes.

Lemma prog1_compiled : compiled prog1 (exe_of prog1).
Proof. show_compiled prog1. show_wf. Qed.

(** fun f() return 1, 2, 3, 4, 5, 6, 7, 8, 9;  a, b, c, d, e, g, h, i, j = f();  return a; *)
Definition tuple (e : expr) (l : list expr) : expr := fold_left EPair l e.
Definition prog9 : stmt := SComp (block [
  SFunc (str "f") ANil (SReturn (tuple (EInt 1) (map EInt [2; 3; 4; 5; 6; 7; 8; 9])));
  SExpr (EAss (tuple (var "a") (map var ["b"; "c"; "d"; "e"; "g"; "h"; "i"; "j"])) (ECall (var "f") ENil));
  SReturn (var "a")])%string.
Lemma prog9_compiled : compiled prog9 (exe_of prog9).
Proof. show_compiled prog9. show_wf. Qed.

(** d = 1; i = 2; j = 3; o = 4; y = 5; z = 6; *)
Definition prog_six : stmt := SComp (block [
  set "d" (EInt 1); set "i" (EInt 2); set "j" (EInt 3); set "o" (EInt 4); set "y" (EInt 5); set "z" (EInt 6)])%string.
Lemma prog_six_compiled : compiled prog_six (exe_of prog_six).
Proof. show_compiled prog_six. show_wf. Qed.

(** x = 1; fun f(p) { y = 5; fun g() { y = 7; return x, y, p; } g(); return g, y; } *)
Definition prog_scopes : stmt := SComp (block [
  set "x" (EInt 1);
  SFunc (str "f") (ACons (str "p") ONo ONo ANil) (SComp (block [
     set "y" (EInt 5);
     SFunc (str "g") ANil (SComp (block [set "y" (EInt 7); SReturn (tuple (var "x") [var "y"; var "p"])]));
     SExpr (EAss (tuple (var "u") [var "v"; var "w"]) (ECall (var "g") ENil));
     SReturn (tuple (var "u") [var "v"; var "w"; var "y"])]));
  SExpr (EAss (tuple (var "a") [var "b"; var "c"; var "d"]) (ECall (var "f") (args [EInt 9])));
  SReturn (tuple (var "a") [var "b"; var "c"; var "d"])])%string.
Lemma prog_scopes_compiled : compiled prog_scopes (exe_of prog_scopes).
Proof. show_compiled prog_scopes. show_wf. Qed.
Definition outcome (r : sres) : sres := match r with SDone vs _ => SDone vs mem0 | SNext _ => SLimit | _ => r end.
