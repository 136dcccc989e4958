(** Examples for C93: some files, and programs that import them. *)
From Coq Require Import ZArith String List Lia Bool.
From Verif Require Import Base StringModel AstModel LexModel ParseModel ParseExamples ExeModel ValueModel MapModel ObjModel SysModel BuiltinModel LookSpec CompileModel VmModel VmExamples
  WhileExamples ImportModel ImportProofs.
Import ListNotations.
Open Scope Z_scope.

Definition listed : list (list Z * list Z) :=
  [(bytes "/p/lib", bytes "return 42;");
   (bytes "/p/self", bytes "return import('self');");
   (bytes "/p/inc", bytes "fun f(x) return x + k; k = 1; return f;");
   (bytes "/p/sub/a", bytes "return import('b');");
   (bytes "/p/sub/b", bytes "return 7;");
   (bytes "/p/b", bytes "return 8;");
   (bytes "/p/bad", bytes "return (;");
   (bytes "/p/where", bytes "a = getCurrentScriptDirectory(); b = getCurrentScriptLocation(); c = getCurrentWorkingDirectory(); return a, b, c;");
   (bytes "/p/euclid", src_euclid);
   (bytes "/p/forever", src_forever)].
Definition files (path : list Z) : option (list Z) := option_map snd (find (fun e => if list_eq_dec Z.eq_dec (fst e) path then true else false) listed).
Definition home : option (list Z) := Some (bytes "/w").
Definition main_of (src : list Z) : option program := match compile src with ROk x => Some (mkprog x (Some (bytes "/p/m"))) | _ => None end.

Inductive answer := ADone (vs : list value) | AErr | ALimit | ARuns | AOther.
Definition answer_of (r : ires) : answer :=
  match r with INext _ => ARuns | IEnd (SDone vs _) => ADone vs | IEnd SErr => AErr | IEnd SLimit => ALimit | IEnd _ => AOther end.
Definition run_main (n : nat) (src : list Z) : option answer :=
  match main_of src with Some u => Some (answer_of (isteps std0 256 home files (2 ^ 20) n (istart u mem_std))) | None => None end.

Definition src_lib : list Z := bytes "return import('lib');".
Definition src_self : list Z := bytes "return import('self');".
Definition src_inc : list Z := bytes "k = 100; g = import('inc'); return g(41);".
Definition src_sub : list Z := bytes "return import('sub/a');".
Definition src_abs : list Z := bytes "return import('/p/sub/b');".
Definition src_none : list Z := bytes "return import('none');".
Definition src_bad : list Z := bytes "return import('bad');".
Definition src_int : list Z := bytes "return import(5);".
Definition src_where : list Z := bytes "return import('where');".
Definition src_gcd : list Z := bytes "return import('euclid');".
Definition src_ever : list Z := bytes "return import('forever');".

Lemma runs_lib : run_main 50 src_lib = Some (ADone [VInt 42]).
Proof. vm_compute. reflexivity. Qed.
Lemma runs_self : run_main 200 src_self = Some ALimit.
Proof. vm_compute. reflexivity. Qed.
Lemma runs_inc : run_main 200 src_inc = Some (ADone [VInt 42]).
Proof. vm_compute. reflexivity. Qed.
Lemma runs_sub : run_main 200 src_sub = Some (ADone [VInt 7]).
Proof. vm_compute. reflexivity. Qed.
Lemma runs_abs : run_main 200 src_abs = Some (ADone [VInt 7]).
Proof. vm_compute. reflexivity. Qed.
Lemma runs_none : run_main 200 src_none = Some AErr.
Proof. vm_compute. reflexivity. Qed.
Lemma runs_bad : run_main 200 src_bad = Some AErr.
Proof. vm_compute. reflexivity. Qed.
Lemma runs_int : run_main 200 src_int = Some AErr.
Proof. vm_compute. reflexivity. Qed.
Lemma runs_where : run_main 200 src_where = Some (ADone [VStr (bytes "/p/")]).
Proof. vm_compute. reflexivity. Qed.

(** The state of the first program of [src] after [n] instructions. *)
Definition after (n : nat) (src : list Z) : option istate :=
  match main_of src with
  | Some u => match isteps std0 256 home files (2 ^ 20) n (istart u mem_std) with INext i => Some i | _ => None end
  | None => None
  end.
Lemma after_is n src i : after n src = Some i -> exists u, main_of src = Some u /\ isteps std0 256 home files (2 ^ 20) n (istart u mem_std) = INext i.
Proof. unfold after. destruct (main_of src) as [u|]; [|discriminate]. intros H. exists u. split; [reflexivity|]. destruct (isteps _ _ _ _ _ n _); [congruence|discriminate]. Qed.
Lemma goes_on n src i : after n src = Some i -> run_main (S n) src = Some ARuns -> exists i', istep std0 256 home files (2 ^ 20) i = INext i'.
Proof.
  intros A R. destruct (after_is _ _ _ A) as (u & M & Q). unfold run_main in R. rewrite M in R. replace (S n) with (n + 1)%nat in R by lia.
  rewrite isteps_add, Q, isteps_S in R. destruct (istep _ _ _ _ _ i) as [i'|r]; [eauto|]. destruct r; discriminate R.
Qed.
Lemma after_lib : option_map (fun i => (exe_fetch (p_exe (i_prog i)) (f_pc (v_cur (i_vs i))), f_stack (v_cur (i_vs i)), nth_error (m_objs (v_mem (i_vs i))) 2,
    (v_codes (i_vs i), i_codes i, p_path (i_prog i), length (v_cur (i_vs i) :: v_rest (i_vs i))))) (after 2 src_lib) =
  Some (ROk (Some (OP_CALL, [PInt 1; PInt 1])), [VRef 2; VStr (bytes "lib")], Some (ONative N_import 1), ([], [], Some (bytes "/p/m"), 1%nat)).
Proof. vm_compute. reflexivity. Qed.
Lemma after_inc : option_map (fun i => (p_path (i_prog i), exe_fetch (p_exe (i_prog i)) (f_pc (v_cur (i_vs i))))) (after 6 src_inc) =
  Some (Some (bytes "/p/inc"), ROk (Some (OP_PUSHFUN, [PIdx 2; PInt 1; PStr (bytes "f")]))).
Proof. vm_compute. reflexivity. Qed.
Lemma after_call : option_map (fun i => (exe_fetch (p_exe (i_prog i)) (f_pc (v_cur (i_vs i))), f_stack (v_cur (i_vs i)), nth_error (m_objs (v_mem (i_vs i))) 5,
    (p_path (i_prog i), map p_path (i_codes i)))) (after 19 src_inc) =
  Some (ROk (Some (OP_CALL, [PInt 1; PInt 1])), [VRef 5; VInt 41], Some (OFun 0 (VRef 4)), (Some (bytes "/p/m"), [Some (bytes "/p/inc")])).
Proof. vm_compute. reflexivity. Qed.
Lemma after_self : option_map (fun i => length (filter (fun b => match b with BNative => true | _ => false end) (i_rest i))) (after 23 src_self) = Some 7%nat.
Proof. vm_compute. reflexivity. Qed.

(** A program without imports, in an environment in which import is an error. *)
Definition src_loop : list Z := bytes "fun f(x) return x + 1; i = 0; s = 0; while i < 10: { i = f(i); s = s + i; } return s;".
Definition calm_env : env := mkenv (fun _ _ _ => OErr) (smap_select env0) (fun _ _ _ _ => OErr) (fun _ _ _ _ _ => OErr) (Some (VRef 0)).

(** Names of one character are not names of builtins. *)
Lemma short_known y : (exists c, y = [c]) -> ~ exists name, In name known_names /\ y = bytes_of name.
Proof.
  intros [c ->] (name & Hin & Q). assert (L : List.length (bytes_of name) = 1%nat) by (rewrite <- Q; reflexivity). revert L. clear Q.
  cbn in Hin. repeat (destruct Hin as [<-|Hin]; [discriminate|]). contradiction.
Qed.
