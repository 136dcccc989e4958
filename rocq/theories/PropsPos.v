(** Where the instructions of a compiled program and the errors of a refused one stand in the text: C96. *)
From Coq Require Import ZArith String List Bool.
From Verif Require Import Base StringModel ExeModel LexModel ValueModel MapModel ObjModel VmModel VmExamples AsmModel CompSpec CompileModel SourceModel ShowSpec TraceModel TraceSpec TraceProofs PosModel PosSpec PosProofs PosProofs2 PosProofs3 DumpExamples.
Import ListNotations.
Open Scope list_scope.
Open Scope Z_scope.

(** * C96 *)
(** The compiler with positions is the compiler of the other properties: it takes the same texts and makes the same instructions. *)
Theorem C96_same : forall src,
  match compile_at src with
  | MExe x => exists y, compile src = ROk y /\ same_code x y
  | MErr _ => compile src = RErr
  | MUB => compile src = RUB
  end.
Proof. exact same_program. Qed.
Example C96_same_ex : exists x y, compile_at (bytes_of "x = a + 10;") = MExe x /\ compile (bytes_of "x = a + 10;") = ROk y /\
  map bi_op (x_body y) = [OP_PUSHVAR; OP_PUSHINT; OP_ADD; OP_ASS; OP_POP; OP_EXIT] /\
  map (fun i => (bi_off i, bi_len i)) (x_body x) = [(4, 1); (8, 2); (4, 6); (0, 1); (0, 0); (11, 0)] /\ compile (bytes_of "x = ;") = RErr.
Proof. eexists _, _. repeat (split; [vm_compute; reflexivity|]); vm_compute; reflexivity. Qed.

(** Every instruction of a compiled program is at a place that begins and ends in the text. *)
Theorem C96_inside : forall src x, compile_at src = MExe x -> Forall (fun i => inside src (bi_off i) (bi_len i)) (x_body x).
Proof. exact all_inside. Qed.
Example C96_inside_ex : exists x, compile_at (bytes_of "fun f(a: int, b = 2) { return g(a)[b]; }
if f(1): { m = {k: [7]}; } else while c: x, y = h();") = MExe x /\ List.length (x_body x) = 47%nat.
Proof. eexists. split; [vm_compute; reflexivity|vm_compute; reflexivity]. Qed.

Example C96_inside_select_ex : exists x, compile_at (bytes_of "return a.b[c];") = MExe x /\
  map (fun i => (bi_off i, bi_len i)) (filter (fun i => opcode_eqb (bi_op i) OP_SELECT) (x_body x)) = [(7, 3); (7, 6)].
Proof. eexists. split; [vm_compute; reflexivity|vm_compute; reflexivity]. Qed.

(** An instruction that reads a variable is where the name of the variable stands. *)
Theorem C96_names : forall src x, text_ok src -> Z.of_nat (List.length src) < 2 ^ 26 -> compile_at src = MExe x ->
  forall i b, nth_error (x_body x) i = Some b -> bi_op b = OP_PUSHVAR ->
  exe_fetch x (Z.of_nat i) = ROk (Some (OP_PUSHVAR, [PStr (piece src (bi_off b) (bi_len b))])).
Proof. exact names_stand. Qed.
Example C96_names_ex : let src := bytes_of "total = (price) * count;" in text_ok src /\
  exists x b, compile_at src = MExe x /\ nth_error (x_body x) 1 = Some b /\ bi_op b = OP_PUSHVAR /\ piece src (bi_off b) (bi_len b) = bytes_of "count".
Proof.
  cbv zeta. split; [apply text_checked; vm_compute; reflexivity|]. eexists _, _.
  repeat (split; [vm_compute; reflexivity|]); vm_compute; reflexivity.
Qed.

(** No instruction is at a place that begins or ends in the middle of a token. *)
Theorem C96_between : forall src x, compile_at src = MExe x -> Forall (fun i => between src (bi_off i) /\ between src (bi_off i + bi_len i)) (x_body x).
Proof. exact all_between. Qed.
Example C96_between_ex : let src := bytes_of "width = 10;" in exists x, compile_at src = MExe x /\ map (fun i => (bi_off i, bi_len i)) (x_body x) = [(8, 2); (0, 5); (0, 0); (11, 0)] /\
  exists l, tokenize true src = LOk l /\ map (fun t => (t_off t, t_len t)) l = [(0, 5); (6, 1); (8, 2); (10, 1); (11, 0)] /\ ~ between src 3.
Proof.
  cbv zeta. eexists. split; [vm_compute; reflexivity|]. split; [vm_compute; reflexivity|]. eexists. split; [vm_compute; reflexivity|]. split; [reflexivity|].
  intros H. assert (E : exists l t, tokenize true (bytes_of "width = 10;") = LOk l /\ In t l /\ t_off t = 0 /\ t_len t = 5).
  { eexists _, _. split; [vm_compute; reflexivity|]. split; [left; reflexivity|]. split; reflexivity. }
  destruct E as (l & t & E & I & A & B). apply (H l t E I). rewrite A, B. split; reflexivity.
Qed.

(** An instruction that assigns to a variable is where the name of the variable stands; or at the definition of the function it names; or, for a
    parameter, not at its name but at the comma or the bracket behind it. *)
Theorem C96_targets : forall src x, text_ok src -> Z.of_nat (List.length src) < 2 ^ 26 -> compile_at src = MExe x ->
  forall i b, nth_error (x_body x) i = Some b -> bi_op b = OP_ASS ->
  exists name, exe_fetch x (Z.of_nat i) = ROk (Some (OP_ASS, [PStr name])) /\ target src (bi_off b) (bi_len b) name.
Proof. exact targets_stand. Qed.
Example C96_targets_ex : let src := bytes_of "fun f(a, b) return a; x = f(1, 2);" in text_ok src /\ exists x, compile_at src = MExe x /\
  map (fun i => piece src (bi_off i) (bi_len i)) (filter (fun i => opcode_eqb (bi_op i) OP_ASS) (x_body x)) =
    [bytes_of ")"; bytes_of ","; bytes_of "fun f(a, b) return a"; bytes_of "x"].
Proof. cbv zeta. split; [apply text_checked; vm_compute; reflexivity|]. eexists. split; [vm_compute; reflexivity|vm_compute; reflexivity]. Qed.

(** A text that is refused is refused at an offset in it, where a token begins; at its end if it cannot be split into tokens. *)
Theorem C96_error : forall src off, text_ok src -> Z.of_nat (List.length src) < 2 ^ 26 -> compile_at src = MErr off ->
  exists o, off = Some o /\ 0 <= o <= Z.of_nat (List.length src) /\ begins src o.
Proof. exact error_inside. Qed.
Example C96_error_ex : text_ok (bytes_of "x = (1 + 2;") /\ compile_at (bytes_of "x = (1 + 2;") = MErr (Some 10) /\
  compile_at (bytes_of "x = 'ab;") = MErr (Some 8) /\ compile_at (bytes_of "while 1: break x") = MErr (Some 9) /\ compile_at (bytes_of "x[ ] = 1;") = MErr (Some 5).
Proof. split; [apply text_checked; vm_compute; reflexivity|]. repeat (split; [vm_compute; reflexivity|]); vm_compute; reflexivity. Qed.

(** The trace of a compiled program that failed names all active calls, the innermost first, with the lines of the instructions they would go
    on with. *)
Theorem C96_trace : forall E size text x name src n m s, compile_at text = MExe x -> named src name ->
  readable src (Z.of_nat (List.length text)) text -> Z.of_nat (List.length text) < 2 ^ 31 -> 0 <= size ->
  steps E size x n (vm_start m) = SNext s -> step E size x s = SErr ->
  exists r cs t, api_run rt_new src (RunErr (error_frames x src s)) = ROk (false, r) /\ failed_calls x text name s cs /\ trace_says 0 cs t /\
    forall fuel, (16 <= fuel)%nat -> print_trace fuel r = OOk (bytes_of "Stack trace:" ++ [10] ++ t).
Proof. exact compiled_trace. Qed.
Example C96_trace_ex :
  let text := bytes_of "fun f(a)
  return a +
    none;
x = 1;
f(x);" in
  let src := mksource (Some (bytes_of "t.noja")) (map Some text) (Z.of_nat (List.length text)) 1 true in
  named src (bytes_of "t.noja") /\ readable src (Z.of_nat (List.length text)) text /\
  exists x s r, compile_at text = MExe x /\ steps env0 256 x 14 (vm_start mem0) = SNext s /\ step env0 256 x s = SErr /\
    api_run rt_new src (RunErr (error_frames x src s)) = ROk (false, r) /\
    print_trace 16 r = OOk (bytes_of "Stack trace:
	#0 t.noja:2
	#1 t.noja:5
").
Proof.
  cbv zeta. split; [left; reflexivity|]. split; [split; [vm_compute; discriminate|vm_compute; reflexivity]|]. eexists _, _, _.
  repeat (split; [vm_compute; reflexivity|]); vm_compute; reflexivity.
Qed.
(** And so does the trace of one that met a limit. *)
Theorem C96_limit : forall E size text x name src n m s, compile_at text = MExe x -> named src name ->
  readable src (Z.of_nat (List.length text)) text -> Z.of_nat (List.length text) < 2 ^ 31 -> 0 <= size ->
  steps E size x n (vm_start m) = SNext s -> step E size x s = SLimit ->
  exists r cs t, api_run rt_new src (RunErr (limit_frames size x src s)) = ROk (false, r) /\ limited_calls size x text name s cs /\ trace_says 0 cs t /\
    forall fuel, (16 <= fuel)%nat -> print_trace fuel r = OOk (bytes_of "Stack trace:" ++ [10] ++ t).
Proof. intros E size text x name src n m s A. apply limit_trace. eapply Forall_impl; [|exact (all_inside _ _ A)]. intros i I. apply I. Qed.
(** A function that calls itself without end, and one with seventeen parameters. *)
Example C96_limit_ex :
  let run text n want := let src := mksource None (map Some text) (Z.of_nat (List.length text)) 1 true in
    exists x s r, compile_at text = MExe x /\ steps env0 256 x n (vm_start mem0) = SNext s /\ step env0 256 x s = SLimit /\
      api_run rt_new src (RunErr (limit_frames 256 x src s)) = ROk (false, r) /\ print_trace 16 r = OOk (bytes_of want) in
  run (bytes_of "fun f()
  f();
f();") 35%nat "Stack trace:
	#0 (unnamed):2
	#1 (unnamed):2
	#2 (unnamed):2
	#3 (unnamed):2
	#4 (unnamed):2
	#5 (unnamed):2
	#6 (unnamed):2
	#7 (unnamed):2
	#8 (unnamed):2
	#9 (unnamed):2
	#10 (unnamed):2
	#11 (unnamed):2
	#12 (unnamed):2
	#13 (unnamed):2
	#14 (unnamed):2
	#15 (unnamed):3
"%string /\
  run (bytes_of "fun f(a,b,c,d,e,g,h,i,j,k,l,m,n,o,p,q,r)
  1;

f();
") 5%nat "Stack trace:
	#0 (unnamed):1
	#1 (unnamed):4
"%string.
Proof. cbv zeta. split; eexists _, _, _; repeat (split; [vm_compute; reflexivity|]); vm_compute; reflexivity. Qed.

(** The trace left by a text that is refused names the line of the error. *)
Theorem C96_refused : forall text off name src, text_ok text -> Z.of_nat (List.length text) < 2 ^ 26 -> compile_at text = MErr (Some off) -> named src name ->
  readable src (Z.of_nat (List.length text)) text ->
  exists r t, api_run rt_new src (NoExe off) = ROk (false, r) /\ trace_says 0 [(name, Some (line_at text off))] t /\
    forall fuel, (16 <= fuel)%nat -> print_trace fuel r = OOk (bytes_of "Stack trace:" ++ [10] ++ t).
Proof. exact refused_trace. Qed.
Example C96_refused_ex :
  let text := bytes_of "x = 1;
y = ;" in
  let src := mksource (Some (bytes_of "t.noja")) (map Some text) (Z.of_nat (List.length text)) 1 true in
  text_ok text /\ compile_at text = MErr (Some 11) /\ named src (bytes_of "t.noja") /\ readable src (Z.of_nat (List.length text)) text /\
  exists r, api_run rt_new src (NoExe 11) = ROk (false, r) /\ print_trace 16 r = OOk (bytes_of "Stack trace:
	#0 t.noja:2
").
Proof.
  cbv zeta. split; [apply text_checked; vm_compute; reflexivity|]. split; [vm_compute; reflexivity|]. split; [left; reflexivity|].
  split; [split; [vm_compute; discriminate|vm_compute; reflexivity]|]. eexists. split; [vm_compute; reflexivity|vm_compute; reflexivity].
Qed.

(** The instruction of a literal need not be where the literal stands: that of a string (and of none, true and false) is at the next token. *)
Theorem C96_literal_refuted : exists src x b, compile_at src = MExe x /\ nth_error (x_body x) 0 = Some b /\
  exe_fetch x 0 = ROk (Some (OP_PUSHSTR, [PStr (bytes_of "ab")])) /\ piece src (bi_off b) (bi_len b) = bytes_of ";" /\
  line_at src (bi_off b) = 3 /\ piece src 4 4 = bytes_of "'ab'" /\ line_at src 4 = 1.
Proof.
  exists (bytes_of "x = 'ab'

;"). eexists _, _. repeat (split; [vm_compute; reflexivity|]); vm_compute; reflexivity.
Qed.
(** The length of a place can be negative: that of a function without statements. *)
Theorem C96_length_refuted : exists src x b, compile_at src = MExe x /\ nth_error (x_body x) 3 = Some b /\ bi_op b = OP_PUSHFUN /\ bi_off b = 7 /\ bi_len b = -7.
Proof. exists (bytes_of "x = 1; fun f() {}"). eexists _, _. repeat (split; [vm_compute; reflexivity|]); vm_compute; reflexivity. Qed.
(** The line that is named need not be one of the expression that failed. *)
Theorem C96_line_refuted : exists text x src s r b, compile_at text = MExe x /\ readable src (Z.of_nat (List.length text)) text /\
  steps env0 256 x 1 (vm_start mem0) = SNext s /\ step env0 256 x s = SErr /\
  nth_error (x_body x) (Z.to_nat (f_pc (v_cur s))) = Some b /\ piece text (bi_off b) (bi_len b) = bytes_of "not 1" /\ line_at text (bi_off b) = 3 /\
  api_run rt_new src (RunErr (error_frames x src s)) = ROk (false, r) /\
  print_trace 16 r = OOk (bytes_of "Stack trace:
	#0 (unnamed):1
").
Proof.
  set (text := bytes_of "f(

not 1);").
  exists text. eexists _, (mksource None (map Some text) 0 1 true), _, _, _.
  split; [vm_compute; reflexivity|]. split; [split; [vm_compute; discriminate|vm_compute; reflexivity]|].
  repeat (split; [vm_compute; reflexivity|]); vm_compute; reflexivity.
Qed.
Print Assumptions C96_same.
Print Assumptions C96_inside.
Print Assumptions C96_names.
Print Assumptions C96_error.
Print Assumptions C96_trace.
Print Assumptions C96_refused.
Print Assumptions C96_literal_refuted.
Print Assumptions C96_length_refuted.
Print Assumptions C96_line_refuted.
Print Assumptions C96_between.
Print Assumptions C96_targets.
Print Assumptions C96_limit.
