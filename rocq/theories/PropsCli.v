(** The command line program: C86. *)
From Coq Require Import ZArith String List Bool.
From Verif Require Import Base StringModel AsmModel CliModel CliSpec CliProofs.
Import ListNotations.
Open Scope list_scope.
Open Scope Z_scope.

(** * C86 *)
(** Every list of arguments is some options and then the end, an input, an option that is not accepted, or a heap size that is too large. *)
Theorem C86_line : forall args, exists os rest, line_of os rest args /\ (stops rest \/ (exists p, refused rest p) \/ too_large rest).
Proof. intros args. exact (line_kinds _ args (le_n _)). Qed.
Example C86_line_ex : let args := map bytes_of ["-p"; "-o"; "prof.txt"; "--heap"; " +4096b"; "prog.nja"; "-h"]%string in
  line_of [Profile; Output (bytes_of "prof.txt"); Heap (bytes_of " +4096b")] (map bytes_of ["prog.nja"; "-h"]%string) args /\ stops (map bytes_of ["prog.nja"; "-h"]%string).
Proof.
  cbv zeta. split.
  - exists (map bytes_of ["-p"; "-o"; "prof.txt"; "--heap"; " +4096b"]%string). split; [|split; [|reflexivity]].
    + apply (sa_cons Profile [_]); [constructor; left; reflexivity|]. apply (sa_cons _ [_; _]); [constructor; left; reflexivity|]. apply (sa_cons _ [_; _] []); [constructor; right; reflexivity|constructor].
    + constructor; [constructor; discriminate|]. constructor; [apply us_output; intros (r & H); discriminate|]. constructor; [|constructor].
      apply (us_heap _ 4096); [intros (r & H); discriminate| |split; [discriminate|reflexivity]|discriminate].
      apply (sw_plus _ [32] (bytes_of "4096") (bytes_of "b")); [repeat constructor|repeat constructor; discriminate| |reflexivity].
      intros c t H. inversion H; subst. intros [_ X]. vm_compute in X. now apply X.
  - constructor. intros (w & I & W). cbn in I. repeat (destruct I as [<-|I]; [discriminate|]). exact I.
Qed.
(** The options of a line ask for one thing. *)
Theorem C86_asks : forall os rest, exists c, asks os rest c /\ forall d, asks os rest d -> d = c.
Proof. intros os rest. eexists. split; [apply final_asks|]. intros d D. eapply asks_one; [exact D|apply final_asks]. Qed.
(** An option that is not accepted: a report, the value -1, nothing else. *)
Theorem C86_refused : forall w name os rest args p, line_of os rest args -> refused rest p -> exists t, cli_main w (name :: args) = CExit [EErr t] (-1) /\ begins p t.
Proof. exact line_refused. Qed.
Example C86_refused_ex : line_of [Help] (map bytes_of ["-H"; "abc"]%string) (map bytes_of ["--help"; "-H"; "abc"]%string) /\ refused (map bytes_of ["-H"; "abc"]%string) (bytes_of "Invalid heap size").
Proof.
  split.
  - exists [bytes_of "--help"]. split; [apply (sa_cons _ [_] []); [constructor; right; reflexivity|constructor]|]. split; [constructor; [constructor; discriminate|constructor]|reflexivity].
  - apply rf_zero; [left; reflexivity|intros (r & H); discriminate|]. apply (sw_plain _ [] [] (bytes_of "abc")); [constructor|constructor| | |reflexivity]; intros.
    + inversion H; subst. intros [_ X]. vm_compute in X. now apply X.
    + inversion H0; subst. vm_compute. repeat split; [intros [X|[_ X]]; [discriminate|now apply X]| |]; discriminate.
Qed.
(** Help is printed if no other mode is asked for behind it. *)
Theorem C86_help : forall w name os rest args c, line_of os rest args -> stops rest -> asks os rest c -> c_mode c = MHelp ->
  cli_main w (name :: args) = CExit [EOut (help_text name)] 0.
Proof. exact line_help. Qed.
Theorem C86_no_input : forall w name os rest args c, line_of os rest args -> stops rest -> asks os rest c -> c_mode c <> MHelp -> c_input c = None ->
  cli_main w (name :: args) = CExit [EErr (bytes_of "Error: No input file" ++ [10] ++ usage_text name)] (-1).
Proof. exact line_missing. Qed.
Example C86_help_ex : forall w, cli_main w (map bytes_of ["noja"; "-a"; "-h"; "-i"]%string) = CExit [EOut (help_text (bytes_of "noja"))] 0.
Proof. reflexivity. Qed.
(** A diagram is written where it is asked for, and nowhere else. *)
Theorem C86_draw : forall w name os rest args c i, line_of os rest args -> stops rest -> asks os rest c -> c_mode c = MDiagram -> c_input c = Some i ->
  match w_draw w (c_inline c) i with
  | inr report => cli_main w (name :: args) = CExit [EErr report] (-1)
  | inl t =>
    match c_output c with
    | None => cli_main w (name :: args) = CExit [EOut t] 0
    | Some p => if w_open w p then cli_main w (name :: args) = CExit [EFile p t] 0 else exists e, cli_main w (name :: args) = CExit [EErr e] (-1)
    end
  end.
Proof. exact line_draw. Qed.
(** A program is run with the heap that was asked for, as a file or as text, as source or as bytecode; behind what it does there is only its
    report or the profile. *)
Theorem C86_run : forall w name os rest args c i asm, line_of os rest args -> stops rest -> asks os rest c ->
  (c_mode c = MAssembly /\ asm = true \/ c_mode c = MDefault /\ asm = false) -> c_input c = Some i ->
  w_start w (heap_bytes (c_heap c)) (c_profile c) = true -> w_plug w (heap_bytes (c_heap c)) (c_profile c) = None ->
  let r := w_run w asm (c_inline c) (heap_bytes (c_heap c)) (c_profile c) i in
  match rr_fail r with
  | Some report => cli_main w (name :: args) = CExit (rr_effs r ++ [EErr report]) (-1)
  | None => exists own, cli_main w (name :: args) = CExit (rr_effs r ++ own) 0 /\
      (In Profile os -> c_output c = None -> rr_prof r <> [] -> own = [EOut (rr_prof r)]) /\
      (In Profile os -> forall p, c_output c = Some p -> w_open w p = true -> own = [EFile p (rr_prof r)]) /\
      (~ In Profile os -> c_output c = None -> own = [])
  end.
Proof. exact line_run. Qed.
Example C86_run_ex : let w := mkworld (fun _ t => inl t) (fun _ _ => true) (fun _ _ => None)
    (fun asm inl h p t => mkrun [EOut ((if inl then 1 else 0) :: h :: t)] (if asm then Some t else None) [7]) (fun _ => true) in
  cli_main w (map bytes_of ["noja"; "-H"; "4096"; "-p"; "-o"; "f"; "-i"; "x"]%string) = CExit [EOut (1 :: 4096 :: bytes_of "x"); EFile (bytes_of "f") [7]] 0 /\
  cli_main w (map bytes_of ["noja"; "-a"; "x"]%string) = CExit [EOut (0 :: 1048576 :: bytes_of "x"); EErr (bytes_of "x")] (-1) /\
  cli_main w (map bytes_of ["noja"; "--diagram-ast"; "-o"; "g"; "x"]%string) = CExit [EFile (bytes_of "g") (bytes_of "x")] 0.
Proof. repeat split; vm_compute; reflexivity. Qed.
(** A runtime that cannot be started, or that cannot be given the built-in names, is reported, and nothing is run. *)
Theorem C86_unstarted : forall w name os rest args c i, line_of os rest args -> stops rest -> asks os rest c ->
  (c_mode c = MAssembly \/ c_mode c = MDefault) -> c_input c = Some i ->
  (w_start w (heap_bytes (c_heap c)) (c_profile c) = false -> exists t, cli_main w (name :: args) = CExit [EErr t] (-1)) /\
  (w_start w (heap_bytes (c_heap c)) (c_profile c) = true -> forall t, w_plug w (heap_bytes (c_heap c)) (c_profile c) = Some t -> cli_main w (name :: args) = CExit [EErr t] (-1)).
Proof. exact line_unstarted. Qed.
Example C86_unstarted_ex : let w := mkworld (fun _ t => inl t) (fun h _ => 64 <? h) (fun h _ => if h <? 128 then Some [1] else None) (fun _ _ _ _ _ => mkrun [] None []) (fun _ => true) in
  (exists t, cli_main w (map bytes_of ["noja"; "-H"; "60"; "x"]%string) = CExit [EErr t] (-1)) /\
  cli_main w (map bytes_of ["noja"; "-H"; "100"; "x"]%string) = CExit [EErr [1]] (-1) /\ cli_main w (map bytes_of ["noja"; "x"]%string) = CExit [] 0.
Proof. split; [eexists; vm_compute; reflexivity|]. split; vm_compute; reflexivity. Qed.
(** A heap size that is accepted is the size of the heap. *)
Theorem C86_heap : forall os rest c p n, asks os rest c -> last_some says_heap os = Some p -> starts_with p n -> 0 < n < 2 ^ 31 -> heap_bytes (c_heap c) = n.
Proof.
  intros os rest c p n A L S R. pose proof (as_heap _ _ _ A) as H. rewrite L in H. destruct H as (m & S2 & ->). rewrite (starts_atoi _ _ S2), <- (starts_atoi _ _ S).
  rewrite heap_bytes_of by (split; [Lia.lia|apply R]). destruct (Z.ltb_spec n 0); [Lia.lia|reflexivity].
Qed.
Example C86_heap_ex : forall c, asks [Heap (bytes_of "12abc")] [] c -> heap_bytes (c_heap c) = 12.
Proof.
  intros c A. apply (C86_heap _ _ _ (bytes_of "12abc") 12 A); [reflexivity| |split; reflexivity].
  apply (sw_plain _ [] (bytes_of "12") (bytes_of "abc")); [constructor|repeat constructor; discriminate| |discriminate|reflexivity].
  intros d t H. inversion H; subst. intros [_ X]. vm_compute in X. now apply X.
Qed.
(** The value is 0 or -1; in the second case a report is the last thing that is done, and the program itself wrote no file. *)
Theorem C86_status : forall w argv l code, cli_main w argv = CExit l code ->
  (code = 0 \/ code = -1) /\ (code <> 0 -> exists done t, l = done ++ [EErr t] /\ (done = [] \/ exists a b h p i, done = rr_effs (w_run w a b h p i))).
Proof. exact line_status. Qed.

(** ** What is not so *)
(** What stands behind the input is not looked at. *)
Theorem C86_trailing_refuted : forall w name a r, ~ option_word a -> cli_main w (name :: a :: r) = cli_main w [name; a].
Proof. intros w name a r N. unfold cli_main. rewrite !parse_stop by (try reflexivity; constructor; exact N). reflexivity. Qed.
Example C86_trailing_ex : ~ option_word (bytes_of "x.nja") /\ ~ option_word (bytes_of "--version").
Proof. split; intros (w & I & W); cbn in I; repeat (destruct I as [<-|I]; [discriminate|]); exact I. Qed.
(** An option nobody knows is the name of the input. *)
Theorem C86_unknown_refuted : exists a, dashed a /\ forall w name, w_start w 1048576 false = true -> w_plug w 1048576 false = None ->
  rr_fail (w_run w false false 1048576 false a) = None -> cli_main w [name; a] = CExit (rr_effs (w_run w false false 1048576 false a)) 0.
Proof.
  exists (bytes_of "--version"). split; [eexists; reflexivity|]. intros w name A B C. unfold cli_main. rewrite parse_stop; [|constructor|reflexivity].
  - cbn [c_mode cfg0 hd_error]. unfold do_run. cbn [c_input c_heap c_profile c_mode c_inline c_output cfg0]. change (heap_bytes 1048576) with 1048576. rewrite A, B. cbn [negb]. rewrite C. now rewrite app_nil_r.
  - intros (v & I & W). cbn in I. repeat (destruct I as [<-|I]; [discriminate|]). exact I.
Qed.
(** Asking for help does not always give it. *)
Theorem C86_help_refuted : exists args, In (bytes_of "-h") args /\ forall w name, exists t, cli_main w (name :: args) = CExit [EErr t] (-1).
Proof. exists (map bytes_of ["-h"; "-a"]%string). split; [left; reflexivity|]. intros w name. eexists. reflexivity. Qed.
(** A negative heap size gives 65536 bytes. *)
Theorem C86_negative_refuted : exists p c, starts_with p (-5) /\ parse_args [] [bytes_of "-H"; p; bytes_of "x"] cfg0 = PGo c /\ heap_bytes (c_heap c) = 65536.
Proof.
  exists (bytes_of " -5"), (mkcfg MDefault false false None (Some (bytes_of "x")) 18446744073709551611). split; [|split; [vm_compute; reflexivity|vm_compute; reflexivity]].
  apply (sw_minus _ [32] (bytes_of "5") []); [repeat constructor|repeat constructor; discriminate|discriminate|reflexivity].
Qed.
(** An output file that is not needed is emptied. *)
Theorem C86_truncate_refuted : forall w name p i, ~ dashed p -> ~ option_word i -> w_start w 1048576 false = true -> w_plug w 1048576 false = None -> w_open w p = true ->
  rr_fail (w_run w false false 1048576 false i) = None ->
  cli_main w [name; bytes_of "-o"; p; i] = CExit (rr_effs (w_run w false false 1048576 false i) ++ [EFile p []]) 0.
Proof.
  intros w name p i D N A B O F. unfold cli_main. rewrite (parse_all name [Output p] [bytes_of "-o"; p]) with (rest := [i]).
  - rewrite parse_stop; [|constructor; exact N|reflexivity]. cbn - [w_run do_run]. unfold do_run. cbn - [w_run heap_bytes]. change (heap_bytes 1048576) with 1048576. rewrite A, B. cbn [negb]. now rewrite F, O.
  - apply (sa_cons _ [_; _] []); [constructor; left; reflexivity|constructor].
  - constructor; [apply us_output; exact D|constructor].
Qed.
Example C86_truncate_ex : ~ dashed (bytes_of "notes.txt") /\ ~ option_word (bytes_of "x.nja").
Proof. split; [intros (r & H); discriminate|]. intros (w & I & W). cbn in I. repeat (destruct I as [<-|I]; [discriminate|]). exact I. Qed.
(** A profile that cannot be written is not reported. *)
Theorem C86_unwritten_refuted : exists w args, w_open w (bytes_of "p") = false /\ In (bytes_of "-p") args /\ In (bytes_of "-o") args /\ cli_main w (bytes_of "noja" :: args) = CExit [] 0.
Proof.
  exists (mkworld (fun _ t => inl t) (fun _ _ => true) (fun _ _ => None) (fun _ _ _ _ _ => mkrun [] None [7]) (fun _ => false)), (map bytes_of ["-p"; "-o"; "p"; "x"]%string).
  split; [reflexivity|]. split; [left; reflexivity|]. split; [right; left; reflexivity|reflexivity].
Qed.

Print Assumptions C86_line.
Print Assumptions C86_asks.
Print Assumptions C86_refused.
Print Assumptions C86_help.
Print Assumptions C86_no_input.
Print Assumptions C86_draw.
Print Assumptions C86_run.
Print Assumptions C86_unstarted.
Print Assumptions C86_heap.
Print Assumptions C86_status.
Print Assumptions C86_trailing_refuted.
Print Assumptions C86_unknown_refuted.
Print Assumptions C86_help_refuted.
Print Assumptions C86_negative_refuted.
Print Assumptions C86_truncate_refuted.
Print Assumptions C86_unwritten_refuted.
