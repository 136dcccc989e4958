(** What programs with lists do: C92. *)
From Coq Require Import ZArith String List Bool Lia Sorting.Permutation Sorting.Sorted.
From Verif Require Import Base SeqSpec StringModel FloatModel AstModel LexModel ParseModel ParseExamples ExeModel ValueModel MapModel ObjModel VmModel VmExamples
  CompSpec DepthSpec CodegenModel CompileModel CompileProofs CalcSpec CalcExamples FuelProofs WhileSpec WhileProofs WhileExamples FunSpec ListsSpec ListsProofs ListsSort ListsExamples.
From Verif Require FunExamples.
Import ListNotations.
Open Scope Z_scope.

(** * C92 *)
(** [ltold] (ListsSpec.v) tells what a program does to a finite assignment of values to names and a numbered collection of sequences.
    In the heap the lists start at some place [b]: the list number [k] is the object [b + k], and [shows] says what selecting from it gives.
    [Deep]: an index beyond 32 bits, or a list of 2^30 items. *)
Theorem C92_lists_partial : forall src ss X, text_ok src -> slen src < 2 ^ 26 -> reads src ss -> lcores false ss -> incl (lmentions_all ss) X -> few X ->
  fits_stmts 16 ss = true ->
  exists x, compile src = ROk x /\ forall E cap m, 256 <= cap -> m_pend m = false -> unknown E m X ->
  (forall n, match ltold ss n with
    | Told (LFell s h) => exists j l b m', steps E cap x j (vm_start m) = SDone [VRef l] m' /\ shows E b h m' /\
        forall y, In y X -> select_of E m' (VRef l) (VStr y) = OOk (option_map (moved b) (s y), m')
    | Told (LGave vs h) => exists j b m', steps E cap x j (vm_start m) = SDone (map (moved b) vs) m' /\ shows E b h m'
    | Told (LBroke _ _) => False
    | Wrong => exists j, steps E cap x j (vm_start m) = SErr
    | Overflows => exists j, steps E cap x j (vm_start m) = VmModel.SUB
    | Deep | Unfinished => True
    end) /\
  (~ short_of_fuel E -> (forall n, ltold ss n = Unfinished) -> forall j, exists s, steps E cap x j (vm_start m) = SNext s).
Proof. exact lperforms. Qed.

(** Two names of one list, a list in a list, the characters of a string, an item that is not there. *)
Example C92_example_alias : exists x, compile src_alias = ROk x /\ exists j b m', steps std0 256 x j (vm_start mem_std) = SDone [VRef b; VInt 4; VStr [97]; VNone] m' /\
  shows std0 b [[VInt 1; VRef 1; VStr (bytes "noja"); VStr [97]]; [VInt 2; VInt 3; VInt 4]] m'.
Proof.
  destruct (C92_lists_partial src_alias alias [v_a; v_b; v_c]) as (x & C & H).
  - repeat (constructor; [vm_compute; split; congruence|]); constructor.
  - vm_compute; reflexivity.
  - apply reads_parse; vm_compute; reflexivity.
  - lists_fine.
  - intros y. cbn. tauto.
  - abc_few.
  - vm_compute; reflexivity.
  - exists x. split; [exact C|]. destruct (H std0 256 mem_std ltac:(lia) eq_refl (FunExamples.short_unknown [v_a; v_b; v_c] eq_refl)) as [D _]. specialize (D 5%nat).
    replace (ltold alias 5) with (Told (LGave [VRef 0; VInt 4; VStr [97]; VNone] [[VInt 1; VRef 1; VStr (bytes "noja"); VStr [97]]; [VInt 2; VInt 3; VInt 4]])) in D by (vm_compute; reflexivity).
    destruct D as (j & b & m' & J & S). cbn [map moved] in J. rewrite Nat.add_0_r in J. eauto.
Qed.

(** A list that contains itself. *)
Example C92_example_knot : exists x, compile src_knot = ROk x /\ exists j b m', steps std0 256 x j (vm_start mem_std) = SDone [VInt 7; VRef b] m' /\ shows std0 b [[VRef 0; VInt 7]] m'.
Proof.
  destruct (C92_lists_partial src_knot knot [v_a]) as (x & C & H).
  - repeat (constructor; [vm_compute; split; congruence|]); constructor.
  - vm_compute; reflexivity.
  - apply reads_parse; vm_compute; reflexivity.
  - lists_fine.
  - intros y. cbn. tauto.
  - abc_few.
  - vm_compute; reflexivity.
  - exists x. split; [exact C|]. destruct (H std0 256 mem_std ltac:(lia) eq_refl (FunExamples.short_unknown [v_a] eq_refl)) as [D _]. specialize (D 5%nat).
    replace (ltold knot 5) with (Told (LGave [VInt 7; VRef 0] [[VRef 0; VInt 7]])) in D by (vm_compute; reflexivity).
    destruct D as (j & b & m' & J & S). cbn [map moved] in J. rewrite Nat.add_0_r in J. eauto.
Qed.

(** Two lists cannot be compared, and an item cannot be put beyond the end: both programs end with a reported error. *)
Example C92_example_wrong : forall src ss, (src, ss) = (src_equal, equal) \/ (src, ss) = (src_gap, gap) ->
  exists x, compile src = ROk x /\ exists j, steps std0 256 x j (vm_start mem_std) = SErr.
Proof.
  intros src ss G. assert (A : text_ok src /\ slen src < 2 ^ 26 /\ reads src ss /\ lcores false ss /\ incl (lmentions_all ss) [v_a; v_b] /\ fits_stmts 16 ss = true /\ ltold ss 5 = Wrong).
  { destruct G as [[= -> ->]|[= -> ->]].
    - split; [repeat (constructor; [vm_compute; split; congruence|]); constructor|]. split; [vm_compute; reflexivity|]. split; [apply reads_parse; vm_compute; reflexivity|].
      split; [lists_fine|]. split; [intros y; cbn; tauto|]. split; vm_compute; reflexivity.
    - split; [repeat (constructor; [vm_compute; split; congruence|]); constructor|]. split; [vm_compute; reflexivity|]. split; [apply reads_parse; vm_compute; reflexivity|].
      split; [lists_fine|]. split; [intros y; cbn; tauto|]. split; vm_compute; reflexivity. }
  destruct A as (A1 & A2 & A3 & A4 & A5 & A6 & A7).
  destruct (C92_lists_partial src ss [v_a; v_b] A1 A2 A3 A4 A5) as (x & C & H); [abc_few|exact A6|]. exists x. split; [exact C|].
  destruct (H std0 256 mem_std ltac:(lia) eq_refl (FunExamples.short_unknown [v_a; v_b] eq_refl)) as [D _]. specialize (D 5%nat). rewrite A7 in D. exact D.
Qed.

(** A loop over an item of a list that has no end. *)
Example C92_example_forever : exists x, compile src_count = ROk x /\ forall j, exists s, steps env0 256 x j (vm_start mem0) = SNext s.
Proof.
  destruct (C92_lists_partial src_count count [v_a]) as (x & C & H).
  - repeat (constructor; [vm_compute; split; congruence|]); constructor.
  - vm_compute; reflexivity.
  - apply reads_parse; vm_compute; reflexivity.
  - lists_fine.
  - intros y. cbn. tauto.
  - abc_few.
  - vm_compute; reflexivity.
  - exists x. split; [exact C|]. destruct (H env0 256 mem0 ltac:(lia) eq_refl (unknown_none env0 mem0 [v_a] eq_refl)) as [_ F]. apply F; [|exact count_unfinished].
    intros [(a & b & c & Q)|[(a & b & c & Q)|[(a & b & c & d & Q)|(a & b & c & d & e & Q)]]]; discriminate Q.
Qed.

(** What was told to the end does not change when more is told. *)
Theorem C92_more : forall ss n k, (n <= k)%nat -> ltold ss n <> Unfinished -> ltold ss k = ltold ss n.
Proof. exact ltold_more. Qed.
Example C92_example_more : ltold (sort_program [3; 1; 2]) 2 = Unfinished /\ ltold (sort_program [3; 1; 2]) 4 <> Unfinished.
Proof. split; vm_compute; [reflexivity|discriminate]. Qed.

(** Every text that reads as the sorting program sorts its list. *)
Theorem C92_sort : forall src zs, text_ok src -> slen src < 2 ^ 26 -> reads src (sort_program zs) -> Forall small zs -> Z.of_nat (List.length zs) < 2 ^ 30 - 1 ->
  exists x ys, compile src = ROk x /\ Permutation zs ys /\ StronglySorted Z.le ys /\
  forall E cap m, 256 <= cap -> m_pend m = false -> unknown E m [s_a; s_i; s_j; s_t] ->
  exists j l m', steps E cap x j (vm_start m) = SDone [VRef l] m' /\ forall i, - 2 ^ 31 <= i < 2 ^ 31 -> exists m2, select_of E m' (VRef l) (VInt i) = OOk (seq_get (map VInt ys) i, m2).
Proof. exact sort_runs. Qed.
Example C92_example_sort : text_ok src_sort /\ slen src_sort < 2 ^ 26 /\ reads src_sort (sort_program [31; -41; 59; 26; -53; 58; 97; 93; 23]) /\
  Forall small [31; -41; 59; 26; -53; 58; 97; 93; 23] /\ unknown std0 mem_std [s_a; s_i; s_j; s_t].
Proof.
  split; [repeat (constructor; [vm_compute; split; congruence|]); constructor|]. split; [vm_compute; reflexivity|]. split; [apply reads_parse; vm_compute; reflexivity|].
  split; [repeat (constructor; [vm_compute; split; reflexivity|]); constructor|]. apply FunExamples.short_unknown. reflexivity.
Qed.

(** Selecting what is not there does not always give none: an index is cut to 32 bits. *)
Theorem C92_far_refuted : reads src_far far /\ ltold far 5 = Deep /\
  exists x, compile src_far = ROk x /\ exists j m', steps std0 256 x j (vm_start mem_std) = SDone [VInt 7] m'.
Proof.
  split; [apply reads_parse; vm_compute; reflexivity|]. split; [vm_compute; reflexivity|]. eexists. split; [vm_compute; reflexivity|]. exists 20%nat. eexists. vm_compute. reflexivity.
Qed.
Print Assumptions C92_lists_partial.
Print Assumptions C92_more.
Print Assumptions C92_sort.
Print Assumptions C92_far_refuted.
