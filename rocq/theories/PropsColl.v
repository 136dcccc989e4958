(** Programs made of functions, lists and maps: C94. *)
From Coq Require Import ZArith String List Bool Lia.
From Verif Require Import BuiltinModel SysProofs LookSpec.
From Verif Require Import Base StringModel FloatModel AstModel LexModel ParseModel ParseExamples ExeModel ValueModel MapModel ObjModel VmModel VmExamples
  CompSpec DepthSpec CodegenModel CompileModel CompileProofs CalcSpec FuelProofs WhileSpec WhileProofs WhileExamples FunSpec FunProofs FunRun FunTypes FunExamples.
From Verif Require Import CollSpec CollHeap CollProofs CollRun CollExamples.
Import ListNotations.
Open Scope Z_scope.

(** * C94 *)
(** What is told of a program made of functions, lists and maps, on assignments of values to names and numbered lists and maps, is what its
    compiled code does on the machine: there are objects, a different one for each number, that have the kinds, counts and contents that are
    told, and the same values and results up to that numbering; an error where something is wrong; the limit where the sixteenth call is made. *)
Theorem C94_collections_partial : forall src ds ss, text_ok src -> slen src < 2 ^ 26 -> reads src (program ds ss) -> cgood ds ss -> fits_stmts 16 (program ds ss) = true ->
  exists x, compile src = ROk x /\ forall E cap m, 256 <= cap -> m_pend m = false -> unknown E m (cnames ds ss) -> knows_types E m (ckinds ds) ->
  forall n,
  match ctold ds ss n (Some 15%nat) with
  | Tale (CFell s h) => exists j l loc m', steps E cap x j (vm_start m) = SDone [VRef l] m' /\ shows E loc h m' /\
      forall y, In y (cmentions_all ss) -> select_of E m' (VRef l) (VStr y) = OOk (option_map (at_ loc) (s y), m')
  | Tale (CGave vs h) => exists j loc m', steps E cap x j (vm_start m) = SDone (map (at_ loc) vs) m' /\ shows E loc h m'
  | Tale (CBroke _ _) => False
  | Errs => exists j, steps E cap x j (vm_start m) = SErr
  | Spills => exists j, steps E cap x j (vm_start m) = VmModel.SUB
  | TooDeep => ~ short_of_fuel E -> (exists j, steps E cap x j (vm_start m) = SLimit) \/ (exists k, ctold ds ss k None = Silent)
  | Cut => ~ short_of_fuel E -> exists s, steps E cap x n (vm_start m) = SNext s
  | Silent => True
  end.
Proof. exact cperforms. Qed.

(** A function fills a list of the program; what is stored under one name for a list is found under another. *)
Example C94_example_fill : exists x, compile src_fill = ROk x /\ exists j l m', steps std0 256 x j (vm_start mem_std) = SDone [VStr [120]; VInt 9; VNone; VRef l] m' /\
  (forall other, bin_count other [VRef l] m' = OOk ([VInt 4], m')) /\ select_or_none std0 m' (VRef l) (VInt 0) = OOk (VStr [120], m') /\
  select_or_none std0 m' (VRef l) (VInt 2) = OOk (VInt 4, m').
Proof.
  destruct (C94_collections_partial src_fill (fst fill) (snd fill)) as (x & C & H).
  - repeat (constructor; [vm_compute; split; congruence|]); constructor.
  - vm_compute; reflexivity.
  - apply reads_parse; vm_compute; reflexivity.
  - exact fill_good.
  - vm_compute; reflexivity.
  - exists x. split; [exact C|]. specialize (H std0 256 mem_std ltac:(lia) eq_refl (short_unknown (cnames (fst fill) (snd fill)) eq_refl) (types_std env0 mem_std (ckinds (fst fill)) 0 eq_refl) 40%nat).
    replace (ctold (fst fill) (snd fill) 40 (Some 15%nat)) with (Tale (CGave [VStr [120]; VInt 9; VNone; VRef 0] [CList [VStr [120]; VInt 1; VInt 4; VInt 9]])) in H by (vm_compute; reflexivity).
    destruct H as (j & loc & m' & J & _ & _ & S). exists j, (nth 0 loc O), m'. split; [exact J|]. destruct (S 0%nat _ eq_refl) as (_ & B & F).
    split; [exact B|]. split; [exact (F (VInt 0) (VStr [120]) I eq_refl)|exact (F (VInt 2) (VInt 4) I eq_refl)].
Qed.

(** Counting in a map that a function gets, and puts into a list. *)
Example C94_example_tally : exists x, compile src_tally = ROk x /\ exists j l m' a b, steps std0 256 x j (vm_start mem_std) = SDone [VRef l] m' /\
  select_of std0 m' (VRef l) (VStr [109]) = OOk (Some (VRef a), m') /\ select_of std0 m' (VRef l) (VStr [114]) = OOk (Some (VRef b), m') /\ a <> b /\
  (forall other, bin_count other [VRef a] m' = OOk ([VInt 2], m')) /\
  select_or_none std0 m' (VRef a) (VStr [120]) = OOk (VInt 6, m') /\ select_or_none std0 m' (VRef a) (VStr [121]) = OOk (VInt 2, m') /\
  select_or_none std0 m' (VRef b) (VInt 1) = OOk (VRef a, m').
Proof.
  destruct (C94_collections_partial src_tally (fst tally) (snd tally)) as (x & C & H).
  - repeat (constructor; [vm_compute; split; congruence|]); constructor.
  - vm_compute; reflexivity.
  - apply reads_parse; vm_compute; reflexivity.
  - exact tally_good.
  - vm_compute; reflexivity.
  - exists x. split; [exact C|]. specialize (H std0 256 mem_std ltac:(lia) eq_refl (short_unknown (cnames (fst tally) (snd tally)) eq_refl) (types_std env0 mem_std (ckinds (fst tally)) 0 eq_refl) 40%nat).
    pose proof tally_told as V. destruct (ctold (fst tally) (snd tally) 40 (Some 15%nat)) as [[s h|s h|vs h]| | | | |]; try contradiction.
    destruct V as (V1 & V2 & V3 & V4 & V5). destruct H as (j & l & loc & m' & J & (L & N & S) & W). exists j, l, m', (nth 0 loc O), (nth 6 loc O). split; [exact J|].
    rewrite !W by (cbn; tauto). rewrite V1, V2. split; [reflexivity|]. split; [reflexivity|].
    split; [intros Q; apply (proj1 (NoDup_nth loc O) N 0%nat 6%nat) in Q; [discriminate|lia|lia]|].
    destruct (S 0%nat _ V4) as (_ & B & F). destruct (S 6%nat _ V5) as (_ & _ & F6).
    split; [exact B|]. split; [|split].
    + apply (F (VStr [120]) (VInt 6)); [exact key_x|]. unfold found. rewrite V4. reflexivity.
    + apply (F (VStr [121]) (VInt 2)); [exact key_y|]. unfold found. rewrite V4. reflexivity.
    + apply (F6 (VInt 1) (VRef 0)); [exact I|]. unfold found. rewrite V5. reflexivity.
Qed.

(** Behind the end of a list, and the wrong kind of argument: an error. *)
Example C94_example_wrong : (exists x, compile src_behind = ROk x /\ exists j, steps std0 256 x j (vm_start mem_std) = SErr) /\
  (exists x, compile src_kind = ROk x /\ exists j, steps std0 256 x j (vm_start mem_std) = SErr).
Proof.
  split.
  - destruct (C94_collections_partial src_behind (fst behind) (snd behind)) as (x & C & H).
    + repeat (constructor; [vm_compute; split; congruence|]); constructor.
    + vm_compute; reflexivity.
    + apply reads_parse; vm_compute; reflexivity.
    + exact behind_good.
    + vm_compute; reflexivity.
    + exists x. split; [exact C|]. specialize (H std0 256 mem_std ltac:(lia) eq_refl (short_unknown (cnames (fst behind) (snd behind)) eq_refl) (types_std env0 mem_std (ckinds (fst behind)) 0 eq_refl) 9%nat).
      replace (ctold (fst behind) (snd behind) 9 (Some 15%nat)) with (@Errs cfate) in H by (vm_compute; reflexivity). exact H.
  - destruct (C94_collections_partial src_kind (fst wrong_kind) (snd wrong_kind)) as (x & C & H).
    + repeat (constructor; [vm_compute; split; congruence|]); constructor.
    + vm_compute; reflexivity.
    + apply reads_parse; vm_compute; reflexivity.
    + exact kind_good.
    + vm_compute; reflexivity.
    + exists x. split; [exact C|]. specialize (H std0 256 mem_std ltac:(lia) eq_refl (short_unknown (cnames (fst wrong_kind) (snd wrong_kind)) eq_refl) (types_std env0 mem_std (ckinds (fst wrong_kind)) 0 eq_refl) 9%nat).
      replace (ctold (fst wrong_kind) (snd wrong_kind) 9 (Some 15%nat)) with (@Errs cfate) in H by (vm_compute; reflexivity). exact H.
Qed.

(** A list in a list in a list, without an end: the limit of calls. *)
Example C94_example_nested : exists x, compile src_nested = ROk x /\ (~ short_of_fuel std0 -> exists j, steps std0 256 x j (vm_start mem_std) = SLimit).
Proof.
  destruct (C94_collections_partial src_nested (fst nested) (snd nested)) as (x & C & H).
  - repeat (constructor; [vm_compute; split; congruence|]); constructor.
  - vm_compute; reflexivity.
  - apply reads_parse; vm_compute; reflexivity.
  - exact nested_good.
  - vm_compute; reflexivity.
  - exists x. split; [exact C|]. specialize (H std0 256 mem_std ltac:(lia) eq_refl (short_unknown (cnames (fst nested) (snd nested)) eq_refl) (types_std env0 mem_std (ckinds (fst nested)) 0 eq_refl) 40%nat).
    replace (ctold (fst nested) (snd nested) 40 (Some 15%nat)) with (@TooDeep cfate) in H by (vm_compute; reflexivity).
    intros Sh. destruct (H Sh) as [A|[k B]]; [exact A|]. rewrite nested_told in B. discriminate.
Qed.

(** What was told to the end does not change when more is told. *)
Theorem C94_more : forall ds ss d n k, (n <= k)%nat -> ctold ds ss n d <> Cut -> ctold ds ss k d = ctold ds ss n d.
Proof. exact ctold_more. Qed.
Example C94_example_more : ctold (fst fill) (snd fill) 4 (Some 15%nat) = Cut /\ ctold (fst fill) (snd fill) 5 (Some 15%nat) <> Cut.
Proof. split; vm_compute; [reflexivity|discriminate]. Qed.
(** A program of which there is always more to tell runs forever. *)
Theorem C94_forever : forall src ds ss, text_ok src -> slen src < 2 ^ 26 -> reads src (program ds ss) -> cgood ds ss -> fits_stmts 16 (program ds ss) = true ->
  (forall n, ctold ds ss n (Some 15%nat) = Cut) ->
  exists x, compile src = ROk x /\ forall E cap m, 256 <= cap -> m_pend m = false -> unknown E m (cnames ds ss) -> knows_types E m (ckinds ds) -> ~ short_of_fuel E ->
  forall n, exists s, steps E cap x n (vm_start m) = SNext s.
Proof. exact cforever. Qed.
Example C94_example_forever : text_ok src_itself_ever /\ slen src_itself_ever < 2 ^ 26 /\ reads src_itself_ever (program (fst itself_ever) (snd itself_ever)) /\
  cgood (fst itself_ever) (snd itself_ever) /\ fits_stmts 16 (program (fst itself_ever) (snd itself_ever)) = true /\
  (forall n, ctold (fst itself_ever) (snd itself_ever) n (Some 15%nat) = Cut) /\ unknown std0 mem_std (cnames (fst itself_ever) (snd itself_ever)) /\
  knows_types std0 mem_std (ckinds (fst itself_ever)).
Proof.
  split; [repeat (constructor; [vm_compute; split; congruence|]); constructor|]. split; [vm_compute; reflexivity|].
  split; [apply reads_parse; vm_compute; reflexivity|]. split; [exact itself_ever_good|]. split; [vm_compute; reflexivity|]. split; [exact itself_told|].
  split; [apply short_unknown; vm_compute; reflexivity|]. apply types_std. reflexivity.
Qed.

Print Assumptions C94_collections_partial.
Print Assumptions C94_more.
Print Assumptions C94_forever.
