(** Directories of tests, and what it means that a test passes: proofs for C82. *)
From Coq Require Import ZArith String List Bool Lia.
From Verif Require Import Base StringModel ValueModel ObjModel ExeModel ExeProofs VmModel BuiltinModel CompileModel MoveSpec TestModel TestSpec TestProofs.
From Verif Require AsmModel.
Import ListNotations.
Open Scope list_scope.
Open Scope Z_scope.

Lemma extension_from_nodot : forall s best, ~ In 46 s -> extension_from s best = best.
Proof.
  induction s as [|c s IH]; intros best H; [reflexivity|]. cbn [extension_from].
  destruct (c =? 46) eqn:E; [apply Z.eqb_eq in E; subst; exfalso; apply H; left; reflexivity|].
  apply IH. intros Hi. apply H. right. exact Hi.
Qed.
Lemma extension_from_app : forall b e best, extension_from (b ++ 46 :: e) best = extension_from (46 :: e) best.
Proof.
  induction b as [|c b IH]; intros e best; [reflexivity|].
  cbn [app]. change (extension_from (c :: b ++ 46 :: e) best) with (extension_from (b ++ 46 :: e) (if c =? 46 then c :: b ++ 46 :: e else best)).
  rewrite IH. reflexivity.
Qed.
Lemma extension_suffix : forall s best, extension_from s best = best \/ exists b, s = b ++ extension_from s best.
Proof.
  induction s as [|c s IH]; intros best; [left; reflexivity|]. cbn [extension_from].
  destruct (IH (if c =? 46 then c :: s else best)) as [E|[b E]].
  - rewrite E. destruct (c =? 46); [right; exists []; reflexivity|left; reflexivity].
  - right. exists (c :: b). cbn. f_equal. exact E.
Qed.
Lemma extension_test : forall n, same_text (extension n) (bytes_of ".noja-test") = true <-> is_test n.
Proof.
  intros n. rewrite same_text_iff. unfold extension. split.
  - intros E. destruct (extension_suffix n []) as [E'|[b E']]; [rewrite E' in E; discriminate E|].
    exists b. rewrite E in E'. exact E'.
  - intros [b ->]. change (bytes_of ".noja-test") with (46 :: bytes_of "noja-test"). rewrite extension_from_app.
    vm_compute. reflexivity.
Qed.

Lemma joins_path : forall dir n p, joins dir n p -> Z.of_nat (List.length p) <= 1023 -> full_path dir n = Some p.
Proof.
  intros dir n p H Hl. assert (Hlt : (Z.of_nat (List.length p) <? PATH_ROOM) = true) by (apply Z.ltb_lt; unfold PATH_ROOM; lia).
  unfold full_path. destruct H as [[[d ->] ->]|[(d & c & -> & Hc) ->]]; rewrite rev_app_distr; cbn [rev app].
  - rewrite Z.eqb_refl, Hlt. reflexivity.
  - apply Z.eqb_neq in Hc. rewrite Hc. replace (((d ++ [c]) ++ [47]) ++ n) with ((d ++ [c]) ++ 47 :: n) by now rewrite <- !app_assoc.
    rewrite Hlt. reflexivity.
Qed.

Lemma hidden_iff : forall n, match n with c :: _ => c =? 46 | [] => false end = true <-> hidden n.
Proof.
  intros [|c n]; split; try discriminate; [intros [r E]; discriminate E| |].
  - intros E. apply Z.eqb_eq in E. subst. exists n. reflexivity.
  - intros [r E]. injection E as -> _. reflexivity.
Qed.

Section Dir.
Variables (moves : nat -> bool) (types : list ttype).

Lemma run_dir_inside : forall dir i,
  (fix go l := match l with [] => DrOk (mktc 0 0 0) | e :: r => dr_then (run_entry moves types dir e) (fun a => dr_then (go r) (fun b => DrOk (add_counts a b))) end) i
  = run_dir moves types dir i.
Proof. induction i as [|e i IH]; [reflexivity|]. cbn. rewrite IH. reflexivity. Qed.

Lemma ended_app : forall r a b, ended r (a ++ b) = ended r a + ended r b.
Proof. intros. unfold ended. rewrite filter_app, app_length. lia. Qed.
Lemma counts_cons : forall r rs, add_counts (count_one r) (mktc (ended TPassed rs) (ended TFailed rs) (ended TAborted rs)) =
  mktc (ended TPassed (r :: rs)) (ended TFailed (r :: rs)) (ended TAborted (r :: rs)).
Proof.
  intros. change (r :: rs) with ([r] ++ rs). rewrite !ended_app. destruct r; reflexivity.
Qed.

Lemma counts_zero : forall c, add_counts (mktc 0 0 0) c = c.
Proof. intros [a b c]. reflexivity. Qed.

Lemma dir_counts : forall l cs, found l cs -> forall dir rs, fits dir l ->
  Forall2 (fun c r => run_test_string moves types (c_string c) = TDone r) cs rs ->
  run_dir moves types dir l = DrOk (mktc (ended TPassed rs) (ended TFailed rs) (ended TAborted rs)).
Proof.
  induction 1 as [|e l c Hh Hf IH|n i l a b Hh Hf1 IH1 Hf2 IH2|n t l c Hh Ht Hf IH|n t l c Hh Ht Hf IH|n l c Hh Hf IH]; intros dir rs Hfit Hrs.
  - inversion Hrs; subst. reflexivity.
  - apply hidden_iff in Hh. cbn [run_dir].
    assert (E : run_entry moves types dir e = DrOk (mktc 0 0 0)).
    { destruct e; cbn [run_entry d_name] in *; rewrite Hh; reflexivity. }
    rewrite E. cbn [dr_then].
    assert (Hfit' : fits dir l) by (inversion Hfit; assumption).
    rewrite (IH dir rs Hfit' Hrs). cbn [dr_then]. rewrite counts_zero. reflexivity.
  - assert (En : match n with c :: _ => c =? 46 | [] => false end = false).
    { destruct (match n with c :: _ => c =? 46 | [] => false end) eqn:E; [|reflexivity]. apply hidden_iff in E. contradiction. }
    inversion Hfit; subst; [contradiction|]. match goal with HJ : joins _ _ _, HL : _ <= 1023 |- _ => pose proof (joins_path _ _ _ HJ HL) as HP end.
    apply Forall2_app_inv_l in Hrs as (ra & rb & Ha & Hb & ->).
    cbn [run_dir run_entry d_name]. rewrite En, HP, run_dir_inside, (IH1 _ ra ltac:(eassumption) Ha). cbn [dr_then].
    rewrite (IH2 dir rb ltac:(eassumption) Hb). cbn [dr_then]. rewrite !ended_app. reflexivity.
  - assert (En : match n with c :: _ => c =? 46 | [] => false end = false).
    { destruct (match n with c :: _ => c =? 46 | [] => false end) eqn:E; [|reflexivity]. apply hidden_iff in E. contradiction. }
    inversion Hfit; subst; [contradiction|]. match goal with HJ : joins _ _ _, HL : _ <= 1023 |- _ => pose proof (joins_path _ _ _ HJ HL) as HP end. inversion Hrs; subst.
    cbn [run_dir run_entry d_name]. rewrite En, HP, (proj2 (extension_test n) Ht). match goal with HR : run_test_string _ _ _ = TDone _ |- _ => rewrite HR end. cbn [dr_then].
    rewrite (IH dir _ ltac:(eassumption) ltac:(eassumption)). cbn [dr_then]. rewrite counts_cons. reflexivity.
  - assert (En : match n with c :: _ => c =? 46 | [] => false end = false).
    { destruct (match n with c :: _ => c =? 46 | [] => false end) eqn:E; [|reflexivity]. apply hidden_iff in E. contradiction. }
    inversion Hfit; subst; [contradiction|]. match goal with HJ : joins _ _ _, HL : _ <= 1023 |- _ => pose proof (joins_path _ _ _ HJ HL) as HP end.
    cbn [run_dir run_entry d_name]. rewrite En, HP.
    destruct (same_text (extension n) (bytes_of ".noja-test")) eqn:E; [apply extension_test in E; contradiction|].
    cbn [dr_then]. rewrite (IH dir _ ltac:(eassumption) Hrs). cbn [dr_then]. rewrite counts_zero. reflexivity.
  - assert (En : match n with c :: _ => c =? 46 | [] => false end = false).
    { destruct (match n with c :: _ => c =? 46 | [] => false end) eqn:E; [|reflexivity]. apply hidden_iff in E. contradiction. }
    inversion Hfit; subst; [contradiction|]. match goal with HJ : joins _ _ _, HL : _ <= 1023 |- _ => pose proof (joins_path _ _ _ HJ HL) as HP end.
    cbn [run_dir run_entry d_name]. rewrite En, HP.
    cbn [dr_then]. rewrite (IH dir _ ltac:(eassumption) Hrs). cbn [dr_then]. rewrite counts_zero. reflexivity.
Qed.
End Dir.

(** Every directory has its tests. *)
Fixpoint dsize (d : dentry) : nat :=
  match d with DDir _ i => S (fold_right (fun e n => dsize e + n)%nat 0%nat i) | _ => 1 end.
Lemma found_total : forall l, exists cs, found l cs.
Proof.
  assert (H : forall n l, (fold_right (fun e n => dsize e + n)%nat 0%nat l <= n)%nat -> exists cs, found l cs).
  { induction n as [|n IH]; intros l Hl.
    - destruct l as [|e l]; [exists []; constructor|]. cbn in Hl. assert (1 <= dsize e)%nat by (destruct e; cbn; lia). lia.
    - destruct l as [|e l]; [exists []; constructor|]. cbn [fold_right] in Hl.
      assert (He : (1 <= dsize e)%nat) by (destruct e; cbn; lia).
      destruct (IH l) as [cl Hcl]; [lia|].
      destruct (match d_name e with c :: _ => c =? 46 | [] => false end) eqn:Eh.
      { apply hidden_iff in Eh. exists cl. now apply found_hidden. }
      assert (Hh : ~ hidden (d_name e)) by (intros Hx; apply hidden_iff in Hx; congruence).
      destruct e as [m t|m i|m]; cbn [d_name] in *.
      + destruct (same_text (extension m) (bytes_of ".noja-test")) eqn:Et.
        * apply extension_test in Et. exists (t :: cl). now apply found_test.
        * exists cl. apply found_file; auto. intros Hx. apply extension_test in Hx. congruence.
      + destruct (IH i) as [ci Hci]; [cbn [dsize] in Hl; lia|]. exists (ci ++ cl). now apply found_dir.
      + exists cl. now apply found_other. }
  intros l. eapply H. apply le_n.
Qed.

(** ** What passing means *)
Section Kinds.
Variables (moves : nat -> bool) (ff : Z -> list Z) (fb : nat -> list Z) (E : env) (size : Z) (m : mem) (n : nat).

Lemma compiler_passes : forall ws tail source bytecode,
  Forall w_ok ws -> NoDup (map w_name ws) -> (List.length ws <= 7)%nat -> Forall is_space tail ->
  In (bytes_of "type", bytes_of "compiler") (ws_pairs ws) ->
  In (bytes_of "source", source) (ws_pairs ws) -> In (bytes_of "bytecode", bytecode) (ws_pairs ws) ->
  (run_test_string moves (noja_types ff fb E size m n) (ws_text ws tail) = TDone TPassed <->
   exists a b bad, compile source = ROk a /\ AsmModel.assemble true bytecode = AsmModel.AOk (b, bad) /\ exe_equiv a b = ROk true).
Proof.
  intros ws tail source bytecode Hok Hnd Hl Ht H0 H1 H2.
  rewrite (run_written moves _ ws tail (mktt (bytes_of "compiler") [bytes_of "source"; bytes_of "bytecode"] compiler_test) source bytecode (bytes_of "source") (bytes_of "bytecode")); auto.
  cbn [tt_run]. unfold compiler_test. split.
  - destruct (compile source) as [a| |]; try discriminate. destruct (AsmModel.assemble true bytecode) as [[b bad]| | |]; try discriminate.
    destruct (exe_equiv a b) as [[|]| |] eqn:Eq; try discriminate. intros _. eauto 8.
  - intros (a & b & bad & -> & -> & ->). reflexivity.
Qed.

Lemma runtime_passes : forall ws tail bytecode output,
  Forall w_ok ws -> NoDup (map w_name ws) -> (List.length ws <= 7)%nat -> Forall is_space tail ->
  In (bytes_of "type", bytes_of "runtime") (ws_pairs ws) ->
  In (bytes_of "bytecode", bytecode) (ws_pairs ws) -> In (bytes_of "output", output) (ws_pairs ws) ->
  (run_test_string moves (noja_types ff fb E size m n) (ws_text ws tail) = TDone TPassed <->
   exists x v m' text, AsmModel.assemble true bytecode = AsmModel.AOk (x, false) /\
     steps E size x n (vm_start m) = SDone v m' /\
     all_written (written ff fb E size x n (vm_start m)) = OOk text /\
     Z.of_nat (List.length text) < 1024 /\ c_string text = output).
Proof.
  intros ws tail bytecode output Hok Hnd Hl Ht H0 H1 H2.
  rewrite (run_written moves _ ws tail (mktt (bytes_of "runtime") [bytes_of "bytecode"; bytes_of "output"] (runtime_test ff fb E size m n)) bytecode output (bytes_of "bytecode") (bytes_of "output")); auto.
  cbn [tt_run]. unfold runtime_test. split.
  - destruct (AsmModel.assemble true bytecode) as [[x bad]| | |]; try discriminate.
    destruct (steps E size x n (vm_start m)) as [s|v m'| | | | |] eqn:Est; try discriminate.
    destruct bad; [discriminate|].
    destruct (all_written _) as [text| | | |] eqn:Ew; try discriminate.
    destruct (OUT_ROOM <=? _) eqn:Er; [discriminate|]. apply Z.leb_gt in Er.
    destruct (same_text (c_string text) output) eqn:Es; [|discriminate]. apply same_text_iff in Es. intros _.
    exists x, v, m', text. split; [reflexivity|]. split; [exact Est|]. split; [exact Ew|]. split; [exact Er|exact Es].
  - intros (x & v & m' & text & -> & -> & -> & Hr & <-).
    assert (Er : (OUT_ROOM <=? Z.of_nat (List.length text)) = false) by (apply Z.leb_gt; exact Hr). rewrite Er.
    rewrite (proj2 (same_text_iff _ _) eq_refl). reflexivity.
Qed.
End Kinds.

(** For the examples. *)
Lemma w_ok_check : forall w,
  forallb space_char (w_before w) && negb (same_text (w_name w) []) && forallb name_char (w_name w) && forallb space_char (w_mid w) &&
  forallb (fun c => negb (c =? 64) && negb (c =? w_close w)) (w_body w) = true -> w_ok w.
Proof.
  intros w H. rewrite !andb_true_iff in H. destruct H as ((((A & B) & C) & D) & F).
  assert (S : forall l, forallb space_char l = true -> Forall is_space l).
  { intros l Hl. rewrite forallb_forall in Hl. apply Forall_forall. intros c Hi. apply space_char_iff. auto. }
  split; [auto|]. split; [intros E; rewrite E in B; discriminate B|].
  split; [rewrite forallb_forall in C; apply Forall_forall; intros c Hi; apply name_char_iff; auto|]. split; [auto|].
  rewrite forallb_forall in F.
  split; intros Hi; specialize (F _ Hi); rewrite Z.eqb_refl in F; [discriminate F|rewrite andb_false_r in F; discriminate F].
Qed.
