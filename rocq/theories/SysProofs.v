(** Proofs about SysModel.v. *)
From Coq Require Import ZArith List Lia Bool.
From Verif Require Import Base StringModel SysModel.
Import ListNotations.
Open Scope Z_scope.

Definition no_nul (l : list Z) : Prop := ~ In 0 l.

Lemma strlen_app l r : no_nul l -> c_strlen (l ++ 0 :: r) = Some (length l).
Proof.
  unfold no_nul. induction l as [|a l IH]; cbn; intros H; [reflexivity|].
  destruct (Z.eqb_spec a 0); [exfalso; auto|]. rewrite IH by auto. reflexivity.
Qed.

Lemma c_string_app l r : no_nul l -> c_string (l ++ 0 :: r) = Some l.
Proof.
  intros H. unfold c_string. rewrite strlen_app by auto. f_equal.
  rewrite firstn_app, Nat.sub_diag, firstn_all, firstn_O. apply app_nil_r.
Qed.

Lemma put_bytes_ok buff off bytes : 0 <= off -> off + Z.of_nat (length bytes) <= Z.of_nat (length buff) ->
  put_bytes buff off bytes = ROk (firstn (Z.to_nat off) buff ++ bytes ++ skipn (Z.to_nat off + length bytes) buff).
Proof. intros. unfold put_bytes. do 2 bcase; cbn; try lia; reflexivity. Qed.

Lemma put_at l mid r bytes : length mid = length bytes ->
  put_bytes (l ++ mid ++ r) (Z.of_nat (length l)) bytes = ROk (l ++ bytes ++ r).
Proof.
  intros H. rewrite put_bytes_ok; [|lia|rewrite !app_length; lia].
  rewrite Nat2Z.id. f_equal. f_equal.
  - rewrite firstn_app, Nat.sub_diag, firstn_all, firstn_O. apply app_nil_r.
  - f_equal. rewrite skipn_app, (skipn_all2 l) by lia. cbn.
    replace (length l + length bytes - length l)%nat with (length mid) by lia.
    rewrite skipn_app, skipn_all, Nat.sub_diag. reflexivity.
Qed.

Lemma split_at {A} (l : list A) n : (n <= length l)%nat -> exists a b, l = a ++ b /\ length a = n.
Proof.
  intros H. exists (firstn n l), (skipn n l). split; [symmetry; apply firstn_skipn|].
  rewrite firstn_length. lia.
Qed.

Lemma getcwd_ok dir buff : Z.of_nat (length dir) + 1 <= Z.of_nat (length buff) ->
  exists rest, c_getcwd (Some dir) buff = ROk (Some (dir ++ 0 :: rest)) /\
    length buff = (length dir + 1 + length rest)%nat.
Proof.
  intros H. unfold c_getcwd. bcase; [lia|].
  destruct (split_at buff (length dir + 1)) as (a & b & -> & Ha); [lia|].
  exists b. split; [|rewrite app_length; lia].
  change 0 with (Z.of_nat (@length Z [])).
  change (a ++ b) with (@nil Z ++ a ++ b). rewrite put_at; [|rewrite app_length; cbn; lia].
  cbn. rewrite <- app_assoc. reflexivity.
Qed.

(** Path_MakeAbsolute. *)
Lemma path_absolute cwd path buff :
  (forall dir, cwd = Some dir -> no_nul dir) -> no_nul path ->
  (is_absolute path = true -> make_absolute cwd path buff = ROk PSame) /\
  (is_absolute path = false -> cwd = None -> make_absolute cwd path buff = ROk PNull) /\
  (is_absolute path = false -> forall dir, cwd = Some dir ->
     Z.of_nat (length buff) < Z.of_nat (length (dir ++ [47] ++ path)) + 1 -> make_absolute cwd path buff = ROk PNull) /\
  (is_absolute path = false -> forall dir, cwd = Some dir ->
     Z.of_nat (length (dir ++ [47] ++ path)) + 1 <= Z.of_nat (length buff) ->
     exists b, make_absolute cwd path buff = ROk (PBuff b) /\ length b = length buff /\
       c_string b = Some (dir ++ [47] ++ path)).
Proof.
  intros Hd Hp. unfold make_absolute. destruct (is_absolute path); repeat split; try discriminate; try reflexivity.
  - intros _ ->. reflexivity.
  - intros _ dir E H. specialize (Hd _ E). rewrite !app_length in H. cbn [length] in H. subst cwd.
    destruct (Z.ltb_spec (Z.of_nat (length buff)) (Z.of_nat (length dir) + 1)).
    + unfold c_getcwd. bcase; [reflexivity|lia].
    + destruct (getcwd_ok dir buff) as (rest & -> & L); [lia|]. rewrite strlen_app by auto.
      bcase; [reflexivity|].
      destruct rest as [|x rest]; [cbn in *; lia|].
      replace (dir ++ 0 :: x :: rest) with (dir ++ [0] ++ x :: rest) by reflexivity.
      rewrite put_at by reflexivity. bcase; [reflexivity|lia].
  - intros _ dir E H. specialize (Hd _ E). rewrite !app_length in H. cbn [length] in H. subst cwd.
    destruct (getcwd_ok dir buff) as (rest & -> & L); [lia|]. rewrite strlen_app by auto.
    bcase; [lia|].
    replace (dir ++ 0 :: rest) with (dir ++ [0] ++ rest) by reflexivity.
    rewrite put_at by reflexivity. bcase; [lia|].
    destruct (split_at rest (length path)) as (a & b & -> & Ha); [lia|]. rewrite app_length in L.
    destruct b as [|x b]; [cbn in *; lia|].
    replace (dir ++ [47] ++ a ++ x :: b) with ((dir ++ [47]) ++ a ++ x :: b) by (rewrite <- app_assoc; reflexivity).
    replace (Z.of_nat (length dir) + 1) with (Z.of_nat (length (dir ++ [47]))) by (rewrite app_length; cbn; lia).
    rewrite put_at by auto.
    replace ((dir ++ [47]) ++ path ++ x :: b) with (((dir ++ [47]) ++ path) ++ [x] ++ b)
      by (rewrite <- !app_assoc; reflexivity).
    replace (Z.of_nat (length (dir ++ [47])) + Z.of_nat (length path)) with (Z.of_nat (length ((dir ++ [47]) ++ path)))
      by (rewrite (app_length _ path); lia).
    rewrite put_at by reflexivity. eexists. split; [reflexivity|]. split.
    + rewrite !app_length in *. cbn in *. lia.
    + cbn [app]. rewrite c_string_app; [rewrite <- app_assoc; reflexivity|].
      unfold no_nul in *. rewrite !in_app_iff. cbn. intuition lia.
Qed.

(** Nothing is written outside, whatever the bytes. *)
Lemma path_in_buffer cwd path buff : (forall dir, cwd = Some dir -> no_nul dir) -> no_nul path ->
  make_absolute cwd path buff <> RUB /\
  forall b, make_absolute cwd path buff = ROk (PBuff b) -> length b = length buff.
Proof.
  intros Hd Hp. destruct (path_absolute cwd path buff Hd Hp) as (H1 & H2 & H3 & H4).
  destruct (is_absolute path) eqn:E.
  - rewrite H1 by auto. split; [discriminate|]. discriminate.
  - destruct cwd as [dir|].
    + destruct (Z.ltb_spec (Z.of_nat (length buff)) (Z.of_nat (length (dir ++ [47] ++ path)) + 1)).
      * rewrite (H3 eq_refl dir) by auto. split; discriminate.
      * destruct (H4 eq_refl dir eq_refl) as (b & -> & Hb & _); [lia|]. split; [discriminate|].
        intros b' [= <-]. auto.
    + rewrite H2 by auto. split; discriminate.
Qed.

(** ** Import paths *)

Lemma popped_app a b : ~ In 47 a -> popped (a ++ 47 :: b) = Some (length a).
Proof.
  induction a as [|x a IH]; cbn; intros H; [reflexivity|].
  destruct (Z.eqb_spec x 47); [exfalso; auto|]. rewrite IH by auto. reflexivity.
Qed.

(** The folder the path of an import is appended to: the directory part of the importing script, or else the working directory with
    a slash after it. *)
Definition folder_spec (cwd path : option (list Z)) (f : list Z) : Prop :=
  match path with
  | Some p => exists file, p = f ++ file /\ (exists d, f = d ++ [47]) /\ ~ In 47 file
  | None => exists dir, cwd = Some dir /\
              ((exists d, dir = d ++ [47]) /\ f = dir \/ (~ exists d, dir = d ++ [47]) /\ f = dir ++ [47])
  end.

Lemma folder_ok cwd path buff f : folder_spec cwd path f -> no_nul f ->
  (forall dir, cwd = Some dir -> dir <> []) ->
  (Z.of_nat (length buff) <= Z.of_nat (length f) ->
     exists b, script_folder cwd path buff = ROk (0, b) \/
               path = None /\ script_folder cwd path buff = ROk (Z.of_nat (length f), b) /\ length b = length buff) /\
  (Z.of_nat (length f) < Z.of_nat (length buff) ->
     exists rest, script_folder cwd path buff = ROk (Z.of_nat (length f), f ++ rest) /\
       length buff = (length f + length rest)%nat).
Proof.
  intros Hf Hn Hc. unfold folder_spec in Hf. destruct path as [p|].
  - destruct Hf as (file & -> & (d & ->) & Hfile). unfold script_folder.
    replace (rev ((d ++ [47]) ++ file)) with (rev file ++ 47 :: rev d)
      by (rewrite !rev_app_distr; cbn; reflexivity).
    rewrite popped_app by (rewrite <- in_rev; auto). rewrite rev_length.
    replace (length ((d ++ [47%Z]) ++ file) - length file)%nat with (length (d ++ [47%Z]))
      by (rewrite (app_length (d ++ [47])); lia).
    split; intros H.
    + bcase; [|lia]. eauto.
    + bcase; [lia|]. rewrite firstn_app, Nat.sub_diag, firstn_all, firstn_O, app_nil_r.
      destruct (split_at buff (length (d ++ [47]))) as (a & b & -> & Ha); [lia|]. rewrite (app_length a) in H.
      change 0 with (Z.of_nat (@length Z [])). change (a ++ b) with (@nil Z ++ a ++ b).
      rewrite put_at by auto. destruct b as [|x b]; [cbn in *; lia|].
      cbn [app]. change (x :: b) with ([x] ++ b). rewrite put_at by reflexivity.
      eexists. split; [reflexivity|]. rewrite !app_length in *. cbn in *. lia.
  - destruct Hf as (dir & -> & Hf). specialize (Hc dir eq_refl). unfold script_folder.
    assert (ND : no_nul dir).
    { unfold no_nul in *. destruct Hf as [[_ ->]|[_ ->]]; auto. rewrite in_app_iff in Hn. tauto. }
    assert (LD : (0 < length dir)%nat) by (destruct dir; cbn; [congruence|lia]).
    destruct (Z.ltb_spec (Z.of_nat (length buff)) (Z.of_nat (length dir) + 1)) as [Hs|Hs].
    + assert (X : c_getcwd (Some dir) buff = ROk None) by (unfold c_getcwd; bcase; [reflexivity|lia]).
      rewrite X. split; intros H; [eauto|]. exfalso.
      destruct Hf as [[_ ->]|[_ ->]]; rewrite ?app_length in *; cbn in *; lia.
    + destruct (getcwd_ok dir buff) as (rest & -> & L); [lia|]. rewrite strlen_app by auto.
      rewrite nth_error_app1 by lia.
      destruct (exists_last Hc) as (d & c & ->). rewrite app_length in *. cbn [length] in *.
      rewrite nth_error_app2 by lia. replace (length d + 1 - 1 - length d)%nat with O by lia. cbn [nth_error].
      destruct (Z.ltb_spec 0 (Z.of_nat (length d + 1))); [|lia]. cbn [andb].
      destruct (Z.eqb_spec c 47) as [->|Nc].
      * destruct Hf as [[_ ->]|[C _]]; [|exfalso; eauto]. rewrite app_length in *. cbn [length] in *.
        split; intros H0; [lia|]. exists (0 :: rest). split; [reflexivity|]. cbn. lia.
      * destruct Hf as [[(d' & E) _]|[_ ->]]; [apply app_inj_tail in E; destruct E; congruence|].
        destruct (Z.eqb_spec (Z.of_nat (length d + 1)) 0); [lia|].
        rewrite !app_length in *. cbn [length] in *. split; intros H0.
        -- bcase; [eauto|lia].
        -- bcase; [lia|]. change (0 :: rest) with ([0] ++ rest).
           replace (Z.of_nat (length d + 1)) with (Z.of_nat (length (d ++ [c]))) by (rewrite app_length; reflexivity).
           rewrite put_at by reflexivity. exists rest. split; [|lia].
           rewrite <- !app_assoc. rewrite app_length. cbn [length]. do 2 f_equal. lia.
Qed.

(** makePathRelativeToScript. *)
Lemma import_path cwd path src buff f :
  folder_spec cwd path f -> no_nul f -> no_nul src -> (forall dir, cwd = Some dir -> dir <> []) ->
  let full := if is_absolute src then src else f ++ src in
  (Z.of_nat (length buff) <= Z.of_nat (length full) -> script_path cwd path src buff = ROk None) /\
  (Z.of_nat (length full) < Z.of_nat (length buff) ->
     exists b, script_path cwd path src buff = ROk (Some b) /\ length b = length buff /\ c_string b = Some full).
Proof.
  intros Hf Hn Hs Hc. cbv zeta. unfold script_path. destruct (is_absolute src).
  - split; intros H.
    + bcase; [reflexivity|lia].
    + bcase; [lia|]. destruct (split_at buff (length src + 1)) as (a & b & -> & Ha); [lia|].
      change 0 with (Z.of_nat (@length Z [])) at 1. change (a ++ b) with (@nil Z ++ a ++ b).
      rewrite put_at by (rewrite app_length; cbn; lia). eexists. split; [reflexivity|]. cbn [app]. split.
      * rewrite !app_length in *. cbn in *. lia.
      * rewrite <- app_assoc. apply c_string_app. auto.
  - destruct (folder_ok cwd path buff f Hf Hn Hc) as [F1 F2]. rewrite app_length. split; intros H.
    + destruct (Z.leb_spec (Z.of_nat (length buff)) (Z.of_nat (length f))) as [Hl|Hl].
      * destruct (F1 Hl) as (b & [->| (_ & -> & _)]); [reflexivity|]. repeat (bcase; try reflexivity; try lia).
      * destruct (F2 Hl) as (rest & -> & L). repeat (bcase; try reflexivity; try lia).
    + destruct F2 as (rest & -> & L); [lia|].
      assert (NF : (0 < length f)%nat).
      { unfold folder_spec in Hf. destruct path as [p|].
        - destruct Hf as (file & _ & (d & ->) & _). rewrite app_length. cbn. lia.
        - destruct Hf as (dir & -> & [[(d & ->) ->]|[_ ->]]); rewrite app_length; cbn; lia. }
      bcase; [lia|]. bcase; [lia|].
      destruct (split_at rest (length src)) as (a & b & -> & Ha); [lia|]. rewrite app_length in L.
      destruct b as [|x b]; [cbn in *; lia|]. rewrite put_at by auto.
      rewrite app_assoc. replace (Z.of_nat (length f) + Z.of_nat (length src)) with (Z.of_nat (length (f ++ src)))
        by (rewrite app_length; lia).
      change (x :: b) with ([x] ++ b). rewrite put_at by reflexivity. eexists. split; [reflexivity|]. split.
      * rewrite !app_length in *. cbn in *. lia.
      * apply c_string_app. unfold no_nul in *. rewrite in_app_iff. tauto.
Qed.

(** ** Error messages *)

Lemma snprintf_length buf size text : (0 < size)%nat -> length buf = size -> length (c_snprintf buf size text) = size.
Proof.
  intros H L. unfold c_snprintf. rewrite app_length, skipn_length, app_length, firstn_length. cbn. lia.
Qed.

Lemma snprintf_text buf size text : no_nul text -> (0 < size)%nat ->
  c_string (c_snprintf buf size text) = Some (firstn (size - 1) text).
Proof.
  intros H L. unfold c_snprintf. rewrite <- app_assoc. cbn [app]. apply c_string_app.
  unfold no_nul in *. intros C. apply H. rewrite <- (firstn_skipn (size - 1) text), in_app_iff. auto.
Qed.

(** In any state, a report stores the whole message, or says that it does not. *)
Lemma report_complete ok text e bs : no_nul text ->
  let (e1, b1) := err_report ok text e bs in
  er_occurred e1 = true /\
  (er_truncated e1 = false -> err_text e1 b1 = Some text /\ er_length e1 = Z.of_nat (length text)) /\
  (er_truncated e1 = true -> ok = false /\ (512 <= length text)%nat /\
     err_text e1 b1 = Some (firstn 511 text) /\ er_length e1 = 511).
Proof.
  intros H. unfold err_report. bcase; [destruct ok|]; cbn [er_occurred er_truncated er_length err_text er_message er_message2].
  - repeat split; try discriminate. unfold err_text. cbn. rewrite nth_error_app2, Nat.sub_diag by lia. cbn [nth_error].
    rewrite snprintf_text by (auto; lia). rewrite Nat.add_sub, firstn_all. reflexivity.
  - repeat split; try discriminate; try lia. unfold err_text. cbn [er_message er_message2].
    rewrite snprintf_text by (auto; lia). reflexivity.
  - repeat split; try discriminate. unfold err_text. cbn [er_message er_message2].
    rewrite snprintf_text by (auto; lia). rewrite firstn_all2 by lia. reflexivity.
Qed.

(** The blocks still allocated. *)
Definition live (bs : blocks) : list nat :=
  filter (fun i => match nth_error bs i with Some (Some _) => true | _ => false end) (seq 0 (length bs)).

(** The structure never points to a freed block. *)
Definition err_ok (e : errst) (bs : blocks) : Prop :=
  match er_message e with MBlock id => exists b, nth_error bs id = Some (Some b) | _ => True end.

Lemma run_safe ops : forall e bs, err_ok e bs -> exists e1 b1, err_run ops e bs = ROk (e1, b1) /\ err_ok e1 b1.
Proof.
  induction ops as [|op ops IH]; intros e bs H; cbn [err_run]; [eauto|]. destruct op as [ok text|].
  - destruct (err_report ok text e bs) as [e1 b1] eqn:E. apply IH.
    unfold err_report in E. destruct (511 <? Z.of_nat (length text)); [destruct ok|];
      injection E as <- <-; cbn; auto. unfold err_ok. cbn [er_message]. eexists.
    rewrite nth_error_app2, Nat.sub_diag by lia. reflexivity.
  - unfold err_free. unfold err_ok in H. destruct (er_message e) as [| |id]; try (apply IH; exact I).
    destruct H as (b & ->). apply IH. exact I.
Qed.

(** A history in which no error is reported over another. *)
Fixpoint alternate (pending : bool) (ops : list errop) : Prop :=
  match ops with
  | [] => True
  | EReport _ _ :: r => pending = false /\ alternate true r
  | EFree :: r => alternate false r
  end.

Definition owned (e : errst) : list nat := match er_message e with MBlock id => [id] | _ => [] end.

Lemma live_ext (bs1 bs2 : blocks) n : (forall i, (i < n)%nat ->
    match nth_error bs1 i with Some (Some _) => true | _ => false end =
    match nth_error bs2 i with Some (Some _) => true | _ => false end) ->
  filter (fun i => match nth_error bs1 i with Some (Some _) => true | _ => false end) (seq 0 n) =
  filter (fun i => match nth_error bs2 i with Some (Some _) => true | _ => false end) (seq 0 n).
Proof.
  intros H. apply filter_ext_in. intros i Hi. apply in_seq in Hi. apply H. lia.
Qed.

Lemma live_snoc bs b : live (bs ++ [Some b]) = live bs ++ [length bs].
Proof.
  unfold live. rewrite app_length. cbn. rewrite Nat.add_1_r, seq_S, filter_app. cbn.
  rewrite nth_error_app2, Nat.sub_diag by lia. cbn. f_equal. apply live_ext. intros i Hi.
  rewrite nth_error_app1 by lia. reflexivity.
Qed.

Lemma live_freed bs id : (forall i b, nth_error bs i = Some (Some b) -> i = id) -> live (upd bs id None) = [].
Proof.
  intros H. unfold live. rewrite upd_length. generalize (seq 0 (length bs)). induction l as [|i l IH]; cbn; [reflexivity|].
  destruct (Nat.eq_dec id i) as [->|N].
  - destruct (nth_error (upd bs i None) i) as [[b|]|] eqn:E; auto.
    assert (i < length bs)%nat by (apply nth_error_Some_lt in E; rewrite upd_length in E; auto).
    rewrite nth_error_upd_same in E by auto. discriminate.
  - rewrite nth_error_upd_other by auto. destruct (nth_error bs i) as [[b|]|] eqn:E; auto. apply H in E. congruence.
Qed.

Lemma live_in bs i b : nth_error bs i = Some (Some b) -> In i (live bs).
Proof.
  intros H. unfold live. apply filter_In. rewrite H. split; [|reflexivity]. apply in_seq.
  apply nth_error_Some_lt in H. lia.
Qed.

Lemma no_leak ops : forall e bs, alternate (er_occurred e) ops -> err_ok e bs -> live bs = owned e ->
  (er_occurred e = false -> er_message e = MNull) ->
  exists e1 b1, err_run ops e bs = ROk (e1, b1) /\ live b1 = owned e1.
Proof.
  induction ops as [|op ops IH]; intros e bs HA HO HL HN; cbn [err_run]; [eauto|]. destruct op as [ok text|].
  - destruct HA as [HA1 HA2]. specialize (HN HA1). unfold owned in HL. rewrite HN in HL.
    unfold err_report. bcase; [destruct ok|]; apply IH; cbn [er_occurred er_message]; auto; try discriminate;
      unfold err_ok, owned; cbn [er_message]; auto.
    + eexists. rewrite nth_error_app2, Nat.sub_diag by lia. reflexivity.
    + rewrite live_snoc, HL. reflexivity.
  - cbn [alternate] in HA. unfold err_free. unfold owned in HL. unfold err_ok in HO.
    destruct (er_message e) as [| |id]; try (apply IH; auto; exact I).
    destruct HO as (b & Hb). rewrite Hb. apply IH; auto; try exact I.
    cbn. apply live_freed. intros i b' Hi. apply live_in in Hi. rewrite HL in Hi. cbn in Hi. intuition.
Qed.
