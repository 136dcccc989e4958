(** Proofs about stack traces and about runtimes that run several programs. *)
From Coq Require Import ZArith String List Lia Bool.
From Verif Require Import Base StringModel ValueModel ObjModel ExeModel AsmModel VmModel SourceModel ShowModel ShowSpec ShowProofs FrameModel LimitSpec LimitProofs TraceModel TraceSpec TracePos.
Import ListNotations.
Open Scope list_scope.
Open Scope Z_scope.

(** * One frame *)
Lemma count_lines_ok text : forall body n line, (n <= List.length text)%nat -> firstn (List.length text) body = map Some text ->
  count_lines n body line = ROk (line + Z.of_nat (count_occ Z.eq_dec (firstn n text) 10)).
Proof.
  induction text as [|c t IH]; intros body n line L B.
  - destruct n; [|cbn in L; lia]. cbn. f_equal. lia.
  - destruct n as [|n]; [cbn; f_equal; lia|]. destruct body as [|b body]; [discriminate|]. cbn in B. inversion B; subst.
    cbn [count_lines firstn]. rewrite IH; [|cbn in L; lia|assumption]. cbn [count_occ]. destruct (Z.eqb_spec c 10) as [->|N].
    + destruct (Z.eq_dec 10 10); [|lia]. f_equal. lia.
    + destruct (Z.eq_dec c 10); [lia|]. f_equal.
Qed.

Lemma count_occ_le {A} (d : forall x y : A, {x = y} + {x <> y}) l x : (count_occ d l x <= List.length l)%nat.
Proof. induction l as [|y l IH]; cbn; [lia|]. destruct (d y x); lia. Qed.

Lemma line_at_range text off : Z.of_nat (List.length text) < 2 ^ 31 -> 1 <= line_at text off <= 2 ^ 31.
Proof.
  intros L. unfold line_at. pose proof (count_occ_le Z.eq_dec (firstn (Z.to_nat off) text) 10). rewrite firstn_length in H. lia.
Qed.

Lemma named_name s name : named s name -> (match get_name s with None => bytes_of "(unnamed)" | Some n => n end) = name.
Proof. unfold get_name. intros [->|[-> ->]]; reflexivity. Qed.

(** The entry of a frame. [srcs]: the sources. *)
Definition shows (srcs : list (option source)) (f : rframe) (c : call) : Prop :=
  match f with
  | RFailed sid off => exists s o, nth_error srcs sid = Some (Some s) /\ s_refs s = 1 /\ off = u64 o /\ refused_at s o c
  | _ => stands_for f c
  end.

Lemma line_text srcs f depth s off text name : frame_source srcs f = ROk (Some s) -> frame_offset f = off -> named s name -> readable s off text -> 0 <= off ->
  Z.of_nat (List.length text) < 2 ^ 31 -> 0 <= depth < 2 ^ 31 ->
  exists t, print_frame srcs f depth = ROk t /\ entry_says depth (name, Some (line_at text off)) t.
Proof.
  intros A B N [R1 R2] O L D. unfold print_frame. rewrite A, B. cbv zeta. destruct (Z.ltb_spec off 0); [lia|].
  rewrite (count_lines_ok text); [|lia|exact R2]. change (1 + Z.of_nat _) with (line_at text off). pose proof (line_at_range text off L).
  destruct (Z.eqb_spec (line_at text off) 0); [lia|]. eexists. split; [reflexivity|]. rewrite (named_name _ _ N). repeat rewrite <- app_assoc.
  constructor; apply int_text_shown; lia.
Qed.
Lemma plain_text srcs f depth s name : frame_source srcs f = ROk (Some s) -> frame_offset f < 0 -> named s name -> 0 <= depth < 2 ^ 31 ->
  exists t, print_frame srcs f depth = ROk t /\ entry_says depth (name, None) t.
Proof.
  intros A B N D. unfold print_frame. rewrite A. cbv zeta. destruct (Z.ltb_spec (frame_offset f) 0); [|lia].
  eexists. split; [reflexivity|]. rewrite (named_name _ _ N). repeat rewrite <- app_assoc. constructor. apply int_text_shown. lia.
Qed.
Lemma bare_text srcs f depth : frame_source srcs f = ROk None -> 0 <= depth < 2 ^ 31 ->
  exists t, print_frame srcs f depth = ROk t /\ entry_says depth (bytes_of "(no source)", None) t.
Proof.
  intros A D. unfold print_frame. rewrite A. cbv zeta. eexists. split; [reflexivity|]. repeat rewrite <- app_assoc. constructor. apply int_text_shown. lia.
Qed.

Lemma shown srcs f c depth : shows srcs f c -> 0 <= depth < 2 ^ 31 -> exists t, print_frame srcs f depth = ROk t /\ entry_says depth c t.
Proof.
  intros H D. destruct f as [x src pc| |sid off]; cbn [shows] in H.
  - inversion H; subst.
    + unfold call_at. destruct (Z.ltb_spec pc 0) as [P|P].
      { eapply plain_text; [reflexivity| |eassumption|exact D]. cbn. unfold instr_offset. destruct (Z.ltb_spec pc 0); lia. }
      destruct (nth_error (x_body x) (Z.to_nat pc)) as [i|] eqn:N; cbn [option_map].
      * assert (O : 0 <= bi_off i <= Z.of_nat (List.length text)) by (match goal with F : Forall _ _ |- _ => rewrite Forall_forall in F; apply F; eapply nth_error_In; exact N end).
        match goal with R : readable _ _ _ |- _ => destruct R as [R1 R2] end.
        eapply line_text; [reflexivity| |eassumption|split; [|exact R2]|lia|assumption|exact D].
        -- cbn. unfold instr_offset. destruct (Z.ltb_spec pc 0); [lia|]. now rewrite N.
        -- lia.
      * eapply plain_text; [reflexivity| |eassumption|exact D]. cbn. unfold instr_offset. destruct (Z.ltb_spec pc 0); [lia|]. rewrite N. lia.
    + eapply bare_text; [reflexivity|exact D].
  - inversion H; subst. eapply bare_text; [reflexivity|exact D].
  - destruct H as (s & o & A & B & -> & R). inversion R; subst.
    + eapply line_text; [cbn; rewrite A; reflexivity| |eassumption|eassumption|lia|assumption|exact D].
      cbn. unfold u64. rewrite Z.mod_small by lia. apply wrap32_id. unfold in_int. lia.
    + eapply plain_text; [cbn; rewrite A; reflexivity| |eassumption|exact D]. vm_compute. reflexivity.
Qed.

(** * Chains of frames *)
Inductive chain (cells : list (option (rframe * option nat))) : option nat -> list (nat * rframe) -> Prop :=
| ch_nil : chain cells None []
| ch_cons h f prev l : nth_error cells h = Some (Some (f, prev)) -> chain cells prev l -> chain cells (Some h) ((h, f) :: l).

Lemma print_chain r l : forall h cs depth fuel, chain (r_cells r) h l -> Forall2 (shows (r_srcs r)) (map snd l) cs -> 0 <= depth ->
  depth + Z.of_nat (List.length l) < 2 ^ 31 -> (List.length l <= fuel)%nat ->
  exists t, print_frames fuel r h depth = OOk t /\ trace_says depth cs t.
Proof.
  induction l as [|[k f] l IH]; intros h cs depth fuel C F D1 D2 L; inversion C; subst; cbn in F; inversion F; subst.
  - exists []. destruct fuel; split; try reflexivity; constructor.
  - destruct fuel as [|fuel]; [cbn in L; lia|]. cbn [print_frames]. cbn [List.length] in L, D2.
    match goal with X : nth_error _ _ = _ |- _ => rewrite X end.
    match goal with X : shows _ _ _ |- _ => destruct (shown _ _ _ depth X ltac:(lia)) as (t & T1 & T2) end. rewrite T1.
    match goal with X : chain _ prev _, Y : Forall2 _ _ _ |- _ => destruct (IH _ _ (depth + 1) fuel X Y ltac:(lia) ltac:(lia) ltac:(lia)) as (u & U1 & U2) end.
    rewrite U1. cbn [obind]. exists (t ++ u). split; [reflexivity|]. constructor; assumption.
Qed.

Lemma chain_upd cells k v h l : chain cells h l -> ~ In k (map fst l) -> chain (upd cells k v) h l.
Proof.
  intros C. induction C as [|h f prev l E C IH]; intros N; [constructor|]. cbn in N. econstructor; [|apply IH; tauto].
  rewrite nth_error_upd_other; [exact E|]. intro; subst; tauto.
Qed.
Lemma chain_app cells v h l : chain cells h l -> chain (cells ++ v) h l.
Proof.
  intros C. induction C as [|h f prev l E C IH]; [constructor|]. econstructor; [|exact IH].
  rewrite nth_error_app1; [exact E|]. apply nth_error_Some. congruence.
Qed.
Lemma chain_lt cells h l k : chain cells h l -> In k (map fst l) -> (k < List.length cells)%nat.
Proof.
  intros C. induction C as [|h f prev l E C IH]; cbn; [tauto|]. intros [<-|H]; [|auto]. apply nth_error_Some. congruence.
Qed.

(** The states a runtime passes through while no two programs are refused. [no]: none was refused so far. *)
Record inv (no : bool) (r : rtm) (l : list (nat * rframe)) (cs : list call) : Prop := mkinv {
  i_chain : chain (r_cells r) (r_head r) l;
  i_nodup : NoDup (map fst l);
  i_depth : r_depth r = Z.of_nat (List.length l);
  i_shows : Forall2 (shows (r_srcs r)) (map snd l) cs;
  i_zero : nth_error (r_cells r) 0 <> None;
  i_failed : forall k f, In (k, f) l -> (k = 0%nat <-> exists sid off, f = RFailed sid off);
  i_no : no = true -> ~ In 0%nat (map fst l);
  i_yes : no = false -> In 0%nat (map fst l);
  i_cells : forall k c, nth_error (r_cells r) (S k) = Some (Some c) -> In (S k) (map fst l);
  i_srcs : forall i s, nth_error (r_srcs r) i = Some (Some s) -> exists off, In (0%nat, RFailed i off) l }.

Lemma inv_new : inv true rt_new [] [].
Proof.
  split; cbn.
  - constructor.
  - constructor.
  - reflexivity.
  - constructor.
  - discriminate.
  - tauto.
  - tauto.
  - discriminate.
  - intros k c H. destruct k; discriminate.
  - intros i s H. destruct i; discriminate.
Qed.

Lemma in_nodup_same (l : list (nat * rframe)) k (f g : rframe) : NoDup (map fst l) -> In (k, f) l -> In (k, g) l -> f = g.
Proof.
  induction l as [|[j h] l IH]; cbn; [tauto|]. intros N. inversion N as [|? ? N1 N2]; subst.
  intros [A|A] [B|B]; try congruence.
  - inversion A; subst. exfalso. apply N1. apply (in_map fst) in B. exact B.
  - inversion B; subst. exfalso. apply N1. apply (in_map fst) in A. exact A.
  - eauto.
Qed.

(** * Running a program *)
Lemma shows_grow srcs srcs' f c : (forall i s, nth_error srcs i = Some (Some s) -> nth_error srcs' i = Some (Some s)) -> shows srcs f c -> shows srcs' f c.
Proof. intros G. destruct f; cbn; auto. intros (s & o & A & B). exists s, o. split; [apply G; exact A|exact B]. Qed.
Lemma shows_all_grow srcs srcs' l cs : (forall i s, nth_error srcs i = Some (Some s) -> nth_error srcs' i = Some (Some s)) ->
  Forall2 (shows srcs) l cs -> Forall2 (shows srcs') l cs.
Proof. intros G F. induction F; constructor; auto. eapply shows_grow; eassumption. Qed.

Lemma push_all_srcs frs r : r_srcs (push_all r frs) = r_srcs r.
Proof. induction frs as [|f frs IH]; cbn; [reflexivity|]. unfold push_cell. destruct (_ =? _); [exact IH|]. cbn. exact IH. Qed.

(** A source that was made for a run and is released behind it. *)
Lemma release_fresh srcs s : src_step (srcs ++ [Some (mksource (s_name s) (s_body s) (s_size s) 1 (s_file s))]) (List.length srcs) SFree = ROk (srcs ++ [None]).
Proof.
  unfold src_step. rewrite nth_error_app2, Nat.sub_diag by lia. cbn. f_equal. induction srcs as [|x l IH]; cbn; [reflexivity|]. now rewrite IH.
Qed.
Lemma snoc_srcs srcs (v : option source) : forall i s, nth_error srcs i = Some (Some s) -> nth_error (srcs ++ [v]) i = Some (Some s).
Proof. intros i s H. rewrite nth_error_app1; [exact H|]. apply nth_error_Some. congruence. Qed.
Lemma snoc_none srcs : forall i (s : source), nth_error (srcs ++ [None]) i = Some (Some s) -> nth_error srcs i = Some (Some s).
Proof.
  intros i s H. destruct (Nat.lt_ge_cases i (List.length srcs)) as [L|L]; [now rewrite nth_error_app1 in H|].
  rewrite nth_error_app2 in H by assumption. destruct (i - List.length srcs)%nat as [|[|n]]; discriminate.
Qed.

Lemma inv_srcs no r l cs srcs : inv no r l cs -> srcs = r_srcs r ++ [None] -> inv no (mkrt (r_cells r) (r_head r) (r_depth r) srcs) l cs.
Proof.
  intros I ->. destruct I. constructor; cbn; auto.
  - eapply shows_all_grow; [|eassumption]. apply snoc_srcs.
  - intros i s H. apply i_srcs0 with (s := s). apply snoc_none. exact H.
Qed.

Lemma inv_push no r l cs f c : inv no r l cs -> stands_for f c -> (List.length l < 16)%nat ->
  exists r', push_cell r f = Some r' /\ inv no r' ((List.length (r_cells r), f) :: l) (c :: cs).
Proof.
  intros I F L. destruct I. unfold push_cell, MAX_FRAMES. destruct (Z.eqb_spec (r_depth r) 16) as [E|E]; [lia|]. eexists. split; [reflexivity|].
  assert (Z0 : (0 < List.length (r_cells r))%nat) by (apply nth_error_Some; assumption).
  assert (NF : forall sid off, f <> RFailed sid off) by (intros sid off ->; inversion F).
  constructor; cbn [r_cells r_head r_depth r_srcs].
  - econstructor; [rewrite nth_error_app2, Nat.sub_diag by lia; reflexivity|]. apply chain_app. exact i_chain0.
  - cbn. constructor; [|assumption]. intros H. eapply chain_lt in H; [|eassumption]. lia.
  - cbn [List.length]. lia.
  - cbn. constructor; [|assumption]. destruct f; [exact F|exact F|]. exfalso. eapply NF. reflexivity.
  - rewrite nth_error_app1 by lia. assumption.
  - intros k g [H|H]; [|apply i_failed0; exact H]. inversion H; subst. split; [lia|]. intros (sid & off & H2). exfalso. eapply NF. exact H2.
  - cbn [map fst In]. intros H [X|X]; [lia|]. revert X. now apply i_no0.
  - intros H. right. now apply i_yes0.
  - cbn [map fst In]. intros k d H. destruct (Nat.lt_ge_cases (S k) (List.length (r_cells r))) as [L2|L2].
    + right. apply i_cells0 with (c := d). now rewrite nth_error_app1 in H.
    + left. rewrite nth_error_app2 in H by assumption. destruct (S k - List.length (r_cells r))%nat as [|[|n]] eqn:N; [lia|discriminate|discriminate].
  - intros i s H. destruct (i_srcs0 _ _ H) as (off & H2). exists off. right. exact H2.
Qed.

Lemma inv_push_all no frs new : Forall2 stands_for frs new -> forall r l cs, inv no r l cs -> (List.length new + List.length l <= 16)%nat ->
  exists l', inv no (push_all r frs) l' (new ++ cs).
Proof.
  induction 1 as [|f c frs new A F IH]; intros r l cs I L; [exists l; exact I|]. cbn in L. cbn [push_all app].
  destruct (IH r l cs I ltac:(lia)) as (l' & I'). assert (L' : List.length l' = List.length (new ++ cs)).
  { destruct I'. clear -i_shows0. rewrite <- (map_length snd l'). induction i_shows0; cbn; congruence. }
  assert (Lc : List.length cs = List.length l) by (destruct I; clear -i_shows0; rewrite <- (map_length snd l); induction i_shows0; cbn; congruence).
  rewrite app_length in L'. destruct (inv_push _ _ _ _ _ _ I' A ltac:(lia)) as (r2 & P & I2). rewrite P. eexists. exact I2.
Qed.

Lemma inv_len no r l cs : inv no r l cs -> List.length cs = List.length l.
Proof. intros []. clear -i_shows0. rewrite <- (map_length snd l). induction i_shows0; cbn; congruence. Qed.

Lemma refused_same s s' o c : s_name s = s_name s' -> s_body s = s_body s' -> refused_at s o c -> refused_at s' o c.
Proof.
  intros A B R. inversion R; subst.
  - apply ra_line; try assumption; [unfold named in *; rewrite <- A; assumption|unfold TraceSpec.readable in *; rewrite <- B; assumption].
  - apply ra_none; [unfold named in *; rewrite <- A; assumption|reflexivity].
Qed.

Lemma upd_last {A} (l : list A) a b : upd (l ++ [a]) (List.length l) b = l ++ [b].
Proof. induction l as [|x l IH]; cbn; [reflexivity|]. now rewrite IH. Qed.

Lemma copy_fresh srcs s : src_step (srcs ++ [Some (mksource (s_name s) (s_body s) (s_size s) 1 (s_file s))]) (List.length srcs) SCopy =
  ROk (srcs ++ [Some (mksource (s_name s) (s_body s) (s_size s) 2 (s_file s))]).
Proof. unfold src_step. rewrite nth_error_app2, Nat.sub_diag by lia. cbn. now rewrite upd_last. Qed.
Lemma free_second srcs s : src_step (srcs ++ [Some (mksource (s_name s) (s_body s) (s_size s) 2 (s_file s))]) (List.length srcs) SFree =
  ROk (srcs ++ [Some (mksource (s_name s) (s_body s) (s_size s) 1 (s_file s))]).
Proof. unfold src_step. rewrite nth_error_app2, Nat.sub_diag by lia. cbn. now rewrite upd_last. Qed.

Lemma upd_twice {A} (l : list A) i a b : upd (upd l i a) i b = upd l i b.
Proof. revert i. induction l as [|x l IH]; destruct i; cbn; auto. now rewrite IH. Qed.

(** A program that is refused while there is room for a frame. *)
Lemma api_refused r s off : r_depth r <> 16 -> api_run r s (NoExe off) =
  ROk (false, mkrt (upd (r_cells r) 0 (Some (RFailed (List.length (r_srcs r)) (u64 off), r_head r))) (Some 0%nat) (r_depth r + 1)
    (r_srcs r ++ [Some (mksource (s_name s) (s_body s) (s_size s) 1 (s_file s))])).
Proof.
  intros D. unfold api_run, push_failed, MAX_FRAMES. cbv zeta. cbn [r_cells r_head r_depth r_srcs]. rewrite copy_fresh.
  destruct (Z.eqb_spec (r_depth r) 16); [contradiction|]. cbn [r_cells r_head r_depth r_srcs]. rewrite free_second, upd_twice. reflexivity.
Qed.

Lemma inv_refused r l cs s off c : inv true r l cs -> refused_at s off c -> (List.length l < 16)%nat ->
  exists r', api_run r s (NoExe off) = ROk (false, r') /\ inv false r' ((0%nat, RFailed (List.length (r_srcs r)) (u64 off)) :: l) (c :: cs).
Proof.
  intros I R L. rewrite api_refused by (destruct I; lia). eexists. split; [reflexivity|]. destruct I. specialize (i_no0 eq_refl).
  assert (Z0 : (0 < List.length (r_cells r))%nat) by (apply nth_error_Some; assumption).
  split; cbn [r_cells r_head r_depth r_srcs map fst snd List.length].
  - econstructor; [apply nth_error_upd_same; exact Z0|]. apply chain_upd; assumption.
  - constructor; assumption.
  - lia.
  - constructor.
    + cbn. eexists. exists off. split; [rewrite nth_error_app2, Nat.sub_diag by lia; reflexivity|]. split; [reflexivity|]. split; [reflexivity|].
      eapply refused_same; [| |exact R]; reflexivity.
    + eapply shows_all_grow; [|eassumption]. apply snoc_srcs.
  - rewrite nth_error_upd_same by exact Z0. discriminate.
  - intros k f [H|H]; [|apply i_failed0; exact H]. inversion H; subst. split; eauto.
  - discriminate.
  - intros _. now left.
  - intros k d H. right. rewrite nth_error_upd_other in H by lia. eapply i_cells0. exact H.
  - intros i t H. destruct (Nat.lt_ge_cases i (List.length (r_srcs r))) as [L2|L2].
    + rewrite nth_error_app1 in H by assumption. destruct (i_srcs0 _ _ H) as (o & H2). exists o. right. exact H2.
    + rewrite nth_error_app2 in H by assumption. destruct (i - List.length (r_srcs r))%nat as [|[|n]] eqn:E; try discriminate.
      assert (i = List.length (r_srcs r)) by lia. subst i. eexists. left. reflexivity.
Qed.

Lemma api_runs_snoc h : forall r s o, api_runs r (h ++ [(s, o)]) =
  match api_runs r h with ROk r' => match api_run r' s o with ROk (_, r2) => ROk r2 | RErr => RErr | RUB => RUB end | RErr => RErr | RUB => RUB end.
Proof.
  induction h as [|[t q] h IH]; intros r s o; [reflexivity|]. cbn [app api_runs]. destruct (api_run r t q) as [[b r']| |]; auto.
Qed.

Lemma leaves_inv h cs : leaves h cs -> exists r l, api_runs rt_new h = ROk r /\ inv (negb (existsb is_refusal h)) r l cs.
Proof.
  induction 1 as [|h cs s V IH L|h cs s frs new V IH F L|h cs s off c V IH N R L].
  - exists rt_new, []. split; [reflexivity|]. exact inv_new.
  - destruct IH as (r & l & A & I). rewrite api_runs_snoc, A, existsb_app, orb_comm. unfold api_run. cbv zeta. cbn [r_srcs r_cells r_head r_depth].
    rewrite release_fresh. eexists. exists l. split; [reflexivity|]. apply inv_srcs; [exact I|reflexivity].
  - destruct IH as (r & l & A & I). rewrite api_runs_snoc, A, existsb_app, orb_comm. unfold api_run. cbv zeta.
    assert (I1 : exists l', inv (negb (existsb is_refusal h)) (push_all r frs) l' (new ++ cs)) by (eapply inv_push_all; [exact F|exact I|rewrite <- (inv_len _ _ _ _ I); exact L]).
    set (r1 := mkrt (r_cells r) (r_head r) (r_depth r) (r_srcs r ++ [Some (mksource (s_name s) (s_body s) (s_size s) 1 (s_file s))])).
    assert (P : forall q q', r_cells q = r_cells q' -> r_head q = r_head q' -> r_depth q = r_depth q' ->
      r_cells (push_all q frs) = r_cells (push_all q' frs) /\ r_head (push_all q frs) = r_head (push_all q' frs) /\ r_depth (push_all q frs) = r_depth (push_all q' frs)).
    { clear. intros q q' A B C. induction frs as [|f frs IH]; cbn; [auto|]. destruct IH as (I1 & I2 & I3). unfold push_cell. rewrite I1, I2, I3.
      destruct (_ =? _); cbn; auto. }
    destruct (P r1 r eq_refl eq_refl eq_refl) as (P1 & P2 & P3). rewrite push_all_srcs, P1, P2, P3. unfold r1. cbn [r_srcs]. rewrite release_fresh.
    destruct I1 as (l' & I'). eexists. exists l'. split; [reflexivity|]. apply inv_srcs; [exact I'|]. now rewrite push_all_srcs.
  - destruct IH as (r & l & A & I). rewrite api_runs_snoc, A, existsb_app, orb_comm. rewrite N in I. cbn in I.
    destruct (inv_refused _ _ _ _ _ _ I R ltac:(rewrite <- (inv_len _ _ _ _ I); exact L)) as (r' & B & I'). rewrite B. eauto.
Qed.

(** * The trace and the end of a runtime *)
Lemma inv_trace no r l cs fuel : inv no r l cs -> (List.length cs <= 16)%nat -> (List.length cs <= fuel)%nat ->
  exists t, print_trace fuel r = OOk (bytes_of "Stack trace:" ++ [10] ++ t) /\
    (cs = [] -> t = bytes_of "	(No active frames)" ++ [10]) /\ (cs <> [] -> trace_says 0 cs t).
Proof.
  intros I L1 L2. pose proof (inv_len _ _ _ _ I) as E. destruct I. unfold print_trace. destruct (r_head r) as [h|] eqn:H.
  - inversion i_chain0; subst. destruct (print_chain r _ (Some h) cs 0 fuel i_chain0 i_shows0 ltac:(lia) ltac:(cbn in *; lia) ltac:(lia)) as (t & T1 & T2).
    rewrite T1. cbn [obind]. exists t. split; [reflexivity|]. split; [intros ->; discriminate|auto].
  - inversion i_chain0; subst. destruct cs; [|discriminate]. cbn [obind]. eexists. split; [reflexivity|]. split; [auto|congruence].
Qed.

Lemma inv_pop no r k f l c cs : inv no r ((k, f) :: l) (c :: cs) -> exists r' no', pop_cell r = ROk (true, r') /\ inv no' r' l cs.
Proof.
  intros I. destruct I. inversion i_chain0; subst. inversion i_nodup0; subst. inversion i_shows0; subst. cbn [map fst List.length] in *.
  unfold pop_cell. match goal with X : nth_error (r_cells r) k = _, Y : Some k = r_head r |- _ => rewrite <- Y, X end.
  destruct (i_failed0 k f (or_introl eq_refl)) as [K1 K2].
  assert (NZ : (forall sid off, f <> RFailed sid off) -> exists r' no', ROk (true, mkrt (upd (r_cells r) k None) prev (r_depth r - 1) (r_srcs r)) = ROk (true, r') /\ inv no' r' l cs).
  { intros NF. assert (K : k <> 0%nat) by (intros ->; destruct (K1 eq_refl) as (a & b & ->); eapply NF; reflexivity).
    eexists. exists no. split; [reflexivity|]. split; cbn [r_cells r_head r_depth r_srcs].
    - apply chain_upd; assumption.
    - assumption.
    - lia.
    - assumption.
    - rewrite nth_error_upd_other by assumption. assumption.
    - intros k' f' H'. apply i_failed0. right. exact H'.
    - intros N X. apply (i_no0 N). right. exact X.
    - intros N. destruct (i_yes0 N); [contradiction|assumption].
    - intros k' d H'. destruct (Nat.eq_dec k (S k')) as [->|NE].
      + rewrite nth_error_upd_same in H'; [discriminate|]. apply nth_error_Some. congruence.
      + rewrite nth_error_upd_other in H' by assumption. destruct (i_cells0 _ _ H'); [contradiction|assumption].
    - intros i s H'. destruct (i_srcs0 _ _ H') as (off & [X|X]); [|eauto]. exfalso. inversion X; subst. eapply NF. reflexivity. }
  destruct f as [x src pc| |sid off]; [apply NZ; discriminate|apply NZ; discriminate|]. clear NZ.
  assert (K : k = 0%nat) by (apply K2; eauto). subst k.
  match goal with X : shows _ (RFailed sid off) c |- _ => destruct X as (s & o & S1 & S2 & S3 & S4) end.
  unfold src_step. rewrite S1, S2. cbn. eexists. exists true. split; [reflexivity|]. split; cbn [r_cells r_head r_depth r_srcs].
  - assumption.
  - assumption.
  - lia.
  - assert (NF : Forall (fun g => forall a b, g <> RFailed a b) (map snd l)).
    { rewrite Forall_map, Forall_forall. intros [k' g] H' a b E'. cbn in E'. subst g. destruct (i_failed0 k' (RFailed a b) (or_intror H')) as [_ Q].
      assert (k' = 0%nat) by (apply Q; eauto). subst k'. match goal with X : ~ In _ _ |- _ => apply X end. apply (in_map fst) in H'. exact H'. }
    match goal with X : Forall2 _ (map snd l) cs |- _ => revert NF X end. clear. generalize (map snd l). intros m NF X. induction X as [|g d m ds A X IH]; [constructor|].
    inversion NF; subst. constructor; [|auto]. destruct g; [exact A|exact A|]. exfalso. match goal with Y : forall a b, _ <> _ |- _ => eapply Y end. reflexivity.
  - assumption.
  - intros k' f' H'. apply i_failed0. right. exact H'.
  - intros _. assumption.
  - discriminate.
  - intros k' d H'. destruct (i_cells0 _ _ H'); [discriminate|assumption].
  - intros i t H'. destruct (Nat.eq_dec sid i) as [->|NE].
    + rewrite nth_error_upd_same in H'; [discriminate|]. apply nth_error_Some. congruence.
    + rewrite nth_error_upd_other in H' by assumption. destruct (i_srcs0 _ _ H') as (o' & [X|X]); [|eauto]. exfalso. congruence.
Qed.

Lemma inv_free l : forall no r cs fuel, inv no r l cs -> (List.length l < fuel)%nat -> exists r', rt_free fuel r = OOk r' /\ all_freed r'.
Proof.
  induction l as [|[k f] l IH]; intros no r cs fuel I L; (destruct fuel as [|fuel]; [cbn in L; lia|]); cbn [rt_free].
  - destruct I. inversion i_chain0; subst. exists r. split; [reflexivity|]. split.
    + intros k [c|] H; [|reflexivity]. exfalso. exact (i_cells0 _ _ H).
    + intros i [s|] H; [|reflexivity]. destruct (i_srcs0 _ _ H) as (off & []).
  - pose proof (inv_len _ _ _ _ I) as E. destruct cs as [|c cs]; [discriminate|]. destruct (inv_pop _ _ _ _ _ _ _ I) as (r' & no' & P & I').
    assert (H : r_head r = Some k) by (destruct I; inversion i_chain0; subst; congruence). rewrite H, P. eapply IH; [exact I'|]. cbn in L. lia.
Qed.


(** * A second refusal *)
Lemma print_frame_any srcs f t : print_frame srcs f 0 = ROk t -> forall e, exists u, print_frame srcs f e = ROk u.
Proof.
  intros H e. revert H. unfold print_frame. destruct (frame_source srcs f) as [[s|]| |]; try discriminate; [|eauto].
  destruct (frame_offset f <? 0); [eauto|]. destruct (count_lines _ _ _); try discriminate. eauto.
Qed.

Lemma circle r (P : nat -> Prop) : (forall h, P h -> exists f prev t, nth_error (r_cells r) h = Some (Some (f, Some prev)) /\ P prev /\ print_frame (r_srcs r) f 0 = ROk t) ->
  forall fuel h d, P h -> print_frames fuel r (Some h) d = OFuel.
Proof.
  intros C. induction fuel as [|fuel IH]; intros h d H; [reflexivity|]. cbn [print_frames]. destruct (C _ H) as (f & prev & t & A & B & D).
  rewrite A. destruct (print_frame_any _ _ _ D d) as (u & ->). now rewrite IH.
Qed.

(** The part of a chain in front of cell 0. *)
Lemma chain_split cells h l : chain cells h l -> In 0%nat (map fst l) -> exists l1 f l2, l = l1 ++ (0%nat, f) :: l2 /\ ~ In 0%nat (map fst l1).
Proof.
  intros C. induction C as [|k f prev l E C IH]; cbn; [tauto|]. intros H. destruct k as [|k].
  - exists [], f, l. split; [reflexivity|]. cbn. tauto.
  - destruct H as [H|H]; [discriminate|]. destruct (IH H) as (l1 & g & l2 & -> & N). exists ((S k, f) :: l1), g, l2. split; [reflexivity|]. cbn. intros [X|X]; [discriminate|contradiction].
Qed.
(** Each frame in front of cell 0 leads to another one or to it. *)
Lemma chain_leads cells l1 : forall h f l2, chain cells h (l1 ++ (0%nat, f) :: l2) ->
  (exists k, h = Some k /\ (In k (map fst l1) \/ k = 0%nat)) /\
  forall k, In k (map fst l1) -> exists g prev, In (k, g) l1 /\ nth_error cells k = Some (Some (g, Some prev)) /\ (In prev (map fst l1) \/ prev = 0%nat).
Proof.
  induction l1 as [|[j g] l1 IH]; intros h f l2 C; inversion C; subst.
  - split; [exists 0%nat; auto|]. cbn. tauto.
  - split; [exists j; cbn; auto|]. match goal with X : chain _ prev _ |- _ => destruct (IH _ _ _ X) as ((k & -> & K) & R) end. cbn. intros k' [<-|H].
    + exists g, k. split; [auto|]. split; [assumption|]. tauto.
    + destruct (R _ H) as (g' & p & A & B & D). exists g', p. split; [auto|]. split; [assumption|]. tauto.
Qed.

(** The way from [h] to cell 0. *)
Inductive leads (cells : list (option (rframe * option nat))) : option nat -> list (nat * rframe) -> Prop :=
| ld_nil : leads cells (Some 0%nat) []
| ld_cons h f prev l : nth_error cells h = Some (Some (f, prev)) -> leads cells prev l -> leads cells (Some h) ((h, f) :: l).
Lemma chain_way cells l1 : forall h f l2, chain cells h (l1 ++ (0%nat, f) :: l2) -> leads cells h l1.
Proof. induction l1 as [|[j g] l1 IH]; intros h f l2 C; inversion C; subst; econstructor; eauto. Qed.
Lemma leads_upd cells k v h l : leads cells h l -> ~ In k (map fst l) -> leads (upd cells k v) h l.
Proof.
  intros C. induction C as [|h f prev l E C IH]; intros N; [constructor|]. cbn in N. econstructor; [|apply IH; tauto].
  rewrite nth_error_upd_other; [exact E|]. intro; subst; tauto.
Qed.
(** On that way every frame is freed; the source of the one at its end is not there any more. *)
Lemma free_way srcs sid off p : nth_error srcs sid = Some None -> forall l h depth cells fuel, leads cells h l ->
  nth_error cells 0 = Some (Some (RFailed sid off, p)) -> NoDup (map fst l) -> ~ In 0%nat (map fst l) ->
  (forall k g, In (k, g) l -> forall a b, g <> RFailed a b) -> (List.length l < fuel)%nat -> rt_free fuel (mkrt cells h depth srcs) = OUB.
Proof.
  intros S. induction l as [|[k g] l IH]; intros h depth cells fuel C Z0 ND N0 NF LF; (destruct fuel as [|fuel]; [cbn in LF; lia|]); inversion C; subst;
    cbn [rt_free r_head]; unfold pop_cell; cbn [r_head r_cells r_srcs r_depth].
  - rewrite Z0. unfold src_step. now rewrite S.
  - match goal with X : nth_error cells k = _ |- _ => rewrite X end. cbn in ND, N0. inversion ND; subst.
    assert (R2 : rt_free fuel (mkrt (upd cells k None) prev (depth - 1) srcs) = OUB).
    { apply IH; [apply leads_upd; assumption| |assumption|tauto| |cbn in LF; lia].
      - rewrite nth_error_upd_other by tauto. exact Z0.
      - intros k' g' H'. eapply NF. right. exact H'. }
    destruct g; [exact R2|exact R2|]. exfalso. eapply (NF k); [left; reflexivity|reflexivity].
Qed.

Lemma forall2_in {A B} (R : A -> B -> Prop) l m a : Forall2 R l m -> In a l -> exists b, R a b.
Proof. induction 1; cbn; [tauto|]. intros [<-|H2]; eauto. Qed.

(** The text of a refused source up to the offset can be read. *)
Lemma shows_text srcs f c : shows srcs f c -> exists t, print_frame srcs f 0 = ROk t.
Proof. intros H. destruct (shown srcs f c 0 H ltac:(lia)) as (t & T & _). eauto. Qed.

Lemma nodup_app_l {A} (a b : list A) : NoDup (a ++ b) -> NoDup a.
Proof. induction a; cbn; [constructor|]. intros H. inversion H; subst. constructor; [|auto]. rewrite in_app_iff in *. tauto. Qed.

Lemma second_refusal r l cs s off c : inv false r l cs -> refused_at s off c -> (List.length l < 16)%nat ->
  exists r', api_run r s (NoExe off) = ROk (false, r') /\ (forall fuel, print_trace fuel r' = OFuel) /\ forall fuel, (17 <= fuel)%nat -> rt_free fuel r' = OUB.
Proof.
  intros I R L. rewrite api_refused by (destruct I; lia). eexists. split; [reflexivity|]. destruct I. specialize (i_yes0 eq_refl).
  assert (Z0 : (0 < List.length (r_cells r))%nat) by (apply nth_error_Some; assumption).
  destruct (chain_split _ _ _ i_chain0 i_yes0) as (l1 & f & l2 & E & N). rewrite E in i_chain0.
  destruct (chain_leads _ _ _ _ _ i_chain0) as ((k & Hk & K) & Lead).
  assert (i_nodup1 : NoDup (map fst l1 ++ 0%nat :: map fst l2)) by (rewrite E, map_app in i_nodup0; exact i_nodup0). split.
  - intros fuel. unfold print_trace. cbn [r_head]. rewrite circle with (P := fun h => In h (map fst l1) \/ h = 0%nat); [reflexivity| |auto].
    cbn [r_cells r_srcs]. intros h [H| ->].
    + destruct (Lead _ H) as (g & p & A & B & D). assert (NE : h <> 0%nat) by (intros ->; contradiction).
      destruct (forall2_in _ _ _ g i_shows0) as (d & S); [rewrite E, map_app, in_app_iff; left; apply (in_map snd) in A; exact A|].
      apply (shows_grow _ (r_srcs r ++ [Some (mksource (s_name s) (s_body s) (s_size s) 1 (s_file s))])) in S; [|apply snoc_srcs].
      destruct (shows_text _ _ _ S) as (t & T). exists g, p, t. rewrite nth_error_upd_other by congruence. auto.
    + rewrite nth_error_upd_same by assumption. rewrite Hk.
      destruct (shows_text (r_srcs r ++ [Some (mksource (s_name s) (s_body s) (s_size s) 1 (s_file s))]) (RFailed (List.length (r_srcs r)) (u64 off)) c) as (t & T).
      { cbn. eexists. exists off. split; [rewrite nth_error_app2, Nat.sub_diag by lia; reflexivity|]. split; [reflexivity|]. split; [reflexivity|].
        eapply refused_same; [| |exact R]; reflexivity. }
      eexists _, k, t. split; [reflexivity|]. auto.
  - intros fuel F. destruct fuel as [|fuel]; [lia|]. cbn [rt_free]. unfold pop_cell. cbn [r_head r_cells r_srcs r_depth].
    rewrite nth_error_upd_same by assumption. unfold src_step. rewrite nth_error_app2, Nat.sub_diag by lia. cbn [nth_error s_refs ref_step].
    assert (V : upd (r_srcs r ++ [Some (mksource (s_name s) (s_body s) (s_size s) 1 (s_file s))]) (List.length (r_srcs r)) None = r_srcs r ++ [None]) by apply upd_last.
    cbn. rewrite V.
    apply nodup_app_l in i_nodup1. apply free_way with (sid := List.length (r_srcs r)) (off := u64 off) (p := r_head r) (l := l1).
    + rewrite nth_error_app2, Nat.sub_diag by lia. reflexivity.
    + apply leads_upd; [|exact N]. eapply chain_way. exact i_chain0.
    + apply nth_error_upd_same. exact Z0.
    + exact i_nodup1.
    + exact N.
    + intros j g H a b ->. destruct (i_failed0 j (RFailed a b)) as [_ Q]; [rewrite E, in_app_iff; auto|]. assert (j = 0%nat) by (apply Q; eauto). subst j.
      apply N. apply (in_map fst) in H. exact H.
    + rewrite E, app_length in L. cbn in L. lia.
Qed.

(** * No room left *)
Lemma push_all_full frs r : r_depth r = 16 -> push_all r frs = r.
Proof. intros D. induction frs as [|f frs IH]; cbn; [reflexivity|]. rewrite IH. unfold push_cell, MAX_FRAMES. now rewrite D. Qed.

Lemma api_full r s o : r_depth r = 16 -> exists cells, api_run r s o = ROk (false, mkrt cells (r_head r) 16 (r_srcs r ++ [None])) /\
  match o with NoExe off => cells = upd (r_cells r) 0 (Some (RFailed (List.length (r_srcs r)) (u64 off), None)) | _ => cells = r_cells r end.
Proof.
  intros D. unfold api_run. cbv zeta. destruct o as [|off|frs]; cbn [r_cells r_head r_depth r_srcs].
  - unfold MAX_FRAMES. rewrite D, release_fresh. eexists. split; reflexivity.
  - unfold push_failed, MAX_FRAMES. cbn [r_cells r_head r_depth r_srcs]. rewrite copy_fresh, D. cbn [Z.eqb Pos.eqb]. rewrite free_second. cbn [r_cells r_head r_depth r_srcs].
    rewrite release_fresh. eexists. split; reflexivity.
  - rewrite push_all_full by exact D. cbn [r_cells r_head r_depth r_srcs]. rewrite release_fresh, D. eexists. split; reflexivity.
Qed.

Lemma frames_way r sid off p : nth_error (r_srcs r) sid = Some None -> nth_error (r_cells r) 0 = Some (Some (RFailed sid off, p)) -> forall l h d fuel,
  leads (r_cells r) h l -> Forall (fun f => exists c, shows (r_srcs r) f c) (map snd l) -> (List.length l < fuel)%nat -> print_frames fuel r h d = OUB.
Proof.
  intros S Z0. induction l as [|[k g] l IH]; intros h d fuel C F LF; (destruct fuel as [|fuel]; [cbn in LF; lia|]); inversion C; subst; cbn [print_frames].
  - rewrite Z0. unfold print_frame. cbn [frame_source]. now rewrite S.
  - match goal with X : nth_error _ k = _ |- _ => rewrite X end. cbn in F. inversion F as [|? ? [c Hc] F2]; subst. destruct (shows_text _ _ _ Hc) as (t & T).
    destruct (print_frame_any _ _ _ T d) as (u & ->). rewrite IH; [reflexivity|assumption|assumption|cbn in LF; lia].
Qed.

Lemma full_refusal r l cs s off : inv false r l cs -> (List.length l = 16)%nat ->
  exists r', api_run r s (NoExe off) = ROk (false, r') /\ forall fuel, (17 <= fuel)%nat -> print_trace fuel r' = OUB /\ rt_free fuel r' = OUB.
Proof.
  intros I L. destruct (api_full r s (NoExe off)) as (cells & A & ->); [destruct I; lia|]. rewrite A. eexists. split; [reflexivity|]. destruct I. specialize (i_yes0 eq_refl).
  assert (Z0 : (0 < List.length (r_cells r))%nat) by (apply nth_error_Some; assumption).
  destruct (chain_split _ _ _ i_chain0 i_yes0) as (l1 & f & l2 & E & N). rewrite E in i_chain0.
  destruct (chain_leads _ _ _ _ _ i_chain0) as ((k & Hk & K) & _).
  assert (i_nodup1 : NoDup (map fst l1 ++ 0%nat :: map fst l2)) by (rewrite E, map_app in i_nodup0; exact i_nodup0). apply nodup_app_l in i_nodup1.
  assert (Hn : nth_error (r_srcs r ++ [None]) (List.length (r_srcs r)) = Some (@None source)) by (rewrite nth_error_app2, Nat.sub_diag by lia; reflexivity).
  assert (W : leads (upd (r_cells r) 0 (Some (RFailed (List.length (r_srcs r)) (u64 off), None))) (r_head r) l1) by (apply leads_upd; [eapply chain_way; exact i_chain0|exact N]).
  assert (L1 : (List.length l1 < 16)%nat) by (rewrite E, app_length in L; cbn in L; lia).
  intros fuel F. split.
  - unfold print_trace. cbn [r_head]. rewrite Hk in *. erewrite frames_way; [reflexivity|exact Hn|apply nth_error_upd_same; exact Z0|exact W| |lia].
    rewrite Forall_forall. intros g H. destruct (forall2_in _ _ _ g i_shows0) as (d & Hd); [rewrite E, map_app, in_app_iff; auto|].
    exists d. eapply shows_grow; [|exact Hd]. cbn. apply snoc_srcs.
  - eapply free_way; [exact Hn|exact W|apply nth_error_upd_same; exact Z0|exact i_nodup1|exact N| |lia].
    intros j g H a b ->. destruct (i_failed0 j (RFailed a b)) as [_ Q]; [rewrite E, in_app_iff; auto|]. assert (j = 0%nat) by (apply Q; eauto). subst j.
    apply N. apply (in_map fst) in H. exact H.
Qed.

(** * The frames of a failed run *)
Lemma calls_native_iff x s : calls_native x s = true <-> native_call x s.
Proof.
  unfold calls_native, native_call. split.
  - destruct (exe_fetch x _) as [[[op ops]|]| |]; try discriminate. destruct op; try discriminate. destruct (f_stack _) as [|[] st]; try discriminate.
    destruct (nth_error _ _) as [[]|] eqn:N; try discriminate. intros _. eexists _, _, st, _, _. repeat split; eauto.
  - intros (ops & l & st & id & argc & A & B & C). now rewrite A, B, C.
Qed.

Lemma native_room E size x s : calls_native x s = true -> step E size x s = SErr -> (List.length (v_rest s) + 2 <= 16)%nat.
Proof.
  intros C. apply calls_native_iff in C. destruct C as (ops & l & st & id & argc & A & B & D). unfold step. rewrite A. cbn [exec].
  destruct ops as [|[] [|[] []]]; try discriminate. unfold with_pc. cbn [v_cur f_stack]. destruct s as [m codes [pc st' loc clo want] rest]. cbn [v_cur v_rest v_mem f_stack] in *. subst st'.
  destruct (32 <? _); [discriminate|]. destruct (_ <? 0); [discriminate|]. destruct (_ <? _); [discriminate|].
  unfold do_call, with_stack. cbn [v_mem v_cur v_rest]. rewrite D. destruct (MAX_FRAMES <=? _) eqn:F; [discriminate|]. apply Z.leb_gt in F. unfold MAX_FRAMES in F. cbn [List.length] in F. lia.
Qed.

Lemma error_frames_stand x src text name s : named src name -> TraceSpec.readable src (Z.of_nat (List.length text)) text -> Z.of_nat (List.length text) < 2 ^ 31 ->
  Forall (fun i => 0 <= bi_off i <= Z.of_nat (List.length text)) (x_body x) ->
  Forall2 stands_for (error_frames x src s) ((if calls_native x s then [(bytes_of "(no source)", None)] else []) ++
    call_at x text name (f_pc (v_cur s) + 1) :: map (fun f => call_at x text name (f_pc f)) (v_rest s)).
Proof.
  intros A B C D. unfold error_frames. apply Forall2_app; [destruct (calls_native x s); repeat constructor|]. constructor; [constructor; assumption|].
  induction (v_rest s) as [|f r IH]; cbn; constructor; [constructor; assumption|exact IH].
Qed.

Lemma stands_within text i : stands text i -> 0 <= bi_off i <= Z.of_nat (List.length text).
Proof. intros (pre & mid & -> & -> & _). rewrite !app_length. lia. Qed.

Lemma lv_one s frs new : Forall2 stands_for frs new -> (List.length new <= 16)%nat -> leaves [(s, RunErr frs)] new.
Proof. intros F L. pose proof (lv_err [] [] s frs new lv_nil F ltac:(cbn; lia)) as V. rewrite app_nil_r in V. exact V. Qed.

Lemma error_calls E size text x bad name src n m s : assemble true text = AOk (x, bad) -> named src name ->
  TraceSpec.readable src (Z.of_nat (List.length text)) text -> Z.of_nat (List.length text) < 2 ^ 31 -> 0 <= size ->
  steps E size x n (vm_start m) = SNext s -> step E size x s = SErr ->
  exists cs, failed_calls x text name s cs /\ leaves [(src, RunErr (error_frames x src s))] cs /\ cs <> [].
Proof.
  intros A B C D Z0 F G. destruct (assemble_places _ _ _ _ A) as [P _].
  assert (P' : Forall (fun i => 0 <= bi_off i <= Z.of_nat (List.length text)) (x_body x)) by (eapply Forall_impl; [|exact P]; apply stands_within).
  pose proof (error_frames_stand x src text name s B C D P') as S. destruct (reached_run _ _ _ _ _ _ Z0 F) as (W & _). unfold frames_of in W. cbn [List.length] in W.
  pose proof (calls_native_iff x s) as N. pose proof (native_room E size x s) as R.
  destruct (calls_native x s).
  - exists ((bytes_of "(no source)", None) :: call_at x text name (f_pc (v_cur s) + 1) :: map (fun f => call_at x text name (f_pc f)) (v_rest s)).
    split; [constructor; tauto|]. split; [|discriminate]. apply lv_one; [exact S|].
    specialize (R eq_refl G). cbn [List.length]. rewrite map_length. lia.
  - exists (call_at x text name (f_pc (v_cur s) + 1) :: map (fun f => call_at x text name (f_pc f)) (v_rest s)).
    split; [constructor; rewrite <- N; discriminate|]. split; [|discriminate]. apply lv_one; [exact S|].
    cbn [List.length]. rewrite map_length. lia.
Qed.

(** * The frames of a run that meets a limit *)
Lemma finish_bottom size s : v_rest s = [] -> finish size s <> SLimit.
Proof. intros R. unfold finish. rewrite R. destruct (m_pend _); discriminate. Qed.

Lemma ends_deep E size x s : ends_call size x s -> step E size x s = SLimit -> v_rest s <> [].
Proof.
  intros H G R. unfold step in G. destruct H as [(ops & H)|(ops & H & H1 & H2)]; rewrite H in G; cbn [exec] in G.
  - destruct ops as [|[] []]; try discriminate. revert G. apply finish_bottom. exact R.
  - destruct ops; [|discriminate]. unfold vpush in G. destruct (_ || _) eqn:B in G.
    + unfold with_pc in B. cbn [v_cur f_stack] in B. apply orb_true_iff in B. unfold FrameModel.MAX_FRAME_STACK, used in B, H2. cbn [v_cur v_rest f_stack] in B, H2.
      destruct B as [B|B]; apply Z.leb_le in B; cbn in B, H2; lia.
    + revert G. apply finish_bottom. exact R.
Qed.

Lemma limit_cases size x src s :
  (limit_frames size x src s = map (fun f => RNormal x (Some src) (f_pc f)) (v_rest s) /\ ends_call size x s) \/
  (exists entry, limit_frames size x src s = RNormal x (Some src) entry :: RNormal x (Some src) (f_pc (v_cur s) + 1) :: map (fun f => RNormal x (Some src) (f_pc f)) (v_rest s) /\
     enters x s entry) \/
  (limit_frames size x src s = RNormal x (Some src) (f_pc (v_cur s) + 1) :: map (fun f => RNormal x (Some src) (f_pc f)) (v_rest s) /\
     ~ ends_call size x s /\ forall entry, ~ enters x s entry).
Proof.
  unfold limit_frames, ends_call, enters. destruct (exe_fetch x (f_pc (v_cur s))) as [[[op ops]|]| |].
  2-4: right; right; split; [reflexivity|]; split; [intros [(o & X)|(o & X & _)]; discriminate|intros e (a & o & l & st & c & clo & n & X & _); discriminate].
  assert (P : op <> OP_RETURN -> op <> OP_EXIT -> op <> OP_CALL -> ~ ((exists o, ROk (Some (op, ops)) = ROk (Some (OP_RETURN, o))) \/
     (exists o, ROk (Some (op, ops)) = ROk (Some (OP_EXIT, o)) /\ Z.of_nat (List.length (f_stack (v_cur s))) < 16 /\ used s < size)) /\
     forall e, ~ (exists a o l st c clo n, ROk (Some (op, ops)) = ROk (Some (OP_CALL, PInt a :: o)) /\ f_stack (v_cur s) = VRef l :: st /\
        nth_error (m_objs (v_mem s)) l = Some (OFun c clo) /\ nth_error (v_codes s) c = Some (e, n) /\ wrap32 a <= 32 /\ (List.length (v_rest s) < 15)%nat)).
  { intros A B C. split; [intros [(o & X)|(o & X & _)]; congruence|]. intros e (a & o & l & st & c & clo & n & X & _). congruence. }
  destruct op; try (right; right; split; [reflexivity|apply P; discriminate]); clear P.
  - (* CALL *)
    assert (Q : ~ ((exists o, ROk (Some (OP_CALL, ops)) = ROk (Some (OP_RETURN, o))) \/
     (exists o, ROk (Some (OP_CALL, ops)) = ROk (Some (OP_EXIT, o)) /\ Z.of_nat (List.length (f_stack (v_cur s))) < 16 /\ used s < size))) by (intros [(o & X)|(o & X & _)]; discriminate).
    destruct ops as [|[i|argc|b|t|p] ops];
      try (right; right; split; [reflexivity|]; split; [exact Q|]; intros e (a & o & l & st & c & clo & n & X & _); discriminate).
    destruct (f_stack (v_cur s)) as [|[] st];
      try (right; right; split; [reflexivity|]; split; [exact Q|]; intros e (a & o & l & st' & c & clo & n & _ & X & _); discriminate).
    destruct (nth_error (m_objs (v_mem s)) l) as [[]|] eqn:N;
      try (right; right; split; [reflexivity|]; split; [exact Q|]; intros e (? & ? & l' & st' & c & clo & n & _ & X & Y & _); injection X as <- <-; rewrite N in Y; discriminate).
    destruct (nth_error (v_codes s) code) as [[entry n]|] eqn:K.
    2: { right; right; split; [reflexivity|]; split; [exact Q|]; intros e (a & o & l' & st' & c & clo & n & _ & X & Y & W & _); injection X as <- <-; rewrite N in Y; injection Y as <- <-; rewrite K in W; discriminate. }
    unfold MAX_FRAMES. cbn [List.length]. destruct (Z.ltb_spec 32 (wrap32 argc)) as [A|A]; [|destruct (Z.leb_spec 16 (Z.of_nat (S (List.length (v_rest s))))) as [B|B]]; cbn [orb].
    + right; right; split; [reflexivity|]; split; [exact Q|]. intros e (a & o & l' & st' & c & clo & n' & X & _ & _ & _ & Y & _). injection X as <- <-. lia.
    + right; right; split; [reflexivity|]; split; [exact Q|]. intros e (a & o & l' & st' & c & clo & n' & X & _ & _ & _ & _ & Y). lia.
    + right; left. exists entry. split; [reflexivity|]. do 7 eexists. repeat split; eauto. lia.
  - (* RETURN *) left. split; [reflexivity|]. left. eauto.
  - (* EXIT *)
    unfold vpush, FrameModel.MAX_FRAME_STACK. destruct (Z.leb_spec 16 (Z.of_nat (List.length (f_stack (v_cur s))))) as [A|A]; [|destruct (Z.leb_spec size (used s)) as [B|B]]; cbn [orb].
    + right; right. split; [reflexivity|]. split; [intros [(o & X)|(o & _ & Y & _)]; [discriminate|lia]|intros e (a & o & l & st & c & clo & n & X & _); discriminate].
    + right; right. split; [reflexivity|]. split; [intros [(o & X)|(o & _ & _ & Y)]; [discriminate|lia]|intros e (a & o & l & st & c & clo & n & X & _); discriminate].
    + left. split; [reflexivity|]. right. eauto.
Qed.

Lemma limit_calls E size x text name src n m s : Forall (fun i => 0 <= bi_off i <= Z.of_nat (List.length text)) (x_body x) -> named src name ->
  TraceSpec.readable src (Z.of_nat (List.length text)) text -> Z.of_nat (List.length text) < 2 ^ 31 -> 0 <= size ->
  steps E size x n (vm_start m) = SNext s -> step E size x s = SLimit ->
  exists cs, limited_calls size x text name s cs /\ leaves [(src, RunErr (limit_frames size x src s))] cs /\ cs <> [].
Proof.
  intros P B C D Z0 F G. destruct (reached_run _ _ _ _ _ _ Z0 F) as (W & _). unfold frames_of in W. cbn [List.length] in W.
  assert (S : Forall2 stands_for (map (fun f => RNormal x (Some src) (f_pc f)) (v_rest s)) (map (fun f => call_at x text name (f_pc f)) (v_rest s))).
  { induction (v_rest s) as [|f r IH]; cbn; constructor; [constructor; assumption|]. apply IH. cbn in W. lia. }
  destruct (limit_cases size x src s) as [[E1 H]|[(entry & E1 & H)|(E1 & H)]]; rewrite E1.
  - eexists. split; [apply lc_ends; exact H|]. split; [apply lv_one; [exact S|rewrite map_length; lia]|].
    pose proof (ends_deep _ _ _ _ H G). destruct (v_rest s); [congruence|discriminate].
  - eexists. split; [apply lc_enters; exact H|]. split; [apply lv_one|discriminate].
    + constructor; [constructor; assumption|]. constructor; [constructor; assumption|exact S].
    + destruct H as (? & ? & ? & ? & ? & ? & ? & _ & _ & _ & _ & _ & L). cbn [List.length]. rewrite map_length. lia.
  - eexists. split; [apply lc_plain; apply H|]. split; [apply lv_one|discriminate].
    + constructor; [constructor; assumption|exact S].
    + cbn [List.length]. rewrite map_length. lia.
Qed.

Lemma leaves_bound h cs : leaves h cs -> (List.length cs <= 16)%nat.
Proof. induction 1; cbn; rewrite ?app_length; lia. Qed.

Lemma runtime_survives h cs : leaves h cs -> exists r, api_runs rt_new h = ROk r /\
  (forall fuel, (16 <= fuel)%nat -> exists t, print_trace fuel r = OOk (bytes_of "Stack trace:" ++ [10] ++ t) /\
    (cs = [] -> t = bytes_of "	(No active frames)" ++ [10]) /\ (cs <> [] -> trace_says 0 cs t)) /\
  (forall s, exists r', api_run r s RunOk = ROk (List.length cs <? 16, r')%nat) /\
  (forall fuel, (17 <= fuel)%nat -> exists r', rt_free fuel r = OOk r' /\ all_freed r').
Proof.
  intros V. pose proof (leaves_bound _ _ V) as B. destruct (leaves_inv _ _ V) as (r & l & A & I). pose proof (inv_len _ _ _ _ I) as L. exists r. split; [exact A|].
  split; [|split].
  - intros fuel F. eapply inv_trace; [exact I|exact B|lia].
  - intros s. unfold api_run. cbv zeta. cbn [r_srcs r_cells r_head r_depth]. rewrite release_fresh. eexists. do 3 f_equal. destruct I. rewrite i_depth0, L. unfold MAX_FRAMES.
    destruct (Z.eqb_spec (Z.of_nat (List.length l)) 16), (Nat.ltb_spec (List.length l) 16); cbn; try reflexivity; lia.
  - intros fuel F. eapply inv_free; [exact I|lia].
Qed.

Lemma runtime_twice h cs s off c : leaves h cs -> existsb is_refusal h = true -> refused_at s off c -> (List.length cs < 16)%nat ->
  exists r r', api_runs rt_new h = ROk r /\ api_run r s (NoExe off) = ROk (false, r') /\
    (forall fuel, print_trace fuel r' = OFuel) /\ forall fuel, (17 <= fuel)%nat -> rt_free fuel r' = OUB.
Proof.
  intros V N R L. destruct (leaves_inv _ _ V) as (r & l & A & I). rewrite N in I. cbn in I. rewrite (inv_len _ _ _ _ I) in L.
  destruct (second_refusal _ _ _ _ _ _ I R L) as (r' & B). exists r, r'. auto.
Qed.
Lemma runtime_full h cs s off : leaves h cs -> existsb is_refusal h = true -> List.length cs = 16%nat ->
  exists r r', api_runs rt_new h = ROk r /\ api_run r s (NoExe off) = ROk (false, r') /\
    forall fuel, (17 <= fuel)%nat -> print_trace fuel r' = OUB /\ rt_free fuel r' = OUB.
Proof.
  intros V N L. destruct (leaves_inv _ _ V) as (r & l & A & I). rewrite N in I. cbn in I. rewrite (inv_len _ _ _ _ I) in L.
  destruct (full_refusal _ _ _ s off I L) as (r' & B). exists r, r'. auto.
Qed.
Lemma runtime_none h cs s o : leaves h cs -> List.length cs = 16%nat -> exists r r', api_runs rt_new h = ROk r /\ api_run r s o = ROk (false, r').
Proof.
  intros V L. destruct (leaves_inv _ _ V) as (r & l & A & I). rewrite (inv_len _ _ _ _ I) in L. destruct (api_full r s o) as (cells & B & _); [destruct I; lia|].
  exists r. eexists. split; [exact A|exact B].
Qed.

Lemma print_more fuel : forall r h d t, print_frames fuel r h d = OOk t -> forall fuel', (fuel <= fuel')%nat -> print_frames fuel' r h d = OOk t.
Proof.
  induction fuel as [|fuel IH]; intros r [h|] d t H fuel' L; destruct fuel' as [|fuel']; cbn [print_frames] in *; try discriminate; try exact H; try lia.
  destruct (nth_error (r_cells r) h) as [[[f prev]|]|]; try discriminate. destruct (print_frame _ _ _); try discriminate.
  destruct (print_frames fuel r prev (d + 1)) as [u| | | |] eqn:P; try discriminate. rewrite (IH _ _ _ _ P) by lia. exact H.
Qed.
Lemma trace_more fuel r t : print_trace fuel r = OOk t -> forall fuel', (fuel <= fuel')%nat -> print_trace fuel' r = OOk t.
Proof.
  unfold print_trace. destruct (r_head r) as [h|]; [|auto]. intros H fuel' L. destruct (print_frames fuel r (Some h) 0) as [u| | | |] eqn:P; try discriminate.
  now rewrite (print_more _ _ _ _ _ P fuel' L).
Qed.

Lemma runtime_fails s frs cs : leaves [(s, RunErr frs)] cs -> cs <> [] -> exists r t, api_run rt_new s (RunErr frs) = ROk (false, r) /\ trace_says 0 cs t /\
  forall fuel, (16 <= fuel)%nat -> print_trace fuel r = OOk (bytes_of "Stack trace:" ++ [10] ++ t).
Proof.
  intros V N. destruct (runtime_survives _ _ V) as (r & A & T & _). destruct (T 16%nat (le_n _)) as (t & T1 & _ & T2).
  cbn [api_runs] in A. assert (F : exists r2, api_run rt_new s (RunErr frs) = ROk (false, r2)).
  { unfold api_run. cbv zeta. rewrite push_all_srcs. cbn [r_srcs r_cells r_head r_depth]. rewrite release_fresh. eexists. reflexivity. }
  destruct F as (r2 & F). rewrite F in A. inversion A; subst r2. exists r, t. split; [exact F|]. split; [auto|]. eapply trace_more. exact T1.
Qed.

Lemma limit_trace E size x text name src n m s : Forall (fun i => 0 <= bi_off i <= Z.of_nat (List.length text)) (x_body x) -> named src name ->
  TraceSpec.readable src (Z.of_nat (List.length text)) text -> Z.of_nat (List.length text) < 2 ^ 31 -> 0 <= size ->
  steps E size x n (vm_start m) = SNext s -> step E size x s = SLimit ->
  exists r cs t, api_run rt_new src (RunErr (limit_frames size x src s)) = ROk (false, r) /\ limited_calls size x text name s cs /\ trace_says 0 cs t /\
    forall fuel, (16 <= fuel)%nat -> print_trace fuel r = OOk (bytes_of "Stack trace:" ++ [10] ++ t).
Proof.
  intros A B C D Z0 F G. destruct (limit_calls _ _ _ _ _ _ _ _ _ A B C D Z0 F G) as (cs & V & L & N).
  destruct (runtime_fails _ _ _ L N) as (r & t & R & T & P). exists r, cs, t. auto.
Qed.
