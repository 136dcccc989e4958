(** C80: an instruction does not depend on where objects are; collections in between are not noticed. *)
From Coq Require Import ZArith List Lia Bool.
From Verif Require Import Base HashModel FloatModel StringModel ValueModel MapModel ListModel ArithModel ObjModel ExeModel FrameModel VmModel
  MoveSpec MoveProofs MoveObj.
Import ListNotations.
Open Scope Z_scope.

Lemma frel_ext R S f f' : ext R S -> frel R f f' -> frel S f f'.
Proof. intros X (A & B & C & D & F). repeat split; eauto using vrels_ext, vrel_ext, oprel_ext. Qed.
Lemma frels_ext R S f f' : ext R S -> Forall2 (frel R) f f' -> Forall2 (frel S) f f'.
Proof. intros X H. induction H; constructor; [eapply frel_ext; eassumption|assumption]. Qed.

(** Results of a step: more places may be connected. *)
Definition ssim (R : nat -> nat -> Prop) (r r' : sres) : Prop :=
  match r' with
  | SNext s' => exists s, r = SNext s /\ grows R (fun S => srel S s s')
  | SDone vs' m' => exists vs m, r = SDone vs m /\ grows R (fun S => mrel S m m' /\ Forall2 (vrel S) vs vs')
  | SErr => r = SErr | SLimit => r = SLimit | SBad => r = SBad | SUB => r = SUB
  | SLoop => True
  end.

Lemma ssim_ext R S r r' : ext R S -> ssim S r r' -> ssim R r r'.
Proof.
  intros X. destruct r'; cbn; auto.
  - intros (s1 & E & T & Y & H). exists s1. split; [exact E|]. exists T. split; [eapply ext_trans; eassumption|exact H].
  - intros (vs & m1 & E & T & Y & H). exists vs, m1. split; [exact E|]. exists T. split; [eapply ext_trans; eassumption|exact H].
Qed.

Lemma ssim_lift {A B} (Q : A -> B -> Prop) R x x' k k' : osim Q x x' -> (forall a b, Q a b -> ssim R (k a) (k' b)) ->
  ssim R (lift x k) (lift x' k').
Proof.
  intros H1 H2. destruct x'; cbn in *; try (rewrite H1; reflexivity); try exact I.
  destruct H1 as (b & -> & Hb). cbn. apply H2, Hb.
Qed.

Lemma math_op_rel R op a a' b b' : vrel R a a' -> vrel R b b' ->
  rrel (vrel R) (math_op op a b) (math_op op a' b').
Proof.
  intros [l l' A|w A] [k k' B|u B]; cbn; auto; try (destruct w; cbn; auto); try (destruct u; cbn; auto).
  all: unfold math_int, math_flt, int_res; destruct op; cbn; auto with move;
    repeat match goal with |- context [if ?c then _ else _] => destruct c end; cbn; auto with move.
Qed.
Lemma rel_op_rel R op a a' b b' : vrel R a a' -> vrel R b b' -> rrel eq (rel_op op a b) (rel_op op a' b').
Proof.
  intros [l l' A|w A] [k k' B|u B]; cbn; auto; try (destruct w; cbn; auto); try (destruct u; cbn; auto).
  all: unfold rel_int, rel_flt; destruct op; cbn; auto.
Qed.
Lemma mod_op_rel R a a' b b' : vrel R a a' -> vrel R b b' -> rrel (vrel R) (mod_op a b) (mod_op a' b').
Proof.
  intros [l l' A|w A] [k k' B|u B]; cbn; auto; try (destruct w; cbn; auto); try (destruct u; cbn; auto).
  repeat match goal with |- context [if ?c then _ else _] => destruct c end; cbn; auto with move.
Qed.
Lemma neg_op_rel R a a' : vrel R a a' -> rrel (vrel R) (neg_op a) (neg_op a').
Proof.
  intros [l l' A|w A]; cbn; auto; try (destruct w; cbn; auto with move).
  unfold int_res. repeat match goal with |- context [if ?c then _ else _] => destruct c end; cbn; auto with move.
Qed.
Lemma not_op_rel R a a' : vrel R a a' -> rrel (vrel R) (not_op a) (not_op a').
Proof. intros [l l' A|w A]; cbn; auto; destruct w; cbn; auto with move. Qed.

Lemma osim_with_mem R m m' (x x' : res value) : mrel R m m' -> rrel (vrel R) x x' ->
  osim (rval R) (obind (of_res x) (fun v => OOk (v, m))) (obind (of_res x') (fun v => OOk (v, m'))).
Proof.
  intros M H. destruct x, x'; cbn in *; try contradiction; auto. eexists; split; [reflexivity|]. apply rval_same; assumption.
Qed.

Lemma compare_op_sim R m m' neg a a' b b' : mrel R m m' -> vrel R a a' -> vrel R b b' ->
  osim eq (compare_op m neg a b) (compare_op m' neg a' b').
Proof.
  intros M A B. unfold compare_op. rewrite (compare_same M _ _ _ _ A B), (mrel_pend M).
  destruct (obj_compare _ a' b'); [|reflexivity]. destruct (m_pend m'); cbn; eauto.
Qed.

Lemma compare_op_imm m neg a b v : compare_op m neg a b = OOk v -> exists c, v = VBool c.
Proof. unfold compare_op. destruct (obj_compare _ _ _); [|discriminate]. destruct (m_pend m); [discriminate|]. intros [= <-]. eauto. Qed.

Lemma rel_op_sim R op m m' a a' b b' : mrel R m m' -> vrel R a a' -> vrel R b b' ->
  osim (rval R) (obind (of_res (rel_op op a b)) (fun c => OOk (VBool c, m))) (obind (of_res (rel_op op a' b')) (fun c => OOk (VBool c, m'))).
Proof.
  intros M A B. pose proof (rel_op_rel R op _ _ _ _ A B) as H. destruct (rel_op op a b), (rel_op op a' b'); cbn in H |- *; try contradiction; auto.
  subst. eexists; split; [reflexivity|]. apply rval_same; auto with move.
Qed.
Lemma compare_sim R m m' neg a a' b b' : mrel R m m' -> vrel R a a' -> vrel R b b' ->
  osim (rval R) (obind (compare_op m neg a b) (fun v => OOk (v, m))) (obind (compare_op m' neg a' b') (fun v => OOk (v, m'))).
Proof.
  intros M A B. pose proof (compare_op_sim R m m' neg _ _ _ _ M A B) as H. destruct (compare_op m' neg a' b') eqn:E; cbn in H |- *; try rewrite H; auto.
  destruct H as (c & -> & ->). cbn. eexists; split; [reflexivity|]. apply compare_op_imm in E. destruct E as [c ->]. apply rval_same; auto with move.
Qed.

Lemma binary_op_sim R op m m' a a' b b' : mrel R m m' -> vrel R a a' -> vrel R b b' ->
  osim (rval R) (binary_op op m a b) (binary_op op m' a' b').
Proof.
  intros M A B. unfold binary_op.
  destruct op; try reflexivity; try (apply osim_with_mem; [exact M|]; first [apply math_op_rel; assumption|apply mod_op_rel; assumption]);
    try (apply rel_op_sim; assumption); try (apply compare_sim; assumption).
  eexists; split; [reflexivity|]. apply rval_alloc; [exact M|]. constructor; assumption.
Qed.

Lemma unary_op_sim R op m m' a a' : mrel R m m' -> vrel R a a' -> osim (rval R) (unary_op op m a) (unary_op op m' a').
Proof.
  intros M A. unfold unary_op. destruct op; try reflexivity.
  - eexists; split; [reflexivity|]. apply rval_same; assumption.
  - apply osim_with_mem; [exact M|apply neg_op_rel, A].
  - apply osim_with_mem; [exact M|apply not_op_rel, A].
  - eexists; split; [reflexivity|]. apply rval_alloc; [exact M|]. constructor; assumption.
Qed.

Lemma vstring_sim R bs : osim (vrel R) (vstring bs) (vstring bs).
Proof. unfold vstring. destruct (from_string _ _); cbn; auto. eexists; split; [reflexivity|auto with move]. Qed.

(** * States *)

Lemma srel_mem R s s' : srel R s s' -> mrel R (v_mem s) (v_mem s').
Proof. intros H. apply H. Qed.
Lemma srel_stack R s s' : srel R s s' -> Forall2 (vrel R) (f_stack (v_cur s)) (f_stack (v_cur s')).
Proof. intros H. apply H. Qed.
Lemma srel_locals R s s' : srel R s s' -> vrel R (f_locals (v_cur s)) (f_locals (v_cur s')).
Proof. intros H. apply H. Qed.
Lemma srel_clo R s s' : srel R s s' -> oprel (vrel R) (f_clo (v_cur s)) (f_clo (v_cur s')).
Proof. intros H. apply H. Qed.

Lemma srel_set R S s s' m m' st st' : ext R S -> srel R s s' -> mrel S m m' -> Forall2 (vrel S) st st' ->
  srel S (with_mem (with_stack s st) m) (with_mem (with_stack s' st') m').
Proof.
  intros X (A & B & (C1 & C2 & C3 & C4 & C5) & D) M F. split; [exact M|]. split; [exact B|]. split; [|eapply frels_ext; eassumption].
  repeat split; eauto using vrel_ext, oprel_ext.
Qed.
Lemma srel_set_stack R s s' st st' : srel R s s' -> Forall2 (vrel R) st st' -> srel R (with_stack s st) (with_stack s' st').
Proof. intros (A & B & (C1 & C2 & C3 & C4 & C5) & D) F. repeat split; try assumption; try apply A. Qed.
Lemma srel_set_mem R S s s' m m' : ext R S -> srel R s s' -> mrel S m m' -> srel S (with_mem s m) (with_mem s' m').
Proof.
  intros X (A & B & C & D) M. split; [exact M|]. split; [exact B|]. split; [eapply frel_ext; eassumption|eapply frels_ext; eassumption].
Qed.
Lemma srel_set_pc R s s' pc : srel R s s' -> srel R (with_pc s pc) (with_pc s' pc).
Proof. intros (A & B & (C1 & C2 & C3 & C4 & C5) & D). repeat split; try assumption; try apply A. Qed.

Lemma used_rel R fs fs' : Forall2 (frel R) fs fs' ->
  fold_right (fun f n => Z.of_nat (length (f_stack f)) + n) 0 fs = fold_right (fun f n => Z.of_nat (length (f_stack f)) + n) 0 fs'.
Proof. induction 1 as [|f f' r r' (A & B & C & D & F) Hr IH]; cbn; [reflexivity|]. rewrite IH, (F2_length _ _ _ C). reflexivity. Qed.
Lemma used_same R s s' : srel R s s' -> used s = used s'.
Proof. intros (A & B & C & D). unfold used. apply (used_rel R). constructor; assumption. Qed.

Lemma vpush_rel size R s s' v v' : srel R s s' -> vrel R v v' -> oprel (srel R) (vpush size s v) (vpush size s' v').
Proof.
  intros S V. unfold vpush. rewrite (used_same R s s' S), (F2_length _ _ _ (srel_stack _ _ _ S)).
  destruct (_ || _); constructor. apply srel_set_stack; [exact S|]. constructor; [exact V|apply srel_stack, S].
Qed.
Lemma vpushes_rel size R vs vs' : Forall2 (vrel R) vs vs' -> forall s s', srel R s s' ->
  oprel (srel R) (vpushes size s vs) (vpushes size s' vs').
Proof.
  induction 1 as [|v v' r r' Hv Hr IH]; intros s s' S; cbn; [constructor; exact S|].
  destruct (vpush_rel size R s s' v v' S Hv); [constructor|]. apply IH; assumption.
Qed.

Lemma ssim_push R S size s s' vs vs' : ext R S -> srel S s s' -> Forall2 (vrel S) vs vs' ->
  ssim R (match vpushes size s vs with Some t => SNext t | None => SLimit end)
         (match vpushes size s' vs' with Some t => SNext t | None => SLimit end).
Proof.
  intros X H V. destruct (vpushes_rel size S vs vs' V s s' H); cbn; [reflexivity|].
  eexists; split; [reflexivity|]. exists S. split; assumption.
Qed.
Lemma ssim_npush R S size s s' v v' : ext R S -> srel S s s' -> vrel S v v' -> ssim R (npush size s v) (npush size s' v').
Proof.
  intros X H V. unfold npush. destruct (vpush_rel size S s s' v v' H V); cbn; [reflexivity|].
  eexists; split; [reflexivity|]. exists S. split; assumption.
Qed.
Lemma ssim_next R S s s' : ext R S -> srel S s s' -> ssim R (SNext s) (SNext s').
Proof. intros X H. cbn. eexists; split; [reflexivity|]. exists S. split; assumption. Qed.

Lemma adjust_rel R p vs vs' : Forall2 (vrel R) vs vs' -> Forall2 (vrel R) (adjust p vs) (adjust p vs').
Proof.
  intros H. unfold adjust. rewrite (F2_length _ _ _ H). apply F2_app; [apply F2_firstn, H|]. apply F2_repeat. auto with move.
Qed.
Lemma results_sim R want vs vs' : Forall2 (vrel R) vs vs' -> osim (Forall2 (vrel R)) (results want vs) (results want vs').
Proof.
  intros H. unfold results. rewrite (F2_length _ _ _ H). destruct (_ <? _); [reflexivity|]. apply osim_ok.
  apply F2_app; [apply F2_firstn, H|]. apply F2_repeat. auto with move.
Qed.

Lemma finish_sim size R s s' : srel R s s' -> ssim R (finish size s) (finish size s').
Proof.
  intros S. pose proof S as (A & B & C & D). unfold finish. rewrite (mrel_pend A). destruct (m_pend (v_mem s')); [reflexivity|].
  pose proof (F2_rev _ _ _ (srel_stack _ _ _ S)) as Rv. destruct D as [|f f' r r' Hf Hr].
  - cbn. do 2 eexists. split; [reflexivity|]. exists R. split; [apply ext_refl|]. split; assumption.
  - destruct C as (C1 & C2 & C3 & C4 & C5). rewrite C2. eapply ssim_lift; [apply results_sim, Rv|].
    intros vs vs' V. eapply ssim_push; [apply ext_refl| |exact V]. split; [exact A|]. split; [exact B|]. split; assumption.
Qed.

Section Env.
Variable E : env.
Hypothesis BE : blind E.
Variables b b' : option value.
Let F := with_builtins E b.
Let F' := with_builtins E b'.

Lemma blind_F : blind F.
Proof. destruct BE. constructor; assumption. Qed.

Lemma do_call_sim size R s s' callee callee' args args' want : srel R s s' -> vrel R callee callee' -> Forall2 (vrel R) args args' ->
  ssim R (do_call F size s callee args want) (do_call F' size s' callee' args' want).
Proof.
  intros S C A. unfold do_call. destruct C as [l l' H|w H]; [|destruct w; cbn; try reflexivity; destruct (H l eq_refl)].
  pose proof S as (M & B & C & D).
  destruct (mrel_look M _ _ H) as (o & o' & E1 & E2 & O). rewrite E1, E2.
  destruct O as [| | |c v v' Hv|id argc| | | | ]; cbn [ssim]; auto.
  - rewrite B. destruct (nth_error (v_codes s') c) as [[entry argc]|]; [|reflexivity].
    cbn [length]. rewrite (F2_length _ _ _ D). destruct (_ <=? _); [reflexivity|].
    destruct (mrel_alloc M _ _ (new_map_rel _ (-1))) as [A1 A2].
    destruct (alloc (v_mem s) _) as [loc n1], (alloc (v_mem s') _) as [loc' n1']. cbn [fst snd] in A1, A2.
    eapply ssim_push; [apply (add_ext (m := v_mem s) (m' := v_mem s'))| |].
    + split; [exact A1|]. split; [reflexivity|]. split.
      * split; [reflexivity|]. split; [reflexivity|]. split; [constructor|]. split; [exact A2|constructor]. eapply vrel_ext; [apply add_ext|exact Hv].
      * constructor; [eapply frel_ext; [apply add_ext|exact C]|eapply frels_ext; [apply add_ext|exact D]].
    + apply adjust_rel. eapply vrels_ext; [apply add_ext|exact A].
  - cbn [length]. rewrite (F2_length _ _ _ D). destruct (_ <=? _); [reflexivity|].
    assert (A2 : Forall2 (vrel R) (if argc <? 0 then args else adjust argc args) (if argc <? 0 then args' else adjust argc args')).
    { destruct (argc <? 0); [exact A|apply adjust_rel, A]. }
    eapply ssim_lift; [apply (bl_native _ BE R); [exact M|exact A2]|]. intros [vs n] [vs' n'] (T & X & N & V). cbn [fst snd] in *.
    eapply ssim_lift; [apply (results_sim T), V|]. intros ws ws' W.
    eapply ssim_push; [exact X|eapply srel_set_mem; eassumption|exact W].
Qed.

Lemma get_in_sim R m m' scopes scopes' key key' : mrel R m m' -> Forall2 (oprel (vrel R)) scopes scopes' -> vrel R key key' ->
  osim (ropt R) (get_in F m scopes key) (get_in F' m' scopes' key').
Proof.
  intros M H. revert R m m' M H. revert scopes'. induction scopes as [|o r IH]; intros scopes' R m m' M H K; inversion H as [|? o' ? r' Ho Hr]; subst; cbn.
  - eexists; split; [reflexivity|]. apply ropt_none, M.
  - destruct Ho as [|v v' Hv]; [apply IH; assumption|].
    eapply osim_bind; [apply (select_of_sim F F' blind_F eq_refl eq_refl R); eassumption|].
    intros [x n] [x' n'] (T & X & N & Hx). cbn in *. destruct Hx as [|w w' Hw].
    + eapply osim_impl; [apply (IH r' T); [exact N|eapply oprels_ext; eassumption|eapply vrel_ext; eassumption]|].
      intros y y' (U & Y & Q). exists U. split; [eapply ext_trans; eassumption|exact Q].
    + eexists; split; [reflexivity|]. exists T. split; [exact X|]. split; [exact N|constructor; exact Hw].
Qed.

Lemma select_or_none_sim R m m' col col' key key' : mrel R m m' -> vrel R col col' -> vrel R key key' ->
  osim (rval R) (select_or_none F m col key) (select_or_none F' m' col' key').
Proof.
  intros M C K. unfold select_or_none. pose proof (mrel_set_pend M false) as MP.
  eapply osim_bind; [apply (select_of_sim F F' blind_F eq_refl eq_refl R); eassumption|].
  intros [x n] [x' n'] (T & X & N & Hx). cbn in *. eexists; split; [reflexivity|]. exists T. cbn. split; [exact X|].
  rewrite (mrel_pend M). split; [apply mrel_set_pend, N|]. destruct Hx; [auto with move|assumption].
Qed.

Ltac stk S := pose proof (srel_stack _ _ _ S) as HS;
  destruct (f_stack (v_cur _)) as [|x1 r1] eqn:ES1, (f_stack (v_cur _)) as [|x1' r1'] eqn:ES2.

Lemma exec_sim size R s s' op ops : oprel (vrel R) b b' -> srel R s s' -> ssim R (exec F size s op ops) (exec F' size s' op ops).
Proof.
  intros HB S. pose proof (srel_mem _ _ _ S) as M. pose proof (srel_stack _ _ _ S) as St.
  pose proof (srel_locals _ _ _ S) as Lo. pose proof (srel_clo _ _ _ S) as Cl.
  assert (NX : forall st st', Forall2 (vrel R) st st' -> srel R (with_stack s st) (with_stack s' st')).
  { intros st st' H. apply srel_set_stack; assumption. }
  unfold exec. cbv zeta.
  destruct op.
  all: destruct ops as [|o1 ops]; try reflexivity.
  all: try (destruct o1; destruct ops as [|o2 ops]; try reflexivity; try (destruct o2; destruct ops as [|o3 ops]; try reflexivity; try (destruct o3; destruct ops as [|o4 ops]; try reflexivity))).
  all: try (eapply ssim_npush; [apply ext_refl|exact S|auto with move]; fail).
  all: try (eapply ssim_next; [apply ext_refl|]; first [exact S|apply srel_set_pc, S]; fail).
  (* unary and binary operators *)
  all: try (destruct St as [|x x' r r' Hx Hr]; [reflexivity|];
    eapply ssim_lift; [apply (unary_op_sim R); eassumption|]; intros [v n] [v' n'] (T & X & N & V); cbn [fst snd] in *;
    eapply ssim_npush; [exact X|eapply srel_set; eauto using vrels_ext|exact V]; fail).
  all: try (destruct St as [|y y' r0 r0' Hy St]; [reflexivity|]; destruct St as [|x x' r r' Hx Hr]; [reflexivity|];
    eapply ssim_lift; [apply (binary_op_sim R); eassumption|]; intros [v n] [v' n'] (T & X & N & V); cbn [fst snd] in *;
    eapply ssim_npush; [exact X|eapply srel_set; eauto using vrels_ext|exact V]; fail).
  all: try (destruct St as [|x x' r r' Hx Hr]; [reflexivity|]; destruct Hx as [l l' Hx|w Hx];
     [reflexivity|destruct w; try reflexivity; eapply ssim_next; [apply ext_refl|]; destruct (Bool.eqb _ _); [apply srel_set_pc|]; apply NX, Hr]; fail).
  (* ASS *)
  - destruct St as [|x x' r r' Hx Hr]; [reflexivity|]. unfold set_var.
    eapply ssim_lift.
    + eapply osim_bind; [apply (vstring_sim R)|]. intros k k' K. apply (insert_of_sim F F' blind_F eq_refl R); eassumption.
    + intros n n' (T & X & N). eapply ssim_next; [exact X|]. eapply srel_set_mem; eassumption.
  (* POP *)
  - rewrite (F2_length _ _ _ St). destruct (_ <? _); [reflexivity|]. eapply ssim_next; [apply ext_refl|]. apply NX, F2_skipn, St.
  (* CHECKTYPE *)
  - destruct St as [|y y' r0 r0' Hy St]; [reflexivity|]; destruct St as [|x x' r r' Hx Hr]; [reflexivity|].
    eapply ssim_lift; [apply (is_type_sim R); eassumption|]. intros [c n] [c' n'] [-> N]. cbn [fst snd] in *. destruct c'; [|reflexivity].
    eapply ssim_next; [apply ext_refl|]. eapply srel_set; [apply ext_refl|exact S|exact N|constructor; assumption].
  (* CALL *)
  - destruct St as [|x x' r r' Hx Hr]; [reflexivity|]. destruct (_ <? _); [reflexivity|]. destruct (_ <? _); [reflexivity|].
    rewrite (F2_length _ _ _ Hr). destruct (_ <? _); [reflexivity|].
    apply do_call_sim; [apply NX, F2_skipn, Hr|exact Hx|apply F2_firstn, Hr].
  (* SELECT *)
  - destruct St as [|y y' r0 r0' Hy St]; [reflexivity|]; destruct St as [|x x' r r' Hx Hr]; [reflexivity|].
    eapply ssim_lift; [apply (select_or_none_sim R); eassumption|]; intros [v n] [v' n'] (T & X & N & V); cbn [fst snd] in *.
    eapply ssim_npush; [exact X|eapply srel_set; eauto using vrels_ext|exact V].
  (* SELECT2 *)
  - destruct St as [|y y' r0 r0' Hy St]; [reflexivity|]; destruct St as [|x x' r r' Hx Hr]; [reflexivity|].
    eapply ssim_lift; [apply (select_or_none_sim R); eassumption|]; intros [v n] [v' n'] (T & X & N & V); cbn [fst snd] in *.
    eapply ssim_npush; [exact X|eapply srel_set; [exact X|exact S|exact N|eapply vrels_ext; [exact X|constructor; assumption]]|exact V].
  (* INSERT, INSERT2 *)
  - destruct St as [|z z' r1 r1' Hz St]; [reflexivity|]; destruct St as [|y y' r0 r0' Hy St]; [reflexivity|]; destruct St as [|x x' r r' Hx Hr]; [reflexivity|].
    eapply ssim_lift; [apply (insert_of_sim F F' blind_F eq_refl R); eassumption|]. intros n n' (T & X & N).
    eapply ssim_next; [exact X|]. eapply srel_set; [exact X|exact S|exact N|eapply vrels_ext; [exact X|constructor; assumption]].
  - destruct St as [|z z' r1 r1' Hz St]; [reflexivity|]; destruct St as [|y y' r0 r0' Hy St]; [reflexivity|]; destruct St as [|x x' r r' Hx Hr]; [reflexivity|].
    eapply ssim_lift; [apply (insert_of_sim F F' blind_F eq_refl R); eassumption|]. intros n n' (T & X & N).
    eapply ssim_next; [exact X|]. eapply srel_set; [exact X|exact S|exact N|eapply vrels_ext; [exact X|constructor; assumption]].
  (* PUSHSTR *)
  - eapply ssim_lift; [apply (vstring_sim R)|]. intros v v' V. eapply ssim_npush; [apply ext_refl|exact S|exact V].
  (* PUSHVAR *)
  - unfold get_var. eapply ssim_lift.
    + eapply osim_bind; [apply (vstring_sim R)|]. intros k k' K. apply (get_in_sim R); [exact M| |exact K].
      constructor; [constructor; exact Lo|]. constructor; [exact Cl|]. constructor; [exact HB|constructor].
    + intros [v n] [v' n'] (T & X & N & V); cbn [fst snd] in *. destruct V as [|v v' V]; [reflexivity|].
      eapply ssim_npush; [exact X|eapply srel_set_mem; eassumption|exact V].
  (* PUSHFUN *)
  - pose proof S as (_ & Co & Cu & Re). rewrite Co.
    assert (Q1 : orel R (OClosure (f_clo (v_cur s)) (f_locals (v_cur s))) (OClosure (f_clo (v_cur s')) (f_locals (v_cur s')))) by (constructor; assumption).
    destruct (mrel_alloc M _ _ (orel_ext _ _ _ _ (add_ext (m := v_mem s) (m' := v_mem s') (R := R)) Q1)) as [A1 A2]. pose proof (add_ext (m := v_mem s) (m' := v_mem s') (R := R)) as X1.
    destruct (alloc (v_mem s) _) as [c n1], (alloc (v_mem s') _) as [c' n1']. cbn [fst snd] in A1, A2.
    assert (Q2 := or_fun _ (length (v_codes s')) _ _ A2).
    destruct (mrel_alloc A1 _ _ (orel_ext _ _ _ _ (add_ext (m := n1) (m' := n1') (R := _)) Q2)) as [B1 B2]. pose proof (fun R => add_ext (m := n1) (m' := n1') (R := R)) as X2.
    destruct (alloc n1 _) as [fn n2], (alloc n1' _) as [fn' n2']. cbn [fst snd] in B1, B2.
    eapply ssim_npush; [eapply ext_trans; [exact X1|apply X2]| |exact B2].
    split; [exact B1|]. split; [reflexivity|]. split; [eapply frel_ext; [|exact Cu]|eapply frels_ext; [|exact Re]];
      (eapply ext_trans; [exact X1|apply X2]).
  (* PUSHLST *)
  - destruct (mrel_alloc M _ _ (new_list_rel _ (wrap32 z))) as [A1 A2]. pose proof (add_ext (m := v_mem s) (m' := v_mem s') (R := R)) as X1.
    destruct (alloc (v_mem s) _) as [c n1], (alloc (v_mem s') _) as [c' n1']. cbn [fst snd] in A1, A2.
    eapply ssim_npush; [exact X1|eapply srel_set_mem; eassumption|exact A2].
  (* PUSHMAP *)
  - destruct (mrel_alloc M _ _ (new_map_rel _ (wrap32 z))) as [A1 A2]. pose proof (add_ext (m := v_mem s) (m' := v_mem s') (R := R)) as X1.
    destruct (alloc (v_mem s) _) as [c n1], (alloc (v_mem s') _) as [c' n1']. cbn [fst snd] in A1, A2.
    eapply ssim_npush; [exact X1|eapply srel_set_mem; eassumption|exact A2].
  (* PUSHTYP *)
  - destruct St as [|x x' r r' Hx Hr]; [reflexivity|]. rewrite (type_same M _ _ Hx).
    eapply ssim_npush; [apply ext_refl|exact S|auto with move].
  (* RETURN *)
  - apply finish_sim, S.
  (* EXIT *)
  - destruct (vpush_rel size R s s' _ _ S Lo) as [|t t' T]; [reflexivity|]. apply finish_sim, T.
Qed.
End Env.
