(** Positions of instructions: the code generator with positions emits the same instructions, each at a place in the text. *)
From Coq Require Import ZArith List Bool Lia.
From Verif Require Import Base StringModel ExeModel ExeSpec AstModel LexModel LexSpec LexProofs ParseModel CodegenModel CompileModel PosModel PosSpec PosProofs.
Import ListNotations.
Open Scope Z_scope.

Definition bare_ev (e : bevent) : bevent := match e with EvEmit op ops _ _ => EvEmit op ops 0 0 | _ => e end.

Section Text.
Variable src : list Z.
Notation ins := (ins src). Notation inn := (inn src).

(** An emission at a place in the text; a name is read at the place where it stands. *)
Definition ev_ok (e : bevent) : Prop :=
  match e with
  | EvEmit op ops off len => ins (off, len) /\ (op = OP_PUSHVAR -> ops = [PStr (piece src off len)]) /\
    (op = OP_ASS -> exists name, ops = [PStr name] /\ target src off len name)
  | _ => True
  end.

Definition good (h g : gen) : Prop := forall n p,
  match h n p with
  | Some (e, n', p') => g n p = Some (map bare_ev e, n', p') /\ Forall ev_ok e
  | None => g n p = None
  end.

Lemma good_nil : good g_nil g_nil.
Proof. intros n p. cbn. auto. Qed.
Lemma good_fail : good g_fail g_fail.
Proof. intros n p. reflexivity. Qed.
Lemma good_seq h1 g1 h2 g2 : good h1 g1 -> good h2 g2 -> good (g_seq h1 h2) (g_seq g1 g2).
Proof.
  intros A B n p. unfold g_seq. specialize (A n p). destruct (h1 n p) as [[[e1 n1] p1]|]; [|now rewrite A]. destruct A as (-> & A).
  specialize (B n1 p1). destruct (h2 n1 p1) as [[[e2 n2] p2]|]; [|now rewrite B]. destruct B as (-> & B). rewrite map_app. split; [reflexivity|apply Forall_app; auto].
Qed.
Lemma good_label h g : (forall l, good (h l) (g l)) -> good (g_label h) (g_label g).
Proof.
  intros A n p. unfold g_label. specialize (A n (S n) p). destruct (h n (S n) p) as [[[e1 n1] p1]|]; [|now rewrite A]. destruct A as (-> & A).
  split; [reflexivity|constructor; [exact I|exact A]].
Qed.
Lemma good_count h g : (forall z, good (h z) (g z)) -> good (g_count h) (g_count g).
Proof. intros A n p. exact (A p n p). Qed.
Lemma good_here q : good (g_here q) (g_here q).
Proof. intros n p. cbn. split; [reflexivity|repeat constructor]. Qed.
Lemma good_emit p op ops : ins p -> op <> OP_PUSHVAR /\ op <> OP_ASS -> good (h_emit p op ops) (g_emit op ops).
Proof. intros P [D D'] n i. cbn. split; [reflexivity|]. constructor; [|constructor]. split; [destruct p; exact P|]. split; contradiction. Qed.
Lemma good_var p s : ins p -> piece src (fst p) (snd p) = s -> good (h_emit p OP_PUSHVAR [PStr s]) (g_emit OP_PUSHVAR [PStr s]).
Proof. intros P D n i. cbn. split; [reflexivity|]. constructor; [|constructor]. split; [destruct p; exact P|]. split; [intros _; now rewrite D|discriminate]. Qed.
Lemma good_value m h g : good h g -> good (for_value m h) (for_value m g).
Proof. intros A. destruct m; cbn; auto using good_fail. Qed.
Lemma good_pop p : ins p -> good (h_pop1 p) g_pop1.
Proof. intros P. apply good_emit; [exact P|split; discriminate]. Qed.
Lemma good_ass p s : ins p -> target src (fst p) (snd p) s -> good (h_ass p s) (g_ass s).
Proof.
  intros P D n i. cbn. split; [reflexivity|]. constructor; [|constructor]. split; [destruct p; exact P|]. split; [discriminate|]. intros _. exists s. auto.
Qed.
Lemma good_pop_if p s : ins p -> good (h_pop_if p s) (g_pop_if (er_stmt s)).
Proof. intros P. unfold h_pop_if, g_pop_if. destruct (is_expr _); [apply good_pop, P|apply good_nil]. Qed.
Lemma good_if (c : bool) h g h' g' : good h g -> good h' g' -> good (if c then h else h') (if c then g else g').
Proof. destruct c; auto. Qed.

Lemma good_func p name argc ps ps' b b' s : ins p -> ins (spos s) -> good ps ps' -> good b b' ->
  good (h_func p name argc ps b s) (g_func name argc ps' b' (er_stmt s)).
Proof.
  intros P S A B. unfold h_func, g_func. apply good_label. intros lf. apply good_label. intros lj.
  repeat apply good_seq; try assumption; try (apply good_here); try (apply good_emit; [assumption|split; discriminate]).
  - apply good_pop_if. apply (ins_at src), ins_end, S.
  - apply good_emit; [apply (ins_at src), ins_start, S|split; discriminate].
Qed.

Definition m_ok (m : hmode) : Prop := match m with HTgt off => inn off | _ => True end.
Lemma unop_var o : unop_code o <> OP_PUSHVAR /\ unop_code o <> OP_ASS. Proof. destruct o; split; discriminate. Qed.
Lemma binop_var o : binop_code o <> OP_PUSHVAR /\ binop_code o <> OP_ASS. Proof. destruct o; split; discriminate. Qed.

(** The callee of a call is compiled as a value, except an arrow, whose parts are. *)
Definition callee (f : xexpr) : Prop :=
  match f with XArw q a b => ins q /\ good (h_expr HVal a) (cg_expr MVal (er_expr a)) /\ good (h_expr HVal b) (cg_expr MVal (er_expr b)) | _ => True end.

Ltac start := first [assumption | apply (okE_pos src); assumption | apply (okS_pos src); assumption
  | apply (ins_at src), ins_start; first [assumption | apply (okE_pos src); assumption | apply (okS_pos src); assumption] ].
Ltac piece1 :=
  match goal with
  | |- good (g_seq _ _) _ => apply good_seq
  | |- good (for_value _ _) _ => apply good_value
  | |- good (g_label _) _ => apply good_label; intros ?
  | |- good (g_count _) _ => apply good_count; intros ?
  | |- good (g_here _) _ => apply good_here
  | |- good g_nil _ => apply good_nil
  | |- good g_fail _ => apply good_fail
  | |- good (h_pop1 _) _ => apply good_pop; start
  | |- good (h_ass _ _) _ => apply good_ass; [start|first [assumption | left; reflexivity]]
  | |- good (h_pop_if _ _) _ => apply good_pop_if; start
  | |- good (h_emit _ _ _) _ => apply good_emit; [start|first [split; discriminate | apply unop_var | apply binop_var]]
  end.
Ltac use :=
  match goal with
  | H : forall m, m_ok m -> good (h_expr m ?e) _ |- good (h_expr ?m0 ?e) _ => apply (H m0); first [exact I | assumption | apply (ins_start src); assumption]
  | H : good ?h ?g |- good ?h ?g => exact H
  | H : forall i, good (h_items i ?e) _ |- good (h_items _ ?e) _ => apply H
  | H : forall i, good (h_params i ?e) _ |- good (h_params _ ?e) _ => apply H
  | H : forall i, good (h_stmt i ?e) _ |- good (h_stmt _ ?e) _ => apply H
  | H : forall i, good (h_stmts i ?e) _ |- good (h_stmts _ ?e) _ => apply H
  | |- good (h_func _ _ _ _ _ _) _ => apply good_func; [start|start| |]
  | |- good (if _ then _ else _) _ => apply good_if
  | |- good (match ?m with HVal => _ | _ => _ end) _ => destruct m; cbn [er_mode]
  | H : okO src ?o |- good (match ?o with XNo => _ | XYes _ => _ end) _ => destruct o; cbn [er_oexpr]; inversion H; subst
  | |- good (match ?o with Some _ => _ | None => _ end) _ => destruct o
  end.
Ltac pieces := repeat first [piece1 | use].
Ltac inv := match goal with K : okE src _ |- _ => inversion K; subst; clear K | K : okEs src _ |- _ => inversion K; subst; clear K
  | K : okPs src _ |- _ => inversion K; subst; clear K | K : okAs src _ |- _ => inversion K; subst; clear K | K : okO src _ |- _ => inversion K; subst; clear K
  | K : okS src _ |- _ => inversion K; subst; clear K | K : okSs src _ |- _ => inversion K; subst; clear K end.

Lemma code_good :
  (forall e, okE src e -> (forall m, m_ok m -> good (h_expr m e) (cg_expr (er_mode m) (er_expr e))) /\ callee e) /\
  (forall es, okEs src es -> good (h_args es) (cg_args (er_exprs es)) /\ forall i, good (h_items i es) (cg_items i (er_exprs es))) /\
  (forall ps, okPs src ps -> good (h_pairs ps) (cg_pairs (er_pairs ps))) /\
  (forall ps, okAs src ps -> forall i, good (h_params i ps) (cg_params i (er_params ps))) /\
  (forall o, okO src o -> match o with XNo => True | XYes e => good (h_expr HVal e) (cg_expr MVal (er_expr e)) end) /\
  (forall s, okS src s -> forall brk, good (h_stmt brk s) (cg_stmt brk (er_stmt s))) /\
  (forall ss, okSs src ss -> forall brk, good (h_stmts brk ss) (cg_stmts brk (er_stmts ss))).
Proof.
  apply xast_ind; intros; inv.
  all: repeat match goal with H : okE src ?e, IH : okE src ?e -> _ |- _ => specialize (IH H) | H : okEs src ?e, IH : okEs src ?e -> _ |- _ => specialize (IH H)
    | H : okPs src ?e, IH : okPs src ?e -> _ |- _ => specialize (IH H) | H : okAs src ?e, IH : okAs src ?e -> _ |- _ => specialize (IH H)
    | H : okO src ?e, IH : okO src ?e -> _ |- _ => specialize (IH H) | H : okS src ?e, IH : okS src ?e -> _ |- _ => specialize (IH H)
    | H : okSs src ?e, IH : okSs src ?e -> _ |- _ => specialize (IH H) end.
  all: repeat match goal with H : (forall m, m_ok m -> _) /\ _ |- _ => destruct H | H : good _ _ /\ _ |- _ => destruct H end.
  all: match goal with |- (forall m, _) /\ callee _ => split; [intros m M|] | _ => idtac end.
  all: cbn [h_expr er_expr cg_expr h_args h_items h_pairs h_params h_stmt h_stmts er_exprs er_pairs er_params er_oexpr er_stmt er_stmts cg_args cg_items cg_pairs cg_params cg_stmt cg_stmts callee].
  all: try exact I.
  all: pieces.
  all: try (apply good_var; [assumption|reflexivity]).
  all: try (apply good_pop, (ins_at src); assumption).
  all: match goal with
    | |- good (match ?f with XInt _ _ => _ | _ => _ end) _ => destruct f; cbn [er_expr callee] in *; pieces
    | _ => idtac end.
  all: match goal with H : ins _ /\ good _ _ /\ good _ _ |- _ => destruct H as (? & ? & ?); pieces | _ => idtac end.
  - destruct (tuple_len _ =? 1).
    + match goal with H : forall m, m_ok m -> good (h_expr m rhs) _ |- _ => exact (H HVal I) end.
    + match goal with H : forall m, m_ok m -> good (h_expr m rhs) _ |- _ => exact (H (HCall _) I) end.
  - split; [assumption|]. split; pieces.
  - split; [pieces|intros; pieces].
  - split; [pieces|intros; pieces].
Qed.
End Text.
