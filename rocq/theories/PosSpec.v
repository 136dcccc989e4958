(** Where things stand in a text: what C96 says about the positions of instructions and of errors. *)
From Coq Require Import ZArith List Bool.
From Verif Require Import Base StringModel ExeModel LexModel PosModel.
Import ListNotations.
Open Scope Z_scope.

(** The [len] bytes of a text from [off] on. *)
Definition piece (src : list Z) (off len : Z) : list Z := firstn (Z.to_nat len) (skipn (Z.to_nat off) src).
(** A place begins in the text and ends in it. *)
Definition inside (src : list Z) (off len : Z) : Prop :=
  0 <= off <= Z.of_nat (length src) /\ 0 <= off + len <= Z.of_nat (length src).
(** An offset that is not in the middle of a token. *)
Definition between (src : list Z) (off : Z) : Prop :=
  forall l t, tokenize true src = LOk l -> In t l -> ~ (t_off t < off < t_off t + t_len t).
(** An offset where a token begins; the end of the text if the text cannot be split into tokens. *)
Definition begins (src : list Z) (off : Z) : Prop :=
  match tokenize true src with LOk l => exists t, In t l /\ t_off t = off | _ => off = Z.of_nat (length src) end.
(** What stands at the place of an instruction that assigns to a variable: the name; or a function definition begins there; or, for a parameter,
    it is the comma or the bracket behind it. *)
Definition target (src : list Z) (off len : Z) (name : list Z) : Prop :=
  piece src off len = name \/ piece src off 3 = [102; 117; 110] \/ piece src off len = [44] \/ piece src off len = [41].
(** Two executables with the same instructions. *)
Definition same_code (x y : executable) : Prop := length (x_body x) = length (x_body y) /\ forall i, exe_fetch x i = exe_fetch y i.
