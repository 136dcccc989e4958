(** Programs for the examples of PropsDump.v. *)
From Coq Require Import ZArith String List Lia Bool.
From Verif Require Import Base StringModel ExeModel AsmModel CompSpec DumpModel.
Import ListNotations.
Open Scope list_scope.
Open Scope Z_scope.

(** A text for floats: their bits, as a number. *)
Definition bits_text (b : Z) : list Z := ShowModel.int_text b.
Definition lines_of (ls : list string) : list Z := flat_map (fun l => bytes_of l ++ [10]) ls.

(** A loop that counts down, with a label behind it. *)
Definition countdown : list bevent :=
  [EvLabel; EvLabel; EvEmit OP_PUSHINT [PInt 10] 0 2; EvSet 0 1; EvEmit OP_ASS [PStr (bytes_of "n")] 0 1; EvEmit OP_PUSHVAR [PStr (bytes_of "n")] 3 1;
   EvEmit OP_JUMPIFNOTANDPOP [PProm 1] 0 4; EvEmit OP_JUMP [PProm 0] 0 4; EvSet 1 5; EvEmit OP_PUSHFLT [PFlt 42] 0 1; EvEmit OP_RETURN [PInt (-1)] 5 6].
Definition made_of (evs : list bevent) : executable :=
  match build exeb_new evs with ROk b => match exeb_finalize b with ROk x => x | _ => mkexe [] [] end | _ => mkexe [] [] end.

(** Two texts that do not read alike and are listed alike. *)
Definition quoted (s : string) : list Z := 34 :: flat_map (fun c => if c =? 10 then [92; 110] else [c]) (bytes_of s) ++ [34; 59].
Definition nl : string := String (Ascii.ascii_of_nat 10) EmptyString.
Definition src_first : list Z := quoted ("x] " ++ nl ++ "1: POP 1 " ++ nl ++ "2: PUSHSTR [y") ++ quoted "z".
Definition src_second : list Z := quoted "x" ++ quoted ("y] " ++ nl ++ "1: POP 1 " ++ nl ++ "2: PUSHSTR [z").

Lemma text_checked s : forallb (fun c => (1 <=? c) && (c <? 256)) s = true -> CompSpec.text_ok s.
Proof.
  intros H. apply Forall_forall. intros c I. rewrite forallb_forall in H. specialize (H c I). apply andb_prop in H. destruct H as [A B]. apply Z.leb_le in A. apply Z.ltb_lt in B. lia.
Qed.
