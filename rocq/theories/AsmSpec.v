(** Specification of assembly texts: programs as lists of lines, how a program may be written, and the instructions it denotes. *)
From Coq Require Import ZArith List Lia Bool String.
From Verif Require Import Base FloatModel ExeModel AsmModel AsmProofs.
Import ListNotations.
Open Scope list_scope.
Open Scope Z_scope.

Inductive arg := GInt (z : Z) | GStr (s : list Z) | GLab (name : list Z) | GFlt (bits : Z).
Record line := mkline { ln_label : option (list Z); ln_op : opcode; ln_args : list arg }.

(** * How a program may be written *)
Definition letter (c : Z) : Prop := 65 <= c <= 90 \/ 97 <= c <= 122.
Definition name_start (c : Z) : Prop := letter c \/ c = 95.
Definition name_char (c : Z) : Prop := name_start c \/ is_digit c.
Definition is_name (n : list Z) : Prop := match n with [] => False | c :: r => name_start c /\ Forall name_char r end.
Definition blank (w : list Z) : Prop := Forall (fun c => c = 32 \/ 9 <= c <= 13) w.

Inductive writes_char : Z -> list Z -> Prop :=
| wc_plain c : 1 <= c < 256 -> c <> 34 -> c <> 92 -> writes_char c [c]
| wc_escape c e : In (c, e) [(10, 110); (9, 116); (13, 114); (34, 34); (92, 92)] -> writes_char c [92; e].

(** The double that a number with a fractional part stands for: from the left, ten times what was read plus the digit; behind the point, the digit
    times 1/10, 1/100 and so on is added; all in double precision. *)
Definition whole_part (ds : list Z) : Z := fold_left (fun b d => f_add (f_mul b (f_of_int 10)) (f_of_int (d - 48))) ds (f_of_int 0).
Definition with_fraction (b : Z) (fs : list Z) : Z :=
  fst (fold_left (fun x d => let q := f_div (snd x) (f_of_int 10) in (f_add (fst x) (f_mul q (f_of_int (d - 48))), q)) fs (b, f_of_int 1)).
Definition float_value (sg : sign) (ds fs : list Z) : Z := f_mul (f_of_int (sign_value sg 1)) (with_fraction (whole_part ds) fs).

Inductive writes_arg : arg -> list Z -> Prop :=
| wa_int sg ds : Forall is_digit ds -> ds <> [] -> digits_value ds <= 2 ^ 63 - 1 ->
    writes_arg (GInt (sign_value sg (digits_value ds))) (sign_text sg ++ ds)
| wa_str s ts : Forall2 writes_char s ts -> Z.of_nat (List.length s) <= 1024 -> writes_arg (GStr s) (34 :: List.concat ts ++ [34])
| wa_lab n : is_name n -> writes_arg (GLab n) n
| wa_flt sg ds fs : Forall is_digit ds -> ds <> [] -> Forall is_digit fs -> fs <> [] ->
    writes_arg (GFlt (float_value sg ds fs)) (sign_text sg ++ ds ++ 46 :: fs).

Inductive writes_args : list arg -> list Z -> Prop :=
| was_one a t w : writes_arg a t -> blank w -> writes_args [a] (t ++ w)
| was_more a t w w' r tr : writes_arg a t -> blank w -> blank w' -> writes_args r tr -> writes_args (a :: r) (t ++ w ++ 44 :: w' ++ tr).

Inductive writes_label : option (list Z) -> list Z -> Prop :=
| wl_none : writes_label None []
| wl_some n w w' : is_name n -> blank w -> blank w' -> writes_label (Some n) (n ++ w ++ 58 :: w').

(** The name of an instruction. *)
Definition spelled (op : opcode) : string :=
  match op with
  | OP_NOPE => "NOPE" | OP_POS => "POS" | OP_NEG => "NEG" | OP_NOT => "NOT" | OP_ADD => "ADD" | OP_SUB => "SUB" | OP_MUL => "MUL"
  | OP_DIV => "DIV" | OP_MOD => "MOD" | OP_EQL => "EQL" | OP_NQL => "NQL" | OP_LSS => "LSS" | OP_GRT => "GRT" | OP_LEQ => "LEQ"
  | OP_GEQ => "GEQ" | OP_NLB => "NLB" | OP_STP => "STP" | OP_ASS => "ASS" | OP_POP => "POP" | OP_CHECKTYPE => "CHECKTYPE"
  | OP_CALL => "CALL" | OP_SELECT => "SELECT" | OP_SELECT2 => "SELECT2" | OP_INSERT => "INSERT" | OP_INSERT2 => "INSERT2"
  | OP_PUSHINT => "PUSHINT" | OP_PUSHFLT => "PUSHFLT" | OP_PUSHSTR => "PUSHSTR" | OP_PUSHVAR => "PUSHVAR" | OP_PUSHTRU => "PUSHTRU"
  | OP_PUSHFLS => "PUSHFLS" | OP_PUSHNNE => "PUSHNNE" | OP_PUSHFUN => "PUSHFUN" | OP_PUSHLST => "PUSHLST" | OP_PUSHMAP => "PUSHMAP"
  | OP_PUSHTYP => "PUSHTYP" | OP_PUSHNNETYP => "PUSHNNETYP" | OP_RETURN => "RETURN" | OP_EXIT => "EXIT"
  | OP_JUMPIFNOTANDPOP => "JUMPIFNOTANDPOP" | OP_JUMPIFANDPOP => "JUMPIFANDPOP" | OP_JUMP => "JUMP"
  end%string.

(** The mnemonic is followed by blank space when there are operands. *)
Inductive writes_line : line -> list Z -> Prop :=
| wn_plain lab tl nm op w : writes_label lab tl -> nm = spelled op -> blank w ->
    writes_line (mkline lab op []) (tl ++ bytes_of nm ++ w)
| wn_args lab tl nm op w ags ta : writes_label lab tl -> nm = spelled op -> blank w -> w <> [] -> writes_args ags ta ->
    (List.length ags <= 8)%nat -> writes_line (mkline lab op ags) (tl ++ bytes_of nm ++ w ++ ta).

(** A semicolon ends a line; the last one may be missing. *)
Inductive writes : list line -> list Z -> Prop :=
| wp_nil w : blank w -> writes [] w
| wp_last w ln t : blank w -> writes_line ln t -> writes [ln] (w ++ t)
| wp_cons w ln t r tr : blank w -> writes_line ln t -> writes r tr -> writes (ln :: r) (w ++ t ++ 59 :: tr).

(** * What a program denotes *)
Definition same_label (n : list Z) (ln : line) : bool :=
  match ln_label ln with Some m => if list_eq_dec Z.eq_dec n m then true else false | None => false end.

(** The indices of the first and of the last line that carries label [n], counting from [i]. *)
Fixpoint first_line (n : list Z) (i : Z) (prog : list line) : option Z :=
  match prog with
  | [] => None
  | ln :: r => if same_label n ln then Some i else first_line n (i + 1) r
  end.
Fixpoint last_line (n : list Z) (i : Z) (prog : list line) : option Z :=
  match prog with
  | [] => None
  | ln :: r => match last_line n (i + 1) r with Some j => Some j | None => if same_label n ln then Some i else None end
  end.

(** The line that label [n] stands for in line [k]: the nearest one with that label from there back, or else the first one after. *)
Definition target (prog : list line) (k : nat) (n : list Z) : option Z :=
  match last_line n 0 (firstn (S k) prog) with
  | Some j => Some j
  | None => first_line n (Z.of_nat (S k)) (skipn (S k) prog)
  end.

(** The operand of type [ty] that an argument stands for. *)
Definition arg_value (tgt : list Z -> option Z) (ty : optype) (a : arg) : option operand :=
  match a, ty with
  | GInt z, TInt => Some (PInt z)
  | GStr s, TStr => Some (PStr s)
  | GLab n, TIdx => option_map PIdx (tgt n)
  | GLab n, TInt => option_map PInt (tgt n)
  | GFlt b, TFlt => Some (PFlt b)
  | GLab n, TFlt => option_map (fun v => PFlt (u64 v)) (tgt n)
  | _, _ => None
  end.

Fixpoint args_value (tgt : list Z -> option Z) (tys : list optype) (ags : list arg) : option (list operand) :=
  match tys, ags with
  | [], [] => Some []
  | ty :: tys', a :: ags' =>
    match arg_value tgt ty a, args_value tgt tys' ags' with Some o, Some os => Some (o :: os) | _, _ => None end
  | _, _ => None
  end.

(** The instruction that line [k] stands for, if its operands are of the right types and its labels exist. *)
Definition line_value (prog : list line) (k : nat) : option (opcode * list operand) :=
  match nth_error prog k with
  | Some ln => option_map (fun os => (ln_op ln, os)) (args_value (target prog k) (optypes (ln_op ln)) (ln_args ln))
  | None => None
  end.

(** No label is given to two lines. *)
Definition labels_once (prog : list line) : Prop := NoDup (flat_map (fun ln => match ln_label ln with Some n => [n] | None => [] end) prog).

(** Bytes of string data. *)
Definition arg_bytes (a : arg) : Z := match a with GStr s => Z.of_nat (List.length s) + 1 | _ => 0 end.
Definition prog_bytes (prog : list line) : Z := fold_right Z.add 0 (map arg_bytes (flat_map ln_args prog)).
