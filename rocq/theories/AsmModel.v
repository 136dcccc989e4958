(** Model of src/lib/assembler/assemble.c and src/lib/utils/labellist.c.
    The cursor is represented by the remaining bytes; an offset is the total length minus the remaining length.
    Characters are bytes; isalpha, isdigit and isspace are those of the C locale. *)
From Coq Require Import ZArith List Lia Bool String Ascii.
From Verif Require Import Base StringModel FloatModel ExeModel.
Import ListNotations.
Open Scope list_scope.
Open Scope Z_scope.

(** executable.c:80-124, the names in instr_table: A C string literal as bytes. *)
Fixpoint bytes_of (s : string) : list Z :=
  match s with
  | EmptyString => []
  | String c r => Z.of_N (N_of_ascii c) :: bytes_of r
  end.

(** assemble.c:379-483, the ways out of assemble and its helpers: Outcomes: [AFuel] is running out of the fuel of a loop. *)
Inductive ares (A : Type) := AOk (a : A) | AErr | AUB | AFuel.
Arguments AOk {A}. Arguments AErr {A}. Arguments AUB {A}. Arguments AFuel {A}.

(** ctype.h as used in assemble.c:19, 58, 82, 325 ("C" locale). *)
Definition isalpha (c : Z) : bool := ((65 <=? c) && (c <=? 90)) || ((97 <=? c) && (c <=? 122)).
(** ctype.h as used in assemble.c:19, 218, 274, 298. *)
Definition isdigit (c : Z) : bool := (48 <=? c) && (c <=? 57).
(** ctype.h as used in assemble.c:25. *)
Definition isspace (c : Z) : bool := (c =? 32) || ((9 <=? c) && (c <=? 13)).
(** assemble.c:58, 82, 325, the tests for the first character of a name. *)
Definition ident_start (c : Z) : bool := isalpha c || (c =? 95).
(** assemble.c:19, the characters of a name. *)
Definition ident_char (c : Z) : bool := isalpha c || isdigit c || (c =? 95).

(** assemble.c:17-21 skipIdentifier: the bytes skipped and the rest. *)
Fixpoint skip_identifier (s : list Z) : list Z * list Z :=
  match s with
  | [] => ([], [])
  | c :: r => if ident_char c then let (a, b) := skip_identifier r in (c :: a, b) else ([], s)
  end.

(** assemble.c:23-27 skipSpaces. *)
Fixpoint skip_spaces (s : list Z) : list Z :=
  match s with
  | [] => []
  | c :: r => if isspace c then skip_spaces r else s
  end.

(** assemble.c:34-102 parseLabelAndOpcode, called with the cursor inside the text. The result is the flag "an error was
    reported but parsing went on" (lines 58-63 report "Missing opcode" and do not return), the label if any, the bytes of
    the opcode name, the remaining length at the opcode name (for its offset), and the rest. *)
Definition parse_label_and_opcode (s : list Z) : ares (bool * option (list Z) * list Z * nat * list Z) :=
  match s with
  | [] => AUB
  | c :: _ =>
    let bad := negb (ident_start c) in
    let (name, r) := skip_identifier s in
    let r := skip_spaces r in
    match r with
    | 58 :: r' =>
      let r' := skip_spaces r' in
      match r' with
      | [] => AErr
      | c' :: _ =>
        if ident_start c' then
          let (op, r2) := skip_identifier r' in
          AOk (bad, Some name, op, List.length r', skip_spaces r2)
        else AErr
      end
    | _ => AOk (bad, None, name, List.length s, r)
    end
  end.

(** assemble.c:115-118: the bytes up to a backslash, a double quote or the end. *)
Fixpoint string_chunk (s : list Z) : list Z * list Z :=
  match s with
  | [] => ([], [])
  | c :: r => if (c =? 92) || (c =? 34) then ([], s) else let (a, b) := string_chunk r in (c :: a, b)
  end.

(** assemble.c:136-147: escape sequences. *)
Definition asm_escape (c : Z) : option Z :=
  if c =? 110 then Some 10 else if c =? 116 then Some 9 else if c =? 114 then Some 13 else
  if c =? 34 then Some 34 else if c =? 92 then Some 92 else None.

(** assemble.c:113-160, the loop of parseStringOperand; [buf] is what is in the 1024-byte buffer. The result is the
    contents and the rest (at the closing quote, or empty at the end of the text). *)
Fixpoint string_loop (fuel : nat) (buf s : list Z) : ares (list Z * list Z) :=
  match fuel with
  | O => AFuel
  | S f =>
    let (chunk, r) := string_chunk s in
    if 1024 <? Z.of_nat (List.length buf) + Z.of_nat (List.length chunk) then AErr else
    let buf := buf ++ chunk in
    match r with
    | 92 :: r1 =>
      match r1 with
      | [] => AErr
      | c :: r2 =>
        match asm_escape c with
        | None => AErr
        | Some c' =>
          if 1024 <? Z.of_nat (List.length buf) + 1 then AErr else
          match r2 with
          | [] => AOk (buf ++ [c'], [])
          | 34 :: _ => AOk (buf ++ [c'], r2)
          | _ => string_loop f (buf ++ [c']) r2
          end
        end
      end
    | _ => AOk (buf, r)
    end
  end.

(** The operand is used as a C string: strlen stops at the first NUL byte (executable.c:617). *)
Fixpoint until_nul (s : list Z) : list Z :=
  match s with [] => [] | c :: r => if c =? 0 then [] else c :: until_nul r end.

(** assemble.c:104-184 parseStringOperand, after the opening quote; allocation succeeds. *)
Definition parse_string_operand (s : list Z) : ares (list Z * list Z) :=
  match string_loop (S (List.length s)) [] s with
  | AOk (_, []) => AErr
  | AOk (b, _ :: r) => AOk (until_nul b, r)
  | AErr => AErr | AUB => AUB | AFuel => AFuel
  end.

(** assemble.c:203-218, the digit loop of parseIntegerOperand (reads at least one character). *)
Fixpoint int_loop (buf : Z) (s : list Z) : ares (Z * list Z) :=
  match s with
  | [] => AOk (buf, [])
  | c :: r =>
    if isdigit c then
      let d := c - 48 in
      if (2^63 - 1 - d) / 10 <? buf then AErr else int_loop (buf * 10 + d) r
    else AOk (buf, s)
  end.

(** assemble.c:186-210 and 227-257, the optional sign. *)
Definition sign_of (s : list Z) : Z * list Z :=
  match s with 43 :: r => (1, r) | 45 :: r => (-1, r) | _ => (1, s) end.

(** assemble.c:186-225 parseIntegerOperand (the caller ensures a digit after the sign). *)
Definition parse_integer_operand (s : list Z) : ares (operand * list Z) :=
  let (sg, r) := sign_of s in
  match int_loop 0 r with
  | AOk (n, r') => AOk (PInt (sg * n), r')
  | AErr => AErr | AUB => AUB | AFuel => AFuel
  end.

(** assemble.c:247-257, digits before the dot. *)
Fixpoint float_int_loop (buf : Z) (s : list Z) : Z * list Z :=
  match s with
  | [] => (buf, [])
  | c :: r => if c =? 46 then (buf, s) else float_int_loop (f_add (f_mul buf (f_of_int 10)) (f_of_int (c - 48))) r
  end.

(** assemble.c:264-275, digits after the dot. *)
Fixpoint float_frac_loop (buf q : Z) (s : list Z) : Z * list Z :=
  match s with
  | [] => (buf, [])
  | c :: r =>
    if isdigit c then
      let q := f_div q (f_of_int 10) in
      float_frac_loop (f_add buf (f_mul q (f_of_int (c - 48)))) q r
    else (buf, s)
  end.

(** assemble.c:227-279 parseFloatingOperand. *)
Definition parse_float_operand (s : list Z) : operand * list Z :=
  let (sg, r) := sign_of s in
  let (b1, r1) := float_int_loop (f_of_int 0) r in
  let (b2, r2) := float_frac_loop b1 (f_of_int 1) (tl r1) in
  (PFlt (f_mul (f_of_int sg) b2), r2).

(** assemble.c:310-313: past the digits. *)
Fixpoint skip_digits (s : list Z) : list Z :=
  match s with [] => [] | c :: r => if isdigit c then skip_digits r else s end.

(** assemble.c:312-316: is what follows the digits a dot and a digit? *)
Definition dot_digit (s : list Z) : bool :=
  match skip_digits s with 46 :: d :: _ => isdigit d | _ => false end.

(** labellist.c:4-15 LabelInfo and LabelList: labellist.c: the list of labels, newest first; promises are numbered by the builder. *)
Definition labels := list (list Z * nat).
(** labellist.c:46-86, the search of LabelList_GetLabel. *)
Fixpoint find_label (l : labels) (name : list Z) : option nat :=
  match l with
  | [] => None
  | (n, p) :: r => if bytes_eqb name n then Some p else find_label r name
  end.

(** labellist.c:46-86 LabelList_GetLabel. *)
Definition get_label (l : labels) (b : builder) (name : list Z) : labels * builder * nat :=
  match find_label l name with
  | Some p => (l, b, p)
  | None => let p := List.length (b_proms b) in ((name, p) :: l, exeb_label b, p)
  end.

(** assemble.c:281-377, one operand; [c :: _] is at the operand. *)
Definition parse_operand (l : labels) (b : builder) (s : list Z) : ares (labels * builder * operand * list Z) :=
  match s with
  | [] => AErr
  | c :: r =>
    if c =? 34 then
      match parse_string_operand r with
      | AOk (t, r') => AOk (l, b, PStr t, r')
      | AErr => AErr | AUB => AUB | AFuel => AFuel
      end
    else if isdigit c || (c =? 45) || (c =? 43) then
      let ds := if isdigit c then s else r in
      match ds with
      | [] => AErr
      | d :: _ =>
        if isdigit d then
          if dot_digit ds then let (o, r') := parse_float_operand s in AOk (l, b, o, r')
          else match parse_integer_operand s with
               | AOk (o, r') => AOk (l, b, o, r')
               | AErr => AErr | AUB => AUB | AFuel => AFuel
               end
        else AErr
      end
    else if ident_start c then
      let (name, r') := skip_identifier s in
      let '(l', b', p) := get_label l b name in
      AOk (l', b', PProm p, r')
    else AErr
  end.

(** assemble.c:287-375, the loop of parseOperands. At the end of the text after a comma the character read is the NUL that
    terminates the body when the source comes from a file (an error), and uninitialised memory otherwise (source.c:187-218
    writes no terminator); [term] says which. *)
Fixpoint operands_loop (fuel : nat) (term : bool) (l : labels) (b : builder) (ops : list operand) (s : list Z)
  : ares (labels * builder * list operand * list Z) :=
  match fuel with
  | O => AFuel
  | S f =>
    match s with
    | [] => if term then AErr else AUB
    | _ =>
      match parse_operand l b s with
      | AOk (l', b', o, r) =>
        if Nat.eqb (List.length ops) 8 then AErr else
        let ops := ops ++ [o] in
        match skip_spaces r with
        | [] => AOk (l', b', ops, [])
        | 59 :: r' => AOk (l', b', ops, 59 :: r')
        | 44 :: r' => operands_loop f term l' b' ops (skip_spaces r')
        | _ => AErr
        end
      | AErr => AErr | AUB => AUB | AFuel => AFuel
      end
    end
  end.

(** assemble.c:281-377 parseOperands. *)
Definition parse_operands (term : bool) (l : labels) (b : builder) (s : list Z) : ares (labels * builder * list operand * list Z) :=
  match s with
  | [] => AOk (l, b, [], [])
  | 59 :: _ => AOk (l, b, [], s)
  | _ => operands_loop (S (List.length s)) term l b [] s
  end.

Open Scope string_scope.
(** executable.c:80-123 instr_table: names, in table order. *)
Definition instr_names : list (string * opcode) :=
  [("NOPE", OP_NOPE); ("POS", OP_POS); ("NEG", OP_NEG); ("NOT", OP_NOT); ("ADD", OP_ADD); ("SUB", OP_SUB); ("MUL", OP_MUL);
   ("DIV", OP_DIV); ("MOD", OP_MOD); ("EQL", OP_EQL); ("NQL", OP_NQL); ("LSS", OP_LSS); ("GRT", OP_GRT); ("LEQ", OP_LEQ);
   ("GEQ", OP_GEQ); ("NLB", OP_NLB); ("STP", OP_STP); ("ASS", OP_ASS); ("POP", OP_POP); ("CHECKTYPE", OP_CHECKTYPE);
   ("CALL", OP_CALL); ("SELECT", OP_SELECT); ("SELECT2", OP_SELECT2); ("INSERT", OP_INSERT); ("INSERT2", OP_INSERT2);
   ("PUSHINT", OP_PUSHINT); ("PUSHFLT", OP_PUSHFLT); ("PUSHSTR", OP_PUSHSTR); ("PUSHVAR", OP_PUSHVAR); ("PUSHTRU", OP_PUSHTRU);
   ("PUSHFLS", OP_PUSHFLS); ("PUSHNNE", OP_PUSHNNE); ("PUSHFUN", OP_PUSHFUN); ("PUSHLST", OP_PUSHLST); ("PUSHMAP", OP_PUSHMAP);
   ("PUSHTYP", OP_PUSHTYP); ("PUSHNNETYP", OP_PUSHNNETYP); ("RETURN", OP_RETURN); ("EXIT", OP_EXIT);
   ("JUMPIFNOTANDPOP", OP_JUMPIFNOTANDPOP); ("JUMPIFANDPOP", OP_JUMPIFANDPOP); ("JUMP", OP_JUMP)].
Close Scope string_scope.

(** executable.c:127-150, the loop of Executable_GetOpcodeBinaryFromName. *)
Fixpoint find_name (tbl : list (string * opcode)) (name : list Z) : option opcode :=
  match tbl with
  | [] => None
  | (n, o) :: r => if bytes_eqb name (bytes_of n) then Some o else find_name r name
  end.

(** executable.c:127-150 Executable_GetOpcodeBinaryFromName (names passed in contain no NUL byte). *)
Definition opcode_of_name (name : list Z) : option opcode :=
  if 128 <=? Z.of_nat (List.length name) then None else find_name instr_names name.

(** labellist.c:37-44 LabelList_SetLabel. *)
Definition set_label (l : labels) (b : builder) (name : list Z) (v : Z) : ares (labels * builder) :=
  let '(l', b', p) := get_label l b name in
  match exeb_resolve b' p v with
  | ROk b2 => AOk (l', b2)
  | RErr => AErr | RUB => AUB
  end.

(** assemble.c:412-463, the main loop. [total] is the length of the text; [bad] records an error reported without
    stopping. *)
Fixpoint asm_loop (fuel : nat) (term : bool) (total : Z) (bad : bool) (l : labels) (b : builder) (s : list Z)
  : ares (bool * labels * builder) :=
  match fuel with
  | O => AFuel
  | S f =>
    match skip_spaces s with
    | [] => AOk (bad, l, b)
    | s1 =>
      match parse_label_and_opcode s1 with
      | AOk (bad1, lab, name, oprem, r) =>
        match (match lab with None => AOk (l, b) | Some n => set_label l b n (exeb_count b) end) with
        | AOk (l1, b1) =>
          match opcode_of_name name with
          | None => AErr
          | Some op =>
            match parse_operands term l1 b1 r with
            | AOk (l2, b2, ops, r2) =>
              let r3 := tl r2 in
              match exeb_append b2 op ops (total - Z.of_nat oprem) (Z.of_nat (List.length name)) with
              | ROk b3 => asm_loop f term total (bad || bad1) l2 b3 r3
              | RErr => AErr | RUB => AUB
              end
            | AErr => AErr | AUB => AUB | AFuel => AFuel
            end
          end
        | AErr => AErr | AUB => AUB | AFuel => AFuel
        end
      | AErr => AErr | AUB => AUB | AFuel => AFuel
      end
    end
  end.

(** labellist.c:89-99 LabelList_GetUnresolvedCount is positive. *)
Definition unresolved (l : labels) (b : builder) : bool :=
  existsb (fun np => match nth_error (b_proms b) (snd np) with Some None => true | _ => false end) l.

(** assemble.c:379-483 assemble: the executable and whether an error was nevertheless reported. *)
Definition assemble (term : bool) (s : list Z) : ares (executable * bool) :=
  match asm_loop (S (List.length s)) term (Z.of_nat (List.length s)) false [] exeb_new s with
  | AOk (bad, l, b) =>
    if unresolved l b then AErr else
    match exeb_finalize b with
    | ROk x => AOk (x, bad)
    | RErr => AErr | RUB => AUB
    end
  | AErr => AErr | AUB => AUB | AFuel => AFuel
  end.
