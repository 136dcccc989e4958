(** Model of src/lib/executable.c: instruction table, executable builder (with label operands that are promises),
    instruction fetch and comparison of executables. *)
From Coq Require Import ZArith List Lia Bool.
From Verif Require Import Base StringModel FloatModel.
Import ListNotations.
Open Scope Z_scope.

(** executable.h:55-97 Opcode (in table order). *)
Inductive opcode :=
| OP_NOPE | OP_POS | OP_NEG | OP_NOT | OP_ADD | OP_SUB | OP_MUL | OP_DIV | OP_MOD
| OP_EQL | OP_NQL | OP_LSS | OP_GRT | OP_LEQ | OP_GEQ | OP_NLB | OP_STP
| OP_ASS | OP_POP | OP_CHECKTYPE | OP_CALL | OP_SELECT | OP_SELECT2 | OP_INSERT | OP_INSERT2
| OP_PUSHINT | OP_PUSHFLT | OP_PUSHSTR | OP_PUSHVAR | OP_PUSHTRU | OP_PUSHFLS | OP_PUSHNNE
| OP_PUSHFUN | OP_PUSHLST | OP_PUSHMAP | OP_PUSHTYP | OP_PUSHNNETYP
| OP_RETURN | OP_EXIT | OP_JUMPIFNOTANDPOP | OP_JUMPIFANDPOP | OP_JUMP.

(** executable.h:37-43 OperandType, without OPTP_PROMISE, which is never an expected type. *)
Inductive optype := TIdx | TInt | TFlt | TStr.

(** executable.c:80-123 instr_table: the operand types of each instruction. *)
Definition optypes (o : opcode) : list optype :=
  match o with
  | OP_ASS => [TStr] | OP_POP => [TInt] | OP_CHECKTYPE => [TInt; TStr] | OP_CALL => [TInt; TInt]
  | OP_PUSHINT => [TInt] | OP_PUSHFLT => [TFlt] | OP_PUSHSTR => [TStr] | OP_PUSHVAR => [TStr]
  | OP_PUSHFUN => [TIdx; TInt; TStr] | OP_PUSHLST => [TInt] | OP_PUSHMAP => [TInt] | OP_RETURN => [TInt]
  | OP_JUMPIFNOTANDPOP => [TIdx] | OP_JUMPIFANDPOP => [TIdx] | OP_JUMP => [TIdx]
  | _ => []
  end.

(** executable.h:45-53 Operand: an integer or index is a [long long], a float its 64-bit pattern, a string the bytes before
    the terminating NUL, a promise an identifier. *)
Inductive operand := PIdx (z : Z) | PInt (z : Z) | PFlt (bits : Z) | PStr (s : list Z) | PProm (p : nat).

(** executable.c:41-49 Instruction.operands: an 8-byte word, or a word waiting for a promise (promise.c: the word's address
    is in the gap list of promise [p]). *)
Inductive slot := Word (w : Z) | Hole (p : nat).

(** executable.c:41-49 Instruction. *)
Record binstr := mkbi { bi_op : opcode; bi_slots : list slot; bi_off : Z; bi_len : Z }.

(** executable.c:59-62 xExeBuilder together with the promises in existence ([Some v] = set). All promises made by the
    compiler and by the assembler have 8-byte values (codegenctx.c:15-24 Label_New, labellist.c:58).
    The bucket lists are represented by their contents (theorem C24 about bucketlist.c). *)
Record builder := mkbd { b_data : list Z; b_code : list binstr; b_promc : Z; b_proms : list (option Z) }.

(** executable.c:429-445 ExeBuilder_New. *)
Definition exeb_new : builder := mkbd [] [] 0 [].

(** promise.c:52-67 Promise_New: the new promise is number [length (b_proms b)]. *)
Definition exeb_label (b : builder) : builder := mkbd (b_data b) (b_code b) (b_promc b) (b_proms b ++ [None]).

(** executable.c:487-495 promise_callback, promise.c:85-106 Promise_Resolve: one gap. *)
Definition fill_slot (p : nat) (v : Z) (s : slot) : slot :=
  match s with Hole q => if Nat.eqb p q then Word (u64 v) else s | Word _ => s end.
(** promise.c:85-106 Promise_Resolve: the gaps of one instruction. *)
Definition fill_instr (p : nat) (v : Z) (i : binstr) : binstr :=
  mkbi (bi_op i) (map (fill_slot p v) (bi_slots i)) (bi_off i) (bi_len i).
(** promise.c:36-50 Gap. *)
Definition is_hole (p : nat) (s : slot) : bool := match s with Hole q => Nat.eqb p q | Word _ => false end.
(** promise.c:85-106, the number of gaps filled. *)
Definition count_holes (p : nat) (code : list binstr) : Z :=
  Z.of_nat (length (filter (is_hole p) (flat_map bi_slots code))).

(** promise.c:85-108 Promise_Resolve with the callback executable.c:487-495 promise_callback. *)
Definition exeb_resolve (b : builder) (p : nat) (v : Z) : res builder :=
  match nth_error (b_proms b) p with
  | None => RUB
  | Some _ =>
    ROk (mkbd (b_data b) (map (fill_instr p v) (b_code b)) (b_promc b - count_holes p (b_code b)) (upd (b_proms b) p (Some v)))
  end.

(** executable.c:547-648, the loop over the operands of ExeBuilder_Append: checks the type of each operand and stores it. *)
Fixpoint put_operands (data : list Z) (promc : Z) (proms : list (option Z)) (tys : list optype) (ops : list operand)
  : res (list Z * Z * list slot) :=
  match tys, ops with
  | [], [] => ROk (data, promc, [])
  | ty :: tys', op :: ops' =>
    match
      (match op, ty with
       | PIdx z, TIdx => ROk (data, promc, Word (u64 z))
       | PInt z, TInt => ROk (data, promc, Word (u64 z))
       | PFlt f, TFlt => ROk (data, promc, Word (u64 f))
       | PStr s, TStr => ROk (data ++ s ++ [0], promc, Word (Z.of_nat (length data)))
       | PProm _, TStr => RErr
       | PProm p, _ =>
         match nth_error proms p with
         | None => RUB
         | Some None => ROk (data, promc + 1, Hole p)
         | Some (Some v) => ROk (data, promc, Word (u64 v))
         end
       | _, _ => RErr
       end)
    with
    | ROk (d, c, s) =>
      match put_operands d c proms tys' ops' with
      | ROk (d', c', ss) => ROk (d', c', s :: ss)
      | RErr => RErr | RUB => RUB
      end
    | RErr => RErr
    | RUB => RUB
    end
  | _, _ => RErr
  end.

(** executable.c:497-652 ExeBuilder_Append. After a reported error the builder is discarded by every caller. *)
Definition exeb_append (b : builder) (op : opcode) (ops : list operand) (off len : Z) : res builder :=
  if negb (Nat.eqb (length ops) (length (optypes op))) then RErr else
  match put_operands (b_data b) (b_promc b) (b_proms b) (optypes op) ops with
  | ROk (d, c, ss) => ROk (mkbd d (b_code b ++ [mkbi op ss off len]) c (b_proms b))
  | RErr => RErr | RUB => RUB
  end.

(** executable.c:659-666 ExeBuilder_InstrCount. *)
Definition exeb_count (b : builder) : Z := Z.of_nat (length (b_code b)).

(** executable.c:51-57 xExecutable. *)
Record executable := mkexe { x_head : list Z; x_body : list binstr }.

(** executable.c:447-485 ExeBuilder_Finalize. *)
Definition exeb_finalize (b : builder) : res executable :=
  if 0 <? b_promc b then RErr else ROk (mkexe (b_data b) (b_code b)).

(** executable.c:296-304, a string operand: The C string that starts at [off]: bytes up to the first NUL; [None] when it leaves the data. *)
Fixpoint cstr (l : list Z) : option (list Z) :=
  match l with
  | [] => None
  | c :: r => if c =? 0 then Some [] else match cstr r with Some s => Some (c :: s) | None => None end
  end.

(** executable.c:291-322, one operand of Executable_Fetch. The data offset is converted to [int] (line 298). *)
Definition fetch_operand (head : list Z) (ty : optype) (s : slot) : res operand :=
  match s with
  | Hole _ => RUB
  | Word w =>
    match ty with
    | TIdx => ROk (PIdx (wrap64 w))
    | TInt => ROk (PInt (wrap64 w))
    | TFlt => ROk (PFlt w)
    | TStr =>
      let off := wrap32 w in
      if (off <? 0) then RUB else
      match cstr (skipn (Z.to_nat off) head) with Some s' => ROk (PStr s') | None => RUB end
    end
  end.

(** executable.c:283-327, the loop over the operands. *)
Fixpoint fetch_operands (head : list Z) (tys : list optype) (ss : list slot) : res (list operand) :=
  match tys, ss with
  | [], _ => ROk []
  | ty :: tys', s :: ss' =>
    match fetch_operand head ty s with
    | ROk o => match fetch_operands head tys' ss' with ROk os => ROk (o :: os) | RErr => RErr | RUB => RUB end
    | RErr => RErr | RUB => RUB
    end
  | _ :: _, [] => RUB
  end.

(** executable.c:268-330 Executable_Fetch; [ROk None] = refused (index past the end). A negative index is only asserted
    against (line 270). *)
Definition exe_fetch (x : executable) (i : Z) : res (option (opcode * list operand)) :=
  if i <? 0 then RUB else
  match nth_error (x_body x) (Z.to_nat i) with
  | None => ROk None
  | Some bi =>
    match fetch_operands (x_head x) (optypes (bi_op bi)) (bi_slots bi) with
    | ROk os => ROk (Some (bi_op bi, os))
    | RErr => RErr | RUB => RUB
    end
  end.

(** executable.c:353: Opcodes are compared as C enumeration values. *)
Definition opcode_dec (a b : opcode) : {a = b} + {a <> b}.
Proof. decide equality. Defined.
(** executable.c:353. *)
Definition opcode_eqb (a b : opcode) : bool := if opcode_dec a b then true else false.

(** executable.c:408, strcmp(v1, v2) == 0. *)
Fixpoint bytes_eqb (a b : list Z) : bool :=
  match a, b with
  | [], [] => true
  | x :: a', y :: b' => (x =? y) && bytes_eqb a' b'
  | _, _ => false
  end.

(** executable.c:373-421, comparison of one operand: integers after conversion to [int], floats with [!=], strings with
    strcmp. *)
Definition operand_equiv (a b : operand) : bool :=
  match a, b with
  | PIdx x, PIdx y => wrap32 x =? wrap32 y
  | PInt x, PInt y => wrap32 x =? wrap32 y
  | PFlt x, PFlt y => f_eq x y
  | PStr x, PStr y => bytes_eqb x y
  | _, _ => false
  end.

(** executable.c:366-421, the loop over the operands. *)
Fixpoint operands_equiv (a b : list operand) : bool :=
  match a, b with
  | [], [] => true
  | x :: a', y :: b' => operand_equiv x y && operands_equiv a' b'
  | _, _ => false
  end.

(** executable.c:332-427 Executable_Equiv, from index [i] on; [n] bounds the number of instructions still to visit. *)
Fixpoint equiv_loop (n : nat) (i : Z) (x y : executable) : res bool :=
  match n with
  | O => RUB
  | S n' =>
    match exe_fetch x i, exe_fetch y i with
    | ROk None, ROk None => ROk true
    | ROk (Some (o1, v1)), ROk (Some (o2, v2)) =>
      if negb (opcode_eqb o1 o2) then ROk false else
      if operands_equiv v1 v2 then equiv_loop n' (i + 1) x y else ROk false
    | ROk None, ROk (Some _) => ROk false
    | ROk (Some _), ROk None => ROk false
    | _, _ => RUB
    end
  end.

(** executable.c:332-427 Executable_Equiv. *)
Definition exe_equiv (x y : executable) : res bool := equiv_loop (S (length (x_body x))) 0 x y.

(** * executable.h:115-119, codegenctx.c:15-48, the calls a user of the builder makes: Histories of the builder *)
Inductive bevent :=
| EvLabel                                             (* a new label *)
| EvSet (p : nat) (v : Z)                             (* label [p] gets value [v] *)
| EvEmit (op : opcode) (ops : list operand) (off len : Z).

(** executable.c:429-665, one call. *)
Definition bstep (b : builder) (e : bevent) : res builder :=
  match e with
  | EvLabel => ROk (exeb_label b)
  | EvSet p v => exeb_resolve b p v
  | EvEmit op ops off len => exeb_append b op ops off len
  end.

(** executable.c:429-665, a sequence of calls. *)
Fixpoint build (b : builder) (evs : list bevent) : res builder :=
  match evs with
  | [] => ROk b
  | e :: r => match bstep b e with ROk b' => build b' r | RErr => RErr | RUB => RUB end
  end.
