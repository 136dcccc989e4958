(** Model of the bytecode interpreter (src/lib/run.c:495-1132 with the frame functions of runtime.c).
    Simplifications: one executable (several: ImportModel.v); no interruption callback; heap and collector as in
    ObjModel.v; the C recursion of Object_Call -> func_call -> runExecutableAtIndex is an explicit list of frames, whose
    value stacks together are the shared stack of runtime.c (FrameModel.v, C17). *)
From Coq Require Import ZArith List Lia Bool.
From Verif Require Import Base StringModel ValueModel MapModel ListModel ExeModel ArithModel ObjModel FrameModel.
Import ListNotations.
Open Scope Z_scope.

(** runtime.c:44-64 NormalFrame: instruction index, values pushed by this frame (top first), locals, closure; [f_want] is the
    number of results the CALL instruction that made the frame asks for. *)
Record vframe := mkfr { f_pc : Z; f_stack : list value; f_locals : value; f_clo : option value; f_want : Z }.

(** runtime.c:51-90: The state: store, table of function codes (entry index and number of parameters), current frame, calling frames. *)
Record vstate := mkvs { v_mem : mem; v_codes : list (Z * Z); v_cur : vframe; v_rest : list vframe }.

(** run.c:495-1132: What one step does. [SLimit]: one of the interpreter's limits is reported (frame stack, value stack, call depth, number of
    arguments); [SBad]: an internal inconsistency is reported (operands missing on the frame, no such instruction). *)
Inductive sres :=
| SNext (s : vstate) | SDone (rets : list value) (m : mem) | SErr | SLimit | SBad | SUB | SLoop.

(** run.c:495-1080, the early returns of runInstruction. *)
Definition lift {A} (x : out A) (k : A -> sres) : sres :=
  match x with OOk a => k a | OErr => SErr | OUB => SUB | OLoop => SLoop | OFuel => SLoop end.

(** runtime.c:64-90, stack.c:124-127: The number of values on the shared stack. *)
Definition used (s : vstate) : Z :=
  fold_right (fun f n => Z.of_nat (length (f_stack f)) + n) 0 (v_cur s :: v_rest s).

(** runtime.c:51-72, the values of the current frame. *)
Definition with_stack (s : vstate) (st : list value) : vstate :=
  let f := v_cur s in mkvs (v_mem s) (v_codes s) (mkfr (f_pc f) st (f_locals f) (f_clo f) (f_want f)) (v_rest s).
(** runtime.c:74-90, the heap. *)
Definition with_mem (s : vstate) (m : mem) : vstate := mkvs m (v_codes s) (v_cur s) (v_rest s).
(** runtime.c:499-503 Runtime_SetInstructionIndex. *)
Definition with_pc (s : vstate) (pc : Z) : vstate :=
  let f := v_cur s in mkvs (v_mem s) (v_codes s) (mkfr pc (f_stack f) (f_locals f) (f_clo f) (f_want f)) (v_rest s).

Section Vm.
Variable E : env.
Variable size : Z.       (* capacity of the shared value stack *)

(** runtime.c:396-434 Runtime_Push: [None] = a limit is reported. *)
Definition vpush (s : vstate) (v : value) : option vstate :=
  if (MAX_FRAME_STACK <=? Z.of_nat (length (f_stack (v_cur s)))) || (size <=? used s) then None
  else Some (with_stack s (v :: f_stack (v_cur s))).

(** run.c:1012-1020, the results of a call are pushed one by one. *)
Fixpoint vpushes (s : vstate) (vs : list value) : option vstate :=
  match vs with
  | [] => Some s
  | v :: r => match vpush s v with Some s' => vpushes s' r | None => None end
  end.

(** run.c:495-1080, the return value of Runtime_Push becomes the one of runInstruction. *)
Definition npush (s : vstate) (v : value) : sres := match vpush s v with Some s' => SNext s' | None => SLimit end.

(** Object_FromString on a C string (o_string.c:137-171). *)
Definition vstring (bs : list Z) : out value :=
  match from_string (bs ++ [0]) (-1) with ROk s => OOk (VStr (s_bytes s)) | RErr => OErr | RUB => OUB end.

(** runtime.c:505-530 Runtime_SetVariable. *)
Definition set_var (m : mem) (locals : value) (name : list Z) (v : value) : out mem :=
  obind (vstring name) (fun key => insert_of E m locals key v).

(** runtime.c:556-571, the loop of Runtime_GetVariable over the scopes. *)
Fixpoint get_in (m : mem) (scopes : list (option value)) (key : value) : out (option value * mem) :=
  match scopes with
  | [] => OOk (None, m)
  | None :: r => get_in m r key
  | Some o :: r =>
    obind (select_of E m o key) (fun x =>
    match fst x with Some _ => OOk x | None => get_in (snd x) r key end)
  end.
(** runtime.c:532-576 Runtime_GetVariable. *)
Definition get_var (m : mem) (locals : value) (clo : option value) (name : list Z) : out (option value * mem) :=
  obind (vstring name) (fun key => get_in m [Some locals; clo; e_builtins E] key).

(** run.c:824-863, the core of SELECT: a separate Error structure is used and NULL becomes none. *)
Definition select_or_none (m : mem) (col key : value) : out (value * mem) :=
  obind (select_of E (set_pend m false) col key) (fun r =>
  OOk (match fst r with Some v => v | None => VNone end, set_pend (snd r) (m_pend m))).

(** run.c:655-676: Object_Compare, then the flag is tested. *)
Definition compare_op (m : mem) (neg : bool) (a b : value) : out value :=
  match obj_compare (rt_of (m_objs m)) a b with
  | Some r => if m_pend m then OErr else OOk (VBool (if neg then negb r else r))
  | None => OErr
  end.

(** run.c:495-1080: The operators with two operands. *)
Definition binary_op (op : opcode) (m : mem) (a b : value) : out (value * mem) :=
  match op with
  | OP_ADD | OP_SUB | OP_MUL | OP_DIV => obind (of_res (math_op op a b)) (fun v => OOk (v, m))
  | OP_MOD => obind (of_res (mod_op a b)) (fun v => OOk (v, m))
  | OP_LSS | OP_GRT | OP_LEQ | OP_GEQ => obind (of_res (rel_op op a b)) (fun b => OOk (VBool b, m))
  | OP_EQL => obind (compare_op m false a b) (fun v => OOk (v, m))
  | OP_NQL => obind (compare_op m true a b) (fun v => OOk (v, m))
  | OP_STP => OOk (alloc m (OSum a b))
  | _ => OUB
  end.

(** run.c:495-1080: The operators with one operand. *)
Definition unary_op (op : opcode) (m : mem) (a : value) : out (value * mem) :=
  match op with
  | OP_POS => OOk (a, m)
  | OP_NEG => obind (of_res (neg_op a)) (fun v => OOk (v, m))
  | OP_NOT => obind (of_res (not_op a)) (fun v => OOk (v, m))
  | OP_NLB => OOk (alloc m (ONullable a))
  | _ => OUB
  end.

(** run.c:51-93 and 218-262: arguments are dropped or filled with none to match the parameters. *)
Definition adjust (p : Z) (args : list value) : list value :=
  firstn (Z.to_nat p) args ++ repeat VNone (Z.to_nat p - length args).

(** objects.h:39: objects.h MAX_RETS. *)
Definition MAX_RETS : Z := 8.

(** run.c:782-805: what the caller pushes when [rets] were returned and [want] are asked for; the results beyond the
    eighth were not stored, reading them is undefined. *)
Definition results (want : Z) (rets : list value) : out (list value) :=
  let k := Z.min (Z.of_nat (length rets)) want in
  if MAX_RETS <? k then OUB else
  OOk (firstn (Z.to_nat k) rets ++ repeat VNone (Z.to_nat (want - Z.of_nat (length rets)))).

(** run.c:1123-1132: the frame is done; its values (bottom first) are the results. If an error is pending the run failed. *)
Definition finish (s : vstate) : sres :=
  if m_pend (v_mem s) then SErr else
  let rets := rev (f_stack (v_cur s)) in
  match v_rest s with
  | [] => SDone rets (v_mem s)
  | caller :: rest =>
    lift (results (f_want (v_cur s)) rets) (fun vs =>
    match vpushes (mkvs (v_mem s) (v_codes s) caller rest) vs with
    | Some s' => SNext s'
    | None => SLimit
    end)
  end.

(** run.c:751-808 CALL, after callable and arguments were popped ([args]: first argument first). *)
Definition do_call (s : vstate) (callee : value) (args : list value) (want : Z) : sres :=
  match callee with
  | VRef l =>
    match nth_error (m_objs (v_mem s)) l with
    | Some (OFun c clo) =>
      match nth_error (v_codes s) c with
      | Some (entry, argc) =>
        (* runtime.c:599-609, 651-686: depth limit; new locals *)
        if MAX_FRAMES <=? Z.of_nat (length (v_cur s :: v_rest s)) then SLimit else
        let (loc, m) := alloc (v_mem s) (OMap (new_map (-1))) in
        match vpushes (mkvs m (v_codes s) (mkfr entry [] loc (Some clo) want) (v_cur s :: v_rest s)) (adjust argc args) with
        | Some s' => SNext s'
        | None => SLimit
        end
      | None => SUB
      end
    | Some (ONative id argc) =>
      (* run.c:207-289: a native frame counts towards the depth *)
      if MAX_FRAMES <=? Z.of_nat (length (v_cur s :: v_rest s)) then SLimit else
      lift (e_native E id (if argc <? 0 then args else adjust argc args) (v_mem s)) (fun r =>
      lift (results want (fst r)) (fun vs =>
      match vpushes (with_mem s (snd r)) vs with
      | Some s' => SNext s'
      | None => SLimit
      end))
    | Some _ => SErr
    | None => SUB
    end
  | _ => SErr
  end.

(** One instruction, the index already advanced (run.c:519-1076). *)
Definition exec (s : vstate) (op : opcode) (ops : list operand) : sres :=
  let f := v_cur s in
  let st := f_stack f in
  let m := v_mem s in
  match op, ops with
  | OP_NOPE, [] => SNext s
  | (OP_POS | OP_NEG | OP_NOT | OP_NLB), [] =>
    match st with
    | a :: r => lift (unary_op op m a) (fun x => npush (with_mem (with_stack s r) (snd x)) (fst x))
    | _ => SBad
    end
  | (OP_ADD | OP_SUB | OP_MUL | OP_DIV | OP_MOD | OP_EQL | OP_NQL | OP_LSS | OP_GRT | OP_LEQ | OP_GEQ | OP_STP), [] =>
    match st with
    | b :: a :: r => lift (binary_op op m a b) (fun x => npush (with_mem (with_stack s r) (snd x)) (fst x))
    | _ => SBad
    end
  | OP_ASS, [PStr name] =>
    match st with
    | v :: _ => lift (set_var m (f_locals f) name v) (fun m' => SNext (with_mem s m'))
    | _ => SBad
    end
  | OP_POP, [PInt n] =>
    if Z.of_nat (length st) <? u32 n then SBad else SNext (with_stack s (skipn (Z.to_nat (u32 n)) st))
  | OP_CHECKTYPE, [PInt _; PStr _] =>
    match st with
    | typ :: arg :: r =>
      lift (is_type m typ arg) (fun x => if fst x : bool then SNext (with_mem (with_stack s (arg :: r)) (snd x)) else SErr)
    | _ => SBad
    end
  | OP_CALL, [PInt argc; PInt want] =>
    let argc := wrap32 argc in
    match st with
    | callee :: r =>
      if 32 <? argc then SLimit else
      if argc <? 0 then SBad else
      if Z.of_nat (length r) <? argc then SBad else
      do_call (with_stack s (skipn (Z.to_nat argc) r)) callee (firstn (Z.to_nat argc) r) (wrap32 want)
    | _ => SBad
    end
  | OP_SELECT, [] =>
    match st with
    | key :: col :: r =>
      lift (select_or_none m col key) (fun x => npush (with_mem (with_stack s r) (snd x)) (fst x))
    | _ => SBad
    end
  | OP_SELECT2, [] =>
    match st with
    | key :: col :: r =>
      lift (select_or_none m col key) (fun x => npush (with_mem (with_stack s (col :: r)) (snd x)) (fst x))
    | _ => SBad
    end
  | OP_INSERT, [] =>
    match st with
    | val :: key :: col :: r => lift (insert_of E m col key val) (fun m' => SNext (with_mem (with_stack s (col :: r)) m'))
    | _ => SBad
    end
  | OP_INSERT2, [] =>
    match st with
    | key :: col :: val :: r => lift (insert_of E m col key val) (fun m' => SNext (with_mem (with_stack s (val :: r)) m'))
    | _ => SBad
    end
  | OP_PUSHINT, [PInt z] => npush s (VInt z)
  | OP_PUSHFLT, [PFlt b] => npush s (VFloat b)
  | OP_PUSHSTR, [PStr bs] => lift (vstring bs) (npush s)
  | OP_PUSHVAR, [PStr name] =>
    lift (get_var m (f_locals f) (f_clo f) name) (fun x =>
    match fst x with Some v => npush (with_mem s (snd x)) v | None => SErr end)
  | OP_PUSHNNE, [] => npush s VNone
  | OP_PUSHTRU, [] => npush s (VBool true)
  | OP_PUSHFLS, [] => npush s (VBool false)
  | OP_PUSHFUN, [PIdx entry; PInt argc; PStr _] =>
    let (c, m1) := alloc m (OClosure (f_clo f) (f_locals f)) in
    let (fn, m2) := alloc m1 (OFun (length (v_codes s)) c) in
    npush (mkvs m2 (v_codes s ++ [(wrap32 entry, wrap32 argc)]) f (v_rest s)) fn
  | OP_PUSHLST, [PInt n] => let (l, m') := alloc m (OList (new_list (wrap32 n))) in npush (with_mem s m') l
  | OP_PUSHMAP, [PInt n] => let (l, m') := alloc m (OMap (new_map (wrap32 n))) in npush (with_mem s m') l
  | OP_PUSHNNETYP, [] => npush s (VType TyNone)
  | OP_PUSHTYP, [] =>
    match st with
    | v :: _ => npush s (VType (type_of (rt_of (m_objs m)) v))
    | _ => SBad
    end
  | OP_EXIT, [] => match vpush s (f_locals f) with Some s' => finish s' | None => SLimit end
  | OP_RETURN, [PInt _] => finish s
  | OP_JUMP, [PIdx t] => SNext (with_pc s (wrap32 t))
  | (OP_JUMPIFANDPOP | OP_JUMPIFNOTANDPOP), [PIdx t] =>
    match st with
    | VBool b :: r =>
      let s' := with_stack s r in
      SNext (if Bool.eqb b (opcode_eqb op OP_JUMPIFANDPOP) then with_pc s' (wrap32 t) else s')
    | _ :: _ => SErr
    | _ => SBad
    end
  | _, _ => SUB
  end.

(** run.c:495-1080 runInstruction. *)
Definition step (x : executable) (s : vstate) : sres :=
  match exe_fetch x (f_pc (v_cur s)) with
  | ROk (Some (op, ops)) => exec (with_pc s (f_pc (v_cur s) + 1)) op ops
  | ROk None => SBad
  | RErr => SBad
  | RUB => SUB
  end.

(** run.c:1082-1105 runInstructionsUntilSomethingHappens, for at most [n] instructions: [SNext s] = still running. *)
Fixpoint steps (x : executable) (n : nat) (s : vstate) : sres :=
  match n with
  | O => SNext s
  | S n' => match step x s with SNext s' => steps x n' s' | r => r end
  end.

(** run.c:1107-1132 runExecutableAtIndex as runSource uses it: first frame at index 0, without closure. *)
Definition vm_start (m : mem) : vstate :=
  let (loc, m') := alloc m (OMap (new_map (-1))) in
  mkvs m' [] (mkfr 0 [] loc None 0) [].

End Vm.
