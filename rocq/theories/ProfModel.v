(** Profiling: src/lib/timing.c, with the uses of the table in run.c and runtime.c. Simplifications: as in VmModel (one executable, natives do not
    call functions); memory is always found; the times that are measured are not modelled (their texts are given when the table is printed);
    all functions are of one executable, whose source is counted here. *)
From Coq Require Import ZArith String List Bool.
From Verif Require Import Base StringModel ValueModel ObjModel ExeModel VmModel AsmModel SourceModel ShowModel.
Import ListNotations.
Open Scope list_scope.
Open Scope Z_scope.

(** timing.h:7-13 FunctionExecutionSummary: name and number of calls (run.c:190 the line is always 0). *)
Record pentry := mkpe { pe_name : list Z; pe_calls : Z }.

(** timing.c:6-9 struct TimingTable: capacity and entries in use; and the references to the source (source.c:45). *)
Record ptab := mkpt { pt_size : Z; pt_entries : list pentry; pt_refs : option Z }.

(** timing.c:11-20 TimingTable_new. *)
Definition tab_new (refs : Z) : ptab := mkpt 0 [] (Some refs).

(** timing.c:43-67 TimingTable_newEntry: the new number ([RUB]: written outside of the entries, or a number that does not fit an int). *)
Definition tab_add (t : ptab) (name : list Z) : res (Z * ptab) :=
  let used := Z.of_nat (List.length (pt_entries t)) in
  let size := if pt_size t =? used then (if 2 * pt_size t =? 0 then 8 else 2 * pt_size t) else pt_size t in
  if size <=? used then RUB else
  if wrap32 used <? 0 then RUB else
  match ref_step (pt_refs t) SCopy with
  | ROk refs => ROk (wrap32 used, mkpt size (pt_entries t ++ [mkpe name 0]) refs)
  | RErr => RErr
  | RUB => RUB
  end.

(** timing.c:34-41 TimingTable_sumCallTime: [None]: abort(). *)
Definition tab_sum (t : ptab) (id : Z) : option ptab :=
  if (id <? 0) || (wrap32 (Z.of_nat (List.length (pt_entries t))) <=? id) then None else
  match nth_error (pt_entries t) (Z.to_nat id) with
  | Some e => Some (mkpt (pt_size t) (upd (pt_entries t) (Z.to_nat id) (mkpe (pe_name e) (u64 (pe_calls e + 1)))) (pt_refs t))
  | None => None
  end.

(** timing.c:22-32 TimingTable_free: the references to the source that are left. *)
Fixpoint tab_free (l : list pentry) (refs : option Z) : res (option Z) :=
  match l with
  | [] => ROk refs
  | _ :: l => match ref_step refs SFree with ROk refs => tab_free l refs | RErr => RErr | RUB => RUB end
  end.

(** run.c:16-24 FunctionObject.timing_id: the number of each function, in the order of v_codes; run.c:94-105 timing_id: the numbers kept by the
    calls of func_call that are active, the innermost first. *)
Record pstate := mkps { p_vm : vstate; p_tab : ptab; p_tids : list Z; p_ids : list Z }.

(** What a step does: the run ends with a result; the program is aborted; undefined behaviour (run.c:1082-1105). *)
Inductive pres := PNext (p : pstate) | PEnd (r : sres) (t : ptab) | PAbort | PUB | PLoop.

(** run.c:751-780: the instruction is a CALL that gets to func_call: the function that is called. *)
Definition enters (x : executable) (s : vstate) : option nat :=
  match exe_fetch x (f_pc (v_cur s)), f_stack (v_cur s) with
  | ROk (Some (OP_CALL, [PInt argc; PInt _])), VRef l :: r =>
    if (32 <? wrap32 argc) || (wrap32 argc <? 0) || (Z.of_nat (List.length r) <? wrap32 argc) then None else
    match nth_error (m_objs (v_mem s)) l with Some (OFun c _) => Some c | _ => None end
  | _, _ => None
  end.

(** run.c:955-985 PUSHFUN: the name given to Object_FromNojaFunction (run.c:159-198). *)
Definition creates (x : executable) (s : vstate) : option (list Z) :=
  match exe_fetch x (f_pc (v_cur s)) with
  | ROk (Some (OP_PUSHFUN, [PIdx _; PInt _; PStr name])) => Some name
  | _ => None
  end.

(** run.c:1025-1045 RETURN and EXIT: the call of the current frame is over. *)
Definition leaving (x : executable) (s : vstate) : bool :=
  match exe_fetch x (f_pc (v_cur s)) with ROk (Some ((OP_RETURN | OP_EXIT), _)) => true | _ => false end.

(** run.c:107-110, for all calls that are over. *)
Fixpoint tab_sums (t : ptab) (ids : list Z) : option ptab :=
  match ids with
  | [] => Some t
  | i :: r => match tab_sum t i with Some t => tab_sums t r | None => None end
  end.

Section Prof.
Variables (E : env) (size : Z).

(** run.c:495-1080 runInstruction with profiling. If it fails all calls of func_call come back one after the other (run.c:105-110). *)
Definition pstep (x : executable) (p : pstate) : pres :=
  let s := p_vm p in
  let made := match creates x s with
    | Some name => match tab_add (p_tab p) name with ROk (id, t) => ROk (t, p_tids p ++ [id]) | RErr => RErr | RUB => RUB end
    | None => ROk (p_tab p, p_tids p)
    end in
  match made with
  | ROk (t, tids) =>
    match (match enters x s with Some c => option_map (fun i => i :: p_ids p) (nth_error tids c) | None => Some (p_ids p) end) with
    | None => PUB
    | Some ids =>
      match step E size x s with
      | SNext s' =>
        if leaving x s then
          match ids with
          | i :: r => match tab_sum t i with Some t => PNext (mkps s' t tids r) | None => PAbort end
          | [] => PUB
          end
        else PNext (mkps s' t tids ids)
      | SUB => PUB
      | SLoop => PLoop
      | r => match tab_sums t ids with Some t => PEnd r t | None => PAbort end
      end
    end
  | _ => PUB
  end.

(** run.c:1082-1105 runInstructionsUntilSomethingHappens with profiling, for at most [n] instructions. *)
Fixpoint prun (x : executable) (n : nat) (p : pstate) : pres :=
  match n with
  | O => PNext p
  | S n => match pstep x p with PNext p => prun x n p | r => r end
  end.

(** runtime.c:345-357: a runtime that profiles, at the start of a program. *)
Definition pstart (m : mem) (refs : Z) : pstate := mkps (vm_start m) (tab_new refs) [] [].

End Prof.

(** runtime.c:821: %20s. *)
Definition pad20 (t : list Z) : list Z := repeat 32 (20 - List.length t) ++ t.

(** runtime.c:811-829 Runtime_SerializeProfilingResultsToStream, from entry [i] on; [name]: Source_GetName (source.c:64-67), which may be NULL;
    [time]: what %.2lf gives for each entry. *)
Fixpoint report (name : option (list Z)) (time : nat -> list Z) (i : nat) (l : list pentry) : res (list Z) :=
  match l with
  | [] => ROk []
  | e :: r =>
    if 0 <? pe_calls e then
      match name with
      | None => RUB
      | Some n =>
        match report name time (S i) r with
        | ROk t => ROk (pad20 (pe_name e) ++ bytes_of " - " ++ n ++ bytes_of " - " ++ int_text (pe_calls e) ++ bytes_of " calls - " ++ time i ++
                        bytes_of "us" ++ [10] ++ t)
        | RErr => RErr | RUB => RUB
        end
      end
    else report name time (S i) r
  end.
