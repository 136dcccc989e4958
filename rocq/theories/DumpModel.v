(** Executable_Dump (src/lib/executable.c): the listing of a program. Abstract: [pf], the text of a float under the format %f (the C library). *)
From Coq Require Import ZArith String List Lia Bool.
From Verif Require Import Base StringModel ExeModel AsmModel ShowModel.
Import ListNotations.
Open Scope list_scope.
Open Scope Z_scope.

(** executable.c:152-166 Executable_GetInstrByOpcode, the name of the entry that is found ([None]: NULL). *)
Definition opcode_name (o : opcode) : option string :=
  option_map fst (List.find (fun e => opcode_eqb o (snd e)) instr_names).

(** executable.c:204-222, one operand; %s writes what Executable_Fetch delivers, a C string. *)
Definition operand_text (pf : Z -> list Z) (o : operand) : res (list Z) :=
  match o with
  | PIdx z | PInt z => ROk (int_text z ++ [32])
  | PFlt b => ROk (pf b ++ [32])
  | PStr s => ROk (91 :: s ++ [93; 32])
  | PProm _ => RUB
  end.
(** executable.c:204-222, the loop over the operands. *)
Fixpoint operand_texts (pf : Z -> list Z) (os : list operand) : res (list Z) :=
  match os with
  | [] => ROk []
  | o :: r =>
    match operand_text pf o with
    | ROk t => match operand_texts pf r with ROk ts => ROk (t ++ ts) | RErr => RErr | RUB => RUB end
    | RErr => RErr | RUB => RUB
    end
  end.

(** executable.c:191-227, the loop over the instructions from number [i] on. The result of Executable_Fetch is not looked at; if it were
    refused, the opcode would be uninitialised. At most MAX_OPS operands are asked for, which no instruction exceeds. *)
Fixpoint dump_loop (pf : Z -> list Z) (n : nat) (i : Z) (x : executable) : res (list Z) :=
  match n with
  | O => ROk []
  | S n =>
    match exe_fetch x i with
    | ROk (Some (op, os)) =>
      match opcode_name op, operand_texts pf os with
      | Some name, ROk t =>
        match dump_loop pf n (i + 1) x with
        | ROk r => ROk (int_text i ++ [58; 32] ++ bytes_of name ++ [32] ++ t ++ [10] ++ r)
        | RErr => RErr | RUB => RUB
        end
      | _, _ => RUB
      end
    | _ => RUB
    end
  end.
(** executable.c:189-228 Executable_Dump: what is written. *)
Definition dump (pf : Z -> list Z) (x : executable) : res (list Z) := dump_loop pf (List.length (x_body x)) 0 x.
