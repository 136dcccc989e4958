(** The command line program: src/cli/main.c. The library it calls (drawing, running, the profile) is a parameter of the model; so is
    whether files can be opened. Simplifications: writing to the standard streams and to opened files succeeds; no signal arrives; every
    argument is a C string ([list Z] without 0). *)
From Coq Require Import ZArith String List Bool.
From Verif Require Import Base StringModel AsmModel.
Import ListNotations.
Open Scope list_scope.
Open Scope Z_scope.

(** main.c:64-69 Mode. *)
Inductive cmode := MDiagram | MAssembly | MDefault | MHelp.
(** main.c:82-87: the variables the loop sets. *)
Record cfg := mkcfg { c_mode : cmode; c_profile : bool; c_inline : bool; c_output : option (list Z); c_input : option (list Z); c_heap : Z }.
(** main.c:82-87: their first values. *)
Definition cfg0 : cfg := mkcfg MDefault false false None None 1048576.

(** main.c:40-46 usage. *)
Definition usage_text (name : list Z) : list Z :=
  bytes_of "
Usage:
  $ " ++ name ++ bytes_of " ..OPTIONS <file>
".
(** main.c:48-62 help. *)
Definition help_text (name : list Z) : list Z :=
  usage_text name ++ bytes_of "
Options:
  -h, --help          Show this message
  -i, --inline        Execute a string of code instead of a file
  -a, --assembly      Specify that the source is bytecode and not noja code
  -p, --profile       Profile the execution of the source (can't be used with -d)
  -o, --output <file> Specify the output file of -p or --diagram-ast
  -H, --heap <size>   Specify the heap size of the runtime
  --diagram-ast       Generate a GraphViz view of the AST

".

(** main.c:91-120, the calls of strcmp. *)
Definition is_word (a : list Z) (w : string) : bool := if list_eq_dec Z.eq_dec a (bytes_of w) then true else false.

(** main.c:127 atoi (C standard 7.22.1): isspace in the C locale, a sign, digits; [None]: the value does not fit an int, undefined. *)
Definition is_blank (c : Z) : bool := (c =? 32) || ((9 <=? c) && (c <=? 13)).
(** main.c:127, see [is_blank]. *)
Fixpoint skip_blank (s : list Z) : list Z := match s with c :: r => if is_blank c then skip_blank r else s | [] => [] end.
(** main.c:127, see [is_blank]. *)
Fixpoint digits_value (s : list Z) (acc : Z) : Z :=
  match s with
  | c :: r => if (48 <=? c) && (c <=? 57) then digits_value r (acc * 10 + (c - 48)) else acc
  | [] => acc
  end.
(** main.c:127, see [is_blank]. *)
Definition atoi (s : list Z) : option Z :=
  let v :=
    match skip_blank s with
    | 43 :: r => digits_value r 0
    | 45 :: r => - digits_value r 0
    | r => digits_value r 0
    end in
  if (- 2 ^ 31 <=? v) && (v <? 2 ^ 31) then Some v else None.

(** main.c:113, 122: the first character of an argument. *)
Definition has_dash (s : list Z) : bool := match s with c :: _ => c =? 45 | [] => false end.

(** main.c:89-138: how the loop ends. [PStop]: the text on the error stream before -1 is returned. *)
Inductive pres := PGo (c : cfg) | PStop (t : list Z) | PUndef.

(** main.c:89-138, over the arguments that are left. *)
Fixpoint parse_args (name : list Z) (args : list (list Z)) (c : cfg) : pres :=
  match args with
  | [] => PGo c
  | a :: r =>
    if is_word a "-h" || is_word a "--help" then parse_args name r (mkcfg MHelp (c_profile c) (c_inline c) (c_output c) (c_input c) (c_heap c))
    else if is_word a "-i" || is_word a "--inline" then parse_args name r (mkcfg (c_mode c) (c_profile c) true (c_output c) (c_input c) (c_heap c))
    else if is_word a "-a" || is_word a "--assembly" then parse_args name r (mkcfg MAssembly (c_profile c) (c_inline c) (c_output c) (c_input c) (c_heap c))
    else if is_word a "--diagram-ast" then parse_args name r (mkcfg MDiagram (c_profile c) (c_inline c) (c_output c) (c_input c) (c_heap c))
    else if is_word a "-p" || is_word a "--profile" then parse_args name r (mkcfg (c_mode c) true (c_inline c) (c_output c) (c_input c) (c_heap c))
    else if is_word a "-o" || is_word a "--output" then
      let missing := PStop (bytes_of "Missing file path after " ++ a ++ bytes_of " option
" ++ usage_text name) in
      match r with
      | [] => missing
      | p :: r' => if has_dash p then missing else parse_args name r' (mkcfg (c_mode c) (c_profile c) (c_inline c) (Some p) (c_input c) (c_heap c))
      end
    else if is_word a "-H" || is_word a "--heap" then
      let missing := PStop (bytes_of "Missing byte count after " ++ a ++ bytes_of " option
" ++ usage_text name) in
      match r with
      | [] => missing
      | p :: r' =>
        if has_dash p then missing else
        match atoi p with
        | None => PUndef
        | Some n =>
          let heap := n mod 2 ^ 64 in
          if heap =? 0 then PStop (bytes_of "Invalid heap size
" ++ usage_text name) else
          parse_args name r' (mkcfg (c_mode c) (c_profile c) (c_inline c) (c_output c) (c_input c) heap)
        end
      end
    else PGo (mkcfg (c_mode c) (c_profile c) (c_inline c) (c_output c) (Some a) (c_heap c))
  end.

(** heap.c:120-132 Heap_New, called with a size_t for its int (runtime.c:332): the bytes of the heap. *)
Definition heap_bytes (heap : Z) : Z :=
  let size := (heap + 2 ^ 31) mod 2 ^ 32 - 2 ^ 31 in
  if size <? 0 then 65536 else size.

(** What is observed: text on the two streams; a file that is created or emptied and then holds a text (main.c:179, runtime.c:833). *)
Inductive ceff := EOut (t : list Z) | EErr (t : list Z) | EFile (path t : list Z).

(** main.c:230-241: what a run does, the report if it failed (Error_Print and Runtime_PrintStackTrace), the profile if it was asked for. *)
Record runres := mkrun { rr_effs : list ceff; rr_fail : option (list Z); rr_prof : list Z }.
(** main.c:163-166 (text or report), 209, 221 (report), 232-240, and fopen: the library and the system. *)
Record world := mkworld {
  w_draw : bool -> list Z -> list Z + list Z;
  w_start : Z -> bool -> bool;
  w_plug : Z -> bool -> option (list Z);
  w_run : bool -> bool -> Z -> bool -> list Z -> runres;
  w_open : list Z -> bool }.

(** main.c:80-263: the effects and the value main returns. *)
Inductive cres := CExit (l : list ceff) (code : Z) | CUndef.

(** main.c:148-193. *)
Definition do_diagram (w : world) (name : list Z) (c : cfg) : cres :=
  match c_input c with
  | None => CExit [EErr (bytes_of "Error: No input file
" ++ usage_text name)] (-1)
  | Some input =>
    match w_draw w (c_inline c) input with
    | inr report => CExit [EErr report] (-1)
    | inl t =>
      match c_output c with
      | None => CExit [EOut t] 0
      | Some p =>
        if w_open w p then CExit [EFile p t] 0
        else CExit [EErr (bytes_of "Error: Couldn't open '" ++ p ++ bytes_of "'
")] (-1)
      end
    end
  end.

(** main.c:195-259, with runtime.c:811-839 Runtime_SerializeProfilingResultsToStream and ...ToFile. *)
Definition do_run (w : world) (name : list Z) (c : cfg) : cres :=
  match c_input c with
  | None => CExit [EErr (bytes_of "Error: No input file
" ++ usage_text name)] (-1)
  | Some input =>
    let h := heap_bytes (c_heap c) in
    if negb (w_start w h (c_profile c)) then CExit [EErr (bytes_of "Error: Failed to initialize runtime
")] (-1) else
    match w_plug w h (c_profile c) with
    | Some report => CExit [EErr report] (-1)
    | None =>
      let r := w_run w (match c_mode c with MAssembly => true | _ => false end) (c_inline c) h (c_profile c) input in
      match rr_fail r with
      | Some report => CExit (rr_effs r ++ [EErr report]) (-1)
      | None =>
        let prof := if c_profile c then rr_prof r else [] in
        CExit (rr_effs r ++
               match c_output c with
               | None => match prof with [] => [] | _ => [EOut prof] end
               | Some p => if w_open w p then [EFile p prof] else []
               end) 0
      end
    end
  end.

(** main.c:80-263 main; without any argument there is no name to print. *)
Definition cli_main (w : world) (argv : list (list Z)) : cres :=
  match argv with
  | [] => CUndef
  | name :: args =>
    match parse_args name args cfg0 with
    | PUndef => CUndef
    | PStop t => CExit [EErr t] (-1)
    | PGo c =>
      match c_mode c with
      | MHelp => CExit [EOut (help_text name)] 0
      | MDiagram => do_diagram w name c
      | _ => do_run w name c
      end
    end
  end.
