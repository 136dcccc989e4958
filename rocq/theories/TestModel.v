(** The program that runs the tests of the repository: src/test (scanner.c, field.c, test.c, run.c, main.c). Text is a list of
    bytes without NUL (test.c:46 strlen). Simplifications: memory is always found; what is written to the log is not modelled;
    letters and spaces are those of the C locale, bytes above 127 are neither. The scanner (scanner.h:7-10) is represented by the
    text that is left. *)
From Coq Require Import ZArith String List Bool.
From Verif Require Import Base StringModel ValueModel ObjModel ExeModel VmModel BuiltinModel CompileModel MoveSpec.
From Verif Require AsmModel.
Import ListNotations.
Open Scope list_scope.
Open Scope Z_scope.

(** error.h:4-11 ErrorID. *)
Inductive terr := TE_DUPL | TE_NONAME | TE_NOAT | TE_NOFIELD.

(** field.c:53-56 isFieldNameCharacter. *)
Definition name_char (c : Z) : bool := ((65 <=? c) && (c <=? 90)) || ((97 <=? c) && (c <=? 122)) || (c =? 95).
(** isspace, used in field.c:81, 107. *)
Definition space_char (c : Z) : bool := (c =? 32) || ((9 <=? c) && (c <=? 13)).

(** scanner.c:26-30 consumeCharactersThat: what is passed over and what is left. *)
Fixpoint take_while (p : Z -> bool) (s : list Z) : list Z * list Z :=
  match s with
  | [] => ([], [])
  | c :: r => if p c then let (a, b) := take_while p r in (c :: a, b) else ([], s)
  end.
(** scanner.c:18-24 ifFollowsConsumeCharacter: what is left, if the character follows. *)
Definition if_follows (c : Z) (s : list Z) : option (list Z) :=
  match s with d :: r => if d =? c then Some r else None | [] => None end.

(** field.h:8-15 NojaTestField: name and body, and where their bytes are: [None], in a block of their own; [Some g], inside the
    field in the [g]-th array of fields (field.c:25-51). *)
Record tfield := mktf { tf_name : list Z; tf_body : list Z; tf_nin : option nat; tf_bin : option nat }.
(** field.c:25-37 setFieldName, 39-51 setFieldBody: short texts are kept inside the field. *)
Definition place (gen : nat) (room : Z) (s : list Z) : option nat := if Z.of_nat (List.length s) <? room then Some gen else None.

(** field.c:105-115 findField. *)
Definition find_field (s : list Z) : terr + list Z :=
  let s := snd (take_while space_char s) in
  match if_follows 64 s with
  | Some r => inr r
  | None => match s with [] => inl TE_NOFIELD | _ => inl TE_NOAT end
  end.
(** field.c:58-74 parseFieldName. *)
Definition parse_field_name (s : list Z) : terr + (list Z * list Z) :=
  match take_while name_char s with
  | ([], _) => inl TE_NONAME
  | (n, r) => inr (n, r)
  end.
(** field.c:76-103 parseFieldBody: the body and what is left. *)
Definition parse_field_body (s : list Z) : list Z * list Z :=
  let s := snd (take_while space_char s) in
  let (term, s) :=
    match if_follows 91 s with
    | Some r => (Some 93, r)
    | None => match if_follows 123 s with Some r => (Some 125, r) | None => (None, s) end
    end in
  let (b, r) := take_while (fun c => negb (c =? 64) && match term with Some t => negb (c =? t) | None => true end) s in
  (b, match term with Some t => match if_follows t r with Some r' => r' | None => r end | None => r end).
(** field.c:117-136 parseField, into the array [gen]. *)
Definition parse_field (gen : nat) (s : list Z) : terr + (tfield * list Z) :=
  match find_field s with
  | inl e => inl e
  | inr s =>
    match parse_field_name s with
    | inl e => inl e
    | inr (n, s) => let (b, r) := parse_field_body s in inr (mktf n b (place gen 128 n) (place gen 512 b), r)
    end
  end.

(** test.h:4-9 NojaTest. [t_gen] tells the arrays that held the fields apart: 0 is the one inside the structure; it stays
    readable, the others do not once the fields have moved on. *)
Record ntest := mknt { t_fields : list tfield; t_cap : Z; t_gen : nat }.

(** test.c:18: whether bytes at a place can still be read once realloc has moved the array. *)
Definition readable (t : ntest) (p : option nat) : bool :=
  match p with None => true | Some O => true | Some g => Nat.eqb g (t_gen t) end.

(** strcmp, used in test.c:39, run.c:12, 185 and main.c:130. *)
Definition same_text (a b : list Z) : bool := if list_eq_dec Z.eq_dec a b then true else false.
(** test.c:36-42 queryTest, the loop: the field found. *)
Fixpoint query_loop (t : ntest) (fs : list tfield) (name : list Z) : res (option tfield) :=
  match fs with
  | [] => ROk None
  | f :: r =>
    if negb (readable t (tf_nin f)) then RUB
    else if same_text name (tf_name f) then ROk (Some f) else query_loop t r name
  end.
(** test.c:36-42 queryTest. *)
Definition query (t : ntest) (name : list Z) : res (option tfield) := query_loop t (t_fields t) name.

(** field.c:7-23 freeField: what is not inside the field of the current array is given to free. *)
Definition free_ok (t : ntest) (f : tfield) : bool :=
  match tf_nin f with None => true | Some g => Nat.eqb g (t_gen t) end &&
  match tf_bin f with None => true | Some g => Nat.eqb g (t_gen t) end.
(** test.c:28-34 freeTest: whether every pointer given to free came from malloc. *)
Definition free_test (t : ntest) : bool := forallb (free_ok t) (t_fields t).

Section Harness.
(** test.c:18: whether realloc moves the array when it grows from the given generation. *)
Variable moves : nat -> bool.

(** test.c:8-26 growFieldsArray. *)
Definition grow (t : ntest) : ntest :=
  mknt (t_fields t) (2 * t_cap t)
    (match t_gen t with O => 1%nat | g => if moves g then S g else g end).

(** test.c:44-86: how parseTest ends. *)
Inductive pt_res := PtOk (t : ntest) | PtErr (e : terr) | PtUB | PtFuel.

(** test.c:52-84, the loop of parseTest. *)
Fixpoint parse_loop (fuel : nat) (t : ntest) (s : list Z) : pt_res :=
  match fuel with
  | O => PtFuel
  | S fuel =>
    let t := if Z.of_nat (List.length (t_fields t)) =? t_cap t then grow t else t in
    match parse_field (t_gen t) s with
    | inr (f, r) =>
      match query t (tf_name f) with
      | ROk (Some _) => PtErr TE_DUPL
      | ROk None => parse_loop fuel (mknt (t_fields t ++ [f]) (t_cap t) (t_gen t)) r
      | RErr | RUB => PtUB
      end
    | inl TE_NOFIELD => PtOk t
    | inl e => if free_test t then PtErr e else PtUB
    end
  end.
(** test.c:44-86 parseTest. *)
Definition parse_test (s : list Z) : pt_res := parse_loop (S (List.length s)) (mknt [] 8 0) s.

(** main.h:3-7 TestResult. *)
Inductive tresult := TPassed | TFailed | TAborted.
(** run.c:17-70: how a test ends; [TStuck]: undefined behaviour, [TNever]: it does not end, [TMore]: the model ran out of fuel. *)
Inductive tout := TDone (r : tresult) | TStuck | TNever | TMore.
(** run.h:6-10 TestType. *)
Record ttype := mktt { tt_name : list Z; tt_fields : list (list Z); tt_run : list (list Z) -> tout }.

(** run.c:9-15 findTestType. *)
Definition find_type (types : list ttype) (name : list Z) : option ttype :=
  find (fun y => same_text name (tt_name y)) types.

(** run.c:38-58: the values of the fields a test type needs, in order; at most 8 (abort otherwise, which is not reached with
    the types of main.c). *)
Fixpoint ordered (t : ntest) (names : list (list Z)) : res (option (list (list Z))) :=
  match names with
  | [] => ROk (Some [])
  | n :: r =>
    match query t n with
    | ROk (Some f) =>
      if negb (readable t (tf_bin f)) then RUB else
      match ordered t r with
      | ROk (Some l) => ROk (Some (tf_body f :: l))
      | x => x
      end
    | ROk None => ROk None
    | RErr => RErr
    | RUB => RUB
    end
  end.

(** run.c:17-70 runTestString. *)
Definition run_test_string (types : list ttype) (src : list Z) : tout :=
  match parse_test src with
  | PtErr _ => TDone TAborted
  | PtUB => TStuck
  | PtFuel => TMore
  | PtOk t =>
    match query t (bytes_of "type") with
    | ROk None => TDone TAborted
    | ROk (Some f) =>
      if negb (readable t (tf_bin f)) then TStuck else
      match find_type types (tf_body f) with
      | None => TDone TAborted
      | Some y =>
        match ordered t (tt_fields y) with
        | ROk None => TDone TAborted
        | ROk (Some l) =>
          match tt_run y l with
          | TDone r => if free_test t then TDone r else TStuck
          | o => o
          end
        | RErr | RUB => TStuck
        end
      end
    | RErr | RUB => TStuck
    end
  end.

(** main.c:42-88 runCompilerTest. *)
Definition compiler_test (inputs : list (list Z)) : tout :=
  match inputs with
  | [source; bytecode] =>
    match compile source with
    | ROk a =>
      match AsmModel.assemble true bytecode with
      | AsmModel.AOk (b, _) =>
        match exe_equiv a b with
        | ROk true => TDone TPassed
        | ROk false => TDone TFailed
        | RErr | RUB => TStuck
        end
      | AsmModel.AErr => TDone TAborted
      | AsmModel.AUB => TStuck
      | AsmModel.AFuel => TMore
      end
    | RErr => TDone TAborted
    | RUB => TStuck
    end
  | _ => TStuck
  end.

(** main.c:94, 127: the text a run wrote, if every part of it was written. *)
Fixpoint all_written (l : list (out (list Z))) : out (list Z) :=
  match l with
  | [] => OOk []
  | x :: r => obind x (fun a => obind (all_written r) (fun b => OOk (a ++ b)))
  end.
(** run.c:105, main.c:130: a text as a C string ends at its first NUL. *)
Fixpoint c_string (s : list Z) : list Z := match s with [] => [] | c :: r => if c =? 0 then [] else c :: c_string r end.

(** main.c:92: the room for the output. *)
Definition OUT_ROOM : Z := 1024.

(** main.c:90-140 runRuntimeTest, for a runtime whose memory starts as [m] with the environment [E] ([size] is the size of the heap), up to [n]
    instructions. Text that does not fit in the room leaves it without NUL (fmemopen), and strcmp runs past it. *)
Definition runtime_test ff fb (E : env) (size : Z) (m : mem) (n : nat) (inputs : list (list Z)) : tout :=
  match inputs with
  | [bytecode; output] =>
    match AsmModel.assemble true bytecode with
    | AsmModel.AOk (x, bad) =>
      match steps E size x n (vm_start m) with
      | SNext _ => TMore
      | SDone _ _ =>
        if bad then TDone TAborted else
        match all_written (written ff fb E size x n (vm_start m)) with
        | OOk text =>
          if OUT_ROOM <=? Z.of_nat (List.length text) then TStuck
          else TDone (if same_text (c_string text) output then TPassed else TFailed)
        | OErr => TDone TAborted
        | OUB => TStuck
        | OLoop => TNever
        | OFuel => TMore
        end
      | SErr | SLimit | SBad => TDone TAborted
      | SUB => TStuck
      | SLoop => TNever
      end
    | AsmModel.AErr => TDone TAborted
    | AsmModel.AUB => TStuck
    | AsmModel.AFuel => TMore
    end
  | _ => TStuck
  end.

(** main.c:15-19 test_types. *)
Definition noja_types ff fb E size m n : list ttype :=
  [ mktt (bytes_of "compiler") [bytes_of "source"; bytes_of "bytecode"] compiler_test;
    mktt (bytes_of "runtime") [bytes_of "bytecode"; bytes_of "output"] (runtime_test ff fb E size m n) ].

(** run.c:131-139 getExtension. *)
Fixpoint extension_from (s : list Z) (best : list Z) : list Z :=
  match s with [] => best | c :: r => extension_from r (if c =? 46 then s else best) end.
(** run.c:131-139 getExtension: from the last dot on, or nothing. *)
Definition extension (file : list Z) : list Z := extension_from file [].

(** run.c:151-188, struct dirent: what a directory holds, in the order readdir gives it. [DOther]: neither a directory nor a regular file. *)
Inductive dentry := DFile (name content : list Z) | DDir (name : list Z) (inside : list dentry) | DOther (name : list Z).
(** run.c:154, 163, 184: d_name. *)
Definition d_name (d : dentry) : list Z := match d with DFile n _ => n | DDir n _ => n | DOther n => n end.

(** run.c:159: the room for a path. *)
Definition PATH_ROOM : Z := 1024.
(** run.c:159-163: the path of an entry; nothing if it does not fit, or the directory has no name. *)
Definition full_path (dir name : list Z) : option (list Z) :=
  match rev dir with
  | [] => None
  | c :: _ =>
    let p := (if c =? 47 then dir else dir ++ [47]) ++ name in
    if Z.of_nat (List.length p) <? PATH_ROOM then Some p else None
  end.

(** run.h:12-17 TestBatchResults. *)
Record tcounts := mktc { tc_passed : Z; tc_failed : Z; tc_aborted : Z }.
(** run.c:167-171. *)
Definition add_counts (a b : tcounts) : tcounts :=
  mktc (tc_passed a + tc_passed b) (tc_failed a + tc_failed b) (tc_aborted a + tc_aborted b).
(** run.c:191-206. *)
Definition count_one (r : tresult) : tcounts :=
  match r with TPassed => mktc 1 0 0 | TFailed => mktc 0 1 0 | TAborted => mktc 0 0 1 end.

(** run.c:141-211: how a directory of tests ends: the counts, undefined behaviour, or the way of a test that did not end. *)
Inductive dres := DrOk (c : tcounts) | DrStuck | DrNever | DrMore.
(** run.c:152-207: one entry after the other. *)
Definition dr_then (a : dres) (k : tcounts -> dres) : dres := match a with DrOk c => k c | x => x end.

(** run.c:141-211 runTestDirectory, one turn of the loop, for directories and files that can be opened (110-129 runTestFile and 72-108 getStreamData read the
    whole content, which is then taken as a C string). *)
Fixpoint run_entry (types : list ttype) (dir : list Z) (d : dentry) : dres :=
  let ignored := match d_name d with c :: _ => c =? 46 | [] => false end in
  if ignored then DrOk (mktc 0 0 0) else
  match full_path dir (d_name d) with
  | None => DrStuck
  | Some full =>
    match d with
    | DDir _ inside =>
      (fix go l := match l with [] => DrOk (mktc 0 0 0) | e :: r => dr_then (run_entry types full e) (fun a => dr_then (go r) (fun b => DrOk (add_counts a b))) end) inside
    | DOther _ => DrOk (mktc 0 0 0)
    | DFile name content =>
      if same_text (extension name) (bytes_of ".noja-test") then
        match run_test_string types (c_string content) with
        | TDone r => DrOk (count_one r)
        | TStuck => DrStuck
        | TNever => DrNever
        | TMore => DrMore
        end
      else DrOk (mktc 0 0 0)
    end
  end.
(** run.c:141-211 runTestDirectory. *)
Fixpoint run_dir (types : list ttype) (dir : list Z) (l : list dentry) : dres :=
  match l with
  | [] => DrOk (mktc 0 0 0)
  | e :: r => dr_then (run_entry types dir e) (fun a => dr_then (run_dir types dir r) (fun b => DrOk (add_counts a b)))
  end.
End Harness.
