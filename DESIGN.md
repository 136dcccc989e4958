# Formal model of the Noja interpreter — design

Source: `/repo` (cozis/Noja, pinned commit), C, read as text only; nothing in it was built or run.
Prover: Rocq/Coq 8.16.1. All files are in `rocq/theories` (logical path `Verif`).

## 1. Layout

| file | content |
| --- | --- |
| `Base.v` | machine integers (wrap to 32/64 bit), list update, generic lemmas |
| `*Model.v` | executable Gallina transcriptions of C functions, one definition per function, each with a `file:lines` citation |
| `*Spec.v` | small independent specifications (finite maps, sequences, well-formed UTF-8, reachability, evaluation of syntax trees, ...) |
| `*Proofs.v` | invariants and lemmas |
| `Props*.v` | the property theorems: `Theorem name : statement. Proof. exact lemma. Qed.`, an `Example` that instantiates the hypotheses non-trivially, `Print Assumptions` |

## 2. Conventions of the model

* C `int` is a `Z` in the 32-bit two's complement range, `long long` in the 64-bit range; conversions are
  explicit (`wrap32`, `u32`, `wrap64`). Where a property is about overflow the arithmetic is modelled with wrap-around
  or with an explicit undefined-behaviour outcome.
* Outcomes: a C function that can fail returns a result type with separate constructors for a value, for a reported
  error, for undefined behaviour (out-of-bounds access, NULL dereference, signed overflow, division trap) and, for
  loops with fuel, for running out of fuel. No theorem treats "out of fuel" as success: termination theorems
  exhibit enough fuel, and the other theorems conclude about the success outcome only after excluding it.
* The default build is modelled (`make` = release: `-DNDEBUG -O3`): lower-case `assert`, `ASSERT` and `UNREACHABLE`
  are no-ops. Little-endian LP64 machine.
* `malloc` never fails unless the property is about exhaustion.
* Bytes are `Z` in 0..255 (or `N`/`ascii` where noted); C strings carry their length explicitly.

## 3. Trusted base

* Coq's kernel (and `vm_compute` for the concrete examples, the refutation witnesses and the evaluation of the prelude).
* Axioms: none of our own. `Print Assumptions` is run for every property theorem (at the end of each `Props*.v`) and answers
  "Closed under the global context" for all of them. `vcheck` lists seven library axioms: they are the fields of the module
  type `Coq.ssr.ssrunder.Under_rel` of the standard library, loaded by `Lia`/`ssreflect`-based parts of it and used by no
  theorem here.
* The transcription of the C code into Gallina, definition by definition, as cited in the comments. This is not checked
  by machine. A test of it: all 98 programs of `/repo/tests/compiler` were put through the model of the tokenizer, the
  parser and the code generator, and the code generated was compared (`exe_equiv`) with the model of the assembler applied
  to the expected bytecode: all 98 agree. This is a test, not a proof.
* C semantics as understood in section 2, and further:
  * `strtod` is correctly rounded (number literals of the language and of the assembler);
  * `ctype.h` in the "C" locale; bytes above 127 are neither letters, digits nor spaces;
  * x86-64 ABI for the variadic `returnValues`: an `int` read by `va_arg` from a slot filled with a `long long` is its low half;
  * glibc `vsnprintf`/`snprintf` as described in the C standard.
* `PreludeText.v`/`PreludeModel.v` contain the text of `src/lib/builtins/start.noja` as a byte list, copied by a script.
  The tree the theorems about the prelude use is the one the modelled parser gives for this text (proved by computation).

## 4. Models, specifications, proofs

"refuted" means: the statement as a user would want it is false of the code; the model contains a witness and a theorem
`..._refuted` proves the negation; the strongest true restriction is proved next to it (`..._partial`).

| id | model | specification and proof |
| --- | --- | --- |
| C01-C03 | `MapModel`: open-addressing table with unsigned probe in lookup/store and *signed* probe in growth | `MapSpec` (association lists), `ProbeProofs` (full period of x -> 5x+1 mod 2^k), `MapProofs`, `MapProofs2`. Invariant "every key sits on its own probe path". Growth re-inserts with a signed perturbation, so the full claims are refuted for negative hashes; proved for histories of any length whose key hashes are non-negative or whose different keys fit the first table |
| C04, C05, C57 | `ListModel` with the 64->32 bit index truncation | `SeqSpec`, `ListProofs`: refinement to sequences; truncation refuted |
| C06-C09 | `Utf8Model` | `Utf8Spec` (well-formed sequences by range), `Utf8Proofs`; C08 refuted |
| C10-C12 | `StringModel`, `HashModel`, `ValueModel` | `TextProofs`; C11 refuted by NUL; C12 partial (0.0/-0.0; strings with NUL) |
| C13-C15, C55, C56 | `BufferModel`: payload store, views | `BufferProofs`: invariant views-in-payload; C15 refuted (slice of slice; wrap-around); C56 refuted |
| C16-C18 | `FrameModel`: bounded stack and runtime frames | `FrameProofs`: sum of frame usage = stack height |
| C19-C22, C58 | `GcModel`: memory as partial map, forwarding pointers, recursion of Heap_CollectReference, overflow blocks, destructor list | `GcSpec` (reachability, isomorphism), `GcProofs`..`GcProofs4`, `LayoutProofs`; C58 refuted |
| C23-C25 | `UtilModel`: arena, bucket list, promises | `UtilProofs` |
| C26, C47 | `ExeModel`: builder with promise patching, fetch, equivalence | `ExeSpec`, `ExeProofs`; C47 refuted by 32-bit truncation |
| C27-C32, C39 | `AstModel`, `CodegenModel`, `ObjModel`, `VmModel` | `SrcModel` (direct evaluation of trees: the specification), `CompSpec`, `BalanceSpec`, `ScopeSpec`; `CodegenProofs*`, `BalanceProofs`, `SimProofs`, `RunProofs`, `CallProofs`, `LogicProofs`, `ScopeProofs`: simulation in both directions over a fuel-indexed evaluator; stack-depth typing of code |
| C33-C36 | `ArithModel` with UB outcomes, binary64 by `SpecFloat` (`FloatModel`) | `ArithProofs`, `FloatProofs`; refutations for overflow, INT_MIN/-1, mod 0, int/float comparison |
| C37, C38 | `ObjModel` (is_type_of, the pending-error flag) | `ObjSpec`, `ObjProofs`; C37 and C38 refuted for list patterns in sum types |
| C40-C45 | `LexModel`, `ParseModel` | `LexSpec`, `ParseSpec` (grammar as a relation); `LexProofs`, `ParseSafe`, `ParseMono`, `PrintProofs`, `WriteProofs`, `GrammarProofs`; C41, C44 refuted |
| C46, C59 | `AsmModel` | `AsmProofs`: digit loop invariant; termination and memory safety of the whole assembler |
| C48-C50 | `BuiltinModel` | `BuiltinProofs`; C48, C49, C50 refuted in part |
| C51, C52 | `PreludeModel` (the prelude, run by `SrcModel`) | `PreludeRun`, `PreludeProofs`, `PreludeSpec`, `PreludeToString`, `PreludeUser`, `PreludeIter`, `PreludeNext`, `PreludeVisit`: the state after the prelude is computed once; then loop invariants, for every later state of a program |
| C53, C54, C60 | `SysModel`: paths, Error | `SysProofs` |
| C61 | `ObjModel` (obj_copy) | `CopyProofs` |
| C62 | `ExtModel` | `ExtProofs`; refuted for lists |
| C63 | `AsmModel`, spec `AsmSpec` | `AsmRound` (scanning), `AsmLabels` (labels as promises) |
| C71 | `CompileModel` (compile.c) on top of `LexModel`, `ParseModel`, `CodegenModel`, `VmModel` | `CompileProofs`: the size of the code is bounded by that of the text; composes C42, C27 and C29 |
| C72 | `SourceModel` (source.c) | `SourceProofs`; refuted for large files and for strings |
| C73 | `ShowModel` (Object_Print) with the flag as state | `ShowSpec` (texts relative to the enclosing objects), `ShowProofs`: the flags set are the enclosing objects; ends because each nested call flags one more |
| C64-C70 | `IoModel`: input, files, net transfers, math, random, buffer text | `FloatRound` (rounding in binary64 never crosses an integer below 2^53), `IoProofs`; each refuted in part |
| C74 | `CompileModel`, `VmModel`, `ArithModel` | `CalcSpec` (meaning of expressions on Z and doubles), `CalcProofs`: induction on the expression, then C71 and C75 |
| C75 | `VmModel` | `LimitSpec` (limits, values moved by each instruction), `DepthSpec` (values a tree holds at once), `LimitProofs`, `DepthProofs`: the depth assignment of C28 with a bound, then the machine's invariant |
| C76 | `ObjModel`, `MapModel` | `HashSpec` (scalars of a value, their sum, what is not copied), `HashProofs`: induction on the nesting, bounded by the number of objects as in C61 |
| C77 | `BuiltinModel`, `Utf8Model` | `LookSpec` (names of a program), `LookProofs`: from C06, C10, C57 and the tables of basic.c and string.c |
| C78 | `LexModel` to `VmModel` | `WhileSpec` (big-step description on a store of names), `FuelProofs` (only the environment can run out of fuel inside a step), `WhileProofs`: induction on the description and on the fuel, then C29, C71 and C75 |
| C79 | `PreludeModel`, `BuiltinModel`, `SrcModel`, `ObjModel` | `StartSpec` (names, calls by name), `StartProofs`, `StartProofs2`: symbolic execution of the prelude's functions with the rules of `PreludeRun`, map lookup for absent keys by the history theorem of C02; `StartUnknown`: C78 in a started interpreter |
| C80 | `VmModel`, `ObjModel`, `BuiltinModel`, `ShowModel`, `GcModel` | `MoveSpec` (collections as renamings of the reachable objects, runs with collections, states up to places, heaps that represent states), `MoveProofs`, `MoveObj`, `MoveVm`, `MoveRun`: every operation, instruction and native is a simulation for a growing partial bijection of places; `MoveHeap`: C19 carried over to machine states |
| C81 | `GraphModel`, `ParseModel`, `AstModel` | `GraphSpec` (drawings: trees of labelled points; their numbering and their text), `GraphProofs`, `GraphRead`, `GraphNames`: induction on syntax trees and drawings; one way to read the text |
| C82 | `TestModel`, with `CompileModel`, `AsmModel`, `ExeModel`, `VmModel`, `MoveSpec` | `TestSpec` (fields as they are written; the tests below a directory), `TestProofs`, `TestDir`: induction on fields and directories, invariant of the array of fields; `RepoTests` runs /repo/tests through the model |
| C83 | `PreludeModel`, `SrcModel`, `BuiltinModel` | `TextSpec` (the texts), `ValueText`: symbolic execution of stringFromList, stringFromMap and toString, mutual induction on the texts; `ValueTextLoop`: strong induction on the fuel |
| C84 | `AsmModel`, `VmModel`, `TraceModel` (printFrame, getFrameSource, getFrameOffset, Runtime_PrintStackTrace) | `TraceSpec` (what a trace says), `TracePos`: positions through the loop of the assembler; `TraceProofs`: induction on the chain of frames; the limit of frames from C75; `limit_frames`: the frames when a limit is reported |
| C85 | `TraceModel` (cells linked by `prev`, Runtime_PushFailedFrame, Runtime_PopFrame, Runtime_Free, runSource, runStringEx ...), `SourceModel` | `TraceProofs`: invariant of chains, cells and references over the sequence of runs; the circle after a second refusal by a closed set of cells |
| C86 | `CliModel` (main, usage, help, atoi; Heap_New for the size; the library and fopen are given by a record) | `CliSpec` (lines of options, what they ask for, numbers), `CliProofs`: induction on the options, case analysis on all lines |
| C87 | `ProfModel` (timing.c, func_call and PUSHFUN with profiling over `VmModel.step`, the printed profile) | `ProfSpec` (the states of a run, calls counted in them), `ProfProofs`: invariant over the run: calls counted so far and calls still active are all calls |
| C88 | the whole chain from the text to the machine (`compile`, `VmModel`) | `FunSpec` (programs of functions told on assignments, with a bound on the calls under way), `FunProofs` (against the tree evaluator with a bound on its depth), `SimProofs.program_sim_d` (that evaluator against the machine, including the limit), `FunRun` (no other limit is met; factorial) |
| C89 | `NetModel` (net.c without the transfers, over any system) | `NetSpec` (what a system keeps, what a program was handed), `NetProofs`: induction over the calls |
| C90 | `NetModel` (openDir, nextDirItem) | `NetProofs` |
| C91 | the whole chain, for functions with types and default values | `ParamSpec` (what each parameter takes, and whether it suits), `FunSpec.accepts` (what a type accepts), `ParamProofs` (on `FunRun.fperforms`), `FunTypes` (where names of types mean types: the default builtins and the started interpreter) |
| C92 | the whole chain, for programs with lists | `ListsSpec` (description: names, values, numbered sequences), `ListsProofs` (simulation: `kept` relates the sequences to the heap, through growth, evacuation of storage and shared names), `ListsSort` (insertion sort: the description sorts; then the machine does) |
| C93 | `basic.c` import and script locations, `run.c` `runFileRelativeToScript`, `runSource` | `ImportModel` (a machine with one program per frame and per function, around the steps of `VmModel`), `ImportProofs` (a run does not see the frames below it; what an import returns), `ImportMore` (which file, nesting, functions and their programs, programs without imports), `ImportTold`, `ImportMain` (from the texts to the end) |
| C94 | `run.c` `runInstruction`, `o_list.c`, `o_map.c`, `codegen.c`, for programs with functions, lists and maps | `CollSpec` (what is told), `CollHeap` (the numbered lists and maps as objects of the heap), `CollProofs` (the source run agrees with what is told), `CollRun` (from the text on to the machine) |
| C95 | `executable.c` `Executable_Dump` | `DumpModel`, `DumpSpec` (what a line is), `DumpProofs`, `DumpBuilt` (histories of the builder, compiled texts) |
| C96 | `parse.c`, `codegen.c` once more, with positions | `PosModel` (trees, parser and code generator with positions), `PosProofs`: they are the functions of `ParseModel` and all nodes lie in the text (induction on the fuel), `PosProofs2`: likewise the code generator (induction on the tree), `PosProofs3`: the builder, traces |
| C97 | `bin_print` with an output stream | `TalkModel` (the bytes written so far are an object of the store no instruction changes; simplification: no buffering, no write errors), `TalkSpec`: the writings of a tree, by rounds; `TalkProofs`: the tree, run in a machine that stops as soon as a given text was written (induction on the rounds and the tree); `TalkRun`, `TalkSteps`: no instruction but CALL of print changes the stream, and the full machine follows the one that stops; `TalkEnd`: the outputs of the run are those of the tree |
| C98 | `runInstructionsUntilSomethingHappens` with its checks, calling itself for every call; `Runtime_Interrupt` | `StopModel` (the flag, the callback, the nested loops over `step`), `StopSpec`: when a program is told to stop; `StopProofs`: the nested loops do what one loop does (induction on the fuel, the depth changes by at most one per instruction), and that one follows `steps` |
| C99 | the frames that are left when a program of C93 fails (`bin_import`, `runFileRelativeToScript`, `runSource` with `Runtime_PushFailedFrame`) | `TrailModel` (frames of `ImportModel` with the positions of `PosModel`), `TrailSpec`: the calls; `TrailProofs`: every program that runs was read from a file or is the string that was run (invariant of `istep`), the chain of frames of C93, the runtime of C84; the cases of `limit_trail` |
| C98 | the same loop for programs that import files: `bin_import` runs it for the imported program | `HaltModel` (the nested loops over `istep` of `ImportModel`), `HaltProofs`: as in `StopProofs`, with the chain of frames of C93 (one instruction starts or ends at most one loop) |

## 5. Not modelled

Terminal/REPL driver (`src/cli`), directory builtins and the system calls behind files and
sockets (`IoModel` treats an open stream as a list of bytes), profiling/timing,
actual addresses of `malloc`. In the machine model (C27-C32): `import` (a second executable) and the collector, which is
modelled separately (C19-C22) and connected to the machine by C80: collections between instructions change nothing a program
can see.

## 6. Results

`MANIFEST.json` lists the theorems per property with what is missing. What follows are the places where the code does not do
what a user would expect; each is a `..._refuted` theorem unless marked (model), in which case it is an outcome the model has
at that point and no theorem names it.

Maps and scopes
* Map growth re-inserts with a *signed* perturbation (`o_map.c:270-328`): keys with negative hashes can become unreachable
  (integer keys 1,5,8,11,27,100 lose 27), can then be stored twice, and growth can loop for ever. Variables live in maps:
  the program `d=1;i=2;j=3;o=4;y=5;z=6;` hangs (C01-C03, C39, C52).
* 0.0 and -0.0 are equal with different hashes; so are strings that differ after a NUL (C12).

Lists, strings, buffers
* Indices are truncated from 64 to 32 bits before the bounds check (C05, C10, C13).
* `sliceUp(buf, 1, -1)` is accepted and reaches outside of the buffer; a slice of a slice is taken relative to the payload;
  `buffer.new(-1)` allocates less than it clears (C15, C56).
* Malformed UTF-8 is accepted (continuation bytes are not checked); `utf8_next` reads past the end (C08, C09).
* Equality of strings stops at NUL (C11).

Arithmetic and comparison
* Signed overflow, -2^63 / -1 and remainder by zero are undefined and not reported (C33, C34).
* Mixed integer/float comparison is not an order: 1 <= 1.0 holds while neither 1 < 1.0 nor 1 == 1.0 does (C35).

Types and errors
* A failed list pattern inside a sum type leaves an error pending: the test answers wrongly and later map lookups fail (C37, C38).
* A second error report over a long message leaks it (C54).
* Hashing an object of a type without hash function (used as a map key) calls NULL (model, `obj_hash`).

Collector
* A collection that runs out of memory runs destructors on reachable objects, twice or on blocks that are no objects (C58).
* A list's array is copied with `sizeof(Object)` per entry, twice what was allocated (`o_list.c:197-202`): the collector reads
  outside of the block (C62). Static maps' object slots are not walked (model).

Compiler
* Operators are recognized only if the whole run of operator characters is one: `a==-1` is an error (C41).
* A map literal at the end of the text makes the parser dereference NULL (C44).
* Semantic errors (e.g. assignment to a number, `break` outside of a loop) write through an uninitialised pointer
  (`codegenctx.c:57-68`), for every text with one (C71).
* The text of a source made from a string is not NUL-terminated: an open quote makes the tokenizer read behind it; a file of
  2^32+k bytes is read as its first k bytes (C72).
* More than eight returned values: the ninth result wanted is read from an uninitialised array entry (C32).
* A comma binds tighter than every other infix operator (C43 states it).

Assembler
* -2^63 is refused (C46); the text must be NUL-terminated, otherwise it is read past its end after a trailing comma; an
  executable is returned although an error was reported (C59). A label may be given to two lines (C63). The operand 0.3 is one step above the double that 0.3 means in a program: digits behind the point are added one by one (C63). buffer.toString cuts the size to 32 bits: buffer.new(2^32) has the empty text (C70). Integer operands are compared truncated to 32 bits (C47).

Builtins and prelude
* `cat` of 2^32 bytes or more writes outside of its buffer; a slice that cuts a character is refused; `trim` with leading
  space appends a NUL or reads outside; `toInt` truncates to 32 bits, and reports overflow for texts that are no numbers (C48-C50).
* `toString` of a negative integer fails (an assertion of the prelude), from 10^18 on it overflows (C51).

* `input()`: a line of 256 bytes or more calls realloc on a stack array; the end of the input is not noticed (C64).
* `files.read/write` cut the count to 32 bits; `files.write` of 2 GB or more reads outside (C65); `openFile` with an unknown
  mode passes NULL to fopen (C66).
* `floor`/`ceil` of NaN, infinities and large values are undefined (C67); `pow(x)` reads a missing argument (C68).
* `random.generate(-4194306, -1)` may return 0; the result is cut to 32 bits; without arguments it may be undefined (C69).

* `print` stops at a NUL in a string; a buffer of 2 GB is printed as `[]` (C73).
* Integer overflow and `x % 0` in a text are undefined behaviour, not an error (C74).
* A list or a map can be stored as a key (it is hashed and copied), but it cannot be compared: reading the key back gives none and storing under it again is an error (C76).
* string.chr cuts its argument to 32 bits before checking it: string.chr(4294967361) is "A" (C77).
* The table of the string functions has no terminator: string.length, or any other unknown name, reads past its end (C77).
* Built-in names are compared up to the first zero byte: a variable named "int\0x" finds int (C77).
* Runtime_plugBuiltins (runtime.c:92-110) makes a closure whose variables are the old builtins and whose predecessor is the new object, so names plugged later never replace earlier ones (C79).
* `abs` of the prelude overflows on the least integer and leaves -0.0 as it is; `integerFromDigit("12")` is 1 (C79).
* graphviz.c treats the node of an arrow (an IndexSelectionExprNode) as an OperExprNode, so the object of `x->g()` is missing from the diagram; a tuple on the left of an assignment is drawn as a point without label; numbers are printed with %d; more than 32 returned values are written past the end of an array (C81).
* src/test: with eight fields or more in a test file the fields are copied to a new array while their names and bodies still point into the old one; freeTest then gives free what did not come from malloc. A body ends at the first closing bracket or at sign. A path of more than 1023 characters overruns its array. runCompilerTest checks srcA twice and srcB never, runRuntimeTest compares a buffer that need not end, a duplicate field is reported without giving back memory, and the program ends with 0 whatever failed (C82).
* toString of a boolean is an error, of every type object the text "Type" (typename is called on the type of the value, not on the value), of a list that contains itself it does not end; strings are told without quotes, so [1, 2] and ["1, 2"] have the same text (C83).
* A trace names the line of the instruction behind the one that failed, because the index is advanced before an instruction is executed (run.c:514); if that was the last one no line is named (C84).
* A runtime has one frame for programs that fail to compile (runtime.c:89). A second one on the same runtime links it behind itself: Runtime_PrintStackTrace never ends and Runtime_Free releases the source twice (C85).
* The frames of failed runs stay and count towards the limit of 16: then every further run is refused (C85).
* Command line: options behind the input are ignored, unknown options are taken for the input, `-h -a` gives no help, `-H " -5"` gives a heap of 65536 bytes, `-o file` without `-p` empties the file, a profile that cannot be written is not reported (C86).
* Profiles: a function made several times has several lines; functions that are not called are not listed; the line number is always 0; the source of `-i` has no name and NULL is printed with %s (C87).
* The limit of frames is exact: the recursive factorial of 15 is computed, that of 16 ends at the limit (C88).
* Sockets: when setsockopt fails the descriptor is neither closed nor handed out; bind answers none first both on success and when it refuses the family or the address, but a message first when the system refuses; ports are cut to 16 bits; accept gives the port and the address with their bytes as in the network; file descriptors are cut to 32 bits (C89).
* Directories: a name that is not UTF-8 is an error; a path with a zero byte opens another directory (C90).
* A default value cannot name a parameter in front of it: parameters get their values from the last to the first, so `fun f(a, b = a)` called with one argument is an error (C88, C91, `C91_earlier_refuted`).
* Two lists, even the same list twice, cannot be compared with `==` (reported error); `a[4294967296]` is `a[0]` (C92, `C92_far_refuted`).
* A file that imports itself is stopped by the frame limit after seven nested imports, not by a check (C93).
* Strings are listed as they are: `"x] \n1: POP 1 \n2: PUSHSTR [y"; "z";` and `"x"; "y] \n1: POP 1 \n2: PUSHSTR [z";` have the same listing (C95).
* The place of a call begins at the parenthesis and does not contain the callee; that of a parameter is the token behind it; that of if, while and do ends with the token behind the statement (C96).
* The flag set by Runtime_Interrupt is never cleared (runtime.c:321-324, 356), so a runtime that was interrupted aborts every later program before its first instruction (C98).
* The flag is looked at between instructions only, so an instruction that does not end (C39: growing a map) cannot be interrupted (C98).
* When 16 calls are active already there is no room for the failed frame, and the trace does not tell which imported text was refused (run.c:1139: "there's nothing we can do") (C99).
* Arguments of print are computed from the last to the first and written from the first to the last; when computing one of them fails, nothing of this call is written (codegen.c:197-205, basic.c:117-118; C97).
* A compound statement without statements is placed at offset 0 with length 0, so `fun f() {}` gets a negative length (parse.c:1960-1961; C96).
* The node of a string literal, of `none`, `true` and `false` is made after the token was left, so its instruction is placed at the next token, on whatever line that is (parse.c:857-859, 1333-1403; C96).

Mutation tests: `seeded/LOG.jsonl`, one line per edit of the model. Theorems that were tightened because an edit survived are
named there.
