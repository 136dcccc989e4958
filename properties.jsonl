{"id": "C01", "title": "Map: reading a key yields the last value stored under it", "statement": "After any sequence of stores into a map value, reading a key gives the value most recently stored under an equal key, and reading a key never stored gives none; stores under one key never change what other keys read.", "quantifier": "every sequence of stores and reads, every key set (any hash values, any collisions, any number of growths)", "why_tests_cant": "Collisions and growth interleave in unboundedly many ways; a test exercises one probe sequence of one key set at one table size.", "anchors": ["src/lib/objects/o_map.c: Object_NewMap, select_, insert, grow, calc_capacity", "src/lib/utils/hash.c: hashbytes"]}
{"id": "C02", "title": "Map: every lookup and every store terminates", "statement": "A lookup or a store on a map always finishes, whatever the hash of the key and however full the map is.", "quantifier": "every map state reachable by a history of stores, every key hash", "why_tests_cant": "Termination of the probe loop depends on a number-theoretic fact about the probe sequence for every power-of-two table size; tests can only show that particular probes ended.", "anchors": ["src/lib/objects/o_map.c: select_, insert, grow"]}
{"id": "C03", "title": "Map: keys are listed once each, in the order they were first stored", "statement": "The list of keys of a map contains every stored key exactly once in order of first insertion, and the reported item count is its length.", "quantifier": "every history of stores", "why_tests_cant": "Needs an invariant linking the index table to the key array for all histories including growths.", "anchors": ["src/lib/objects/o_map.c: keysof, count, insert, grow"]}
{"id": "C04", "title": "List: behaves as a growable sequence", "statement": "For every history of list stores and reads with indices in the 32-bit range: storing at index = length appends, storing at a smaller index replaces exactly that element, any other index is rejected and changes nothing; reading returns the element last stored there; growth never loses or reorders elements.", "quantifier": "every history of stores/reads on a list, every capacity at creation", "why_tests_cant": "Growth points depend on capacity and history; a test checks finitely many lengths.", "anchors": ["src/lib/objects/o_list.c: Object_NewList, select_, insert, grow, count, keysof"]}
{"id": "C05", "title": "List: an index outside the list is always rejected", "statement": "Reading or storing with an integer index that is negative or larger than the length is rejected, for every 64-bit integer index.", "quantifier": "every 64-bit integer index, every list", "why_tests_cant": "2^64 indices; the failure region is at multiples of 2^32, which tests of 'large' indices rarely hit.", "anchors": ["src/lib/objects/o_list.c: select_, insert"]}
{"id": "C06", "title": "UTF-8: encoding a code point and decoding it gives it back", "statement": "For every code point 0..0x10FFFF, encoding into a large enough buffer writes 1-4 bytes, and decoding those bytes (followed by anything) returns the same code point and the same byte count; for larger values encoding fails.", "quantifier": "every 32-bit code point, every trailing byte string, every buffer size", "why_tests_cant": "1.1M code points times arbitrary suffixes and buffer sizes; bit-level reasoning is needed at each length boundary.", "anchors": ["src/lib/utils/utf8.c: utf8_sequence_from_utf32_codepoint, utf8_sequence_to_utf32_codepoint"]}
{"id": "C07", "title": "UTF-8: the decoder and the length counter stay inside the given bytes", "statement": "Decoding never consumes more bytes than it was given, counting characters always terminates, the count never exceeds the number of bytes, equals it for ASCII text, and counting a concatenation of encoded code points gives their number.", "quantifier": "every byte string", "why_tests_cant": "All byte strings, including malformed tails at the end of the buffer.", "anchors": ["src/lib/utils/utf8.c: utf8_sequence_to_utf32_codepoint, utf8_strlen"]}
{"id": "C08", "title": "UTF-8: malformed text is refused", "statement": "A byte string that is not well-formed UTF-8 (stray continuation byte, missing continuation byte, overlong form, surrogate) is refused by the validity check used when strings are created.", "quantifier": "every byte string", "why_tests_cant": "The set of malformed strings is infinite; tests pick a few known bad sequences.", "anchors": ["src/lib/utils/utf8.c: utf8_strlen, utf8_sequence_to_utf32_codepoint", "src/lib/objects/o_string.c: Object_FromString"]}
{"id": "C09", "title": "UTF-8: walking backwards inverts walking forwards", "statement": "In text made of encoded code points, stepping back from the end of any character lands on its first byte and yields its code point, so a backward traversal visits exactly the characters of the forward traversal in reverse.", "quantifier": "every sequence of code points, every character position in it", "why_tests_cant": "All texts and positions.", "anchors": ["src/lib/utils/utf8.c: utf8_prev"]}
{"id": "C10", "title": "String: indexing selects exactly the i-th character", "statement": "For a string made of n characters, indexing with 0 <= i < n returns the one-character string holding the i-th character, indexing outside the range is rejected, the reported length is n, and the concatenation of all the characters is the string itself.", "quantifier": "every text made of encoded code points, every index in the 32-bit range", "why_tests_cant": "All texts mixing 1-4 byte characters and all positions.", "anchors": ["src/lib/objects/o_string.c: select, char_index_to_offset, Object_FromString, count"]}
{"id": "C11", "title": "String: equality means same text", "statement": "Two strings compare equal exactly when they hold the same bytes.", "quantifier": "every pair of strings", "why_tests_cant": "All pairs, including text with embedded NUL characters, which the language can build.", "anchors": ["src/lib/objects/o_string.c: op_eql"]}
{"id": "C12", "title": "Equal values hash alike", "statement": "Whenever two values compare equal they have the same hash, so that either can be used to find a map entry stored under the other.", "quantifier": "every pair of int, bool, none, float and string values", "why_tests_cant": "Requires every pair of equal values, including signed zeros and strings with NULs.", "anchors": ["src/lib/utils/hash.c: hashbytes", "src/lib/objects/o_int.c: hash, op_eql", "src/lib/objects/o_float.c: hash, op_eql", "src/lib/objects/o_string.c: hash, op_eql", "src/lib/objects/o_bool.c", "src/lib/objects/o_none.c"]}
{"id": "C13", "title": "Buffer: reads and writes stay in bounds and a read returns the last write", "statement": "For every buffer and every 32-bit index: an index outside the buffer is rejected with no effect, a stored value must be 0..255 and is what the next read at that index returns, and no other position changes.", "quantifier": "every history of buffer writes/reads, every index and value", "why_tests_cant": "All histories and indices; out-of-bounds effects are invisible to tests that only look at the same buffer.", "anchors": ["src/lib/objects/o_buffer.c: Object_NewBuffer, buffer_select, buffer_insert"]}
{"id": "C14", "title": "Buffer: a slice is a live window on its buffer", "statement": "A slice taken with offset o and length n of a fresh buffer shares bytes with it: position i of the slice is position o+i of the buffer for reads and writes in both directions, for every later history of writes through either.", "quantifier": "every buffer, every accepted (offset,length), every interleaving of writes through both", "why_tests_cant": "Aliasing must hold for all interleavings of writes.", "anchors": ["src/lib/objects/o_buffer.c: Object_SliceBuffer, buffer_select, buffer_insert"]}
{"id": "C15", "title": "Buffer: a slice never reaches outside the buffer it was taken from", "statement": "For every request (offset,length) that is accepted on a buffer or slice, every position of the resulting slice lies inside the buffer or slice it was taken from.", "quantifier": "every buffer/slice, every 64-bit offset and length", "why_tests_cant": "Wrap-around of offset+length and slices of slices need all values, not samples.", "anchors": ["src/lib/objects/o_buffer.c: Object_SliceBuffer", "src/lib/builtins/buffer.c: bin_sliceUp"]}
{"id": "C16", "title": "Value stack: bounded last-in first-out", "statement": "Pushing then popping restores the stack, peeking at depth n returns the n-th most recently pushed live value, pushing on a full stack and popping more than is there are refused without effect.", "quantifier": "every stack capacity, every history of pushes and pops", "why_tests_cant": "All histories.", "anchors": ["src/lib/utils/stack.c: Stack_New, Stack_Top, Stack_Pop, Stack_Push"]}
{"id": "C17", "title": "Call frames: a function can only touch its own values", "statement": "During execution, popping or peeking through the running frame never reaches a value pushed by a caller; leaving a frame removes exactly the values it pushed, so the caller sees its stack unchanged; the number of values on the stack is always the sum of what the live frames own.", "quantifier": "every history of frame entries/exits, pushes and pops", "why_tests_cant": "Interleavings of calls, returns and pushes are unbounded.", "anchors": ["src/lib/runtime.c: Runtime_Push, Runtime_Pop, Runtime_Top, Runtime_PushFrame, Runtime_PopFrame, appendFrame"]}
{"id": "C18", "title": "Call depth and per-frame stack are limited and exceeding them is reported", "statement": "Never more than 16 frames are live and never more than 16 values belong to one frame; a request beyond the limit reports an error and leaves frames and stack as they were.", "quantifier": "every history of calls and pushes", "why_tests_cant": "All histories.", "anchors": ["src/lib/runtime.c: appendFrame, Runtime_Push, MAX_FRAMES, MAX_FRAME_STACK"]}
{"id": "C19", "title": "Garbage collection keeps everything reachable, unchanged up to relocation", "statement": "If a collection succeeds, there is a one-to-one renaming of the objects reachable from the roots such that every root and every reference inside every reachable object is renamed accordingly and all other contents are unchanged.", "quantifier": "every object graph (cycles, sharing, any size), every root set", "why_tests_cant": "Graphs are unbounded; sharing/cycle preservation needs an invariant over the traversal.", "anchors": ["src/lib/objects/heap.c: Heap_StartCollection, Heap_CollectReference, Heap_CollectExtension, Heap_StopCollection", "src/lib/runtime.c: Runtime_CollectGarbage"]}
{"id": "C20", "title": "Garbage collection finalizes dead objects exactly once and live ones never", "statement": "Over any sequence of allocations and successful collections ended by freeing the heap, the finalizer of every object that has one runs exactly once; it runs at the first collection at which the object is unreachable, never while it is reachable.", "quantifier": "every graph, every sequence of allocations and collections", "why_tests_cant": "Histories of collections and swap-removal order on the pending list are unbounded.", "anchors": ["src/lib/objects/heap.c: Heap_Malloc, callDestructors, Heap_Free"]}
{"id": "C21", "title": "Garbage collection reclaims all garbage", "statement": "After a successful collection the heap's object count is exactly the number of objects reachable from the roots, and only those occupy heap space.", "quantifier": "every object graph and root set", "why_tests_cant": "Needs exact reachability over all graphs.", "anchors": ["src/lib/objects/heap.c: Heap_CollectReference, Heap_StopCollection, Heap_GetObjectCount"]}
{"id": "C22", "title": "Heap memory blocks never overlap and are 8-byte aligned", "statement": "Blocks handed out from the heap pool are 8-byte aligned, inside the pool and pairwise disjoint; when the pool is exhausted the request is served elsewhere (outside a collection) or refused (during one), without disturbing existing blocks.", "quantifier": "every pool size and every sequence of block sizes", "why_tests_cant": "All sequences of sizes.", "anchors": ["src/lib/objects/heap.c: Heap_RawMalloc"]}
{"id": "C23", "title": "Arena allocator: blocks are aligned, disjoint and inside their chunk", "statement": "Every block returned by the arena is 8-byte aligned, lies inside one chunk of the arena, and is disjoint from every block returned before, for every mix of sizes including ones larger than the minimum chunk.", "quantifier": "every sequence of requests, every initial size", "why_tests_cant": "All sequences of request sizes.", "anchors": ["src/lib/utils/bpalloc.c: BPAlloc_Init3, BPAlloc_Malloc"]}
{"id": "C24", "title": "Chunked byte list: copying out gives exactly what was appended", "statement": "The bytes copied out of the list are the concatenation of everything appended, in order; the reported size is their number; an in-place reservation is contiguous and its position never changes.", "quantifier": "every sequence of appends of any sizes", "why_tests_cant": "Chunk boundary cases for all size sequences.", "anchors": ["src/lib/utils/bucketlist.c: BucketList_New, BucketList_Append, BucketList_Append2, BucketList_Copy"]}
{"id": "C25", "title": "Forward references are all patched", "statement": "However subscriptions and the resolution of a placeholder interleave, once it is resolved every place that subscribed, before or after, holds the value, each callback ran exactly once, and no other place was written.", "quantifier": "every interleaving of subscribe and resolve", "why_tests_cant": "Interleavings and the number of subscribers are unbounded.", "anchors": ["src/lib/utils/promise.c: Promise_New, Promise_Subscribe2, Promise_Resolve"]}
{"id": "C26", "title": "Executable building: what is fetched is what was emitted", "statement": "After finalizing, fetching instruction i returns the opcode and operands of the i-th emitted instruction, with strings intact and every label operand equal to the position the label was given, wherever the label was defined; fetching beyond the end is refused.", "quantifier": "every sequence of emitted instructions and label definitions", "why_tests_cant": "All programs and all label placements.", "anchors": ["src/lib/executable.c: ExeBuilder_Append, ExeBuilder_Finalize, Executable_Fetch", "src/lib/compiler/codegenctx.c"]}
{"id": "C27", "title": "Compiled programs never jump outside their code", "statement": "Every jump target and function entry point in the code generated for an accepted program is a valid instruction index, so executing generated code never reports an invalid instruction index.", "quantifier": "every syntax tree the code generator accepts", "why_tests_cant": "All programs.", "anchors": ["src/lib/compiler/codegen.c: emitInstrForNode", "src/lib/run.c: runInstruction"]}
{"id": "C28", "title": "Compiled programs keep the stack balanced", "statement": "In generated code every instruction finds the operands it needs on its own frame, statements leave nothing behind, and a return instruction finds exactly the values it returns, on every path (loops, breaks, short circuits, default arguments).", "quantifier": "every syntax tree the code generator accepts, every path through its code", "why_tests_cant": "All programs and all paths.", "anchors": ["src/lib/compiler/codegen.c: emitInstrForNode", "src/lib/run.c: runInstruction (OPCODE_RETURN, OPCODE_POP)"]}
{"id": "C29", "title": "Compiled programs do what the program says", "statement": "Running the bytecode generated for a program has the same result, errors and effects on objects and variables as evaluating the program tree directly, unless an interpreter limit (frame stack, call depth) is hit.", "quantifier": "every program of the modelled language and every initial state", "why_tests_cant": "Compiler correctness quantifies over all programs and executions.", "anchors": ["src/lib/compiler/codegen.c", "src/lib/run.c: runInstruction, func_call, runExecutableAtIndex"]}
{"id": "C30", "title": "Logical operators short-circuit and always give booleans", "statement": "The right operand of and/or is evaluated exactly when the left one does not decide the result; the result is a boolean; a non-boolean operand that is evaluated is an error.", "quantifier": "every pair of operand expressions and every state", "why_tests_cant": "Operands are arbitrary code with side effects.", "anchors": ["src/lib/compiler/codegen.c: EXPR_AND, EXPR_OR", "src/lib/run.c: OPCODE_JUMPIFANDPOP, OPCODE_JUMPIFNOTANDPOP"]}
{"id": "C31", "title": "Calls: missing arguments are none, extra ones are dropped, results are adjusted", "statement": "A function declared with p parameters and called with a arguments binds parameter i to argument i if i < a and to none otherwise; an assignment expecting r results receives the first r returned values, padded with none.", "quantifier": "every p, a, r within the limits, every returned tuple", "why_tests_cant": "All combinations of declared, passed and returned counts.", "anchors": ["src/lib/run.c: func_call, native_func_call, OPCODE_CALL, runExecutableAtIndex", "src/lib/compiler/codegen.c: emitInstrForArgumentNode, emitInstrForAssignmentNode"]}
{"id": "C32", "title": "Calls: every value a function returns is delivered intact", "statement": "If a function returns n values and the caller asks for r of them, the caller gets the first min(n,r) of them, for every n the language lets a function return.", "quantifier": "every n and r", "why_tests_cant": "Requires all counts up to the compiler's limit; the failing region needs nine or more results.", "anchors": ["src/lib/run.c: OPCODE_CALL, runExecutableAtIndex, MAX_RETS"]}
{"id": "C33", "title": "Integer arithmetic is exact or reported", "statement": "Addition, subtraction, multiplication and negation of integers give the exact result when it fits in 64 bits and are reported as an error otherwise; mixed operands are converted to floats; non-numbers are an error.", "quantifier": "every pair of values", "why_tests_cant": "2^128 pairs of integers.", "anchors": ["src/lib/run.c: do_math_op, OPCODE_NEG", "docs/Language.md 2.2"]}
{"id": "C34", "title": "Division and remainder never crash", "statement": "Division or remainder by zero is reported as an error; otherwise q = a/b and r = a%b satisfy a = q*b + r with |r| < |b| and r having the sign of a.", "quantifier": "every pair of integers", "why_tests_cant": "All pairs, including the most negative integer divided by -1.", "anchors": ["src/lib/run.c: do_math_op, OPCODE_MOD"]}
{"id": "C35", "title": "Comparison operators are a total order on integers and consistent with each other", "statement": "On integers exactly one of <, ==, > holds, <= is < or ==, >= is > or ==, and the order is transitive; between ints and floats the same laws hold.", "quantifier": "every triple of numbers", "why_tests_cant": "All triples; rounding of 64-bit integers to floats breaks laws only for very large values.", "anchors": ["src/lib/run.c: do_relational_op", "src/lib/objects/o_int.c: op_eql", "src/lib/objects/o_float.c: op_eql"]}
{"id": "C36", "title": "Equality is an equivalence and never confuses types", "statement": "== is reflexive, symmetric and transitive on values of comparable types, values of different types are never equal, and != is its negation.", "quantifier": "every triple of values", "why_tests_cant": "All values.", "anchors": ["src/lib/objects/objects.c: Object_Compare", "src/lib/run.c: OPCODE_EQL, OPCODE_NQL"]}
{"id": "C37", "title": "Type expressions: nullable and sum types mean union", "statement": "A value matches T1|T2 exactly when it matches T1 or T2; it matches ?T exactly when it is none or matches T; everything matches any; a list or map pattern is matched element-wise and extra elements are ignored.", "quantifier": "every type expression, every value", "why_tests_cant": "Type expressions nest arbitrarily.", "anchors": ["src/lib/objects/o_sum.c: istypeof", "src/lib/objects/o_nullable.c: istypeof", "src/lib/objects/o_any.c: istypeof", "src/lib/objects/o_list.c: istypeof", "src/lib/objects/o_map.c: istypeof", "src/lib/objects/objects.c: istypeof"]}
{"id": "C38", "title": "A failed type test is just false", "statement": "Testing whether a value matches a type expression yields true or false and never disturbs later execution.", "quantifier": "every type expression and value", "why_tests_cant": "All nestings; the failing case needs a list pattern longer than the list.", "anchors": ["src/lib/objects/o_list.c: istypeof", "src/lib/builtins/basic.c: bin_istypeof", "src/lib/run.c: OPCODE_CHECKTYPE"]}
{"id": "C39", "title": "Variables: assignment is local, lookup is lexical", "statement": "An assignment in a function changes only that function's own variables; reading a name gives the running function's variable if it has one, else that of the nearest enclosing function definition, else a builtin, else an error.", "quantifier": "every nesting of scopes, every history of assignments", "why_tests_cant": "All scope chains.", "anchors": ["src/lib/runtime.c: Runtime_SetVariable, Runtime_GetVariable", "src/lib/objects/o_closure.c: closure_select", "src/lib/run.c: OPCODE_PUSHFUN"]}
{"id": "C40", "title": "Tokenizing: tokens tile the source", "statement": "Tokenizing any source text terminates; on success the tokens are non-empty, in order, non-overlapping, inside the text, and everything between them is whitespace or comments, so no character is lost; the list ends with one end-of-source token.", "quantifier": "every byte string given as source", "why_tests_cant": "All source texts.", "anchors": ["src/lib/compiler/parse.c: tokenize"]}
{"id": "C41", "title": "Tokenizing: operators are recognized next to each other", "statement": "A two-character operator is recognized as one token also when directly followed by another operator character, as in a==-1.", "quantifier": "every pair of adjacent operators", "why_tests_cant": "All adjacent pairs in all contexts.", "anchors": ["src/lib/compiler/parse.c: tokenize, isoper"]}
{"id": "C42", "title": "Parsing inverts printing", "statement": "Printing any expression tree in parenthesized source form, tokenizing and parsing it gives the same tree back.", "quantifier": "every expression tree of the modelled grammar", "why_tests_cant": "All trees.", "anchors": ["src/lib/compiler/parse.c: tokenize, parse_expression, parse_expression_2, parse_prefix_expression, parse_postfix_expression, parse_primary_expresion"]}
{"id": "C43", "title": "Operator precedence and associativity", "statement": "An operator chain without parentheses groups by the documented precedence levels, left-associatively (assignment right-associatively).", "quantifier": "every operator chain of any length", "why_tests_cant": "Chains are unbounded.", "anchors": ["src/lib/compiler/parse.c: parse_expression_2, precedenceof, isrightassoc"]}
{"id": "C44", "title": "Any source text yields a program or an error message", "statement": "Parsing any text terminates and either gives a syntax tree or reports an error; it never crashes the interpreter.", "quantifier": "every byte string", "why_tests_cant": "All texts.", "anchors": ["src/lib/compiler/parse.c: parse, parse_map_primary_expression, next"]}
{"id": "C45", "title": "String literals denote the text they spell", "statement": "For every text shorter than the literal limit, writing it as a literal with the documented escapes and parsing the literal gives the text back.", "quantifier": "every byte string without NUL below the limit, both quote characters", "why_tests_cant": "All texts and escape combinations.", "anchors": ["src/lib/compiler/parse.c: tokenize, parse_string_primary_expression"]}
{"id": "C46", "title": "Assembler integer operands are exact", "statement": "An integer operand written in decimal in assembly source is accepted exactly when it fits and then denotes that number.", "quantifier": "every digit string", "why_tests_cant": "Unbounded digit strings; overflow boundary.", "anchors": ["src/lib/assembler/assemble.c: parseIntegerOperand"]}
{"id": "C47", "title": "Executable equality is sound", "statement": "Two executables reported equivalent behave identically: same instructions with same operands.", "quantifier": "every pair of executables", "why_tests_cant": "All pairs; the failing region needs operands differing only above 32 bits.", "anchors": ["src/lib/executable.c: Executable_Equiv"]}
{"id": "C48", "title": "string.cat concatenates, string.slice cuts", "statement": "cat(a1..an) holds the bytes of a1..an in order; slice(s,o,n) with o+n inside s holds bytes o..o+n-1 of s and is otherwise refused.", "quantifier": "every list of strings, every offset and length", "why_tests_cant": "All strings and all 64-bit offsets.", "anchors": ["src/lib/builtins/string.c: bin_cat, bin_slice"]}
{"id": "C49", "title": "string.trim removes surrounding spaces only", "statement": "trim(s) is s without its leading and trailing spaces.", "quantifier": "every string", "why_tests_cant": "All strings; the bug needs a leading space.", "anchors": ["src/lib/builtins/string.c: bin_trim"]}
{"id": "C50", "title": "string.toInt reads decimal numbers exactly", "statement": "For every string of decimal digits toInt returns the number it denotes if it fits in 64 bits and reports overflow otherwise; for any other string it reports that it is not an integer.", "quantifier": "every string", "why_tests_cant": "Unbounded digit strings.", "anchors": ["src/lib/builtins/string.c: bin_toInt", "src/lib/builtins/utils.c: returnValuesVA"]}
{"id": "C51", "title": "toString of an integer is its decimal representation", "statement": "The prelude's toString applied to an integer terminates and gives its decimal digits.", "quantifier": "every 64-bit integer", "why_tests_cant": "2^64 integers and an overflow boundary inside the loop.", "anchors": ["src/lib/builtins/start.noja: stringFromInteger, getIntegerMagnitude"]}
{"id": "C52", "title": "Iterators visit every element once, in order", "statement": "Repeatedly calling next on the generic iterator over a collection of n elements yields the n (value,key,index) triples in order and then none forever.", "quantifier": "every collection, every number of calls", "why_tests_cant": "All lengths and call counts.", "anchors": ["src/lib/builtins/start.noja: makeGenericIterator"]}
{"id": "C53", "title": "Path resolution stays in its buffer and yields an absolute path", "statement": "Making a path absolute never writes past the given buffer, fails if the result does not fit, returns absolute paths unchanged, and otherwise returns the current directory, a slash and the path.", "quantifier": "every path, working directory and buffer size", "why_tests_cant": "All lengths around the boundary.", "anchors": ["src/lib/utils/path.c: Path_IsAbsolute, Path_MakeAbsolute"]}
{"id": "C54", "title": "Error messages are complete", "statement": "A reported error message is stored in full whatever its length (unless memory is exhausted, in which case it is marked truncated), and reporting and freeing never leaks or double-frees the message.", "quantifier": "every message, every history of report/free", "why_tests_cant": "Lengths around the inline buffer size and all histories.", "anchors": ["src/lib/utils/error.c: _Error_Report2, Error_Free"]}
{"id": "C55", "title": "Buffer storage is released exactly when its last view dies", "statement": "The memory behind a buffer and its slices is released when, and only when, the last of them is destroyed; no read or write through a live buffer or slice ever touches released memory.", "quantifier": "every history of creations, slices, reads, writes and destructions", "why_tests_cant": "Orders of destruction of any number of aliases.", "anchors": ["src/lib/objects/o_buffer.c: buffer_free, Object_SliceBuffer, buffer_select, buffer_insert"]}
{"id": "C56", "title": "A new buffer has exactly the requested number of zero bytes", "statement": "Creating a buffer of n bytes gives n readable bytes, all zero, or fails; it never writes outside the memory it got.", "quantifier": "every 64-bit size", "why_tests_cant": "The failing region is the wrap-around of the size computation.", "anchors": ["src/lib/objects/o_buffer.c: Object_NewBuffer", "src/lib/builtins/buffer.c: bin_new"]}
{"id": "C57", "title": "Copying and enumerating lists", "statement": "Copying a list gives a list of the copied elements in the same order; the key list of a list of n elements is 0,1,..,n-1; building a list from n items gives exactly these items.", "quantifier": "every list", "why_tests_cant": "All lengths and contents.", "anchors": ["src/lib/objects/o_list.c: copy, keysof, Object_NewList2, Object_NewListOfConsecutiveIntegers"]}
{"id": "C58", "title": "A collection that runs out of memory leaves objects and finalizers in order", "statement": "When a collection cannot copy everything that is alive and reports the failure, no finalizer has run on a reachable object, and when the heap is freed afterwards every finalizer has run exactly once.", "quantifier": "every heap and root set", "why_tests_cant": "Needs a heap that fills up in the middle of a collection, with a finalizable object not yet moved.", "anchors": ["src/lib/objects/heap.c: Heap_CollectReference, callDestructors, Heap_StopCollection, Heap_Free"]}
{"id": "C59", "title": "The assembler answers for every text", "statement": "Assembling any text terminates with an executable or a reported error, reads and writes only its own memory, and an executable is returned only if no error was reported.", "quantifier": "every byte string", "why_tests_cant": "All byte strings, including truncated and malformed ones.", "anchors": ["src/lib/assembler/assemble.c: assemble, parseOperands, parseStringOperand", "src/lib/utils/labellist.c"]}
{"id": "C60", "title": "Imported files are looked up next to the importing script", "statement": "The path of an imported file is the given path if it is absolute, and otherwise the folder of the importing script (or the working directory) followed by it; a path that does not fit in the buffer is refused, and nothing is written outside of the buffer.", "quantifier": "every path, script location, working directory and buffer size", "why_tests_cant": "All lengths around the buffer size.", "anchors": ["src/lib/runtime.c: Runtime_GetCurrentScriptFolder", "src/lib/run.c: makePathRelativeToScript"]}
{"id": "C61", "title": "A copy shares no list and no map with the original", "statement": "Copying a value made of scalars, lists and maps gives a value of the same shape with the same scalars, in which every list and every map is a new object: nothing done to the objects that existed before the copy can be seen through the copy, and nothing done to the copy can be seen through the original.", "quantifier": "every nesting of lists and of maps with scalar keys, of any depth and with any sharing", "why_tests_cant": "All shapes, including a sub-list reached along several paths.", "anchors": ["src/lib/objects/objects.c: Object_Copy", "src/lib/objects/o_list.c: copy", "src/lib/objects/o_map.c: copy, insert (the key is copied)"]}
{"id": "C62", "title": "The collector copies the blocks an object owns, and no more", "statement": "When an object with extension blocks (the array of a list, the arrays of a map, the body of a string) is moved, exactly the bytes that were allocated for each block are read.", "quantifier": "every object, capacity and position in the pool", "why_tests_cant": "The over-read is silent unless the block is the last one of the pool or an overflow block.", "anchors": ["src/lib/objects/o_list.c: walkexts, Object_NewList, grow", "src/lib/objects/o_map.c: walkexts, Object_NewMap, grow", "src/lib/objects/o_string.c: walkexts, Object_FromString", "src/lib/objects/heap.c: Heap_CollectExtension"]}
{"id": "C63", "title": "A text assembles to the instructions that are written in it", "statement": "However a program is laid out, assembling it yields the instructions and operands of its lines in order, every label being the index of the line it is given to; a text with a badly typed operand or an unknown label is refused, and so is one that gives a label twice.", "quantifier": "every program, layout (blank space, escapes, signs, leading zeros, missing last semicolon) and label placement", "why_tests_cant": "All programs and all ways of writing them; forward and backward references.", "anchors": ["src/lib/assembler/assemble.c: assemble, parseLabelAndOpcode, parseOperands, parseStringOperand", "src/lib/utils/labellist.c", "src/lib/executable.c: ExeBuilder_Append, Executable_Fetch"]}
{"id": "C64", "title": "input returns the lines of the stream one by one", "statement": "Successive calls of input return the successive lines of the standard input without their newline, whatever their length; at the end of the input the call returns.", "quantifier": "every stream and number of calls", "why_tests_cant": "All line lengths, and streams that end without a newline.", "anchors": ["src/lib/builtins/basic.c: bin_input"]}
{"id": "C65", "title": "Reading and writing move exactly the bytes asked for", "statement": "files.read and net.recv store the next bytes of the stream, as many as asked for, as fit and as there are, at the beginning of the buffer, return their number and change no other byte of any buffer; files.write and net.send append the first bytes of the buffer. A negative count is refused. What is written to a file and read back is the same.", "quantifier": "every buffer and slice, count, and contents of the stream", "why_tests_cant": "All counts (including 64-bit ones), sizes and overlapping slices.", "anchors": ["src/lib/builtins/files.c: bin_read, bin_write", "src/lib/builtins/net.c: bin_recv, bin_send"]}
{"id": "C66", "title": "openFile answers for every mode", "statement": "openFile called with any integer as mode opens the file or reports an error.", "quantifier": "every integer", "why_tests_cant": "All integers.", "anchors": ["src/lib/builtins/files.c: bin_openFile"]}
{"id": "C67", "title": "floor and ceil round to an integer", "statement": "floor(x) is the greatest integer that is not above x and ceil(x) the least that is not below; a value without such a 64-bit integer is reported.", "quantifier": "every double, including NaN and infinities", "why_tests_cant": "2^64 patterns.", "anchors": ["src/lib/builtins/math.c: bin_floor, bin_ceil"]}
{"id": "C68", "title": "A function of math called with any arguments returns a value or an error", "statement": "A function of the module math returns its value when its arguments are floats and reports an error for every other list of arguments.", "quantifier": "every list of arguments", "why_tests_cant": "All numbers and types of arguments, for every function.", "anchors": ["src/lib/builtins/math.c: WRAP_FUNC, WRAP_FUNC_2, bins_math", "src/lib/run.c: runtime function call"]}
{"id": "C69", "title": "random.generate stays within its bounds", "statement": "generate(min, max) returns an integer z with min <= z <= max, and without arguments a non-negative integer.", "quantifier": "all bounds and every value of rand", "why_tests_cant": "The failing values of rand are rare, and depend on rounding in double arithmetic.", "anchors": ["src/lib/builtins/random.c: bin_generate"]}
{"id": "C70", "title": "Strings survive the conversion to a buffer and back", "statement": "fromString gives a new buffer with the bytes of the string, sharing nothing; toString gives the string with the bytes of the buffer, or none and a message when they are not UTF-8.", "quantifier": "every string and every buffer", "why_tests_cant": "All strings, and buffers that are slices of others.", "anchors": ["src/lib/builtins/buffer.c: bin_fromString, bin_toString", "src/lib/objects/o_buffer.c: Object_NewBufferFromString, Object_GetBuffer"]}
{"id": "C71", "title": "Running a text does what the program written in it means", "statement": "A text in which the grammar reads a program is compiled, and running the result does, step by step and in every final outcome, what evaluating the program does; a text in which the grammar reads no program, or whose program has a semantic error, is refused with a message.", "quantifier": "every text below 64 MB, every initial memory, every number of steps", "why_tests_cant": "The composition of tokenizer, parser, code generator and machine, for all texts.", "anchors": ["src/lib/compiler/compile.c: compile", "src/lib/run.c: runSource, run"]}
{"id": "C72", "title": "A source holds the text it was made from", "statement": "Source_FromFile gives a source with the contents of the named file, its absolute path, and a NUL behind the text, or reports an error; Source_FromString gives one with the text of the string. A source is freed by the call that gives back its last reference, and not before.", "quantifier": "every file name, working directory, file and string, and every sequence of copies and frees", "why_tests_cant": "File sizes above 2^31; every order of copies and frees.", "anchors": ["src/lib/utils/source.c: Source_FromFile, Source_FromString, Source_Copy, Source_Free, Source_GetAbsolutePath", "src/lib/utils/path.c: Path_MakeAbsolute"]}
{"id": "C73", "title": "Printing ends and writes the text of the value", "statement": "print writes the texts of its arguments one after the other: integers in decimal, strings as they are, lists and maps with the texts of what they hold; an object inside of itself is written as three dots, and only such an object; it ends for cyclic objects too and can be repeated with the same result.", "quantifier": "every store, cyclic or not, and all arguments", "why_tests_cant": "All object graphs, with cycles and sharing.", "anchors": ["src/lib/objects/objects.c: Object_Print", "src/lib/objects/o_list.c: print", "src/lib/objects/o_map.c: print", "src/lib/objects/o_buffer.c: print_bytes", "src/lib/objects/o_string.c: print", "src/lib/builtins/basic.c: bin_print"]}
{"id": "C74", "title": "A text that computes with literals gives what the expression means", "statement": "Running the text 'return e;', where e is made of literals and operators, returns the value that arithmetic on integers and IEEE doubles gives e, reports an error where the operator has no meaning for its operands or divides by zero, and never gives another value.", "quantifier": "every text below 64 MB that reads so, every expression that holds at most 16 values at once", "why_tests_cant": "All expressions: every nesting of operators, with all mixtures of operand types.", "anchors": ["src/lib/compiler/parse.c: parse", "src/lib/compiler/codegen.c: emitInstrForNode", "src/lib/run.c: runInstruction", "src/lib/run.c: do_math_op, do_relational_op"]}
{"id": "C75", "title": "The interpreter keeps its limits and reports them only when they are reached", "statement": "No run has more than 16 frames, 16 values on a frame or as many values in all as the stack was made for. Every instruction takes and leaves the number of values it should and touches no other frame. A limit is reported only if it would be exceeded; a program whose frames never need more than 16 values reaches none but the depth of 16 calls, and none at all if it calls nothing.", "quantifier": "every executable, every state and number of steps; for the last claim every program the code generator accepts", "why_tests_cant": "Arbitrary bytecode, all depths of nesting and recursion.", "anchors": ["src/lib/runtime.c: Runtime_Push, Runtime_Pop, Runtime_PushFrame", "src/lib/run.c: runInstruction, do_call"]}
{"id": "C76", "title": "Lists and maps as keys hash by their content", "statement": "The hash of a list or of a map is the sum (modulo 2^32) of the hashes of all the scalars in it, so two lists or maps with the same scalars hash alike and a copy hashes like its original. Copying changes no existing object and is refused for values with a type, function or library object in them. A value stored in a map under a list or map can be read back under it.", "quantifier": "For all heaps and all lists and maps nested to any depth without cycles, all keys and all stores.", "why_tests_cant": "Nesting and contents are unbounded; a hash that depended on order or depth would only show with particular contents.", "anchors": ["src/lib/objects/o_list.c:107-122", "src/lib/objects/o_map.c:137-148", "src/lib/objects/objects.c:108-131", "src/lib/objects/o_map.c:217-268", "src/lib/objects/objects.c:272-288"]}
{"id": "C77", "title": "Looking at values and looking up built-in names", "statement": "string.ord gives the code of the first character of a text and refuses the empty text; string.chr gives the text of one character and refuses numbers that are no character; they undo each other. count gives the number of characters, items or keys; keysof a new list of positions or keys. typename gives the name under which the type given by type is found. A program finds exactly the documented built-in names.", "quantifier": "For all texts, code points, lists, maps, values and names.", "why_tests_cant": "There are over a million characters and infinitely many names; a look-up by prefix or an off-by-one key needs a particular input to show.", "anchors": ["src/lib/builtins/string.c:11-81", "src/lib/builtins/basic.c:96-167", "src/lib/builtins/basic.c:283-352", "src/lib/o_staticmap.c:107-146"]}
{"id": "C78", "title": "What programs of assignments, conditionals and loops do", "statement": "A text made of assignments to variables, if, else, while, do, break and return, over literals, operators and variables, does exactly what these words say: it ends with the values it returns or with its variables, with an error, or never; the machine answers with these values, has these variables in the end, reports the error, or keeps running. A text that reads as Euclid's algorithm returns the greatest common divisor.", "quantifier": "For all such texts, of any size and nesting and with any number of rounds of their loops, all environments, heaps and stack limits of at least 256.", "why_tests_cant": "Programs, nesting and rounds are unbounded and a program that never ends cannot be tested to its end.", "anchors": ["src/lib/compiler/codegen.c:674-762", "src/lib/run.c:495-1132", "src/lib/compiler/parse.c:440-900", "src/lib/runtime.c:532-610"]}
{"id": "C79", "title": "A started interpreter knows the basic names first and the prelude's names after them, and abs, min, max, isCallable, append and integerFromDigit compute what they are named for", "statement": "After the prelude (start.noja) has been run and its result plugged in, a name is looked up first among the basic builtins and then in the map the prelude returned; exactly the names of these two lists are found. What is plugged later should take precedence over what was there before. abs gives the absolute value of every integer and float and refuses everything else; min and max give the smaller and the larger of two integers and refuse what cannot be compared; isCallable is true exactly of functions and native functions; append puts one item at the end of a list and changes nothing else; integerFromDigit gives the value of a digit and refuses everything else.", "quantifier": "for all states reached after start-up, all names, all argument values, all lists, all texts", "why_tests_cant": "The functions are defined in Noja itself and run through the whole interpreter; the least integer, negative zero, texts longer than one character and names plugged twice are not in any test, and absence of a name cannot be tested name by name.", "anchors": ["src/lib/builtins/start.noja", "src/lib/runtime.c", "src/lib/o_staticmap.c", "src/lib/objects/o_closure.c", "src/lib/builtins/basic.c"]}
{"id": "C80", "title": "A program cannot tell whether and when garbage is collected", "statement": "Between any two instructions the interpreter may collect garbage, which moves every reachable object and drops the others. With collections at any points, as many as one likes, the run of a program writes the same text, instruction by instruction, and ends the same way (results, error, limit, undefined behaviour) as the run without any, the results being the same up to where objects are; in particular they print as the same text. No builtin depends on where its arguments are. The heap, with the roots the interpreter passes to the collector, represents the same state of the machine after a successful collection as before.", "quantifier": "for all executables, all states whose reachable objects exist, all places and numbers of collections, all numbers of instructions", "why_tests_cant": "A collection starts only when more than the whole pool has been used, so small tests never see one; where it falls depends on sizes, and every instruction would have to be tried with a collection before and after it.", "anchors": ["src/lib/run.c", "src/lib/runtime.c", "src/lib/objects/heap.c", "src/lib/objects/objects.c", "src/lib/objects/o_list.c", "src/lib/objects/o_map.c", "src/lib/objects/o_closure.c", "src/lib/builtins/basic.c", "src/lib/builtins/string.c"]}
{"id": "C81", "title": "The diagram of a program shows its syntax tree", "statement": "With --diagram-ast the command writes a description of a graph. The graph is a tree that follows the program: its points are numbered in the order of their lines, every point but the first has exactly one edge to it, which comes from a point with a smaller number, and the labels are the operators, names, numbers and strings of the program. Whatever characters the strings contain, the text can be read in one way only. Every name of the program is the label of a point. The text is stored whole in the buffers it is built in.", "quantifier": "for all syntax trees in which no return gives more than 32 values, all strings, all numbers of points below 2^31, all sequences of texts appended to a buffer", "why_tests_cant": "The drawing is an option nobody looks at in tests; tuples, arrows, quotes in strings, big numbers and long returns each need their own example, and a missing name is not seen by comparing the output with itself.", "anchors": ["src/lib/compiler/graphviz.c", "src/lib/diagram.c", "src/cli/main.c", "src/lib/compiler/ASTi.h", "src/lib/compiler/parse.c"]}
{"id": "C82", "title": "The test program runs every test and reports what it expects", "statement": "The program that runs the tests reads a test file into fields: up to seven fields, written as a name and a body in square or curly brackets, are read back exactly, wherever spaces are; a name given twice is refused; the reading always ends. A test of the compiler is reported as passed exactly if source and bytecode are accepted and agree at every instruction; a test of the machine exactly if the program ends and has written the expected text. Every test file below a directory that is not hidden is run and counted once.", "quantifier": "for all lists of fields, spaces, names and bodies, all texts, all directories whose paths have at most 1023 characters, all sources and programs", "why_tests_cant": "The test program is itself never tested; a harness that lost fields, skipped files or reported success wrongly would make every other test worthless, without any of them noticing.", "anchors": ["src/test/scanner.c", "src/test/field.c", "src/test/test.c", "src/test/run.c", "src/test/main.c", "src/lib/executable.c", "tests/"]}
{"id": "C83", "title": "toString tells lists and maps from their items, to any depth", "statement": "In a started interpreter, toString of a list gives the texts of its items, separated by a comma and a space, in square brackets; of a map the texts of its keys and values in the order in which the keys were first stored, in curly brackets; of none, of integers from 0 to 10^18 - 1, strings, functions and types their texts; and so to any depth. Values of any other type are refused.", "quantifier": "for all memories holding the prelude, all values built from these kinds to any depth, any amount of calls that suffices", "why_tests_cant": "A test tells a few lists of fixed length and depth; separators after the last item, lost items, a wrong order of keys or a depth at which it fails show only for some lists.", "anchors": ["src/lib/builtins/start.noja", "src/lib/builtins/basic.c", "src/lib/objects/o_list.c", "src/lib/objects/o_map.c"]}
{"id": "C84", "title": "A stack trace names every active call with its place", "statement": "Assembling a program gives instructions that remember where their names stand in the text, in order. When a program stops with an error, Runtime_PrintStackTrace writes \"Stack trace:\" and one line per active call, numbered from 0, the innermost first: the name of the program and the line of the instruction the call would go on with, \"(no source)\" for a native function.", "quantifier": "for all texts that can be assembled, all environments, memories and numbers of executed instructions after which the next one fails", "why_tests_cant": "A test sees the trace of a few failing programs with one or two calls; missing frames, wrong numbers, an order or a line that is wrong show only for other texts, depths and failing instructions.", "anchors": ["src/lib/runtime.c", "src/lib/run.c", "src/lib/executable.c", "src/lib/assembler/assemble.c"]}
{"id": "C85", "title": "A runtime outlives the failures of the programs it runs", "statement": "However many programs are run one after the other on one runtime, and however they end, each run comes back with its result; the stack trace names what the failed ones left behind; another program is accepted while fewer than 16 calls are left; Runtime_Free releases every frame and every source.", "quantifier": "for all sequences of programs and outcomes with at most one program that cannot be compiled and at most 16 calls left", "why_tests_cant": "A test runs one program per runtime; shared frames, lost references and limits that fill up show only in sequences of failing programs.", "anchors": ["src/lib/runtime.c", "src/lib/run.c", "src/lib/utils/source.c"]}
{"id": "C86", "title": "The command line does what its options ask for", "statement": "Every list of arguments is options up to the name of the input, the end, or an option that is refused. Of modes, output files and heap sizes the last one counts; the heap has the size that was asked for. An option without its argument, a heap of size zero or a missing input is reported with the usage, and -1 is returned with no other effect; help and diagrams go where they were asked to go; a program is run with these settings and followed only by its report or its profile; the exit value is 0 or -1, and -1 comes with a report.", "quantifier": "for all lists of arguments and all behaviours of the interpreter and the file system", "why_tests_cant": "A test tries a few command lines; the order of options, options twice, options behind the input, and sizes with blanks, signs or letters show only on others.", "anchors": ["src/cli/main.c", "src/lib/runtime.c", "src/lib/objects/heap.c"]}
{"id": "C87", "title": "A profile counts every call", "statement": "A program that is profiled behaves and ends as without profiling. Its profile has one line for every function that was made and called, in the order in which the functions were made: the name, the program, and exactly the number of calls that were started, whether they returned or were cut off by an error. No entry is written outside of the table, no number of an entry is out of range, and the references to the source that the table holds are given back.", "quantifier": "for all programs, environments, stack sizes and runs, with any number of functions and calls, nested or recursive", "why_tests_cant": "A test looks at the profile of a few programs; recursion, functions made in loops, calls cut off by errors and tables that grow need other runs.", "anchors": ["src/lib/timing.c", "src/lib/run.c", "src/lib/runtime.c"]}
{"id": "C88", "title": "Programs made of functions do what is told of them on plain assignments", "statement": "A program that defines functions and then computes with numbers, truth values and calls does, compiled and run by the machine, exactly what one tells of it with an assignment of values to names for the program and one for each call under way: the same variables at the end, the same results, an error where a wrong operand or a name without a value is met, undefined behaviour where an integer does not fit 64 bits, the limit exactly when a sixteenth call would be under way, and no end when the telling has none. Functions can be recursive and call each other; arguments without a parameter are dropped, parameters without an argument are none, and results nobody takes are dropped. Every text that reads as the recursive factorial gives the factorial up to 15 and the limit from 16 on.", "quantifier": "for all such programs, all their texts, environments, stack sizes from 256 on and heaps, any number of functions, statements and calls", "why_tests_cant": "A test runs a few programs with a few numbers; recursion meets the limit of frames at one depth only, and a wrong scope shows only when names of the caller, the function and the program meet.", "anchors": ["src/lib/run.c", "src/lib/compiler/codegen.c", "src/lib/compiler/parse.c"]}
{"id": "C89", "title": "A program holds exactly the sockets that are open", "statement": "Through any sequence of calls of socket, bind, listen, accept and close, with any arguments, the open descriptors are those the program was handed as results and did not close. Each function asks the system for what it was called with and hands back its answer: a descriptor, the address and the port of the other side, nothing, or a message. A call whose first argument is not an integer asks for nothing. Every call ends with an error or with one to three results.", "quantifier": "for all systems that keep their descriptors apart, all sequences of calls, all arguments", "why_tests_cant": "A test talks to one real network stack, in which options and descriptors hardly ever fail; leaks, truncated numbers and swapped bytes show only with other answers.", "anchors": ["src/lib/builtins/net.c", "src/lib/builtins/utils.c"]}
{"id": "C90", "title": "A directory is listed completely", "statement": "openDir opens the directory that is named; nextDirItem gives the names in it, one for each call, each once and in the order of the system, and nothing once all were given.", "quantifier": "for all directories whose names are texts, any number of calls", "why_tests_cant": "A test lists a few directories with plain names; names that are not UTF-8 and paths with zero bytes need other directories.", "anchors": ["src/lib/builtins/files.c"]}
{"id": "C91", "title": "Types and default values of parameters", "statement": "A parameter takes its argument; where there is none, or none is passed, it takes its default value, or none if it has no default value. Then its type, if it has one, accepts the value or the call is an error: a name of a type accepts the values of that type, any accepts everything, ?t accepts none and what t accepts, t | u accepts what t or u accept. Default values are computed anew at each call, among the variables of the program and the parameters that stand behind, not those in front.", "quantifier": "for all texts, all lists of parameters with such types and literal default values, all literal arguments (any number, too few or too many), all environments where the names of types mean types", "why_tests_cant": "Types combine without end, and each must be met with each kind of value, as argument and as default value, at each position.", "anchors": ["src/lib/compiler/codegen.c: emitInstrForFuncExprNode, emitInstrForArgumentNode", "src/lib/compiler/parse.c: parse_function_arguments", "src/lib/run.c: OPCODE_CHECKTYPE", "src/lib/objects/objects.c: istypeof, Object_IsTypeOf"]}
{"id": "C92", "title": "Programs with lists", "statement": "A program with variables, conditions, loops, lists and strings does to its lists what its text says: a list expression makes a new list, an assignment of a list makes a second name of the same list, selecting gives the item at the index or none, an assignment to an item replaces it or appends it at the end, any other index is an error, as is comparing or adding lists; lists may contain lists and themselves. The program ends with the values it returns and all lists in the told state, with an error exactly where the description says so, and runs for ever if it is told without end. In particular every text of the insertion sort program sorts every list of integers.", "quantifier": "for all texts below 2^26 bytes that read as such programs, all environments and memories in which the names are not known, all lists of integers (sorting), any number of steps", "why_tests_cant": "Lists are shared and nested without end, and a wrong item shows only where it is selected, possibly through another name.", "anchors": ["src/lib/run.c: OPCODE_PUSHLST, OPCODE_INSERT, OPCODE_INSERT2, OPCODE_SELECT", "src/lib/objects/o_list.c: select_, insert", "src/lib/objects/o_string.c: select", "src/lib/compiler/codegen.c: emitInstrForExprNode, emitInstrForAssignmentNode"]}
{"id": "C93", "title": "Programs that import files", "statement": "import looks a relative name up in the folder of the importing script (or the working directory), and runs the file there as a program of its own with its own variables; the importing program then goes on with the results it asked for, with nothing else of its state changed. An argument that is not a string, a name that is too long, a missing file and a file that does not compile are errors; an error in the file is an error of the importing program. At most seven imports nest, whatever the files are. A function made in an imported file is run in that file's program, wherever it is called. Programs that do not import behave as with the machine of one program. getCurrentScriptDirectory, getCurrentScriptLocation and getCurrentWorkingDirectory tell where the running script is. A program that returns an import of a file of assignments, conditionals and loops ends with what that file gives.", "quantifier": "for all files, programs, states reached by runs, environments and numbers of steps", "why_tests_cant": "Files import files and hand functions to each other without end; what is wrong shows only in certain nestings.", "anchors": ["src/lib/builtins/basic.c: bin_import, bin_getCurrentWorkingDirectory, bin_getCurrentScriptDirectory, bin_getCurrentScriptLocation", "src/lib/run.c: runFileRelativeToScript, makePathRelativeToScript, runSource, runExecutableAtIndex, native_func_call", "src/lib/runtime.c: Runtime_PushFrame, Runtime_PushNativeFrame, Runtime_PopFrame, Runtime_GetCurrentScriptFolder"]}
{"id": "C94", "title": "Programs with functions, lists and maps", "statement": "A program that defines functions and then computes with variables, conditions, loops, calls, lists, maps and strings does what its text says: a list or map expression makes a new object each time it is met, and assigning it, storing it in another, giving it to a function or returning it never copies it, so that what a function stores its caller finds. Selecting from a map gives what was last stored under an equal key, or none; storing under a new key adds it. Lists behave as in C92, functions as in C88, and a parameter declared as List or Map takes only such. At the end each list and map is an object of its own with the kind, the count and the items that are told, the variables and results are those told, errors are met exactly where they are told, and the limit when a sixteenth call would be under way; a program without an end runs for ever.", "quantifier": "for all texts below 2^26 bytes that read as such programs, all environments and memories in which the names are not known, stack sizes from 256 on, any number of functions, calls, objects and steps", "why_tests_cant": "Objects are shared between callers and callees and can contain themselves; a wrong copy, a wrong key or a stale table shows only when the object is reached through another name.", "anchors": ["src/lib/run.c: OPCODE_PUSHLST, OPCODE_PUSHMAP, OPCODE_INSERT, OPCODE_INSERT2, OPCODE_SELECT, OPCODE_CALL, OPCODE_CHECKTYPE", "src/lib/objects/o_list.c: select_, insert, count", "src/lib/objects/o_map.c: map_select, map_insert, map_count", "src/lib/compiler/codegen.c: emitInstrForExprNode, emitInstrForAssignmentNode, emitInstrForFuncCallNode"]}
{"id": "C95", "title": "The listing of a program says what its instructions are", "statement": "Listing a program that the builder has finished, or that was compiled from a text, always succeeds and writes one line for each instruction, in order: its number, its name and its operands as the machine fetches them, with forward references resolved. Programs with the same instructions are listed alike, wherever their instructions were in the source. Conversely two programs in whose strings there is no line break and whose listings are the same have the same instructions, up to floats that are written alike.", "quantifier": "for all histories of calls of the builder and all texts below 2^26 bytes that compile, any number of instructions and any operands", "why_tests_cant": "The lines are told apart by separators that also occur in strings; whether two programs can look the same is a question about all pairs of programs.", "anchors": ["src/lib/executable.c: Executable_Dump, Executable_Fetch, Executable_GetInstrByOpcode"]}
{"id": "C96", "title": "Instructions, errors and traces of compiled programs point into the text", "statement": "Compiling a text gives instructions each of which remembers a place that begins and ends in the text; an instruction that reads a variable remembers the place where the name stands. A text that is refused is refused at an offset in the text. When a compiled program stops with an error the stack trace names every active call, the innermost first, with the line of the instruction it would go on with; the trace left by a refused text names the line of the error.", "quantifier": "for all texts (those below 2^26 bytes for names and errors), all environments, memories and numbers of executed instructions after which the next one fails", "why_tests_cant": "Each node, each instruction and each of some forty error messages takes its position from a different token; a test sees the few combinations it contains, and a position outside the text is read past the end of the source only when a trace is printed.", "anchors": ["src/lib/compiler/parse.c: parse, parse_statement, parse_expression, parse_primary_expresion, parse_postfix_expression, parse_function_definition", "src/lib/compiler/codegen.c: emitInstrForNode, emitInstrForExprNode, emitInstrForFuncExprNode", "src/lib/run.c: runSource", "src/lib/runtime.c: Runtime_PrintStackTrace"]}
{"id": "C97", "title": "Programs write what their text says", "statement": "For a program made of assignments, conditions, loops, breaks, returns and calls of print whose arguments are expressions over numbers, strings, booleans and variables: the outputs that exist at some moment of the run are exactly those that follow from the syntax tree (the texts of the arguments, in the order of the calls; the last argument is computed first, the first one written first). When the program ends, returns, fails with an error or does something undefined, the output is the one the tree tells for this end; when the tree tells of no end, the run goes on forever.", "quantifier": "for all texts below 2^26 bytes that read as such a program, with at most four variables or ones with hashes that are not negative, all environments around the standard builtins, all functions that print floats, all memories with the builtins and an empty output stream; all moments of the run", "why_tests_cant": "Output is observable at every moment, also of runs that never end; a test sees the complete output of a few runs that do.", "anchors": ["src/lib/builtins/basic.c: bin_print", "src/lib/runtime.c: Runtime_GetOutputStream, Runtime_GetVariable", "src/lib/objects/objects.c: Object_Print", "src/lib/run.c: runInstruction, native_func_call", "src/lib/compiler/codegen.c: codegen"]}
{"id": "C98", "title": "A running program can be interrupted between any two instructions, and only there", "statement": "If Runtime_Interrupt is called while a program runs, or the callback of the runtime answers false, the program is aborted: no instruction is executed after the check that follows, however many calls and imports are active, and the instructions executed until then have had exactly the effect they have in a run that is not interrupted (in particular on what was written). A program that is not told to stop ends as if there were no such checks. The stack trace of an aborted program names every active call, the innermost first, with the line of the instruction it would go on with.", "quantifier": "for all programs, environments, memories, stack sizes, all moments at which the runtime is interrupted and all callbacks (which may look at the state); the part about written output for the programs of C97", "why_tests_cant": "The moment at which a signal arrives cannot be controlled by a test; the number of moments is unbounded, also within nested calls.", "anchors": ["src/lib/run.c: runInstructionsUntilSomethingHappens, runExecutableAtIndex", "src/lib/runtime.c: Runtime_Interrupt, Runtime_WasInterrupted, Runtime_GetCallback, Runtime_PrintStackTrace", "src/cli/main.c: signalHandler"]}
{"id": "C99", "title": "A stack trace leads through imported files", "statement": "When a program in a file, or in a string with a name, stops with an error, in a file it imports or in a function such a file made, Runtime_PrintStackTrace writes one line per active call, the innermost first: the absolute name of the file its code was read from, or the name of the string, and the line of the instruction the call would go on with, \"(no source)\" for the calls of import between them and for a native function that failed. When the error is that the text of an imported file is refused, the first line names that file and the line at which it was refused. The trace of a program that is aborted between two instructions, or that reports a limit, is like that, too: programs and imports that have ended are not in it, an import for whose program there was no room is. Releasing the runtime afterwards releases every frame and every source once.", "quantifier": "for all files that are texts below 2^26 bytes, all programs in them, environments, memories, stack sizes of at least 256 bytes, and numbers of executed instructions after which the next one fails", "why_tests_cant": "A test sees a few files that import each other with failures chosen by hand; a frame that is attributed to the wrong file, missing or out of order shows only for other depths, other mixtures of calls and imports, and other failing instructions.", "anchors": ["src/lib/runtime.c: Runtime_PushFailedFrame, Runtime_PushNativeFrame, Runtime_PrintStackTrace", "src/lib/run.c: runSource, runFileRelativeToScript, runExecutableAtIndex", "src/lib/builtins/basic.c: bin_import", "src/lib/utils/source.c: Source_FromFile"]}
