(** The tests of the repository (tests/), run through the model. This is a test of the model, not a proof: what the authors
    expect of the compiler and of the machine is what the model gives. Generated from the files of /repo/tests. *)
From Coq Require Import ZArith String List Bool.
From Verif Require Import Base StringModel ValueModel ObjModel ExeModel VmModel BuiltinModel MoveSpec TestModel VmExamples.
From Verif Require ShowModel.
Import ListNotations.
Open Scope string_scope.
Open Scope list_scope.
Open Scope Z_scope.

(** The text %2.2f gives for the double with the given bits, if it is finite (o_float.c:115-121). *)
Definition fmt2 (bits : Z) : list Z :=
  let neg := 2 ^ 63 <=? bits mod 2^64 in
  let b := bits mod 2 ^ 63 in
  let e := b / 2 ^ 52 in let f := b mod 2 ^ 52 in
  let m := if e =? 0 then f else f + 2 ^ 52 in
  let ex := (if e =? 0 then 1 else e) - 1075 in
  let num := m * 100 * (if 0 <=? ex then 2 ^ ex else 1) in
  let den := if 0 <=? ex then 1 else 2 ^ (- ex) in
  let q := num / den in let r := num mod den in
  let q := if (2 * r <? den) then q else if (den <? 2 * r) then q + 1 else if Z.even q then q else q + 1 in
  (if neg then [45] else []) ++ ShowModel.int_text (q / 100) ++ [46] ++ [48 + (q mod 100) / 10; 48 + q mod 10].

(** The tests that main.c:15-19 knows, on a fresh machine with its names (runtime.c:804-809), up to 500 instructions. *)
Definition repo_types : list ttype :=
  noja_types fmt2 (fun _ => []) (std_env env0 (Some (VRef 0))) 100000 (mkmem [OSMap 0] false) 500.
(** /repo/tests. *)
Definition repo_tests : list dentry := [
 DFile (bytes_of "assembler_test.c") (bytes_of "#include <stdlib.h>
#include <stdbool.h>
#include ""../src/noja/utils/bpalloc.h""
#include ""../src/noja/assembler/assembler.h""

static void stopTesting_(const char *file, int line)
{
    fprintf(stderr, ""\n%s:%d :: Failed to set up test environment\n"", file, line);
    abort();
}
#define stopTestingIf(exp)                    \
    do {                                      \
        if(exp) {                             \
            stopTesting_(__FILE__, __LINE__); \
        }                                     \
    } while(0);

static void testCase(int line, bool exp, const char *msg)
{
    if(exp == false)
        fprintf(stdout, ""Test case failed (line %d) :: %s\n"", line, msg);
    else
        fprintf(stdout, ""Test case passed (line %d)\n"", line);
}

typedef struct {
    Opcode opcode;
    int operand_count;
    Operand *operands;
} StaticInstruction;

typedef struct {
    int instr_count;
    StaticInstruction *instr_list;
} StaticExecutable;

static Executable *buildExpectedExecutable(BPAlloc *alloc, StaticExecutable *static_exp_exe)
{
    ExeBuilder *builder = ExeBuilder_New(alloc);
    stopTestingIf(builder == NULL);

    Error error;
    Error_Init(&error);
    for(int i = 0; i < static_exp_exe->instr_count; i += 1) {
        StaticInstruction instr = static_exp_exe->instr_list[i];
        bool ok = ExeBuilder_Append(builder, &error, instr.opcode, instr.operands, instr.operand_count, -1, -1);
        stopTestingIf(ok == false);
    }

    Executable *exe = ExeBuilder_Finalize(builder, &error);
    stopTestingIf(exe == NULL);

    Error_Free(&error);
    return exe;
}

int main()
{
    struct {
        int line;
        bool fail;
        const char *text;
        StaticExecutable expected;
    } tests[] = {

        // Test the assembly of an empty string
        // into an executable with no instructions.
        {
            .line = __LINE__,
            .text = """",
            .fail = false,
            .expected = (StaticExecutable) {
                .instr_count = 0,
                .instr_list = NULL,
            },
        },

        // Test the assembly of the simplest
        // executable possible
        {
            .line = __LINE__,
            .text = ""POS"",
            .fail = false,
            .expected = (StaticExecutable) {
                .instr_count = 1,
                .instr_list = (StaticInstruction[]) {
                    {
                        .opcode = OPCODE_POS,
                        .operands = NULL,
                        .operand_count = 0,
                    }
                },
            },
        },

        // Invalid opcode
        {
            .line = __LINE__,
            .text = ""GUCCI"",
            .fail = true,
        },

        // Label but no opcode
        {
            .line = __LINE__,
            .text = ""label:"",
            .fail = true,
        },

        // Basic executable with a label
        {
            .line = __LINE__,
            .text = ""label: POS"",
            .fail = false,
            .expected = (StaticExecutable) {
                .instr_count = 1,
                .instr_list = (StaticInstruction[]) {
                    {
                        .opcode = OPCODE_POS,
                        .operands = NULL,
                        .operand_count = 0,
                    }
                },
            },
        },

        {
            .line = __LINE__,
            .text = ""  label  :  POS  "",
            .fail = false,
            .expected = (StaticExecutable) {
                .instr_count = 1,
                .instr_list = (StaticInstruction[]) {
                    {
                        .opcode = OPCODE_POS,
                        .operands = NULL,
                        .operand_count = 0,
                    }
                },
            },
        },

        {
            .line = __LINE__,
            .text = ""  label  :  POS  ;  "",
            .fail = false,
            .expected = (StaticExecutable) {
                .instr_count = 1,
                .instr_list = (StaticInstruction[]) {
                    {
                        .opcode = OPCODE_POS,
                        .operands = NULL,
                        .operand_count = 0,
                    }
                },
            },
        },

        {
            .line = __LINE__,
            .text = ""  label0  :  POS  ;  ""
                    ""  label1  :  NEG  ;  "",
            .fail = false,
            .expected = (StaticExecutable) {
                .instr_count = 2,
                .instr_list = (StaticInstruction[]) {
                    {
                        .opcode = OPCODE_POS,
                        .operands = NULL,
                        .operand_count = 0,
                    },
                    {
                        .opcode = OPCODE_NEG,
                        .operands = NULL,
                        .operand_count = 0,
                    },
                },
            },
        },

        {
            .line = __LINE__,
            .text = ""  label0  :  POS  ;  ""
                    ""  label1  :  NEG  "",
            .fail = false,
            .expected = (StaticExecutable) {
                .instr_count = 2,
                .instr_list = (StaticInstruction[]) {
                    {
                        .opcode = OPCODE_POS,
                        .operands = NULL,
                        .operand_count = 0,
                    },
                    {
                        .opcode = OPCODE_NEG,
                        .operands = NULL,
                        .operand_count = 0,
                    },
                },
            },
        },

        {
            .line = __LINE__,
            .text = ""             POS  ;  ""
                    ""  label1  :  NEG  "",
            .fail = false,
            .expected = (StaticExecutable) {
                .instr_count = 2,
                .instr_list = (StaticInstruction[]) {
                    {
                        .opcode = OPCODE_POS,
                        .operands = NULL,
                        .operand_count = 0,
                    },
                    {
                        .opcode = OPCODE_NEG,
                        .operands = NULL,
                        .operand_count = 0,
                    },
                },
            },
        },

        {
            .line = __LINE__,
            .text = ""  label0  :  POS  ;  ""
                    ""             NEG  "",
            .fail = false,
            .expected = (StaticExecutable) {
                .instr_count = 2,
                .instr_list = (StaticInstruction[]) {
                    {
                        .opcode = OPCODE_POS,
                        .operands = NULL,
                        .operand_count = 0,
                    },
                    {
                        .opcode = OPCODE_NEG,
                        .operands = NULL,
                        .operand_count = 0,
                    },
                },
            },
        },

        // Instruction with the wrong number of arguments.
        {
            .line = __LINE__,
            .text = ""POS  1;"",
            .fail = true,
        },

        {
            .line = __LINE__,
            .text = ""PUSHINT 1;""
                    ""PUSHINT 2;""
                    ""ADD;"",
            .fail = false,
            .expected = (StaticExecutable) {
                .instr_count = 3,
                .instr_list = (StaticInstruction[]) {
                    {
                        .opcode = OPCODE_PUSHINT,
                        .operands = (Operand[]) {
                            { OPTP_INT, .as_int = 1, }
                        },
                        .operand_count = 1,
                    },
                    {
                        .opcode = OPCODE_PUSHINT,
                        .operands = (Operand[]) {
                            { OPTP_INT, .as_int = 2, }
                        },
                        .operand_count = 1,
                    },
                    {
                        .opcode = OPCODE_ADD,
                        .operands = NULL,
                        .operand_count = 0,
                    },
                },
            },
        },
    };

    Error error;
    char pool[4096];

    for(size_t i = 0; i < sizeof(tests)/sizeof(tests[0]); i += 1) {

        // Use an allocator backed by a static
        // buffer to avoid reallocating a pool
        // for each test.
        BPAlloc *alloc = BPAlloc_Init3(pool, sizeof(pool), -1, NULL, NULL, NULL);
        stopTestingIf(alloc == NULL);

        Error_Init(&error);

        Source *src = Source_FromString(NULL, tests[i].text, -1, &error);
        stopTestingIf(src == NULL);

        Executable *got_exe = assemble(src, &error);

        if(tests[i].fail == true) {
            testCase(tests[i].line, got_exe == NULL, ""Managed to assemble an invalid source"");
        } else {
            Executable *exp_exe = buildExpectedExecutable(alloc, &tests[i].expected);

            if(got_exe == NULL)
                fprintf(stderr, ""Build error :: %s.\n"", error.message);

            testCase(tests[i].line, got_exe != NULL, ""Failed to assemble a valid source"");
/*          
            fprintf(stderr, ""== Generated ==\n"");
            Executable_Dump(got_exe);
            fprintf(stderr, ""\n"");
            fprintf(stderr, ""== Expected ==\n"");
            Executable_Dump(exp_exe);
*/
            testCase(tests[i].line, Executable_Equiv(got_exe, exp_exe, stderr, ""Executable diff :: ""), ""Invalid assemblation result"");

            Executable_Free(got_exe);
            Executable_Free(exp_exe);
        }
        Source_Free(src);
        Error_Free(&error);
        BPAlloc_Free(alloc);
    }
    return 0;
}");
 DDir (bytes_of "compiler") [
  DDir (bytes_of "dowhile") [
   DFile (bytes_of "Testcase_010_000.noja-test") (bytes_of "
@type [compiler]
@source
    
    do
        {}
    while none;

@bytecode
    
begin:
    PUSHNNE;
    JUMPIFANDPOP begin;
    EXIT;");
   DFile (bytes_of "Testcase_010_001.noja-test") (bytes_of "
@type [compiler]
@source
    
    do
        true;
    while none;
    false;

@bytecode
    
begin:
    PUSHTRU;
    POP 1;
    PUSHNNE;
    JUMPIFANDPOP begin;
    PUSHFLS;
    POP 1;
    EXIT;");
   DFile (bytes_of "Testcase_010_002.noja-test") (bytes_of "
@type [compiler]
@source
    
    do {
        true;
        ""Hello, world!"";
    } while none;
    false;

@bytecode
    
begin:
    PUSHTRU;
    POP 1;
    PUSHSTR ""Hello, world!"";
    POP 1;
    PUSHNNE;
    JUMPIFANDPOP begin;
    PUSHFLS;
    POP 1;
    EXIT;");
   DFile (bytes_of "Testcase_010_003.noja-test") (bytes_of "
@type [compiler]
@source
    
    do {
        true;
        ""Hello, world!"";
        break;
    } while none;
    false;

@bytecode
    
begin:
    PUSHTRU;
    POP 1;
    PUSHSTR ""Hello, world!"";
    POP 1;
    JUMP end;
    PUSHNNE;
    JUMPIFANDPOP begin;
end:
    PUSHFLS;
    POP 1;
    EXIT;");
   DFile (bytes_of "Testcase_010_004.noja-test") (bytes_of "
@type [compiler]
@source
    
    do
        break;
    while none;
    false;

@bytecode
    
begin:
    JUMP end;
    PUSHNNE;
    JUMPIFANDPOP begin;
end:
    PUSHFLS;
    POP 1;
    EXIT;")];
  DDir (bytes_of "expr") [
   DDir (bytes_of "arithmetic") [
    DFile (bytes_of "Testcase_002_000.noja-test") (bytes_of "
@type [compiler]
@source

    1 + 7;

@bytecode
    
    PUSHINT 1;
    PUSHINT 7;
    ADD;
    POP 1;
    EXIT;");
    DFile (bytes_of "Testcase_002_001.noja-test") (bytes_of "
@type [compiler]
@source
    
    1 - 7;

@bytecode
    
    PUSHINT 1;
    PUSHINT 7;
    SUB;
    POP 1;
    EXIT;");
    DFile (bytes_of "Testcase_002_002.noja-test") (bytes_of "
@type [compiler]
@source

    1 * 7;

@bytecode

    PUSHINT 1;
    PUSHINT 7;
    MUL;
    POP 1;
    EXIT;");
    DFile (bytes_of "Testcase_002_003.noja-test") (bytes_of "
@type [compiler]
@source
    
    1 / 7;

@bytecode

    PUSHINT 1;
    PUSHINT 7;
    DIV;
    POP 1;
    EXIT;");
    DFile (bytes_of "Testcase_002_004.noja-test") (bytes_of "
@type [compiler]
@source

    1.0 + 7;

@bytecode
    
    PUSHFLT 1.0;
    PUSHINT 7;
    ADD;
    POP 1;
    EXIT;
");
    DFile (bytes_of "Testcase_002_005.noja-test") (bytes_of "
@type [compiler]
@source
    
    1.0 - 7;

@bytecode
    
    PUSHFLT 1.0;
    PUSHINT 7;
    SUB;
    POP 1;
    EXIT;");
    DFile (bytes_of "Testcase_002_006.noja-test") (bytes_of "
@type [compiler]
@source
    
    1.0 * 7;

@bytecode
    
    PUSHFLT 1.0;
    PUSHINT 7;
    MUL;
    POP 1;
    EXIT;");
    DFile (bytes_of "Testcase_002_007.noja-test") (bytes_of "
@type [compiler]
@source
    
    1.0 / 7;

@bytecode
    
    PUSHFLT 1.0;
    PUSHINT 7;
    DIV;
    POP 1;
    EXIT;");
    DFile (bytes_of "Testcase_002_008.noja-test") (bytes_of "
@type [compiler]
@source
    
    1 + 7.0;

@bytecode
    
    PUSHINT 1;
    PUSHFLT 7.0;
    ADD;
    POP 1;
    EXIT;");
    DFile (bytes_of "Testcase_002_009.noja-test") (bytes_of "
@type [compiler]
@source
    
    1 - 7.0;

@bytecode
    
    PUSHINT 1;
    PUSHFLT 7.0;
    SUB;
    POP 1;
    EXIT;");
    DFile (bytes_of "Testcase_002_010.noja-test") (bytes_of "
@type [compiler]
@source
    
    1 * 7.0;

@bytecode
    
    PUSHINT 1;
    PUSHFLT 7.0;
    MUL;
    POP 1;
    EXIT;");
    DFile (bytes_of "Testcase_002_011.noja-test") (bytes_of "
@type [compiler]
@source
    
    1 / 7.0;

@bytecode
    
    PUSHINT 1;
    PUSHFLT 7.0;
    DIV;
    POP 1;
    EXIT;");
    DFile (bytes_of "Testcase_002_023.noja-test") (bytes_of "
@type [compiler]
@source

    1 + 2 * 3;

@bytecode
    
    PUSHINT 1;
    PUSHINT 2;
    PUSHINT 3;
    MUL;
    ADD;

    POP 1;

    EXIT;");
    DFile (bytes_of "Testcase_002_024.noja-test") (bytes_of "
@type [compiler]
@source

    1 * 2 + 3;

@bytecode
    
    PUSHINT 1;
    PUSHINT 2;
    MUL;
    PUSHINT 3;
    ADD;

    POP 1;

    EXIT;");
    DFile (bytes_of "Testcase_002_025.noja-test") (bytes_of "
@type [compiler]
@source

    (1 + 2) * 3;

@bytecode
    
    PUSHINT 1;
    PUSHINT 2;
    ADD;
    PUSHINT 3;
    MUL;

    POP 1;

    EXIT;");
    DFile (bytes_of "Testcase_002_026.noja-test") (bytes_of "
@type [compiler]
@source

    1 + (2 * 3);

@bytecode
    
    PUSHINT 1;
    PUSHINT 2;
    PUSHINT 3;
    MUL;
    ADD;
    POP     1;
    EXIT;");
    DFile (bytes_of "Testcase_002_027.noja-test") (bytes_of "
@type [compiler]
@source

    1 * 2 * 3 * 4;

@bytecode
    
    PUSHINT 1;
    PUSHINT 2;
    MUL;

    PUSHINT 3;
    MUL;
    
    PUSHINT 4;
    MUL;
    
    POP     1;
    EXIT;");
    DFile (bytes_of "Testcase_002_028.noja-test") (bytes_of "
@type [compiler]
@source

    1 * (2 * (3 * 4));

@bytecode
    
    PUSHINT 1;
    PUSHINT 2;
    PUSHINT 3;
    PUSHINT 4;
    MUL;
    MUL;
    MUL;
    POP     1;
    EXIT;");
    DFile (bytes_of "Testcase_002_029.noja-test") (bytes_of "
@type [compiler]
@source

    1 + 2 * 3 + 4;

@bytecode
    
    PUSHINT 1;
    PUSHINT 2;
    PUSHINT 3;
    MUL;
    ADD;
    PUSHINT 4;
    ADD;
    POP     1;
    EXIT;");
    DFile (bytes_of "Testcase_002_030.noja-test") (bytes_of "
@type [compiler]
@source

    1 * 2 + 3 * 4;

@bytecode
    
    PUSHINT 1;
    PUSHINT 2;
    MUL;

    PUSHINT 3;
    PUSHINT 4;
    MUL;

    ADD;
    
    POP     1;
    EXIT;");
    DFile (bytes_of "Testcase_002_031.noja-test") (bytes_of "
@type [compiler]
@source
    
    A - B - C;
    A - B * C;

@bytecode
    
    PUSHVAR ""A"";
    PUSHVAR ""B"";
    SUB;
    PUSHVAR ""C"";
    SUB;
    POP 1;

    PUSHVAR ""A"";
    PUSHVAR ""B"";
    PUSHVAR ""C"";
    MUL;
    SUB;
    POP 1;

    EXIT;")];
   DDir (bytes_of "array") [
    DFile (bytes_of "Testcase_003_000.noja-test") (bytes_of "@type [compiler]

@source
    # This comment is because there
    # can't be a '[' right before a
    # tag.
    [1];

@bytecode
    
    PUSHLST 1;
    PUSHINT 0;
    PUSHINT 1;
    INSERT;
    POP     1;
    EXIT;");
    DFile (bytes_of "Testcase_003_001.noja-test") (bytes_of "
@type [compiler]
@source
    # This comment is because there
    # can't be a '[' right before a
    # tag.
    [true, false];

@bytecode
    
    PUSHLST 2;
    
    PUSHINT 0;
    PUSHTRU;
    INSERT;

    PUSHINT 1;
    PUSHFLS;
    INSERT;

    POP     1;
    EXIT;
")];
   DDir (bytes_of "assignment") [
    DFile (bytes_of "Testcase_005_000.noja-test") (bytes_of "
@type [compiler]
@source

    var = none;

@bytecode

    PUSHNNE;
    ASS    ""var"";
    POP    1;
    EXIT;");
    DFile (bytes_of "Testcase_005_001.noja-test") (bytes_of "
@type [compiler]
@source

    var[key] = none;

@bytecode
    
    PUSHNNE;
    PUSHVAR ""var"";
    PUSHVAR ""key"";
    INSERT2;
    POP     1;
    EXIT;
");
    DFile (bytes_of "Testcase_005_002.noja-test") (bytes_of "
@type [compiler]
@source

    A, B = func();

@bytecode
    
    PUSHVAR ""func"";
    CALL 0, 2;

    ASS ""B"";
    POP 1;

    ASS ""A"";

    POP 1;
    EXIT;");
    DFile (bytes_of "Testcase_005_003.noja-test") (bytes_of "
@type [compiler]
@source

    var.key = none;

@bytecode
    
    PUSHNNE;
    PUSHVAR ""var"";
    PUSHSTR ""key"";
    INSERT2;
    POP     1;
    EXIT;
")];
   DDir (bytes_of "logical") [
    DFile (bytes_of "Testcase_002_021.noja-test") (bytes_of "
@type [compiler]
@source

    1 and 2;

@bytecode
    
    PUSHINT 1;
    JUMPIFNOTANDPOP false;
    PUSHINT 2;
    JUMPIFNOTANDPOP false;
    PUSHTRU;
    JUMP end;
false:
    PUSHFLS;
end:
    POP 1;
    EXIT;");
    DFile (bytes_of "Testcase_002_022.noja-test") (bytes_of "
@type [compiler]
@source

    1 or 2;

@bytecode

    PUSHINT 1;
    JUMPIFANDPOP true;
    PUSHINT 2;
    JUMPIFANDPOP true;
    PUSHFLS;
    JUMP end;
true:
    PUSHTRU;
end:
    POP 1;
    EXIT;");
    DFile (bytes_of "Testcase_002_032.noja-test") (bytes_of "
@type [compiler]
@source
    
    A and B or C and D;

@bytecode
    
    PUSHVAR ""A"";
    JUMPIFNOTANDPOP false_0;
    PUSHVAR ""B"";
    JUMPIFNOTANDPOP false_0;
    PUSHTRU;
    JUMP end_0;
false_0:
    PUSHFLS;
end_0:
    JUMPIFANDPOP true_2;
    PUSHVAR ""C"";
    JUMPIFNOTANDPOP false_1;
    PUSHVAR ""D"";
    JUMPIFNOTANDPOP false_1;
    PUSHTRU;
    JUMP end_1;
false_1:
    PUSHFLS;
end_1:
    JUMPIFANDPOP true_2;
    PUSHFLS;
    JUMP end_2;
true_2:
    PUSHTRU;
end_2:
    POP 1;
    EXIT;");
    DFile (bytes_of "Testcase_002_033.noja-test") (bytes_of "
@type [compiler]
@source

    X or Y and Z or W;

@bytecode

    PUSHVAR ""X"";
    JUMPIFANDPOP true_0;
    PUSHVAR ""Y"";
    JUMPIFNOTANDPOP false_1;
    PUSHVAR ""Z"";
    JUMPIFNOTANDPOP false_1;
    PUSHTRU;
    JUMP end_1;
false_1:
    PUSHFLS;
end_1:
    JUMPIFANDPOP true_0;
    PUSHFLS;
    JUMP end_0;
true_0:
    PUSHTRU;
end_0:
    JUMPIFANDPOP true_2;
    PUSHVAR ""W"";
    JUMPIFANDPOP true_2;
    PUSHFLS;
    JUMP end_2;
true_2:
    PUSHTRU;
end_2:
    POP 1;
    EXIT;")];
   DDir (bytes_of "map") [
    DFile (bytes_of "Testcase_004_000.noja-test") (bytes_of "
@type [compiler]
@source

    ({'name': 'Francesco'});

@bytecode
    
    PUSHMAP 1;
    PUSHSTR ""name"";
    PUSHSTR ""Francesco"";
    INSERT;
    POP     1;
    EXIT;");
    DFile (bytes_of "Testcase_004_001.noja-test") (bytes_of "
@type [compiler]
@source

    ({'name': 'Francesco', 'age': 25});

@bytecode
    
    PUSHMAP 2;
    
    PUSHSTR ""name"";
    PUSHSTR ""Francesco"";
    INSERT;

    PUSHSTR ""age"";
    PUSHINT 25;
    INSERT;

    POP 1;
    EXIT;");
    DFile (bytes_of "Testcase_004_002.noja-test") (bytes_of "
@type [compiler]
@source
    
    ({name: 'Francesco'});

@bytecode

    PUSHMAP 1;
    PUSHSTR ""name"";
    PUSHSTR ""Francesco"";
    INSERT;
    POP     1;
    EXIT;");
    DFile (bytes_of "Testcase_004_003.noja-test") (bytes_of "
@type [compiler]
@source

    ({name: 'Francesco', age: 25});

@bytecode
    
    PUSHMAP 2;
    
    PUSHSTR ""name"";
    PUSHSTR ""Francesco"";
    INSERT;

    PUSHSTR ""age"";
    PUSHINT 25;
    INSERT;

    POP     1;
    EXIT;");
    DFile (bytes_of "Testcase_004_004.noja-test") (bytes_of "
@type [compiler]
@source
    
    ({+name: 'Francesco'});

@bytecode

    PUSHMAP 1;
    PUSHVAR ""name"";
    POS;
    PUSHSTR ""Francesco"";
    INSERT;
    POP     1;
    EXIT;");
    DFile (bytes_of "Testcase_004_005.noja-test") (bytes_of "
@type [compiler]
@source
    
    ({+name: 'Francesco'});

@bytecode

    PUSHMAP 1;
    PUSHVAR ""name"";
    POS;
    PUSHSTR ""Francesco"";
    INSERT;
    POP     1;
    EXIT;")];
   DDir (bytes_of "postfix") [
    DFile (bytes_of "Testcase_006_000.noja-test") (bytes_of "
@type [compiler]
@source
    
    func();

@bytecode
        
    PUSHVAR ""func"";
    CALL 0, 1;
    POP 1;
    EXIT;");
    DFile (bytes_of "Testcase_006_001.noja-test") (bytes_of "
@type [compiler]
@source
    
    func(none);

@bytecode
        
    PUSHNNE;
    PUSHVAR ""func"";
    CALL 1, 1;
    POP 1;
    EXIT;");
    DFile (bytes_of "Testcase_006_002.noja-test") (bytes_of "
@type [compiler]
@source
    
    func(true, false);

@bytecode
    
    PUSHFLS;
    PUSHTRU;
    PUSHVAR ""func"";
    CALL 2, 1;
    POP 1;
    EXIT;");
    DFile (bytes_of "Testcase_007_000.noja-test") (bytes_of "
@type [compiler]
@source
    
    set[key];

@bytecode
    
    PUSHVAR ""set"";
    PUSHVAR ""key"";
    SELECT;
    POP 1;
    EXIT;");
    DFile (bytes_of "Testcase_007_001.noja-test") (bytes_of "@type [compiler]
@source
    
    set[""dog"", ""cow"", ""cat""];

@bytecode
    
    PUSHVAR ""set"";

    PUSHLST 3;

    PUSHINT 0;
    PUSHSTR ""dog"";
    INSERT;

    PUSHINT 1;
    PUSHSTR ""cow"";
    INSERT;

    PUSHINT 2;
    PUSHSTR ""cat"";
    INSERT;

    SELECT;
    POP 1;
    EXIT;");
    DFile (bytes_of "Testcase_007_002.noja-test") (bytes_of "
@type [compiler]
@source
    
    set.key;

@bytecode
    
    PUSHVAR ""set"";
    PUSHSTR ""key"";
    SELECT;
    POP 1;
    EXIT;")];
   DDir (bytes_of "prefix") [
    DFile (bytes_of "Testcase_002_012.noja-test") (bytes_of "
@type [compiler]
@source

    -1;

@bytecode

    PUSHINT 1;
    NEG;
    POP 1;
    EXIT;");
    DFile (bytes_of "Testcase_002_013.noja-test") (bytes_of "
@type [compiler]
@source

    +1;

@bytecode

    PUSHINT 1;
    POS;
    POP 1;
    EXIT;");
    DFile (bytes_of "Testcase_002_014.noja-test") (bytes_of "
@type [compiler]
@source

    not 1;

@bytecode

    PUSHINT 1;
    NOT;
    POP 1;
    EXIT;")];
   DDir (bytes_of "primary") [
    DFile (bytes_of "primary_000.noja-test") (bytes_of "@type [compiler]

@source
    1;

@bytecode   
    PUSHINT 1;
    POP     1;
    EXIT;");
    DFile (bytes_of "primary_001.noja-test") (bytes_of "@type [compiler]

@source
    
    6.7;

@bytecode
    
    PUSHFLT 6.7;
    POP     1;
    EXIT;");
    DFile (bytes_of "primary_002.noja-test") (bytes_of "@type [compiler]

@source
    
    'Hello, world!';

@bytecode
    
    PUSHSTR ""Hello, world!"";
    POP     1;
    EXIT;");
    DFile (bytes_of "primary_003.noja-test") (bytes_of "
@type [compiler]
@source
    
    true;

@bytecode
    
    PUSHTRU;
    POP     1;
    EXIT;");
    DFile (bytes_of "primary_004.noja-test") (bytes_of "
@type [compiler]
@source
    
    false;

@bytecode
    
    PUSHFLS;
    POP     1;
    EXIT;");
    DFile (bytes_of "primary_005.noja-test") (bytes_of "
@type [compiler]
@source
    
    none;

@bytecode
    
    PUSHNNE;
    POP     1;
    EXIT;");
    DFile (bytes_of "primary_006.noja-test") (bytes_of "
@type [compiler]
@source

    ({});

@bytecode
    
    PUSHMAP 0;
    POP     1;
    EXIT;");
    DFile (bytes_of "primary_007.noja-test") (bytes_of "
@type [compiler]

@source
    # This comment is because there
    # can't be a '[' right before a
    # tag.
    [];

@bytecode
    
    PUSHLST 0;
    POP     1;
    EXIT;");
    DFile (bytes_of "primary_008.noja-test") (bytes_of "
@type [compiler]
@source

    {}

@bytecode
    
    EXIT;");
    DFile (bytes_of "primary_009.noja-test") (bytes_of "@type [compiler]

@source
    
    'This \\ is a slash!';

@bytecode
    
    PUSHSTR ""This \\ is a slash!"";
    POP     1;
    EXIT;");
    DFile (bytes_of "primary_010.noja-test") (bytes_of "@type [compiler]

@source
    
    'This \n is a newline!';

@bytecode
    
    PUSHSTR ""This \n is a newline!"";
    POP     1;
    EXIT;");
    DFile (bytes_of "primary_011.noja-test") (bytes_of "@type [compiler]

@source
    
    'This \t is an horizontal tab!';

@bytecode
    
    PUSHSTR ""This \t is an horizontal tab!"";
    POP     1;
    EXIT;");
    DFile (bytes_of "primary_012.noja-test") (bytes_of "@type [compiler]

@source
    
    'This \r is a special character!';

@bytecode
    
    PUSHSTR ""This \r is a special character!"";
    POP     1;
    EXIT;");
    DFile (bytes_of "primary_013.noja-test") (bytes_of "@type [compiler]

@source
    
    'Look at this \'!';

@bytecode
    
    PUSHSTR ""Look at this '!"";
    POP     1;
    EXIT;");
    DFile (bytes_of "primary_014.noja-test") (bytes_of "@type [compiler]

@source
    
    ""Look at this \""!"";

@bytecode
    
    PUSHSTR ""Look at this \""!"";
    POP     1;
    EXIT;")];
   DDir (bytes_of "relational") [
    DFile (bytes_of "Testcase_002_015.noja-test") (bytes_of "
@type [compiler]
@source

    1 == 2;

@bytecode

    PUSHINT 1;
    PUSHINT 2;
    EQL;
    POP 1;
    EXIT;");
    DFile (bytes_of "Testcase_002_016.noja-test") (bytes_of "
@type [compiler]
@source

    1 != 2;

@bytecode

    PUSHINT 1;
    PUSHINT 2;
    NQL;
    POP 1;
    EXIT;");
    DFile (bytes_of "Testcase_002_017.noja-test") (bytes_of "
@type [compiler]
@source

    1 < 2;

@bytecode

    PUSHINT 1;
    PUSHINT 2;
    LSS;
    POP 1;
    EXIT;");
    DFile (bytes_of "Testcase_002_018.noja-test") (bytes_of "
@type [compiler]
@source

    1 > 2;

@bytecode

    PUSHINT 1;
    PUSHINT 2;
    GRT;
    POP 1;
    EXIT;");
    DFile (bytes_of "Testcase_002_019.noja-test") (bytes_of "
@type [compiler]
@source

    1 <= 2;

@bytecode

    PUSHINT 1;
    PUSHINT 2;
    LEQ;
    POP 1;
    EXIT;");
    DFile (bytes_of "Testcase_002_020.noja-test") (bytes_of "
@type [compiler]
@source

    1 >= 2;

@bytecode

    PUSHINT 1;
    PUSHINT 2;
    GEQ;
    POP 1;
    EXIT;")];
   DDir (bytes_of "relational_and_logical") [
    DFile (bytes_of "Testcase_002_034.noja-test") (bytes_of "
@type [compiler]
@source

    1 + 2 > 3 + 4;
    1 + 2 < 3 + 4;
    1 + 2 >= 3 + 4;
    1 + 2 <= 3 + 4;
    
@bytecode
    
    PUSHINT 1;
    PUSHINT 2;
    ADD;
    PUSHINT 3;
    PUSHINT 4;
    ADD;
    GRT;
    POP 1;

    PUSHINT 1;
    PUSHINT 2;
    ADD;
    PUSHINT 3;
    PUSHINT 4;
    ADD;
    LSS;
    POP 1;

    PUSHINT 1;
    PUSHINT 2;
    ADD;
    PUSHINT 3;
    PUSHINT 4;
    ADD;
    GEQ;
    POP 1;

    PUSHINT 1;
    PUSHINT 2;
    ADD;
    PUSHINT 3;
    PUSHINT 4;
    ADD;
    LEQ;
    POP 1;
    EXIT;")]];
  DDir (bytes_of "func") [
   DFile (bytes_of "Testcase_011_000.noja-test") (bytes_of "
@type [compiler]
@source

    fun X() {}

@bytecode
    
    PUSHFUN fun, 0, ""X"";
    JUMP end;
fun:
    RETURN 0;
end:
    ASS ""X"";
    POP 1;
    EXIT;");
   DFile (bytes_of "Testcase_011_001.noja-test") (bytes_of "
@type [compiler]
@source

    fun X() ""Hello, world!"";

@bytecode
    
    PUSHFUN fun, 0, ""X"";
    JUMP end;
fun:
    PUSHSTR ""Hello, world!"";
    POP 1;
    RETURN 0;
end:
    ASS ""X"";
    POP 1;
    EXIT;");
   DFile (bytes_of "Testcase_011_002.noja-test") (bytes_of "
@type [compiler]
@source

    fun X() {
        ""Hello, world!"";
        return false;
    }

@bytecode
    
    PUSHFUN fun, 0, ""X"";
    JUMP end;
fun:
    PUSHSTR ""Hello, world!"";
    POP 1;
    PUSHFLS;
    RETURN 1;
    RETURN 0;
end:
    ASS ""X"";
    POP 1;
    EXIT;");
   DFile (bytes_of "Testcase_011_003.noja-test") (bytes_of "
@type [compiler]
@source

    fun nop(a) {
        return a;
    }

@bytecode
    
    PUSHFUN fun, 1, ""nop"";
    JUMP end;
fun:
    ASS ""a"";
    POP 1;
    PUSHVAR ""a"";
    RETURN 1;
    RETURN 0;
end:
    ASS ""nop"";
    POP 1;
    EXIT;");
   DFile (bytes_of "Testcase_011_004.noja-test") (bytes_of "
@type [compiler]
@source

    fun add(a, b) {
        return a + b;
    }

@bytecode
    
    PUSHFUN fun, 2, ""add"";
    JUMP end;
fun:
    ASS ""b"";
    POP 1;
    ASS ""a"";
    POP 1;
    PUSHVAR ""a"";
    PUSHVAR ""b"";
    ADD;
    RETURN 1;
    RETURN 0;
end:
    ASS ""add"";
    POP 1;
    EXIT;");
   DFile (bytes_of "Testcase_011_005.noja-test") (bytes_of "
@type [compiler]
@source

    fun nop(a: None) {
        return a;
    }

@bytecode
    
    PUSHFUN fun, 1, ""nop"";
    JUMP end;
fun:
    PUSHVAR ""None"";
    CHECKTYPE 0, ""a"";
    ASS ""a"";
    POP 1;
    PUSHVAR ""a"";
    RETURN 1;
    RETURN 0;
end:
    ASS ""nop"";
    POP 1;
    EXIT;");
   DFile (bytes_of "Testcase_011_006.noja-test") (bytes_of "
@type [compiler]
@source

    fun add(a: int, b) {
        return a + b;
    }

@bytecode
    
    PUSHFUN fun, 2, ""add"";
    JUMP end;
fun:
    ASS ""b"";
    POP 1;
    PUSHVAR ""int"";
    CHECKTYPE 0, ""a"";
    ASS ""a"";
    POP 1;
    PUSHVAR ""a"";
    PUSHVAR ""b"";
    ADD;
    RETURN 1;
    RETURN 0;
end:
    ASS ""add"";
    POP 1;
    EXIT;");
   DFile (bytes_of "Testcase_011_007.noja-test") (bytes_of "
@type [compiler]
@source

    fun add(a, b: int) {
        return a + b;
    }

@bytecode
    
    PUSHFUN fun, 2, ""add"";
    JUMP end;
fun:
    PUSHVAR ""int"";
    CHECKTYPE 1, ""b"";
    ASS ""b"";
    POP 1;
    ASS ""a"";
    POP 1;
    PUSHVAR ""a"";
    PUSHVAR ""b"";
    ADD;
    RETURN 1;
    RETURN 0;
end:
    ASS ""add"";
    POP 1;
    EXIT;");
   DFile (bytes_of "Testcase_011_008.noja-test") (bytes_of "
@type [compiler]
@source

    fun add(a: int, b: int) {
        return a + b;
    }

@bytecode
    
    PUSHFUN fun, 2, ""add"";
    JUMP end;
fun:
    PUSHVAR ""int"";
    CHECKTYPE 1, ""b"";
    ASS ""b"";
    POP 1;
    PUSHVAR ""int"";
    CHECKTYPE 0, ""a"";
    ASS ""a"";
    POP 1;
    PUSHVAR ""a"";
    PUSHVAR ""b"";
    ADD;
    RETURN 1;
    RETURN 0;
end:
    ASS ""add"";
    POP 1;
    EXIT;");
   DFile (bytes_of "Testcase_011_009.noja-test") (bytes_of "
@type [compiler]
@source

    fun add(a: int | float, b: bool | Map) {
        return a + b;
    }

@bytecode
    
    PUSHFUN fun, 2, ""add"";
    JUMP end;
fun:
    PUSHVAR ""bool"";
    PUSHVAR ""Map"";
    STP;
    CHECKTYPE 1, ""b"";
    ASS ""b"";
    POP 1;
    PUSHVAR ""int"";
    PUSHVAR ""float"";
    STP;
    CHECKTYPE 0, ""a"";
    ASS ""a"";
    POP 1;
    PUSHVAR ""a"";
    PUSHVAR ""b"";
    ADD;
    RETURN 1;
    RETURN 0;
end:
    ASS ""add"";
    POP 1;
    EXIT;");
   DFile (bytes_of "Testcase_012_000.noja-test") (bytes_of "@type [compiler]

@source
    
    fun nop(a = 1)
        {}

@bytecode

    PUSHFUN nop, 1, ""nop"";
    JUMP nop_end;
nop:
    PUSHTYP;
    PUSHNNETYP;
    EQL;
    JUMPIFNOTANDPOP not_none;
    POP 1;
    PUSHINT 1;
not_none:
    ASS ""a"";
    POP 1;
    RETURN 0;
nop_end:
    ASS ""nop"";
    POP 1;
    EXIT;
");
   DFile (bytes_of "Testcase_012_001.noja-test") (bytes_of "
@type [compiler]
@source
    
    fun nop(a = 1, b)
        {}

@bytecode

    PUSHFUN nop, 2, ""nop"";
    JUMP nop_end;
nop:
    ASS ""b"";
    POP 1;
    PUSHTYP;
    PUSHNNETYP;
    EQL;
    JUMPIFNOTANDPOP not_none;
    POP 1;
    PUSHINT 1;
not_none:
    ASS ""a"";
    POP 1;
    RETURN 0;
nop_end:
    ASS ""nop"";
    POP 1;
    EXIT;");
   DFile (bytes_of "Testcase_012_002.noja-test") (bytes_of "
@type [compiler]
@source
    
    fun nop(a, b = true)
        {}

@bytecode

    PUSHFUN nop, 2, ""nop"";
    JUMP nop_end;
nop:
    PUSHTYP;
    PUSHNNETYP;
    EQL;
    JUMPIFNOTANDPOP not_none;
    POP 1;
    PUSHTRU;
not_none:
    ASS ""b"";
    POP 1;
    ASS ""a"";
    POP 1;
    RETURN 0;
nop_end:
    ASS ""nop"";
    POP 1;
    EXIT;");
   DFile (bytes_of "Testcase_012_003.noja-test") (bytes_of "
@type [compiler]
@source
    
    fun nop(a: int = 1)
        {}

@bytecode

    PUSHFUN nop, 1, ""nop"";
    JUMP nop_end;
nop:
    PUSHTYP;
    PUSHNNETYP;
    EQL;
    JUMPIFNOTANDPOP not_none;
    POP 1;
    PUSHINT 1;
not_none:
    PUSHVAR ""int"";
    CHECKTYPE 0, ""a"";
    ASS ""a"";
    POP 1;
    RETURN 0;
nop_end:
    ASS ""nop"";
    POP 1;
    EXIT;
")];
  DDir (bytes_of "ifelse") [
   DFile (bytes_of "Testcase_008_000.noja-test") (bytes_of "
@type [compiler]
@source

    if true:
        {}

@bytecode
    
    PUSHTRU;
    JUMPIFNOTANDPOP end;
end:
    EXIT;");
   DFile (bytes_of "Testcase_008_001.noja-test") (bytes_of "
@type [compiler]

@source

    if true:
        none;

@bytecode
    
    PUSHTRU;
    JUMPIFNOTANDPOP end;
    PUSHNNE;
    POP 1;
end:
    EXIT;");
   DFile (bytes_of "Testcase_008_002.noja-test") (bytes_of "
@type [compiler]
@source

    if true:
        {}
    else
        {}

@bytecode
    
    PUSHTRU;
    JUMPIFNOTANDPOP end;

    JUMP end; 
    
end:
    EXIT;");
   DFile (bytes_of "Testcase_008_003.noja-test") (bytes_of "
@type [compiler]
@source

    if none:
        true;
    else
        false;

@bytecode
    
    PUSHNNE;
    JUMPIFNOTANDPOP else;
    PUSHTRU;
    POP 1;
    JUMP end; 
else:
    PUSHFLS;
    POP 1;
end:
    EXIT;")];
  DDir (bytes_of "other") [
   DFile (bytes_of "Testcase_000_000.noja-test") (bytes_of "@type [compiler]

@source
    # (Empty source)
    
@bytecode
    EXIT;");
   DFile (bytes_of "Testcase_000_001.noja-test") (bytes_of "@type [compiler]

@source
    return none;

@bytecode
    PUSHNNE;
    RETURN 1;
    EXIT;")];
  DDir (bytes_of "while") [
   DFile (bytes_of "Testcase_009_000.noja-test") (bytes_of "
@type [compiler]
@source

    while none:
        {}

@bytecode
    
begin:
    PUSHNNE;
    JUMPIFNOTANDPOP end;
    JUMP begin;
end:
    EXIT;");
   DFile (bytes_of "Testcase_009_001.noja-test") (bytes_of "
@type [compiler]
@source

    while none:
        true;
    false;

@bytecode
    
begin:
    PUSHNNE;
    JUMPIFNOTANDPOP end;
    PUSHTRU;
    POP 1;
    JUMP begin;
end:
    PUSHFLS;
    POP 1;
    EXIT;");
   DFile (bytes_of "Testcase_009_002.noja-test") (bytes_of "
@type [compiler]
@source

    while none: {
        true;
        ""Hello, world!"";
    }
    false;

@bytecode
    
begin:
    PUSHNNE;
    JUMPIFNOTANDPOP end;
    PUSHTRU;
    POP 1;
    PUSHSTR ""Hello, world!"";
    POP 1;
    JUMP begin;
end:
    PUSHFLS;
    POP 1;
    EXIT;");
   DFile (bytes_of "Testcase_009_003.noja-test") (bytes_of "
@type [compiler]
@source

    while none: {
        true;
        ""Hello, world!"";
        break;
    }
    false;

@bytecode
    
begin:
    PUSHNNE;
    JUMPIFNOTANDPOP end;
    PUSHTRU;
    POP 1;
    PUSHSTR ""Hello, world!"";
    POP 1;
    JUMP end;
    JUMP begin;
end:
    PUSHFLS;
    POP 1;
    EXIT;");
   DFile (bytes_of "Testcase_009_004.noja-test") (bytes_of "
@type [compiler]
@source

    while none: 
        break;
    false;

@bytecode
    
begin:
    PUSHNNE;
    JUMPIFNOTANDPOP end;
    JUMP end;
    JUMP begin;
end:
    PUSHFLS;
    POP 1;
    EXIT;")]];
 DDir (bytes_of "runtime") [
  DDir (bytes_of "add") [
   DFile (bytes_of "float_plus_float.noja-test") (bytes_of "@type [runtime]

@bytecode
	
	PUSHFLT 90.22;
	PUSHFLT 700.39;
	ADD;

	PUSHVAR ""print"";
	CALL 1, 1;
	POP 1;
	EXIT;

@output [790.61]");
   DFile (bytes_of "float_plus_float_2.noja-test") (bytes_of "@type [runtime]

@bytecode
	
	PUSHFLT -90.22;
	PUSHFLT 700.39;
	ADD;

	PUSHVAR ""print"";
	CALL 1, 1;
	POP 1;
	EXIT;

@output [610.17]");
   DFile (bytes_of "float_plus_float_3.noja-test") (bytes_of "@type [runtime]

@bytecode
	
	PUSHFLT 90.22;
	PUSHFLT -700.39;
	ADD;

	PUSHVAR ""print"";
	CALL 1, 1;
	POP 1;
	EXIT;

@output [-610.17]");
   DFile (bytes_of "float_plus_float_4.noja-test") (bytes_of "@type [runtime]

@bytecode
	
	PUSHFLT -90.22;
	PUSHFLT -700.39;
	ADD;

	PUSHVAR ""print"";
	CALL 1, 1;
	POP 1;
	EXIT;

@output [-790.61]");
   DFile (bytes_of "float_plus_int.noja-test") (bytes_of "@type [runtime]

@bytecode
	
	PUSHFLT 90.39;
	PUSHINT 700;
	ADD;

	PUSHVAR ""print"";
	CALL 1, 1;
	POP 1;
	EXIT;

@output [790.39]");
   DFile (bytes_of "float_plus_int_2.noja-test") (bytes_of "@type [runtime]

@bytecode
	
	PUSHFLT -90.39;
	PUSHINT 700;
	ADD;

	PUSHVAR ""print"";
	CALL 1, 1;
	POP 1;
	EXIT;

@output [609.61]");
   DFile (bytes_of "float_plus_int_3.noja-test") (bytes_of "@type [runtime]

@bytecode
	
	PUSHFLT 90.39;
	PUSHINT -700;
	ADD;

	PUSHVAR ""print"";
	CALL 1, 1;
	POP 1;
	EXIT;

@output [-609.61]");
   DFile (bytes_of "float_plus_int_4.noja-test") (bytes_of "@type [runtime]

@bytecode
	
	PUSHFLT -90.39;
	PUSHINT -700;
	ADD;

	PUSHVAR ""print"";
	CALL 1, 1;
	POP 1;
	EXIT;

@output [-790.39]");
   DFile (bytes_of "int_plus_float.noja-test") (bytes_of "@type [runtime]

@bytecode
	
	PUSHINT 90;
	PUSHFLT 700.39;
	ADD;

	PUSHVAR ""print"";
	CALL 1, 1;
	POP 1;
	EXIT;

@output [790.39]");
   DFile (bytes_of "int_plus_float_2.noja-test") (bytes_of "@type [runtime]

@bytecode
	
	PUSHINT 90;
	PUSHFLT -700.39;
	ADD;

	PUSHVAR ""print"";
	CALL 1, 1;
	POP 1;
	EXIT;

@output [-610.39]");
   DFile (bytes_of "int_plus_float_3.noja-test") (bytes_of "@type [runtime]

@bytecode
	
	PUSHINT -90;
	PUSHFLT 700.39;
	ADD;

	PUSHVAR ""print"";
	CALL 1, 1;
	POP 1;
	EXIT;

@output [610.39]");
   DFile (bytes_of "int_plus_float_4.noja-test") (bytes_of "@type [runtime]

@bytecode
	
	PUSHINT -90;
	PUSHFLT -700.39;
	ADD;

	PUSHVAR ""print"";
	CALL 1, 1;
	POP 1;
	EXIT;

@output [-790.39]");
   DFile (bytes_of "int_plus_int.noja-test") (bytes_of "@type [runtime]

@bytecode
	
	PUSHINT 90;
	PUSHINT 700;
	ADD;

	PUSHVAR ""print"";
	CALL 1, 1;
	POP 1;
	EXIT;

@output [790]");
   DFile (bytes_of "int_plus_int_2.noja-test") (bytes_of "@type [runtime]

@bytecode
	
	PUSHINT -90;
	PUSHINT 700;
	ADD;

	PUSHVAR ""print"";
	CALL 1, 1;
	POP 1;
	EXIT;

@output [610]");
   DFile (bytes_of "int_plus_int_3.noja-test") (bytes_of "@type [runtime]

@bytecode
	
	PUSHINT 90;
	PUSHINT -700;
	ADD;

	PUSHVAR ""print"";
	CALL 1, 1;
	POP 1;
	EXIT;

@output [-610]");
   DFile (bytes_of "int_plus_int_4.noja-test") (bytes_of "@type [runtime]

@bytecode
	
	PUSHINT -90;
	PUSHINT -700;
	ADD;

	PUSHVAR ""print"";
	CALL 1, 1;
	POP 1;
	EXIT;

@output [-790]")];
  DDir (bytes_of "ass") [
   DFile (bytes_of "ass_00.noja-test") (bytes_of "@type [runtime]

@bytecode
	
	PUSHNNE;
	ASS ""xyz"";
	POP 1;

	PUSHVAR ""xyz"";

	PUSHVAR ""print"";
	CALL 1, 1;
	POP 1;
	
	EXIT;

@output [none]");
   DFile (bytes_of "ass_01.noja-test") (bytes_of "@type [runtime]

@bytecode
	
	PUSHNNE;
	ASS ""xyz"";
	POP 1;
	PUSHVAR ""xyz"";
	PUSHVAR ""print"";
	CALL 1, 1;
	POP 1;
	
	PUSHSTR ""/"";
	PUSHVAR ""print"";
	CALL 1, 1;
	POP 1;

	PUSHINT 99;
	ASS ""xyz"";
	POP 1;
	PUSHVAR ""xyz"";
	PUSHVAR ""print"";
	CALL 1, 1;
	POP 1;

	EXIT;

@output [none/99]")];
  DDir (bytes_of "eql") [
   DFile (bytes_of "float_eql_float_false.noja-test") (bytes_of "@type [runtime]

@bytecode
	PUSHFLT 7.2;
	PUSHFLT 8.4;
	EQL;

	PUSHVAR ""print"";
	CALL 1, 1;
	POP 1;
	EXIT;

@output [false]");
   DFile (bytes_of "float_eql_float_true.noja-test") (bytes_of "@type [runtime]

@bytecode
	PUSHFLT 7.2;
	PUSHFLT 7.2;
	EQL;

	PUSHVAR ""print"";
	CALL 1, 1;
	POP 1;
	EXIT;

@output [true]");
   DFile (bytes_of "float_eql_int.noja-test") (bytes_of "@type [runtime]

@bytecode
	PUSHINT 7;
	PUSHFLT 8.4;
	EQL;

	PUSHVAR ""print"";
	CALL 1, 1;
	POP 1;
	EXIT;

@output [false]");
   DFile (bytes_of "int_eql_int_false.noja-test") (bytes_of "@type [runtime]

@bytecode
	PUSHINT 7;
	PUSHINT 8;
	EQL;

	PUSHVAR ""print"";
	CALL 1, 1;
	POP 1;
	EXIT;

@output [false]");
   DFile (bytes_of "int_eql_int_true.noja-test") (bytes_of "@type [runtime]

@bytecode
	PUSHINT 7;
	PUSHINT 7;
	EQL;

	PUSHVAR ""print"";
	CALL 1, 1;
	POP 1;
	EXIT;

@output [true]")];
  DDir (bytes_of "func") [
   DFile (bytes_of "func.noja-test") (bytes_of "@type [runtime]

@bytecode
	
	PUSHFUN func, 0, ""func"";
	CALL 0, 3;

	PUSHVAR ""print"";
	CALL 3, 1;
	POP 1;

	EXIT;
func:
	PUSHINT 1;
	PUSHINT 2;
	PUSHINT 3;
	RETURN 3;

@output [321]")];
  DDir (bytes_of "geq") [
   DFile (bytes_of "float_geq_float_00.noja-test") (bytes_of "@type [runtime]

@bytecode
	
	PUSHFLT 6.9;
	PUSHFLT 7.1;
	GEQ;

	PUSHVAR ""print"";
	CALL 1, 1;
	POP 1;
	EXIT;

@output [false]");
   DFile (bytes_of "float_geq_float_01.noja-test") (bytes_of "@type [runtime]

@bytecode
	
	PUSHFLT 7.0;
	PUSHFLT 7.1;
	GEQ;

	PUSHVAR ""print"";
	CALL 1, 1;
	POP 1;
	EXIT;

@output [false]");
   DFile (bytes_of "float_geq_float_02.noja-test") (bytes_of "@type [runtime]

@bytecode
	
	PUSHFLT 7.1;
	PUSHFLT 7.1;
	GEQ;

	PUSHVAR ""print"";
	CALL 1, 1;
	POP 1;
	EXIT;

@output [true]");
   DFile (bytes_of "float_geq_float_03.noja-test") (bytes_of "@type [runtime]

@bytecode
	
	PUSHFLT 7.2;
	PUSHFLT 7.1;
	GEQ;

	PUSHVAR ""print"";
	CALL 1, 1;
	POP 1;
	EXIT;

@output [true]");
   DFile (bytes_of "float_geq_float_04.noja-test") (bytes_of "@type [runtime]

@bytecode
	
	PUSHFLT 7.3;
	PUSHFLT 7.1;
	GEQ;

	PUSHVAR ""print"";
	CALL 1, 1;
	POP 1;
	EXIT;

@output [true]");
   DFile (bytes_of "float_geq_int_00.noja-test") (bytes_of "@type [runtime]

@bytecode
	
	PUSHFLT 6.8;
	PUSHINT 7;
	GEQ;

	PUSHVAR ""print"";
	CALL 1, 1;
	POP 1;
	EXIT;

@output [false]");
   DFile (bytes_of "float_geq_int_01.noja-test") (bytes_of "@type [runtime]

@bytecode
	
	PUSHFLT 6.9;
	PUSHINT 7;
	GEQ;

	PUSHVAR ""print"";
	CALL 1, 1;
	POP 1;
	EXIT;

@output [false]");
   DFile (bytes_of "float_geq_int_02.noja-test") (bytes_of "@type [runtime]

@bytecode
	
	PUSHFLT 7.0;
	PUSHINT 7;
	GEQ;

	PUSHVAR ""print"";
	CALL 1, 1;
	POP 1;
	EXIT;

@output [true]");
   DFile (bytes_of "float_geq_int_03.noja-test") (bytes_of "@type [runtime]

@bytecode
	
	PUSHFLT 7.1;
	PUSHINT 7;
	GEQ;

	PUSHVAR ""print"";
	CALL 1, 1;
	POP 1;
	EXIT;

@output [true]");
   DFile (bytes_of "float_geq_int_04.noja-test") (bytes_of "@type [runtime]

@bytecode
	
	PUSHFLT 7.2;
	PUSHINT 7;
	GEQ;

	PUSHVAR ""print"";
	CALL 1, 1;
	POP 1;
	EXIT;

@output [true]");
   DFile (bytes_of "int_geq_float_00.noja-test") (bytes_of "@type [runtime]

@bytecode
	
	PUSHINT 7;
	PUSHFLT 6.8;
	GEQ;

	PUSHVAR ""print"";
	CALL 1, 1;
	POP 1;
	EXIT;

@output [true]");
   DFile (bytes_of "int_geq_float_01.noja-test") (bytes_of "@type [runtime]

@bytecode
	
	PUSHINT 7;
	PUSHFLT 6.9;
	GEQ;

	PUSHVAR ""print"";
	CALL 1, 1;
	POP 1;
	EXIT;

@output [true]");
   DFile (bytes_of "int_geq_float_02.noja-test") (bytes_of "@type [runtime]

@bytecode
	
	PUSHINT 7;
	PUSHFLT 7.0;
	GEQ;

	PUSHVAR ""print"";
	CALL 1, 1;
	POP 1;
	EXIT;

@output [true]");
   DFile (bytes_of "int_geq_float_03.noja-test") (bytes_of "@type [runtime]

@bytecode
	
	PUSHINT 7;
	PUSHFLT 7.1;
	GEQ;

	PUSHVAR ""print"";
	CALL 1, 1;
	POP 1;
	EXIT;

@output [false]");
   DFile (bytes_of "int_geq_float_04.noja-test") (bytes_of "@type [runtime]

@bytecode
	
	PUSHINT 7;
	PUSHFLT 7.2;
	GEQ;

	PUSHVAR ""print"";
	CALL 1, 1;
	POP 1;
	EXIT;

@output [false]");
   DFile (bytes_of "int_geq_int_00.noja-test") (bytes_of "@type [runtime]

@bytecode
	
	PUSHINT 1;
	PUSHINT 2;
	GEQ;

	PUSHVAR ""print"";
	CALL 1, 1;
	POP 1;
	EXIT;

@output [false]");
   DFile (bytes_of "int_geq_int_01.noja-test") (bytes_of "@type [runtime]

@bytecode
	
	PUSHINT 7;
	PUSHINT 6;
	GEQ;

	PUSHVAR ""print"";
	CALL 1, 1;
	POP 1;
	EXIT;

@output [true]");
   DFile (bytes_of "int_geq_int_02.noja-test") (bytes_of "@type [runtime]

@bytecode
	
	PUSHINT 7;
	PUSHINT 7;
	GEQ;

	PUSHVAR ""print"";
	CALL 1, 1;
	POP 1;
	EXIT;

@output [true]");
   DFile (bytes_of "int_geq_int_03.noja-test") (bytes_of "@type [runtime]

@bytecode
	
	PUSHINT 7;
	PUSHINT 8;
	GEQ;

	PUSHVAR ""print"";
	CALL 1, 1;
	POP 1;
	EXIT;

@output [false]")];
  DDir (bytes_of "grt") [
   DFile (bytes_of "float_grt_float_00.noja-test") (bytes_of "@type [runtime]

@bytecode
	
	PUSHFLT 6.9;
	PUSHFLT 7.1;
	GRT;

	PUSHVAR ""print"";
	CALL 1, 1;
	POP 1;
	EXIT;

@output [false]");
   DFile (bytes_of "float_grt_float_01.noja-test") (bytes_of "@type [runtime]

@bytecode
	
	PUSHFLT 7.0;
	PUSHFLT 7.1;
	GRT;

	PUSHVAR ""print"";
	CALL 1, 1;
	POP 1;
	EXIT;

@output [false]");
   DFile (bytes_of "float_grt_float_02.noja-test") (bytes_of "@type [runtime]

@bytecode
	
	PUSHFLT 7.1;
	PUSHFLT 7.1;
	GRT;

	PUSHVAR ""print"";
	CALL 1, 1;
	POP 1;
	EXIT;

@output [false]");
   DFile (bytes_of "float_grt_float_03.noja-test") (bytes_of "@type [runtime]

@bytecode
	
	PUSHFLT 7.2;
	PUSHFLT 7.1;
	GRT;

	PUSHVAR ""print"";
	CALL 1, 1;
	POP 1;
	EXIT;

@output [true]");
   DFile (bytes_of "float_grt_float_04.noja-test") (bytes_of "@type [runtime]

@bytecode
	
	PUSHFLT 7.3;
	PUSHFLT 7.1;
	GRT;

	PUSHVAR ""print"";
	CALL 1, 1;
	POP 1;
	EXIT;

@output [true]");
   DFile (bytes_of "float_grt_int_00.noja-test") (bytes_of "@type [runtime]

@bytecode
	
	PUSHFLT 6.8;
	PUSHINT 7;
	GRT;

	PUSHVAR ""print"";
	CALL 1, 1;
	POP 1;
	EXIT;

@output [false]");
   DFile (bytes_of "float_grt_int_01.noja-test") (bytes_of "@type [runtime]

@bytecode
	
	PUSHFLT 6.9;
	PUSHINT 7;
	GRT;

	PUSHVAR ""print"";
	CALL 1, 1;
	POP 1;
	EXIT;

@output [false]");
   DFile (bytes_of "float_grt_int_02.noja-test") (bytes_of "@type [runtime]

@bytecode
	
	PUSHFLT 7.0;
	PUSHINT 7;
	GRT;

	PUSHVAR ""print"";
	CALL 1, 1;
	POP 1;
	EXIT;

@output [false]");
   DFile (bytes_of "float_grt_int_03.noja-test") (bytes_of "@type [runtime]

@bytecode
	
	PUSHFLT 7.1;
	PUSHINT 7;
	GRT;

	PUSHVAR ""print"";
	CALL 1, 1;
	POP 1;
	EXIT;

@output [true]");
   DFile (bytes_of "float_grt_int_04.noja-test") (bytes_of "@type [runtime]

@bytecode
	
	PUSHFLT 7.2;
	PUSHINT 7;
	GRT;

	PUSHVAR ""print"";
	CALL 1, 1;
	POP 1;
	EXIT;

@output [true]");
   DFile (bytes_of "int_grt_float_00.noja-test") (bytes_of "@type [runtime]

@bytecode
	
	PUSHINT 7;
	PUSHFLT 6.8;
	GRT;

	PUSHVAR ""print"";
	CALL 1, 1;
	POP 1;
	EXIT;

@output [true]");
   DFile (bytes_of "int_grt_float_01.noja-test") (bytes_of "@type [runtime]

@bytecode
	
	PUSHINT 7;
	PUSHFLT 6.9;
	GRT;

	PUSHVAR ""print"";
	CALL 1, 1;
	POP 1;
	EXIT;

@output [true]");
   DFile (bytes_of "int_grt_float_02.noja-test") (bytes_of "@type [runtime]

@bytecode
	
	PUSHINT 7;
	PUSHFLT 7.0;
	GRT;

	PUSHVAR ""print"";
	CALL 1, 1;
	POP 1;
	EXIT;

@output [false]");
   DFile (bytes_of "int_grt_float_03.noja-test") (bytes_of "@type [runtime]

@bytecode
	
	PUSHINT 7;
	PUSHFLT 7.1;
	GRT;

	PUSHVAR ""print"";
	CALL 1, 1;
	POP 1;
	EXIT;

@output [false]");
   DFile (bytes_of "int_grt_float_04.noja-test") (bytes_of "@type [runtime]

@bytecode
	
	PUSHINT 7;
	PUSHFLT 7.2;
	GRT;

	PUSHVAR ""print"";
	CALL 1, 1;
	POP 1;
	EXIT;

@output [false]");
   DFile (bytes_of "int_grt_int_00.noja-test") (bytes_of "@type [runtime]

@bytecode
	
	PUSHINT 1;
	PUSHINT 2;
	GRT;

	PUSHVAR ""print"";
	CALL 1, 1;
	POP 1;
	EXIT;

@output [false]");
   DFile (bytes_of "int_grt_int_01.noja-test") (bytes_of "@type [runtime]

@bytecode
	
	PUSHINT 7;
	PUSHINT 6;
	GRT;

	PUSHVAR ""print"";
	CALL 1, 1;
	POP 1;
	EXIT;

@output [true]");
   DFile (bytes_of "int_grt_int_02.noja-test") (bytes_of "@type [runtime]

@bytecode
	
	PUSHINT 7;
	PUSHINT 7;
	GRT;

	PUSHVAR ""print"";
	CALL 1, 1;
	POP 1;
	EXIT;

@output [false]");
   DFile (bytes_of "int_grt_int_03.noja-test") (bytes_of "@type [runtime]

@bytecode
	
	PUSHINT 7;
	PUSHINT 8;
	GRT;

	PUSHVAR ""print"";
	CALL 1, 1;
	POP 1;
	EXIT;

@output [false]")];
  DDir (bytes_of "insert") [
   DFile (bytes_of "insert_into_list.noja-test") (bytes_of "@type [runtime]

@bytecode
	
	PUSHLST 3;

	PUSHINT 0;
	PUSHSTR ""A"";
	INSERT;

	PUSHINT 1;
	PUSHSTR ""B"";
	INSERT;

	PUSHINT 2;
	PUSHSTR ""C"";
	INSERT;
	
	PUSHVAR ""print"";
	CALL 1, 1;
	POP 1;
	EXIT;

@output {[A, B, C]}");
   DFile (bytes_of "insert_into_list_more_than_capacity.noja-test") (bytes_of "@type [runtime]

@bytecode
	
	PUSHLST 2;

	PUSHINT 0;
	PUSHSTR ""A"";
	INSERT;

	PUSHINT 1;
	PUSHSTR ""B"";
	INSERT;

	PUSHINT 2;
	PUSHSTR ""C"";
	INSERT;
	
	PUSHVAR ""print"";
	CALL 1, 1;
	POP 1;
	EXIT;

@output {[A, B, C]}");
   DFile (bytes_of "insert_into_map.noja-test") (bytes_of "@type [runtime]

@bytecode
	
	PUSHMAP 3;

	PUSHINT 0;
	PUSHSTR ""A"";
	INSERT;

	PUSHINT 1;
	PUSHSTR ""B"";
	INSERT;

	PUSHINT 2;
	PUSHSTR ""C"";
	INSERT;
	
	PUSHVAR ""print"";
	CALL 1, 1;
	POP 1;

	EXIT;

@output [{0: A, 1: B, 2: C}]");
   DFile (bytes_of "insert_into_map_more_than_capacity.noja-test") (bytes_of "@type [runtime]

@bytecode
	
	PUSHMAP 2;

	PUSHINT 0;
	PUSHSTR ""A"";
	INSERT;

	PUSHINT 1;
	PUSHSTR ""B"";
	INSERT;
	
	PUSHINT 2;
	PUSHSTR ""C"";
	INSERT;
	
	PUSHVAR ""print"";
	CALL 1, 1;
	POP 1;

	EXIT;

@output [{0: A, 1: B, 2: C}]")];
  DDir (bytes_of "insert2") [
   DFile (bytes_of "insert2_into_list.noja-test") (bytes_of "@type [runtime]

@bytecode
	
	PUSHLST 3;
	ASS ""list"";
	POP 1;

	PUSHSTR ""A"";
	PUSHVAR ""list"";
	PUSHINT 0;
	INSERT2;

	PUSHSTR ""B"";
	PUSHVAR ""list"";
	PUSHINT 1;
	INSERT2;

	PUSHSTR ""C"";
	PUSHVAR ""list"";
	PUSHINT 2;
	INSERT2;

	PUSHVAR ""list"";

	PUSHVAR ""print"";
	CALL 4, 1;
	POP 1;
	EXIT;

@output {[A, B, C]CBA}");
   DFile (bytes_of "insert2_into_list_more_than_capacity.noja-test") (bytes_of "@type [runtime]

@bytecode
	
	PUSHLST 2;
	ASS ""list"";
	POP 1;

	PUSHSTR ""A"";
	PUSHVAR ""list"";
	PUSHINT 0;
	INSERT2;

	PUSHSTR ""B"";
	PUSHVAR ""list"";
	PUSHINT 1;
	INSERT2;

	PUSHSTR ""C"";
	PUSHVAR ""list"";
	PUSHINT 2;
	INSERT2;

	PUSHVAR ""list"";

	PUSHVAR ""print"";
	CALL 4, 1;
	POP 1;
	EXIT;

@output {[A, B, C]CBA}");
   DFile (bytes_of "insert2_into_map.noja-test") (bytes_of "@type [runtime]

@bytecode
	
	PUSHMAP 3;
	ASS ""map"";
	POP 1;

	PUSHSTR ""A"";
	PUSHVAR ""map"";
	PUSHINT 0;
	INSERT2;

	PUSHSTR ""B"";
	PUSHVAR ""map"";
	PUSHINT 1;
	INSERT2;

	PUSHSTR ""C"";
	PUSHVAR ""map"";
	PUSHINT 2;
	INSERT2;
	
	PUSHVAR ""map"";

	PUSHVAR ""print"";
	CALL 4, 1;
	POP 1;

	EXIT;

@output [{0: A, 1: B, 2: C}CBA]");
   DFile (bytes_of "insert2_into_map_more_than_capacity.noja-test") (bytes_of "@type [runtime]

@bytecode
	
	PUSHMAP 2;
	ASS ""map"";
	POP 1;

	PUSHSTR ""A"";
	PUSHVAR ""map"";
	PUSHINT 0;
	INSERT2;

	PUSHSTR ""B"";
	PUSHVAR ""map"";
	PUSHINT 1;
	INSERT2;

	PUSHSTR ""C"";
	PUSHVAR ""map"";
	PUSHINT 2;
	INSERT2;
	
	PUSHVAR ""map"";

	PUSHVAR ""print"";
	CALL 4, 1;
	POP 1;

	EXIT;

@output [{0: A, 1: B, 2: C}CBA]")];
  DDir (bytes_of "jumpifandpop") [
   DFile (bytes_of "jumpifandpop.noja-test") (bytes_of "@type [runtime]

@bytecode
	
	PUSHTRU;
	JUMPIFANDPOP ye;
	PUSHINT 100;
	JUMP end;
ye:
	PUSHINT 300;
end:
	PUSHVAR ""print"";
	CALL 1, 1;
	POP 1;
	EXIT;

@output [300]");
   DFile (bytes_of "jumpifandpop_2.noja-test") (bytes_of "@type [runtime]

@bytecode
	
	PUSHFLS;
	JUMPIFANDPOP ye;
	PUSHINT 100;
	JUMP end;
ye:
	PUSHINT 300;
end:
	PUSHVAR ""print"";
	CALL 1, 1;
	POP 1;
	EXIT;

@output [100]")];
  DDir (bytes_of "jumpifnotandpop") [
   DFile (bytes_of "jumpifnotandpop.noja-test") (bytes_of "@type [runtime]

@bytecode
	
	PUSHTRU;
	JUMPIFNOTANDPOP ye;
	PUSHINT 100;
	JUMP end;
ye:
	PUSHINT 300;
end:
	PUSHVAR ""print"";
	CALL 1, 1;
	POP 1;
	EXIT;

@output [100]");
   DFile (bytes_of "jumpifnotandpop_2.noja-test") (bytes_of "@type [runtime]

@bytecode
	
	PUSHFLS;
	JUMPIFNOTANDPOP ye;
	PUSHINT 100;
	JUMP end;
ye:
	PUSHINT 300;
end:
	PUSHVAR ""print"";
	CALL 1, 1;
	POP 1;
	EXIT;

@output [300]")];
  DDir (bytes_of "leq") [
   DFile (bytes_of "float_leq_float_00.noja-test") (bytes_of "@type [runtime]

@bytecode
	
	PUSHFLT 6.9;
	PUSHFLT 7.1;
	LEQ;

	PUSHVAR ""print"";
	CALL 1, 1;
	POP 1;
	EXIT;

@output [true]");
   DFile (bytes_of "float_leq_float_01.noja-test") (bytes_of "@type [runtime]

@bytecode
	
	PUSHFLT 7.0;
	PUSHFLT 7.1;
	LEQ;

	PUSHVAR ""print"";
	CALL 1, 1;
	POP 1;
	EXIT;

@output [true]");
   DFile (bytes_of "float_leq_float_02.noja-test") (bytes_of "@type [runtime]

@bytecode
	
	PUSHFLT 7.1;
	PUSHFLT 7.1;
	LEQ;

	PUSHVAR ""print"";
	CALL 1, 1;
	POP 1;
	EXIT;

@output [true]");
   DFile (bytes_of "float_leq_float_03.noja-test") (bytes_of "@type [runtime]

@bytecode
	
	PUSHFLT 7.2;
	PUSHFLT 7.1;
	LEQ;

	PUSHVAR ""print"";
	CALL 1, 1;
	POP 1;
	EXIT;

@output [false]");
   DFile (bytes_of "float_leq_float_04.noja-test") (bytes_of "@type [runtime]

@bytecode
	
	PUSHFLT 7.3;
	PUSHFLT 7.1;
	LEQ;

	PUSHVAR ""print"";
	CALL 1, 1;
	POP 1;
	EXIT;

@output [false]");
   DFile (bytes_of "float_leq_int_00.noja-test") (bytes_of "@type [runtime]

@bytecode
	
	PUSHFLT 6.8;
	PUSHINT 7;
	LEQ;

	PUSHVAR ""print"";
	CALL 1, 1;
	POP 1;
	EXIT;

@output [true]");
   DFile (bytes_of "float_leq_int_01.noja-test") (bytes_of "@type [runtime]

@bytecode
	
	PUSHFLT 6.9;
	PUSHINT 7;
	LEQ;

	PUSHVAR ""print"";
	CALL 1, 1;
	POP 1;
	EXIT;

@output [true]");
   DFile (bytes_of "float_leq_int_02.noja-test") (bytes_of "@type [runtime]

@bytecode
	
	PUSHFLT 7.0;
	PUSHINT 7;
	LEQ;

	PUSHVAR ""print"";
	CALL 1, 1;
	POP 1;
	EXIT;

@output [true]");
   DFile (bytes_of "float_leq_int_03.noja-test") (bytes_of "@type [runtime]

@bytecode
	
	PUSHFLT 7.1;
	PUSHINT 7;
	LEQ;

	PUSHVAR ""print"";
	CALL 1, 1;
	POP 1;
	EXIT;

@output [false]");
   DFile (bytes_of "float_leq_int_04.noja-test") (bytes_of "@type [runtime]

@bytecode
	
	PUSHFLT 7.2;
	PUSHINT 7;
	LEQ;

	PUSHVAR ""print"";
	CALL 1, 1;
	POP 1;
	EXIT;

@output [false]");
   DFile (bytes_of "int_leq_float_00.noja-test") (bytes_of "@type [runtime]

@bytecode
	
	PUSHINT 7;
	PUSHFLT 6.8;
	LEQ;

	PUSHVAR ""print"";
	CALL 1, 1;
	POP 1;
	EXIT;

@output [false]");
   DFile (bytes_of "int_leq_float_01.noja-test") (bytes_of "@type [runtime]

@bytecode
	
	PUSHINT 7;
	PUSHFLT 6.9;
	LEQ;

	PUSHVAR ""print"";
	CALL 1, 1;
	POP 1;
	EXIT;

@output [false]");
   DFile (bytes_of "int_leq_float_02.noja-test") (bytes_of "@type [runtime]

@bytecode
	
	PUSHINT 7;
	PUSHFLT 7.0;
	LEQ;

	PUSHVAR ""print"";
	CALL 1, 1;
	POP 1;
	EXIT;

@output [true]");
   DFile (bytes_of "int_leq_float_03.noja-test") (bytes_of "@type [runtime]

@bytecode
	
	PUSHINT 7;
	PUSHFLT 7.1;
	LEQ;

	PUSHVAR ""print"";
	CALL 1, 1;
	POP 1;
	EXIT;

@output [true]");
   DFile (bytes_of "int_leq_float_04.noja-test") (bytes_of "@type [runtime]

@bytecode
	
	PUSHINT 7;
	PUSHFLT 7.2;
	LEQ;

	PUSHVAR ""print"";
	CALL 1, 1;
	POP 1;
	EXIT;

@output [true]");
   DFile (bytes_of "int_leq_int_00.noja-test") (bytes_of "@type [runtime]

@bytecode
	
	PUSHINT 1;
	PUSHINT 2;
	LEQ;

	PUSHVAR ""print"";
	CALL 1, 1;
	POP 1;
	EXIT;

@output [true]");
   DFile (bytes_of "int_leq_int_01.noja-test") (bytes_of "@type [runtime]

@bytecode
	
	PUSHINT 7;
	PUSHINT 6;
	LEQ;

	PUSHVAR ""print"";
	CALL 1, 1;
	POP 1;
	EXIT;

@output [false]");
   DFile (bytes_of "int_leq_int_02.noja-test") (bytes_of "@type [runtime]

@bytecode
	
	PUSHINT 7;
	PUSHINT 7;
	LEQ;

	PUSHVAR ""print"";
	CALL 1, 1;
	POP 1;
	EXIT;

@output [true]");
   DFile (bytes_of "int_leq_int_03.noja-test") (bytes_of "@type [runtime]

@bytecode
	
	PUSHINT 7;
	PUSHINT 8;
	LEQ;

	PUSHVAR ""print"";
	CALL 1, 1;
	POP 1;
	EXIT;

@output [true]")];
  DDir (bytes_of "lss") [
   DFile (bytes_of "float_lss_float_00.noja-test") (bytes_of "@type [runtime]

@bytecode
	
	PUSHFLT 6.9;
	PUSHFLT 7.1;
	LSS;

	PUSHVAR ""print"";
	CALL 1, 1;
	POP 1;
	EXIT;

@output [true]");
   DFile (bytes_of "float_lss_float_01.noja-test") (bytes_of "@type [runtime]

@bytecode
	
	PUSHFLT 7.0;
	PUSHFLT 7.1;
	LSS;

	PUSHVAR ""print"";
	CALL 1, 1;
	POP 1;
	EXIT;

@output [true]");
   DFile (bytes_of "float_lss_float_02.noja-test") (bytes_of "@type [runtime]

@bytecode
	
	PUSHFLT 7.1;
	PUSHFLT 7.1;
	LSS;

	PUSHVAR ""print"";
	CALL 1, 1;
	POP 1;
	EXIT;

@output [false]");
   DFile (bytes_of "float_lss_float_03.noja-test") (bytes_of "@type [runtime]

@bytecode
	
	PUSHFLT 7.2;
	PUSHFLT 7.1;
	LSS;

	PUSHVAR ""print"";
	CALL 1, 1;
	POP 1;
	EXIT;

@output [false]");
   DFile (bytes_of "float_lss_float_04.noja-test") (bytes_of "@type [runtime]

@bytecode
	
	PUSHFLT 7.3;
	PUSHFLT 7.1;
	LSS;

	PUSHVAR ""print"";
	CALL 1, 1;
	POP 1;
	EXIT;

@output [false]");
   DFile (bytes_of "float_lss_int_00.noja-test") (bytes_of "@type [runtime]

@bytecode
	
	PUSHFLT 6.8;
	PUSHINT 7;
	LSS;

	PUSHVAR ""print"";
	CALL 1, 1;
	POP 1;
	EXIT;

@output [true]");
   DFile (bytes_of "float_lss_int_01.noja-test") (bytes_of "@type [runtime]

@bytecode
	
	PUSHFLT 6.9;
	PUSHINT 7;
	LSS;

	PUSHVAR ""print"";
	CALL 1, 1;
	POP 1;
	EXIT;

@output [true]");
   DFile (bytes_of "float_lss_int_02.noja-test") (bytes_of "@type [runtime]

@bytecode
	
	PUSHFLT 7.0;
	PUSHINT 7;
	LSS;

	PUSHVAR ""print"";
	CALL 1, 1;
	POP 1;
	EXIT;

@output [false]");
   DFile (bytes_of "float_lss_int_03.noja-test") (bytes_of "@type [runtime]

@bytecode
	
	PUSHFLT 7.1;
	PUSHINT 7;
	LSS;

	PUSHVAR ""print"";
	CALL 1, 1;
	POP 1;
	EXIT;

@output [false]");
   DFile (bytes_of "float_lss_int_04.noja-test") (bytes_of "@type [runtime]

@bytecode
	
	PUSHFLT 7.2;
	PUSHINT 7;
	LSS;

	PUSHVAR ""print"";
	CALL 1, 1;
	POP 1;
	EXIT;

@output [false]");
   DFile (bytes_of "int_lss_float_00.noja-test") (bytes_of "@type [runtime]

@bytecode
	
	PUSHINT 7;
	PUSHFLT 6.8;
	LSS;

	PUSHVAR ""print"";
	CALL 1, 1;
	POP 1;
	EXIT;

@output [false]");
   DFile (bytes_of "int_lss_float_01.noja-test") (bytes_of "@type [runtime]

@bytecode
	
	PUSHINT 7;
	PUSHFLT 6.9;
	LSS;

	PUSHVAR ""print"";
	CALL 1, 1;
	POP 1;
	EXIT;

@output [false]");
   DFile (bytes_of "int_lss_float_02.noja-test") (bytes_of "@type [runtime]

@bytecode
	
	PUSHINT 7;
	PUSHFLT 7.0;
	LSS;

	PUSHVAR ""print"";
	CALL 1, 1;
	POP 1;
	EXIT;

@output [false]");
   DFile (bytes_of "int_lss_float_03.noja-test") (bytes_of "@type [runtime]

@bytecode
	
	PUSHINT 7;
	PUSHFLT 7.1;
	LSS;

	PUSHVAR ""print"";
	CALL 1, 1;
	POP 1;
	EXIT;

@output [true]");
   DFile (bytes_of "int_lss_float_04.noja-test") (bytes_of "@type [runtime]

@bytecode
	
	PUSHINT 7;
	PUSHFLT 7.2;
	LSS;

	PUSHVAR ""print"";
	CALL 1, 1;
	POP 1;
	EXIT;

@output [true]");
   DFile (bytes_of "int_lss_int_00.noja-test") (bytes_of "@type [runtime]

@bytecode
	
	PUSHINT 1;
	PUSHINT 2;
	LSS;

	PUSHVAR ""print"";
	CALL 1, 1;
	POP 1;
	EXIT;

@output [true]");
   DFile (bytes_of "int_lss_int_01.noja-test") (bytes_of "@type [runtime]

@bytecode
	
	PUSHINT 7;
	PUSHINT 6;
	LSS;

	PUSHVAR ""print"";
	CALL 1, 1;
	POP 1;
	EXIT;

@output [false]");
   DFile (bytes_of "int_lss_int_02.noja-test") (bytes_of "@type [runtime]

@bytecode
	
	PUSHINT 7;
	PUSHINT 7;
	LSS;

	PUSHVAR ""print"";
	CALL 1, 1;
	POP 1;
	EXIT;

@output [false]");
   DFile (bytes_of "int_lss_int_03.noja-test") (bytes_of "@type [runtime]

@bytecode
	
	PUSHINT 7;
	PUSHINT 8;
	LSS;

	PUSHVAR ""print"";
	CALL 1, 1;
	POP 1;
	EXIT;

@output [true]")];
  DDir (bytes_of "mod") [
   DFile (bytes_of "big_mod_small.noja-test") (bytes_of "@type [runtime]

@bytecode
	
	PUSHINT 100;
	PUSHINT 8;
	MOD;

	PUSHVAR ""print"";
	CALL 1, 1;
	POP 1;
	EXIT;

@output [4]");
   DFile (bytes_of "small_mod_big.noja-test") (bytes_of "@type [runtime]

@bytecode
	
	PUSHINT 8;
	PUSHINT 100;
	MOD;

	PUSHVAR ""print"";
	CALL 1, 1;
	POP 1;
	EXIT;

@output [8]")];
  DDir (bytes_of "neg") [
   DFile (bytes_of "neg.noja-test") (bytes_of "@type [runtime]

@bytecode
	
	PUSHINT 23;
	NEG;

	PUSHVAR ""print"";
	CALL 1, 1;
	POP 1;
	EXIT;

@output [-23]");
   DFile (bytes_of "neg_2.noja-test") (bytes_of "@type [runtime]

@bytecode

	PUSHINT -23;
	NEG;

	PUSHVAR ""print"";
	CALL 1, 1;
	POP 1;
	EXIT;

@output [23]");
   DFile (bytes_of "neg_3.noja-test") (bytes_of "@type [runtime]

@bytecode
	
	PUSHFLT 2.3;
	NEG;

	PUSHVAR ""print"";
	CALL 1, 1;
	POP 1;
	EXIT;

@output [-2.30]");
   DFile (bytes_of "neg_4.noja-test") (bytes_of "@type [runtime]

@bytecode
	
	PUSHFLT -2.3;
	NEG;

	PUSHVAR ""print"";
	CALL 1, 1;
	POP 1;
	EXIT;

@output [2.30]")];
  DDir (bytes_of "nlb") [
   DFile (bytes_of "nlb_00.noja-test") (bytes_of "@type [runtime]

@bytecode
	
	PUSHVAR ""int"";
	NLB;

	PUSHVAR ""print"";
	CALL 1, 1;
	POP 1;
	EXIT;

@output [?int]")];
  DDir (bytes_of "not") [
   DFile (bytes_of "not.noja-test") (bytes_of "@type [runtime]

@bytecode
	
	PUSHTRU;
	NOT;

	PUSHVAR ""print"";
	CALL 1, 1;
	POP 1;
	EXIT;

@output [false]");
   DFile (bytes_of "not_2.noja-test") (bytes_of "@type [runtime]

@bytecode
	
	PUSHFLS;
	NOT;

	PUSHVAR ""print"";
	CALL 1, 1;
	POP 1;
	EXIT;

@output [true]")];
  DDir (bytes_of "nql") [
   DFile (bytes_of "float_nql_float_false.noja-test") (bytes_of "@type [runtime]

@bytecode
	PUSHFLT 7.2;
	PUSHFLT 7.2;
	NQL;

	PUSHVAR ""print"";
	CALL 1, 1;
	POP 1;
	EXIT;

@output [false]");
   DFile (bytes_of "float_nql_float_true.noja-test") (bytes_of "@type [runtime]

@bytecode
	PUSHFLT 7.2;
	PUSHFLT 8.4;
	NQL;

	PUSHVAR ""print"";
	CALL 1, 1;
	POP 1;
	EXIT;

@output [true]");
   DFile (bytes_of "float_nql_int.noja-test") (bytes_of "@type [runtime]

@bytecode
	PUSHINT 7;
	PUSHFLT 8.4;
	NQL;

	PUSHVAR ""print"";
	CALL 1, 1;
	POP 1;
	EXIT;

@output [true]");
   DFile (bytes_of "int_nql_int_false.noja-test") (bytes_of "@type [runtime]

@bytecode
	PUSHINT 7;
	PUSHINT 7;
	NQL;

	PUSHVAR ""print"";
	CALL 1, 1;
	POP 1;
	EXIT;

@output [false]");
   DFile (bytes_of "int_nql_int_true.noja-test") (bytes_of "@type [runtime]

@bytecode
	PUSHINT 7;
	PUSHINT 8;
	NQL;

	PUSHVAR ""print"";
	CALL 1, 1;
	POP 1;
	EXIT;

@output [true]")];
  DDir (bytes_of "pos") [
   DFile (bytes_of "pos.noja-test") (bytes_of "@type [runtime]

@bytecode
	
	PUSHINT 23;
	POS;

	PUSHVAR ""print"";
	CALL 1, 1;
	POP 1;
	EXIT;

@output [23]")];
  DDir (bytes_of "push") [
   DFile (bytes_of "pushfls.noja-test") (bytes_of "@type [runtime]

@bytecode
	
	PUSHFLS;

	PUSHVAR ""print"";
	CALL 1, 1;
	POP 1;
	EXIT;

@output [false]");
   DFile (bytes_of "pushflt.noja-test") (bytes_of "@type [runtime]

@bytecode
	
	PUSHFLT 8.5;

	PUSHVAR ""print"";
	CALL 1, 1;
	POP 1;
	EXIT;

@output [8.50]
");
   DFile (bytes_of "pushint.noja-test") (bytes_of "@type [runtime]

@bytecode
	
	PUSHINT 7;

	PUSHVAR ""print"";
	CALL 1, 1;
	POP 1;
	EXIT;

@output [7]
");
   DFile (bytes_of "pushlst.noja-test") (bytes_of "@type [runtime]

@bytecode
	
	PUSHLST 0;

	PUSHVAR ""print"";
	CALL 1, 1;
	POP 1;
	EXIT;

@output {[]}
");
   DFile (bytes_of "pushnne.noja-test") (bytes_of "@type [runtime]

@bytecode
	PUSHNNE;
	PUSHVAR ""print"";
	CALL 1, 1;
	POP 1;
	EXIT;

@output [none]");
   DFile (bytes_of "pushnnetyp.noja-test") (bytes_of "@type [runtime]

@bytecode
	
	PUSHNNETYP;

	PUSHVAR ""print"";
	CALL 1, 1;
	POP 1;
	EXIT;

@output [None]");
   DFile (bytes_of "pushtru.noja-test") (bytes_of "@type [runtime]

@bytecode
	
	PUSHTRU;

	PUSHVAR ""print"";
	CALL 1, 1;
	POP 1;
	EXIT;

@output [true]");
   DFile (bytes_of "pushtyp.noja-test") (bytes_of "@type [runtime]

@bytecode
	
	PUSHTRU;
	PUSHTYP;

	PUSHVAR ""print"";
	CALL 1, 1;
	POP 2;
	EXIT;

@output [bool]")];
  DDir (bytes_of "select") [
   DFile (bytes_of "select_from_list.noja-test") (bytes_of "@type [runtime]

@bytecode
	
	PUSHLST 3;

	PUSHINT 0;
	PUSHSTR ""A"";
	INSERT;

	PUSHINT 1;
	PUSHSTR ""B"";
	INSERT;

	PUSHINT 2;
	PUSHSTR ""C"";
	INSERT;

	PUSHINT 1;
	SELECT;
	
	PUSHVAR ""print"";
	CALL 1, 1;
	POP 1;
	EXIT;

@output [B]");
   DFile (bytes_of "select_from_map.noja-test") (bytes_of "@type [runtime]

@bytecode
	
	PUSHMAP 3;

	PUSHINT 0;
	PUSHSTR ""A"";
	INSERT;

	PUSHINT 1;
	PUSHSTR ""B"";
	INSERT;

	PUSHINT 2;
	PUSHSTR ""C"";
	INSERT;

	PUSHINT 1;
	SELECT;
	
	PUSHVAR ""print"";
	CALL 1, 1;
	POP 1;

	EXIT;

@output [B]");
   DFile (bytes_of "select_from_map_2.noja-test") (bytes_of "@type [runtime]

@bytecode
	
	PUSHMAP 3;

	PUSHINT 0;
	PUSHSTR ""A"";
	INSERT;

	PUSHINT 1;
	PUSHSTR ""B"";
	INSERT;

	PUSHINT 2;
	PUSHSTR ""C"";
	INSERT;

	PUSHINT 8;
	SELECT;
	
	PUSHVAR ""print"";
	CALL 1, 1;
	POP 1;

	EXIT;

@output [none]")];
  DDir (bytes_of "stp") [
   DFile (bytes_of "stp_00.noja-test") (bytes_of "@type [runtime]

@bytecode
	
	PUSHVAR ""int"";
	PUSHVAR ""float"";
	STP;

	PUSHVAR ""print"";
	CALL 1, 1;
	POP 1;
	EXIT;

@output [int | float]")];
  DDir (bytes_of "sub") [
   DFile (bytes_of "float_minus_float.noja-test") (bytes_of "@type [runtime]

@bytecode
	
	PUSHFLT 90.22;
	PUSHFLT 700.39;
	SUB;

	PUSHVAR ""print"";
	CALL 1, 1;
	POP 1;
	EXIT;

@output [-610.17]");
   DFile (bytes_of "float_minus_float_2.noja-test") (bytes_of "@type [runtime]

@bytecode
	
	PUSHFLT -90.22;
	PUSHFLT 700.39;
	SUB;

	PUSHVAR ""print"";
	CALL 1, 1;
	POP 1;
	EXIT;

@output [-790.61]");
   DFile (bytes_of "float_minus_float_3.noja-test") (bytes_of "@type [runtime]

@bytecode
	
	PUSHFLT 90.22;
	PUSHFLT -700.39;
	SUB;

	PUSHVAR ""print"";
	CALL 1, 1;
	POP 1;
	EXIT;

@output [790.61]");
   DFile (bytes_of "float_minus_float_4.noja-test") (bytes_of "@type [runtime]

@bytecode
	
	PUSHFLT -90.22;
	PUSHFLT -700.39;
	SUB;

	PUSHVAR ""print"";
	CALL 1, 1;
	POP 1;
	EXIT;

@output [610.17]");
   DFile (bytes_of "float_minus_int.noja-test") (bytes_of "@type [runtime]

@bytecode
	
	PUSHFLT 90.39;
	PUSHINT 700;
	SUB;

	PUSHVAR ""print"";
	CALL 1, 1;
	POP 1;
	EXIT;

@output [-609.61]");
   DFile (bytes_of "float_minus_int_2.noja-test") (bytes_of "@type [runtime]

@bytecode
	
	PUSHFLT -90.39;
	PUSHINT 700;
	SUB;

	PUSHVAR ""print"";
	CALL 1, 1;
	POP 1;
	EXIT;

@output [-790.39]");
   DFile (bytes_of "float_minus_int_3.noja-test") (bytes_of "@type [runtime]

@bytecode
	
	PUSHFLT 90.39;
	PUSHINT -700;
	SUB;

	PUSHVAR ""print"";
	CALL 1, 1;
	POP 1;
	EXIT;

@output [790.39]");
   DFile (bytes_of "float_minus_int_4.noja-test") (bytes_of "@type [runtime]

@bytecode
	
	PUSHFLT -90.39;
	PUSHINT -700;
	SUB;

	PUSHVAR ""print"";
	CALL 1, 1;
	POP 1;
	EXIT;

@output [609.61]");
   DFile (bytes_of "int_minus_float.noja-test") (bytes_of "@type [runtime]

@bytecode
	
	PUSHINT 90;
	PUSHFLT 700.39;
	SUB;

	PUSHVAR ""print"";
	CALL 1, 1;
	POP 1;
	EXIT;

@output [-610.39]");
   DFile (bytes_of "int_minus_float_2.noja-test") (bytes_of "@type [runtime]

@bytecode
	
	PUSHINT 90;
	PUSHFLT -700.39;
	SUB;

	PUSHVAR ""print"";
	CALL 1, 1;
	POP 1;
	EXIT;

@output [790.39]");
   DFile (bytes_of "int_minus_float_3.noja-test") (bytes_of "@type [runtime]

@bytecode
	
	PUSHINT -90;
	PUSHFLT 700.39;
	SUB;

	PUSHVAR ""print"";
	CALL 1, 1;
	POP 1;
	EXIT;

@output [-790.39]");
   DFile (bytes_of "int_minus_float_4.noja-test") (bytes_of "@type [runtime]

@bytecode
	
	PUSHINT -90;
	PUSHFLT -700.39;
	SUB;

	PUSHVAR ""print"";
	CALL 1, 1;
	POP 1;
	EXIT;

@output [610.39]");
   DFile (bytes_of "int_minus_int.noja-test") (bytes_of "@type [runtime]

@bytecode
	
	PUSHINT 90;
	PUSHINT 700;
	SUB;

	PUSHVAR ""print"";
	CALL 1, 1;
	POP 1;
	EXIT;

@output [-610]");
   DFile (bytes_of "int_minus_int_2.noja-test") (bytes_of "@type [runtime]

@bytecode
	
	PUSHINT -90;
	PUSHINT 700;
	SUB;

	PUSHVAR ""print"";
	CALL 1, 1;
	POP 1;
	EXIT;

@output [-790]");
   DFile (bytes_of "int_minus_int_3.noja-test") (bytes_of "@type [runtime]

@bytecode
	
	PUSHINT 90;
	PUSHINT -700;
	SUB;

	PUSHVAR ""print"";
	CALL 1, 1;
	POP 1;
	EXIT;

@output [790]");
   DFile (bytes_of "int_minus_int_4.noja-test") (bytes_of "@type [runtime]

@bytecode
	
	PUSHINT -90;
	PUSHINT -700;
	SUB;

	PUSHVAR ""print"";
	CALL 1, 1;
	POP 1;
	EXIT;

@output [610]")]]].

(** Every one passes. *)
Example repo_tests_pass : run_dir (fun _ => true) repo_types (bytes_of "tests") repo_tests = DrOk (mktc 253 0 0).
Proof. vm_compute. reflexivity. Qed.
