# Formal model of C-- (tctsigemura/C--) in Rocq

Everything is in `rocq/theories` (logical name `Verif`), Coq 8.16.1, standard library only.
Build: `cd rocq && coq_makefile -f _CoqProject -o Makefile && make -j4`.

## Method

* Model files are total, computable Gallina functions that follow the C (or C--, or TaC
  assembly) source function by function; every definition cites the file and lines of `/repo`
  it models and states its simplifications.
* Specification files (`*Spec.v`, `Word.v`, `ExprSem.v`, `StmtSem.v`, `VM.v`, `ProgGram.v`,
  `CTree.v`) say what the words of the properties mean without using the model's helpers.
* `Properties_*.v` contain the final theorems, named `Cnn_...` after the property, with
  `Print Assumptions` after each and `Example`s that show a concrete, non-trivial case in
  which the hypotheses hold. All other files are models, specifications and lemmas.
* Where the code violates a property, the negation is proved for a concrete witness (suffix
  `_refuted`) beside the strongest true restriction (suffix `_partial` when it is only part of
  the property).
* Undefined behaviour of the C code (out-of-bounds accesses, reads of unset values) is an
  outcome of its own in the models (`PUndef`, `LUndef`, ...), never a default value.
* Calls to code outside the model (the operating system, callees of a function, the memory
  behind references) are record fields or parameters that every theorem quantifies over.

## Trusted base

* Coq's kernel (`coqc`, checked again with `coqchk`).
* Axioms: none of our own. `Print Assumptions` prints "Closed under the global context" for
  every theorem in `Properties_*.v`. `coqchk -o` lists, for the loaded libraries,
  `Coq.ssr.ssrunder.Under_rel.*` (seven constants of the standard library's ssreflect support,
  loaded with `Lia`); no theorem depends on them.
* The correspondence between the text in `/repo` and the Gallina models is by reading. It is
  exercised in `Validation1.v` and `Validation2.v`: for all 53 files of `/repo/Test/c--` the
  text of the model equals, byte for byte, the expected outputs committed there: `IM.Opt`
  (vm2ic.c), `VM.Opt` (vm2vm.c) and `TaC.Opt` (vm2tac.c). `Validation3.v` does the same for
  51 files and `C.Opt` (cCode.c); its header says why two are left out. These are tests, not
  theorems.
* Specifications are trusted as statements: `Word.v` (16-bit arithmetic), `ExprSem.v` and
  `StmtSem.v` (what trees do), `VM.v` (the stack machine of doc/vm.tex), `TacSpec.v` (the TaC
  processor as far as the emitted code uses it; signedness of DIV/MOD and flags are
  parameters), `CSpec.v`, `CDataSpec.v`, `CDeclSpec.v`, `CFileSpec.v` (how C reads a text),
  `CSourceSpec.v` (the C text of a source file), `CIntSpec.v` (the int of C), `CWord.v`, `CExprSem.v`, `CStmtSem.v` (C-- with 32-bit words), the grammar and rules of the manual in
  `ParseSpec.v`, `StmtSpec.v`, `ProgGram.v`, `AsmSpec.v` (how an assembly text is read), and the small specifications of the library.

## What is modelled

| code | model | remarks |
|------|-------|---------|
| `src/lexer.c`, character tests of `src/util.c` | `Lexer.v` | every function; bytes 0..255, two characters of look-ahead |
| `src/main.c`, setFname of `src/util.c` | `Command.v` | the compiler proper is a parameter |
| `src/cm2c.in` | `Driver.v` | after the options; the tools are parameters |
| `src--/lexer.cmm` | `LexerCmm.v` | built with cm2c: int has 32 bits |
| `src/cm2v.in`, `src/cm2i.in` | `DriverVm.v` | after the options; the tools are parameters |
| `src/cm2e.in` | `DriverTac.v` | after the options; the tools are parameters |
| `lib/SrcTac/stdio.cmm` (readDir, _perror) | `LibDir.v` | the results of read are a parameter |
| `lib/SrcTac/wrap-syslib.cmm` | `LibWrap.v` | every function; the kernel is a parameter |
| `src/namtbl.c` | `NameTable.v` | every function; the parallel arrays are one list of entries |
| `src/sytree.c`, `src/sytree.h` | `SyTree.v` (trees), `SyTable.v` (slots of the table) | both views, related in `SyTable*.v` |
| `src/optree.c` | `OpTree.v` on trees, `SyTable.v` in place; `COpTree.v` for the translator's build (`NWORD=32`) | every function |
| `src/parser.c` (build without `_C`) | `Parser.v`, `ParserStmt.v` | every function, with the error exits |
| `src/vmCode.c` | `VmCode.v` (functions), `ParserStmt.v` (data) | every function |
| `src/vm2vm.c`, `src/vm2ic.c` | `VM.v`, `ParserStmt.v` (`printed`), `AsmText.v` | instructions, operand numbers and the text, character by character |
| `src/vm2tac.c` | `Tac.v`, `AsmText.v` | every function; instructions, operands and the text (the mask `#0x00ff` of `vmChr` is written `#255`) |
| `src/cCode.c` (build without `_RTC`), the `_C` build of the parser | `CCode.v`, `CFile.v` | expressions, statements, function bodies; strings, data, prototypes, structures and the file, with the text itself |
| `lib/SrcCmm/string.cmm`, `ctype.cmm` | `LibString.v` | every function, on a byte memory |
| `lib/SrcTac/stdlib.cmm` | `LibStd.v`, `LibHeap.v` | atoi, htoi, rand, srand, malloc, free, calloc, exit |
| `lib/SrcTac/printf.cmm` | `LibPrintf.v` | every function; fputc succeeds |
| `src/cCode.c` (build with `_RTC`) | `RtcCode.v`, `RtcData.v` | expressions, statements, function bodies; declarations, initialisers, strings |
| `lib/SrcC/printf.c`, `lToL` of `lib/SrcC/wrapper.h` | `CPrintf.v` | every function, without _RTC; fputc succeeds |
| `lib/SrcC/wrapper.h`, `wrapper.c` (`_RTC`) | `RtcHeap.v` | checks, allocators, start-up, fgets, getEnv; the other inline wrappers are not modelled |
| `lib/SrcC/wrapper.c` | `CWrapper.v` | htoi, feof, fseek, fsize; not fOpen, absPath and the other calls of the system |
| `lib/SrcTac/stdio.cmm` | `LibStdio.v` | streams |
| `lib/SrcTac/environ.cmm` | `LibEnviron.v` | every function; strings by value |
| `lib/SrcTac/crt0.s` (32-bit helpers) | `LibStd.v` | add32, sub32, mul32, div32, mod32 |

Word size: the 16-bit builds (`NWORD=16`, `NBYTE=8`) for the compiler, 32 bits for constants in
the translator. Not modelled: `src--` (the compiler in C--, a translation of `src`) but for its lexer, `src/vm2h8300hn.c` (its
build rule is commented out), the error texts of `src/util.c`, the
struct and the lines that the trees keep for `_RTC` (parameters of `RtcCode.v`), `sizeof` as the translator prints it, the
preprocessor, the assembler and linker, the operating system.

## Layers that are composed

`lexAll` (C01-C05, C46-C49) -> grammar and rules (C08, C09, C57) -> trees -> optimiser
(C11-C16, C45) -> virtual machine code (C17-C22, C24, C50-C54) -> TaC instructions (C25-C28,
C55). C57 says that the compiler accepts exactly the files of the grammar that obey the rules,
and that the rules leave no choice. C58 goes from the text of a function to the runs of its
code. The tree semantics has one parameter for the cells of locals and one for those of
parameters (`lcl`, `pcl` of `machine`): with the cells given by the numbers the parser hands
out, the tree runs in lockstep with the printed code; C59 says that names in scope together
have different cells. For the C translator: lexer -> grammar and rules -> trees -> 32-bit
optimiser (C66) -> C text of functions, data and the file (C29, C60-C65).

## Findings: properties that the code violates

Each is a theorem with a witness.

| theorem | finding |
|---------|---------|
| `C01_out_of_range` | outside the property's range: the host's int overflows |
| `C03_refuted` | the property fails: a file holding a word of 129 characters |
| `C03_string_refuted` | and one holding a string of 129 characters |
| `C08_line_marker_refuted` | a line marker directly after a number replaces the number: `return 1` followed by `# 5` returns 5 (the marker overwrites the token's value) |
| `C09_comparison_compiled_refuted` | and such programs do compile |
| `C09_comparison_refuted` | The manual asks for equal types when references are compared (chap3.tex, 640); == and != also take a char array against an int array, and two results of void functions. |
| `C10_do_refuted` | with -O a `do` that runs once is unwrapped and its `break` leaves the loop around it |
| `C12_div_chain_refuted` | x/200/200: the product of the divisors overflows, the value changes |
| `C12_div_error_refuted` | x/256/256 is rejected as a division by zero although it always evaluates |
| `C12_div_var_refuted` | x / y / 2 becomes x / 2 / y: for x = -32768 and y = -1 the value changes |
| `C13_effects_lost_refuted` | `f() * 0`, `f() & 0`, `f() \| -1`, `f() % 1`, `f() && false`, `f() \|\| true` lose the call with -O |
| `C14_do_false_refuted` | do { break; } while (false); leaves a break of the enclosing loop |
| `C27_refuted` | an address word in initialised data is printed without regard to its operand, so two different functions give the same word |
| `C28_refuted` | an operand waiting on the translator's stack as a memory or register operand is read after a call or assignment has changed it: `a - f()`, `x - (x = j)` |
| `C29_declaration_refuted` | if (a) { int a; } is printed without the braces: not C |
| `C29_do_break_refuted` | the same with a break: the loop is not left |
| `C29_do_refuted` | do a(); while (b); is printed without a blank after do: C reads the call of a function doa and then an endless loop |
| `C29_else_refuted` | two statements before an else, which the optimiser leaves of if (a) { if (false) ; ; } else ; the text is not C |
| `C29_keyword_refuted` | a variable of C-- may have the name of a keyword of C: not C |
| `C29_minus_refuted` | a - (-5), which the optimiser makes of a - (0 - 5), is printed (a--5), which is not C |
| `C31_strNcpy_manual_refuted` | the manual (chap4.tex, strNcpy) promises up to n characters and no NUL when the source has n or more; the code always stops one character earlier |
| `C33_strStr_self_refuted` | no string is found in itself |
| `C35_wrap_refuted` | a request of 65533 bytes, malloc(-3), wraps to a block of two bytes and is granted |
| `C36_overflow_refuted` | calloc(256, 257): the product wraps to 256 |
| `C36_uncleared_refuted` | calloc(2, 20000): the product is negative as an int and nothing is cleared |
| `C37_ld_refuted` | 2^31 and the '-' flag |
| `C37_signed_division_refuted` | with a machine whose division is signed, `%x` of a negative int and `%d` of -32768 read outside the digit table |
| `C37_zero_pad_refuted` | zero padding goes before the minus sign, so the text is not a numeral any more |
| `C38_div32_refuted` | 7 / 2: the result array holds 2^16 + 3 |
| `C38_mod32_refuted` | 2^31 mod 10000 is 3648, the helper returns something else; likewise a divisor above 2^15 |
| `C38_mul32_refuted` | the upper word is ignored: (2^16) * 1 gives 0 |
| `C39_console_refuted` | a byte written to the console is lost without notice if the console takes fewer bytes than it is given: the result of ttyWrite is not used (stdio.cmm:95, 121) |
| `C40_fgets_refuted` | with n = 1 null is returned although the file is not at its end, and with n = 0 a byte is stored in an array of size 0 |
| `C40_stdin_refuted` | if it gives nothing, a character that was never typed is returned |
| `C41_overwrite_refuted` | overwrite = false overwrites |
| `C41_twice_refuted` | if the environment given to the program has a name twice, unsetEnv uncovers the second value |
| `C42_chdir_refuted` | chDir accepts a path that is not a directory: the attributes it looks at are those of the directory part |
| `C42_size_refuted` | with a buffer of one byte it writes outside |
| `C49_compiled_refuted` | a stray byte is taken for the token with its number: byte 2 compiles as the keyword int, byte 201 as an integer constant with the value of the last constant |
| `C49_stray_byte_refuted` | a stray byte is taken for a reserved word: byte 9 + 2 is white space, but byte 2 is read as int |
| `C54_do_refuted` | with -O `do { if (x) break; } while (false);` outside of a loop jumps to label 0, which is defined nowhere |
| `C55_flags_refuted` | flags left by one comparison are taken for another value: `(a < b) == false`, `if (x = a < b)` |
| `C55_overflow_refuted` | a + b < 0 is decided by the flags of the addition; if they take overflow into account, as those of a comparison must, 20000 + 20000 < 0 is false here and true for the virtual machine |
| `C55_stack_refuted` | `h() + ord(p > q && k())`: the result of h is pushed on one path and popped on both |
| `C56_close_refuted` | A stream whose last bytes could not be delivered can never be closed: fclose fails for ever and keeps its place, so that after five such streams no file can be opened. |
| `C57_comma_refuted` | a parameter list may end in a comma |
| `C60_ambiguous_refuted` | the address of a private object named `L1` is printed like the address of string 1 |
| `C61_label_refuted` | a private name `L1` (in TaC also `T1`) is printed `.L1`, like the labels of the compiler: `int L1; char[] s = "x";` defines `.L1` twice |
| `C61_runtime_refuted` | a public function `_stkChk` is printed `__stkChk`, the name of the run-time function that every function calls first |
| `C61_twice_refuted` | `int a; int a = 3;` is accepted and the label `.a` is printed twice: `WS 1`, then `DW 3` |
| `C62_address_refuted` | addresses in a list are accepted by the compiler, but the translator stops with its message for an internal error (cCode.c:520-522) |
| `C64_clash_refuted` | a global of the program may have the same name as a temporary that the translator invents |
| `C64_keyword_refuted` | an identifier of the program that is a keyword of C is printed unchanged |
| `C64_typedef_refuted` | the translator prints nothing for a typedef, so the C text uses a type name it never declares |
| `C66_builds_differ_refuted` | the compiler and the C translator fold the same expression (256*256) to different constants |
| `C66_div_chain_refuted` | x/65536/65536, which always has a value, makes the translator itself overflow a product |
| `C66_minint_refuted` | x-(-2147483647-1) makes the translator itself negate INT_MIN, which is undefined |
| `C66_overflow_refuted` | x-(y-5) is rewritten to (x+5)-y: the C text can overflow (undefined in C) where the source does not |
| `C68_count_refuted` | printf of the C library returns 0 for "hi": it counts the characters for which fputc returned 0, but fputc returns the character |
| `C68_hex_width_refuted` | printf("%8x", -1) of the C library writes seven blanks too many: the length is taken with signed division, -1/16 is 0 |
| `C68_ld_left_refuted` | printf("%-12ld\|") of 100000005 in the C library writes "1   5       \|": the inner groups are left-justified too |
| `C68_least_int_refuted` | printf("%d", INT_MIN) of the C library negates INT_MIN, which is undefined |
| `C68_zero_pad_refuted` | printf("%05d", -42) of the C library writes 00-42 |
| `C69_fgets_null_refuted` | fgets into null is not reported in the -rtc build. |
| `C69_fgets_refuted` | fgets in the -rtc build only warns when the count is above the length of the buffer, then writes outside of it. |
| `C69_getenv_refuted` | getEnv in the -rtc build frees the string it gave the last time: using the earlier string is undefined and not reported. |
| `C69_negative_refuted` | iMalloc(-1) in the -rtc build allocates 0 bytes and writes the length outside of the block. |
| `C69_size_refuted` | iMalloc(1073741824) in the -rtc build: the size wraps to 4 bytes when it is passed as an int, the length is kept, so the check of index 0 passes and the access is outside of the block. |
| `C70_fseek_refuted` | _fseek sign-extends the low int: for a position whose bit 31 is set, as fsize gives for a file of 2 GB, the position asked for is negative. |
| `C70_htoi_refuted` | htoi of the C translator's library overflows int for numerals of 80000000 and more. |
| `C71_do_refuted` | The missing blank after do (C29_do_refuted) is there with run-time checks too. |
| `C71_quote_refuted` | The -rtc build prints the name of the source file between quotation marks as it is: with a quotation mark in the name the output is not C. |
| `C72_void_refuted` | void[] p = array(3); at file scope is accepted; with run-time checks the translator prints an object of type void, which is not C. |
| `C73_name_refuted` | a source file whose name has 129 bytes or more: setFname reads outside of its array |
| `C73_order_refuted` | The manual asks for options in the order -O0 -O -O1 -K; with -O0 -O the second is taken for the source file |
| `C74_directory_refuted` | cm2c sub/d.cmm never links: cc -c writes d.o to the current directory, the driver links sub/d.o; the status is 0 and d.o is left |
| `C74_lost_refuted` | cm2c a.cmm overwrites and removes an existing file a.c |
| `C74_status_refuted` | cm2c exits with status 0 when linking fails |
| `C75_refuted` | src-- accepts DEL in strings and '\\' followed by a byte above 126, which src refuses; src accepts the byte 255 in comments, which src-- refuses |
| `C77_link_refuted` | cm2e reports success if ld-- fails, and leaves an empty map |
| `C77_lost_refuted` | cm2e overwrites and removes a file a.s beside the source a.cmm |
| `C78_again_refuted` | readDir called again after it has returned 0 at the end mark reads on and reports entries of free space |

## Properties

| id | status | what is proved |
|----|--------|----------------|
| C01 | proved | value and extent of decimal, octal and hexadecimal numerals up to the host's INT_MAX; beyond it the lexer's int overflows (C01_out_of_range) |
| C02 | proved | gaps (white space, newlines, both comments) before a token change only the line; any two layouts of a token sequence lex to the same tokens; unterminated comments are diagnosed |
| C03 | partial | refuted: a word of 129 characters (or a string spelling of that length) writes one byte past the 129-byte buffer; exact outcome by length in C03_word_lengths; safe for files whose lines stay below 64 characters |
| C04 | proved | reserved words, true/false and names told apart for every following text |
| C05 | proved | the spelling handed on means, under any assembler reading of simple escapes, exactly the items of the literal, and its size is their number plus one |
| C06 | proved | the table refines a stack of scopes: for every history of declarations, scope entries and exits a lookup gives the innermost live declaration, and a balanced history restores every lookup |
| C07 | proved | a declaration is refused exactly when it conflicts with a live declaration or the table holds 500 names |
| C08 | partial | For every expression, every parenthesisation and every source text with those tokens; line markers directly after a literal or name are excluded (C08_line_marker_refuted shows why). |
| C09 | partial | Exact characterisation: accepted iff derivable and typed (C09_accepted_typed, C09_typed_accepted). Refuted against the manual for == and != on unequal reference types and void values. |
| C10 | partial | C10_rejected: a file whose (only) reading has a break or continue outside the loops of a function gives no output. C10_while_break/continue, C10_do_break/continue: in the generated code a break goes to the end of its own loop and a continue to its next round, any nesting. Refuted with -O: a do loop with constant false condition is unwrapped and its break leaves the loop around it (C10_do_refuted). |
| C11 | proved | Exact for all operators and all 16-bit operands, including the diagnostics. |
| C12 | partial | Holds for opt_safe expressions; refuted outside them (division chains, lost side effects). |
| C13 | partial | No effect is invented or reordered (all trees); kept on opt_safe trees; refuted for f()*0, f()&0, f()\|0xffff, f()%1, f()&&false, f()\|\|true. |
| C14 | partial | Terminating and diverging runs preserved for sopt_safe statements; refuted for do{break;}while(false). |
| C15 | proved | Invariant by induction on trees, for expressions and statements. |
| C16 | proved | Termination is totality of the Coq functions; size never grows. |
| C17 | proved | Any expression, any program containing its code, any stack and state. Evaluation follows the generator's operand order; equals left-to-right for order_safe expressions. |
| C18 | proved | Value and jump contexts, any nesting. |
| C19 | proved | For expressions whose order-insensitive operators do not combine conflicting side effects (order_safe), all side-effect-free ones included; an example shows the restriction is needed. |
| C20 | partial | Function bodies: terminating, diverging and stopping machine runs. C20_compile_partial composes with the optimiser under its sopt_safe restriction. C20_text_partial carries it to source texts. |
| C21 | proved | Static height assignment for every function, statement and expression, and its consequence for every execution, independent of source semantics (no underflow, caller's stack untouched, nothing left at RET). |
| C22 | proved | For any list of functions whose break/continue are inside loops. |
| C23 | proved | Every initialiser tree within the nesting of the declared dimension; every declaration the parser accepts is such a tree of the declared type. The text-to-tree relation of constant expressions is C09. |
| C24 | proved | Symbolic execution of the expansion for every combination of labels and every value on the stack. |
| C25 | proved | Every instruction sequence the translator accepts: distinct accumulators for distinct entries, busy flags agree, the oldest value is pushed unchanged when an accumulator is taken over. |
| C26 | partial | Multiplication for all operands; division and remainder for all non-negative operands (the signedness of the hardware instructions is a parameter). |
| C27 | partial | Refuted: vmDwName prints the top of an empty stack instead of the object it is given. |
| C28 | partial | Refuted for operands kept by reference (globals, array elements, register locals, parameters) when a call or store changes them before use; holds for code passing the guards. |
| C29 | partial | Model of cCode.c (build without run time checks) for expressions, statements and function bodies. Proved: every expression and body is printed, and the text, divided into tokens by longest match and read with C's precedence grammar (CSpec.v), has exactly one reading, the tree of CTree.v. Needs names that C accepts, 32 bit numbers, no negative number right of a minus sign or left of [] and ->, single statements as bodies and do bodies that do not begin with a letter. Each of these is needed: C29_*_refuted give programs for which the text is not C or is another program. Files: C62 to C64. Missing: sizeof, the _RTC build. |
| C30 | proved | Any memory, any string up to the int range, non-overlapping ranges; frame included. |
| C31 | partial | Exact result and frame of both; strNcpy copies at most n-1 characters, where the manual says n (refuted). |
| C32 | proved | Loop invariants on byte memory, and the order laws from them. |
| C33 | partial | strChr, strRchr exact. strStr finds every occurrence except one at the very end of the string (partial + refutation). |
| C34 | proved | Codes 0..255 (the argument type is char). |
| C35 | partial | All histories of malloc (0..65530 bytes), free and program writes: disjoint, inside, even, contents and stack untouched, free total, unused space always available (merging), double free and unheld addresses rejected. malloc(-5..-1) wraps: refuted. |
| C36 | partial | Cleared and large enough whenever n*s fits an int; refuted when the product is 32768..65535 (nothing cleared) or wraps (too small). |
| C37 | partial | printf/fprintf of any format (%d %x %o %c %s %%, any width and flags): exact text, returned count, memory unchanged; unknown letters exit with EUFMT. For a machine with signed division restricted to non-negative %x/%o and %d <> -32768 (refuted outside). %ld: below 655360000, right-justified (partial, refuted outside; it also overwrites the caller's number). %05d of a negative prints zeros before the sign (refuted). |
| C38 | partial | add32/sub32 exact. mul32 ignores the upper word, div32 stores the remainder in the upper word, div32/mod32 need src <= 2^15 and a bounded upper word: exact under these conditions, refuted outside. |
| C39 | partial | Files: everything written is delivered in order once flushed, closed or at exit, and always a prefix before; console likewise when it takes what it is given. Refuted for a console that takes fewer bytes: the result of ttyWrite is ignored. |
| C40 | partial | Files: bytes returned are a prefix of the file in order, feof is true and fgetc fails exactly when all were returned; fgets cuts them into lines; seek discards the old buffer; keyboard likewise when it never gives nothing. Refuted: fgets with n<=1, and a keyboard read of 0 bytes gives a byte never typed. |
| C41 | partial | Every call sequence from every environment with distinct names behaves as a map; array accesses always inside. Refuted: overwrite=false overwrites, and unsetEnv of a name given twice uncovers the second value. |
| C42 | partial | absPath and chDir for every path, working directory, file system and buffer size >= 2. Refuted: one-byte buffer overrun; chDir accepts a path that is not a directory. |
| C43 | proved | Also full period 65535. |
| C44 | proved | atoi skips everything that is not a digit, including a minus sign (the manual gives no sign syntax). |
| C45 | proved | The table and every in-place edit of optree.c are modelled slot by slot (SyTable.v); the table holds at most one tree at a slot, building from a cleared table gives the tree or the overflow error, the in-place optimiser refines the optimiser on trees with the same errors, no index outside of the table. The parser of the model returns trees: that it creates the nodes parts first, in the order of buildS, is read off parser.c. |
| C46 | proved | placed: every token list returned is a left-to-right division of the file into gaps and tokens with line = 1 + newlines |
| C47 | proved | fuel of the model never runs out; each token but end-of-file consumes text |
| C48 | proved | plain, escaped and numeric character constants |
| C49 | partial | operators and single signs; refuted for stray control bytes, which are returned as keyword codes C49_reserved_partial: in a text of printable ASCII characters and white space a reserved word is one only by its spelling; a program with other bytes compiles (C49_compiled_refuted). |
| C50 | proved | For all pairs of words. |
| C51 | proved | By induction on the text still unread, for the lexer, the parser and the generator together. |
| C52 | proved | Semantic: any run of the parsed body of any accepted function ends with a value iff the function is neither void nor interrupt. |
| C53 | proved | Whole compiler, all nestings. |
| C54 | partial | Without -O for every accepted file. With -O for files without do loops; C54_do_refuted is a file with a do loop whose output jumps to an undefined label (optimiser bug, see C14_do_false_refuted). |
| C55 | partial | For every function passing the check safe (69 of the 72 functions in the repository tests), every machine, memory and callee. The check is not met by all functions: the refutations give source texts that are miscompiled. C55_source_partial and C55_source_optimised_partial go from the text of a function down to the processor; they ask that the run applies ! to 0 or 1 and / and % to non-negative numbers (always so in code without these operators). |
| C56 | partial | Bad pointers, new pointers, directions and buffers for every history; refuted: a stream whose last write failed can never be closed and keeps its slot. |
| C57 | partial | Grammar and rules stated without the parser in ParseSpec.v, StmtSpec.v, ProgGram.v. Line markers directly after a name or literal are excluded (see C08_line_marker_refuted). Refuted against the manual: a comma after the last parameter is accepted. The rules are deterministic: C57_one_outcome, C57_one_type. |
| C58 | proved | C58_function: both directions, the operands of an operator in the order the code takes them; C58_in_order: from left to right where the order cannot matter. For -O see C20_text_partial. |
| C59 | proved | C59_storage, for every place of every body (inQ), with the cells the printed code uses. |
| C60 | partial | For the assembly of the virtual machine and for TaC; the pieces printed are the output of the compiler of C51-C59 (pieces_compile). Hypotheses: numbers are C ints, names identifiers, strings without newline. Names like a label of the compiler make two instructions alike (refuted). |
| C61 | partial | Every label is defined once (names that look like labels aside; with -O in files without do loops, because of C54_do_refuted); every name of the program is defined at most once, except a variable that is both given space and a value. Refuted: such a variable is placed twice, a variable may have the name of a label, a public function may replace a function of the run-time. |
| C62 | partial | Every declaration of every translated file whose scalars are numbers; addresses alone are printed as such. Refuted: a list with addresses is accepted by the compiler but not by the translator. The text is read back for types and names that are identifiers. |
| C63 | proved | Whole files, by induction over the declarations. The strings printed are the ones the parser numbered at that place. |
| C64 | partial | C64_text: every accepted declaration is printed. Refuted as to C: type names of typedef are not declared, names of the program meet those of temporaries or reserved words of C. |
| C65 | proved | C65_source: by induction over the parser and the loop of the translator, for whole files, against a specification stated from the source trees (CSourceSpec.v). Hypothesis unmarked: no line marker stands directly after a name, number, character, string or logical operator, where the lexer has already read on. |
| C66 | partial | Exact folding for all ints (C66_fold_*), constants stay ints, no effect invented, and semantics preserved for opt_safe expressions and sopt_safe statements with wrapping arithmetic. Missing: expressions outside opt_safe (as C12-C14, with refutations) and strict C overflow, where the claim is false (C66_overflow_refuted). sizeof is a constant in the model. |
| C67 | partial | Whole programs of one file, without -O: every call that comes back does so in the linked code, with the same value and memory, recursion and forward declarations included (C67_program; left to right in C67_in_order); each name has one function and the bound of the semantics does not matter. With -O only for bodies on which the optimiser is right (C67_optimised_partial, see C12-C14). Programs that run for ever across calls are not covered here (C58 has the single function). |
| C68 | partial | The text is proved for every format and all arguments (C68_printf_partial, C68_defined_partial) except %d of INT_MIN, %x and %o of a negative number with a width above 1, and %-ld of a number of more than 8 digits, where the library is wrong (refuted). The result is the number of NUL characters written, not of all characters (C68_counted, C68_count_refuted). Unknown conversions end the program (C68_bad_conversion). The stream accepts every character; the _RTC build differs in how strings are passed only. |
| C69 | partial | Every history of operations refines lists of elements, with the messages, for arrays below 2 GB and references that keep their static kind (C69_checked_partial); what is made and what is reported exclude each other (C69_exclusive); main's arguments (C69_start); fgets with a buffer long enough (C69_fgets). Refuted: sizes that wrap (C69_size_refuted, C69_negative_refuted), fgets with a longer count or null (C69_fgets_refuted, C69_fgets_null_refuted), getEnv frees what it gave before (C69_getenv_refuted). void[] references are not covered. |
| C70 | partial | feof, the reading loop and fsize are proved for all inputs. htoi is proved below 2^31 and overflows above (C70_htoi_overflow, C70_htoi_refuted); fseek is proved for a low int without its top bit, otherwise the sign overwrites the high int (C70_fseek_negative, C70_fseek_refuted). That lstat and C's fseek succeed is not modelled. |
| C71 | partial | Every expression and body is printed and read as the program with checks (C71_expression_partial, C71_body_partial) under the conditions of C29 on names, signs and bodies of statements, for file names without quotation marks, and when no string follows an & sign (no well-typed program has one there). Taking the checks out gives the program of C29 (C71_same_program) and nothing is unchecked (C71_all_checked). Refuted: a quotation mark in the name of the file (C71_quote_refuted), do before a letter (C71_do_refuted). Declarations and initialisers of that build: C72. |
| C72 | partial | C72_data_partial: the text for a variable is that of definitions that describe its initialiser, if the scalars in it are numbers (as in C62: the translator has no addresses in lists) and it is not of type void[]. C72_checked: the arrays so defined are, in memory, arrays of their elements as C69 has them; C72_string: strings are. C72_header, C72_struct: declarations. Refuted: void[] with array(..) (C72_void_refuted). The C compiler's layout of an initialised structure with a flexible array (a GNU extension) is in the specification (bytesOf). |
| C73 | partial | C73_command_partial: options in the order -O or -O1, -O0, -K and names of up to 128 bytes; C73_help, C73_other: all other arguments. Refuted: the order of the manual (C73_order_refuted), longer names (C73_name_refuted). The texts of the messages, and output written before an error, are not modelled. |
| C74 | partial | C74_frame, C74_translate, C74_status, C74_failure: all files, flags and tools. C74_objects_partial, C74_build_partial: files of the current directory with different names. Refuted: an error of the linker is not reported (C74_status_refuted), a file a.c beside a.cmm is lost (C74_lost_refuted), sources of other directories are never linked (C74_directory_refuted). Not modelled: options that choose the tools, names with blanks. |
| C75 | partial | C75_ascii: every ASCII text without DEL, in all outcomes; C75_message: with the same message. C75_accepted_partial: every text without the byte 255 that the compiler in C reads. C75_ff: the byte 255 is refused anywhere. Refuted for DEL in strings, escaped bytes above 126 in character constants and the byte 255 in comments (C75_refuted). |
| C76 | proved | All files, tools and file systems. Not modelled: options that choose the tools, names with blanks. |
| C77 | partial | C77_name, C77_frame, C77_translate, C77_status, C77_failure, C77_leftovers: all files, flags and tools. C77_objects, C77_build: files of any directories, no two alike but for the extension. Refuted: an error of the linker is not reported and an empty map is left (C77_link_refuted), a file a.s beside a.cmm is lost (C77_lost_refuted). Not modelled: options that choose the tools, names with blanks. |
| C78 | partial | C78_list: all directories of whole entries. Refuted: a call after the end was reported goes on behind it (C78_again_refuted). Not covered: directories whose last entry is cut short. |
| C79 | proved | All numbers and texts. fprintf with %s is taken to print its argument (C37). |
| C80 | proved | All paths, environments, kernels. The heap is seen as the sequence of cMalloc and free; which errno absPath sets is not modelled. |

The names of the theorems of each property are in `MANIFEST.json`; all are in
`rocq/theories/Properties_*.v`.

## How they are proved

* Lexer: induction on the text; numerals, words and literals against `LexSpec.v`.
* Names: refinement of the table to a stack of scopes over all operation histories.
* Parser: soundness and completeness against the grammar and the typing rules by induction on
  derivations; unambiguity of the grammar through a second, independent reader (`ParseUniq.v`,
  `ProgUniq.v`); determinism of the rules (`RuleDet*.v`).
* Optimiser: preservation of runs by induction on trees; refinement from table slots to trees.
* Code generator: forward simulation and its converse by induction on trees and on the length
  of runs; static stack heights; label invariants.
* TaC back end: invariant of the register and stack bookkeeping, simulation relation between
  the virtual machine and the processor, under a decidable check `safe` that 69 of the 72
  functions of the repository's tests pass.
* C translator: the printed text is divided by longest match and read with a C grammar; the
  reading exists, is unique and is the intended tree.
* Library: loop invariants and frames on byte memory; invariants over all call histories for
  the heap, the streams and the environment.

## Seeded bugs

`seeded/LOG.jsonl` records edits of the model (wrong boundary, missed case, swapped argument,
dropped update), the claim each breaks, the theorems that failed and the theorems tightened
because they did not.
