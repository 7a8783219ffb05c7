{"id": "C01", "title": "Numerals denote their value", "statement": "Reading an integer numeral (decimal, octal with leading 0, hexadecimal with 0x/0X) yields one integer token whose value is the number written in that radix, and the token ends exactly at the first character that is not a digit of the radix.", "quantifier": "every digit string in each radix whose value fits the host int, followed by any character", "why_tests_cant": "Infinitely many numerals and followers; a test fixes a few.", "anchors": ["src/lexer.c:getDigit", "src/lexer.c:getHex", "src/lexer.c:getOct", "src/lexer.c:getDec"]}
{"id": "C02", "title": "White space and comments are invisible", "statement": "Inserting white space, a /* */ comment or a // comment between two tokens does not change the token sequence; every terminated block comment is skipped to its first */ and no further; an unterminated one is rejected.", "quantifier": "every source text and every comment body", "why_tests_cant": "Comment bodies range over all strings, including nested openers and runs of stars.", "anchors": ["src/lexer.c:skipSpace", "src/lexer.c:skipCom", "src/lexer.c:skipCppCom", "src/lexer.c:skipToEol"]}
{"id": "C03", "title": "The lexer never writes outside its token buffer", "statement": "For every input file, reading tokens either succeeds or stops with a diagnostic; it never stores past the end of the fixed-size spelling buffer.", "quantifier": "every byte sequence given as source file", "why_tests_cant": "Memory safety over all inputs; the failing inputs are exact-length boundary cases.", "anchors": ["src/lexer.c:getWord", "src/lexer.c:getStr", "src/lexer.c:getSharp", "src/lexer.c:putOctStr", "src/util.h:StrMAX"]}
{"id": "C04", "title": "Words are read whole, keywords exactly", "statement": "A maximal run of letters, digits and underscores starting with a letter or underscore is one token: the reserved word's token if and only if its spelling is exactly a reserved word, otherwise a name token carrying exactly the spelling.", "quantifier": "every identifier spelling up to the length limit and every following delimiter", "why_tests_cant": "Unbounded set of spellings; prefix and suffix collisions with 25 reserved words.", "anchors": ["src/lexer.c:getWord", "src/lexer.c:rsvWord", "src/util.c:isDelim"]}
{"id": "C05", "title": "String literals keep their bytes and their size", "statement": "A string literal's emitted spelling denotes exactly the bytes the literal denotes, and the reported size is that number of bytes plus one for the terminator, whatever mix of plain characters, \\c, octal and hexadecimal escapes is used.", "quantifier": "every well-formed string literal that fits the buffer", "why_tests_cant": "Escapes compose with following digits in unboundedly many ways.", "anchors": ["src/lexer.c:getStr", "src/lexer.c:getHexStr", "src/lexer.c:getOctStr", "src/lexer.c:putOctStr"]}
{"id": "C06", "title": "Names resolve to the innermost live declaration", "statement": "Looking a name up returns the most recently declared entry with that spelling among those still in scope; leaving a scope restores exactly the resolution in force before it; names of retired prototypes' parameters and struct fields are never returned.", "quantifier": "every history of declarations, scope exits and lookups", "why_tests_cant": "Holds over all histories of an append/truncate table.", "anchors": ["src/namtbl.c:ntSrcName", "src/namtbl.c:ntDefName", "src/namtbl.c:ntUndefName", "src/namtbl.c:ntSetVoid"]}
{"id": "C07", "title": "Double definitions are rejected", "statement": "Declaring a local twice in overlapping scopes, a local that repeats a parameter, two parameters or two fields of one list with one name, or anything colliding with a struct name is diagnosed; a declaration is refused only in those cases (or when the table is full).", "quantifier": "every sequence of declarations", "why_tests_cant": "Completeness and soundness of a check over all histories.", "anchors": ["src/namtbl.c:ntChkName", "src/namtbl.c:ntDefName"]}
{"id": "C08", "title": "Operator precedence and associativity", "statement": "Every expression text is parsed to the tree dictated by the language's precedence table: a fully or minimally parenthesised printing of any tree parses back to that tree.", "quantifier": "every expression tree of any depth", "why_tests_cant": "Round trip over all trees; tests cover a few operator pairs.", "anchors": ["src/parser.c:getExpr", "src/parser.c:getUnary", "src/parser.c:getPostOP"]}
{"id": "C09", "title": "Accepted expressions are type-correct", "statement": "If the compiler accepts an expression, every operator in it is applied to operands of the types the language allows, every call passes as many arguments as declared with compatible types, and only variables, array elements and fields are assigned to.", "quantifier": "every expression and every name table", "why_tests_cant": "Type soundness quantifies over all programs.", "anchors": ["src/parser.c:chkType", "src/parser.c:chkParam", "src/parser.c:getExpr"]}
{"id": "C10", "title": "break and continue only inside loops", "statement": "A program in which break or continue occurs outside any loop body of its function is rejected, and inside a loop they refer to the innermost enclosing loop.", "quantifier": "every function body of any nesting", "why_tests_cant": "All nestings.", "anchors": ["src/parser.c:getStat", "src/vmCode.c:genBrk", "src/vmCode.c:genCnt"]}
{"id": "C11", "title": "Constant folding equals run-time arithmetic", "statement": "Folding an operator applied to constants gives exactly the 16-bit word the virtual machine computes for the same operands, for all unary, arithmetic, shift, bitwise, comparison and logical operators; division by a constant zero and shifts outside 0..15 are diagnosed.", "quantifier": "all operators and all 16-bit operand values", "why_tests_cant": "2^32 operand pairs per operator.", "anchors": ["src/optree.c:calExp", "src/optree.c:optAdd", "src/optree.c:optDiv", "src/optree.c:optShl"]}
{"id": "C12", "title": "The optimiser preserves expressions", "statement": "Evaluating the optimised expression gives the same value and the same side effects as the original, whenever the original evaluates without a trap.", "quantifier": "every well-typed expression of any shape and every state", "why_tests_cant": "Rewriting composes arbitrarily; needs induction over trees.", "anchors": ["src/optree.c:optExp", "src/optree.c:moveLeft", "src/optree.c:pullTree", "src/optree.c:moveCnst", "src/optree.c:calExp"]}
{"id": "C13", "title": "The optimiser never discards a side effect", "statement": "No call or assignment of the source expression disappears from the optimised one unless it is in an operand that short-circuit evaluation never reaches.", "quantifier": "every expression", "why_tests_cant": "Needs all trees; the violating shapes are rare constants.", "anchors": ["src/optree.c:optMul", "src/optree.c:optBAnd", "src/optree.c:optAnd", "src/optree.c:optOr", "src/optree.c:optMod"]}
{"id": "C14", "title": "The optimiser preserves statements", "statement": "Optimising a function body does not change which statements are executed, including loops with constant conditions and break/continue inside them.", "quantifier": "every statement tree and every run", "why_tests_cant": "Loops run for unbounded numbers of steps.", "anchors": ["src/optree.c:optTree", "src/optree.c:optIf", "src/optree.c:optEls", "src/optree.c:optWhl", "src/optree.c:optDo"]}
{"id": "C15", "title": "Optimised constants stay in range", "statement": "Every constant in an optimised tree is a machine word (0..65535), so the emitted assembly never contains an out-of-range immediate.", "quantifier": "every tree", "why_tests_cant": "Intermediate negation is done without masking; only an invariant over all trees rules leaks out.", "anchors": ["src/optree.c:calExp", "src/optree.c:normSub"]}
{"id": "C16", "title": "Optimisation is stable", "statement": "The optimiser terminates on every tree and never grows it.", "quantifier": "every tree", "why_tests_cant": "Termination.", "anchors": ["src/optree.c:pullTree", "src/optree.c:moveCnst"]}
{"id": "C17", "title": "Generated expression code computes the expression", "statement": "Running the generated stack code from any state leaves exactly the expression's value on top of the unchanged stack and performs exactly its side effects.", "quantifier": "every well-formed expression, every stack and every state", "why_tests_cant": "Compiler correctness over all expressions.", "anchors": ["src/vmCode.c:genExpr", "src/vmCode.c:gen2OpExpr", "src/vmCode.c:genCmpExpr", "src/vmCode.c:genFactor"]}
{"id": "C18", "title": "Short-circuit evaluation", "statement": "In a&&b (a||b) the right operand is evaluated if and only if the left one is true (false), at every nesting and under every negation, both for values and for conditional jumps.", "quantifier": "every tree of && || and ! of any depth", "why_tests_cant": "Label threading over arbitrary trees.", "anchors": ["src/vmCode.c:genLogExpr", "src/vmCode.c:genLOpExpr", "src/vmCode.c:genCnd"]}
{"id": "C19", "title": "Operand reordering is harmless", "statement": "The generator evaluates the right operand first only for operators whose result does not depend on operand order (comparisons are mirrored), so the value of every side-effect-free expression is independent of the order chosen.", "quantifier": "every expression and state", "why_tests_cant": "All trees.", "anchors": ["src/vmCode.c:isCommutativeOp", "src/vmCode.c:evalDepth", "src/vmCode.c:gen2OpExpr", "src/vmCode.c:genCmpExpr"]}
{"id": "C20", "title": "Statements run as written", "statement": "Running the code generated for if/else, while, do-while, for, break, continue, return and blocks has the effect of the source statement: same final state, same return value, and non-termination only if the source does not terminate.", "quantifier": "every statement tree, every state, every number of loop iterations", "why_tests_cant": "Unbounded iterations.", "anchors": ["src/vmCode.c:genIf", "src/vmCode.c:genEls", "src/vmCode.c:genWhl", "src/vmCode.c:genDo", "src/vmCode.c:genRet", "src/vmCode.c:traceTree"]}
{"id": "C21", "title": "The evaluation stack is balanced", "statement": "Every statement leaves the stack height unchanged on every path, and every expression raises it by exactly one (zero for a void call).", "quantifier": "every statement and every path", "why_tests_cant": "All paths, including jumps out of short-circuit code.", "anchors": ["src/vmCode.c:traceTree", "src/vmCode.c:pop", "src/vmCode.c:genCommExpr"]}
{"id": "C22", "title": "Labels are unique and defined", "statement": "In the code of a function every label is placed at most once and every jump target is placed exactly once; labels of different functions never coincide.", "quantifier": "every function body", "why_tests_cant": "Label numbering is global mutable state.", "anchors": ["src/vmCode.c:newLab", "src/vmCode.c:genFunc", "src/vmCode.c:genLogExpr", "src/vmCode.c:genRet"]}
{"id": "C23", "title": "Initialised data has the declared layout", "statement": "The data directives generated for a global initialiser lay out exactly the elements of the initialiser, in order, with the element width of its type, and nested arrays and structs are reached through the emitted labels.", "quantifier": "every initialiser tree", "why_tests_cant": "All nested initialisers.", "anchors": ["src/vmCode.c:genData", "src/vmCode.c:genArray", "src/vmCode.c:genList", "src/vmCode.c:genDW"]}
{"id": "C24", "title": "BOOLOR/BOOLAND expansions are right", "statement": "The expansion of the BOOLOR and BOOLAND macro instructions pushes 1, 0 or leaves the fall-through value exactly according to which label was reached.", "quantifier": "every use of the macros, each of the labels present or absent, every state", "why_tests_cant": "All eight label combinations in every context.", "anchors": ["src/vm2vm.c:vmBoolOR", "src/vm2vm.c:vmBoolAND"]}
{"id": "C25", "title": "TaC: no register is used for two live values", "statement": "While translating any instruction sequence, distinct live stack entries held in accumulators are in distinct accumulators, and a value is never lost when an accumulator is taken over.", "quantifier": "every VM instruction sequence the generator can emit", "why_tests_cant": "State invariant over all sequences.", "anchors": ["src/vm2tac.c:allocAcc", "src/vm2tac.c:freeAcc", "src/vm2tac.c:pushStk", "src/vm2tac.c:loadStk"]}
{"id": "C26", "title": "TaC: strength reduction is exact", "statement": "Replacing multiplication, division and remainder by powers of two with shifts and masks gives the same result for every operand.", "quantifier": "all 16-bit operands and all powers of two", "why_tests_cant": "Sign cases.", "anchors": ["src/vm2tac.c:vmMul", "src/vm2tac.c:vmDiv", "src/vm2tac.c:vmMod", "src/vm2tac.c:isPower2"]}
{"id": "C27", "title": "TaC: initialisers refer to the named object", "statement": "A data word initialised with the address of a global object refers to that object.", "quantifier": "every name table index", "why_tests_cant": "Index is ignored by the code.", "anchors": ["src/vm2tac.c:vmDwName"]}
{"id": "C28", "title": "TaC: a variable operand keeps the value it had", "statement": "When an operand has been pushed, later code (a call or a store) does not change the value the pending operand denotes.", "quantifier": "every expression with effects", "why_tests_cant": "Lazy loads interact with every later instruction.", "anchors": ["src/vm2tac.c:vmLdGlb", "src/vm2tac.c:vmCallF", "src/vm2tac.c:vmStGlb"]}
{"id": "C29", "title": "C translator output keeps the expression's structure", "statement": "The C text printed for an expression, read with C's grammar, is the same operator tree.", "quantifier": "every expression tree", "why_tests_cant": "All trees.", "anchors": ["src/cCode.c"]}
{"id": "C30", "title": "String copy and length", "statement": "strLen returns the number of bytes before the first NUL; strCpy and strCat produce exactly the source bytes (appended to the destination's) followed by NUL and touch no byte outside that range.", "quantifier": "all memories, all strings of any length, non-overlapping ranges", "why_tests_cant": "Unbounded lengths and frames.", "anchors": ["lib/SrcCmm/string.cmm:strCpy", "lib/SrcCmm/string.cmm:strCat", "lib/SrcCmm/string.cmm:strLen"]}
{"id": "C31", "title": "Bounded string copy and append", "statement": "strNcpy/strNcat never write more than the bound allows, and produce the documented prefix.", "quantifier": "all strings, all bounds", "why_tests_cant": "Unbounded.", "anchors": ["lib/SrcCmm/string.cmm:strNcpy", "lib/SrcCmm/string.cmm:strNcat"]}
{"id": "C32", "title": "String comparison is lexicographic", "statement": "strCmp (strNcmp) is zero iff the strings (their first n bytes) are equal, and otherwise has the sign of the first differing byte; it is a total order.", "quantifier": "all pairs of strings", "why_tests_cant": "Order axioms quantify over all triples.", "anchors": ["lib/SrcCmm/string.cmm:strCmp", "lib/SrcCmm/string.cmm:strNcmp"]}
{"id": "C33", "title": "String search", "statement": "strChr/strRchr return the first/last position of the byte, or -1/not found exactly when absent; strStr returns the first occurrence of a substring, or not found exactly when it does not occur.", "quantifier": "all strings and patterns", "why_tests_cant": "Unbounded; boundary at the last possible position.", "anchors": ["lib/SrcCmm/string.cmm:strChr", "lib/SrcCmm/string.cmm:strRchr", "lib/SrcCmm/string.cmm:strStr"]}
{"id": "C34", "title": "Character classes", "statement": "The ctype predicates partition the ASCII codes as documented and toLower/toUpper are mutually inverse on letters and the identity elsewhere.", "quantifier": "all 256 codes and beyond", "why_tests_cant": "Stated for all int arguments.", "anchors": ["lib/SrcCmm/ctype.cmm"]}
{"id": "C35", "title": "Heap blocks never overlap", "statement": "Blocks returned by malloc and not yet freed are pairwise disjoint, lie inside the heap, are even-aligned and at least as large as requested; free makes the space available again and merges neighbours.", "quantifier": "every history of malloc and free calls with any sizes", "why_tests_cant": "Histories of any length.", "anchors": ["lib/SrcTac/stdlib.cmm:malloc", "lib/SrcTac/stdlib.cmm:free", "lib/SrcTac/stdlib.cmm:_stdlibInit"]}
{"id": "C36", "title": "calloc clears what it returns", "statement": "A block from calloc(n,s) has room for n*s bytes and all of them are zero.", "quantifier": "all n and s", "why_tests_cant": "Overflow of n*s.", "anchors": ["lib/SrcTac/stdlib.cmm:calloc"]}
{"id": "C37", "title": "Number formatting", "statement": "Printing an int with %d, %x, %o or %u produces the numeral of the value in that radix, padded to the width with blanks or zeros as requested; reading it back gives the value.", "quantifier": "all 16-bit values, all widths", "why_tests_cant": "65536 values times widths times flags.", "anchors": ["lib/SrcTac/printf.cmm:putNum", "lib/SrcTac/printf.cmm:sPutNum", "lib/SrcTac/printf.cmm:uPutNum", "lib/SrcTac/printf.cmm:conv16"]}
{"id": "C38", "title": "32-bit arithmetic helpers", "statement": "The 32-bit add, subtract, multiply, divide and remainder helpers return the mathematical result modulo 2^32 (quotient and remainder of unsigned division).", "quantifier": "all 32-bit operands", "why_tests_cant": "2^64 pairs.", "anchors": ["lib/SrcTac/crt0.s:_add32", "lib/SrcTac/crt0.s:_sub32", "lib/SrcTac/crt0.s:_mul32", "lib/SrcTac/crt0.s:_div32", "lib/SrcTac/crt0.s:_mod32"]}
{"id": "C39", "title": "Output streams deliver every byte once, in order", "statement": "The bytes delivered to the file by any sequence of fputc/fputs/fflush/fclose are exactly the bytes written, in order, once flushed or closed, however the calls are interleaved with buffer boundaries.", "quantifier": "every history of stream operations", "why_tests_cant": "Histories of any length.", "anchors": ["lib/SrcTac/stdio.cmm:fputc", "lib/SrcTac/stdio.cmm:fflush", "lib/SrcTac/stdio.cmm:fclose"]}
{"id": "C40", "title": "Input streams deliver every byte once, in order", "statement": "Successive fgetc calls return the file's bytes in order, then EOF forever, and fgets returns lines without losing or duplicating bytes.", "quantifier": "every file content and every chunking of reads", "why_tests_cant": "All chunkings.", "anchors": ["lib/SrcTac/stdio.cmm:fgetc", "lib/SrcTac/stdio.cmm:fillBuf", "lib/SrcTac/stdio.cmm:fgets"]}
{"id": "C41", "title": "Environment variables", "statement": "After setEnv(k,v) getEnv(k) is v and every other variable is unchanged; unsetEnv(k) removes exactly k; with overwrite false an existing variable is left alone.", "quantifier": "every environment and every history", "why_tests_cant": "Histories.", "anchors": ["lib/SrcTac/environ.cmm:getEnv", "lib/SrcTac/environ.cmm:setEnv", "lib/SrcTac/environ.cmm:unsetEnv", "lib/SrcTac/environ.cmm:putEnv"]}
{"id": "C42", "title": "Path normalisation", "statement": "absPath turns any path into an absolute one without '.', '..' or doubled slashes that names the same file.", "quantifier": "every path and working directory", "why_tests_cant": "All path strings.", "anchors": ["lib/SrcTac/environ.cmm:absPath", "lib/SrcTac/environ.cmm:delDotDir", "lib/SrcTac/environ.cmm:delDotDotDir", "lib/SrcTac/environ.cmm:oneSlash"]}
{"id": "C43", "title": "rand never gets stuck", "statement": "From every non-zero seed the generator's state never becomes zero, no two states have the same successor, and the returned value is in the documented range.", "quantifier": "all 65535 states and any number of calls", "why_tests_cant": "Unbounded calls.", "anchors": ["lib/SrcTac/stdlib.cmm:rand", "lib/SrcTac/stdlib.cmm:srand"]}
{"id": "C44", "title": "Number parsing", "statement": "atoi and htoi return the value of the decimal (hexadecimal) numeral in the string modulo 2^16.", "quantifier": "every string", "why_tests_cant": "Unbounded strings.", "anchors": ["lib/SrcTac/stdlib.cmm:atoi", "lib/SrcTac/stdlib.cmm:htoi"]}
{"id": "C45", "title": "The syntax-tree table is a faithful tree", "statement": "Building nodes in the index-based table and concatenating statements yields exactly the intended tree; the optimiser's in-place edits keep the table a tree, and overflow of the table is diagnosed.", "quantifier": "every sequence of node creations and edits", "why_tests_cant": "In-place pointer surgery over all shapes.", "anchors": ["src/sytree.c:syNewNode", "src/sytree.c:syCatNode", "src/optree.c:copyNode", "src/optree.c:pullTree"]}
{"id": "C46", "title": "Line numbers of tokens", "statement": "For every source file the line number reported with each token is one plus the number of newlines before the token, except that a line marker left by the preprocessor (# n \"file\") sets the number of the following line to n.", "quantifier": "every source text (any bytes, any mixture of comments, line markers, strings) that the lexer accepts", "why_tests_cant": "the line counter is advanced in several places and must stay right after any sequence of comments, newlines and markers", "anchors": ["src/lexer.c: lxGetTok, lxGetLn, getCh, getSharp, skipSpace"]}
{"id": "C47", "title": "The lexer terminates on every input", "statement": "For every file, including unfinished comments, strings and binary data, reading tokens ends after finitely many steps in the end-of-file token or a diagnostic, and each token but the last consumes at least one character.", "quantifier": "every byte sequence", "why_tests_cant": "a scanner that loops at end of file on some unfinished construct hangs only on that input", "anchors": ["src/lexer.c: lxGetTok, skipSpace, skipCom, getStr, getChar0"]}
{"id": "C48", "title": "Character constants", "statement": "A character constant has the code of the quoted character; a simple escape has the code the manual lists; \\ooo and \\xhh have the value of the digits; the token ends at the closing quote.", "quantifier": "every character, every escape, every digit string of legal length", "why_tests_cant": "escape decoding has a case per letter and a bounded digit loop; 256 characters times followers", "anchors": ["src/lexer.c: getChar0, getEsc"]}
{"id": "C49", "title": "Operators are read longest first", "statement": "Every two- and three-character operator is read as one token wherever its characters stand together, every other printable sign is a token of its own, and no other byte produces the token of a keyword or operator.", "quantifier": "every operator, every text following it, every byte", "why_tests_cant": "depends on what follows each sign character", "anchors": ["src/lexer.c: getSign, lxGetTok"]}
{"id": "C50", "title": "Unsigned comparison", "statement": "_uCmp (and _aCmp, the same code) returns 1, 0 or -1 according as the first word, read as an unsigned number, is greater than, equal to or less than the second.", "quantifier": "every pair of words", "why_tests_cant": "2^32 pairs, with the interesting ones on either side of 32768", "anchors": ["lib/SrcTac/crt0.s: __uCmp, __aCmp"]}
{"id": "C51", "title": "The compiler terminates on every input", "statement": "For every file and every combination of the -O and -K options the compiler comes to an end: it writes its output, or it reports an error, or it reaches one of the listed accesses outside its own tables; it never loops on an unfinished or malformed text.", "quantifier": "every byte sequence, every option setting", "why_tests_cant": "a parser loop that waits for a token that never comes hangs only on the inputs that end in that loop", "anchors": ["src/parser.c: psGetSrc, getBlock, getCall, getPrms, getStruct, getInitList0", "src/lexer.c: lxGetTok"]}
{"id": "C52", "title": "Functions end as their type says", "statement": "In every accepted file a function declared with a result type never runs off its end: however its body runs, if it ends it ends in a return with a value; a void or interrupt function never returns a value.", "quantifier": "for every source file the compiler accepts, with and without -O and -K, every function in it and every run of its body", "why_tests_cant": "Acceptance is decided from the last statement parsed; a test sees one control-flow shape, the property covers all of them and all inputs.", "anchors": ["src/parser.c:getFunc", "src/parser.c:getReturn", "src/parser.c:getBlock"]}
{"id": "C53", "title": "Local and parameter operands stay in the frame", "statement": "In the code of every accepted file each local-variable operand lies between 1 and the frame size reserved by the entry instruction of its function, and each parameter operand between 1 and the number of parameters of the function.", "quantifier": "for every source file the compiler accepts, all nestings of blocks and declarations", "why_tests_cant": "The frame size is a running maximum over block exits; only an invariant over all nestings shows no operand can lie outside.", "anchors": ["src/parser.c:getBlock", "src/parser.c:getLVars", "src/parser.c:getFunc", "src/vm2ic.c:vmLdLoc"]}
{"id": "C54", "title": "The output links", "statement": "In the whole output of an accepted file - strings, initialised data and all functions - every label is defined at most once and every label used is defined.", "quantifier": "for every source file the compiler accepts", "why_tests_cant": "Labels are numbered across parser, data generator and code generator; clashes depend on the combination and order of constructs in the file.", "anchors": ["src/vmCode.c:newLab", "src/vmCode.c:genData", "src/vmCode.c:genFunc", "src/parser.c:getFactor"]}
{"id": "C55", "title": "TaC code computes what the virtual machine code computes", "statement": "When a function compiled for the virtual machine returns, the TaC code made from the same instructions returns too, with the same result and the same global effects, and gives the caller its registers and stack back.", "quantifier": "for every accepted source file, every function in it, every initial memory and every callee", "why_tests_cant": "The translator keeps operands pending in registers, flags and on the stack; whether the choice is right depends on the combination of pending operands, jumps and calls, and on operand values.", "anchors": ["src/vm2tac.c:vmEntry", "src/vm2tac.c:vmBopReg", "src/vm2tac.c:vmJF", "src/vm2tac.c:vmCallF", "src/vm2tac.c:vmRet"]}
{"id": "C56", "title": "Stream pointers", "statement": "A pointer is accepted by the stream functions exactly while its stream is open: fopen returns a pointer that is not open, fclose gives it up, any other pointer ends the program with the bad-pointer code and touches nothing; using a stream in the wrong direction ends the program; no call reads or writes outside a buffer.", "quantifier": "for every sequence of stream calls with any arguments and every behaviour of the operating system", "why_tests_cant": "Slots and buffers are reused; stale pointers, failing writes and short reads can come in any order.", "anchors": ["lib/stdio.cmm:fopen", "lib/stdio.cmm:fclose", "lib/stdio.cmm:fputc", "lib/stdio.cmm:fgetc"]}
{"id": "C57", "title": "The source files of the language are those compiled", "statement": "The compiler writes an output for a file exactly if the file is a source file of the language's grammar that obeys its rules (declarations, scopes, types, constants, returns, loops), the output is the one the rules give, and a text has one reading only, however it is laid out.", "quantifier": "for every file and every choice of -O and -K", "why_tests_cant": "Files, nestings and combinations of declarations are unlimited, and that no wrong file is accepted cannot be seen from the files tried.", "anchors": ["src/parser.c:psGetSrc", "src/parser.c:getStat", "src/parser.c:getFunc", "src/parser.c:getStruct", "src/parser.c:getGVar"]}
{"id": "C58", "title": "The code of a function does what its source text says", "statement": "When the compiler accepts a source file, then for every function definition in it the code written under the function's name behaves like the function's body as the text has it: if the body ends, the code reaches its return instruction with the same values in the variables and in memory and with the returned value in the result register, leaving the caller's operands and arguments alone; if the body runs for ever, so does the code; and when the code has stopped, the body has ended the same way or had no defined meaning.", "quantifier": "every source text the compiler accepts without -O, every function in it, every machine (memory, callees, addresses), every initial state, every terminating or endless run", "why_tests_cant": "A test compiles a few files and runs them on a few inputs; the claim is about all texts, all inputs and all callees, including runs that never end.", "anchors": ["src/parser.c:psGetSrc", "src/parser.c:getFunc", "src/parser.c:getStat", "src/sytree.c", "src/vmCode.c:genFunc", "src/namtbl.c", "src/vm2ic.c:vmLdLoc"]}
{"id": "C59", "title": "Variables that are in scope together have storage of their own", "statement": "At every place of a function body, the local variables in scope are kept in different cells, all of them inside the frame that the function's entry instruction reserves, and the parameters in different arguments; only variables whose scopes do not overlap can share a cell.", "quantifier": "every source text the compiler accepts (with or without -O, -K), every function in it, every place in its body (between statements, inside nested blocks and loops, between the variables of a declaration), every pair of names in scope there", "why_tests_cant": "Scopes can be nested and follow each other in unboundedly many ways; an overlap shows only for some nesting and some pair of variables.", "anchors": ["src/parser.c:curCnt", "src/parser.c:getFunc", "src/namtbl.c:ntDefName", "src/namtbl.c:ntSetVoid", "src/vmCode.c:genFunc"]}
{"id": "C60", "title": "The assembly text can be read back", "statement": "When the compiler accepts a source file and prints assembly (of the virtual machine or of TaC), a reader who cuts the text into lines, labels, operations and comma-separated operands gets back exactly the instructions and data that were generated, in order and with the same numbers, names, labels and strings; and two different instructions are never printed alike.", "quantifier": "every source text the compiler accepts, with or without -O and -K, whose numbers fit a C int; every line of the output; every pair of instructions", "why_tests_cant": "The text depends on every number, name and string of the program; a missing separator, a wrong sign or a name taken from a table that has changed meanwhile shows only for some of them.", "anchors": ["src/vm2vm.c", "src/vm2ic.c", "src/vm2tac.c", "src/namtbl.c:ntGetName", "src/parser.c:getFunc", "src/parser.c:getGVar"]}
{"id": "C61", "title": "The text defines every symbol it uses once", "statement": "In the assembly text of an accepted file no symbol is defined twice: neither a label made by the compiler, nor a name of the program; labels made by the compiler that are used are defined; and names of the program do not meet those of labels or of the run-time.", "quantifier": "every source text the compiler accepts; every symbol in the text", "why_tests_cant": "Two definitions of one symbol appear only for some combinations of declarations and names; a test shows the absence in one file.", "anchors": ["src/vmCode.c:newLab", "src/vmCode.c:genData", "src/vmCode.c:genBss", "src/parser.c:getGVar", "src/vm2tac.c:vmNam", "src/vm2tac.c:vmEntry"]}
{"id": "C62", "title": "Initialised data in the C text", "statement": "When the C translator accepts a file, the C definitions it prints for an initialised global variable have agreeing C types and describe the initialiser that was written: the same numbers, strings, lists, structures and arrays, in the same order and nesting, through temporaries that are defined before they are used; and the text of these definitions reads back as them.", "quantifier": "every source text the translator accepts, every initialised variable in it, every nesting, dimension and size", "why_tests_cant": "Initialisers nest without bound, and number, type and order of the temporaries depend on the whole tree; a test shows one tree.", "anchors": ["src/cCode.c:genData", "src/cCode.c:printList", "src/cCode.c:printList1", "src/cCode.c:printList2", "src/cCode.c:printArray", "src/cCode.c:printArray0", "src/parser.c:getGVar"]}
{"id": "C63", "title": "Strings and temporaries of the C text", "statement": "In the C text of a translated file every string constant and every temporary that the translator makes up is defined exactly once, numbered from 0 in the order of the text, a string is defined before the function or variable that uses it and with the characters that were written at that place, and no two of the made-up names are equal.", "quantifier": "every source text the translator accepts, with or without -O and -K, included headers among them; every string constant and initialiser in it", "why_tests_cant": "The numbers run through the whole file and depend on all declarations before, on headers whose output is suppressed and on strings the optimiser removes.", "anchors": ["src/cCode.c:genStr", "src/cCode.c:genData", "src/cCode.c:genFunc", "src/cCode.c:genDirect", "src/cCode.c:newTmp", "src/parser.c:getFunc"]}
{"id": "C64", "title": "What is translated is printed as C", "statement": "Every declaration of a file that the translator accepts is printed, and the printed text is a C file: the types it names are declared, no name is defined twice and no name is a word reserved in C.", "quantifier": "every source text the translator accepts", "why_tests_cant": "The names come from the program: a test uses the names its author thought of.", "anchors": ["src/cCode.c", "src/parser.c:getProg", "src/parser.c:getStruct"]}
{"id": "C65", "title": "The C text of a source file", "statement": "The C text of a file that is translated consists of the text of its declarations in their order: a structure as a typedef and a struct with its members in order, a variable once with its C type, static unless public, and with its initial value, a prototype or function with its C header, its strings before it and its body after it; a reference of n dimensions is written with n asterisks, a structure with one more, boolean as char. Of what comes from a system header only one include line for the header is printed.", "quantifier": "every source text the translator accepts, with or without -O and -K, any number of declarations and line markers", "why_tests_cant": "Every declaration is printed from the name table as it is at that moment, which depends on all declarations before it; a test compares the text of the few files its author wrote.", "anchors": ["src/cCode.c:typeDcl", "src/cCode.c:funcDcl", "src/cCode.c:genStrc", "src/cCode.c:genProto", "src/cCode.c:genFunc", "src/cCode.c:genBss", "src/cCode.c:genData", "src/cCode.c:genDirect", "src/parser.c:psGetSrc", "src/parser.c:getProg"]}
{"id": "C66", "title": "Optimisation in the C translator keeps the meaning", "statement": "In the C translator every operator on int constants is replaced by exactly the value that a 32-bit C int gives, or reported when the shift count or the divisor has no meaning; every constant that remains is an int; calls and assignments are neither invented, doubled nor reordered; and the rewritten expressions and statements give the same values, stores, outcomes and divergence as the source.", "quantifier": "every expression and statement tree, every pair of int constants, every machine state, every number of loop iterations", "why_tests_cant": "The rewriting rules interact on trees of any depth and the folding ranges over 2^64 pairs of constants per operator; tests fold a few.", "anchors": ["src/optree.c:optExp", "src/optree.c:calExp", "src/optree.c:arrExp", "src/optree.c:moveLeft", "src/optree.c:moveCnst", "src/optree.c:optTree", "src/util.h:NWORD", "GNUmakefile"]}
{"id": "C67", "title": "The functions of a program, linked, do together what the source says", "statement": "When the compiler accepts a source file, the functions it defines have different names, and a call of any of them that comes back according to the source, through any depth of calls and recursion between the functions of the file, comes back in the linked code with the same value and the same memory; functions that the file does not define may do anything.", "quantifier": "every source text the compiler accepts, every function in it, all arguments, every state of memory, every behaviour of outside functions, every content of fresh locals, any depth of recursion and any number of rounds of loops", "why_tests_cant": "Recursion has no bound and outside functions and memory are arbitrary; a test runs a few programs to a few depths.", "anchors": ["src/parser.c:psGetSrc", "src/parser.c:getFunc", "src/vmCode.c:genFunc", "src/vmCode.c:genArgs", "src/vm2ic.c:vmCallF", "src/vm2ic.c:vmCallP", "src/namtbl.c:ntSrcGlob"]}
{"id": "C68", "title": "Formatted output of the C translator's library", "statement": "printf and fprintf of programs translated to C write the text of the format: characters other than % as they are, each conversion as the manual says (the decimal, octal or hexadecimal numeral of the next argument, a character, a string, a percent sign, a 64-bit number in an int array), padded to its width; they return the number of characters written; a conversion that the manual does not know ends the program.", "quantifier": "every format, every list of arguments of the kinds the format asks for, every width, every int and every pair of ints", "why_tests_cant": "There are 2^32 ints, 2^64 long numbers and unboundedly many formats, widths and strings.", "anchors": ["lib/SrcC/printf.c:print", "lib/SrcC/printf.c:conv16", "lib/SrcC/printf.c:conv32", "lib/SrcC/printf.c:uPutNum", "lib/SrcC/printf.c:sPutNum", "lib/SrcC/printf.c:putC", "lib/SrcC/wrapper.h:lToL"]}
{"id": "C69", "title": "Run-time checks of programs translated with -rtc", "statement": "In a program translated to C with run-time checks, an array got from iMalloc, cMalloc, bMalloc or rMalloc, or laid down in the program, behaves as a list of its elements: reading or assigning an element it has reads or assigns that element and nothing else; an index it does not have, or a null reference, stops the program with a message that names the file, the line and the index; no access is undefined. main gets its arguments and environment as such arrays, and fgets changes only the buffer.", "quantifier": "every sequence of allocations, reads, assignments and uses of references, every index and value, every behaviour of malloc and content of fresh memory, all argument and environment strings", "why_tests_cant": "The histories, the indexes and the contents of memory are unbounded, and an access outside of a block may go unnoticed in a test.", "anchors": ["lib/SrcC/wrapper.h:_ICA", "lib/SrcC/wrapper.h:_CCA", "lib/SrcC/wrapper.h:_RCA", "lib/SrcC/wrapper.h:_CP", "lib/SrcC/wrapper.h:iMalloc", "lib/SrcC/wrapper.h:rMalloc", "lib/SrcC/wrapper.h:_fgets", "lib/SrcC/wrapper.h:__getenv", "lib/SrcC/wrapper.c:main", "lib/SrcC/wrapper.c:_mAlloc"]}
{"id": "C70", "title": "htoi, feof, fseek and fsize of the C translator's library", "statement": "htoi gives the number the hexadecimal digits at the start of the string denote; feof is true exactly when the next fgetc would find the end of the stream, and takes nothing from it, so that the loop of the manual reads each character once; fsize gives the size of a file as two ints, high and low, which printf's %ld prints as that size; fseek goes to the position two such ints mean.", "quantifier": "every string, every stream and state of it, every size below 2^63, every pair of ints", "why_tests_cant": "There are 2^63 sizes, 2^64 pairs of ints and unboundedly many strings and streams.", "anchors": ["lib/SrcC/wrapper.c:htoi", "lib/SrcC/wrapper.c:_feof", "lib/SrcC/wrapper.c:_fseek", "lib/SrcC/wrapper.c:fsize", "lib/SrcC/wrapper.h:lToL"]}
{"id": "C71", "title": "The text printed with run-time checks is the program with its checks", "statement": "What the C translator prints for an expression or a function body when it puts in run-time checks (the default of cm2c) is read by C as the same program as without checks, but that each use of an array element goes through the check for its kind of array, with the array, the index, the name of the source file and the line of the use, and each use of a field through the check for null. No element and no field is used without its check.", "quantifier": "every expression and statement the parser builds, all names, file names and line numbers", "why_tests_cant": "There are unboundedly many programs, and a check that is missing or grouped otherwise by C's grammar may go unnoticed in a test.", "anchors": ["src/cCode.c:printExp", "src/cCode.c:printArryOp", "src/cCode.c:printDotOp", "src/cCode.c:printType", "src/cCode.c:traceTree"]}
{"id": "C72", "title": "Initialised arrays, structures and strings of a program with run-time checks", "statement": "With run-time checks, every initialised global array, at every level, becomes an object that starts with its number of elements, followed by exactly the elements of the initialiser; null, strings, structures and array(..) inside it keep their place; each such object is one that the run-time checks take as an array of that length. A string constant becomes a char array of its bytes and a 0, with their number. Functions and structures are declared with the types of their parameters and members, arrays as references to those objects.", "quantifier": "every initialiser the parser accepts, of every type and number of dimensions; every string constant; every function header and structure", "why_tests_cant": "Initialisers nest without bound, and a wrong length shows only when an access near the end of the array is checked.", "anchors": ["src/cCode.c:printPtrArray", "src/cCode.c:printArray0", "src/cCode.c:printList0", "src/cCode.c:printList1", "src/cCode.c:printList2", "src/cCode.c:genData", "src/cCode.c:genStrLit", "src/cCode.c:printType", "src/cCode.c:genStruc", "src/cCode.c:printFuncDcl", "lib/SrcC/wrapper.h:_IA"]}
{"id": "C73", "title": "The command line of the compiler", "statement": "Every command line the manual allows compiles the source it names, or the standard input, with the optimiser on or off and in kernel mode or not as asked, and writes what the compiler makes of it; a file that cannot be opened is reported; -h and -v show the usage and succeed; anything else shows the usage, fails and compiles nothing.", "quantifier": "every list of arguments, every file system and standard input, every compiler", "why_tests_cant": "The combinations of options, file names that look like options and long file names are not enumerated by tests.", "anchors": ["src/main.c:main", "src/util.c:setFname", "src/util.c:eOpen", "doc/command.tex"]}
{"id": "C74", "title": "The driver cm2c", "statement": "cm2c changes no file but the C texts and objects of the sources it is given and the executable, and leaves no temporary file, whatever its tools do. If it succeeds, every source was translated and compiled. -S leaves each translation beside its source, -c each object; otherwise the executable is what the linker makes of the objects in the order of the arguments, and the intermediate files are removed. An error of any tool, or a file of another kind, makes the run fail.", "quantifier": "every list of files, every combination of flags, every file system, every behaviour of the preprocessor, the translator, the C compiler and the linker", "why_tests_cant": "Which files are overwritten, left or removed depends on the files that are already there and on which tool fails at which file.", "anchors": ["src/cm2c.in", "doc/command.tex"]}
{"id": "C75", "title": "Both compilers read a text alike", "statement": "The compiler written in C-- splits every source text into the same tokens, with the same values, spellings and lines, as the compiler written in C, and refuses the texts the latter refuses.", "quantifier": "every source file", "why_tests_cant": "The two lexers differ in the type of a character, in the test for the end of the file and in the character classes; whether that shows depends on every byte and its place in the text.", "anchors": ["src--/lexer.cmm", "src--/util.cmm", "lib/SrcCmm/ctype.cmm", "src/lexer.c"]}
{"id": "C76", "title": "The drivers cm2v and cm2i", "statement": "A run succeeds if and only if files are given, all of them C-- sources, and each is preprocessed and translated without an error. Then each translation stands beside its source and no other file has changed; a run that fails leaves no temporary file and no partial translation. -E changes no file and prints the preprocessed sources in their order.", "quantifier": "every list of files, every file system, every behaviour of the preprocessor and the translator", "why_tests_cant": "Which files are overwritten, left or removed depends on which tool fails at which file.", "anchors": ["src/cm2v.in", "src/cm2i.in", "doc/command.tex"]}
{"id": "C77", "title": "The driver cm2e", "statement": "A run changes no file but the translations, listings and objects of its sources, the executable, its map and its own temporary files; with -S only translations, with -E nothing. A run that succeeds has translated every source, assembled it unless -S is given, and made the executable; a run that fails leaves no object that was not there before. Sources of any directories that compile and link give the executable made of their objects in the order of the arguments, and intermediate files are removed. A name after -o without an extension gets .exe; another extension is refused and nothing changes.", "quantifier": "every list of files, flags and executable name, every file system, every behaviour of the preprocessor, translator, assembler, linker and objexe", "why_tests_cant": "Which files are overwritten, left or removed depends on which tool fails at which file of a list of any length, and on what the tool leaves.", "anchors": ["src/cm2e.in", "doc/command.tex"]}
{"id": "C78", "title": "readDir lists a directory", "statement": "A caller who calls readDir until the result is not positive is told of every entry of the directory that is neither erased, hidden nor the volume label and stands before the end mark, of each once and in their order, with name, attributes, first cluster and length of the entry; the last result is 0 at the end or the error of read. No array is left. Once the end is reported, no later call reports an entry.", "quantifier": "every directory of FAT16 entries, every end of it (end mark, end of file, error)", "why_tests_cant": "Directories of any length with any bytes in their entries.", "anchors": ["lib/SrcTac/stdio.cmm:readDir", "doc/chap4.tex"]}
{"id": "C79", "title": "perror prints the text of the error", "statement": "For every error number of the table of the manual perror prints its text, after the caller's text and a colon if there is one; for any other number it prints the text of an undefined error and does not leave the list of texts.", "quantifier": "every value of errno, every text or null", "why_tests_cant": "errno may hold any integer; an index outside the list would be an undefined access.", "anchors": ["lib/SrcTac/stdio.cmm:_perror", "lib/SrcTac/stdio.cmm:errList", "include/errno.hmm", "doc/chap4.tex"]}
{"id": "C80", "title": "System calls act on the place a path leads to", "statement": "exec, creat, remove, mkDir, rmDir, open and stat call the kernel once, for the absolute place the path leads to from the working directory, and return its result; if the path is too long or its directory part is not a directory they return errno and do not call the kernel. Two paths to the same place are the same file to them, and they free the memory they take.", "quantifier": "every path, every absolute working directory after any changes of the environment, every file system and kernel", "why_tests_cant": "Paths and working directories of any shape, and any kernel.", "anchors": ["lib/SrcTac/wrap-syslib.cmm"]}
