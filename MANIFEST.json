{
 "claims": [
  {
   "property": "C01",
   "status": "proved",
   "theorems": [
    "C01_decimal",
    "C01_octal",
    "C01_hexadecimal",
    "C01_hexadecimal_without_digit",
    "C01_out_of_range"
   ],
   "note": "value and extent of decimal, octal and hexadecimal numerals up to the host's INT_MAX; beyond it the lexer's int overflows (C01_out_of_range)"
  },
  {
   "property": "C02",
   "status": "proved",
   "theorems": [
    "C02_gap_invisible",
    "C02_unterminated",
    "C02_token_ends_at_gap",
    "C02_layout"
   ],
   "note": "gaps (white space, newlines, both comments) before a token change only the line; any two layouts of a token sequence lex to the same tokens; unterminated comments are diagnosed"
  },
  {
   "property": "C03",
   "status": "partial",
   "theorems": [
    "C03_word_lengths",
    "C03_refuted",
    "C03_string_refuted",
    "C03_short_lines_partial"
   ],
   "note": "refuted: a word of 129 characters (or a string spelling of that length) writes one byte past the 129-byte buffer; exact outcome by length in C03_word_lengths; safe for files whose lines stay below 64 characters"
  },
  {
   "property": "C04",
   "status": "proved",
   "theorems": [
    "C04_reserved",
    "C04_literal",
    "C04_name",
    "C04_codes_apart"
   ],
   "note": "reserved words, true/false and names told apart for every following text"
  },
  {
   "property": "C05",
   "status": "proved",
   "theorems": [
    "C05_string"
   ],
   "note": "the spelling handed on means, under any assembler reading of simple escapes, exactly the items of the literal, and its size is their number plus one"
  },
  {
   "property": "C06",
   "status": "proved",
   "theorems": [
    "C06_resolution",
    "C06_scope_exit",
    "C06_promotion"
   ],
   "note": "the table refines a stack of scopes: for every history of declarations, scope entries and exits a lookup gives the innermost live declaration, and a balanced history restores every lookup"
  },
  {
   "property": "C07",
   "status": "proved",
   "theorems": [
    "C07_double",
    "C07_full"
   ],
   "note": "a declaration is refused exactly when it conflicts with a live declaration or the table holds 500 names"
  },
  {
   "property": "C08",
   "status": "partial",
   "theorems": [
    "C08_print_parse",
    "C08_unambiguous",
    "C08_line_marker_refuted"
   ],
   "note": "For every expression, every parenthesisation and every source text with those tokens; line markers directly after a literal or name are excluded (C08_line_marker_refuted shows why)."
  },
  {
   "property": "C09",
   "status": "partial",
   "theorems": [
    "C09_accepted_typed",
    "C09_typed_accepted",
    "C09_assignable",
    "C09_assignment",
    "C09_call_arity",
    "C09_comparison_refuted",
    "C09_comparison_compiled_refuted"
   ],
   "note": "Exact characterisation: accepted iff derivable and typed (C09_accepted_typed, C09_typed_accepted). Refuted against the manual for == and != on unequal reference types and void values."
  },
  {
   "property": "C10",
   "status": "partial",
   "theorems": [
    "C10_accepted",
    "C10_outside",
    "C10_rejected",
    "C10_while_break",
    "C10_while_continue",
    "C10_do_break",
    "C10_do_continue",
    "C10_do_refuted"
   ],
   "note": "C10_rejected: a file whose (only) reading has a break or continue outside the loops of a function gives no output. C10_while_break/continue, C10_do_break/continue: in the generated code a break goes to the end of its own loop and a continue to its next round, any nesting. Refuted with -O: a do loop with constant false condition is unwrapped and its break leaves the loop around it (C10_do_refuted)."
  },
  {
   "property": "C11",
   "status": "proved",
   "theorems": [
    "C11_fold_binary",
    "C11_fold_unary",
    "C11_fold_logical"
   ],
   "note": "Exact for all operators and all 16-bit operands, including the diagnostics."
  },
  {
   "property": "C12",
   "status": "partial",
   "theorems": [
    "C12_opt_expr_partial",
    "C12_div_chain_partial",
    "C12_div_chain_refuted",
    "C12_div_error_refuted",
    "C12_div_var_refuted"
   ],
   "note": "Holds for opt_safe expressions; refuted outside them (division chains, lost side effects)."
  },
  {
   "property": "C13",
   "status": "partial",
   "theorems": [
    "C13_no_new_effects",
    "C13_effects_kept_partial",
    "C13_effects_lost_refuted"
   ],
   "note": "No effect is invented or reordered (all trees); kept on opt_safe trees; refuted for f()*0, f()&0, f()|0xffff, f()%1, f()&&false, f()||true."
  },
  {
   "property": "C14",
   "status": "partial",
   "theorems": [
    "C14_opt_stmt_partial",
    "C14_terminates_partial",
    "C14_diverges_partial",
    "C14_do_false_refuted"
   ],
   "note": "Terminating and diverging runs preserved for sopt_safe statements; refuted for do{break;}while(false)."
  },
  {
   "property": "C15",
   "status": "proved",
   "theorems": [
    "C15_expr_constants",
    "C15_stmt_constants"
   ],
   "note": "Invariant by induction on trees, for expressions and statements."
  },
  {
   "property": "C16",
   "status": "proved",
   "theorems": [
    "C16_expr_size",
    "C16_stmt_size"
   ],
   "note": "Termination is totality of the Coq functions; size never grows."
  },
  {
   "property": "C17",
   "status": "proved",
   "theorems": [
    "C17_expr_code",
    "C17_expr_code_ltr",
    "C17_expr_statement"
   ],
   "note": "Any expression, any program containing its code, any stack and state. Evaluation follows the generator's operand order; equals left-to-right for order_safe expressions."
  },
  {
   "property": "C18",
   "status": "proved",
   "theorems": [
    "C18_and_false",
    "C18_or_true",
    "C18_and_true",
    "C18_or_false",
    "C18_cond_jump"
   ],
   "note": "Value and jump contexts, any nesting."
  },
  {
   "property": "C19",
   "status": "proved",
   "theorems": [
    "C19_order_irrelevant",
    "C19_effect_free",
    "C19_mirror",
    "C19_code_value"
   ],
   "note": "For expressions whose order-insensitive operators do not combine conflicting side effects (order_safe), all side-effect-free ones included; an example shows the restriction is needed."
  },
  {
   "property": "C20",
   "status": "partial",
   "theorems": [
    "C20_statement",
    "C20_function_terminates",
    "C20_function_diverges",
    "C20_function_stops",
    "C20_function_ltr",
    "C20_compile_partial",
    "C20_text_partial"
   ],
   "note": "Function bodies: terminating, diverging and stopping machine runs. C20_compile_partial composes with the optimiser under its sopt_safe restriction. C20_text_partial carries it to source texts."
  },
  {
   "property": "C21",
   "status": "proved",
   "theorems": [
    "C21_function_stack",
    "C21_statement_heights",
    "C21_expression_heights",
    "C21_expr_statement_heights"
   ],
   "note": "Static height assignment for every function, statement and expression, and its consequence for every execution, independent of source semantics (no underflow, caller's stack untouched, nothing left at RET)."
  },
  {
   "property": "C22",
   "status": "proved",
   "theorems": [
    "C22_labels_unique_defined",
    "C22_unit_well_linked"
   ],
   "note": "For any list of functions whose break/continue are inside loops."
  },
  {
   "property": "C23",
   "status": "proved",
   "theorems": [
    "C23_layout",
    "C23_blocks",
    "C23_declaration"
   ],
   "note": "Every initialiser tree within the nesting of the declared dimension; every declaration the parser accepts is such a tree of the declared type. The text-to-tree relation of constant expressions is C09."
  },
  {
   "property": "C24",
   "status": "proved",
   "theorems": [
    "C24_boolor",
    "C24_booland"
   ],
   "note": "Symbolic execution of the expansion for every combination of labels and every value on the stack."
  },
  {
   "property": "C25",
   "status": "proved",
   "theorems": [
    "C25_distinct",
    "C25_takeover"
   ],
   "note": "Every instruction sequence the translator accepts: distinct accumulators for distinct entries, busy flags agree, the oldest value is pushed unchanged when an accumulator is taken over."
  },
  {
   "property": "C26",
   "status": "partial",
   "theorems": [
    "C26_multiply",
    "C26_divide_partial",
    "C26_remainder_partial"
   ],
   "note": "Multiplication for all operands; division and remainder for all non-negative operands (the signedness of the hardware instructions is a parameter)."
  },
  {
   "property": "C27",
   "status": "partial",
   "theorems": [
    "C27_refuted"
   ],
   "note": "Refuted: vmDwName prints the top of an empty stack instead of the object it is given."
  },
  {
   "property": "C28",
   "status": "partial",
   "theorems": [
    "C28_refuted",
    "C28_pending_partial"
   ],
   "note": "Refuted for operands kept by reference (globals, array elements, register locals, parameters) when a call or store changes them before use; holds for code passing the guards."
  },
  {
   "property": "C29",
   "status": "partial",
   "theorems": [
    "C29_unique",
    "C29_unique_statement",
    "C29_expression_partial",
    "C29_body_partial",
    "C29_minus_refuted",
    "C29_do_refuted",
    "C29_do_break_refuted",
    "C29_else_refuted",
    "C29_declaration_refuted",
    "C29_keyword_refuted"
   ],
   "note": "Model of cCode.c (build without run time checks) for expressions, statements and function bodies. Proved: every expression and body is printed, and the text, divided into tokens by longest match and read with C's precedence grammar (CSpec.v), has exactly one reading, the tree of CTree.v. Needs names that C accepts, 32 bit numbers, no negative number right of a minus sign or left of [] and ->, single statements as bodies and do bodies that do not begin with a letter. Each of these is needed: C29_*_refuted give programs for which the text is not C or is another program. Files: C62 to C64. Missing: sizeof, the _RTC build."
  },
  {
   "property": "C30",
   "status": "proved",
   "theorems": [
    "C30_strLen",
    "C30_strCpy",
    "C30_strCat"
   ],
   "note": "Any memory, any string up to the int range, non-overlapping ranges; frame included."
  },
  {
   "property": "C31",
   "status": "partial",
   "theorems": [
    "C31_strNcpy",
    "C31_strNcat",
    "C31_strNcpy_manual_refuted"
   ],
   "note": "Exact result and frame of both; strNcpy copies at most n-1 characters, where the manual says n (refuted)."
  },
  {
   "property": "C32",
   "status": "proved",
   "theorems": [
    "C32_strCmp",
    "C32_strNcmp",
    "C32_total_order"
   ],
   "note": "Loop invariants on byte memory, and the order laws from them."
  },
  {
   "property": "C33",
   "status": "partial",
   "theorems": [
    "C33_strChr",
    "C33_strRchr",
    "C33_strStr_partial",
    "C33_strStr_self_refuted"
   ],
   "note": "strChr, strRchr exact. strStr finds every occurrence except one at the very end of the string (partial + refutation)."
  },
  {
   "property": "C34",
   "status": "proved",
   "theorems": [
    "C34_classes",
    "C34_case_letters",
    "C34_case_others"
   ],
   "note": "Codes 0..255 (the argument type is char)."
  },
  {
   "property": "C35",
   "status": "partial",
   "theorems": [
    "C35_disjoint",
    "C35_inside",
    "C35_malloc_total",
    "C35_free_total",
    "C35_malloc_frame",
    "C35_free_frame",
    "C35_available",
    "C35_double_free",
    "C35_free_rejects",
    "C35_wrap_refuted"
   ],
   "note": "All histories of malloc (0..65530 bytes), free and program writes: disjoint, inside, even, contents and stack untouched, free total, unused space always available (merging), double free and unheld addresses rejected. malloc(-5..-1) wraps: refuted."
  },
  {
   "property": "C36",
   "status": "partial",
   "theorems": [
    "C36_calloc_partial",
    "C36_uncleared_refuted",
    "C36_overflow_refuted"
   ],
   "note": "Cleared and large enough whenever n*s fits an int; refuted when the product is 32768..65535 (nothing cleared) or wraps (too small)."
  },
  {
   "property": "C37",
   "status": "partial",
   "theorems": [
    "C37_numeral",
    "C37_printf",
    "C37_fprintf",
    "C37_bad_conversion",
    "C37_ld_partial",
    "C37_ld_refuted",
    "C37_signed_division_refuted",
    "C37_zero_pad_refuted"
   ],
   "note": "printf/fprintf of any format (%d %x %o %c %s %%, any width and flags): exact text, returned count, memory unchanged; unknown letters exit with EUFMT. For a machine with signed division restricted to non-negative %x/%o and %d <> -32768 (refuted outside). %ld: below 655360000, right-justified (partial, refuted outside; it also overwrites the caller's number). %05d of a negative prints zeros before the sign (refuted)."
  },
  {
   "property": "C38",
   "status": "partial",
   "theorems": [
    "C38_add32",
    "C38_sub32",
    "C38_mul32_partial",
    "C38_mul32_refuted",
    "C38_div32_partial",
    "C38_div32_refuted",
    "C38_mod32_partial",
    "C38_mod32_refuted"
   ],
   "note": "add32/sub32 exact. mul32 ignores the upper word, div32 stores the remainder in the upper word, div32/mod32 need src <= 2^15 and a bounded upper word: exact under these conditions, refuted outside."
  },
  {
   "property": "C39",
   "status": "partial",
   "theorems": [
    "C39_flushed",
    "C39_prefix",
    "C39_console",
    "C39_exit",
    "C39_console_refuted"
   ],
   "note": "Files: everything written is delivered in order once flushed, closed or at exit, and always a prefix before; console likewise when it takes what it is given. Refuted for a console that takes fewer bytes: the result of ttyWrite is ignored."
  },
  {
   "property": "C40",
   "status": "partial",
   "theorems": [
    "C40_file",
    "C40_eof",
    "C40_getc_end",
    "C40_seek",
    "C40_fgets",
    "C40_fgets_refuted",
    "C40_stdin",
    "C40_stdin_refuted"
   ],
   "note": "Files: bytes returned are a prefix of the file in order, feof is true and fgetc fails exactly when all were returned; fgets cuts them into lines; seek discards the old buffer; keyboard likewise when it never gives nothing. Refuted: fgets with n<=1, and a keyboard read of 0 bytes gives a byte never typed."
  },
  {
   "property": "C41",
   "status": "partial",
   "theorems": [
    "C41_map",
    "C41_laws",
    "C41_inside",
    "C41_overwrite_refuted",
    "C41_twice_refuted"
   ],
   "note": "Every call sequence from every environment with distinct names behaves as a map; array accesses always inside. Refuted: overwrite=false overwrites, and unsetEnv of a name given twice uncovers the second value."
  },
  {
   "property": "C42",
   "status": "partial",
   "theorems": [
    "C42_abs",
    "C42_form",
    "C42_size_refuted",
    "C42_chdir",
    "C42_chdir_refuted"
   ],
   "note": "absPath and chDir for every path, working directory, file system and buffer size >= 2. Refuted: one-byte buffer overrun; chDir accepts a path that is not a directory."
  },
  {
   "property": "C43",
   "status": "proved",
   "theorems": [
    "C43_never_zero",
    "C43_injective",
    "C43_full_period",
    "C43_visits_all"
   ],
   "note": "Also full period 65535."
  },
  {
   "property": "C44",
   "status": "proved",
   "theorems": [
    "C44_atoi_any",
    "C44_atoi",
    "C44_atoi_sign",
    "C44_htoi"
   ],
   "note": "atoi skips everything that is not a digit, including a minus sign (the manual gives no sign syntax)."
  },
  {
   "property": "C45",
   "status": "proved",
   "theorems": [
    "C45_one_tree",
    "C45_build",
    "C45_overflow",
    "C45_cat",
    "C45_optimise",
    "C45_function"
   ],
   "note": "The table and every in-place edit of optree.c are modelled slot by slot (SyTable.v); the table holds at most one tree at a slot, building from a cleared table gives the tree or the overflow error, the in-place optimiser refines the optimiser on trees with the same errors, no index outside of the table. The parser of the model returns trees: that it creates the nodes parts first, in the order of buildS, is read off parser.c."
  },
  {
   "property": "C46",
   "status": "proved",
   "theorems": [
    "C46_lines"
   ],
   "note": "placed: every token list returned is a left-to-right division of the file into gaps and tokens with line = 1 + newlines"
  },
  {
   "property": "C47",
   "status": "proved",
   "theorems": [
    "C47_ends",
    "C47_progress"
   ],
   "note": "fuel of the model never runs out; each token but end-of-file consumes text"
  },
  {
   "property": "C48",
   "status": "proved",
   "theorems": [
    "C48_plain",
    "C48_escape",
    "C48_numeric"
   ],
   "note": "plain, escaped and numeric character constants"
  },
  {
   "property": "C49",
   "status": "partial",
   "theorems": [
    "C49_operator",
    "C49_single",
    "C49_stray_byte_refuted",
    "C49_reserved_partial",
    "C49_compiled_refuted"
   ],
   "note": "operators and single signs; refuted for stray control bytes, which are returned as keyword codes C49_reserved_partial: in a text of printable ASCII characters and white space a reserved word is one only by its spelling; a program with other bytes compiles (C49_compiled_refuted)."
  },
  {
   "property": "C50",
   "status": "proved",
   "theorems": [
    "C50_unsigned_compare"
   ],
   "note": "For all pairs of words."
  },
  {
   "property": "C51",
   "status": "proved",
   "theorems": [
    "C51_terminates"
   ],
   "note": "By induction on the text still unread, for the lexer, the parser and the generator together."
  },
  {
   "property": "C52",
   "status": "proved",
   "theorems": [
    "C52_returns"
   ],
   "note": "Semantic: any run of the parsed body of any accepted function ends with a value iff the function is neither void nor interrupt."
  },
  {
   "property": "C53",
   "status": "proved",
   "theorems": [
    "C53_operands"
   ],
   "note": "Whole compiler, all nestings."
  },
  {
   "property": "C54",
   "status": "partial",
   "theorems": [
    "C54_labels",
    "C54_labels_optimised_partial",
    "C54_do_refuted"
   ],
   "note": "Without -O for every accepted file. With -O for files without do loops; C54_do_refuted is a file with a do loop whose output jumps to an undefined label (optimiser bug, see C14_do_false_refuted)."
  },
  {
   "property": "C55",
   "status": "partial",
   "theorems": [
    "C55_source_partial",
    "C55_source_optimised_partial",
    "C55_function_partial",
    "C55_text_partial",
    "C55_flags_refuted",
    "C55_stack_refuted",
    "C55_overflow_refuted"
   ],
   "note": "For every function passing the check safe (69 of the 72 functions in the repository tests), every machine, memory and callee. The check is not met by all functions: the refutations give source texts that are miscompiled. C55_source_partial and C55_source_optimised_partial go from the text of a function down to the processor; they ask that the run applies ! to 0 or 1 and / and % to non-negative numbers (always so in code without these operators)."
  },
  {
   "property": "C56",
   "status": "partial",
   "theorems": [
    "C56_bad_pointer",
    "C56_new",
    "C56_inside",
    "C56_others",
    "C56_direction",
    "C56_close_refuted"
   ],
   "note": "Bad pointers, new pointers, directions and buffers for every history; refuted: a stream whose last write failed can never be closed and keeps its slot."
  },
  {
   "property": "C57",
   "status": "partial",
   "theorems": [
    "C57_one_outcome",
    "C57_one_type",
    "C57_accepts",
    "C57_one_reading",
    "C57_one_body",
    "C57_tokens",
    "C57_comma_refuted"
   ],
   "note": "Grammar and rules stated without the parser in ParseSpec.v, StmtSpec.v, ProgGram.v. Line markers directly after a name or literal are excluded (see C08_line_marker_refuted). Refuted against the manual: a comma after the last parameter is accepted. The rules are deterministic: C57_one_outcome, C57_one_type."
  },
  {
   "property": "C58",
   "status": "proved",
   "theorems": [
    "C58_function",
    "C58_in_order"
   ],
   "note": "C58_function: both directions, the operands of an operator in the order the code takes them; C58_in_order: from left to right where the order cannot matter. For -O see C20_text_partial."
  },
  {
   "property": "C59",
   "status": "proved",
   "theorems": [
    "C59_storage"
   ],
   "note": "C59_storage, for every place of every body (inQ), with the cells the printed code uses."
  },
  {
   "property": "C60",
   "status": "partial",
   "theorems": [
    "C60_vm",
    "C60_tac",
    "C60_unambiguous",
    "C60_ambiguous_refuted"
   ],
   "note": "For the assembly of the virtual machine and for TaC; the pieces printed are the output of the compiler of C51-C59 (pieces_compile). Hypotheses: numbers are C ints, names identifiers, strings without newline. Names like a label of the compiler make two instructions alike (refuted)."
  },
  {
   "property": "C61",
   "status": "partial",
   "theorems": [
    "C61_labels_partial",
    "C61_labels_optimised_partial",
    "C61_names_partial",
    "C61_twice_refuted",
    "C61_label_refuted",
    "C61_runtime_refuted"
   ],
   "note": "Every label is defined once (names that look like labels aside; with -O in files without do loops, because of C54_do_refuted); every name of the program is defined at most once, except a variable that is both given space and a value. Refuted: such a variable is placed twice, a variable may have the name of a label, a public function may replace a function of the run-time."
  },
  {
   "property": "C62",
   "status": "partial",
   "theorems": [
    "C62_data_partial",
    "C62_text_partial",
    "C62_address_refuted"
   ],
   "note": "Every declaration of every translated file whose scalars are numbers; addresses alone are printed as such. Refuted: a list with addresses is accepted by the compiler but not by the translator. The text is read back for types and names that are identifiers."
  },
  {
   "property": "C63",
   "status": "proved",
   "theorems": [
    "C63_numbers",
    "C63_functions",
    "C63_unique",
    "C63_names"
   ],
   "note": "Whole files, by induction over the declarations. The strings printed are the ones the parser numbered at that place."
  },
  {
   "property": "C64",
   "status": "partial",
   "theorems": [
    "C64_text",
    "C64_typedef_refuted",
    "C64_clash_refuted",
    "C64_keyword_refuted"
   ],
   "note": "C64_text: every accepted declaration is printed. Refuted as to C: type names of typedef are not declared, names of the program meet those of temporaries or reserved words of C."
  },
  {
   "property": "C65",
   "status": "proved",
   "theorems": [
    "C65_source",
    "C65_reads",
    "C65_functions",
    "C65_structs",
    "C65_hidden"
   ],
   "note": "C65_source: by induction over the parser and the loop of the translator, for whole files, against a specification stated from the source trees (CSourceSpec.v). Hypothesis unmarked: no line marker stands directly after a name, number, character, string or logical operator, where the lexer has already read on."
  },
  {
   "property": "C66",
   "status": "partial",
   "theorems": [
    "C66_fold_binary",
    "C66_fold_unary",
    "C66_int_constants",
    "C66_opt_expr_partial",
    "C66_no_new_effects",
    "C66_opt_stmt_partial",
    "C66_terminates_partial",
    "C66_diverges_partial",
    "C66_builds_differ_refuted",
    "C66_overflow_refuted",
    "C66_minint_refuted",
    "C66_div_chain_refuted"
   ],
   "note": "Exact folding for all ints (C66_fold_*), constants stay ints, no effect invented, and semantics preserved for opt_safe expressions and sopt_safe statements with wrapping arithmetic. Missing: expressions outside opt_safe (as C12-C14, with refutations) and strict C overflow, where the claim is false (C66_overflow_refuted). sizeof is a constant in the model."
  },
  {
   "property": "C67",
   "status": "partial",
   "theorems": [
    "C67_program",
    "C67_in_order",
    "C67_optimised_partial",
    "C67_one_function",
    "C67_bound"
   ],
   "note": "Whole programs of one file, without -O: every call that comes back does so in the linked code, with the same value and memory, recursion and forward declarations included (C67_program; left to right in C67_in_order); each name has one function and the bound of the semantics does not matter. With -O only for bodies on which the optimiser is right (C67_optimised_partial, see C12-C14). Programs that run for ever across calls are not covered here (C58 has the single function)."
  },
  {
   "property": "C68",
   "status": "partial",
   "theorems": [
    "C68_numeral",
    "C68_printf_partial",
    "C68_defined_partial",
    "C68_counted",
    "C68_count_refuted",
    "C68_bad_conversion",
    "C68_hex_width_refuted",
    "C68_least_int_refuted",
    "C68_ld_left_refuted",
    "C68_zero_pad_refuted"
   ],
   "note": "The text is proved for every format and all arguments (C68_printf_partial, C68_defined_partial) except %d of INT_MIN, %x and %o of a negative number with a width above 1, and %-ld of a number of more than 8 digits, where the library is wrong (refuted). The result is the number of NUL characters written, not of all characters (C68_counted, C68_count_refuted). Unknown conversions end the program (C68_bad_conversion). The stream accepts every character; the _RTC build differs in how strings are passed only."
  },
  {
   "property": "C69",
   "status": "partial",
   "theorems": [
    "C69_checked_partial",
    "C69_exclusive",
    "C69_start",
    "C69_fgets",
    "C69_size_refuted",
    "C69_negative_refuted",
    "C69_fgets_refuted",
    "C69_fgets_null_refuted",
    "C69_getenv_refuted"
   ],
   "note": "Every history of operations refines lists of elements, with the messages, for arrays below 2 GB and references that keep their static kind (C69_checked_partial); what is made and what is reported exclude each other (C69_exclusive); main's arguments (C69_start); fgets with a buffer long enough (C69_fgets). Refuted: sizes that wrap (C69_size_refuted, C69_negative_refuted), fgets with a longer count or null (C69_fgets_refuted, C69_fgets_null_refuted), getEnv frees what it gave before (C69_getenv_refuted). void[] references are not covered."
  },
  {
   "property": "C70",
   "status": "partial",
   "theorems": [
    "C70_htoi_partial",
    "C70_htoi_refuted",
    "C70_htoi_overflow",
    "C70_feof",
    "C70_read_all",
    "C70_fsize",
    "C70_fsize_printed",
    "C70_fseek_partial",
    "C70_fseek_negative",
    "C70_fseek_refuted"
   ],
   "note": "feof, the reading loop and fsize are proved for all inputs. htoi is proved below 2^31 and overflows above (C70_htoi_overflow, C70_htoi_refuted); fseek is proved for a low int without its top bit, otherwise the sign overwrites the high int (C70_fseek_negative, C70_fseek_refuted). That lstat and C's fseek succeed is not modelled."
  },
  {
   "property": "C71",
   "status": "partial",
   "theorems": [
    "C71_expression_partial",
    "C71_body_partial",
    "C71_same_program",
    "C71_all_checked",
    "C71_quote_refuted",
    "C71_do_refuted"
   ],
   "note": "Every expression and body is printed and read as the program with checks (C71_expression_partial, C71_body_partial) under the conditions of C29 on names, signs and bodies of statements, for file names without quotation marks, and when no string follows an & sign (no well-typed program has one there). Taking the checks out gives the program of C29 (C71_same_program) and nothing is unchecked (C71_all_checked). Refuted: a quotation mark in the name of the file (C71_quote_refuted), do before a letter (C71_do_refuted). Declarations and initialisers of that build: C72."
  },
  {
   "property": "C72",
   "status": "partial",
   "theorems": [
    "C72_data_partial",
    "C72_checked",
    "C72_string",
    "C72_header",
    "C72_struct",
    "C72_variable",
    "C72_void_refuted"
   ],
   "note": "C72_data_partial: the text for a variable is that of definitions that describe its initialiser, if the scalars in it are numbers (as in C62: the translator has no addresses in lists) and it is not of type void[]. C72_checked: the arrays so defined are, in memory, arrays of their elements as C69 has them; C72_string: strings are. C72_header, C72_struct: declarations. Refuted: void[] with array(..) (C72_void_refuted). The C compiler's layout of an initialised structure with a flexible array (a GNU extension) is in the specification (bytesOf)."
  },
  {
   "property": "C73",
   "status": "partial",
   "theorems": [
    "C73_command_partial",
    "C73_help",
    "C73_other",
    "C73_order_refuted",
    "C73_name_refuted"
   ],
   "note": "C73_command_partial: options in the order -O or -O1, -O0, -K and names of up to 128 bytes; C73_help, C73_other: all other arguments. Refuted: the order of the manual (C73_order_refuted), longer names (C73_name_refuted). The texts of the messages, and output written before an error, are not modelled."
  },
  {
   "property": "C74",
   "status": "partial",
   "theorems": [
    "C74_frame",
    "C74_translate",
    "C74_status",
    "C74_failure",
    "C74_objects_partial",
    "C74_build_partial",
    "C74_status_refuted",
    "C74_lost_refuted",
    "C74_directory_refuted"
   ],
   "note": "C74_frame, C74_translate, C74_status, C74_failure: all files, flags and tools. C74_objects_partial, C74_build_partial: files of the current directory with different names. Refuted: an error of the linker is not reported (C74_status_refuted), a file a.c beside a.cmm is lost (C74_lost_refuted), sources of other directories are never linked (C74_directory_refuted). Not modelled: options that choose the tools, names with blanks."
  },
  {
   "property": "C75",
   "status": "partial",
   "theorems": [
    "C75_ascii",
    "C75_message",
    "C75_accepted_partial",
    "C75_ff",
    "C75_refuted"
   ],
   "note": "C75_ascii: every ASCII text without DEL, in all outcomes; C75_message: with the same message. C75_accepted_partial: every text without the byte 255 that the compiler in C reads. C75_ff: the byte 255 is refused anywhere. Refuted for DEL in strings, escaped bytes above 126 in character constants and the byte 255 in comments (C75_refuted)."
  },
  {
   "property": "C76",
   "status": "proved",
   "theorems": [
    "C76_status",
    "C76_made",
    "C76_failed",
    "C76_preprocess"
   ],
   "note": "All files, tools and file systems. Not modelled: options that choose the tools, names with blanks."
  },
  {
   "property": "C77",
   "status": "partial",
   "theorems": [
    "C77_name",
    "C77_frame",
    "C77_translate",
    "C77_status",
    "C77_failure",
    "C77_leftovers",
    "C77_objects",
    "C77_build",
    "C77_link_refuted",
    "C77_lost_refuted"
   ],
   "note": "C77_name, C77_frame, C77_translate, C77_status, C77_failure, C77_leftovers: all files, flags and tools. C77_objects, C77_build: files of any directories, no two alike but for the extension. Refuted: an error of the linker is not reported and an empty map is left (C77_link_refuted), a file a.s beside a.cmm is lost (C77_lost_refuted). Not modelled: options that choose the tools, names with blanks."
  },
  {
   "property": "C78",
   "status": "partial",
   "theorems": [
    "C78_list",
    "C78_again_refuted"
   ],
   "note": "C78_list: all directories of whole entries. Refuted: a call after the end was reported goes on behind it (C78_again_refuted). Not covered: directories whose last entry is cut short."
  },
  {
   "property": "C79",
   "status": "proved",
   "theorems": [
    "C79_text"
   ],
   "note": "All numbers and texts. fprintf with %s is taken to print its argument (C37)."
  },
  {
   "property": "C80",
   "status": "proved",
   "theorems": [
    "C80_call",
    "C80_same"
   ],
   "note": "All paths, environments, kernels. The heap is seen as the sequence of cMalloc and free; which errno absPath sets is not modelled."
  }
 ]
}