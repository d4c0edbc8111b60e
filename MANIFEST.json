{"claims": [
{"property": "C01", "status": "proved", "theorems": ["C01_srecord"], "note": "PropRecords.v; state-level theorem on flushscoderaw against the independent reader of SpecRecords.v"},
{"property": "C02", "status": "proved", "theorems": ["C02_hexrecord"], "note": "PropRecords.v; any reader state that agrees with the writer on the extended address"},
{"property": "C03", "status": "partial", "theorems": ["C03_image_partial", "C03_image_refuted", "C03_dummy_refuted"], "note": "PropObject.v; holds when no CODE byte is produced exactly where pass 1 or a DUMMY byte left the program counter; false otherwise (witnesses)"},
{"property": "C04", "status": "proved", "theorems": ["C04_bytes", "C04_prefix"], "note": "PropObject.v; whole runs, any source, file system and budget; stopped runs give a prefix"},
{"property": "C05", "status": "partial", "theorems": ["C05_leftover_partial", "C05_exit_partial", "C05_fatal_refuted"], "note": "PropObject.v; holds when the second pass ends; a fatal error in the second pass leaves an unterminated file (witness)"},
{"property": "C06", "status": "proved", "theorems": ["C06_total", "C06_lines", "C06_first_silent"], "note": "Total = number of error calls of the second pass (ghost log of reports); each has its own output line in order, however the run ends; the first pass prints nothing but a fatal error line. The total is the counter printed by result()."},
{"property": "C07", "status": "partial", "theorems": ["C07_always_zero_partial", "C07_warnings_refuted"], "note": "False of the code: warnnumber is never incremented. Proved that the total is always 0, and a run printing a warning with total 0."},
{"property": "C08", "status": "partial", "theorems": ["C08_both_passes_partial", "C08_length_refuted"], "note": "False of the code: codelen is not reset between the passes. Proved that it counts both passes; witness with one byte and length 2."},
{"property": "C09", "status": "partial", "theorems": ["C09_value", "C09_overflow_partial", "C09_refused", "C09_refuted"], "note": "Value, overflow (bases 8, 10, 16) and refusal of ill-formed digits proved for texts of every length; refuted for binary constants, whose overflow bound lets values from 2^32 through."},
{"property": "C10", "status": "partial", "theorems": ["C10_value", "C10_overflow", "C10_unknown", "C10_unterminated_partial", "C10_trailing_partial", "C10_follows", "C56_closed_partial", "C10_unterminated_refuted"], "note": "Value, overflow and unknown escapes proved for every quoted text. Texts without backslash: an accepted text has all its quotes closed (C56_closed_partial) and only an operator may follow a closing quote (C10_follows). The claim on unterminated texts is false with backslashes: '\\'\\ is accepted (C10_unterminated_refuted)."},
{"property": "C11", "status": "partial", "theorems": ["C11_documented_partial", "C11_program", "C11_division_refuted", "C11_shift_refuted", "C11_bitwise_refuted", "C11_sign_refuted"], "note": "Parser proved on the text of every expression tree: the program's own grouping (nine ranks) for all trees, and the documented grouping for trees on which both agree; refuted for a*b/c, a<<b>>c, a|b&c and 3*-2. Alternative outcome: the 4000-character matcher buffer is full."},
{"property": "C12", "status": "partial", "theorems": ["C12_partial", "C12_bytes", "C12_refuted", "C12_overflow_refuted"], "note": "32-bit arithmetic agrees for expressions without / and >>; refuted for >> (the program works on 64 bits) and 64-bit overflow is undefined in C."},
{"property": "C13", "status": "partial", "theorems": ["C13_accepts", "C13_undefined", "C13_refuses", "C13_one_accepts", "C13_one_refuses", "C13_division", "C13_relative_refuted", "C13_range", "C13_range_refuted", "C13_division_refuted"], "note": "Complete table of operand kinds and results of all operators; division by zero gives the dividend. Refuted: documented rel+abs is an error, reg-reg never terminates, smallest number divided by -1."},
{"property": "C14", "status": "partial", "theorems": ["C14_map_partial", "C14_refuted"], "note": "For legal names, any history of definitions, references, segment changes and changes of pass gives the lookups of a map. Refuted as stated for local names, of which fewer than 48 characters count."},
{"property": "C15", "status": "partial", "theorems": ["C15_segments_partial", "C15_globals_partial", "C15_fresh", "C15_refuted"], "note": "Proved for legal names and segment numbers of an int; segment numbers are fresh. Refuted for a label such as 1.foo alone on its line, which is accepted and is the local label .foo of segment 1."},
{"property": "C16", "status": "proved", "theorems": ["C16_kept", "C16_refused", "C16_keywords"], "note": "Address labels keep their value over every line and every rest of a pass; redefinition fails and changes no symbol; no program changes the pseudo instructions."},
{"property": "C17", "status": "partial", "theorems": ["C17_logged_partial", "C17_partial", "C17_C18_straight_partial", "C17_refuted"], "note": "Every successful reference is logged and every reference of the second pass to an identifier met in the first finds a definition; in programs without macros, conditionals and included files that meet the conditions of C63, every symbol referenced in the second pass is defined. Fails for identifiers first met in the second pass (C17_refuted)."},
{"property": "C18", "status": "partial", "theorems": ["C18_partial", "C18_agree_partial", "C17_C18_straight_partial", "C18_refuted"], "note": "References after the definition use the final value, earlier ones the value of the first pass, hence the same if the passes agree on addresses. They do in the programs of C63 (C17_C18_straight_partial); in general they need not (C18_refuted, forward operand of DS)."},
{"property": "C19", "status": "proved", "theorems": ["C19_branch", "C19_jr"], "note": "Relative branches of all processors; an accepted branch has its target within -128..127, so others are errors."},
{"property": "C20", "status": "proved", "theorems": ["C20_encoding", "C20_order"], "note": "Soundness of every accepted instruction of both tables against the data sheet."},
{"property": "C21", "status": "partial", "theorems": ["C21_encoding_partial", "C21_selected", "C21_ror_refuted", "C21_bit_refuted", "C21_register_refuted"], "note": "Every accepted instruction is in the data sheet or in the explicit list strays65; the list is not empty (refutations)."},
{"property": "C22", "status": "partial", "theorems": ["C22_encoding_partial", "C22_names", "C22_order", "C22_start", "C22_select", "C22_cpdr_refuted", "C22_operand_refuted", "C22_triple_refuted"], "note": "Every accepted Z80 instruction is encoded as the Zilog table says or belongs to one of five listed stray kinds; that illegal combinations are rejected and CPDR is right is refuted with witnesses. That legal instructions are accepted is C52. The hypothesis that register numbers are those of the tables is shown for the start of the run and for CPU."},
{"property": "C23", "status": "partial", "theorems": ["C23_6800_partial", "C23_6502_partial", "C23_refuted", "C23_jsr_refuted"], "note": "Proved on the 16 bits of the operand; false for values beyond 16 bits and for JSR of the 6801."},
{"property": "C24", "status": "partial", "theorems": ["C24_words", "C24_longs", "C24_swapped", "C24_refuted"], "note": "PropPseudos.v; values, byte order and setting for every accepted list; on the error path DDB leaves the byte order flipped (witness)."},
{"property": "C25", "status": "proved", "theorems": ["C25_bytes"], "note": "PropPseudos.v; every accepted operand list of DB"},
{"property": "C26", "status": "partial", "theorems": ["C26_string", "C26_refuted"], "note": "PropPseudos.v; well-formed strings; an unterminated string makes the code read past its end (witness, undefined behaviour)."},
{"property": "C27", "status": "partial", "theorems": ["C27_reserve", "C27_refuted"], "note": "PropPseudos.v; counts from 0; a negative count is undefined behaviour (witness)."},
{"property": "C28", "status": "proved", "theorems": ["C28_align"], "note": "PropPseudos.v"},
{"property": "C29", "status": "proved", "theorems": ["C29_line", "C29_block", "C29_true", "C29_false", "C29_nested"], "note": "Skipped lines leave symbols (labels, macros, *), emitted bytes, CPU settings, local scope and switches as they were; for every nesting. An error message inside a skipped branch is still reported."},
{"property": "C30", "status": "partial", "theorems": ["C30_decides_partial", "C30_refuted"], "note": "Decided by value whenever no number carries a leftover register modifier (clean); refuted in general: IF 0 after an instruction with a register. Missing: an invariant saying which programs stay clean."},
{"property": "C31", "status": "partial", "theorems": ["C31_line", "C31_every_line", "C31_call", "C31_refuted"], "note": "Every macro line is read as its expansion (cut after 241 characters); a call passes the comma separated items. False as stated for arguments longer than 59 characters: C31_refuted."},
{"property": "C32", "status": "proved", "theorems": ["C32_line", "C32_expansion"], "note": "Current line at any ending of any run at most 249 characters; any macro expansion at most 241."},
{"property": "C33", "status": "proved", "theorems": ["C33_depth", "C33_include_full", "C33_macro_full"], "note": "Depth bound at every ending (for all budgets), fatal error at the last level."},
{"property": "C34", "status": "partial", "theorems": ["C34_partial", "C34_refuted"], "note": "The outcome of the program is settled after finitely many steps for every file system and command line; false in full because of a range of registers in the wrong order."},
{"property": "C35", "status": "partial", "theorems": ["C35_partial", "C35_refuted"], "note": "Two command lines that differ in -l, -s and -x leave the same object file if both runs end with status 0. An over-long listed INCLUDE line can overflow the line buffer only when listed."},
{"property": "C36", "status": "partial", "theorems": ["C36_partial", "C36_refuted"], "note": "Every way a whole run can leave defined behaviour is enumerated, with the conditions under which the listing, message and summary buffers overflow; false in full for each buffer."},
{"property": "C37", "status": "partial", "theorems": ["C37_line", "C37_included", "C37_file", "C37_once", "C37_refuted"], "note": "For every file without NUL; with a NUL the rest of the line is lost: C37_refuted."},
{"property": "C38", "status": "partial", "theorems": ["C38_inline_partial", "C38_continue_partial", "C38_refuted"], "note": "C38_refuted: an INCLUDE on the last line without line end is not read in pass 1 and is read first in pass 2. C38_inline_partial: for whole programs, an INCLUDE line reached by the loop of each pass may be replaced by an idle line and the file. C38_continue_partial: from any state, after Xinclude the rest of the pass goes on as if the lines were inserted. Missing: whole-program statement for lines inside conditionals and macro calls, or with comments."},
{"property": "C39", "status": "proved", "theorems": ["C39_neutral", "C39_still"], "note": "Every blank or comment line (up to the 249 characters a line can have), in every state; symbols, emitted bytes, CPU, files, reported errors unchanged and advance 0; the only other outcome is a dead run (output failure)."},
{"property": "C40", "status": "proved", "theorems": ["C40_dummy_byte", "C04_bytes"], "note": "PropObject.v; state level for every DUMMY byte, and file level through C04_bytes"},
{"property": "C41", "status": "partial", "theorems": ["C41_run", "C41_no_input", "C41_two_inputs", "C41_bad_letter", "C41_refuted"], "note": "All command lines with at most one -o; a last -o without name is silently ignored: C41_refuted."},
{"property": "C42", "status": "partial", "theorems": ["C42_quoted_partial", "C42_unquoted", "C42_refuted"], "note": "PropTexts.v; texts of bare characters and well-formed quoted strings not ending in an escaped backslash; false for an odd backslash (witness)."},
{"property": "C43", "status": "proved", "theorems": ["C43_split", "C43_none", "C43_answers", "C43_pieces"], "note": "PropTexts.v; two-piece splits exactly at the first separator outside quotes and parentheses; pieces of any pattern in order."},
{"property": "C44", "status": "partial", "theorems": ["C44_usable_partial", "C44_once_partial", "C44_refuted"], "note": "Every data-sheet mnemonic is found after CPU unless another symbol has its name, and a second CPU directive in pass 2 is refused; a mnemonic of another CPU left by the first pass also shadows (C44_refuted)."},
{"property": "C45", "status": "partial", "theorems": ["C45_partial", "C45_refuted"], "note": "Every line other than macro call, conditional, macro definition and assignment to *: the bytes lie consecutively from the old value of * and * moves by exactly their number, also when the line ends in an error; refuted in general by a source that ends inside a conditional (last line counted twice)."},
{"property": "C46", "status": "partial", "theorems": ["C46_layout_partial", "C46_refuted"], "note": "For every program, files and options, however the run ends: every line made by the line formatter fits the line length in force when it is ended, pages are no longer than the longest page length in force while printed and full when ended, and what is printed consists of such pages. Missing: a page is longer than the page length last selected when PAGE shortens it in mid-page (C46_refuted)."},
{"property": "C47", "status": "partial", "theorems": ["C47_partial", "C47_refuted", "C47_narrow_refuted"], "note": "The listing has one entry per listed symbol in alphabetical order, laid out in full rows. Local symbols are not listed; page widths up to 61 stop the program."},
{"property": "C48", "status": "partial", "theorems": ["C48_partial", "C48_refuted"], "note": "Evaluation of any text from any state whose page format PAGE can select ends with a value, an error message or one of the listed undefined outcomes; false in full (shift count 64, register range in the wrong order)."},
{"property": "C49", "status": "proved", "theorems": ["C49_directives_kept"], "note": "Every run of assemble from the initial state, with every recursion budget (a run cut short by the budget ends at an inner point), every options and file system: findmnemo finds the directive with its handler and modifier, and deflabel of that name is an error."},
{"property": "C50", "status": "proved", "theorems": ["C50_accepted"], "note": "Completeness of C20: the reasons for a refusal are part of allowed68. Undefined behaviour of the matcher buffer and fatal errors are not refusals."},
{"property": "C51", "status": "proved", "theorems": ["C51_accepted"], "note": "Completeness of C21: the reasons for a refusal are part of allowed65. Undefined behaviour of the matcher buffer and fatal errors are not refusals."},
{"property": "C52", "status": "proved", "theorems": ["C52_accepted", "C52_listed", "C52_plain"], "note": "Completeness of C22: the reasons for a refusal are those of refusable in SpecAcceptZ.v. Undefined behaviour of the matcher buffer and fatal errors are not refusals."},
{"property": "C53", "status": "partial", "theorems": ["C53_definition", "C53_another_word_refuted"], "note": "Proved for definitions in the main file whose unread text contains no NUL. Refuted: a line with the letters ENDM in another word ends the definition, in error. Definitions in included files are not covered."},
{"property": "C54", "status": "proved", "theorems": ["C54_call"], "note": "Calls that come to their end. The text of the current line is restored only when macros are not listed."},
{"property": "C55", "status": "partial", "theorems": ["C55_idle", "C55_in_macro_refuted"], "note": "Proved for places that the loop of each pass reaches and that are followed by some text. Refuted for the body of a macro. Lines inside conditionals are not covered."},
{"property": "C56", "status": "partial", "theorems": ["C56_sentence_partial", "C56_closed_partial", "C56_refuted"], "note": "Proved for all texts without a backslash and for all texts without quotes; false in general: the text '\\'\\ (four characters) is accepted with the value 92."},
{"property": "C57", "status": "proved", "theorems": ["C57_assign", "C57_equ"], "note": "For all lines of this form; that the line is of this form is a statement about its text for the sign, and about the parts for EQU."},
{"property": "C58", "status": "proved", "theorems": ["C58_label"], "note": ""},
{"property": "C59", "status": "proved", "theorems": ["C59_others"], "note": ""},
{"property": "C60", "status": "proved", "theorems": ["C60_switch"], "note": ""},
{"property": "C61", "status": "proved", "theorems": ["C61_fail"], "note": ""},
{"property": "C62", "status": "proved", "theorems": ["C62_listing"], "note": "For a line whose text fits the page width, with four-digit addresses (F_ADDR24 is never set in the code; without a CPU directive addresses have eight digits, which is not covered). Bytes after the 21st are silently left out of the listing: with four-digit addresses the ellipsis the code provides is never printed."},
{"property": "C63", "status": "proved", "theorems": ["C63_layout", "C63_refuted", "C63_register_refuted", "C63_complaint_refuted"], "note": "The three refutations show that the conditions of the statement are needed. A DS operand, a register or a refused operand known only in the second pass changes the layout."},
{"property": "C64", "status": "partial", "theorems": ["C64_line", "C64_piece", "C64_starts", "C64_second", "C64_keeps", "C64_reports", "C64_refuted", "C64_second_refuted", "C64_warning_refuted"], "note": "Proved for files whose lines have at most 248 characters and, in the second pass, a source that ends with the end of a line. Both conditions are needed: C64_refuted (a longer line counts as several) and C64_second_refuted (INCLUDE on a last line without end). C64_piece says what the number counts in general. C64_warning_refuted: the warning about unprintable characters names the line before."},
{"property": "C65", "status": "partial", "theorems": ["C65_nam", "C65_page_partial", "C65_page_refuted", "C65_skip", "C65_eject"], "note": "False in full: the operands of PAGE and SKIP count modulo 2^32 (C65_page_refuted). Proved with this truncation; SKIP and PAGE alone are about the directive, the others about the whole line."},
{"property": "C66", "status": "proved", "theorems": ["C66_refused", "C66_usable"], "note": "FAIL is always refused and is not in the list; outcomes of undefined behaviour are not errors and are treated by other properties."},
{"property": "C67", "status": "proved", "theorems": ["C67_skipped", "C67_own_end"], "note": "For the main file; a line in error inside the block (for example ENDC with an operand) is reported and counted, and the theorem speaks of blocks without such errors."},
{"property": "C68", "status": "proved", "theorems": ["C68_true", "C68_false", "C68_last"], "note": "Lines listed normally (li = true). The second block's extent is described by C67."},
{"property": "C69", "status": "proved", "theorems": ["C69_call", "C69_lines"], "note": "What the arguments are and how they are put in is C31 (cut after 59 and 241 characters)."},
{"property": "C70", "status": "proved", "theorems": ["C70_bytes", "C70_image"], "note": "Stated for runs that end with Ok; that a budget suffices is the subject of C36."},
{"property": "C71", "status": "partial", "theorems": ["C71_cells", "C71_object_partial", "C71_refuted"], "note": "The bytes and addresses are proved in full; the object file is right unless the program ends at the address of its first byte, where it is wrong (C71_refuted)."},
{"property": "C72", "status": "proved", "theorems": ["C72_accepted", "C72_line"], "note": "The converse of C66: C66 says a refusal has a reason, C72 that an acceptance has one. FAIL is never accepted and is not in the list. C72_line: the same for whole lines, for lines without label and for EQU."}
]}
