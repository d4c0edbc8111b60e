{"id": "C01", "title": "S-record well-formedness", "statement": "Every data record crasm writes in Motorola format is a legal S1/S2/S3 record: the type digit matches the address width, the count byte equals the number of bytes that follow, and the checksum byte is the one's complement of the low byte of the sum of count, address and data bytes; an independent S-record reader accepts it and returns exactly the record's start address and data bytes.", "quantifier": "every start address below 2^32 and every buffer of 1..16 bytes", "why_tests_cant": "2^32 addresses times 256^16 payloads; a test samples a few records.", "anchors": ["src/scode.c: flushscoderaw, scodebyte"]}
{"id": "C02", "title": "Intel HEX record well-formedness", "statement": "Every record crasm writes in HEX format is a legal Intel HEX record (type 00 data or type 04 extended linear address), whose bytes sum to 0 modulo 256, and an independent HEX reader that tracks the extended address reconstructs the full 32-bit start address and the data bytes.", "quantifier": "every previous extended address, every start address below 2^32 and every buffer of 1..16 bytes", "why_tests_cant": "depends on the whole history of extended address records, over 2^32 addresses.", "anchors": ["src/scode.c: flushscoderaw, scodebyte"]}
{"id": "C03", "title": "Object file image", "statement": "Decoding the object file of an error-free assembly gives exactly the memory image of the source: each byte emitted in a CODE section sits at the value the program counter had when it was emitted.", "quantifier": "every source program and option set", "why_tests_cant": "quantifies over all programs and all placements of ORG, CODE and DUMMY.", "anchors": ["src/scode.c: setpc, insert8, flushscoderaw, closescodefile", "src/crasm.c: asmline, pass"]}
{"id": "C04", "title": "No byte lost, duplicated or reordered", "statement": "The data bytes of the object file, in file order, are exactly the bytes emitted in CODE sections during the second pass, in emission order, whatever the record boundaries and format switches.", "quantifier": "every source program, every interleaving of ORG changes and emissions", "why_tests_cant": "record boundaries fall differently for every history of emissions.", "anchors": ["src/scode.c: insert8, flushscoderaw, closescodefile"]}
{"id": "C05", "title": "Failed assembly leaves no object file", "statement": "If the second pass reports at least one error and an output name was given, no file of that name exists when crasm finishes; if it reports none, the file (if any code byte was produced) ends with the terminator record of the selected format.", "quantifier": "every source program and initial file system", "why_tests_cant": "must hold for every error in every context.", "anchors": ["src/crasm.c: crasm", "src/scode.c: closescodefile"]}
{"id": "C06", "title": "Error accounting", "statement": "Every error detected in the second pass is counted exactly once in the ERRORS total and produces exactly one ERROR line on the listing; pass-one errors are neither counted nor printed.", "quantifier": "every source program", "why_tests_cant": "error exits are non-local jumps from arbitrary depth.", "anchors": ["src/crasm.c: error, pass", "src/macro.c: Xif, macrocall"]}
{"id": "C07", "title": "Warning total", "statement": "The WARNINGS total printed at the end equals the number of warnings issued in the second pass.", "quantifier": "every source program", "why_tests_cant": "a claim over all runs.", "anchors": ["src/crasm.c: warning, pass", "src/xref.c: result"]}
{"id": "C08", "title": "Reported code length", "statement": "The 'Code length' printed after a successful assembly equals the number of code bytes produced.", "quantifier": "every source program", "why_tests_cant": "a claim over all runs.", "anchors": ["src/scode.c: insert8", "src/xref.c: result"]}
{"id": "C09", "title": "Numeric constants", "statement": "A decimal, hexadecimal ($x, xH, 0Xx), octal (xQ) or binary (%x, xB, 0Bx) constant evaluates to the number its digits denote, when that number is below 2^32, and is rejected with 'overflow' when it is not; a digit outside the base is rejected.", "quantifier": "every digit string of every length", "why_tests_cant": "infinitely many digit strings.", "anchors": ["src/operator.c: cstdecimal, csthexa, cstoctal, cstbinary", "src/parse.c: oplist, parse2"]}
{"id": "C10", "title": "ASCII constants", "statement": "A quoted constant evaluates to the big-endian base-256 number of its (unescaped) characters, or is rejected when it does not fit the machine word, is unterminated or contains an unknown escape.", "quantifier": "every quoted string", "why_tests_cant": "infinitely many strings.", "anchors": ["src/operator.c: cstascii"]}
{"id": "C11", "title": "Operator precedence and grouping", "statement": "An expression evaluates according to the documented precedence table (shifts and HI/LO bind tighter than bitwise, then * and /, then + and -), parentheses override it and operators of the same group associate to the left.", "quantifier": "every expression of every size and nesting", "why_tests_cant": "infinitely many expressions.", "anchors": ["src/parse.c: parse, parse2, oplist"]}
{"id": "C12", "title": "32-bit silent overflow", "statement": "Arithmetic is carried out on 32 bits and overflows silently: the bytes stored by DB/DW/DL depend only on the low 32 bits of each intermediate value.", "quantifier": "every pair of operand values", "why_tests_cant": "2^64 operand pairs per operator.", "anchors": ["src/operator.c: opadd, opsub, opmul, opand, opor, opxor, opnot, opminus, oplsh, oprsh, opdiv"]}
{"id": "C13", "title": "Operator typing", "statement": "Arithmetic operators accept only absolute numbers (and the documented relative/register forms) and otherwise report an error; division by zero does not crash.", "quantifier": "every pair of operand kinds and values", "why_tests_cant": "combinatorial.", "anchors": ["src/operator.c", "src/pseudos.c: checktype"]}
{"id": "C14", "title": "Symbol table behaves as a case-insensitive map", "statement": "After any sequence of definitions and references a lookup of a name returns what was last stored under that name up to letter case and 48 significant characters; different names never interfere.", "quantifier": "every history of symbol operations", "why_tests_cant": "tree shape depends on the whole insertion history.", "anchors": ["src/label.c: searchlabel, makelabel, findlabel, deflabel, init_label_list"]}
{"id": "C15", "title": "Local label scope", "statement": "Labels starting with a period in different CODE/DUMMY segments or macro calls denote different symbols and never collide with global labels.", "quantifier": "every pair of names and segment numbers", "why_tests_cant": "unbounded segment numbers and names.", "anchors": ["src/label.c: searchlabel", "src/pseudos.c: Xcode, Xdummy", "src/macro.c: macrocall"]}
{"id": "C16", "title": "Address labels are single-assignment", "statement": "Once a label has been defined by its position it keeps that value until the end of the pass; any attempt to redefine it (or a keyword) is an error and changes nothing.", "quantifier": "every continuation of every program", "why_tests_cant": "must hold for all continuations.", "anchors": ["src/label.c: deflabel", "src/crasm.c: herelabel"]}
{"id": "C17", "title": "Undefined symbols are reported", "statement": "If the assembly is error-free then every symbol referenced in the second pass is defined somewhere in the program.", "quantifier": "every source program", "why_tests_cant": "claim over all programs.", "anchors": ["src/operator.c: cstlabel", "src/label.c: findlabel, undeflabels"]}
{"id": "C18", "title": "Forward references agree with definitions", "statement": "In an error-free assembly every reference to an address label, before or after its definition, uses the address at which the label is defined in the object code (both passes lay out the program identically).", "quantifier": "every source program", "why_tests_cant": "needs the two passes to agree for every program.", "anchors": ["src/crasm.c: crasm, pass", "src/label.c: undeflabels, deflabel", "src/operator.c: cstlabel"]}
{"id": "C19", "title": "Relative branches", "statement": "A relative branch that assembles without error occupies two bytes and its signed displacement byte added to the address after the instruction gives the target address (modulo 2^32); a target outside -128..127 is an error.", "quantifier": "every branch mnemonic, address and target", "why_tests_cant": "2^64 address/target pairs per CPU.", "anchors": ["src/cpu6800.c: branch", "src/cpu6502.c: branch", "src/cpuz80.c: relbranch, jr"]}
{"id": "C20", "title": "6800/6801 encodings", "statement": "Each 6800/6801 instruction that assembles without error is encoded with the opcode the Motorola data sheet gives for its mnemonic and addressing mode, followed by the operand bytes, high byte first.", "quantifier": "every mnemonic, addressing mode and operand value", "why_tests_cant": "operand values are unbounded.", "anchors": ["src/cpu6800.c"]}
{"id": "C21", "title": "6500/6502/65C02 encodings", "statement": "Each 6502-family instruction that assembles without error is encoded with the opcode the data sheet gives for its mnemonic and addressing mode on the selected CPU, followed by the operand bytes low byte first; combinations that do not exist on the selected CPU are rejected.", "quantifier": "every mnemonic, addressing mode, CPU variant and operand value", "why_tests_cant": "operand values are unbounded; the illegal combinations are the complement of the table.", "anchors": ["src/cpu6502.c"]}
{"id": "C22", "title": "Z80 encodings", "statement": "Each Z80 instruction that assembles without error is encoded as the Zilog manual specifies; operand combinations that are not Z80 instructions are rejected.", "quantifier": "every mnemonic and operand combination and operand value", "why_tests_cant": "operand values and illegal combinations.", "anchors": ["src/cpuz80.c"]}
{"id": "C23", "title": "Short addressing mode selection", "statement": "The one-byte (zero page / direct) form is chosen exactly when the operand is not a forward reference and its value fits in one byte, so that the effective address is the operand.", "quantifier": "every operand value", "why_tests_cant": "2^64 values.", "anchors": ["src/cpu6800.c: findmode", "src/cpu6502.c: standard"]}
{"id": "C24", "title": "Data word byte order", "statement": "DW and DL store the value truncated to 16/32 bits in the CPU's byte order, DDB stores 16 bits in the opposite order, and the byte order setting is unchanged afterwards.", "quantifier": "every value, byte order and list of expressions", "why_tests_cant": "2^64 values and lists of any length.", "anchors": ["src/pseudos.c: stocke, Xdc", "src/scode.c: insert16, insert32"]}
{"id": "C25", "title": "DB lists", "statement": "DB e1,...,en emits exactly n bytes, the low bytes of the values in order, and advances the program counter by n.", "quantifier": "every list of operands", "why_tests_cant": "lists of any length.", "anchors": ["src/pseudos.c: stocke, Xdc"]}
{"id": "C26", "title": "ASC strings", "statement": "ASC emits the characters of the quoted string with C escapes decoded, one byte each; malformed strings are rejected.", "quantifier": "every operand text", "why_tests_cant": "infinitely many strings.", "anchors": ["src/pseudos.c: Xasc"]}
{"id": "C27", "title": "DS reservation", "statement": "DS n,v emits n copies of the low byte of v and advances the program counter by n.", "quantifier": "every count and fill value", "why_tests_cant": "unbounded count.", "anchors": ["src/pseudos.c: Xds"]}
{"id": "C28", "title": "ALIGN parity", "statement": "After ALIGN EVEN (ODD) the program counter is even (odd) and at most one zero byte has been emitted.", "quantifier": "every program counter", "why_tests_cant": "2^64 addresses.", "anchors": ["src/pseudos.c: Xalign"]}
{"id": "C29", "title": "Skipped branches have no effect", "statement": "Lines of the branch of an IF that is not selected define no label, emit no byte, define no macro and do not move the program counter, for any nesting.", "quantifier": "every text in the skipped branch", "why_tests_cant": "any text can be skipped.", "anchors": ["src/macro.c: Xif, Xelse, Xendc", "src/crasm.c: asmline"]}
{"id": "C30", "title": "IF selects by value", "statement": "IF e assembles its first branch exactly when e is nonzero; IF a op b exactly when the comparison of the two values holds.", "quantifier": "every pair of values, operators and preceding history", "why_tests_cant": "depends on the state left by every preceding line.", "anchors": ["src/macro.c: testtrue, Xif"]}
{"id": "C31", "title": "Macro substitution", "statement": "A macro line is expanded by replacing each \\1..\\9 by the corresponding argument, \\# by the number of arguments and \\* by the whole operand, leaving everything else unchanged.", "quantifier": "every macro body and argument list", "why_tests_cant": "infinitely many bodies and arguments.", "anchors": ["src/macro.c: linegets, macrocall"]}
{"id": "C32", "title": "Expanded lines fit the line buffer", "statement": "Neither a line read from a file nor an expanded macro line ever overflows the 256 byte line buffer.", "quantifier": "every file content, macro body and argument list", "why_tests_cant": "must hold for every input.", "anchors": ["src/macro.c: linegets"]}
{"id": "C33", "title": "Nesting is bounded", "statement": "INCLUDE and macro nesting never exceeds the ten source levels: deeper nesting, including unbounded recursion, is reported as a fatal error and never overruns the source table.", "quantifier": "every program, including self-recursive macros and includes", "why_tests_cant": "unbounded recursion.", "anchors": ["src/macro.c: Xinclude, macrocall, linegets"]}
{"id": "C34", "title": "Termination", "statement": "crasm terminates on every source program.", "quantifier": "every source program", "why_tests_cant": "non-termination cannot be observed by a finite test.", "anchors": ["src/macro.c", "src/operator.c: opsub", "src/crasm.c: pass"]}
{"id": "C35", "title": "Listing options do not change the object code", "statement": "The object file produced does not depend on the -l, -s and -x options.", "quantifier": "every source program and every pair of option sets", "why_tests_cant": "relational property over all programs.", "anchors": ["src/crasm.c: crasm, pass", "src/output.c"]}
{"id": "C36", "title": "Memory safety of text buffers", "statement": "No source text makes crasm write outside its fixed-size buffers (error message buffer, operand buffer, listing line buffer).", "quantifier": "every source line", "why_tests_cant": "must hold for every input.", "anchors": ["src/filter.c: buffer, filter", "src/crasm.c: error", "src/output.c: outputcar, setpage"]}
{"id": "C37", "title": "Line reading", "statement": "Reading a source file yields its lines in order, control characters removed, lines longer than 249 characters split, and every character of the file is consumed exactly once.", "quantifier": "every file content", "why_tests_cant": "any file.", "anchors": ["src/macro.c: linegets"]}
{"id": "C38", "title": "INCLUDE is textual inclusion", "statement": "INCLUDE f behaves as if the lines of f were inserted after the INCLUDE line.", "quantifier": "every file system and position of the directive", "why_tests_cant": "depends on the end-of-file state of every enclosing file.", "anchors": ["src/macro.c: Xinclude, linegets", "src/crasm.c: pass"]}
{"id": "C39", "title": "Comments and blank lines are neutral", "statement": "A blank line or a line containing only a comment emits nothing, defines nothing and does not move the program counter.", "quantifier": "every comment text and state", "why_tests_cant": "any text, any state.", "anchors": ["src/crasm.c: asmline"]}
{"id": "C40", "title": "DUMMY sections emit nothing", "statement": "Between DUMMY and the next CODE no byte reaches the object file while labels and the program counter advance as usual.", "quantifier": "every program", "why_tests_cant": "all programs.", "anchors": ["src/scode.c: insert8", "src/pseudos.c: Xdummy, Xcode"]}
{"id": "C41", "title": "Command line", "statement": "-o takes the next argument as output name, -s/-l/-x set the corresponding options, exactly one input file is required, anything else prints the usage and exits with status 10.", "quantifier": "every argument vector", "why_tests_cant": "argument vectors of any length.", "anchors": ["src/crasm.c: main, syntax"]}
{"id": "C42", "title": "Operand text reversal is undone", "statement": "The in-place reversal used to evaluate an expression restores the operand text.", "quantifier": "every operand text", "why_tests_cant": "any text with quotes and escapes.", "anchors": ["src/filter.c: reverse", "src/parse.c: parse"]}
{"id": "C43", "title": "Pattern matcher", "statement": "The operand matcher splits a text at the first occurrence of the separator outside quotes and balanced parentheses; the captured pieces are substrings of the text in order.", "quantifier": "every text", "why_tests_cant": "any text.", "anchors": ["src/filter.c: filter"]}
{"id": "C44", "title": "CPU selection", "statement": "After CPU x all mnemonics of x are usable unless shadowed by a user symbol; a second CPU directive in the second pass is an error.", "quantifier": "every state", "why_tests_cant": "all histories.", "anchors": ["src/pseudos.c: Xcpu", "src/label.c: init_label_list"]}
{"id": "C45", "title": "Program counter", "statement": "After each line '*' has advanced by exactly the number of bytes that line emitted, in both passes and also when the line ends in an error.", "quantifier": "every line and state", "why_tests_cant": "all lines and states.", "anchors": ["src/crasm.c: asmline, error", "src/scode.c: insert8"]}
{"id": "C46", "title": "Listing geometry", "statement": "No listing line written by the line formatter is wider than the selected page width, and no page has more lines than the selected page length.", "quantifier": "every program and page size", "why_tests_cant": "all programs.", "anchors": ["src/output.c"]}
{"id": "C47", "title": "Symbol table listing", "statement": "The final symbol listing is in alphabetical order and lists every user symbol exactly once.", "quantifier": "every program", "why_tests_cant": "tree shape depends on history.", "anchors": ["src/xref.c: xref2, printlabel", "src/label.c"]}
{"id": "C48", "title": "Expression syntax errors are reported, not crashes", "statement": "Evaluating any operand text terminates with a value or a reported error.", "quantifier": "every operand text and symbol table", "why_tests_cant": "any text.", "anchors": ["src/parse.c: parse2", "src/operator.c"]}
{"id": "C49", "title": "No program can redefine the name of a directive", "statement": "At every point of every run, whatever the program, each directive is found under its name in any letter case, and an attempt to define a symbol of that name is an error.", "quantifier": "every program, file system, options and point of the run", "why_tests_cant": "the symbol table depends on all the lines read so far, on macros and on included files.", "anchors": ["src/label.c: deflabel, init_label_list, undeflabels", "src/stdvocabulary.c: pseudos", "src/crasm.c: findmnemo"]}
{"id": "C50", "title": "Legal 6800 and 6801 instructions are accepted", "statement": "Every instruction of the processor is in the table, and once an origin is given it is refused only because its operand is in error, is not a number, or does not fit the displacement.", "quantifier": "every instruction of the data sheet, operand text and state", "why_tests_cant": "all operand texts, symbol values and addresses.", "anchors": ["src/cpu6800.c: branch, single, findmode, codemode, standard, standard2, standard3", "src/cpu6800.c: m6800, m6801"]}
{"id": "C51", "title": "Legal 6500, 6502 and 65C02 instructions are accepted", "statement": "Every instruction of the selected processor is in the table, and once an origin is given it is refused only because its operand is in error, is neither a number nor an accumulator the instruction takes, or needs two bytes where the instruction has only the zero page.", "quantifier": "every instruction of the data sheet, operand text and state", "why_tests_cant": "all operand texts, symbol values and addresses.", "anchors": ["src/cpu6502.c: branch, single, standard, addmodes, offsettable", "src/cpu6502.c: m6502, m65c02"]}
{"id": "C52", "title": "Legal Z80 instructions are accepted", "statement": "Every instruction of the Zilog manual is in the table, and once an origin is given an instruction is refused only because an operand cannot be read as operand, number, condition, bit number, interrupt mode or port, because the operands are none the manual lists for it, because a comma is missing or an operand too many is written, or because a relative jump is too far.", "quantifier": "every entry of the Z80 table, operand text and state", "why_tests_cant": "all operand texts, symbol values and addresses.", "anchors": ["src/cpuz80.c: getreg, getindexed, standard, simple, im, rst, jr, ret, call, jp, ex, inout, bitop, onreg8, logical, stackop, arith, incr, ld", "src/cpuz80.c: mz80"]}
{"id": "C53", "title": "A macro definition is the lines up to ENDM", "statement": "A macro definition in the main file that is accepted takes the lines up to the first one that contains ENDM outside quotes and parentheses, where ENDM must stand alone. These lines without their comments become the text of the symbol. The line number counts them. Other symbols, emitted bytes, flags and error reports are unchanged. One would expect that a line that merely contains the letters ENDM in a longer word does not end the definition: it does, with an error.", "quantifier": "every label, source text without NUL, state reading the main file", "why_tests_cant": "all macro bodies: quotes, parentheses, comments, long lines.", "anchors": ["src/macro.c:407-492 Xmacro", "src/filter.c:52-171"]}
{"id": "C54", "title": "A macro call leaves the surrounding source alone", "statement": "When a macro call comes to its end, the files being read, the unread text of the main file and its end-of-file state, the line number, the line prefix, the scope of local symbols and the listing switch are what they were before the call, whatever the macro contained: conditionals, other calls, INCLUDE, LIST.", "quantifier": "every macro text, argument list, recursion budget and state", "why_tests_cant": "unboundedly deep nested calls and includes.", "anchors": ["src/macro.c:734-859 macrocall", "src/macro.c:528-679 linegets"]}
{"id": "C55", "title": "Blank and comment lines do not matter", "statement": "Inserting a line that is blank or holds only a comment before a line that the loop of each pass reads changes neither the symbol table nor the object file, the bytes, the number of errors or their messages. One would expect this anywhere: in the body of a macro the line becomes part of the text of a symbol.", "quantifier": "every program, place, idle line, option and set of files", "why_tests_cant": "all programs and all places in them.", "anchors": ["src/crasm.c:368-422 asmline", "src/crasm.c:190-215 the passes"]}
{"id": "C56", "title": "Accepted expressions are well-formed", "statement": "Every operand text the expression parser accepts is a sentence of the expression grammar: names, the star, numbers with a base prefix or suffix, closed quoted constants, parenthesised sentences, calls of BIT, ADDR, LO and HI, signs, dyadic operators and the bit operator; so its quotes are closed and its parentheses are paired.", "quantifier": "every operand text and every state of the assembler", "why_tests_cant": "there are infinitely many malformed texts; the parser works on the reversed text and undoes the reversal piece by piece, so that an unusual combination of quotes and operators can slip through.", "anchors": ["src/parse.c: parse, parse2, oplist", "src/operator.c: cstascii, cstdecimal, csthexa, cstoctal, cstbinary", "src/filter.c: reverse"]}
{"id": "C57", "title": "An assignment gives the name the result of the expression", "statement": "A line of the form name = expression, or name EQU expression, that assembles gives the named symbol exactly the type, value and modifier the expression parser returns for the text after the sign; every other symbol and the code are unchanged.", "quantifier": "every line of this form, comment or not, every state of the assembler, both passes", "why_tests_cant": "The line is cut by the pattern matcher at the first equals sign outside quotes and comments and then treated as if EQU were written; the label, the operand and the equals sign may interact with quotes, comments and names of instructions in infinitely many ways.", "anchors": ["src/crasm.c: asmline", "src/pseudos.c: Xequ", "src/label.c: deflabel"]}
{"id": "C58", "title": "A label stands for the address of its line", "statement": "After a line that assembles, the label in front of it, or alone on it, is an address symbol with the value * had at the start of the line, is defined and cannot be defined again.", "quantifier": "every line of its own, every state", "why_tests_cant": "The label is defined before the instruction runs and * is advanced afterwards; a directive that moves * (such as ORG or DS) could spoil the label only in particular combinations.", "anchors": ["src/crasm.c: asmline", "src/label.c: deflabel"]}
{"id": "C59", "title": "A line changes no defined symbol but the one it names", "statement": "A line that is no macro call, conditional or macro definition leaves every defined symbol but * and the one it names as it was, up to the mark of use; executed or skipped, and however the line ends.", "quantifier": "every symbol, every line of its own, every state, every outcome", "why_tests_cant": "Expressions insert and mark symbols while they are parsed; a test sees only the symbols it looks at.", "anchors": ["src/crasm.c: asmline", "src/label.c: findlabel, makelabel, deflabel", "src/parse.c: parse"]}
{"id": "C60", "title": "The switches change one setting each", "statement": "LIST, MLIST, CLIST, ILIST, OUTPUT, CODE and DUMMY on a line without a label that assembles change exactly their own setting, as their operand says, and nothing else a program can ask for; LIST ON has no effect when the listing is disabled; CODE and DUMMY open a new section of local labels.", "quantifier": "every such line, every state", "why_tests_cant": "That no other setting is touched has to hold in every combination of the settings.", "anchors": ["src/pseudos.c: Xlist, Xmlist, Xclist, Xilist, Xoutput, Xcode, Xdummy"]}
{"id": "C61", "title": "FAIL always fails", "statement": "A FAIL without a label that is reached never assembles: the line ends in an error whose message is its operand (or Fail instruction when there is none), or the run is lost.", "quantifier": "every operand, every state", "why_tests_cant": "The message is an arbitrary text of the program that is passed through the reporting code.", "anchors": ["src/pseudos.c: Xfail", "src/crasm.c: error"]}
{"id": "C62", "title": "The listing shows the bytes where they are stored", "statement": "With four-digit addresses (as with every CPU), the listing of a line outside macros that assembles and stores bytes, or is a bare label, a comment or empty, consists of the bytes the line stored, in hexadecimal and in order, seven on a line behind the address of the first of them, then the line number right-justified in columns 21 to 25 and the text of the line (trailing blanks possibly removed, tabs expanded) from column 28 on. Only warnings and page breaks can come in between. At most 21 bytes are shown. The line has to fit the width of the page.", "quantifier": "every line, every byte sequence, every page layout and state that lists code", "why_tests_cant": "The listing is composed in a buffer by several functions that share positions and counters; the agreement of addresses, bytes and columns has to hold for every number of bytes, after every warning and at every page break.", "anchors": ["src/output.c: outputbyte, outputaddr, outputline, outputEOL, position", "src/scode.c: insert8"]}
{"id": "C63", "title": "Both passes lay out the program identically", "statement": "In a program without macros, conditionals and included files that assembles without errors, where the operands of DS and the assignments to * do not depend on symbols defined further down, where the symbols used before their definition are numbers, and where the first pass complains at most about branch distances, RST vectors and interruption modes, the two passes store bytes at the same addresses in the same order, * has the same value before every line, and every symbol the first pass defines is defined by the second pass with the same type, and with the same value unless it is both referred to before its definition and assigned a value that depends on symbols defined further down.", "quantifier": "every program text, every number of lines, every processor", "why_tests_cant": "The size of each instruction is decided separately in each pass, from operands whose values may be unknown in the first pass; that every addressing mode of every processor decides alike cannot be seen from sample programs.", "anchors": ["src/crasm.c: crasm, asmline", "src/pseudos.c: Xds, Xequ, Xdb, Xalign", "src/cpu6502.c", "src/cpu6800.c", "src/cpuZ80.c", "src/parse.c: parse"]}
{"id": "C64", "title": "Messages name the line that they are about", "statement": "Outside macros, the number kept for the line being assembled is one more than the ends of lines before it in the file it comes from (the source or an included file), in both passes, in conditional blocks and after macro calls and INCLUDEs; an error of an ordinary line is reported exactly once, with that number and the number of the pass.", "quantifier": "All sources, all included files, all options, every round of both passes", "why_tests_cant": "A wrong number needs a combination of includes, macros, blocks and long lines; tests compare the numbers of a few listings", "anchors": ["src/macro.c:528-679", "src/macro.c:682-727", "src/macro.c:820-839", "src/crasm.c:231-279", "src/crasm.c:585-627"]}
{"id": "C65", "title": "NAM, PAGE and SKIP give the listing its form", "statement": "An accepted NAM makes its operand, of at most 30 characters, the title; an accepted PAGE a,b makes a the lines of a page (0 or 10 to 200) and b the columns of a line (39 to 1000); PAGE alone fills the page up with empty lines; SKIP n composes n empty lines, and none when n is not between 0 and 100.", "quantifier": "All lines of their own with these directives, all operands, all states", "why_tests_cant": "The values come from any expression; tests try a few numbers, none beyond 32 bits", "anchors": ["src/pseudos.c:201-210", "src/pseudos.c:388-436", "src/output.c:53-97", "src/output.c:137-153"]}
{"id": "C66", "title": "Directives are refused only for a reason", "statement": "Once an origin is given, DB/DW/DDB, DS, ASC, ALIGN, the listing switches, OUTPUT, CODE, DUMMY, NAM, PAGE, SKIP, INCLUDE, CPU and EQU end in an error only if an operand has the fault listed for that directive: an item that has no usable value, a text that is not a string, a word other than the two that are known, an operand where none belongs, a title that is too long, a page of a wrong size, a file that does not exist, an unknown or second CPU, a symbol that already has another kind of value; an expression that has a value is never unusable.", "quantifier": "All directives listed, all labels and operands, all states with an origin", "why_tests_cant": "A wrong refusal shows up only with the one operand or the one state that a test did not try", "anchors": ["src/pseudos.c:34-531", "src/parse.c:50-108", "src/label.c:80-240"]}
{"id": "C67", "title": "A skipped block extends to its own ELSE or ENDC", "statement": "When the block after a false IF (or after the ELSE of a true one) is passed over without an error, the lines read are exactly those up to the ELSE or ENDC that belongs to it: between them stand only other lines, whole IF ... ELSE ... ENDC of any depth and whole MACRO ... ENDM, so that an ELSE or ENDC of an inner IF, or inside a macro definition, never ends the block; and no sequence of lines can be read as such a block in two ways.", "quantifier": "All main files, all states, all depths of nesting, all lines", "why_tests_cant": "Nesting is unbounded and the lines that look like ENDC or ELSE may be comments, labels, operands or lines of a macro; tests try one or two levels", "anchors": ["src/macro.c:49-68", "src/macro.c:180-353", "src/macro.c:407-500", "src/crasm.c:444-580"]}
{"id": "C68", "title": "The chosen block of a conditional is assembled like lines outside conditionals", "statement": "When IF is executed and its condition is true, the lines of its first block have the effect that the pass's own loop would give them if they stood there without the conditional: lines with errors are reported and passed over, the others are assembled, up to the line that carries ENDC or ELSE (or an EXITM that leaves a macro). When the condition is false the same holds of the block after ELSE. The IF, ELSE and ENDC lines themselves define nothing, emit nothing and move neither the counters nor the reader.", "quantifier": "For every condition that can be evaluated, every state, every source text and every recursion budget", "why_tests_cant": "Xif runs a second copy of the main loop with its own error recovery; whether both loops agree on every sequence of lines, including failing ones, cannot be enumerated.", "anchors": ["src/macro.c:180-353", "src/crasm.c:231-280", "src/crasm.c:368-580"]}
{"id": "C69", "title": "A macro call assembles the lines of the macro one after the other", "statement": "A macro call that comes to its end opens a new scope for local symbols, marks the macro as used, then reads and assembles lines one after the other, counting those that fail and going on, until a line with ENDM or EXITM; then the place of the source, the line number, the listing switch and the scope of local symbols are those of the call again, and everything the lines did remains. As long as the lines are ordinary (no call, conditional, definition or INCLUDE), they are exactly the lines of the macro, in order, each with the arguments put in.", "quantifier": "For every macro text, operand, state and recursion budget, whatever the lines do", "why_tests_cant": "The expansion runs a third copy of the assembler's loop with saved and restored state; bodies, arguments and errors combine without bound.", "anchors": ["src/macro.c:734-859", "src/macro.c:528-679", "src/crasm.c:368-580"]}
{"id": "C70", "title": "A program that writes down bytes assembles to those bytes", "statement": "For a source file whose first line is *=$HHHH and whose other lines are DB $XX, one byte per line, a run that comes to its end reports nothing, the second pass produces exactly those bytes at consecutive addresses starting at the given one, and an object file, if asked for, reads back as exactly these cells.", "quantifier": "For every address, every sequence of bytes that fits below 64 KiB, all options, all file systems and every recursion budget with which the run ends", "why_tests_cant": "It is an end-to-end claim about input, filters, tables, expressions, both passes and the object writer at once, over all images; tests assemble a few of them.", "anchors": ["src/crasm.c:158-300", "src/filter.c:30-200", "src/pseudos.c:144-200", "src/scode.c:30-200"]}
{"id": "C71", "title": "A program of several pieces of bytes assembles to those pieces", "statement": "For a source file that consists of pieces, each a line *=$HHHH followed by DB $XX lines, in any order of addresses, a run that comes to its end reports nothing, the second pass produces exactly the bytes of the pieces at their addresses, in order, and the object file reads back as exactly these cells.", "quantifier": "For every number of pieces, all addresses and bytes within 64 KiB, all options, all file systems and every recursion budget with which the run ends", "why_tests_cant": "The object writer carries state across address changes and passes; a wrong record appears only for particular relations between the addresses of different pieces.", "anchors": ["src/crasm.c:231-275", "src/pseudos.c:34-61", "src/pseudos.c:144-160", "src/scode.c:38-90"]}
{"id": "C72", "title": "An accepted directive had a proper operand", "statement": "DB/DW/DDB, DS, ASC, ALIGN, the listing switches, OUTPUT, CODE, DUMMY, NAM, PAGE, SKIP, INCLUDE, CPU and EQU are carried out without an error only if the operand is one the directive has a meaning for: a list of items that all have absolute values, a size that is not negative, a complete quoted string, one of the two known words, nothing at all where none belongs, a title that fits, two numbers that make a page, a file that exists, a known CPU when none was chosen before, an expression and a label that does not already name something fixed.", "quantifier": "All directives listed, all labels and operands, all states", "why_tests_cant": "A garbage operand that is silently accepted shows up only if a test happens to contain that garbage", "anchors": ["src/pseudos.c:34-531", "src/macro.c:682-727", "src/label.c:80-240"]}
