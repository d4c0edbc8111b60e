# Formal model of crasm in Rocq

Subject: colinbourassa/crasm (C cross assembler), sources in /repo/src.
The model lives in `rocq/theories`, logical path `Verif`.

## Approach

The assembler is modelled function by function as total, computable Gallina
functions over an explicit state record (the C globals and statics).  Every
definition cites the lines it models.  The model is executable: `Regress.v` runs it
with `vm_compute` on the project's own test sources and compares with the project's
reference outputs (those are tests of the model, not proofs).

Outcomes of every modelled function are explicit:

* `Ok a`     normal return
* `Err m`    `error()` in crasm.c: `longjmp` to the innermost handler (globals survive)
* `Exit m`   `fatal()` or `exit()`
* `UB r`     the C code has undefined behaviour (buffer overflow, NULL dereference,
             signed overflow, out of range shift); execution stops there in the model
* `Hang`     the C loop never ends
* `NoFuel`   the recursion budget of the model was exhausted.  Theorems hold for every
             budget; `FuelFacts.v` shows that a run that ends within its budget is the
             same for every larger one, and C34 that a sufficient budget exists unless
             the program hangs

Integers are `Z` with explicit wrap functions at the C stores that truncate
(LP64: `long` is 64 bits, `int` 32, `short` 16, `char` signed).  Bytes are `ascii`;
the C locale is assumed for `<ctype.h>`.

Some theorems speak about the history of a run.  The state therefore has logs that no
modelled function reads: `emitted` (bytes given to `insert8`, with pass and program
counter), `reported` (calls of `error`), `looked` (symbols found by expressions), and
in the listing `sheets` (heads, lines and feet of pages) and `composed` (lines ended by
the formatter, with the line length in force).

## Layout

| files | content |
|---|---|
| Base.v | strings, ctype, integer wraps |
| State.v | globals, outcomes, monad |
| Tree.v, Label.v | label.c |
| Filter.v | filter.c |
| Operator.v, Parse.v | operator.c, parse.c |
| Scode.v | scode.c |
| Output.v | output.c, error reporting of crasm.c |
| Pseudos.v | pseudos.c, cpulist.c |
| Macro.v, Crasm.v | macro.c, crasm.c (mutually recursive part, passes, command line) |
| Cpu6800.v, Cpu6502.v, CpuZ80.v | CPU back ends |
| Tables.v | the keyword tables of stdvocabulary.c and the CPU files |
| Xref.v | xref.c |
| Regress.v, Witness.v | concrete runs |
| Spec*.v | specifications (readers, data sheets, semantics), written without the functions under test |
| *Facts.v and others | lemmas; Walk.v, Local.v and Frame.v lift properties of the elementary steps to the whole assembler, Run.v to the passes |
| Prop*.v | the property theorems, with `Print Assumptions` and a concrete case each |

## Properties

A property that is false of the code has a theorem `..._refuted` with a witness, and
theorems for the part that is true; its status is then `partial`.  A theorem with the
suffix `_partial` says less than the property; the others are full statements about
their part.

| id | title | status, files | what is modelled and how it is proved |
|---|---|---|---|
| C01 | S-record well-formedness | proved, PropRecords.v | `flushscoderaw` with the `srec` text; a record reader written from the format (SpecRecords.v) returns address and data, for every address and up to 16 bytes. |
| C02 | Intel HEX record well-formedness | proved, PropRecords.v | As C01 for `hexrec` and `hexext`, for every reader state that agrees with the writer on the extended address. |
| C03 | Object file image | partial, PropObject.v | Decoder of the whole file against the log of emissions. True when no CODE byte is produced exactly where pass 1 or a DUMMY byte left the program counter; otherwise refuted (the record start is stale). |
| C04 | No byte lost, duplicated or reordered | proved, PropObject.v | Invariant of the writer over whole runs (ObjRun.v): the data bytes of the file are the logged CODE bytes of pass 2, for every ending. |
| C05 | Failed assembly leaves no object file | partial, PropObject.v | `leftover` after `assemble`; a fatal error in pass 2 leaves an unterminated file (refuted as stated). |
| C06 | Error accounting | proved, PropCounts.v | Ghost log of the calls of `error` against counter and printed lines, for whole runs. |
| C07 | Warning total | partial, PropCounts.v | False: the counter is never incremented. Proved that it is always 0, with a witness. |
| C08 | Reported code length | partial, PropCounts.v | False: the counter is not reset between the passes. Proved that it counts both. |
| C09 | Numeric constants | partial, PropNumbers.v | Induction on the digits; binary constants have a wrong overflow bound (refuted). |
| C10 | ASCII constants | partial, PropGrammar.v, PropNumbers.v, PropTexts.v | Quoted constants through the matcher and `cstascii`; the two partial cases leave out texts with operator characters or backslashes. |
| C11 | Operator precedence and grouping | partial, PropExpr.v | A printer for expression trees and the parser run on the printed text; the manual's grouping is refuted for four cases. |
| C12 | 32-bit silent overflow | partial, PropOps.v | Arithmetic modulo 2^32 of trees; refuted for >> and for 64-bit overflow. |
| C13 | Operator typing | partial, PropOps.v | Complete tables of operand kinds; three documented forms refuted. |
| C14 | Symbol table behaves as a case-insensitive map | partial, PropSymbols.v | Histories of symbol operations against a map; refuted for long local names. |
| C15 | Local label scope | partial, PropSymbols.v | Keys of local names; refuted for a label like 1.foo, which is accepted. |
| C16 | Address labels are single-assignment | proved, PropSymbols.v | Invariant over the rest of a pass. |
| C17 | Undefined symbols are reported | partial, PropLayout.v, PropRef.v | Ghost log of lookups; refuted for symbols first met in pass 2. For programs without macros, conditionals and included files that satisfy the conditions of C63 it holds in full (C17_C18_straight_partial). |
| C18 | Forward references agree with definitions | partial, PropLayout.v, PropRef.v | Ghost log of lookups in both passes; refuted (DS with a forward operand shifts the layout). For the programs of C63 the simulation between the passes gives the agreement (C17_C18_straight_partial). |
| C19 | Relative branches | proved, PropCpu.v, PropZ80.v | Symbolic run of the branch handlers of all CPUs. |
| C20 | 6800/6801 encodings | proved, PropCpu.v | All accepted operands of every table entry against the data sheet (SpecCpu.v). |
| C21 | 6500/6502/65C02 encodings | partial, PropCpu.v | As C20, with an explicit list of wrongly accepted forms; three refutations. |
| C22 | Z80 encodings | partial, PropZ80.v | As C20 for the Z80 (SpecZ80.v), with five kinds of wrongly accepted forms; three refutations. |
| C23 | Short addressing mode selection | partial, PropCpu.v | Mode choice of both families; refuted beyond 16 bits and for JSR of the 6801. |
| C24 | Data word byte order | partial, PropPseudos.v | Operand lists of DW, DL, DDB; on the error path DDB leaves the order flipped (refuted). |
| C25 | DB lists | proved, PropPseudos.v | Induction on the operand list. |
| C26 | ASC strings | partial, PropPseudos.v | ASC against the text of a C string; unterminated strings are undefined behaviour (refuted). |
| C27 | DS reservation | partial, PropPseudos.v | DS with counts from 0; negative counts are undefined behaviour (refuted). |
| C28 | ALIGN parity | proved, PropPseudos.v | Direct. |
| C29 | Skipped branches have no effect | proved, PropIf.v | Relation kept by every step with the execution bit off (SkipFacts.v), all nestings. |
| C30 | IF selects by value | partial, PropIf.v | `testtrue` against the values; refuted because the register modifier of an earlier operand is left in the result. |
| C31 | Macro substitution | partial, PropInput.v | `msubst` and `linegets` against an independent substitution; refuted for arguments above 59 characters. |
| C32 | Expanded lines fit the line buffer | proved, PropCounts.v | Bounds on `curline` at every ending of every run. |
| C33 | Nesting is bounded | proved, PropCounts.v | Invariant on the source stack. |
| C34 | Termination | partial, PropEnd.v | Well-founded order on the text left to read (OrderFacts.v, TermRun.v); refuted by a register range in the wrong order. |
| C35 | Listing options do not change the object code | partial, PropTwin.v | Two runs compared step by step (TwinFacts.v); refuted because a listed long line can overflow the buffer. |
| C36 | Memory safety of text buffers | partial, PropEnd.v | Every outcome of a run is in an explicit list with its condition; refuted for each buffer. |
| C37 | Line reading | partial, PropInput.v | `linegets` over a whole file against an independent line splitter; a NUL loses the rest of a line (refuted). |
| C38 | INCLUDE is textual inclusion | partial, PropJoin.v | Two runs reading the same lines from different places (JoinFacts.v to JoinProg.v); refuted when the INCLUDE line ends the file without line end. |
| C39 | Comments and blank lines are neutral | proved, PropInput.v | `asmline` on blank and comment lines in every state. |
| C40 | DUMMY sections emit nothing | proved, PropObject.v | `insert8` in a DUMMY section, and C04. |
| C41 | Command line | partial, PropInput.v | `arguments` on all command lines with at most one -o; a last -o is ignored (refuted). |
| C42 | Operand text reversal is undone | partial, PropTexts.v | `revfix` twice; refuted for an odd backslash. |
| C43 | Pattern matcher | proved, PropTexts.v | The matcher against an independent splitter (SpecSplit.v). |
| C44 | CPU selection | partial, PropChoice.v | `init_label_list` through `Xcpu`; refuted because mnemonics of another CPU seen in pass 1 shadow. |
| C45 | Program counter | partial, PropStar.v | Relation between `*`, advance and the log of emissions over a line; refuted at the end of the source inside a conditional. |
| C46 | Listing geometry | partial, PropPage.v | Ghost logs of lines and pages (`composed`, `sheets`) over whole runs; refuted when PAGE shortens a page in the middle. |
| C47 | Symbol table listing | partial, PropTable.v | `xref` against rows of entries in the order of a search tree; refuted for local symbols and page widths up to 61. |
| C48 | Expression syntax errors are reported, not crashes | partial, PropEnd.v | Outcomes of `parse` on every text; refuted for a shift by 64 and a register range. |
| C49 | No program can redefine the name of a directive | proved, PropKeep.v | Invariant on the symbol tree over whole runs (KeepFacts.v). |
| C50 | Legal 6800 and 6801 instructions are accepted | proved, PropAccept.v | Analysis of the outcomes of each instruction routine in the direction of the errors, and a check of every line of the data sheet against the table (AcceptFacts.v). |
| C51 | Legal 6500, 6502 and 65C02 instructions are accepted | proved, PropAccept.v | The same for the 6502 family; the check runs through all written forms and operand widths (AcceptFacts.v). |
| C52 | Legal Z80 instructions are accepted | proved, PropAcceptZ.v | Each function of the Z80 code is followed along its failing paths (AcceptZFacts.v); where the code asks several questions about the registers the answer is compared with the manual by running through all kinds of operands. For IN and OUT the matcher is shown to find the port when there is one. |
| C53 | A macro definition is the lines up to ENDM | partial, PropMacro.v | `macrolines_ok` by induction over the lines read: `comment_pat` and `endm_pat` say where the two wildcard patterns of the loop stop (`wild_first`: at the first place where the signs follow), `linegets_main` says which line is read, `deflabel_eq` what the definition does to the symbol table. |
| C54 | A macro call leaves the surrounding source alone | proved, PropMacro.v | `call_returns`: the main file is not read while a macro is among the sources (`steady_walk`, a walk over all functions of the assembler), the other fields are restored from copies. |
| C55 | Blank and comment lines do not matter | partial, PropIdle.v | `idle_inserted`: two runs in step up to the line (`join_walk`), one more round on one side, and the start of a line done twice is the start of a line done once (`linestart_again`). |
| C56 | Accepted expressions are well-formed | partial, PropGrammar.v | SpecGrammar.v gives the grammar as an inductive set of texts; GrammarFacts.v shows by induction on the recursion of parse2 that every row of the operator table accepts only sentences. PropGrammar.v: C56_sentence_partial and C56_closed_partial cover all texts without backslash and all texts without quotes; C56_refuted is a text with an open quote that is accepted. |
| C57 | An assignment gives the name the result of the expression | proved, PropLine.v | A generic lemma for lines of their own (LineRun.line_instr) reduces the line to its directive; the cut is derived from the text (LineText). |
| C58 | A label stands for the address of its line | proved, PropLine.v | From LineRun.line_instr and SymFacts.herelabel_defines. |
| C59 | A line changes no defined symbol but the one it names | proved, PropLine.v | Frame argument over all instructions (OthersFacts). |
| C60 | The switches change one setting each | proved, PropLine.v | Each directive is evaluated against the relation SpecLine.switched. |
| C61 | FAIL always fails | proved, PropLine.v | By evaluation of the line; error never returns (SwitchFacts.error_result). |
| C62 | The listing shows the bytes where they are stored | proved, PropListing.v | The relation ListRun.V says what has been listed at every point inside a line (the rows finished, the row under way, the expected program counter); every storing instruction preserves it (StoreWalk.v). |
| C63 | Both passes lay out the program identically | proved, PropLayout.v | Simulation between the two passes: a relation of their states (symbol table of pass 2 refined by that of pass 1, same * and line) kept by every operand class, instruction and directive (LayoutOps, LayoutCpu, LayoutPseudo), lifted to lines and to the whole pass (LayoutLine, LayoutRun). Each condition has a witness that it is needed. |
| C64 | Messages name the line that they are about | partial, PropPlace.v | PlaceFacts.v: invariant placed (the number counts the reads of every open file), kept by every function (a block can fail but a macro never does, and the main file is not read while a macro runs: steady_walk). PlaceEnd.v: at the end of the source no included file is open. Refuted for lines above 248 characters and for an INCLUDE on a last line without end. |
| C65 | NAM, PAGE and SKIP give the listing its form | partial, PropSheet.v | C65_nam and C65_page_partial follow the directive through the rest of its line: the routines of the listing keep the title, the lines and the columns. C65_skip and C65_eject count the lines that are composed. PAGE takes the values modulo 2^32: a page of 2^32+50 lines is accepted as one of 50 (C65_page_refuted). |
| C66 | Directives are refused only for a reason | proved, PropReason.v | C66_refused goes through the handlers one by one: wherever a handler ends in an error the specification reason of SpecReason.v, which knows nothing of the handler, holds. C66_usable closes the gap to the expressions of SpecExpr.v: written expressions that have a value are no reason. |
| C67 | A skipped block extends to its own ELSE or ENDC | proved, PropBlock.v | The grammar block of SpecBlock.v says what a block is; C67_skipped shows by induction on the recursion budget that the lines taken from the file between the states before and after form one, C67_own_end that the grammar is unambiguous. The words are those of the line as taken apart in the state of the block (C29: skipping changes no symbol, so every line of the block is read with the same symbols). |
| C68 | The chosen block of a conditional is assembled like lines outside conditionals | proved, PropChosen.v | C68_true and C68_false relate Xif to [rounds], the loop of a pass; C68_last says which lines close a block. What the skipped block is, is C67. |
| C69 | A macro call assembles the lines of the macro one after the other | proved, PropExpand.v | C69_call unfolds macrocall into [begins], [assembles] and [ends] of SpecExpand.v; C69_lines shows that ordinary lines leave the stack of sources alone (PlaceFacts), so that the lines read are those of the text. |
| C70 | A program that writes down bytes assembles to those bytes | proved, PropImage.v | Each line is followed through linegets, strip, outline, the tables, the expression parser and insert8 in ImageFacts.v (byte_line, first_line); loop_step and induction give the pass, and object_image of ObjRun.v the file. Runs that stop early are outside the hypothesis. |
| C71 | A program of several pieces of bytes assembles to those pieces | partial, PropImage.v | memory_loop in ImageFacts.v runs loop_step over the lines of all pieces; the star may be assigned again because it never has NOREDEF. The file needs object_image of C03; the excluded case, a program that ends at the address of its first byte, is C71_refuted. |
| C72 | An accepted directive had a proper operand | proved, PropProper.v | accepted in ProperFacts.v goes through the handlers; most cases follow from the lemmas on what each handler does (PseudoFacts.v, SwitchFacts.v, SheetFacts.v, ChoiceFacts.v). |

## Trusted base

* Coq 8.16.1: kernel, `vm_compute`, standard library.
* `Print Assumptions` says "Closed under the global context" for every property
  theorem: no axiom is used.  The library files loaded by `lia` and `Ascii` contain the
  module type `Under_REL` of Coq.ssr.ssrunder, whose seven fields are listed as axioms
  when all loaded files are checked (`Under_rel`, `Under_rel_from_rel`, `Under_relE`,
  `under_rel_done`, `Over_rel`, `over_rel`, `over_rel_done`); no theorem depends on them.
* The correspondence between the C text and the Gallina definitions.

## Simplifications

* Addresses of nodes are modelled by their keys in the symbol tree.
* stdout and the object file are lists of pieces, newest first; `stdout` is what was
  written when the program ends.
* The listing buffer is a list that grows on demand; a store outside its 1000 bytes is
  `UB`, as is a message of 80 bytes or more in `error` and a summary line of 40 or more.
* `<<` of a negative or overflowing value wraps, as gcc does; `+ - *` on `long` that
  overflow are `UB`.
* The segment and call counters are unbounded.
* `ASC` without closing quote and a macro without remaining lines read beyond an object:
  `UB`.
* A file name denotes a fixed text (or no file) during a run.

## Not modelled

* Failures of stdio (write errors, `ferror`, `fopen` of the object file), exhaustion of
  memory and of file descriptors, `fopen` of a directory, signals.
* stderr, on which only progress messages are written.
* An object file with the same name as the source or an included file.
* The DEBUG build, and `insert24`, which nothing calls.

## Wrong programs

`seeded/LOG.jsonl` records edits of the model that imitate mistakes, with the theorems
that stopped compiling.  When an edit contradicted a property and nothing failed, the
theorem named in the entry was tightened.
