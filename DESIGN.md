# Formal model of the opensource COBOL runtime (libcob) in Rocq

## 1. Scope and method

Source: `/repo` (read as text, unchanged).  The model covers the run-time library
`libcob` (the code every compiled COBOL program executes): data representation,
MOVE, decimal arithmetic, comparison, INSPECT/STRING/UNSTRING, sequential /
line-sequential / relative files, SORT, `CBL_*` routines and intrinsic functions.

* Functions are modelled one by one as total Gallina functions; each definition cites
  file and lines.  Loops become structural recursion on lists, or recursion on a fuel
  argument which is then proved sufficient.
* A byte is a `Z` (0..255 where it matters), an item is its attribute record plus the
  list of its bytes.  C undefined behaviour (out-of-range access, NULL/dangling
  dereference, signed overflow) is a distinct outcome (`UB`) wherever the code can reach
  it; model functions return `outcome` in these cases and the theorems show `Ok`.
* Specifications (`Spec*.v`) are written in terms of mathematics (rationals as
  mantissa/scale pairs, lists, finite maps), not in terms of model helpers.
* `P_*.v` files contain the final theorems, each one followed by a concrete example that
  meets its hypotheses and by `Print Assumptions`.
* A property which the code violates is stated as `..._refuted` with the witness, plus
  the strongest positive theorem I could prove, suffixed `_partial`.

Build configuration assumed (the default of configure.ac on x86-64 Linux/gcc):
little-endian, 8-bit bytes, `int` 32 bit, `long long` 64 bit, `ALLOW_MISALIGNED`
irrelevant, GMP = mathematical integers, SJIS (non-`I18N_UTF8`) build.

## 2. Trusted base

* The Coq 8.16.1 kernel (including `vm_compute`, used on closed examples and finite
  tables).
* `Print Assumptions` follows every theorem in the `P_*.v` files; each one prints
  "Closed under the global context": no axiom, of the standard library or of this
  development, is used.  (A whole-library listing such as `coqchk -o` / vcheck also names
  the module parameters of the standard library's `Coq.ssr.ssrunder`, which is loaded
  with the standard library; no theorem depends on them.)
* The transcription from C to Gallina, done by hand with file and line citations on each
  definition, and the modelling assumptions below.
* GMP = integer arithmetic; libc `memcpy`, `memmove`, `memcmp`, `toupper` (C locale), stdio
  (`Stdio.v`: a file is a list of bytes with a position; no I/O error except end of file) and
  `malloc` (`Storage.v`: any allocator returning fresh addresses) are modelled by their
  specification.
* One thread, no signals: `libcob` is single threaded.

No functors, module types, axioms, `Admitted`, plugins or disabled checks are used.

## 3. Properties, models and proofs

| id | code modelled | model | specification | proof method (final theorems in) |
|----|----|----|----|----|
| C01 | common.c get/put sign | `Sign` | `SpecNum` (`denotes`) | case analysis on digits, list update (`P_Num`) |
| C02-C04, C07, C08 | numeric.c fetch/store | `Numeric`, `Decimal` | `SpecNum`, `SpecStore` | induction on digits / nibbles / bytes, rounding by integer division lemmas (`P_Num`) |
| C05, C06, C09, C10 | numeric.c decimals | `Decimal`, `Numeric` | rationals (`QArith`) | cross-multiplication, order on Q (`P_Num`) |
| C11-C14 | numeric.c/codegen.h integer fast paths | `PackedInt`, `DispInt` | `denotes` | nibble/digit carry induction; invariant of the static cache over every history (`P_Int`) |
| C15-C19, C51, C52 | move.c | `Move`, `MoveAll` | `SpecMove` | positional characterisation of store_common_region (`P_Move`) |
| C20 | move.c editing | `Edited` | `SpecEdit` (text as a function of the picture and the digits) | loop invariant relating the C state to the prefix of the picture; final floating insertion (`P_Edit`) |
| C21-C23, C49, C51 | common.c compare, class | `Compare` | `SpecCmp`, `SpecSort` | induction; total preorder (`P_Cmp`) |
| C49 | common.c 530-547, 572-596, 664-700 with both settings of I18N_UTF8 | `National` (loop with fuel: it need not end) | `SpecNational` (code points, `encode`, `before`) | encodings are ordered like code points; the loop follows the first difference of the texts |
| C24 | fileio.c SORT | `FileSort` | `SpecFileSort` | simulation over every history of RELEASE/RETURN, merge invariants across work files (`P_FileSort`) |
| C25-C27 | strings.c INSPECT, cobc typeck.c | `Inspect` | `SpecInspect` | scan relation, determinism, induction (`P_Inspect`) |
| C28, C29 | strings.c STRING/UNSTRING | `StringStmt` | `SpecString` | induction over senders/receivers (`P_String`) |
| C30-C32 | fileio.c relative | `Stdio`, `FileIO` | `SpecFile` (finite map) | forward simulation over all histories (`P_Rel`) |
| C33, C34 | fileio.c (line) sequential | `FileIO` | `SpecSeq` (list of records) | simulation, encode/decode round trips (`P_Seq`) |
| C35 | fileio.c statements and status | `FileIO` | `SpecStatus` (history only) | invariant over all histories (`P_Status`) |
| C36-C38 | common.c CBL_* | `Routines` | in `P_Routines` | lists, `Z.testbit` |
| C39, C40 | common.c ALLOCATE, handlers | `Storage` | in `P_Storage` | history induction |
| C41, C54, C55 | cobc field.c/typeck.c/codegen.c layout and checks | `Layout` | `SpecLayout` | structural induction on description trees (`P_Layout`) |
| C42, C48 | intrinsic.c dates | `Dates` | `SpecDate` (calendar as "day after") | induction over days (`P_Date`) |
| C43, C47, C56, C57 | intrinsic.c numeric | `Intr` | `SpecIntr` | rationals, floor (`P_Intr`) |
| C44-C46 | intrinsic.c text | `TextFunc` | `SpecText` | list induction (`P_Text`) |
| C50 | codegen.h binary helpers | `BinOps` | `bin_value` | modular arithmetic (`P_BinOps`) |
| C53 | fileio.c LINAGE | `Linage` | `SpecLinage` (rows of pages) | invariant over sessions (`P_Linage`) |
| C58 | intrinsic.c result ring | `FuncRing` | in `P_FuncRing` | induction on the number of calls |
| C59 | cobc tree.c cb_build_picture | `Picture` | `SpecPic` (spelling out; size, digits, scale, sign and category of a spelled-out picture) | the scan of a string equals the scan of its spelled-out form; invariant relating the scan to the prefix read so far (`P_Pic`) |
| C60 | numeric.c cob_decimal_get_field (edited receiver), typeck.c build_decimal_assign | `EditStore` | `SpecEdit`, `SpecStore` | the temporary DISPLAY item denotes the rounded result; composition with C02, C20 and C59 (`P_EditStore`) |
| C61 | typeck.c cb_emit_arithmetic, build_decimal_assign, decimal_expand; tree.c cb_fits_int; codegen.c output_integer; parser.y arithmetic statements | `Compute` (code sequences and a register machine executing them) | `SpecCompute` (`computes`, `exact`, `meaning`, `stored_all`) | induction on expressions (each register holds the value of its subexpression), loop invariant over receivers, rounding of a cut quotient (`ComputeProofs`, `ComputeStore`, `ComputeMain`, `P_Compute`) |
| C62 | typeck.c 1735-2213 (cb_build_expr and the operator-precedence parser), tree.c cb_build_binary_op | `ExprParse` (stack, expr_lh and expr_op, priorities) | `SpecExpr` (grammar relating tokens to trees) | induction on derivations: after a phrase the stack behaves, for every later token, as if it held one operand with the phrase's tree (`ExprProofs`, `ExprCond`, `P_Expr`) |
| C63 | typeck.c 2495-2843 (cb_build_cond: decimal, memcmp, cob_cmp_* and cob_cmp forms; level 88), codegen.c output_cond | `Cond` (evaluation on items, registers and the static state of cob_cmp_packed) | `SpecCond` (`truth`: values compared in Q, texts by the collating sequence) | case analysis over the routines chosen, each by its own theorem (C04, C11, C12, C21, C22, C50, C51), induction on the tree, uniqueness of truth without quotients (`CondProofs`, `P_Cond`) |
| C64 | typeck.c 6447-6555, codegen.c 2113-2250 (SEARCH, SEARCH ALL) | `Search` (tests from the WHEN phrase, the binary search loop with the variable `ret`, the serial loop) | `SpecSearch` (`sorted_table`, `entry_matches`, `when_is`) | loop invariant: no matching entry outside head..tail, from transitivity of the comparison (C63); induction on the entries left (`SearchProofs`, `P_Search`) |
| C65 | codegen.c 2747-2978, parser.y 3672-3690, 3907-3975, 4965-5034, 5449-5536, typeck.c 1703-1723 (PERFORM, GO TO, EXIT) | `Perform` (statements lowered to numbered instructions; a machine with the frame stack and the TIMES counters) | `SpecPerform` (big-step execution `ev` of statements and ranges, without jumps, frames or counters) | forward simulation by induction on `ev`; backward by induction on the number of steps left and the size of the statement; determinism (`PerformProofs`, `P_Perform`) |
| C66 | parser.y 4761-4940, typeck.c 3946-4084 (EVALUATE) | `Evaluate` (reading of the phrases with eval_check/eval_inc2, evaluate_test, build_evaluate, the nested IF) | `SpecEvaluate` (`test_value`, `when_is`, `case_is`, `selects` on the phrases as written, with the grammar of C62 and the truth of C63) | induction on objects, phrases and groups, from C62 and C63 (`EvaluateProofs`, `P_Evaluate`) |
| C67 | codegen.c 1530-2110, 4020-4035, typeck.c 4185-4202 (INITIALIZE, initial values) | `Initialize` (initialize_type, uniform fills and runs of sisters, VALUE literals, loops over tables; a list of memory writes) | `SpecInitialize` (`due`: what the phrases say about one item; `occurrence`: items below, without REDEFINES; `initialized`: contents and frame) | induction on the description and on the sisters, geometry from C54 (`InitializeProofs`, `P_Initialize`) |
| C68 | termio.c 40-225 (DISPLAY) | `Display` (scratch items and pictures, cob_move, uninitialised buffer as a parameter) | `SpecDisplay` (`figures`, `number_shown`, `shown_as`, `held_as`) | editing theorem of C20 for the scratch picture, MOVE theorem of C15 for the scratch item (`DisplayProofs`, `P_Display`) |
| C69 | fileio.c 322-400, 1964-3697 (INDEXED, Berkeley DB branch without environment) and 3849-4553 | `Indexed` (databases as sorted entry lists, struct indexed_file, statements, histories) | `SpecIndexed` (content by every key, `inserted`/`deleted`/`replaced`, `in_order`, `reach`, `keeps`, `start_pick`) | invariant on the databases by induction over histories; position by splitting the index at the saved key and duplicate number (`IndexedDb`, `IndexedInv`, `IndexedOps`, `IndexedPos`, `IndexedState`, `IndexedRead`, `IndexedStmt`–`IndexedStmt4`, `IndexedThm`, `P_Indexed`) |
| C70 | pplex.l 79-99, 367-421, 519-565, 1194-1346, ppparse.y 183-290 (COPY REPLACING, REPLACE) | `PpText` (queues, lists, two stages, copy stack) | `SpecPpText` (`applies`, `replaced`: left to right, first entry that applies; `contributes`, `section`) | the queue loop is sound for every continuation, total, determined (`PpTextThm`, `PpTextThm2`); the stages composed over whole sources (`PpTextThm3`, `P_PpText`) |
| C71 | call.c 132-790, common.c 1224-1236, codegen.c 2277-2545, 4085-4475, 4612-4625, typeck.c 582-607 (CALL, CANCEL, EXIT PROGRAM) | `Call` (names, hash table, cached pointers, call tree, entry, exit and CANCEL code) | `SpecCall` (`a_step`: who runs, WORKING-STORAGE, used since CANCEL, chains of calls) | refinement of the abstract run unit by the concrete one (`CallThm2`, `CallThm4`); the call tree is the set of call chains while each program calls at most two others (`CallThm3`) |
| C72 | cobc/pplex.l 928-1190 (ppinput, fixed format) | `FixedSrc` (line reading with tabs, CR and the 256 limit, inline comments, indicators, quotation state, trimming and padding, newline counting, buffer bound) | `SpecFixedSrc` (`kind_of` a line from its columns, `program`: the text that begins on each line) | induction over the lines with the quotation state and the pending newlines (`do_lines_spec`), literal and word continuation as consequences |
| C73 | cobc/pplex.l 617-920 (check_directive, check_dollar_directive), 1001-1016; cobc.c 432-484 (--constant) | `CondComp` (options, words, conditions, stack of statuses, pending newlines lost, >>D and >>SOURCE lines) on top of `FixedSrc` | `SpecCondComp` (`block`s of lines, `condition` as a proposition, `selected` lines) | the stack machine runs each block as a list of steps (`block_run`), and the steps give the text lines of the selected program (`run_lines`) |
| C74 | cobc/field.c 77-246 (cb_build_field_tree); tree.c 1743-1750, 2072-2225 (cb_ref); parser.y 6968-6988 | `Names` (nodes with parent, first child and sister, updated one entry at a time; qualification loop; labels) | `SpecNames` (`parent_of` from the level numbers alone, `valid`, `parts`, `owners`, `can_mean`) | invariant `inv` over the entries read so far (parents, sister chains of every group and of the records); the loop over owners is greedy matching = subsequence; candidates counted |
| C75 | cobc/typeck.c 386-407, 3046-3135; parser.y 4277, 5368, 6114 | `Corr` (nested loops over children, on the trees of `Names`) | `SpecCorr` (`leads`: names on the way from a group to an item; `corresponds`) | induction on the depth of the sending group, using the children proved by C74; no pair twice since the part of a group above an item is unique |
| C76 | libcob/fileio.c 5875-5893, 6125-6197, 6230-6262; typeck.c 6797-6836 | `SortUG` (on `FileIO` and `FileSort`) | `SpecSortUG` (`contains`: a closed file and its list of records, `fit`), `SpecSeq`, `SpecFileSort` | loops: the invariants of C24, C33 and C34 carried through one operation at a time; `C76_contents` ties `contains` to what any later program reads |
| C77 | libcob/intrinsic.c 401-409, 2190-2310, 2333-2369, 2446-2624 | `Stats`, `Present` (on `Intr`); qsort is any arrangement its contract allows | `SpecStat` (`ranked`, `least`, `greatest`, `meanQ`, `varianceQ`, `digit_count`) and `SpecPresent` over Q | sums by induction with exact decimal arithmetic (C05); quotients by the truncation theorem of C06, truncating twice; the variance about a truncated mean by the shift identity |

Findings (places where the code does not do what the property says) are theorems with
the suffix `_refuted`; the hypotheses of the positive theorem exclude exactly these
cases.  The property which remains partial: C40 (false for removal of an inner handler:
`C40_remove_refuted`).

## 4. What is not modelled

Floating point (COMP-1/COMP-2 items, transcendental functions of libm), national items
(except C41, C49), terminal and screen I/O, ACCEPT (DISPLAY is modelled, C68), dynamic loading (call.c),
the inside of Berkeley DB (C69 models what it documents) and VBISAM, record locking, process signals,
big-endian hosts, `I18N_UTF8` builds, the parser and code generator of cobc (except the
layout, bounds-check, PICTURE, arithmetic-statement and INSPECT expansion parts cited above).
