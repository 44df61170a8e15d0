# Design of the formal model of GNU Smalltalk

The model lives in `rocq/theories` (logical name `Verif`).  It is written
before the proofs; this file says, for each property of `properties.jsonl`,
what is modelled and how the property is proved.

## Conventions

* One area of the code = one triple of files `X.v` (model: computable Gallina
  functions, every definition citing the file and lines of /repo it models),
  `XProofs.v` (lemmas), and `XProps.v` (only the property theorems, each closed
  by `exact`, followed by `Print Assumptions`, and an `Example` showing that a
  concrete non-trivial case meets its hypotheses).
* Undefined behaviour of C (out-of-bounds access, oversized shifts, aborts) is
  a separate outcome (`UB`, `Abort`), never a normal value.
* Loops that terminate for a non-structural reason take fuel; running out of
  fuel is a separate outcome, and every theorem excludes it.
* Machine words are `Z` with explicit reduction mod 2^64.
* `_refuted` theorems are findings: the property is false of the faithful
  model.  Where a property is refuted at some inputs, a companion theorem
  proves it for all the remaining inputs.

## Trusted base

* Coq 8.16.1's kernel.
* What `Print Assumptions` reports for each theorem (target: "Closed under the
  global context" for all of them).  The only deviations are the theorems of
  C123, except C123_words and C123_overflow_refuted: they speak of real numbers,
  so they depend on the axioms of the standard library's reals,
  `ClassicalDedekindReals.sig_not_dec`, `ClassicalDedekindReals.sig_forall_dec`,
  `FunctionalExtensionality.functional_extensionality_dep` and (through Flocq)
  `Classical_Prop.classic`.
* The reading of the code: nothing in /repo is executed.  The definitions were
  transcribed by hand and cite their sources.
* 64-bit little-endian x86-64 build (`SIZEOF_OOP` = 8), GCC, with GMP, without the JIT.

## Plan per property

| Property | Model | Proof shape |
|---|---|---|
| C01-C03 | `SmallInt.v`: tagged 64-bit words, `add_with_check` & co, special-selector opcodes | case analysis + `lia`/bit lemmas against `Z` |
| C04 | `BitCount.v`: the binary-search loops of SmallInt.st | arithmetic |
| C05, C06 | `Index.v`: object = bytes; wrapping bounds check; per-format load/store | arithmetic, list update lemmas |
| C07 | `CInt.v` | arithmetic |
| C08, C09 | `Mpz.v`: sign-magnitude limbs to/from two's-complement bytes; `Z` semantics of mpn | bytes/limbs <-> `Z` homomorphisms |
| C10-C14 | `IntMath.v`: Euclid, printing, floorLog, factorial, binomial | induction / loop invariants with fuel |
| C15 | `Fraction.v` | against Q |
| C16, C17 | `Hashed.v`: array of slots, linear probing, backward re-insertion, growth | representation invariant, refinement to finite map/set |
| C18, C19 | `CDict.v`: the C dictionaries | same, different thresholds |
| C20 | `OrderColl.v` | refinement to list |
| C21 | `MethodCache.v` | coherence invariant over histories |
| C22-C24 | `Sched.v`: lists of processes, semaphores, active process | invariants over histories |
| C25 | `Async.v`: interleaving semantics of the lock-free queue | invariant over all schedules; lost-call schedule as refutation |
| C26 | `Mark.v`: the marker with its tail-iterated last field, contexts up to their stack pointer, weak objects, and the two passes over ephemerons | reached = inductive reachability (`MarkSpec.v`) whenever it ends; ends without ephemeron keys that are ephemerons; refuted for SmallInteger keys and mutual keys |
| C27 | `OopTab.v`: alloc_oop, the incremental sweep, its start and its end; a collection is its effect on the flags, for any set of survivors | invariant over histories of requests, refinement of a map from OOPs to objects; refuted by a computed history |
| C28 | `Become.v`: _gst_swap_objects, tenuring, fixing, weak and read-only flags, over the table of `OopTab.v` | refinement of exchange in a map from OOPs to objects over histories, involution; refuted for weak objects by a computed history |
| C29 | `BcTables.v`, `Bc.v` | the tables of byte.def and vm.def transcribed; round trip of compile_byte through both by cases on the number of extension bytes; jump sizes refuted by a computed method |
| C30 | `SortColl.v` | sortedness + permutation |
| C31, C32 | `Interval.v`, `Date.v` | arithmetic |
| C33 | `Sym.v` | invariant over histories of interning, dropping and rebuilding: every live symbol is in exactly the chain of its hash, no two in a chain compare equal; refuted for strings with a NUL |
| C34 | `RbTree.v` | pointer-level refinement of an ordered multiset: trees laid out in memory (cells at distinct addresses), zipper contexts, red-black invariant, logarithmic bounds |
| C35, C36 | `Bag.v`, `RunArray.v` | refinement |
| C37 | `Image.v`: save.c, from the table and the fixups through buffered writing with an oracle for write() to buffered or mapped reading, byte order, relocation | both memories are read as graphs (`ImageSpec.v`); the loaded graph is related node by node to the saved one, for all memories and addresses |
| C38 | `Streams.v` | refinement |
| C39, C40 | `Locks.v` | invariants over all schedules |
| C41, C42 | `Fraction.v` | against Q |
| C43, C44 | `Hashed.v` | as C16; C44 refuted by a growing IdentitySet |
| C45 | `CDict.v` | invariant; refuted for method dictionaries |
| C46 | `Replace.v` | spec of a replaced range; refuted for indices that do not fit an int |
| C47 | `OrderColl.v` | refuted; partial for roomy collections |
| C48, C49 | `MCache.v` | refuted by short histories; partial by the invariant of C21 |
| C50 | `Sched.v` | refuted by a history; partial by the refinement of C24 |
| C39, C51, C52 | `Locks.v`, `LocksProps.v` | Small-step model of `RecursionLock>>critical:` over `Semaphore>>critical:` with any number of processes and programs of nested sections; events step, queueInterrupt:, terminate, resume. Invariant (at most one process holds the lock; owner = the one inside) by induction over histories; shape of the stack for nesting; the refutations give a history and prove that the waiter waits in every continuation. |
| C40 | `SharedQ.v`, `SharedQProps.v` | Small-step model of nextPut:, next and peek of any number of processes. Invariant: valueReady's signals plus the elements accounted for by processes in the middle of an operation = the size of the queue; queueSem's signals plus its holders = 1. The trace of additions and removals is compared with the queue and with the programs. |
| C31, C53-C55 | `Interval.v`, `IntervalProps.v` | do:, size, at:, isEmpty, first, last, collect:, reverse, copyFrom:to:, = and hash for integer intervals; against the arithmetic progression cut at stop. Not modelled: intervals of Floats and Fractions (`isExact` false), printing. |
| C32 | `Dates.v`, `DatesProps.v` | setDays: and its inverses with exact integers; against a calendar that goes from one day to the next. One check per month of 400 years by reflection, extended to all days by periodicity and monotonicity. |
| C30, C56-C60 | `SortColl*.v` | SortedCollection as its indexed slots, firstIndex, lastIndex, lastOrdered, sorted; quicksort, heap building/percolation, insertion merge, binary search as written; growth and shrinking reset lastOrdered through copyEmpty:. The float heuristic of makeHeap (buildHeap or one by one) is an arbitrary function. Sort block: pure, total preorder, strict or not. Refinement to an ordered multiset (`SortCollSpec.v`) by an invariant: the prefix up to lastOrdered is ordered, or a heap. |
| C35 | `Bag*.v` | Bag as a client of the LookupTable of `Hashed.v`; refinement to the list of elements, by counting. |
| C36, C61, C62 | `RunArr*.v` | RunArray with its cached position; invariant: expansion of the runs = the list, all runs non-empty, cache consistent. Refinement to lists for the messages that work, witnesses for those that do not. |
| C38, C63-C65, C67 | `Strm*.v` | Streams on collections: collection, cursor, end, with explicit growth; refinement of every message to a list with a cursor. |
| C66 | `StrmSearch*.v` | The Knuth-Morris-Pratt table and loop as written; the table is computed in closed form, then the invariant of the scan gives soundness and (for sequences without inner recurrence of the head) completeness. |
| C68 | `RbTree.v` | refuted: the search of _gst_register_oop_array does not end when the key is found |
| C69 | `Sym.v` | from the invariant of C33; refuted for strings with a NUL |
| C70 | `Sym.v` | from the invariant of C33; refuted for an empty chain |
| C71 | `Sym.v` | induction on the grammar of message names |
| C72 | `Lex.v` | the digit loop keeps the value modulo 2^64 and a flag that is set exactly when the bound was exceeded (induction on the text); byte-wise multiply-add and two's complement by induction on bytes; refuted for the least SmallInteger |
| C73 | `Lex.v`, `IntPrint.v` | composition of C72's lemmas with the printing theorem of C11; refuted for a range of negative numbers with a radix |
| C74 | `LexText.v` | induction on the string; refuted with a NUL |
| C75 | `LexText.v` | case analysis on the shapes of symbols, induction on the characters; refuted for the empty symbol and with a NUL |
| C76 | `LexText.v`, `IntPrint.v` | printed code point as a numeral text, then C72's lemma; refuted for Characters above 127 |
| C77 | `LexText.v` | C72's lemma; refuted for code points from 2^32 |
| C78 | `Bc.v` | symbolic comparison of the two tables, lifted to all operands and sequences by induction |
| C79 | `Bc.v` | each entry of the two superoperator tables checked symbolically; the stack loop by induction over the code already written |
| C80 | `Bc.v`, `BcSpec.v` | refinement against a stack machine with opaque sends; induction over the instructions with an invariant on the code already written; refuted in general |
| C81 | `Bc.v` | the positions at the end of the loop on sizes are consistent; emitted size equals computed size away from three distances; refuted in general |
| C82 | `Mark.v`, `MarkMourn.v` | the list of ephemerons to mourn after marking, against reachability in the heap with ephemeron fields cut; two refutations |
| C83 | `Image.v`, `ImageLoad.v` | the load model with byte swapping; same graph except when mapped at the same address; two refutations |
| C84 | `Image.v`, `ImageFindings.v` | queues of the two graphs, by induction over the queue; refutation with a subclass |
| C85 | `Image.v` | results of write() are an oracle; whole file or none; refutation |
| C86 | `Image.v` | signature test; refutation with a truncated file |
| C87 | `SeqOps.v`: SeqCollect.st, ArrayColl.st, elements compared by an arbitrary function | inductive relation `cut` (SeqOpsSpec.v), by induction over it; non-termination for the empty pattern for every fuel |
| C88 | `SeqOps.v` | equal to firstn/skipn/append for valid ranges, failure for all others; refutations for growing collections |
| C89 | `SeqOps.v` on top of `Replace.v`, source may be the receiver | element-wise specification of `ReplaceSpec.v`, loops by induction in both directions; refutation of atomicity |
| C90 | `SeqOps.v` | equal to repeat, append, joined |
| C91 | `Text.v`: CharArray.st:129-185, 710-745 | inductive relation `matches` (TextSpec.v); induction over the pattern proving soundness, completeness with the longest end, and monotonicity together |
| C92 | `Text.v`: CharArray.st:489-520, with the fill of the copy | a reader of POSIX shell words (TextSpec.v); the result is the string with each special character quoted, read back by induction; refutations by tab, newline and empty string |
| C93 | `Text.v` | relations `words`, `trimmed`; loop invariants over prefix, current word and rest; uniqueness by induction |
| C94 | `Text.v` | relation `less`; sign of the comparison by induction, transitivity by induction |
| C95 | `Text.v` | predicate `numeral`; induction over the string; refutations |
| C96 | `Path.v`: FilePath.st:168-222 on Unix; subStrings: is that of `Text.v` | relation `leads` over components (PathSpec.v); induction over the components; uniqueness |
| C97 | `Path.v`: FilePath.st:224-276 | the result read again with `denotes`; induction over the common prefix; refutations at the root |
| C98 | `Path.v`: FilePath.st:41-166 | searches from the end by induction over the reversed name; decomposition of the name; refutation by .. |
| C99 | `Url.v`: URL.st:48-97, Character.st:255-267 | relation `stands_for` (UrlSpec.v); induction over the text |
| C100 | `Url.v`: URL.st:99-145, 198-292, 759-792; as_integer and print_string of `IntPrint.v` | parsing the printed parts one by one; measure for the loop over at signs; a state that repeats for ever |
| C101 | `Url.v`: URL.st:344-476 | RFC 3986 5.2.4 written literally over two buffers (UrlSpec.v `remove_dots`); both are folds over the segments |
| C102 | `Url.v`: URL.st:360-372, 509-535 | relation `form_text`; invariant: lookup is the values so far |
| C103 | `Url.v`: URL.st:294-318, 478-551 | case analysis of =; a cached hash followed through construct: |
| C104 | `UnwindLang.v`, `Unwind.v`: interp.c:1018-1260, BlkClosure.st:186-197, 264-274, prims.def:2713-2727, vm.def:838-861; exceptions, processes and the stack of unreified contexts left out | big-step meaning with try/finally (UnwindSpec.v); simulation by induction on its fuel: invariant relating the chain of contexts to the activations, description of the chain while a return is pending (`link`, `land`) |
| C105 | same | corollary of the simulation; program that reaches nil |
| C106 | `ExcLang.v`, `Exc.v`: ExcHandling.st:126-133, 183-203, 249-255, 330-386, 418-463, 493-547, BlkClosure.st:48-93, 186-243; unwinding idealised, unhandled exceptions end the model, exceptions signaled once | big-step meaning after the ANSI text (ExcSpec.v), in which handlers carry environments; simulation by induction on fuel, relating environments to stacks of contexts and their `active' masks |
| C107 | same | programs; positive part in C106 |
| C108 | same | program, induction on fuel that it never ends |
| C109 | same | program |
| C110 | same | goodness: is the depth of the nearest ancestor named; loop invariant of the search |
| C111 | `ParseTree.v`, `Parse.v`: gst-parse.c:1302-1460, 1513-2290 (methods, patterns, attributes, statements, expressions, literals, blocks, cascades) on lists of tokens; locations, warnings, actions, class bodies and doits left out | grammar as inductive relations (`ParseSpec.v`), written after the manual; completeness by mutual induction on derivations (`ParseComplete.v`), with fuel enough by `ParseEnds.v`, `ParseMono.v`; unambiguity follows |
| C112 | same | soundness by induction on fuel (`ParseSound.v`) |
| C113 | same | measure 6 x tokens + rank of the function bounds the depth (`ParseEnds.v`) |
| C114 | `Comp.v`: comp.c:657-1010 (methods), 1010-1940 (expressions, control structures, jumps), 2600-2700 (headers), with the interpretation of the bytecodes used (vm.def); closures, thisContext, braces, compile-time constants, primitives and categories left out, receivers of control structures that are no booleans or integers unspecified | specification `CompSpec.v`: evaluator over named variables; decoding and relocation (`CompCode.v`), the state of the compiler (`CompWeak.v`, `CompState.v`), execution (`CompRun.v`), simulation by induction on the bound of the evaluator for each form of source (`CompGen.v`), methods (`CompTop.v`) |
| C115 | same | the simulation carries the bound of the stack: depth counted plus one for each loop |
| C116 | same | measure for the iteration on lengths of jumps; lines only grow; no depth below zero (`CompSafe.v`) |
| C117 | `Scav.v`: oop.c:1515-1628 (queues), 1645-1674, 1740-1774, 1813-2091 (scavenge), without the remembered pages' own bookkeeping, contexts on the stack and compiled code; addresses are offsets in the survivor space; reading words that were never written gives what the memory held | `ScavSpec.v`: reachability over shapes; invariant of the scan: every copied object is in the queue, before or after the scan pointer, those before it have all their fields copied; blocks in the survivor space in order of the queue, apart modulo its size (`ScavProofs.v`); witnesses by computation |
| C118 | same | witness by computation; `alive` is the least set closed under fields and values of ephemerons with live keys |
| C119 | `ScaledD.v`: kernel/ScaledDec.st:43-344 over the fractions of `Fraction.v` (C15), coercions of kernel/Number.st; floats left out | from the theorems of C15; witnesses by computation |
| C120 | same | the rounded difference is the difference in units of the last digit; characterised by floor and ceiling in Q in general |
| C121 | same, with kernel/Number.st:580-608, 671-683, 943-956 | same |
| C122 | same, with displayOn: and printOn:, and libgst/lex.c:749-868, 991-1035, 1353-1364 on top of `Lex.v` | digits by long division, by induction on the scale; the lexer's loop goes on after the full stop with the same invariant as in C72; integers printed and read by C11 and C72 |
| C123 | `Real.v`: libgst/real.c (significands word by word, and the operations as the same operations on 160-bit numbers) and the Float part of scan_number, libgst/lex.c:751-1037; conversions to double and float as roundings to 53 and 24 bits, exponent unbounded | words by induction; each operation is truncated, so each loses a relative 2^-159 at most, added up by induction over the digits and over the squarings of powi in R; final roundings are Flocq's; witnesses by computation. Uses the real numbers of the standard library, hence its axioms sig_not_dec, sig_forall_dec, functional_extensionality_dep and classic |
| C124 | `CLayout.v`: kernel/CStruct.st, kernel/CType.st, sizes of kernel/CObject.st for x86-64; declarations as a mutual inductive type, the text of accessors not modelled | mutual induction on declarations; the specification is an inductive relation (first multiple of the alignment), shown deterministic |
| C125 | same | same; witness by computation |
| C126 | `Alloc.v`: all of libgst/alloc.c but hooks, iteration (_gst_mem_... walkers) and the functions that ask the system, which are an arbitrary function of the state that never gives memory in use | page sets: NoDup of the pages of all regions is kept by splitting and merging; on top an invariant that ties headers, free lists and the client's holdings; induction over histories |
| C127 | same | same; the sum of free and shared blocks is kept by every step |
| C128 | `FloatPrint.v`: Float>>printOn:special: on exact rational numbers, floorLog:, and the text as a list of characters; zero, infinities, NaNs and the least exponents are not modelled | loop invariant: digits so far are the floor of the Float over the weight; the loop ends because weights become less than a unit; case distinction on the last digit; texts by the value 0.d1d2... times a power of ten |
| C129 | `Pipe.v`: the six stream classes of StreamOps.st as one recursive type with an interpreter for messages; two streams do not share a source, pastEnd answers nil | each stream is a list of the objects it has yet to give; one induction over fuel for all classes and messages, with a weight that bounds the fuel; then induction over the expression and over the messages |
| C130 | `PipeAll.v`: do:, linesDo:, upTo:, splitAt:, skipTo:, skip: and contents as loops over the messages of `Pipe.v`; what a species holds is a parameter | induction over the loop with the simulation of C129 |
| C131 | `Moment.v`: DateTime as a Date with seconds and offset, Duration and Time as seconds, with the branches of AnsiDates.st | refinement: a DateTime is its instant days*86400 + seconds - offset; each operation on instants, with the calendar of C32 |
| C132 | `MomentText.v`: the printing and reading methods over lists of ASCII characters, the loops as recursion over the text; the logarithm of the year is exact | decimal digits have their value; each reader consumes one field at a time; then the calendar of C32 and the arithmetic of C131 |
| C133 | `Digest.v`, `Md5.v`: the context with its buffer of 128 bytes (beyond it: UB), the two words of the count, md5_process_bytes, md5_process_block with its 64 operations on named variables, md5_finish_ctx | refinement to RFC 1321 (`DigestSpec.v`): the variables in rotation simulate the steps; invariant: the blocks processed so far, then the rest in the buffer; padding from the count |
| C134 | `Digest.v`, `Sha1.v`: the same context, sha1_process_bytes with its loop for unaligned data, sha1_process_block with 80 steps over named variables and the 16 words of its circular array, sha1_finish_ctx | refinement to RFC 3174: the circular array holds the last 16 words of the schedule; the rest as C133 |
| C135 | `Rect.v`: Points and Rectangles with Integer coordinates, the methods as functions; nil receiving area is an error | refinement: a Rectangle is the set of its points (`RectSpec.v`); areasOutside: by counting the areas that contain a point |
| C136 | `Getopt.v`: the pattern and the command line as lists of Characters; Dictionary, Set and Bag as lists, the order of the sorted collection a parameter; leaving by the error block and signalling an Error are different outcomes | refinement: a small-step semantics of command lines (`GetoptSpec.v`), proved deterministic; what is stored for a table in closed form (`GetoptProofs.v`), the run against the steps (`GetoptRun.v`) |
| C137 | `Mapped.v`: the domain an Array, the map an Array or a Dictionary as a list of associations; a missing key or index is an error | refinement: a MappedCollection is the list of its keys with their objects (`MappedSpec.v`) |
| C138 | `Random.v`: the object as a list of words, the loop of random_generate with its sizes as parameters, next as numerator and denominator (the rounding of the quotient is not modelled) | the words read are one infinite sequence with the recurrence of the Mersenne Twister (`RandomSpec.v`), by induction over rounds; the number of words for each value by division |
| C139 | `Linked.v`: nextLink of all links as one function, lists as pairs of first and last link, loops with fuel | refinement: each list is a sequence (`LinkedSpec.v`), by induction over programs on several lists |
| C140 | `Base64.v`: Strings as lists of values, the four loops with fuel, indices checked; only for startIndex 1 and endIndex the size, as MIME.st:1630-1633 sends it | the text of bytes is an inductive relation (`Base64Spec.v`); induction over groups with the part already decoded as invariant |
| C141 | `Quoted.v`: the loop by recursion on the text, nil at the end as a case; asCharacter and the store into a String with the limit of 127 that libgst has; only for the whole String, as MIME.st:1634-1639 sends it | what a text stands for is an inductive relation (`QuotedSpec.v`); induction on it |

## How to read the log of mutants

In `seeded/LOG.jsonl`, `status` and `lemmas_failed` are what was observed when the edited definition was compiled:
the first statement that `coqc` refused in each file.  `theorems_failed` and `claims_broken` are not observed one by
one.  They are inferred: the theorems that mention a refused lemma, directly or through other lemmas, in the committed
sources.  Theorems that were added after a run can so be listed for it.  A note on a survivor is an argument, made by
reading; where a theorem was tightened, the edit was run again, with the outcome in `rerun_after_tightening`.  The status
`timeout` is no verdict.  The entry for `SortCollSpec.sstep` comes from reading, not
from a run.
