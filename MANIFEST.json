{
 "claims": [
  {
   "property": "C01",
   "status": "proved",
   "theorems": [
    "C01_smallint_plus_exact",
    "C01_smallint_minus_exact",
    "C01_smallint_times_exact",
    "C01_smallint_non_integers_never_misread"
   ],
   "note": "Both the overflow-flag and the portable code paths of + - * on 64-bit tagged words."
  },
  {
   "property": "C02",
   "status": "partial",
   "theorems": [
    "C02_smallint_division_refuted",
    "C02_smallint_int_div_exact",
    "C02_smallint_modulo_exact",
    "C02_smallint_quo_exact",
    "C02_smallint_divide_exact"
   ],
   "note": "REFUTED as stated: SmallInteger smallest divided by -1 wraps (C02_smallint_division_refuted, a finding); every other operand pair is proved exact."
  },
  {
   "property": "C03",
   "status": "proved",
   "theorems": [
    "C03_smallint_comparisons",
    "C03_smallint_bit_operations",
    "C03_smallint_bit_shift"
   ],
   "note": "Comparisons, bitAnd:/bitOr:/bitXor: and bitShift: for all operand words and counts."
  },
  {
   "property": "C04",
   "status": "partial",
   "theorems": [
    "C04_smallint_high_bit_positive",
    "C04_smallint_high_bit_negative",
    "C04_smallint_low_bit",
    "C04_smallint_low_bit_refuted"
   ],
   "note": "REFUTED for lowBit at one value; highBit proved for all SmallIntegers; lowBit refuted at SmallInteger smallest (answers 62, a finding) and proved for all others."
  },
  {
   "property": "C05",
   "status": "partial",
   "theorems": [
    "C05_basicSize",
    "C05_out_of_range_refused",
    "C05_in_range_reads",
    "C05_reads_only_its_slot",
    "C05_writes_only_its_slot",
    "C05_index_bounds_refuted"
   ],
   "note": "REFUTED as stated (C05_index_bounds_refuted): at: 1 / at:put: on an object with no indexed elements leaves the object, and indices that wrap when scaled (e.g. 2^61+1 on a 64-bit array) alias element 1. Proved for every non-empty object and every index that does not wrap: out of range refused, in range confined to the element's bytes."
  },
  {
   "property": "C06",
   "status": "partial",
   "theorems": [
    "C06_store_then_load",
    "C06_store_load_refuted"
   ],
   "note": "REFUTED as stated (C06_store_load_refuted): negative int16 read back positive, 2^31-1 and 2^32-1 refused by the 32-bit formats, uint64 >= 2^63 undefined. Store/load round trip and non-interference proved for every other value of every format."
  },
  {
   "property": "C07",
   "status": "partial",
   "theorems": [
    "C07_int32_round_trip",
    "C07_uint32_round_trip",
    "C07_int64_round_trip",
    "C07_uint64_round_trip_below_2_63",
    "C07_uint64_round_trip_refuted",
    "C07_to_c_int_64_exact",
    "C07_is_c_int_64_exact",
    "C07_is_c_uint_64_exact",
    "C07_is_c_int_32_but_max",
    "C07_is_c_uint_32_but_max",
    "C07_range_predicates_refuted"
   ],
   "note": "REFUTED for some ranges: the range predicates reject INT_MAX/UINT_MAX, and uint64 >= 2^63 is converted by a 71-bit shift; all other conversions proved exact both ways."
  },
  {
   "property": "C08",
   "status": "proved",
   "theorems": [
    "C08_results_canonical",
    "C08_canonical_unique",
    "C08_canonical_exists",
    "C08_canonical_operand"
   ],
   "note": "Every result of the 15 GMP-based LargeInteger primitives is canonical whatever the operands and the unused bytes of the objects; canonical objects exist and are unique for every integer. GMP's mpn functions are represented by their documented contracts."
  },
  {
   "property": "C09",
   "status": "partial",
   "theorems": [
    "C09_sum_difference_product",
    "C09_bit_operations",
    "C09_negated",
    "C09_comparisons",
    "C09_truncated_division",
    "C09_floored_division",
    "C09_floored_division_refuted",
    "C09_shift",
    "C09_shift_refuted"
   ],
   "note": "REFUTED as stated (C09_floored_division_refuted: // and \\\\ are off when a LargeInteger divisor divides a receiver of the other sign; C09_shift_refuted: right shifts of negative LargeIntegers truncate towards zero, counts are taken modulo 2^32, a count of -2^31 is undefined). Proved exact for all operands of +, -, *, quo:, rem:, divExact:, negated, bit operations, comparisons, and for // \\\\ bitShift: outside the refuted cases."
  },
  {
   "property": "C10",
   "status": "partial",
   "theorems": [
    "C10_gcd",
    "C10_gcd_refuted",
    "C10_lcm",
    "C10_large_gcd",
    "C10_large_gcd_refuted",
    "C10_large_gcd_zero"
   ],
   "note": "REFUTED as stated: a LargeNegativeInteger gcd: 0 answers the negative receiver (C10_gcd_refuted, C10_large_gcd_refuted). Every other gcd: (SmallInteger method and LargeInteger primitive over GMP limbs) and every lcm: proved."
  },
  {
   "property": "C11",
   "status": "proved",
   "theorems": [
    "C11_print_read",
    "C11_notation_unique",
    "C11_as_integer",
    "C11_print_radix",
    "C11_print_padded"
   ],
   "note": "printString:, printString:/printStringRadix:/printPaddedWith:to:base: for SmallIntegers and the byte-wise LargePositiveInteger algorithm; reading with Number class>>readFrom:radix: (either letter case, with following text) and asInteger. Fractional parts and exponents of readFrom:radix: are not modelled."
  },
  {
   "property": "C12",
   "status": "partial",
   "theorems": [
    "C12_floor_log",
    "C12_ceiling_log_refuted",
    "C12_ceiling_log_partial",
    "C12_invalid_arguments"
   ],
   "note": "floorLog: proved. REFUTED for ceilingLog: (101 ceilingLog: 10 = 2, 1 ceilingLog: 10 = 1); what it answers is characterised in C12_ceiling_log_partial."
  },
  {
   "property": "C13",
   "status": "proved",
   "theorems": [
    "C13_factorial"
   ],
   "note": "The batching loop with its balanced stack of partial products, for every n."
  },
  {
   "property": "C14",
   "status": "partial",
   "theorems": [
    "C14_binomial",
    "C14_choose_is_quotient",
    "C14_binomial_refuted",
    "C14_binomial_large_loops"
   ],
   "note": "REFUTED for n > SmallInteger largest and 0 < k < n: the method never terminates (C14_binomial_large_loops). Proved for every n up to SmallInteger largest."
  },
  {
   "property": "C15",
   "status": "proved",
   "theorems": [
    "C15_plus",
    "C15_minus",
    "C15_times",
    "C15_divide",
    "C15_divide_by_zero",
    "C15_negated",
    "C15_reciprocal",
    "C15_power",
    "C15_squared",
    "C15_compare"
   ],
   "note": "For every pair of Integers/Fractions in lowest terms. Powers of the numerator and denominator (raisedTo:) are taken as exact Integer powers; receivers are in lowest terms with positive denominator, which numerator:denominator: itself does not enforce."
  },
  {
   "property": "C16",
   "status": "proved",
   "theorems": [
    "C16_lookup_table"
   ],
   "note": "For every sequence of at:put:, at:, removeKey:, size, enumeration and rehash, every equivalence on keys and every hash value respecting it. Also covers IdentityDictionary (== and identityHash). nil keys are excluded, as documented."
  },
  {
   "property": "C17",
   "status": "proved",
   "theorems": [
    "C17_set",
    "C17_algebra",
    "C17_less_equal",
    "C17_less",
    "C17_equal",
    "C17_hash"
   ],
   "note": "For every sequence of add:, includes:, remove:, size, do:, rehash, copy, and every expression over + & - ; < <= = and hash of the results. Elements are not nil and do not change their hash while in the set."
  },
  {
   "property": "C18",
   "status": "partial",
   "theorems": [
    "C18_lookup",
    "C18_size_refuted",
    "C18_size_partial",
    "C18_small_refuted"
   ],
   "note": "REFUTED for the size: grow_identity_dictionary increments tally and so does the store that follows, so size is too large by the number of growths (exact formula proved); and a table made for fewer than four keys can fill up, after which looking up an absent key aborts the VM. Look-ups are proved right for every history on a table made for four keys or more, as all callers in the VM do."
  },
  {
   "property": "C19",
   "status": "proved",
   "theorems": [
    "C19_dictionary",
    "C19_small_refuted"
   ],
   "note": "For tables of more than 9 + 3 * (number of other instance variables) slots, which covers every creation in the VM; C19_small_refuted shows that smaller ones can fill up and abort. The doubled size is assumed to be a size_t."
  },
  {
   "property": "C20",
   "status": "proved",
   "theorems": [
    "C20_ordered_collection"
   ],
   "note": "For every initial capacity and every history; Err (an access outside the storage) is excluded."
  },
  {
   "property": "C21",
   "status": "proved",
   "theorems": [
    "C21_method_cache"
   ],
   "note": "For every hierarchy with finite chains in which doesNotUnderstand: is inherited, every history of sends, special sends, perform:, definitions, removals and flushes, fewer than 2^62 operations; includes the inline caches of at:, at:put:, size and class. Between a store and its flush nothing is claimed."
  },
  {
   "property": "C22",
   "status": "proved",
   "theorems": [
    "C22_signals_counted",
    "C22_no_excess",
    "C22_wait",
    "C22_answer"
   ],
   "note": "Histories of all process and semaphore primitives from any initial state with one process; the count is for semaphores to which nobody sends notify, notifyAll or lock (those discard or grant without signals by design)."
  },
  {
   "property": "C23",
   "status": "partial",
   "theorems": [
    "C23_lists",
    "C23_progress",
    "C23_refuted",
    "C23_time_slice_refuted",
    "C23_lowering_refuted",
    "C23_fork_refuted",
    "C23_lost_refuted",
    "C23_priority_partial",
    "C23_not_lost_partial"
   ],
   "note": "REFUTED as stated: yield and the end of a time slice let a lower-priority process run; lowering the active process's priority keeps it running; fork leaves the new process in the wrong ready list; an asynchronous signal at the end of a time slice loses the process it wakes (C23_*_refuted). Proved: at most one list per process, progress, priority order without those operations, no loss by any other operation."
  },
  {
   "property": "C24",
   "status": "proved",
   "theorems": [
    "C24_fifo",
    "C24_yield"
   ],
   "note": "Every operation but waitAfterSignalling: (see C50) refines a counter and a FIFO queue per semaphore; yield is stated in states where every ready process is in the list of its priority."
  },
  {
   "property": "C25",
   "status": "partial",
   "theorems": [
    "C25_in_order",
    "C25_none_lost",
    "C25_memory_safe",
    "C25_refuted",
    "C25_lost_forever_refuted",
    "C25_signals_partial",
    "C25_signals_once_partial"
   ],
   "note": "REFUTED for _gst_async_call_internal (signal handlers, finalization): when its second compare-and-swap fails it retries, finds the entry marked by itself and returns; the call is lost and so are all later posts of that entry. Proved for _gst_async_call in every interleaving: exactly once, in order, no use after free. For the signal-safe routine proved when posts are not interrupted."
  },
  {
   "property": "C26",
   "status": "partial",
   "theorems": [
    "C26_partial",
    "C26_ends_partial",
    "C26_integer_key_refuted",
    "C26_cyclic_refuted"
   ],
   "note": "REFUTED as stated. C26_partial: for every heap in which no ephemeron key is a SmallInteger, whenever marking ends the marked objects are exactly the reachable ones (never undefined behaviour); C26_ends_partial: it ends if no ephemeron is the key of an ephemeron. C26_integer_key_refuted: an ephemeron whose key is a SmallInteger makes the marker dereference the integer. C26_cyclic_refuted: two ephemerons each the key of the other make mark_ephemeron_oops recur without end. Sharing of the work stack with the C stack and the memory layout of the ranges are not modelled."
  },
  {
   "property": "C27",
   "status": "partial",
   "theorems": [
    "C27_partial",
    "C27_sweep_partial",
    "C27_defined_partial",
    "C27_refuted"
   ],
   "note": "REFUTED: when a step of the incremental sweep (run by the idle process) has freed its hundredth OOP and that was the last of the range, it returns without noting the end of the sweep; live old objects then look dead to alloc_oop, which gives their OOPs to new objects (witness: 103 objects, three kept, one step, two allocations). Proved for every history in which no step ends like that: a new object gets the lowest OOP not in use, the others keep theirs and their contents, the enumeration sees exactly the live ones, a finished sweep has freed exactly the dead ones, and nothing past the table is touched while an OOP is free."
  },
  {
   "property": "C28",
   "status": "partial",
   "theorems": [
    "C28_partial",
    "C28_twice_partial",
    "C28_refuted"
   ],
   "note": "REFUTED: a weak object that takes part in become: is weak no more, because _gst_swap_objects clears its flag before the exchange and so never restores it (witness: two objects, makeWeak, become:). Proved for every history of allocations, collections, sweeping, tenuring, fixing, makeWeak, read-only marking and become: in which no weak object takes part in one (and under the condition of C27): the two OOPs exchange their objects with all their attributes, whatever the generations and the state of the sweep, no other object changes, a read-only object refuses, and a second become: restores everything. References are OOPs, so all references follow."
  },
  {
   "property": "C29",
   "status": "partial",
   "theorems": [
    "C29_decoded",
    "C29_executed",
    "C29_refuted"
   ],
   "note": "REFUTED as stated: the round trip holds for every sequence of instructions, both for the decoder and for the interpreter, but the size computed for a jump can be 4 bytes when 2 are emitted (witness: a method with 256 jumps)."
  },
  {
   "property": "C30",
   "status": "partial",
   "theorems": [
    "C30_partial",
    "C30_order_partial",
    "C30_refuted"
   ],
   "note": "REFUTED as stated: an element added directly after removeLast can stay out of order (C30_refuted; lastOrdered is not updated by removeLast on a sorted collection). C30_partial proves refinement to an ordered multiset, for all histories of add:, addAll:, first, last, at:, removeFirst, removeLast, removeAtIndex:, do:, size in which another access comes between removeLast and an addition; quicksort, heap and merge included; strict and non-strict sort blocks of any total preorder."
  },
  {
   "property": "C31",
   "status": "proved",
   "theorems": [
    "C31_do",
    "C31_unique",
    "C31_at",
    "C31_collect",
    "C31_copy",
    "C31_zero_step"
   ],
   "note": "For integers and a step other than zero: do:, size, at:, collect: and copyFrom:to: agree with the arithmetic progression; C31_zero_step shows the loop that does not end for step 0."
  },
  {
   "property": "C32",
   "status": "proved",
   "theorems": [
    "C32_calendar",
    "C32_valid",
    "C32_successive",
    "C32_new",
    "C32_round_trip",
    "C32_overflow",
    "C32_year",
    "C32_month",
    "C32_week"
   ],
   "note": "Year, month, day and weekday computed from the day number (Date class>>fromDays:, fromSeconds:, newDay:month:year: etc.) against the calendar obtained by going one day at a time from the epoch, for every day number at least as large as needed by the code, and the reverse conversion."
  },
  {
   "property": "C33",
   "status": "partial",
   "theorems": [
    "C33_partial",
    "C33_same",
    "C33_refuted"
   ],
   "note": "REFUTED for strings that contain a NUL character: is_same_string uses strncmp, so two different strings of one length that agree up to a NUL and share a hash chain become the same Symbol (C33_refuted). C33_partial is the law when one of the two strings has no NUL; C33_same holds for all strings."
  },
  {
   "property": "C34",
   "status": "proved",
   "theorems": [
    "C34_registry"
   ],
   "note": "Pointer-level model of rbtrees.c (rotations, rb_rebalance, rb_erase, rb_first, rb_next) and its client _gst_register_oop/_gst_unregister_oop: no NULL or freed node is ever dereferenced, contents and counts are those of the specification, walks are sorted, loops and searches are logarithmic. usage is unbounded in the model (C int); addresses come from an arbitrary allocator."
  },
  {
   "property": "C35",
   "status": "proved",
   "theorems": [
    "C35_bag"
   ],
   "note": "Every history of add:, add:withOccurrences: (also negative), remove:ifAbsent:, occurrencesOf:, includes:, size and do:; elements not nil, = an equivalence respected by hash."
  },
  {
   "property": "C36",
   "status": "partial",
   "theorems": [
    "C36_partial",
    "C36_refuted",
    "C36_addAll_refuted"
   ],
   "note": "REFUTED as stated: addLast:/addFirst: on an empty RunArray signal an error, adding an element equal to the last makes later at: fail or answer wrong elements, at:put: on the first element of a run inserts instead of replacing, removing the only element signals an error. Proved for conversion of any non-empty sequence followed by any history of reads, stores of the element already there, copies and removals that leave at least one element."
  },
  {
   "property": "C37",
   "status": "proved",
   "theorems": [
    "C37_same_graph"
   ],
   "note": "C37_same_graph: for every memory satisfying good_memory (what the garbage collector leaves: classes are live and not made of bytes, sizes agree, chains of superclasses and links end) saving either reports a failed write or yields a file that loads at every address, mapped or buffered, with or without copy on write, as the same graph (view) up to the resets listed by `saved`; settings and version in the header are preserved. Files of 2 GB and more, which overflow an int when mapped, are excluded. Weak-object registration, the spaces the objects are put into and the hooks run after loading are not modelled."
  },
  {
   "property": "C38",
   "status": "proved",
   "theorems": [
    "C38_cursor",
    "C38_round_trip"
   ],
   "note": "Every history of 20 kinds of messages to ReadStreams, WriteStreams and ReadWriteStreams made with on: or with:, at any growth of the buffer; sharing of the buffer between streams is not modelled."
  },
  {
   "property": "C39",
   "status": "proved",
   "theorems": [
    "C39_exclusion",
    "C39_owner_runs",
    "C39_nested",
    "C39_released_at_outermost",
    "C39_free",
    "C39_no_deadlock"
   ],
   "note": "Locks.v: exclusion for all histories of steps, interrupts, resumes and terminations; re-entrancy; release exactly at the end of the outermost section; free when idle, and no deadlock, for histories without terminate and queueInterrupt: (those are C51 and C52)."
  },
  {
   "property": "C40",
   "status": "proved",
   "theorems": [
    "C40_fifo",
    "C40_exactly_once",
    "C40_never_empty",
    "C40_peek",
    "C40_waits_only_if_empty",
    "C40_next_waits",
    "C40_no_deadlock"
   ],
   "note": "SharedQ.v: two counting semaphores with FIFO queues (as specified by SchedSpec.v), any number of processes doing nextPut:, next and peek in any order; not the SortedCollection variant; no termination of a process in the middle of an operation."
  },
  {
   "property": "C41",
   "status": "partial",
   "theorems": [
    "C41_integral_result_refuted",
    "C41_sum_partial",
    "C41_small_quotient_partial"
   ],
   "note": "REFUTED: 2^64 / 2^64, 2^70 / -2, 0 * (1/2), (1/2) / (-1/2) and (1/3) reciprocal answer Fractions with denominator 1. Proved for + and - of reduced operands and for / between SmallIntegers."
  },
  {
   "property": "C42",
   "status": "partial",
   "theorems": [
    "C42_floor",
    "C42_truncated",
    "C42_ceiling_refuted",
    "C42_ceiling_partial",
    "C42_rounded_refuted",
    "C42_rounded_positive",
    "C42_rounded_negative_partial",
    "C42_floored_division",
    "C42_modulo"
   ],
   "note": "REFUTED for ceiling of Fractions with a LargeInteger denominator and for rounded of negative Fractions with a large denominator (both inherit the LargeInteger // defect of C09). floor, truncated, // and \\\\ are proved without restriction; ceiling for SmallInteger denominators; rounded for non-negative receivers, and for negative ones of denominator below 2^61."
  },
  {
   "property": "C43",
   "status": "proved",
   "theorems": [
    "C43_dictionary"
   ],
   "note": "For every sequence of at:put:, at:, removeKey:, size, enumeration and rehash."
  },
  {
   "property": "C44",
   "status": "partial",
   "theorems": [
    "C44_identity_set_refuted",
    "C44_identity_set_partial"
   ],
   "note": "REFUTED: IdentitySet redefines findIndex: but not findElementIndex:, so growing, copying and removing place elements by hash and later look-ups by identityHash miss them. Proved when hash and identityHash agree on the elements."
  },
  {
   "property": "C45",
   "status": "partial",
   "theorems": [
    "C45_refuted",
    "C45_partial"
   ],
   "note": "REFUTED: grow_identity_dictionary copies only tally, so a method dictionary that grows from C forgets its mutex. Proved for dictionaries of Associations (C19_dictionary), and for identity dictionaries that do not grow."
  },
  {
   "property": "C46",
   "status": "partial",
   "theorems": [
    "C46_refuted",
    "C46_overflow_refuted",
    "C46_partial"
   ],
   "note": "REFUTED: the arguments are truncated to int, so index 2^32+1 stores at 1; startingAt: near 2^31 overflows. Proved for indices within 2^29 and objects of fewer than 2^28 elements."
  },
  {
   "property": "C47",
   "status": "partial",
   "theorems": [
    "C47_addAll_refuted",
    "C47_addAllFirst_refuted",
    "C47_partial"
   ],
   "note": "REFUTED: addAll: the receiver signals an index error when the storage is not large enough, addAllFirst: the receiver adds nils. Proved for addAll: when six times the room is available."
  },
  {
   "property": "C48",
   "status": "partial",
   "theorems": [
    "C48_refuted",
    "C48_partial"
   ],
   "note": "REFUTED: Behavior>>superclass: does not flush the method cache. Proved when Behavior flushCache follows."
  },
  {
   "property": "C49",
   "status": "partial",
   "theorems": [
    "C49_refuted",
    "C49_partial"
   ],
   "note": "REFUTED: _gst_execute_statements resets _gst_sample_counter even when the statement is a constant and nothing is run; _gst_invalidate_method_cache then does nothing. Proved when no such statement occurs."
  },
  {
   "property": "C50",
   "status": "partial",
   "theorems": [
    "C50_refuted",
    "C50_partial"
   ],
   "note": "REFUTED: when the signal wakes up a process of the same or of a higher priority, that process is put to wait instead of the sender. Proved when nobody, or only a lower-priority process, is first in line."
  },
  {
   "property": "C51",
   "status": "partial",
   "theorems": [
    "C51_partial",
    "C51_refuted"
   ],
   "note": "REFUTED as stated: a process terminated after its section has ended and before the semaphore is signalled never signals it, because an ensure: block that is running is no longer an unwind context. Proved for all other moments (C51_partial)."
  },
  {
   "property": "C52",
   "status": "partial",
   "theorems": [
    "C52_refuted",
    "C52_partial"
   ],
   "note": "REFUTED as stated: after the interrupt the original wait answers nil although the repeated wait consumed a signal; critical: then skips the block and never signals: the lock is lost. Without queueInterrupt: and resume no section is skipped (C52_partial)."
  },
  {
   "property": "C53",
   "status": "partial",
   "theorems": [
    "C53_partial",
    "C53_refuted",
    "C53_first_last"
   ],
   "note": "REFUTED: (5 to: 5 by: -1) has size 1, yet isEmpty is true, first and last raise an error and it equals an empty interval (C53_refuted). Proved for all other intervals."
  },
  {
   "property": "C54",
   "status": "partial",
   "theorems": [
    "C54_equal",
    "C54_refuted",
    "C54_partial"
   ],
   "note": "REFUTED: (1 to: 10 by: 4) = (1 to: 9 by: 4) with different hashes (C54_refuted). Equal intervals do have the same elements (C54_equal) and, if they also have the same stop, the same hash (C54_partial)."
  },
  {
   "property": "C55",
   "status": "partial",
   "theorems": [
    "C55_partial",
    "C55_empty",
    "C55_refuted"
   ],
   "note": "REFUTED: reverse of any empty interval raises IndexOutOfRange (C55_empty). Proved for intervals with elements."
  },
  {
   "property": "C56",
   "status": "partial",
   "theorems": [
    "C56_partial",
    "C56_refuted"
   ],
   "note": "REFUTED as stated, as a consequence of C30_refuted (C56_refuted); proved for the histories of C30_partial."
  },
  {
   "property": "C57",
   "status": "partial",
   "theorems": [
    "C57_refuted"
   ],
   "note": "REFUTED: (SortedCollection with: 3) occurrencesOf: 3 is 0."
  },
  {
   "property": "C58",
   "status": "partial",
   "theorems": [
    "C58_refuted",
    "C58_partial"
   ],
   "note": "REFUTED when different elements sort alike; proved (C58_partial) when elements that sort alike are equal, for the histories of C30_partial."
  },
  {
   "property": "C59",
   "status": "partial",
   "theorems": [
    "C59_refuted"
   ],
   "note": "REFUTED: at:put: is defined a second time further down in the file, which overrides shouldNotImplement."
  },
  {
   "property": "C60",
   "status": "partial",
   "theorems": [
    "C60_refuted"
   ],
   "note": "REFUTED: last answers nil for an empty collection that has capacity."
  },
  {
   "property": "C61",
   "status": "partial",
   "theorems": [
    "C61_partial",
    "C61_refuted"
   ],
   "note": "REFUTED as stated: after removeAtIndex: two neighbouring runs of equal elements are not merged and = compares runs. Proved for RunArrays just converted from sequences."
  },
  {
   "property": "C62",
   "status": "partial",
   "theorems": [
    "C62_refuted",
    "C62_other_refuted"
   ],
   "note": "REFUTED: the source compares each element with the start index instead of the argument."
  },
  {
   "property": "C63",
   "status": "partial",
   "theorems": [
    "C63_refuted"
   ],
   "note": "REFUTED: limit: ignores its argument, so the stream is on the whole collection."
  },
  {
   "property": "C64",
   "status": "partial",
   "theorems": [
    "C64_partial",
    "C64_refuted"
   ],
   "note": "REFUTED for ReadWriteStreams, which inherit the method of WriteStream and answer only what is before the cursor. Proved for ReadStreams and (C38_round_trip) WriteStreams."
  },
  {
   "property": "C65",
   "status": "partial",
   "theorems": [
    "C65_partial",
    "C65_refuted"
   ],
   "note": "REFUTED when the stream ends before its collection does: the search does not stop at the end of the stream. Proved when both end together."
  },
  {
   "property": "C66",
   "status": "partial",
   "theorems": [
    "C66_sound_partial",
    "C66_partial",
    "C66_empty_partial",
    "C66_refuted"
   ],
   "note": "REFUTED: the prefix table is 0 1 1 1 ... (an increment is missing), so overlapping occurrences are missed, including the example of the comment; a one-element sequence signals an index error. Proved: soundness for all sequences, completeness when the first element does not recur inside the sequence."
  },
  {
   "property": "C67",
   "status": "partial",
   "theorems": [
    "C67_partial",
    "C67_refuted"
   ],
   "note": "REFUTED when the cursor is not at the end (index error). Proved when it is."
  },
  {
   "property": "C68",
   "status": "partial",
   "theorems": [
    "C68_partial",
    "C68_again",
    "C68_refuted"
   ],
   "note": "REFUTED: _gst_register_oop_array does not return when the array is registered already (the loop increments usage for ever); C68_partial is the law for histories that never do so."
  },
  {
   "property": "C69",
   "status": "partial",
   "theorems": [
    "C69_partial",
    "C69_refuted"
   ],
   "note": "REFUTED for strings with a NUL character (C69_refuted, same cause as C33). C69_partial is the law for the others."
  },
  {
   "property": "C70",
   "status": "partial",
   "theorems": [
    "C70_partial",
    "C70_has",
    "C70_defined",
    "C70_refuted"
   ],
   "note": "REFUTED: when the hash chain of the string is empty its head is nil and nil does not understand #do:, so the test fails instead of answering false (C70_refuted; unlikely in a full image, where few of the 512 chains are empty). C70_partial and C70_has are the law whenever the methods answer, C70_defined says when they do."
  },
  {
   "property": "C71",
   "status": "proved",
   "theorems": [
    "C71_numArgs",
    "C71_vm"
   ],
   "note": "Both implementations give the number of arguments for every valid message name."
  },
  {
   "property": "C72",
   "status": "partial",
   "theorems": [
    "C72_partial",
    "C72_value",
    "C72_radix",
    "C72_refuted"
   ],
   "note": "REFUTED as stated by C72_refuted: -4611686018427387904 compiles to a LargeNegativeInteger although it is SmallInteger's least value (so it is not identical to, and not normalised like, the SmallInteger). C72_partial and C72_radix prove the statement for all other integers in all bases (sign in front); C72_value proves the value right for all decimal literals. The form 16r-FF is in C73."
  },
  {
   "property": "C73",
   "status": "partial",
   "theorems": [
    "C73_decimal_partial",
    "C73_partial",
    "C73_wrong",
    "C73_refuted"
   ],
   "note": "REFUTED as stated by C73_refuted: every integer from -3*2^62 to -2^62-1 printed with a radix (16r-4000000000000001) is read back as a wrong SmallInteger (C73_wrong), because the bound for negative literals is computed from the wrong unsigned constant. Proved for all other integers by C73_partial; decimal output by C73_decimal_partial (except the object of C72_refuted)."
  },
  {
   "property": "C74",
   "status": "partial",
   "theorems": [
    "C74_partial",
    "C74_nul",
    "C74_refuted"
   ],
   "note": "REFUTED as stated by C74_refuted: a string is cut at its first character of value 0 (C74_nul). C74_partial proves it for all others."
  },
  {
   "property": "C75",
   "status": "partial",
   "theorems": [
    "C75_partial",
    "C75_nul",
    "C75_refuted"
   ],
   "note": "REFUTED as stated by C75_refuted: #'' can be written but printing it is an error (isSimpleSymbol sends at: 1). Symbols with a character of value 0 are cut (C75_nul). C75_partial proves it for all others."
  },
  {
   "property": "C76",
   "status": "partial",
   "theorems": [
    "C76_partial",
    "C76_wrong",
    "C76_refuted"
   ],
   "note": "REFUTED as stated by C76_refuted: every Character from 128 to 255 is stored as $<16r00C8>, which reads as a UnicodeCharacter that is not = to it (C76_wrong). C76_partial proves it for all other characters."
  },
  {
   "property": "C77",
   "status": "partial",
   "theorems": [
    "C77_partial",
    "C77_refuted"
   ],
   "note": "REFUTED as stated by C77_refuted: $<4294967361> is accepted and is $A (the code point is truncated to an int). C77_partial proves it for all code points below 2^31."
  },
  {
   "property": "C78",
   "status": "proved",
   "theorems": [
    "C78_agree",
    "C78_transfer"
   ],
   "note": "For straight-line code; the operand of LINE_NUMBER_BYTECODE, which the interpreter ignores, is left out of the comparison."
  },
  {
   "property": "C79",
   "status": "proved",
   "theorems": [
    "C79_superoperators",
    "C79_jump"
   ],
   "note": "The tables of superoperators are transcribed entry by entry; the theorem holds for all code, whatever the bytes."
  },
  {
   "property": "C80",
   "status": "partial",
   "theorems": [
    "C80_partial",
    "C80_refuted"
   ],
   "note": "REFUTED as stated: '300. ^1' on one line answers 257, because removing an extended push that is popped leaves its extension byte behind. Proved for every block in which no push with an operand above 255 is popped at once; code that would underflow the stack is left out."
  },
  {
   "property": "C81",
   "status": "partial",
   "theorems": [
    "C81_partial",
    "C81_refuted"
   ],
   "note": "REFUTED as stated: a method with 256 jumps has a jump that lands 2 bytes after its destination. Proved for every method in which no forward jump has displacement 254, 65534 or 16777214, if the loop on sizes ends (it is not proved to end)."
  },
  {
   "property": "C82",
   "status": "partial",
   "theorems": [
    "C82_partial",
    "C82_never_refuted",
    "C82_early_refuted"
   ],
   "note": "REFUTED as stated. C82_partial: a mourned ephemeron has a key not reachable without ephemerons, and an ephemeron with the only path to its key is mourned. C82_never_refuted: an ephemeron whose value refers to its key is never mourned. C82_early_refuted: an ephemeron is mourned though its key is the value of another ephemeron with a live key."
  },
  {
   "property": "C83",
   "status": "partial",
   "theorems": [
    "C83_other_order_partial",
    "C83_mapped_refuted",
    "C83_elements_refuted"
   ],
   "note": "REFUTED as stated. C83_other_order_partial: the same pointers and the same bytes, if the file is not mapped, or copy on write is not possible, or the address differs. C83_mapped_refuted: mapped at the same address the test `~wrong_endianness` (save.c:602) is always true, so objects are used with swapped words: undefined behaviour. C83_elements_refuted: wider elements (64-bit arrays; likewise floats) are never swapped and change value."
  },
  {
   "property": "C84",
   "status": "partial",
   "theorems": [
    "C84_queue_partial",
    "C84_queue_refuted"
   ],
   "note": "REFUTED as stated. C84_queue_partial: holds for a direct instance of Semaphore on which only direct instances of Process and CallinProcess wait (g and g' being related as by C37_same_graph). C84_queue_refuted: an instance of a subclass of Process keeps its link to a CallinProcess, whose own link is reset, so the processes behind it are lost."
  },
  {
   "property": "C85",
   "status": "partial",
   "theorems": [
    "C85_whole_or_none_partial",
    "C85_old_image_refuted"
   ],
   "note": "REFUTED as stated. C85_whole_or_none_partial: after saving there is a whole, loadable image, or no file, the latter only if opening or some write failed. C85_old_image_refuted: the old image is unlinked before anything is written (save.c:288)."
  },
  {
   "property": "C86",
   "status": "partial",
   "theorems": [
    "C86_signature_partial",
    "C86_truncated_refuted"
   ],
   "note": "REFUTED as stated. C86_signature_partial: a file of at least 168 bytes without the signature is refused. C86_truncated_refuted: a truncated file is loaded, reading past its end: undefined behaviour."
  },
  {
   "property": "C87",
   "status": "partial",
   "theorems": [
    "C87_replace_all_partial",
    "C87_one_way",
    "C87_index",
    "C87_refuted"
   ],
   "note": "REFUTED as stated for an empty sub-collection. C87_replace_all_partial: holds for every non-empty one (the cut into pieces is unique, C87_one_way; the first occurrence is answered, C87_index). C87_refuted: an empty one is found at every index, so counting its occurrences (SeqCollect.st:1091-1104) never ends."
  },
  {
   "property": "C88",
   "status": "partial",
   "theorems": [
    "C88_arrays_partial",
    "C88_growing_partial",
    "C88_refuted"
   ],
   "note": "REFUTED as stated. C88_arrays_partial: arrays do as stated for all indices, except that copyFrom:to: answers an empty copy for an empty range anywhere; C88_growing_partial: growing collections do for ranges that exist. C88_refuted: growing collections accept ranges reaching beyond either end; copyFrom: 100 to: 99 is not refused."
  },
  {
   "property": "C89",
   "status": "partial",
   "theorems": [
    "C89_copied",
    "C89_success_partial",
    "C89_refuted"
   ],
   "note": "REFUTED as stated. C89_copied: ranges that exist are copied, overlapping or not, by primitive or loop. C89_success_partial: success means so. C89_refuted: the inherited method checks the end of the range against the size of the source without regard to where the source range starts (SeqCollect.st:542), so it stores some elements before failing."
  },
  {
   "property": "C90",
   "status": "proved",
   "theorems": [
    "C90_whole"
   ],
   "note": "C90_whole, for all sizes, whether or not the primitive applies. The number of elements is not bounded; the primitive is used with exact integers (see C46)."
  },
  {
   "property": "C91",
   "status": "proved",
   "theorems": [
    "C91_match",
    "C91_index"
   ],
   "note": "C91_match, C91_index. Characters are codes; lower case is that of ASCII. The place after the last character is not searched."
  },
  {
   "property": "C92",
   "status": "partial",
   "theorems": [
    "C92_word_partial",
    "C92_refuted"
   ],
   "note": "REFUTED as stated. C92_word_partial: holds for every non-empty string without tabs and newlines. C92_refuted: neither tab nor newline is escaped (CharArray.st:489-520), so a tab splits the word and a newline starts another command; the empty string yields no word at all."
  },
  {
   "property": "C93",
   "status": "proved",
   "theorems": [
    "C93_words",
    "C93_words_of",
    "C93_one_way",
    "C93_trim"
   ],
   "note": "C93_words, C93_words_of, C93_trim; the words are determined by the string (C93_one_way)."
  },
  {
   "property": "C94",
   "status": "proved",
   "theorems": [
    "C94_order",
    "C94_transitive"
   ],
   "note": "C94_order, C94_transitive, for the ASCII case mapping; the comparison of Symbols with Strings is not modelled."
  },
  {
   "property": "C95",
   "status": "partial",
   "theorems": [
    "C95_numeric_partial",
    "C95_refuted"
   ],
   "note": "REFUTED as stated. C95_numeric_partial: holds for strings that are not empty and not digits followed by a point at the end. C95_refuted: the empty string answers true, and digits followed by a point fail because nil does not understand isDigit (CharArray.st:656-657)."
  },
  {
   "property": "C96",
   "status": "proved",
   "theorems": [
    "C96_full_name",
    "C96_determined",
    "C96_idempotent"
   ],
   "note": "C96_full_name, C96_determined, C96_idempotent. Names are lexical, as in the code: symbolic links are not followed. Modelled for systems whose separator is the slash."
  },
  {
   "property": "C97",
   "status": "partial",
   "theorems": [
    "C97_relative_partial",
    "C97_refuted"
   ],
   "note": "REFUTED as stated. C97_relative_partial: holds whenever the source is not the root and not both the destination is the root and the source is in it. C97_refuted: from the root it fails with an empty collection error (FilePath.st:251); from a file in the root to the root it answers the empty string."
  },
  {
   "property": "C98",
   "status": "partial",
   "theorems": [
    "C98_parts",
    "C98_append",
    "C98_extension_partial",
    "C98_refuted"
   ],
   "note": "REFUTED as stated for the entry .. (C98_refuted: its extension is said to be a point, and without it the name is that of another directory). C98_parts, C98_append hold for all names; C98_extension_partial for all names with .. read as an ordinary name."
  },
  {
   "property": "C99",
   "status": "partial",
   "theorems": [
    "C99_encode",
    "C99_decode_partial",
    "C99_decode_refuted"
   ],
   "note": "REFUTED for lower-case digits: C99_decode_refuted (%2f is refused; Character>>digitValue accepts only upper case). C99_encode holds for all strings of bytes; C99_decode_partial for all text without lower-case letters in escapes. Characters beyond 255 are not modelled in encode:."
  },
  {
   "property": "C100",
   "status": "partial",
   "theorems": [
    "C100_round_trip_partial",
    "C100_answers_partial",
    "C100_answers_refuted",
    "C100_round_trip_refuted",
    "C100_fragment_refuted"
   ],
   "note": "REFUTED as stated: C100_answers_refuted (http://user@ is read for ever), C100_round_trip_refuted (a URL with a host and no scheme prints without //), C100_fragment_refuted (? in a fragment). C100_round_trip_partial: all URLs whose parts can be told apart (predicate parseable). C100_answers_partial: every text whose part before query and fragment does not end with an at sign."
  },
  {
   "property": "C101",
   "status": "partial",
   "theorems": [
    "C101_construct_partial",
    "C101_dots_refuted",
    "C101_query_refuted",
    "C101_host_refuted"
   ],
   "note": "REFUTED as stated: C101_dots_refuted, C101_query_refuted, C101_host_refuted. C101_construct_partial: all references that are a path (with query and fragment), when no path has empty segments inside or ends with dots and the base is no file URL."
  },
  {
   "property": "C102",
   "status": "partial",
   "theorems": [
    "C102_fields_partial",
    "C102_names_refuted",
    "C102_empty_refuted"
   ],
   "note": "REFUTED as stated: C102_names_refuted (names are not decoded), C102_empty_refuted (a repeated name whose first value is empty fails). C102_fields_partial: all forms whose names need no decoding and whose values are not empty."
  },
  {
   "property": "C103",
   "status": "partial",
   "theorems": [
    "C103_equal_refuted",
    "C103_reflexive_refuted",
    "C103_hash_refuted"
   ],
   "note": "REFUTED as stated: C103_equal_refuted and C103_reflexive_refuted (decodedFile sends #file, which is not understood, so = never answers true), C103_hash_refuted (construct: keeps the cached hash of its receiver)."
  },
  {
   "property": "C104",
   "status": "partial",
   "theorems": [
    "C104_return_from_block_refuted",
    "C104_return_from_block_partial"
   ],
   "note": "REFUTED as stated: C104_return_from_block_refuted: when the argument of an ensure: itself returns from a block while a return is pending, disable_non_unwind_contexts links the target to the caller of the context it should link it to (interp.c:1260), and the method in between is never continued. C104_return_from_block_partial: all programs in which the arguments of ensure: end normally while a return is pending."
  },
  {
   "property": "C105",
   "status": "partial",
   "theorems": [
    "C105_no_nil_context_refuted",
    "C105_no_nil_context_partial"
   ],
   "note": "REFUTED as stated: C105_no_nil_context_refuted: two nested ensure: whose arguments return make the interpreter return to nil (same cause as C104). C105_no_nil_context_partial: same programs as C104_return_from_block_partial, if they end."
  },
  {
   "property": "C106",
   "status": "partial",
   "theorems": [
    "C106_handler_environment_refuted",
    "C106_handled_as_meant_partial"
   ],
   "note": "REFUTED as stated: C106_handler_environment_refuted: the handler block runs on top of the stack of the signal and the search does not skip the contexts of the protected block, so their handlers (and those of the same on:do:on:do:) catch what the handler block signals. C106_handled_as_meant_partial: all programs that do none of the things listed at mean in ExcSpec.v."
  },
  {
   "property": "C107",
   "status": "partial",
   "theorems": [
    "C107_pass_refuted",
    "C107_outer_refuted"
   ],
   "note": "REFUTED: C107_pass_refuted, C107_outer_refuted: activateHandler: true makes the end of the enclosing handler block resume, and pass then leaves the inner on:do: only. Uses of pass and outer whose enclosing handler ends with return: (or, for outer, resume:) are in C106_handled_as_meant_partial."
  },
  {
   "property": "C108",
   "status": "partial",
   "theorems": [
    "C108_return_refuted"
   ],
   "note": "REFUTED: C108_return_refuted: return: resets the state of all handlers on the stack, including those that are running; the program then recurses for ever. Programs that signal nothing the running on:do: names after such a return: are in C106_handled_as_meant_partial."
  },
  {
   "property": "C109",
   "status": "partial",
   "theorems": [
    "C109_retry_refuted"
   ],
   "note": "REFUTED: C109_retry_refuted: retry evaluates the block on top of the stack and leaves the first attempt afterwards. No positive result on retry."
  },
  {
   "property": "C110",
   "status": "proved",
   "theorems": [
    "C110_nearest_handler",
    "C110_no_handler"
   ],
   "note": ""
  },
  {
   "property": "C111",
   "status": "partial",
   "theorems": [
    "C111_every_text_parsed_refuted",
    "C111_every_expression_parsed_partial",
    "C111_every_method_parsed_partial",
    "C111_unambiguous_partial",
    "C111_methods_unambiguous_partial"
   ],
   "note": "REFUTED as stated: C111_every_text_parsed_refuted: in #($< 5) the character is taken for the start of $<5> and the text refused (gst-parse.c:1812-1830). The partial theorems hold of all texts in which $< is not followed by an integer (other than as $<n>)."
  },
  {
   "property": "C112",
   "status": "partial",
   "theorems": [
    "C112_only_texts_parsed_refuted",
    "C112_bars_refuted",
    "C112_expressions_partial",
    "C112_methods_partial"
   ],
   "note": "REFUTED as stated: C112_only_texts_parsed_refuted: parse_array_literal answers NULL instead of an error for an array that is not closed, parse_statements takes that for the end of the statements, and the array is dropped (gst-parse.c:1866-1892, 1561-1599). C112_bars_refuted: only two characters of the operator are compared (gst-parse.c:2036-2037). The partial theorems hold of all texts without either."
  },
  {
   "property": "C113",
   "status": "proved",
   "theorems": [
    "C113_expressions_end",
    "C113_methods_end",
    "C113_depth"
   ],
   "note": "About methods and expressions; class definitions and doits (gst-parse.c:562-1300) are not modelled."
  },
  {
   "property": "C114",
   "status": "partial",
   "theorems": [
    "C114_method_partial",
    "C114_loop_of_256_bytes_refuted",
    "C114_limit_of_loop_refuted",
    "C114_answer_of_to_by_do_refuted",
    "C114_super_cascade_refuted",
    "C114_temporaries_refuted"
   ],
   "note": "REFUTED as stated, in five ways: C114_answer_of_to_by_do_refuted (expanded in line, to:by:do: answers the receiver; the message answers its first argument, Number.st:998), C114_loop_of_256_bytes_refuted (to:do: and timesRepeat: compare the length of the jump back with > 256 where an argument byte is needed from 256 on, comp.c:1594-1599, 1674-1679 against 1491-1496: a loop of exactly 256 bytes is repeated from its second byte pair), C114_limit_of_loop_refuted (the variable of to:do: is declared before the limit is compiled), C114_super_cascade_refuted (comp.c:1413-1414), C114_temporaries_refuted (MAX_NUM_TEMPS is never checked). C114_method_partial holds of all methods without these. A source that sends ifTrue: and the like to something that is no boolean, or to:do: to something that is no integer, has no specified meaning; neither has the answer of to:by:do:. Blocks that are not expanded in line, thisContext, braces and compile-time constants are not modelled here, nor is the optimiser (opt.c), which has theorems of its own (C79, C80 and C81)."
  },
  {
   "property": "C115",
   "status": "partial",
   "theorems": [
    "C115_stack_partial",
    "C115_nested_loops_refuted"
   ],
   "note": "REFUTED as stated: C115_nested_loops_refuted: compile_to_by_do does not count the second of the objects it pushes (comp.c:1650-1656), one for each level of nesting; six loops in one another overflow the context. C115_stack_partial holds of methods with at most three levels whose slots fit the header. alloc_stack_context (interp.c:790-809) happens to reserve more than the header says, so that the overflow does harm only once the context is copied to the heap."
  },
  {
   "property": "C116",
   "status": "proved",
   "theorems": [
    "C116_compiler_ends"
   ],
   "note": "Methods as the parser makes them: at most 255 arguments, two messages at least in a cascade, lines that do not go back before the line of the method."
  },
  {
   "property": "C117",
   "status": "partial",
   "theorems": [
    "C117_scavenge_partial",
    "C117_ephemeron_refuted",
    "C117_ephemeron_class_refuted",
    "C117_scanned_last_refuted",
    "C117_full_queue_refuted"
   ],
   "note": "REFUTED as stated, in four ways. C117_ephemeron_refuted: scan_grey_objects takes the address of the ephemeron before it copies its fields and reads the key from there afterwards (oop.c:1892, 1907-1917); copying may tenure the ephemeron, the key is then read from memory that has been used again, is lost and the ephemeron is not mourned. C117_ephemeron_class_refuted: the class of an ephemeron is skipped with its key (oop.c:1655-1660) and never copied. C117_scanned_last_refuted: scan.current keeps its value from the scavenge before; if that object is copied again it is taken for the one being scanned. C117_full_queue_refuted: the scan pointer is left at the end of the queue when exactly as many objects as it has slots have been scanned, and the queue wraps around without it. The last two need more survivors than the queue has slots, 8192 by default. C117_scavenge_partial: without young ephemerons and with at most so many survivors all of the property holds, however many objects are tenured, and the scavenge ends."
  },
  {
   "property": "C118",
   "status": "partial",
   "theorems": [
    "C118_mourned_refuted"
   ],
   "note": "REFUTED as stated: C118_mourned_refuted: ephemerons are looked at once, in the order they were found (oop.c:1888-1934); one whose key is the value of a later ephemeron with a live key is mourned although its key is alive. (The global garbage collector is the subject of C82.)"
  },
  {
   "property": "C119",
   "status": "partial",
   "theorems": [
    "C119_arithmetic_partial",
    "C119_floored_division_refuted",
    "C119_division_by_nonzero_refuted",
    "C119_fraction_refuted"
   ],
   "note": "REFUTED as stated: C119_floored_division_refuted and C119_division_by_nonzero_refuted (// coerces its argument to a Fraction with asFraction, which drops the digits beyond the scale, ScaledDec.st:126-135, 208-214), C119_fraction_refuted (so does every operation with a Fraction, Number.st:255-261). C119_arithmetic_partial: all the other operations between ScaledDecimals are exact; an Integer operand is coerced to a ScaledDecimal of the same value first."
  },
  {
   "property": "C120",
   "status": "partial",
   "theorems": [
    "C120_comparison_partial",
    "C120_tolerance",
    "C120_transitivity_refuted"
   ],
   "note": "REFUTED as stated: C120_transitivity_refuted: 1.54s2 = 1.5s1 and 1.5s1 = 1.46s2 but 1.46s2 < 1.54s2; the hash values of equal numbers also differ, being those of the fractions. C120_tolerance says what is compared in general (for denominators whose product is less than 2^61; beyond, the rounding of C42_rounded_refuted interferes); C120_comparison_partial: between numbers of the same scale with no further digits the messages are right."
  },
  {
   "property": "C121",
   "status": "partial",
   "theorems": [
    "C121_sign_partial",
    "C121_truncated",
    "C121_abs_refuted",
    "C121_floor_refuted"
   ],
   "note": "REFUTED as stated: C121_abs_refuted and C121_floor_refuted, for numbers nearer to zero than half a unit of the last digit. C121_sign_partial: right for numbers with no further digits than the scale counts; C121_truncated for all. ceiling is that of the fraction (C42)."
  },
  {
   "property": "C122",
   "status": "partial",
   "theorems": [
    "C122_print_read_partial",
    "C122_digits",
    "C122_print_read_refuted",
    "C122_minus_zero_refuted"
   ],
   "note": "REFUTED as stated: C122_print_read_refuted (digits are cut off where = rounds) and C122_minus_zero_refuted. C122_print_read_partial: numbers with no further digits than the scale counts read back, with the lexer of C72 and whatever their size; C122_digits: the digits shown are those of the number rounded towards zero."
  },
  {
   "property": "C123",
   "status": "partial",
   "theorems": [
    "C123_error_partial",
    "C123_nearest_partial",
    "C123_exact",
    "C123_words",
    "C123_double_rounding_refuted",
    "C123_long_double_refuted",
    "C123_exponent_refuted",
    "C123_overflow_refuted"
   ],
   "note": "REFUTED as stated: C123_double_rounding_refuted (a FloatD is rounded from a long double), C123_long_double_refuted (only the upper 80 bits of the significand are looked at), C123_exponent_refuted (1e4294967297 = 1e1) and C123_overflow_refuted (undefined behaviour). C123_error_partial: the error is at most half a unit in the last place and a little (2^-62 or 2^-77 relatively), C123_nearest_partial: it is the nearest Float unless the number is within 2^-63 (2^-78 for FloatQ), relatively, of the middle of two, both for at most 65536 digits and exponents of at most 65536; C123_exact: numbers that are Floats are read exactly; C123_words: the word arithmetic is that of the numbers. The Floats have an unbounded exponent here: overflow to infinity and denormals are not modelled."
  },
  {
   "property": "C124",
   "status": "proved",
   "theorems": [
    "C124_struct",
    "C124_unique",
    "C124_members",
    "C124_arrays"
   ],
   "note": "C124_struct for declarations without unions (what unions do is C125), C124_unique: there is one such layout, C124_members: members do not overlap and are aligned, C124_arrays: so are elements of arrays. That the compiled accessors use the offsets is read off the source; sizes for x86-64."
  },
  {
   "property": "C125",
   "status": "partial",
   "theorems": [
    "C125_size_refuted",
    "C125_room_refuted",
    "C125_struct_refuted",
    "C125_layout_partial"
   ],
   "note": "REFUTED as stated: C125_size_refuted (the size is that of the last member: the block of CUnion restarts at 0 and declaration:inject:into: keeps only the last end, CStruct.st:150-169, 265-269), C125_room_refuted (memory allocated by new is too small), C125_struct_refuted. C125_layout_partial: right if in every union the last member is the largest."
  },
  {
   "property": "C126",
   "status": "partial",
   "theorems": [
    "C126_sound",
    "C126_safe",
    "C126_realloc_refuted",
    "C126_served",
    "C126_kept",
    "C126_limit"
   ],
   "note": "REFUTED as stated in one case: C126_realloc_refuted (making a piece larger when the limit of the heap is reached copies to a null pointer, alloc.c:310-317). Otherwise it holds: C126_sound, C126_safe (that is the only case), C126_served, C126_kept, C126_limit. Hooks (nomemory, after_allocating...) are not modelled, contents of memory neither; 4 Kb pages, 64 bits."
  },
  {
   "property": "C127",
   "status": "partial",
   "theorems": [
    "C127_returned",
    "C127_kept",
    "C127_total",
    "C127_large_refuted"
   ],
   "note": "REFUTED as stated for sizes of 2 Gb and more: C127_large_refuted (int msz, alloc.c:340-345, 405-411; what is unmapped and heap_total are wrong). C127_returned, C127_kept, C127_total below that."
  },
  {
   "property": "C128",
   "status": "partial",
   "theorems": [
    "C128_text",
    "C128_error_partial",
    "C128_short_partial",
    "C128_decimal_partial",
    "C128_tenth_refuted",
    "C128_near_refuted",
    "C128_large_refuted"
   ],
   "note": "REFUTED as stated: C128_tenth_refuted (the FloatE 0.0001 is printed as 0.00001: the exponent is adjusted only if all digits are nines, but the last digit may be less when digits are rounded up; also some FloatDs, such as 1d165), C128_near_refuted (a FloatD, one in sixteen or so, is printed with too few digits and read as its neighbour), C128_large_refuted (from 2^53 on the shortest text is not always found). What holds: C128_text; C128_error_partial (less than one unit in the last place away if no power of ten is just above); C128_short_partial and C128_decimal_partial (short numbers strictly within half a unit, or a quarter for large ones, are printed, but for powers of ten above the Float)."
  },
  {
   "property": "C129",
   "status": "partial",
   "theorems": [
    "C129_history_partial",
    "C129_lines",
    "C129_collect_peekFor_refuted",
    "C129_with_peekFor_refuted",
    "C129_select_peekFor_refuted",
    "C129_concatenate_collection_refuted",
    "C129_select_with_refuted",
    "C129_with_position_refuted",
    "C129_lines_end_refuted",
    "C129_collect_lines_refuted",
    "C129_equality"
   ],
   "note": "REFUTED as stated: peekFor: fails on a stream made with collect: (C129_collect_peekFor_refuted), fails on one made with with: when it should answer true (C129_with_peekFor_refuted) and misses equal objects after select: (C129_select_peekFor_refuted); a third operand of `,` that is a collection makes next fail (C129_concatenate_collection_refuted); with: cannot be sent to a stream made with select: (C129_select_with_refuted); next at the end of a stream made with with: moves it (C129_with_position_refuted); next at the end of lines answers an empty line (C129_lines_end_refuted); lines of a collected stream fail at a CR (C129_collect_lines_refuted). All else holds: C129_history_partial and C129_lines."
  },
  {
   "property": "C130",
   "status": "partial",
   "theorems": [
    "C130_do",
    "C130_linesDo_partial",
    "C130_upTo_partial",
    "C130_skipTo",
    "C130_skip",
    "C130_contents_partial",
    "C130_contents_refuted",
    "C130_splitAt_partial",
    "C130_splitAt_join",
    "C130_splitAt_refuted"
   ],
   "note": "REFUTED as stated: contents of a stream collected from a String fails if the block answers other objects than characters, since the species of the String is kept (C130_contents_refuted); splitAt: drops the last part if it is empty (C130_splitAt_refuted). What holds: C130_do, C130_linesDo_partial, C130_upTo_partial, C130_skipTo, C130_skip, C130_contents_partial, C130_splitAt_partial, C130_splitAt_join. skip: of OneOfEachStream and the overriding methods of PositionableStream are not modelled here."
  },
  {
   "property": "C131",
   "status": "partial",
   "theorems": [
    "C131_plus",
    "C131_minus",
    "C131_back",
    "C131_difference",
    "C131_span",
    "C131_order",
    "C131_extremes",
    "C131_utc",
    "C131_parts",
    "C131_made",
    "C131_store",
    "C131_offset",
    "C131_date_days",
    "C131_date_seconds",
    "C131_hash_refuted",
    "C131_large_offset_refuted",
    "C131_date_refuted",
    "C131_date_time_refuted",
    "C131_carry_refuted"
   ],
   "note": "REFUTED as stated: equal DateTimes with different offsets have different hashes (C131_hash_refuted); offsets of a day or more are taken into account wrongly (C131_large_offset_refuted); adding a Duration to a Date ignores its hours and minutes (C131_date_refuted, C131_date_time_refuted); parts beyond their ranges are not carried, so that 24:00 is before 00:00 of the next day (C131_carry_refuted). All else holds for offsets of less than a day: C131_plus, C131_minus, C131_back, C131_difference, C131_span, C131_order, C131_extremes, C131_utc, C131_parts, C131_made, C131_store, C131_offset, C131_date_days. Seconds are Integers."
  },
  {
   "property": "C132",
   "status": "partial",
   "theorems": [
    "C132_duration",
    "C132_time",
    "C132_date",
    "C132_datetime",
    "C132_midnight",
    "C132_year_refuted",
    "C132_year_0_refuted",
    "C132_offset_refuted",
    "C132_colon_refuted"
   ],
   "note": "REFUTED as stated for DateTimes: those of the years 1 to 31 are read with the year as month or day (C132_year_refuted), those of the year 0 cannot be printed (C132_year_0_refuted), a negative offset with seconds is printed with a second sign and loses the seconds (C132_offset_refuted); a colon at the end of the text is an error for a Duration but not for a Time (C132_colon_refuted). Durations, Times, Dates and all other DateTimes are read back: C132_duration, C132_time, C132_date, C132_datetime."
  },
  {
   "property": "C133",
   "status": "proved",
   "theorems": [
    "C133_digest",
    "C133_one",
    "C133_cut",
    "C133_stream",
    "C133_hex"
   ],
   "note": "Holds: C133_digest (refinement to RFC 1321 with its padding, blocks and 64 steps), C133_one, C133_cut, C133_stream (nextPutAll: with a stream, in pieces of 1024), C133_hex. Little-endian machine; a piece has less than 2^32 bytes (its size is passed as an int); copying the state (partialDigest) and the call-out are not modelled."
  },
  {
   "property": "C134",
   "status": "proved",
   "theorems": [
    "C134_digest",
    "C134_one",
    "C134_cut",
    "C134_hex"
   ],
   "note": "Holds: C134_digest (refinement to RFC 3174), C134_one, C134_cut (also for pieces that are not aligned), C134_hex. Little-endian machine; a piece has less than 2^32 bytes; copying the state (partialDigest) and the call-out are not modelled."
  },
  {
   "property": "C135",
   "status": "partial",
   "theorems": [
    "C135_point",
    "C135_order",
    "C135_bounds",
    "C135_normalized",
    "C135_intersect",
    "C135_intersects",
    "C135_merge",
    "C135_areas",
    "C135_areas_refuted",
    "C135_contains",
    "C135_contains_inner",
    "C135_contains_refuted",
    "C135_normalize_refuted",
    "C135_normalize",
    "C135_within",
    "C135_moving",
    "C135_expand",
    "C135_expanded",
    "C135_scale",
    "C135_equal"
   ],
   "note": "REFUTED as stated: areasOutside: is an error when the Rectangles do not meet, since intersect: then answers nil (C135_areas_refuted); a Rectangle does not contain itself (C135_contains_refuted); normalize turns a normalised Rectangle upside down (C135_normalize_refuted). All else holds: C135_point, C135_order, C135_bounds, C135_normalized, C135_intersect, C135_intersects, C135_merge, C135_areas, C135_contains, C135_contains_inner, C135_within, C135_moving, C135_expand, C135_expanded, C135_scale, C135_equal. Coordinates are Integers; sharing of Points between Rectangles is not modelled."
  },
  {
   "property": "C136",
   "status": "partial",
   "theorems": [
    "C136_parse",
    "C136_once",
    "C136_malformed",
    "C136_duplicate_refuted",
    "C136_twice_refuted",
    "C136_one_dash_refuted"
   ],
   "note": "REFUTED as stated: that a name is given twice is not noticed, because options includes: key looks at the values (C136_duplicate_refuted), and an option that is its own synonym then gets an argument it does not take (C136_twice_refuted); a word such as -abc is accepted and makes the option --bc (C136_one_dash_refuted). All else holds: C136_parse and C136_once for all tables of different names, all patterns that write them and all command lines; C136_malformed for misplaced colons and missing minus signs. The regular expression of parseOneArgument is modelled by what it matches."
  },
  {
   "property": "C137",
   "status": "partial",
   "theorems": [
    "C137_at",
    "C137_at_put",
    "C137_do",
    "C137_at_all",
    "C137_copy",
    "C137_collect",
    "C137_collect_same",
    "C137_select_same",
    "C137_reject_same",
    "C137_select_refuted",
    "C137_reject_refuted",
    "C137_dictionary_refuted",
    "C137_collect_refuted",
    "C137_keys_values_refuted"
   ],
   "note": "REFUTED as stated: select:, reject:, keysAndValuesDo: and (when the domain is larger than the map) collect: use the indices that do: of the map gives as if they were keys: they test the wrong objects (C137_select_refuted, C137_reject_refuted), give the wrong keys (C137_keys_values_refuted), or are errors (C137_collect_refuted, C137_dictionary_refuted). All else holds (C137_at, C137_at_put, C137_do, C137_at_all, C137_copy, C137_collect), and these too for maps of numbers to themselves (C137_collect_same, C137_select_same, C137_reject_same)."
  },
  {
   "property": "C138",
   "status": "partial",
   "theorems": [
    "C138_sequence",
    "C138_fresh",
    "C138_seed",
    "C138_next",
    "C138_between",
    "C138_uniform",
    "C138_wide",
    "C138_wide_refuted",
    "C138_empty",
    "C138_empty_refuted",
    "C138_zero",
    "C138_seed_refuted",
    "C138_twin",
    "C138_twin_refuted",
    "C138_one_refuted",
    "C138_index_refuted"
   ],
   "note": "REFUTED as stated: seeds -1 and -2 give the all-zero generator (C138_seed_refuted), 2n and 2n+1 the same one (C138_twin_refuted), next answers 1 (C138_one_refuted, seed 72414183, 104th number), a range of 2^32 numbers is an error (C138_wide_refuted), an empty one may answer a number (C138_empty_refuted), and a word stored by at:put: makes next read outside of the object (C138_index_refuted). The sequence (C138_sequence), the seeds of 32 bits (C138_seed), the ranges (C138_next, C138_between) and the evenness (C138_uniform) are as stated."
  },
  {
   "property": "C139",
   "status": "partial",
   "theorems": [
    "C139_program",
    "C139_reads",
    "C139_removed",
    "C139_reuse_refuted",
    "C139_twice_refuted",
    "C139_nil_refuted"
   ],
   "note": "REFUTED as stated for links that have a nextLink when they are added with addLast: (C139_reuse_refuted), for links that are already in the list (C139_twice_refuted: do: and size do not return), and for nil (C139_nil_refuted). For programs that add only links which are in no list, all else holds (C139_program, C139_reads, C139_removed)."
  },
  {
   "property": "C140",
   "status": "partial",
   "theorems": [
    "C140_decode",
    "C140_zeros",
    "C140_lines_refuted",
    "C140_empty_refuted"
   ],
   "note": "REFUTED as stated: with n newlines between groups the answer has 3n // 4 more bytes, all zero (C140_zeros says so exactly, C140_lines_refuted is a case), and an empty text is an error (C140_empty_refuted). For other texts with at most one newline between groups the bytes are right (C140_decode)."
  },
  {
   "property": "C141",
   "status": "partial",
   "theorems": [
    "C141_decode_partial",
    "C141_never_wrong",
    "C141_high",
    "C141_high_refuted",
    "C141_crlf_partial",
    "C141_crlf_refuted",
    "C141_header_partial",
    "C141_header_refuted",
    "C141_malformed_refuted",
    "C141_cut_short"
   ],
   "note": "REFUTED as stated: bytes above 127 in digits are an error, as asCharacter answers a UnicodeCharacter and a String takes none (C141_high for all such texts, C141_high_refuted); carriage return and newline after = leave a newline (C141_crlf_refuted); underline in headers stays (C141_header_refuted); small letters and letters after F are taken for digits (C141_malformed_refuted); the empty text is an error. Proved: texts with newlines and bytes up to 127 (C141_decode_partial), no wrong answer for other bytes (C141_never_wrong), and what is right with the other ends of lines and in headers (C141_crlf_partial, C141_header_partial)."
  }
 ]
}
