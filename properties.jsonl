{"id": "C01", "title": "SmallInteger + - * are exact or defer to LargeInteger", "statement": "Sending +, - or * between two SmallIntegers on a 64-bit VM answers exactly the mathematical sum, difference or product when it fits a SmallInteger, and otherwise takes the failure path that redoes the operation on LargeIntegers; no operand pair ever yields a silently wrapped SmallInteger.", "quantifier": "for every pair of SmallIntegers (2^63 x 2^63 operand pairs), for both the overflow-flag and the portable C code path", "why_tests_cant": "The operand space has 2^126 points and the failure is only visible within one unit of the overflow boundary.", "anchors": ["libgst/interp.inl:add_with_check", "libgst/interp.inl:sub_with_check", "libgst/interp.inl:mul_with_check", "libgst/prims.def:VMpr_SmallInteger_plus", "libgst/vm.def:PLUS_SPECIAL", "libgst/gstpriv.h:FROM_INT"]}
{"id": "C02", "title": "SmallInteger division laws", "statement": "For SmallIntegers a and b with b ~= 0, a // b rounds towards negative infinity, a \\\\ b has the sign of b, a quo: b truncates towards zero, a / b is exact when b divides a, and a = (a // b) * b + (a \\\\ b); every answer is the mathematically correct integer.", "quantifier": "for every pair of SmallIntegers with non-zero divisor", "why_tests_cant": "The corner SmallInteger smallest with divisor -1 is a single point among 2^126 and rounding must be right for all sign combinations.", "anchors": ["libgst/prims.def:VMpr_SmallInteger_divide", "libgst/prims.def:VMpr_SmallInteger_intDiv", "libgst/prims.def:VMpr_SmallInteger_modulo", "libgst/prims.def:VMpr_SmallInteger_quo", "libgst/vm.def:INTEGER_DIVIDE_SPECIAL"]}
{"id": "C03", "title": "SmallInteger comparison and bit operations", "statement": "=, <, >, <=, >=, bitAnd:, bitOr:, bitXor: and bitShift: on SmallIntegers agree with the infinite two's-complement integers they denote; bitShift: either answers the exact shifted value or defers to LargeInteger.", "quantifier": "for every pair of SmallIntegers, including every shift count", "why_tests_cant": "Tag-bit tricks make the code correct or wrong for whole families of operands; shift counts at and beyond the word size are undefined in C.", "anchors": ["libgst/prims.def:VMpr_SmallInteger_bitShift", "libgst/interp.inl:tagged_and", "libgst/interp.inl:tagged_xor", "libgst/vm.def:BIT_SHIFT_SPECIAL"]}
{"id": "C04", "title": "highBit and lowBit of SmallIntegers", "statement": "n highBit is the length of the shortest two's-complement (for n < 0) or unsigned (for n > 0) representation of n, and n lowBit is one plus the exponent of the largest power of two dividing n, for every non-zero SmallInteger.", "quantifier": "for every non-zero SmallInteger", "why_tests_cant": "The binary search steps were written for 31-bit integers; an error can be confined to one value in 2^63.", "anchors": ["kernel/SmallInt.st:highBit", "kernel/SmallInt.st:lowBit"]}
{"id": "C05", "title": "Indexed access never leaves the object", "statement": "anObject at: i (and at:put:) on any indexable object succeeds only if 1 <= i <= size, and then it touches exactly the i-th element; any other index is reported as an error and no memory outside the object's indexed part is read or written.", "quantifier": "for every element format, every object size including zero, every number of fixed instance variables and every machine-word index", "why_tests_cant": "Bounds checks use wrapping unsigned arithmetic; a counterexample needs a particular relation between size, offset and index.", "anchors": ["libgst/dict.inl:index_oop_spec", "libgst/dict.inl:index_oop_put_spec", "libgst/dict.inl:oop_num_fields"]}
{"id": "C06", "title": "Indexed store then load returns the stored value", "statement": "After a successful at: i put: v on any indexable format (signed/unsigned 8, 16, 32, 64-bit elements, characters, object pointers), at: i answers v, and at: j for every j ~= i is unchanged.", "quantifier": "for every format, every representable value v, every object contents and every pair of indices", "why_tests_cant": "Sign extension errors show up only for half of the values of one format; frame conditions quantify over all other elements.", "anchors": ["libgst/dict.inl:index_oop_spec", "libgst/dict.inl:index_oop_put_spec"]}
{"id": "C07", "title": "C integer conversions round-trip", "statement": "Converting a C 32/64-bit signed or unsigned integer to a Smalltalk Integer and back gives the same C integer, and the range predicates accept exactly the Integers that fit the C type.", "quantifier": "for every 32-bit and 64-bit C integer value", "why_tests_cant": "2^64 values; failures sit at type maxima and at the SmallInteger/LargeInteger frontier.", "anchors": ["libgst/dict.inl:is_c_int_32", "libgst/dict.inl:to_c_int_64", "libgst/dict.inl:to_c_uint_64", "libgst/dict.inl:from_c_int_64", "libgst/dict.inl:from_c_uint_64"]}
{"id": "C08", "title": "LargeInteger results are canonical", "statement": "Every Integer answered by LargeInteger arithmetic is in canonical form: a SmallInteger whenever the value fits one, else a LargePositiveInteger or LargeNegativeInteger with the unique minimal byte length; hence two Integers are equal numbers iff they have the same class and bytes.", "quantifier": "for every integer value of any size and sign", "why_tests_cant": "Unbounded integers; equality and hashing rely on canonical form at every byte-length boundary.", "anchors": ["libgst/mpz.c:_gst_oop_from_mpz", "libgst/mpz.c:_gst_mpz_from_oop", "kernel/LargeInt.st:LargeInteger class>>resultFrom:"]}
{"id": "C09", "title": "LargeInteger arithmetic is exact", "statement": "+, -, *, //, \\\\, quo:, rem:, negated, bitAnd:, bitOr:, bitXor:, bitInvert, bitShift: and comparisons on LargeIntegers (and mixed with SmallIntegers) answer the mathematically exact integer.", "quantifier": "for every pair of integers of any size", "why_tests_cant": "Carry/borrow chains and sign-magnitude versus two's-complement conversions range over unbounded inputs.", "anchors": ["libgst/mpz.c:_gst_mpz_add", "libgst/mpz.c:_gst_mpz_sub", "libgst/mpz.c:_gst_mpz_fdiv_qr", "libgst/mpz.c:_gst_mpz_and", "kernel/LargeInt.st"]}
{"id": "C10", "title": "gcd: and lcm:", "statement": "a gcd: b answers the non-negative greatest common divisor and a lcm: b the non-negative least common multiple of any two integers.", "quantifier": "for every pair of integers", "why_tests_cant": "Unbounded inputs and data-dependent number of iterations.", "anchors": ["kernel/Integer.st:gcd:", "kernel/Integer.st:lcm:", "kernel/LargeInt.st:gcd:"]}
{"id": "C11", "title": "Integer printing and reading round-trip", "statement": "Reading the text produced by anInteger printString: base (and printString) in the same base answers anInteger; the text has no superfluous leading digits and consists of a sign and digits below the base.", "quantifier": "for every integer and every base from 2 to 36", "why_tests_cant": "Digit buffers are sized by floorLog:, so an off-by-one corrupts output only at exact powers of the base.", "anchors": ["kernel/Integer.st:printString:", "kernel/Integer.st:replace:withStringBase:", "kernel/Integer.st:floorLog:", "kernel/Number.st:readFrom:radix:"]}
{"id": "C12", "title": "floorLog: and ceilingLog: are exact", "statement": "For an integer n >= 1 and an integer radix b >= 2, n floorLog: b is the largest k with b^k <= n, and n ceilingLog: b is the smallest k with n <= b^k.", "quantifier": "for every n >= 1 and every radix b >= 2", "why_tests_cant": "Errors appear only next to powers of the radix.", "anchors": ["kernel/Integer.st:floorLog:", "kernel/Integer.st:ceilingLog:"]}
{"id": "C13", "title": "factorial is exact", "statement": "n factorial equals the product 1*2*...*n for every n >= 0, independent of how the factors are batched on the intermediate stack.", "quantifier": "for every natural number n", "why_tests_cant": "The batching depends on n and on the number of batches so far; errors depend on batch counts tests never reach.", "anchors": ["kernel/Integer.st:factorial"]}
{"id": "C14", "title": "binomial: is exact", "statement": "n binomial: k equals n! / (k! (n-k)!) for all 0 <= k <= n.", "quantifier": "for every 0 <= k <= n", "why_tests_cant": "Intermediate gcd simplification and stack balancing depend on the magnitudes.", "anchors": ["kernel/Integer.st:binomial:"]}
{"id": "C15", "title": "Fractions stay normalised and exact", "statement": "Arithmetic on Fractions answers the exact rational result in lowest terms with positive denominator, and comparisons agree with the rational order.", "quantifier": "for every pair of rationals", "why_tests_cant": "Unbounded numerators/denominators; gcd short-cuts have many sign cases.", "anchors": ["kernel/Fraction.st:+", "kernel/Fraction.st:*", "kernel/Fraction.st:/", "kernel/Fraction.st:reduce"]}
{"id": "C16", "title": "LookupTable behaves as a finite map", "statement": "After any sequence of at:put:, removeKey:, at:ifAbsent:, includesKey: and size operations, a LookupTable answers exactly what a mathematical finite map would, whatever the hash values; operations always terminate.", "quantifier": "for every history of operations, every hash function and every initial capacity", "why_tests_cant": "Open addressing with deletion by re-insertion: correctness depends on collision clusters wrapping around the table and on the growth history.", "anchors": ["kernel/LookupTable.st:at:put:", "kernel/LookupTable.st:removeKey:ifAbsent:", "kernel/HashedColl.st:findIndex:", "kernel/HashedColl.st:rehashObjectsAfter:", "kernel/HashedColl.st:incrementTally"]}
{"id": "C17", "title": "Set behaves as a finite set", "statement": "After any sequence of add:, remove:ifAbsent:, includes: and size operations, a Set answers exactly what a mathematical finite set would; do: visits every element exactly once.", "quantifier": "for every history of operations, every hash function and every initial capacity", "why_tests_cant": "Same cluster/growth dependence as dictionaries.", "anchors": ["kernel/HashedColl.st:add:", "kernel/HashedColl.st:remove:ifAbsent:", "kernel/HashedColl.st:includes:", "kernel/HashedColl.st:findElementIndex:"]}
{"id": "C18", "title": "VM-level identity dictionaries behave as finite maps", "statement": "The VM's identity dictionary (method dictionaries) answers for every key the value most recently stored, or absent if none, after any sequence of stores from C, and its size equals the number of distinct keys.", "quantifier": "for every sequence of stores, every key identity hash and every initial capacity used by the VM", "why_tests_cant": "Depends on growth points and collision clusters.", "anchors": ["libgst/dict.c:identity_dictionary_at_put", "libgst/dict.c:grow_identity_dictionary", "libgst/dict.c:identity_dictionary_find_key_or_nil"]}
{"id": "C19", "title": "VM-level association dictionaries behave as finite maps and lookups terminate", "statement": "The VM's association dictionary (Smalltalk, namespaces, class pools) answers the most recently stored value for every key and nil for absent keys, never loops forever and never aborts.", "quantifier": "for every sequence of stores, every hash and every initial capacity", "why_tests_cant": "A lookup aborts the VM only if the table becomes completely full, which depends on the exact growth threshold.", "anchors": ["libgst/dict.c:_gst_dictionary_add", "libgst/dict.c:grow_dictionary", "libgst/dict.c:find_key_or_nil", "libgst/dict.inl:dictionary_association_at"]}
{"id": "C20", "title": "OrderedCollection behaves as a sequence", "statement": "After any sequence of addFirst:, addLast:, removeFirst, removeLast, add:beforeIndex:, removeIndex:, at:, at:put: an OrderedCollection holds exactly the elements a mathematical sequence would, signals EmptyCollection/IndexOutOfRange exactly when the sequence operation is undefined, and never touches slots outside its storage.", "quantifier": "for every history of operations and every initial capacity", "why_tests_cant": "Correctness depends on the position of the elements in the buffer, which is a function of the whole history (growth, shifting, shrinking).", "anchors": ["kernel/OrderColl.st:addFirst:", "kernel/OrderColl.st:addLast:", "kernel/OrderColl.st:removeFirst", "kernel/OrderColl.st:removeLast", "kernel/OrderColl.st:primAddIndex", "kernel/OrderColl.st:growBy:shiftBy:"]}
{"id": "C21", "title": "Method lookup cache is transparent", "statement": "In a running system, a message send invokes exactly the method that a cache-free lookup along the superclass chain would find at that moment, for any sequence of sends, method (re)definitions, method removals and cache flushes performed through the system's interface.", "quantifier": "for every class hierarchy, every interleaving of sends and method definitions, every hash collision pattern", "why_tests_cant": "Stale entries appear only for particular collision/definition interleavings.", "anchors": ["libgst/interp-bc.inl:_gst_send_message_internal", "libgst/interp.c:lookup_method", "libgst/interp.c:_gst_invalidate_method_cache", "libgst/comp.c:_gst_install_initial_methods"]}
{"id": "C22", "title": "Semaphore signals are neither lost nor invented", "statement": "At any time, for every Semaphore, (initial signals + signals sent) equals (waits that completed + pending excess signals); a process blocks on wait only when no excess signal is available, and a process is waiting on a semaphore only if its excess signal count is zero.", "quantifier": "for every sequence of signal, wait, notify, suspend, resume, terminate and yield by any number of processes", "why_tests_cant": "State space of process/semaphore histories is unbounded.", "anchors": ["libgst/interp.c:_gst_sync_signal", "libgst/interp.c:_gst_sync_wait", "libgst/prims.def:VMpr_Semaphore_signal"]}
{"id": "C23", "title": "Scheduler runs the highest-priority ready process", "statement": "After every scheduling step, the active process has a priority not lower than that of any ready process, and every process is in at most one ready list or semaphore queue; no ready process is ever lost from the lists.", "quantifier": "for every history of process primitives", "why_tests_cant": "Lists are mutated by many primitives in many orders.", "anchors": ["libgst/interp.c:resume_process", "libgst/interp.c:highest_priority_process", "libgst/interp.c:add_last_link", "libgst/interp.c:remove_process_from_list"]}
{"id": "C24", "title": "Semaphore and yield fairness (FIFO)", "statement": "Processes of equal priority waiting on a semaphore are resumed in the order in which they started waiting, and yield moves the active process behind all other ready processes of its priority.", "quantifier": "for every set of waiting processes and every history", "why_tests_cant": "Ordering over unbounded histories.", "anchors": ["libgst/interp.c:add_last_link", "libgst/interp.c:remove_first_link", "libgst/interp.c:active_process_yield"]}
{"id": "C25", "title": "Asynchronous calls are executed exactly once, in order", "statement": "Every asynchronous call posted (from C, a signal handler or another thread) is executed exactly once by the VM, and calls posted by one thread run in posting order; no interleaving of posters loses a call.", "quantifier": "for every number of posters and every interleaving of their atomic steps with the VM draining the queue", "why_tests_cant": "Lock-free list; the losing interleavings have a window of a few instructions.", "anchors": ["libgst/interp.c:_gst_async_call_internal", "libgst/interp.c:_gst_async_call", "libgst/interp.c:empty_async_queue"]}
{"id": "C26", "title": "Garbage marking marks exactly the reachable objects", "statement": "After the mark phase an object is marked iff it is reachable from the roots through scanned (class and strong) fields; in particular no reachable object is ever reclaimed.", "quantifier": "for every object graph, including cyclic ones and any mark-stack size", "why_tests_cant": "Graphs are unbounded; the iterative marker with a range stack has subtle re-scan logic.", "anchors": ["libgst/oop.c:_gst_mark_an_oop_internal", "libgst/oop.c:mark_oops"]}
{"id": "C27", "title": "OOP allocation never reuses a live slot", "statement": "During incremental sweeping, allocating a new object never hands out an object-table slot that belongs to a live object, and the sweep frees exactly the dead ones.", "quantifier": "for every object table state and every interleaving of allocations with sweep steps", "why_tests_cant": "Two sweep pointers move towards each other; errors need specific positions of live objects.", "anchors": ["libgst/oop.inl:alloc_oop", "libgst/oop.c:_gst_incremental_gc_step", "libgst/oop.c:_gst_finish_incremental_gc", "libgst/oop.c:reset_incremental_gc"]}
{"id": "C28", "title": "become: swaps identities and nothing else", "statement": "a become: b exchanges the two objects for every reference in the system, leaves all other objects unchanged, and is an involution.", "quantifier": "for every object graph and every pair of objects", "why_tests_cant": "Quantifies over all references in the heap.", "anchors": ["libgst/oop.c:_gst_swap_objects"]}
{"id": "C29", "title": "Compiled operand encoding round-trips", "statement": "Any bytecode with any operand emitted by the compiler is decoded by the interpreter's dispatch loop as the same bytecode with the same operand, and bytecode sizes used for jump offsets equal the number of bytes emitted.", "quantifier": "for every bytecode and every operand value, every sequence of bytecodes", "why_tests_cant": "Extension-prefix chains are only exercised by huge methods.", "anchors": ["libgst/byte.c:_gst_compile_byte", "libgst/vm.def:EXT_BYTE", "libgst/byte.def:MATCH_BYTECODES"]}
{"id": "C30", "title": "SortedCollection stays sorted", "statement": "After any sequence of add:, removeFirst, removeLast, addAll:, a SortedCollection enumerates its elements in an order consistent with its sort block and contains exactly the added-minus-removed multiset.", "quantifier": "for every history and every total preorder sort block", "why_tests_cant": "Binary search insertion and merge sort boundaries depend on sizes and ties.", "anchors": ["kernel/SortCollect.st:add:", "kernel/SortCollect.st:includes:", "kernel/SortCollect.st:indexOfLastOccurrence:"]}
{"id": "C31", "title": "Interval enumeration matches its size", "statement": "(first to: last by: step) size equals the number of elements visited by do:, the i-th visited element is first + (i - 1) * step, and all lie between first and last.", "quantifier": "for all integers first, last and every non-zero step", "why_tests_cant": "Truncation direction differs for negative steps and empty ranges.", "anchors": ["kernel/Interval.st:size", "kernel/Interval.st:do:", "kernel/Interval.st:at:"]}
{"id": "C32", "title": "Date conversions round-trip", "statement": "Date fromDays: d, followed by asking for the day count, answers d; day/month/year of the answered date form the correct Gregorian calendar date, and successive day numbers give successive dates.", "quantifier": "for every day number in the supported range (all integers of the proleptic Gregorian calendar)", "why_tests_cant": "Leap-year rules interact over 400-year cycles.", "anchors": ["kernel/Date.st:fromJulian:", "kernel/Date.st:computeDateParts", "kernel/Date.st:daysFromBaseDay"]}
{"id": "C33", "title": "Symbols are unique", "statement": "Interning two strings yields the identical Symbol iff the strings have the same characters, after any sequence of internings and table growths.", "quantifier": "for every sequence of strings and every hash", "why_tests_cant": "Bucket chains and table growth depend on history.", "anchors": ["libgst/sym.c:intern_counted_string", "libgst/sym.c:_gst_intern_string"]}
{"id": "C34", "title": "Red-black tree stays balanced and ordered", "statement": "The red-black tree used for the weak-object and OOP registries preserves search order, the contents and the red-black balance under every insertion and deletion sequence.", "quantifier": "for every sequence of insertions and deletions", "why_tests_cant": "Rebalancing cases depend on deep shapes.", "anchors": ["lib-src/rbtrees.c:rb_rebalance", "lib-src/rbtrees.c:rb_erase"]}
{"id": "C35", "title": "Bag counts occurrences", "statement": "After any sequence of add:, add:withOccurrences: and remove:, aBag occurrencesOf: x answers the number of additions minus removals of x, and size is the total.", "quantifier": "for every history", "why_tests_cant": "Unbounded histories.", "anchors": ["kernel/Bag.st:add:withOccurrences:", "kernel/Bag.st:remove:ifAbsent:", "kernel/Bag.st:occurrencesOf:"]}
{"id": "C36", "title": "RunArray is a faithful compressed sequence", "statement": "A RunArray answers the same elements as the uncompressed sequence it represents under indexing, insertion, removal and replacement.", "quantifier": "for every history of operations", "why_tests_cant": "Run splitting/merging depends on neighbours.", "anchors": ["kernel/RunArray.st:at:", "kernel/RunArray.st:addAll:afterIndex:", "kernel/RunArray.st:removeAtIndex:"]}
{"id": "C37", "title": "Image relocation preserves the object graph", "statement": "Saving the image and loading it at any address yields an isomorphic object graph: every pointer field refers to the same (relocated) object, and all non-pointer data is unchanged, except for what cannot outlive the process: native code addresses in contexts, open files, addresses of external functions, and processes called in from C, which leave the queues they wait in.", "quantifier": "for every object graph and every load address difference", "why_tests_cant": "Quantifies over all heaps and base addresses.", "anchors": ["libgst/save.c:save_to_fd", "libgst/save.c:fixup_object", "libgst/save.c:load_snapshot", "libgst/save.c:load_normal_oops", "libgst/save.c:restore_oop_pointer_slots", "libgst/save.c:buffer_read", "libgst/save.c:buffer_write"]}
{"id": "C38", "title": "Byte streams round-trip", "statement": "Writing any sequence of elements to a WriteStream (with growth) and reading the contents back with a ReadStream yields the same sequence; position, skip: and peek behave as on a sequence with a cursor.", "quantifier": "for every sequence of stream operations", "why_tests_cant": "Buffer growth boundaries depend on the history.", "anchors": ["kernel/WriteStream.st:nextPut:", "kernel/PosStream.st:next", "kernel/PosStream.st:position:"]}
{"id": "C39", "title": "RecursionLock gives mutual exclusion and re-entrancy", "statement": "At most one process is inside critical: of a RecursionLock at a time; its owner may nest critical: to any depth, and the lock is released exactly when the outermost section ends.", "quantifier": "for every schedule of any number of processes", "why_tests_cant": "Interleavings are unbounded.", "anchors": ["kernel/RecursionLock.st:critical:"]}
{"id": "C40", "title": "SharedQueue delivers every element once, in order", "statement": "Elements put on a SharedQueue with nextPut: are answered by next exactly once and in FIFO order for every interleaving of producers and consumers; next blocks exactly while the queue is empty.", "quantifier": "for every schedule of producers and consumers", "why_tests_cant": "Interleavings are unbounded.", "anchors": ["kernel/SharedQueue.st:next", "kernel/SharedQueue.st:nextPut:"]}
{"id": "C41", "title": "Integral results of rational arithmetic are Integers", "statement": "Whenever the mathematical result of +, -, *, / or reciprocal on Integers and Fractions is an integer, the answer is an Integer, never a Fraction with denominator 1.", "quantifier": "for every pair of Integers or reduced Fractions", "why_tests_cant": "Needs the interplay of gcd short-cuts, signs and LargeInteger operands; unbounded operands.", "anchors": ["kernel/Fraction.st:/", "kernel/Fraction.st:*", "kernel/Fraction.st:reciprocal", "kernel/LargeInt.st:/", "kernel/SmallInt.st:/"]}
{"id": "C42", "title": "Fractions round to the right integer", "statement": "floor, ceiling, truncated and rounded of a Fraction are the mathematical floor, ceiling, integer part and nearest integer (ties away from zero); // and \\\\ on rationals satisfy the floored division law.", "quantifier": "for every Fraction in lowest terms", "why_tests_cant": "A wrong answer needs a LargeInteger denominator and one exact residue class of the numerator.", "anchors": ["kernel/Fraction.st:floor", "kernel/Fraction.st:ceiling", "kernel/Fraction.st:truncated", "kernel/Number.st:rounded", "kernel/Fraction.st://"]}
{"id": "C43", "title": "Dictionary behaves as a finite map", "statement": "For every sequence of at:put:, at:ifAbsent:, removeKey:, size, enumeration and rehash messages, a Dictionary answers as the finite map obtained by the same updates, through any number of growths.", "quantifier": "for every history, every key equivalence and every hash function compatible with it", "why_tests_cant": "Collision chains, wrap-around and growth points depend on the whole history.", "anchors": ["kernel/Dictionary.st:at:put:", "kernel/Dictionary.st:removeKey:ifAbsent:", "kernel/HashedColl.st:growBy:"]}
{"id": "C44", "title": "IdentitySet behaves as a set of objects", "statement": "An object added to an IdentitySet and not removed is included in it, whatever hash the object's class defines, through growth, copying and removal of others.", "quantifier": "for every history and every hash function of the elements", "why_tests_cant": "Needs elements whose hash differs from their identityHash and a growth in between.", "anchors": ["kernel/IdentitySet.st:findIndex:", "kernel/HashedColl.st:findElementIndex:"]}
{"id": "C45", "title": "Storing into a dictionary from the VM leaves its other instance variables alone", "statement": "Adding an association or a method from C to a Dictionary, Namespace or MethodDictionary changes its contents and size only: the environment, superspace, name or mutex it holds stay the same, also when the table grows.", "quantifier": "for every history of stores", "why_tests_cant": "Only a growth at one exact number of keys shows the loss, and only in concurrent use of the mutex.", "anchors": ["libgst/dict.c:grow_identity_dictionary", "libgst/dict.c:grow_dictionary", "kernel/MethodDict.st:mutex"]}
{"id": "C46", "title": "Replacing a range changes exactly that range or fails", "statement": "replaceFrom:to:with:startingAt: of Array, String and ByteArray stores the elements asked for in the range asked for and leaves the others alone, or fails without changing anything when either range does not exist.", "quantifier": "for all SmallInteger arguments and all objects, including overlapping ranges of one object", "why_tests_cant": "Wrong cases need indices near 2^31 or 2^32, which tests of bounds do not try.", "anchors": ["libgst/prims.def:VMpr_ArrayedCollection_replaceFromToWithStartingAt", "kernel/Array.st:replaceFrom:to:with:startingAt:", "kernel/ByteArray.st:replaceFrom:to:with:startingAt:"]}
{"id": "C47", "title": "Adding a collection to itself doubles it", "statement": "c addAll: c and c addAllFirst: c leave the OrderedCollection c with each of its elements twice, in order.", "quantifier": "for every OrderedCollection", "why_tests_cant": "The result depends on the unused capacity, an accident of the history of the collection.", "anchors": ["kernel/OrderColl.st:addAll:", "kernel/OrderColl.st:addAllFirst:", "kernel/OrderColl.st:do:"]}
{"id": "C48", "title": "Changing a superclass takes effect on the next send", "statement": "After aClass superclass: anotherClass, the next message sent to an instance of aClass runs the method found along the new superclass chain.", "quantifier": "for every hierarchy and every history of sends before", "why_tests_cant": "Only selectors sent before the change, and still in the cache, run the old method.", "anchors": ["kernel/Behavior.st:superclass:", "libgst/interp.c:_gst_invalidate_method_cache"]}
{"id": "C49", "title": "A method compiled while the kernel is being loaded takes effect on the next send", "statement": "Between two statements of the files that bootstrap the kernel, a method definition replaces the method used by every later send of its selector.", "quantifier": "for every sequence of statements and definitions", "why_tests_cant": "Needs a send before, a statement that is a constant between, and the definition after it.", "anchors": ["libgst/comp.c:_gst_execute_statements", "libgst/comp.c:_gst_install_method", "libgst/interp.c:_gst_invalidate_method_cache"]}
{"id": "C50", "title": "waitAfterSignalling: suspends its sender", "statement": "After `s waitAfterSignalling: s2`, s2 has received one signal and the process that sent the message is waiting on s, unless s had an excess signal.", "quantifier": "for every history of process primitives and every pair of semaphores", "why_tests_cant": "Depends on who waits on the second semaphore and with which priority.", "anchors": ["libgst/prims.def:VMpr_Semaphore_waitAfterSignalling", "kernel/Semaphore.st:waitAfterSignalling:", "libgst/interp.c:_gst_sync_wait"]}
{"id": "C51", "title": "Terminating a process releases the locks it holds", "statement": "After a process is terminated while it executes critical: of a RecursionLock or Semaphore, the lock is free again or given to a waiting process; in particular whoever asks for it later gets it eventually.", "quantifier": "for every schedule, and every moment at which terminate is sent", "why_tests_cant": "terminate has to be sent in a window of a few bytecodes, between the end of the section and the signal.", "anchors": ["kernel/Semaphore.st:critical:", "kernel/RecursionLock.st:critical:", "kernel/Process.st:terminate", "libgst/interp.c:unwind_context"]}
{"id": "C52", "title": "A queued interrupt does not disturb a process that waits for a lock", "statement": "Sending queueInterrupt: with a block that does not touch the lock to a process that waits to enter critical: has no effect on the lock: the process still executes its section when the lock is given to it, and releases it afterwards.", "quantifier": "for every schedule, every number of processes and interrupts", "why_tests_cant": "The interrupt has to arrive while the process waits, and the failure is silent.", "anchors": ["kernel/Process.st:queueInterrupt:", "kernel/Process.st:evaluate:ifNotTerminated:", "kernel/BlkClosure.st:asContext:", "kernel/Semaphore.st:critical:", "libgst/interp.c:sync_wait_process"]}
{"id": "C53", "title": "Interval isEmpty agrees with size", "statement": "anInterval isEmpty answers true exactly when anInterval size is 0; first and last answer the first and last of the elements visited by do: whenever there are any.", "quantifier": "for all integer starts, stops and non-zero steps", "why_tests_cant": "infinitely many bounds and steps; the failing shape is one in a million of random triples", "anchors": ["kernel/Interval.st: isEmpty, size, first, last"]}
{"id": "C54", "title": "Equal Intervals have equal hashes", "statement": "If two Intervals are equal then they visit the same elements and answer the same hash, so that they can be used as keys of a Dictionary.", "quantifier": "for all pairs of integer intervals", "why_tests_cant": "pairs of inputs; equality ignores the part of stop beyond the last element", "anchors": ["kernel/Interval.st: =, hash, first, last"]}
{"id": "C55", "title": "Interval reverse reverses", "statement": "anInterval reverse answers an interval that visits the same elements in the opposite order, for empty intervals too.", "quantifier": "for all integer starts, stops and non-zero steps", "why_tests_cant": "infinitely many intervals", "anchors": ["kernel/Interval.st: reverse, at:"]}
{"id": "C56", "title": "SortedCollection>>includes: finds every equal element", "statement": "aSortedCollection includes: x answers true exactly when do: goes through an element equal to x (equal elements sorting alike).", "quantifier": "for every history, element and total preorder sort block", "why_tests_cant": "The binary search depends on sizes, ties and where the collection was left by earlier removals.", "anchors": ["kernel/SortCollect.st:includes:", "kernel/SortCollect.st:doBinarySearch:low:high:"]}
{"id": "C57", "title": "SortedCollection>>occurrencesOf: counts the equal elements", "statement": "aSortedCollection occurrencesOf: x is the number of elements equal to x that do: goes through.", "quantifier": "for every collection and element", "why_tests_cant": "Depends on the position of the occurrences relative to both ends.", "anchors": ["kernel/SortCollect.st:occurrencesOf:"]}
{"id": "C58", "title": "SortedCollection>>indexOf: answers the first index", "statement": "indexOf:startingAt:ifAbsent: answers the first index, from the given one on, at which an equal element is.", "quantifier": "for every collection, element, starting index and sort block", "why_tests_cant": "Depends on how unequal elements that sort alike are interleaved.", "anchors": ["kernel/SortCollect.st:indexOf:startingAt:ifAbsent:"]}
{"id": "C59", "title": "Storing by index cannot break the order of a SortedCollection", "statement": "No index-based store (at:put:) is possible on a SortedCollection, so its elements remain in the order of the sort block.", "quantifier": "for every collection, index and element", "why_tests_cant": "A test would have to know that the method is defined twice and that the second definition wins.", "anchors": ["kernel/SortCollect.st:at:put:"]}
{"id": "C60", "title": "last of an empty SortedCollection is an error", "statement": "Asking an empty SortedCollection for its last element signals an error, as it does for first and for other collections.", "quantifier": "for every empty collection, whatever its history", "why_tests_cant": "Depends on the capacity and on the history of the empty collection.", "anchors": ["kernel/SortCollect.st:last"]}
{"id": "C61", "title": "RunArrays with the same elements are equal", "statement": "Two RunArrays holding equal elements in the same order, however they came to hold them, answer true to =, and RunArrays holding different sequences answer false.", "quantifier": "all pairs of RunArrays built by any history of conversions, additions and removals", "why_tests_cant": "Equality is decided on the internal runs, which depend on the history; only proof over all histories shows whether the runs are canonical.", "anchors": ["kernel/RunArray.st: RunArray>>=, removeAtIndex:", "kernel/RunArray.st: SequenceableCollection>>asRunArrayMap"]}
{"id": "C62", "title": "RunArray indexOf: finds the element", "statement": "indexOf:startingAt:ifAbsent: (hence indexOf: and remove:) on a RunArray answers the least index, not below the start index, of an element equal to the argument, and evaluates the block when there is none.", "quantifier": "all RunArrays, elements and start indices", "why_tests_cant": "A test with small integers can pass by coincidence: the search may compare the wrong things and still find the answer.", "anchors": ["kernel/RunArray.st: RunArray>>indexOf:startingAt:ifAbsent:"]}
{"id": "C63", "title": "ReadWriteStream on:from:to: streams on the range asked for", "statement": "A ReadWriteStream made with on: aCollection from: first to: last answers exactly the elements of that range, as ReadStream does.", "quantifier": "all collections and ranges", "why_tests_cant": "The whole-collection case, which tests use, hides that the limit may be ignored.", "anchors": ["kernel/RWStream.st: ReadWriteStream class>>on:from:to:, limit:"]}
{"id": "C64", "title": "readStream gives a reader of the same contents", "statement": "For every stream on a collection, whatever was done with it, readStream answers a fresh reader positioned at the start whose elements are those that contents answers.", "quantifier": "all kinds of streams and all histories", "why_tests_cant": "Differs only for cursor positions away from the end.", "anchors": ["kernel/PosStream.st: readStream", "kernel/WriteStream.st: readStream", "kernel/RWStream.st: contents"]}
{"id": "C65", "title": "upTo: answers the elements before the delimiter", "statement": "upTo: answers the elements from the cursor up to but not including the first one equal to the argument, and consumes it too; if there is none before the end of the stream, all the remaining elements.", "quantifier": "all readable streams, positions and arguments", "why_tests_cant": "The search runs on the underlying collection, of which the stream may be only a part.", "anchors": ["kernel/PosStream.st: upTo:"]}
{"id": "C66", "title": "upToAll: and skipToAll: find the first occurrence", "statement": "skipToAll: answers true exactly when the sequence occurs in what is left of the stream, and leaves the cursor just after its first occurrence (at the end when there is none); upToAll: answers the elements before it.", "quantifier": "all sequences and streams", "why_tests_cant": "The string search depends on the self-overlaps of the sequence; there are infinitely many overlap structures.", "anchors": ["kernel/Stream.st: upToAll:, skipToAll:, prefixTableFor:"]}
{"id": "C67", "title": "reverseContents reverses contents", "statement": "For every stream that can be written, whatever was done with it, reverseContents answers the elements of contents in reverse order.", "quantifier": "all histories of writes and positioning", "why_tests_cant": "Differs only for cursor positions away from the end.", "anchors": ["kernel/WriteStream.st: reverseContents"]}
{"id": "C68", "title": "Registering an array of variables twice is counted like registering it once", "statement": "A plug-in may register the same array of object variables several times with the interface for protecting them from the collector: each registration returns, they are counted, and the array stays protected until as many unregistrations have been made.", "quantifier": "for every sequence of registrations and unregistrations of arrays", "why_tests_cant": "Tests register each array once; a hang shows only on the second registration.", "anchors": ["libgst/callin.c:_gst_register_oop_array", "libgst/callin.c:_gst_unregister_oop_array", "lib-src/rbtrees.c:rb_rebalance"]}
{"id": "C69", "title": "asSymbol keeps the characters", "statement": "For every string s, s asSymbol asString has the same characters as s.", "quantifier": "over all histories of asSymbol, dropped references and Symbol rebuildTable, and all strings", "why_tests_cant": "whether two strings fall in one of the 512 chains depends on the hash; a test tries a few strings", "anchors": ["libgst/sym.c: intern_counted_string, is_same_string", "kernel/String.st: asSymbol"]}
{"id": "C70", "title": "isSymbolString: tells whether a string is a symbol", "statement": "Symbol isSymbolString: s answers true if and only if a live symbol has the characters of s, and Symbol hasInterned:ifTrue: passes that symbol to its block; neither ever fails.", "quantifier": "over all histories of asSymbol, dropped references and Symbol rebuildTable, and all strings", "why_tests_cant": "needs the kernel's and the VM's hash functions and chain layouts to agree in every reachable table", "anchors": ["kernel/Symbol.st: hasInterned:ifTrue:, isSymbolString:, rebuildTable", "libgst/sym.c: intern_counted_string, hash_symbol"]}
{"id": "C71", "title": "numArgs of a message name", "statement": "For every syntactically valid message name, Symbol>>numArgs and the argument count the virtual machine uses both are the number of arguments that a send of that message passes.", "quantifier": "over all unary, binary and keyword message names of any length", "why_tests_cant": "there are infinitely many message names and two independent implementations", "anchors": ["kernel/Symbol.st: numArgs", "libgst/sym.c: _gst_selector_num_args"]}
{"id": "C72", "title": "An integer literal denotes the integer written", "statement": "A literal made of an optional minus sign, an optional base from 2 to 36 with the letter r, and digits (underscores allowed) compiles to the integer object with that value, the same object an arithmetic expression with that result answers.", "quantifier": "over all digit strings of any length, all bases, both signs, and all texts that may follow a literal", "why_tests_cant": "the bound between SmallInteger and LargeInteger and the byte arithmetic of the lexer depend on the value; there are infinitely many literals", "anchors": ["libgst/lex.c: scan_number, scan_digits, scan_large_integer, _gst_negate_yylval", "libgst/gst-parse.c: parse_literal"]}
{"id": "C73", "title": "A printed integer compiles back to itself", "statement": "Compiling what printString, printStringRadix: or storeOn:base: writes for an integer yields an equal integer.", "quantifier": "over all integers, all bases from 2 to 36 and all following texts", "why_tests_cant": "the wrong range is 2^63 values wide and only above the SmallInteger range; a test has to know where to look", "anchors": ["kernel/Integer.st: printString:, printStringRadix:, storeOn:base:", "libgst/lex.c: scan_number"]}
{"id": "C74", "title": "A printed string compiles back to itself", "statement": "Compiling what String>>printOn: or storeLiteralOn: writes yields a string equal to the original.", "quantifier": "over all strings of any length and content, and all following texts that do not start with a quote", "why_tests_cant": "quotes can be anywhere; all positions and repetitions have to be covered", "anchors": ["kernel/String.st: printOn:, storeLiteralOn:", "libgst/lex.c: string_literal"]}
{"id": "C75", "title": "A printed symbol compiles back to itself", "statement": "Every symbol can be printed, and compiling what Symbol>>printOn: (storeOn:) writes yields the same symbol.", "quantifier": "over all symbols: selectors, operators and arbitrary quoted ones, and all texts that may follow", "why_tests_cant": "two independent classifications of characters (in Smalltalk and in C) have to agree on all names", "anchors": ["kernel/Symbol.st: printOn:, isSimpleSymbol", "libgst/lex.c: scan_symbol, scan_bin_op_1"]}
{"id": "C76", "title": "A stored character compiles back to itself", "statement": "Compiling what Character>>storeOn: writes yields a character equal to the original.", "quantifier": "over all Characters and UnicodeCharacters and all following texts", "why_tests_cant": "more than a million characters in three output formats, with any text after them", "anchors": ["kernel/Character.st: storeOn:, printCodePointOn:", "libgst/lex.c: char_literal", "libgst/gst-parse.c: parse_literal", "libgst/prims.def: VMpr_Character_equal"]}
{"id": "C77", "title": "A character literal with a code point denotes that code point", "statement": "The literal $<n> denotes the character with code point n if n is at most 16r10FFFF, and is reported as an error otherwise.", "quantifier": "over all n", "why_tests_cant": "code points are truncated modulo 2^32; only particular ranges show it", "anchors": ["libgst/gst-parse.c: parse_literal", "libgst/dict.inl: char_new"]}
{"id": "C78", "title": "The interpreter executes what the decoder says", "statement": "For any sequence of bytecodes, the operations that the interpreter executes for each bytecode, superoperators included, are the ones that the decoder shared by the compiler, the verifier, the disassembler and the debugger reports, with the same operands; and no bytecode that stands for several operations can send a message, return or jump before the last of them.", "quantifier": "for every sequence of opcode and operand bytes, extension prefixes included", "why_tests_cant": "There are 256 opcodes with unboundedly many operands, defined twice in generated files; tests run a few of the superoperators.", "anchors": ["libgst/vm.def:normal_byte_codes", "libgst/byte.def", "libgst/superop1.inl", "libgst/superop2.inl"]}
{"id": "C79", "title": "Superoperators do not change the program", "statement": "Replacing pairs of bytecodes by superoperators, within a block and with the jump at its end, leaves the sequence of operations that the code denotes unchanged and never makes the code longer.", "quantifier": "for every block of bytecodes, extended or not, and every jump at its end", "why_tests_cant": "The replacements are driven by two generated hash tables and are applied repeatedly; the combinations are unbounded.", "anchors": ["libgst/opt.c:optimize_superoperators", "libgst/opt.c:search_superop_fixed_arg_1", "libgst/opt.c:search_superop_fixed_arg_2", "libgst/opt.c:_gst_optimize_bytecodes"]}
{"id": "C80", "title": "The peephole optimiser preserves the meaning of a block", "statement": "A basic block that has gone through the optimiser computes the same values, stores the same variables, sets the same line numbers and returns the same result as the block that the compiler emitted.", "quantifier": "for every sequence of instructions the compiler can emit in a basic block, every operand that fits an int, and every initial stack, variables and heap", "why_tests_cant": "The windows of the optimiser overlap, and operands above 255 need extension bytes that ordinary methods rarely contain.", "anchors": ["libgst/opt.c:optimize_basic_block", "libgst/opt.c:optimize_superoperators"]}
{"id": "C81", "title": "Jumps land on their destination", "statement": "When the optimiser puts a method together, each jump lands on the first bytecode of the block it was meant to reach.", "quantifier": "for every division of a method in blocks, every length of the blocks and every set of jumps, forward or backward", "why_tests_cant": "The size of a jump depends on the distance, which depends on the sizes of the jumps in between; wrong sizes only appear in methods with hundreds of jumps.", "anchors": ["libgst/opt.c:compute_jump_length", "libgst/opt.c:_gst_optimize_bytecodes", "libgst/byte.c:_gst_compile_byte"]}
{"id": "C82", "title": "An ephemeron is mourned exactly when its key is reachable only through it", "statement": "After a garbage collection an ephemeron receives the mourning message if and only if its key cannot be reached from the roots without going through the key field of an ephemeron or the values held by ephemerons whose own key is dead.", "quantifier": "For every heap with contexts, weak objects and ephemerons, every set of roots and every order of the fields.", "why_tests_cant": "Whether an ephemeron is mourned depends on the whole graph around key and value and on the order in which the marker meets ephemerons; tests try one or two shapes.", "anchors": ["libgst/oop.c:mark_ephemeron_oops", "libgst/oop.c:mark_an_oop_internal", "libgst/oop.c:MAYBE_MARK_OOP", "kernel/Object.st:makeEphemeron", "kernel/Object.st:mourn", "kernel/WeakObjects.st:WeakKeyDictionary"]}
{"id": "C83", "title": "An image from a machine with the other byte order is the same image", "statement": "An image saved on a machine with one byte order and loaded on a machine with the same word size and the other byte order has the same objects: the same pointers, the same bytes in byte objects and the same numbers in objects with wider elements.", "quantifier": "For every image, address and way of reading the file (mapped or buffered).", "why_tests_cant": "Needs two machines, and whether the faulty path is taken depends on the address the memory is mapped at.", "anchors": ["libgst/save.c:load_file_version", "libgst/save.c:load_normal_oops", "libgst/save.c:fixup_byte_order", "doc/gst.texi:Loading or creating an image"]}
{"id": "C84", "title": "A saved semaphore keeps the processes that wait on it", "statement": "After an image is saved and loaded, the queue of every semaphore contains the processes that waited on it, in the same order, without those that were called in from C.", "quantifier": "For every queue, whatever the classes and positions of the processes in it.", "why_tests_cant": "The queue is rebuilt from links that are changed one object at a time; the result depends on which kinds of processes follow each other.", "anchors": ["libgst/save.c:fixup_object", "kernel/Semaphore.st", "kernel/CallinProcess.st"]}
{"id": "C85", "title": "A failed save leaves a usable image", "statement": "If saving the image fails, the file of that name is what it was before; if it succeeds the file is a whole image.", "quantifier": "For every image and every sequence of results of write().", "why_tests_cant": "A write may fail at any point, after any number of bytes.", "anchors": ["libgst/save.c:_gst_save_to_file", "libgst/save.c:full_write"]}
{"id": "C86", "title": "A damaged image file is refused", "statement": "Loading a file that is not an image, or is only the beginning of one, is refused and nothing else happens.", "quantifier": "For every file.", "why_tests_cant": "There are as many ways to truncate a file as it has bytes; some of them crash, others silently go on with garbage.", "anchors": ["libgst/save.c:load_file_version", "libgst/save.c:buffer_read", "libgst/save.c:buffer_advance", "libgst/save.c:load_normal_oops"]}
{"id": "C87", "title": "Replacing all occurrences of a sub-collection", "statement": "copyReplaceAll: old with: new answers the receiver with every occurrence of old replaced with new, where the occurrences are found from left to right and do not overlap; everything else stays as it was. indexOfSubCollection:startingAt: answers the first occurrence from there on.", "quantifier": "For every receiver, every old and new collection of any sizes and every kind of element (whatever it answers to =), for arrays and growing collections.", "why_tests_cant": "The sizes are computed in one pass and used in another; overlapping occurrences and changes of size have to agree in both.", "anchors": ["kernel/ArrayColl.st:copyReplaceAll:with:", "kernel/SeqCollect.st:copyReplaceAll:with:", "kernel/SeqCollect.st:indexOfSubCollection:startingAt:ifAbsent:", "kernel/SeqCollect.st:countSubCollectionOccurrencesOf:"]}
{"id": "C88", "title": "Copies of a range and with a range replaced", "statement": "copyReplaceFrom:to:with:, copyReplaceFrom:to:withObject: and copyFrom:to: answer the receiver with that range replaced, or that range, if the range exists, and fail if it does not; arrays and growing collections do the same.", "quantifier": "For every receiver, every pair of indices and every replacement.", "why_tests_cant": "The failures come from steps that fill parts of the copy; whether some step fails for every wrong pair of indices is a matter of arithmetic over three sizes.", "anchors": ["kernel/ArrayColl.st:copyReplaceFrom:to:with:", "kernel/ArrayColl.st:copyReplaceFrom:to:withObject:", "kernel/ArrayColl.st:copyFrom:to:", "kernel/SeqCollect.st:copyReplaceFrom:to:with:", "kernel/SeqCollect.st:copyFrom:to:"]}
{"id": "C89", "title": "replaceFrom:to:with:startingAt: replaces the whole range or nothing", "statement": "The method copies the range asked for, also when source and receiver are the same collection and overlap, and also when the classes differ so that the primitive cannot be used; if it fails the receiver is what it was.", "quantifier": "For every receiver and source, including the receiver itself, and all indices.", "why_tests_cant": "Which direction is right depends on how the ranges overlap; the failing cases run a second implementation.", "anchors": ["kernel/SeqCollect.st:replaceFrom:to:with:startingAt:", "kernel/Array.st:replaceFrom:to:with:startingAt:", "kernel/String.st:replaceFrom:to:with:startingAt:"]}
{"id": "C90", "title": "Filling, concatenating and joining", "statement": "atAllPut: stores the object at every index; the comma answers the elements of both collections in order; join:separatedBy: answers those of all collections in order with the separator between them.", "quantifier": "For every collection, of any size, every number of collections and every separator.", "why_tests_cant": "The fill doubles the part that is filled by copying the receiver onto itself; the join computes its size separately from what it stores.", "anchors": ["kernel/SeqCollect.st:atAllPut:", "kernel/ArrayColl.st:,", "kernel/String.st:,", "kernel/ArrayColl.st:join:separatedBy:"]}
{"id": "C91", "title": "Patterns match what they say", "statement": "aPattern match: aString answers whether the whole string matches the pattern, where a star stands for any sequence of characters and a hash for any character; ignoring case, letters match in both cases. indexOf:matchCase:startingAt: answers the first place at or after the index where something matches and the longest match there.", "quantifier": "For every pattern with any number of stars and hashes, every text, and every start index from 1.", "why_tests_cant": "A star may have to try every split of the text, once more for each star after it; examples exercise few of the combinations.", "anchors": ["kernel/CharArray.st:match:ignoreCase:", "kernel/CharArray.st:match:", "kernel/CharArray.st:indexOf:matchCase:startingAt:", "kernel/CharArray.st:matchSubstring:in:at:"]}
{"id": "C92", "title": "A string quoted for the shell is one word", "statement": "aString withUnixShellEscapes answers a string that a POSIX shell reads as one word, which is the receiver, so that it can be put into a command line safely.", "quantifier": "For every string, with any mixture of special characters.", "why_tests_cant": "That no string of any length breaks out of the word is a security property; tests use a few special characters.", "anchors": ["kernel/CharArray.st:withUnixShellEscapes"]}
{"id": "C93", "title": "Words and trimming", "statement": "subStrings, subStrings: and substrings: answer the words of the receiver in order: the longest sequences of characters that are not separators. trimSeparators answers the receiver without the white space at both ends and nothing else removed.", "quantifier": "For every string and every set of separators, including none.", "why_tests_cant": "Separators at the ends, adjacent separators and words of one character have to work in every combination.", "anchors": ["kernel/CharArray.st:subStrings", "kernel/CharArray.st:subStrings:", "kernel/CharArray.st:substrings:", "kernel/CharArray.st:trimSeparators"]}
{"id": "C94", "title": "Comparing strings is a total order without regard to case", "statement": "Of two strings exactly one of <, sameAs: and > holds, <= and >= are the negations of > and <, < is transitive and is the order of the strings in lower case.", "quantifier": "For all strings of any lengths.", "why_tests_cant": "Transitivity is a statement about all triples; a sort of strings relies on it.", "anchors": ["kernel/CharArray.st:<", "kernel/CharArray.st:>", "kernel/CharArray.st:<=", "kernel/CharArray.st:>=", "kernel/CharArray.st:sameAs:", "kernel/CharArray.st:caseInsensitiveCompareTo:"]}
{"id": "C95", "title": "isNumeric", "statement": "isNumeric answers true for a string of digits with at most one decimal point followed by digits, and false for every other string.", "quantifier": "For every string.", "why_tests_cant": "Strings that are almost numbers are many; the answer must be a Boolean for all of them.", "anchors": ["kernel/CharArray.st:isNumeric"]}
{"id": "C96", "title": "The full name of a file denotes the same file", "statement": "File fullNameFor: aName answers an absolute name with no . and .. components that denotes what aName denotes in the working directory, where .. at the root is the root. Applying it again changes nothing. The empty name is refused.", "quantifier": "For every name with any number of slashes, . and .. components, and every working directory.", "why_tests_cant": "Names with .. at arbitrary places and above the root are unbounded in number; programs rely on the full name for comparing files.", "anchors": ["kernel/FilePath.st:fullNameFor:", "kernel/FilePath.st:isAbsolute:", "kernel/CharArray.st:subStrings:"]}
{"id": "C97", "title": "Relative paths lead where they say", "statement": "File pathFrom: src to: dest answers a path that, used in the directory of src, denotes dest.", "quantifier": "For every pair of names and every working directory.", "why_tests_cant": "How much of the two names is common, and whether one is a prefix of the other, can vary without bound.", "anchors": ["kernel/FilePath.st:pathFrom:to:", "kernel/FilePath.st:computePathFrom:to:"]}
{"id": "C98", "title": "A file name is made of its parts", "statement": "The directory part (stripFileNameFor:) followed by the last component (stripPathFrom:) is the name; the last component appended to pathFor: denotes the same file; the name without its extension followed by its extension is the name, the extension being what follows the last point of the last component unless that is its first character. The entries . and .. have no extension.", "quantifier": "For every name; the second part for names that do not end with a slash.", "why_tests_cant": "The parts are found by separate searches from the end of the name that must agree for all placements of slashes and points.", "anchors": ["kernel/FilePath.st:stripFileNameFor:", "kernel/FilePath.st:stripPathFrom:", "kernel/FilePath.st:pathFor:ifNone:", "kernel/FilePath.st:append:to:", "kernel/FilePath.st:extensionFor:", "kernel/FilePath.st:stripExtensionFrom:"]}
{"id": "C99", "title": "Decoding undoes encoding", "statement": "URL encode: answers a text with no character that separates fields or parts of a URL, and URL decode: answers the original from it. URL decode: answers what any text in x-www-form-urlencoded format stands for.", "quantifier": "For every string of bytes; for every encoded text, with hexadecimal digits in either case.", "why_tests_cant": "There are unboundedly many strings, and any of the 256 bytes can be at any place, next to text that looks like an escape.", "anchors": ["kernel/URL.st:encode:", "kernel/URL.st:decode:", "kernel/Character.st:digitValue"]}
{"id": "C100", "title": "A URL is read back from what it prints", "statement": "URL fromString: answers for every string. Reading what a URL prints gives a URL with the same scheme, user, password, host, port, path, query and fragment.", "quantifier": "For every string; for every URL whose parts contain no delimiter that ends them.", "why_tests_cant": "Each of eight parts can be absent or arbitrarily long, and the delimiters have different meanings in different parts; that the loop ends cannot be tested.", "anchors": ["kernel/URL.st:fromString:", "kernel/URL.st:fromURLString:", "kernel/URL.st:printOn:"]}
{"id": "C101", "title": "Relative references are resolved as the standard says", "statement": "aURL construct: aReference answers the URL that the reference denotes relative to the receiver (RFC 3986, 5.2).", "quantifier": "For every base and every reference, with any number of . and .. segments.", "why_tests_cant": "The segments and their order are unbounded, and .. above the root must be ignored.", "anchors": ["kernel/URL.st:construct:", "kernel/URL.st:constructPath:with:"]}
{"id": "C102", "title": "Form fields have all their values", "statement": "decodedFields answers a dictionary in which each decoded name of the query has its decoded value, or all its values in order if it is repeated.", "quantifier": "For every query that is the text of a form.", "why_tests_cant": "Names can be repeated any number of times in any order, and values can contain any escaped character.", "anchors": ["kernel/URL.st:decodedFields", "kernel/URL.st:add:to:value:", "kernel/CharArray.st:subStrings:"]}
{"id": "C103", "title": "Equality of URLs is an equivalence consistent with hash", "statement": "A URL is equal to itself and to any URL with the same parts, and equal URLs have equal hashes.", "quantifier": "For all URLs, including those answered by other operations.", "why_tests_cant": "It relates all pairs of objects, and the hash is cached across operations.", "anchors": ["kernel/URL.st:=", "kernel/URL.st:hash", "kernel/URL.st:decodedFile", "kernel/URL.st:copyWithoutAuxiliaryParts"]}
{"id": "C104", "title": "A return from a block ends the method the block belongs to", "statement": "^ in a block ends the method activation in which the block was created, with the value given, no matter how many messages were sent in between; the argument of every ensure: between the two is evaluated exactly once, the innermost first; everything else continues as if nothing had happened. If that activation has ended, the return is an error.", "quantifier": "For every program of methods, blocks, value, ensure:, on:do: and returns, of any nesting and any depth of recursion.", "why_tests_cant": "Which contexts are between a block and its method depends on the whole execution, and returns, unwinding and blocks that outlive their methods can be combined without bound.", "anchors": ["libgst/interp.c:unwind_method", "libgst/interp.c:unwind_to", "libgst/interp.c:unwind_context", "libgst/interp.c:disable_non_unwind_contexts", "kernel/BlkClosure.st:ensure:", "kernel/BlkClosure.st:on:do:", "libgst/prims.def:VMpr_BlockClosure_valueAndResumeOnUnwind", "libgst/vm.def:RETURN_METHOD_STACK_TOP"]}
{"id": "C105", "title": "The interpreter never continues in a context that does not exist", "statement": "No program makes the interpreter return to nil, or report a return from a method that has not ended as an error.", "quantifier": "For every program of methods, blocks, value, ensure:, on:do: and returns.", "why_tests_cant": "The links between contexts are changed while they are walked; whether one of them becomes nil depends on the whole history.", "anchors": ["libgst/interp.c:unwind_to", "libgst/interp.c:unwind_context", "libgst/interp.c:disable_non_unwind_contexts"]}
{"id": "C106", "title": "A handler block runs in the environment its on:do: was evaluated in", "statement": "An exception signaled while a handler block runs is handled by the handlers established by that block, or else by those that were in effect when the on:do: of the handler was evaluated; never by those established inside the protected block, nor by the on:do: itself. Falling off the end of a handler block, or return:, answers the value from the on:do:; resume: answers it from the signal; ensure: blocks of what is left run once, the innermost first.", "quantifier": "For every program of signals, on:do:on:do:..., ensure:, return:, resume:, outer and pass, of any nesting.", "why_tests_cant": "Which handlers are on the stack, and in which state, depends on the whole execution; tests exercise a few shapes of nesting.", "anchors": ["kernel/ExcHandling.st:signal", "kernel/ExcHandling.st:instantiateNextHandlerFrom:", "kernel/ExcHandling.st:activateHandler:", "kernel/ExcHandling.st:return:", "kernel/ExcHandling.st:resume:", "kernel/ExcHandling.st:resetHandler", "kernel/BlkClosure.st:exceptionHandlerSearchBlock", "kernel/BlkClosure.st:on:do:"]}
{"id": "C107", "title": "pass and outer hand an exception over to the enclosing handler", "statement": "After pass, and after outer unless the exception is resumed, the enclosing handler decides: if its block ends, its own on:do: answers the value. After pass, resume: (or the default action of a notification) returns from the signal.", "quantifier": "For every program that uses pass and outer.", "why_tests_cant": "The outcome depends on how the enclosing handler ends and on what follows the inner on:do:; the tests only have handlers that end with return.", "anchors": ["kernel/ExcHandling.st:pass", "kernel/ExcHandling.st:outer", "kernel/ExcHandling.st:activateHandler:"]}
{"id": "C108", "title": "Leaving an inner handler with return: does not affect an outer handler that is running", "statement": "While a handler block runs, its own on:do: does not handle further exceptions, whatever handlers have been entered and left in between.", "quantifier": "For every program that uses return:.", "why_tests_cant": "It takes a handler within a handler and a later signal; the failure is an endless recursion, not a wrong value.", "anchors": ["kernel/ExcHandling.st:return:", "kernel/ExcHandling.st:resetAllHandlers", "kernel/BlkClosure.st:exceptionHandlerResetBlock"]}
{"id": "C109", "title": "retry leaves the protected block before evaluating it again", "statement": "retry first leaves what the protected block was doing, running its ensure: blocks, and then evaluates the on:do: anew.", "quantifier": "For every program that uses retry.", "why_tests_cant": "The difference shows only if the protected block has ensure: blocks or handlers of its own and the second attempt depends on them.", "anchors": ["kernel/ExcHandling.st:retry", "kernel/ExcHandling.st:return:"]}
{"id": "C110", "title": "Of several handlers, the one that names the nearest class is used", "statement": "on:do:on:do:... gives an exception to the handler whose class or ExceptionSet names the nearest ancestor of its class (or the class), and to the first of those that name it; to none if none names an ancestor, in which case the default action is performed.", "quantifier": "For every hierarchy of exception classes less than 100000 levels deep, every class and every list of classes and ExceptionSets.", "why_tests_cant": "The hierarchy and the list of handlers are unbounded; goodness: encodes `no' as a large negative depth.", "anchors": ["kernel/ExcHandling.st:goodness:", "kernel/BlkClosure.st:exceptionHandlerSearchBlock", "kernel/ExcHandling.st:instantiateDefaultHandler"]}
{"id": "C111", "title": "Every text of the language is parsed to its tree", "statement": "An expression or a method written according to the grammar (unary messages before binary ones, binary ones before keyword messages, each kind from left to right; cascades to the receiver of the last message; assignment to everything on its right; literals, literal arrays, blocks, braces, pragmas) is accepted and compiled as that grammar says.  No text can be read in two ways.", "quantifier": "For every sequence of tokens that the grammar derives, of any length and nesting.", "why_tests_cant": "The language is infinite and the parser decides by one token of lookahead and by flags handed down; tests parse a few hundred texts.", "anchors": ["libgst/gst-parse.c:parse_expression", "libgst/gst-parse.c:parse_required_expression", "libgst/gst-parse.c:parse_primary", "libgst/gst-parse.c:parse_literal", "libgst/gst-parse.c:parse_array_literal", "libgst/gst-parse.c:parse_char_literal", "libgst/gst-parse.c:parse_block", "libgst/gst-parse.c:parse_cascaded_messages", "libgst/gst-parse.c:parse_keyword_continuation", "libgst/gst-parse.c:parse_method", "libgst/gst-parse.c:parse_attributes"]}
{"id": "C112", "title": "Nothing else is accepted", "statement": "If an expression or a method is accepted without an error message, the text consumed is one the grammar derives, with the tree it derives: no part of it is skipped.", "quantifier": "For every sequence of tokens.", "why_tests_cant": "There is no list of all wrong texts; a part dropped in silence shows only as code that does not run.", "anchors": ["libgst/gst-parse.c:parse_statements", "libgst/gst-parse.c:parse_array_literal", "libgst/gst-parse.c:parse_block", "libgst/gst-parse.c:parse_message_pattern", "libgst/gst-parse.c:parse_temporaries"]}
{"id": "C113", "title": "The parser always ends", "statement": "For every text, grammatical or not, parsing an expression or a method ends, with an answer or with an error that is reported, and does not fail an assertion.  What is left of the text is never longer than the text.", "quantifier": "For every sequence of tokens.", "why_tests_cant": "Ending for all inputs, including all malformed ones, cannot be tested.", "anchors": ["libgst/gst-parse.c:parse_expression", "libgst/gst-parse.c:parse_statements", "libgst/gst-parse.c:parse_cascaded_messages", "libgst/gst-parse.c:parse_method", "libgst/gst-parse.c:parse_attributes"]}
{"id": "C114", "title": "A compiled method does what its source says", "statement": "Running the bytecodes of a compiled method, whatever the receiver and arguments, sends the same messages in the same order with the same arguments, assigns the same variables and answers the same object as evaluating the source text from left to right does; this includes the control structures that the compiler expands in line (ifTrue:, and:, or:, whileTrue:, repeat, timesRepeat:, to:do:, to:by:do: and their variants).", "quantifier": "For every method, receiver, arguments, state of the system, and answers of the messages it sends.", "why_tests_cant": "The compiler has an encoding per distance of jump and per index; tests compile methods of a few lines, whose jumps and indices are small.", "anchors": ["libgst/comp.c:_gst_compile_method", "libgst/comp.c:compile_expression", "libgst/comp.c:compile_while_loop", "libgst/comp.c:compile_to_by_do", "libgst/comp.c:compile_times_repeat", "libgst/comp.c:compile_if_true_false_statement", "libgst/comp.c:compile_and_or_statement", "libgst/comp.c:compile_cascaded_message", "libgst/comp.c:compile_assignments", "libgst/comp.c:_gst_make_new_method"]}
{"id": "C115", "title": "A method never uses more of the stack than its header reserves", "statement": "The number of objects a method has on the stack at any moment is at most what the depth stored in its header reserves.", "quantifier": "For every method and every run of it.", "why_tests_cant": "Writing beyond a context corrupts another object, and shows only when a context happens to be moved to the heap at the deepest point.", "anchors": ["libgst/comp.c:compile_to_by_do", "libgst/comp.c:_gst_make_new_method", "libgst/comp.h:MAX_NUM_TEMPS", "libgst/comp.h:DEPTH_SCALE", "libgst/interp.c:prepare_context"]}
{"id": "C116", "title": "The compiler always ends and none of its assertions fails", "statement": "Compiling any method that was parsed ends, with a method or with an error that is reported.  In particular the search for the lengths of jumps in loops, which depend on one another, ends.", "quantifier": "For every method, instance variables, global variables.", "why_tests_cant": "The lengths of two jumps of a loop each depend on the encoding of the other; whether the iteration that finds them always ends is a matter of proof.", "anchors": ["libgst/comp.c:compile_while_loop", "libgst/comp.c:compile_to_by_do", "libgst/comp.c:compile_times_repeat", "libgst/comp.c:_gst_compile_method", "libgst/comp.c:compile_line_number"]}
{"id": "C117", "title": "A scavenge loses no object that can be reached", "statement": "After new space has been scavenged, every object of new space that can be reached from the roots, the registered objects or remembered pages still exists with the same contents; objects that survived do not overlap; objects of old space are where they were; and objects that cannot be reached are not kept.", "quantifier": "For every heap, survivor space, number of objects that survive, and state left by the scavenge before.", "why_tests_cant": "The queue of survivors and the survivor space are ring buffers that wrap around while they are scanned; what goes wrong depends on exact numbers of objects and words, which no test controls.", "anchors": ["libgst/oop.c:_gst_copy_an_oop", "libgst/oop.c:cheney_scan", "libgst/oop.c:scan_grey_pages", "libgst/oop.c:scan_grey_objects", "libgst/oop.c:queue_get", "libgst/oop.c:queue_put", "libgst/oop.c:tenure_one_object", "libgst/oop.c:add_grey_object", "libgst/oop.c:copy_oops", "libgst/oop.c:_gst_scavenge"]}
{"id": "C118", "title": "A scavenge mourns an ephemeron only if its key is not alive otherwise", "statement": "An ephemeron is sent #mourn after a scavenge only if its key could be reached through ephemerons with dead keys alone.", "quantifier": "For every heap and every order in which ephemerons are found.", "why_tests_cant": "The outcome depends on the order in which two ephemerons are reached.", "anchors": ["libgst/oop.c:scan_grey_objects", "libgst/oop.c:add_grey_object"]}
{"id": "C119", "title": "Arithmetic on ScaledDecimals is exact", "statement": "Sums, differences, products, quotients and remainders that involve ScaledDecimals are exact, whatever the scale, and have the larger of the scales of the operands; an error is reported only if the divisor is zero.", "quantifier": "For all ScaledDecimals, of any scale, with Integers and Fractions.", "why_tests_cant": "The scale only says how many digits are shown; tests use numbers that have no more digits than that, for which an operation that drops the others looks right.", "anchors": ["kernel/ScaledDec.st:+", "kernel/ScaledDec.st:-", "kernel/ScaledDec.st:*", "kernel/ScaledDec.st:/", "kernel/ScaledDec.st://", "kernel/ScaledDec.st:\\\\", "kernel/ScaledDec.st:asFraction", "kernel/Number.st:asExactFraction"]}
{"id": "C120", "title": "Comparison of ScaledDecimals is a total order", "statement": "= between ScaledDecimals is an equivalence and says whether the numbers are equal; <, <=, > and >= say which of two numbers is less.", "quantifier": "For all ScaledDecimals, of any scales.", "why_tests_cant": "That = is transitive is a statement about all triples of numbers.", "anchors": ["kernel/ScaledDec.st:compare:", "kernel/ScaledDec.st:=", "kernel/ScaledDec.st:<", "kernel/Number.st:rounded"]}
{"id": "C121", "title": "abs of a ScaledDecimal is never negative and floor never greater than the number", "statement": "negative says whether a ScaledDecimal is less than zero; abs answers its absolute value; floor the greatest integer that is not greater; truncated drops the fraction.", "quantifier": "For all ScaledDecimals.", "why_tests_cant": "It goes wrong only for numbers less than half a unit of the last digit shown.", "anchors": ["kernel/Number.st:abs", "kernel/Number.st:floor", "kernel/Number.st:negative", "kernel/ScaledDec.st:truncated", "kernel/ScaledDec.st:compare:"]}
{"id": "C122", "title": "A printed ScaledDecimal reads back as an equal one", "statement": "printString and storeString of a ScaledDecimal are the digits of the number, as many after the full stop as the scale, a minus sign only in front of a negative number; the text is a literal for an equal number with the same scale.", "quantifier": "For all ScaledDecimals and whatever follows the literal.", "why_tests_cant": "Literals have been tried on numbers of a few digits; the digits are made one by one from a fraction, and read with arithmetic modulo 2^64 or digit by digit.", "anchors": ["kernel/ScaledDec.st:displayOn:", "kernel/ScaledDec.st:printOn:", "kernel/ScaledDec.st:storeOn:", "kernel/Number.st:asScaledDecimal:radix:scale:", "libgst/lex.c:scan_number", "libgst/lex.c:scan_fraction", "libgst/lex.c:_gst_negate_yylval"]}
{"id": "C123", "title": "A Float literal is the Float nearest to the number written", "statement": "A Float literal, in any base, with a fraction and an exponent, denotes the Float of its class nearest to the number written.", "quantifier": "For all bases, digits, exponents and the three classes of Floats.", "why_tests_cant": "Whether the last bit is right depends on all the digits; tests try numbers such as 3.14, never close to the middle of two Floats.", "anchors": ["libgst/lex.c:scan_number", "libgst/real.c:_gst_real_mul", "libgst/real.c:_gst_real_add", "libgst/real.c:_gst_real_div", "libgst/real.c:_gst_real_powi", "libgst/real.c:_gst_real_get_ld"]}
{"id": "C124", "title": "A CStruct is laid out as a C compiler lays it out", "statement": "The offsets of the members of a subclass of CStruct, its sizeof and its alignof are those of the C structure with the same declaration; members do not overlap and are aligned.", "quantifier": "For all declarations: any number of members, arrays, pointers, nested and inherited structures.", "why_tests_cant": "Padding depends on the order and nesting of all members; tests lay out a few structures.", "anchors": ["kernel/CStruct.st:declaration:inject:into:", "kernel/CStruct.st:compileSize:align:", "kernel/CStruct.st:alignTo:", "kernel/CType.st:sizeof", "kernel/CType.st:alignof", "kernel/CObject.st:sizeof"]}
{"id": "C125", "title": "A CUnion has room for each of its members", "statement": "All members of a subclass of CUnion are at its beginning, and its sizeof, which new allocates, is that of the C union with the same declaration.", "quantifier": "For all declarations, including structures that contain unions.", "why_tests_cant": "The members of a union in a test tend to be of the same size, or the largest one comes last.", "anchors": ["kernel/CStruct.st:declaration:", "kernel/CStruct.st:declaration:inject:into:", "kernel/CStruct.st:new"]}
{"id": "C126", "title": "Pieces of memory handed out by the allocator never overlap", "statement": "The pieces of memory a client of _gst_mem_alloc and _gst_mem_realloc holds are disjoint, aligned, not null, and disjoint from memory that is free; the allocator never aborts or does anything undefined for a client that returns only what it holds; the heap's limit is kept.", "quantifier": "For all sequences of allocations, resizings and returns, all sizes below 2 Gb, and all addresses the system answers.", "why_tests_cant": "Overlaps appear only after particular sequences of splits, merges and reuse; tests see a few addresses of one system.", "anchors": ["libgst/alloc.c:_gst_mem_alloc", "libgst/alloc.c:_gst_mem_realloc", "libgst/alloc.c:_gst_mem_free", "libgst/alloc.c:heap_primitive_alloc", "libgst/alloc.c:heap_add_to_free_list", "libgst/alloc.h:heap_block"]}
{"id": "C127", "title": "The allocator loses no memory", "statement": "When a client has returned all it held, no block is in use, heap_total is 0, and all memory got from the system to be divided is free again, merged as far as possible; nothing of it is ever lost, and heap_total is always the memory in use.", "quantifier": "For all sequences of allocations, resizings and returns, of all sizes.", "why_tests_cant": "A leak needs a particular merge or size; a test with 2 Gb objects does not exist.", "anchors": ["libgst/alloc.c:_gst_mem_free", "libgst/alloc.c:heap_primitive_free", "libgst/alloc.c:heap_add_to_free_list", "libgst/alloc.c:_gst_mem_realloc"]}
{"id": "C128", "title": "A printed Float reads back as the same Float, and is not longer than needed", "statement": "Printing a Float that is not special writes a literal of the language; the literal stands for a number nearer to the Float than to any other, so that reading it gives the Float back; and if a number with few enough digits (6, 15 or 18) is nearest to the Float, that number is what is printed.", "quantifier": "For all finite Floats but zero, of all three classes and both signs.", "why_tests_cant": "There are 2^64 FloatDs; the digits that go wrong depend on how the Float lies between powers of ten, and powers of ten themselves go wrong only for some exponents.", "anchors": ["kernel/Float.st:printOn:special:", "kernel/Number.st:floorLog:", "libgst/lex.c:scan_number"]}
{"id": "C129", "title": "A stream made from streams gives the objects that the list operations give", "statement": "A stream made with `,`, select:, reject:, collect:, lines and with: answers atEnd, next, peek, peekFor:, position and nextLine, sent in any order, as a stream on the concatenated, filtered, mapped, split or zipped list does; and the lines of a text made of lines are those lines.", "quantifier": "For all finite sources, all nestings of the operations, all blocks without side effects and all sequences of messages.", "why_tests_cant": "Streams nest without bound and each keeps state of its own; which message goes wrong depends on the nesting and on what was sent before.", "anchors": ["kernel/StreamOps.st:ConcatenatedStream", "kernel/StreamOps.st:FilteringStream", "kernel/StreamOps.st:CollectingStream", "kernel/StreamOps.st:PeekableStream", "kernel/StreamOps.st:LineStream", "kernel/StreamOps.st:OneOfEachStream", "kernel/Stream.st:nextLine"]}
{"id": "C130", "title": "Reading all of a stream, or up to an object, gives just those objects", "statement": "For a stream made from streams, after any messages: do: hands over every object left once and in order, linesDo: every line; upTo: answers what is before the first object equal to its argument and goes on after it; skipTo: and skip: leave what they should; contents answers all that is left; splitAt: answers the parts between the objects equal to its argument.", "quantifier": "For all streams made from finite sources by the operations of C129, all histories of messages and all arguments.", "why_tests_cant": "Lengths beyond the internal buffer of 1024 objects, all nestings and all positions of the sought object would have to be tried.", "anchors": ["kernel/Stream.st:do:", "kernel/Stream.st:linesDo:", "kernel/Stream.st:upTo:", "kernel/Stream.st:skip:", "kernel/Stream.st:skipTo:", "kernel/Stream.st:contents", "kernel/Stream.st:splitAt:", "kernel/Stream.st:nextAvailable:into:startingAt:", "kernel/StreamOps.st:OneOfEachStream>>do:"]}
{"id": "C131", "title": "DateTimes and Durations behave as instants and lengths of time", "statement": "Adding or subtracting a Duration moves the instant that a DateTime denotes by it and keeps the offset; the difference of two DateTimes is the time between their instants; <, >, <=, >=, =, min: and max: compare the instants, whatever the offsets; equal DateTimes have equal hashes; the parts of a Duration and of a DateTime give it back; adding a Duration to a Date moves it by that time.", "quantifier": "For all dates, past and future, all times of the day, all offsets and all Durations of whole seconds, of either sign.", "why_tests_cant": "Carries between seconds and days, negative Durations and pairs of offsets combine without bound; each wrong case is a few seconds among all.", "anchors": ["kernel/AnsiDates.st:DateTime>>+", "kernel/AnsiDates.st:DateTime>>-", "kernel/AnsiDates.st:DateTime>>asUTC", "kernel/AnsiDates.st:DateTime>>hash", "kernel/AnsiDates.st:Duration", "kernel/Date.st:Date>>+", "kernel/Time.st:hours", "kernel/Magnitude.st"]}
{"id": "C132", "title": "What DateTimes, Dates, Times and Durations print is read back as the same value", "statement": "readFrom: on the text that printOn: writes answers an equal Duration, Time, Date or DateTime, also when more text follows after a blank.", "quantifier": "For all Durations of whole seconds, all Times, all Dates, all DateTimes with an offset, and all texts that follow.", "why_tests_cant": "The reader guesses the order of year, month and day from the values, and the sign, padding and number of fields vary; all years and offsets would have to be tried.", "anchors": ["kernel/AnsiDates.st:DateTime class>>readFrom:", "kernel/AnsiDates.st:DateTime>>printOn:", "kernel/AnsiDates.st:Duration class>>readFrom:", "kernel/AnsiDates.st:Duration>>printOn:", "kernel/Date.st:Date class>>readFrom:", "kernel/Date.st:Date>>printOn:", "kernel/Time.st:Time class>>readFrom:", "kernel/Time.st:printOn:"]}
{"id": "C133", "title": "The MD5 digest is that of RFC 1321, however the message is put", "statement": "MD5 digestOf: answers the 16 bytes that RFC 1321 defines for the message, and hexDigestOf: their hexadecimal digits; the digest depends only on the bytes, not on how nextPut: and nextPutAll: cut them into pieces, nor on what the memory of the context held before; no access leaves the buffer of the context.", "quantifier": "For all messages (the length counted modulo 2^64 bits, as the RFC says), all ways to cut them into Strings of less than 2^32 bytes, and all contents of the uninitialised buffer.", "why_tests_cant": "Test vectors try a few messages at a few lengths; the buffering has different branches for each amount left over, each length of the next piece, and each padding, and an error in a carry of the count shows only beyond 512 MB.", "anchors": ["packages/digest/md5.c:md5_process_bytes", "packages/digest/md5.c:md5_process_block", "packages/digest/md5.c:md5_finish_ctx", "packages/digest/md5.st:MD5>>nextPutAll:", "packages/digest/digest.st:MessageDigest>>hexDigest"]}
{"id": "C134", "title": "The SHA-1 digest is that of RFC 3174, however the message is put", "statement": "SHA1 digestOf: answers the 20 bytes that RFC 3174 defines for the message, and hexDigestOf: their hexadecimal digits; the digest depends only on the bytes, not on how nextPut: and nextPutAll: cut them into pieces, nor on whether these are aligned in memory, nor on what the memory of the context held before; no access leaves the buffer of the context.", "quantifier": "For all messages of bytes (the length counted modulo 2^64 bits), all ways to cut them into Strings of less than 2^32 bytes, aligned or not, and all contents of the uninitialised buffer.", "why_tests_cant": "The path for data that are not aligned depends on where the allocator puts a String and on what was left over; with the lengths and the paddings there are more combinations than vectors.", "anchors": ["packages/digest/sha1.c:sha1_process_bytes", "packages/digest/sha1.c:sha1_process_block", "packages/digest/sha1.c:sha1_finish_ctx", "packages/digest/sha1.st:SHA1>>nextPutAll:", "packages/digest/digest.st:MessageDigest>>hexDigest"]}
{"id": "C135", "title": "Rectangles behave as the sets of points between their corners", "statement": "intersect: answers a Rectangle with exactly the points of both, and nil if there are none, which intersects: tells; merge: answers the smallest Rectangle with the points of both; areasOutside: answers Rectangles such that each point of the receiver outside the argument is in exactly one of them and no other point is in any; contains: tells whether all the points of the argument are in the receiver; normalize and normalized put the origin before the corner and keep the points; translatedToBeWithin: keeps the extent and fits a Rectangle that can fit; moving, scaling, expandBy: and insetBy: act on the points as they say; the comparisons of Points are an order with min: and max: as bounds.", "quantifier": "For all Rectangles with Integer coordinates, of either orientation, and all Points.", "why_tests_cant": "How two Rectangles can lie to each other has many cases (disjoint, touching, one edge in common, inside, across, not normalised), each with its own branch.", "anchors": ["kernel/Rectangle.st:Rectangle>>intersect:", "kernel/Rectangle.st:Rectangle>>intersects:", "kernel/Rectangle.st:Rectangle>>areasOutside:", "kernel/Rectangle.st:Rectangle>>merge:", "kernel/Rectangle.st:Rectangle>>contains:", "kernel/Rectangle.st:Rectangle>>normalize", "kernel/Rectangle.st:Rectangle>>normalized", "kernel/Rectangle.st:Rectangle>>translatedToBeWithin:", "kernel/Point.st"]}
{"id": "C136", "title": "Command lines are read as the pattern of options says", "statement": "A pattern lists the options of a program with their names and whether they take an argument. Every pattern with different names is accepted, and one with a name given twice, with a name that is neither -c nor --long, or with misplaced colons is an error. Then every command line is either right, and the action block gets the canonical names, arguments and file names in order (names or unique prefixes, short options in one argument, arguments in the same or the next argument, all after -- as file names), or wrong, and the error block is evaluated after the actions of what came before; no command line can be read in two ways.", "quantifier": "For all patterns, all white space in them, all command lines, and all orders of the hashed collections.", "why_tests_cant": "Patterns and command lines are unbounded texts, and how they are read depends on which names are prefixes of others, on the order of hashed collections, and on where an argument ends.", "anchors": ["kernel/Getopt.st:Getopt class>>parse:with:do:ifError:", "kernel/Getopt.st:Getopt>>parsePattern:", "kernel/Getopt.st:Getopt>>parseOneArgument", "kernel/Getopt.st:Getopt>>atSynonym:put:", "kernel/Getopt.st:Getopt>>rejectBadPrefixes", "kernel/CharArray.st:CharacterArray>>subStrings:"]}
{"id": "C137", "title": "A MappedCollection gives the objects of its domain under the keys of its map", "statement": "at: answers the object of the domain at the index that the map has for the key, and is an error for other keys; at:put: changes that object only; do:, size and keys agree with at:; atAll: and copyFrom:to: answer the objects at these keys; collect: keeps the keys and changes the objects; select: and reject: answer the objects for which the block is true or false; keysAndValuesDo: gives every key with its object.", "quantifier": "For all domains, all maps (Arrays of indices or Dictionaries with indices for values), all keys and all blocks.", "why_tests_cant": "A wrong mix of keys and indices gives the right answer for the maps that come to mind first: those that map numbers to themselves.", "anchors": ["kernel/MappedColl.st:MappedCollection>>at:", "kernel/MappedColl.st:MappedCollection>>at:put:", "kernel/MappedColl.st:MappedCollection>>collect:", "kernel/MappedColl.st:MappedCollection>>select:", "kernel/MappedColl.st:MappedCollection>>reject:", "kernel/MappedColl.st:MappedCollection>>keysAndValuesDo:", "kernel/MappedColl.st:MappedCollection>>atAll:", "kernel/MappedColl.st:MappedCollection>>copyFrom:to:"]}
{"id": "C138", "title": "Random is the Mersenne Twister, and its numbers are in the ranges asked for", "statement": "A Random answers the numbers of the MT19937 recurrence from the words that its seed gives, no seed gives the degenerate generator, different seeds give different generators, next answers a number from 0 to 1 (1 excluded), between:and: answers a number in the range for every range that is not empty and each number of it equally often up to one word, and no use of a Random reads outside of it.", "quantifier": "For all states of the generator, all lengths of the sequence, all seeds and all ranges.", "why_tests_cant": "Random numbers can be tested only by sampling; a wrong word once in a round of 624, or a 1 once in four billion numbers, does not show.", "anchors": ["kernel/Random.st:Random>>next", "kernel/Random.st:Random>>between:and:", "kernel/Random.st:Random>>nextLimit:", "kernel/Random.st:Random>>setSeed:", "libgst/interp.inl:random_next", "libgst/interp.inl:random_generate", "libgst/prims.def:VMpr_Random_next"]}
{"id": "C139", "title": "LinkedLists hold the links that were added and not removed, in order", "statement": "addFirst:, addLast:, add:, removeFirst, removeLast and remove:ifAbsent: act on a LinkedList as on a sequence, for any links and nil; they leave all other lists and links alone; a link that is removed can be added again; do:, size, at:, includes:, first and last agree with the sequence and always return.", "quantifier": "For all programs of these messages over any number of lists that share a heap of links, and all links.", "why_tests_cant": "Whether a list stays well linked depends on the whole history of its links, also in other lists.", "anchors": ["kernel/LinkedList.st:LinkedList>>addFirst:", "kernel/LinkedList.st:LinkedList>>addLast:", "kernel/LinkedList.st:LinkedList>>remove:ifAbsent:", "kernel/LinkedList.st:LinkedList>>removeFirst", "kernel/LinkedList.st:LinkedList>>removeLast", "kernel/LinkedList.st:LinkedList>>at:", "kernel/LinkedList.st:LinkedList>>size", "kernel/Link.st:Link>>do:"]}
{"id": "C140", "title": "What was encoded in base 64 is decoded to the same bytes", "statement": "MimeScanner class>>decodeBase64From:to:in: answers the bytes whose encoding the text is, whatever their number, with newlines between groups of four characters and at the end, and an empty String for an empty text.", "quantifier": "For all sequences of bytes and all ways to break their encoding into lines, with any number of newlines at the end.", "why_tests_cant": "Padding, the place of the newlines and their number interact; a test with a short text has one line.", "anchors": ["packages/net/MIME.st:MimeScanner class>>decodeBase64From:to:in:"]}
{"id": "C141", "title": "Quoted-printable text is decoded to the bytes that it stands for", "statement": "decodeQuotedPrintableFrom:to:in: (MimeScanner and MimeEncodedWordCoDec) answers the bytes for which a text stands by RFC 2045, with newline or carriage return and newline at the end of lines, and by RFC 2047 for words in headers; a text that stands for nothing is an error.", "quantifier": "For all texts and bytes.", "why_tests_cant": "Which bytes fail depends on their value (those above 127), on the end of the lines and on the place of the text; a test with one text in English passes.", "anchors": ["packages/net/MIME.st:MimeEncodedWordCoDec class>>decodeQuotedPrintableFrom:to:in:", "packages/net/MIME.st:MimeScanner class>>decodeQuotedPrintableFrom:to:in:", "kernel/Integer.st:Integer>>asCharacter", "libgst/dict.inl:char_new,index_oop_put_spec"]}
