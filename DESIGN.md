# Formal model of CommonLibs in Rocq (Coq 8.16.1)

`/repo` is read as text; it is neither built nor run nor changed.

## 1. Layout and conventions

Each subsystem has up to four kinds of files in `rocq/theories`:

* `XModel.v` – total, computable Gallina functions that follow the C++ function by
  function.  Every definition carries a comment with the file and lines it models and
  says where it simplifies.
* `XSpec.v` – small specifications that do not mention the model (polynomials over GF(2),
  ideal deques, maximal runs, decimal numbers, ...).  Some are in the Props files instead.
* `XProofs.v` – lemmas.
* `XProps.v` – the property theorems `Cnn_...`, each followed by `Print Assumptions`, with
  `Example`s that show the hypotheses are satisfiable and the statement non-trivial.

`Base.v` has the outcomes of a C++ call, `res A := Ok a | Abort | UB | Diverge`:

* `Abort`: a failed `assert`, or an exception where the model says so;
* `UB`: undefined behaviour (access out of bounds or after free, signed overflow, shift out of
  range, division by zero, reading an uninitialised object);
* `Diverge`: out of fuel.  Unbounded loops are structural recursions or carry fuel; theorems
  either show that a stated amount of fuel suffices or, for endless loops, that the
  result is `Diverge` for every fuel.

Fixed-width integers are `Z` with the wrap written out (`u8`, `u32`, `s32`, `u64`, ...) where it
can matter.  Characters are numbers 0..255, strings lists of them.  Concurrent code is a
transition system whose steps are single pthread calls and the regions between
them; theorems quantify over all reachable states, i.e. any number of threads and
any schedule, spurious wake-ups included.  The clock, the results of the database,
thread schedules and failures of system calls are arguments, and so universally quantified.

Where the code violates what a user would expect, the property says so ("Defect: ...")
and a theorem proves it: `..._refuted` for a witness, other names (`C14_self_shift_empties`,
`C29_timedlock_wrong`, ...) where the defect is proved for every state of the kind.  Beside it
stands the theorem with the exact condition under which the property does hold.

## 2. Trusted base

* The kernel of Coq 8.16.1 (and `vm_compute`, which some Examples and witnesses use).
* `Print Assumptions` after every `Cnn_` theorem prints "Closed under the global context":
  **no theorem depends on any axiom**.  Some files load library modules (through
  `Lia`/`ssreflect` infrastructure) in which seven axioms of `Coq.ssr.ssrunder` are
  declared; no theorem uses them.
* No axioms, parameters, admitted proofs, functors, module types, plugins or changed
  kernel flags of our own.
* That the model says what the code says.  Each definition cites the lines to compare it with;
  section 5 lists the simplifications, section 6 what is left out.
* Specifications of software outside the repository, written from its documentation:
  pthread mutexes and condition variables (recursive mutexes, glibc condition waits), the
  C library (`strtol`, `sprintf`, `vsnprintf`, `strsep`, `strpbrk`, `isspace` in the C locale,
  `inet_pton`, `signal`, `strtof`, `strtod`, `regcomp`, `regexec`, `gmtime`, `localtime`), libstdc++ (`string::find/substr/replace`, stream extraction of
  integers and floats, `map`, `priority_queue` by contract), and the SQLite statements used
  (`SqlModel.v`: lexer, parser, effect on a table; `ReportModel.v`: effect only).


## 3. Properties: what is modelled and how it is proved

Statements are in `properties.jsonl`; theorem names and status are also in `MANIFEST.json`.

### C01 Bit-field write then read gives the value back

* Modelled: `BitVector::peekField`, `readField`, `fillField`, `writeField` (BitVectorModel.v).
* Proof: Vectors are lists of bytes; loop invariants by induction on the width; the value read is compared with `x mod 2^n`, the bits with the big-endian digits of the value.
* Note: Values, indices and lengths are unbounded numbers; size_t wrap-around is not modelled.
* Theorems: `C01_field_roundtrip`, `C01_peek_value`, `C01_fill_bits`, `C01_write_bit`. Status: proved.

### C02 Reversed bit-field access is the mirror image of normal access

* Modelled: `peekFieldReversed`, `readFieldReversed`, `fillFieldReversed`, `writeFieldReversed`.
* Proof: Induction on the width; mirror image stated with an independent bit-reversal of n-bit numbers.
* Theorems: `C02_reversed_roundtrip`, `C02_write_normal_read_reversed`. Status: proved.

### C03 A sequence of writeField calls is decoded by the same sequence of readField calls

* Modelled: sequences of the calls of C01 and C02.
* Proof: Induction on the list of fields with a frame condition outside the written range.
* Theorems: `C03_layout_roundtrip`. Status: proved.

### C04 Out-of-range field access: writes abort before touching memory, reads are unchecked

* Modelled: the assertions and pointer arithmetic of the four access functions.
* Proof: Case analysis on index+length against size; `Abort` against `UB` outcomes, both directions.
* Note: Indices are unbounded numbers; addresses that wrap are in C95. Reads before the vector and forming out-of-range pointers without access are not distinguished.
* Theorems: `C04_write_bounds`, `C04_read_bounds`. Status: proved.

### C05 A codeword built with the parity generator has the expected syndrome

* Modelled: `Generator` and `Parity` shift registers, `Parity::writeParityWord`, `BitVector::syndrome/parity`.
* Proof: Registers as 64-bit words against polynomial remainders over bit lists (`is_remainder`, shown unique).
* Note: is_remainder is an independent GF(2) polynomial specification; the remainder is unique.
* Theorems: `C05_codeword_syndrome`, `C05_remainders`, `C05_remainder_unique`, `C05_length_limits`. Status: proved.

### C06 Parity check detects every burst error up to the parity length

* Modelled: as C05.
* Proof: Linearity of the registers; a burst shorter than the degree is not divisible when the constant term is set.
* Theorems: `C06_linear`, `C06_burst_detected`. Status: proved.

### C07 pack and unpack are inverse and MSB-first

* Modelled: `pack`, `packToString`, `unpack`.
* Proof: Induction on groups of eight.
* Theorems: `C07_pack_bytes`, `C07_unpack_pack`, `C07_pack_unpack`. Status: proved.

### C08 Hex dump and hex parse of bit vectors

* Modelled: `hexstr`, `unhex`.
* Proof: Induction on groups of four; exact failure condition against a scanner specification.
* Note: The defect for sizes not divisible by four is part of the theorem C08_hex_roundtrip.
* Theorems: `C08_hexstr`, `C08_hex_roundtrip`, `C08_unhex`. Status: proved.

### C09 Puncturing removes exactly the indexed elements and un-puncturing puts erasures back

* Modelled: `Vector`-level loops `copyPunctured`, `copyUnPunctured` with all their assertions.
* Proof: Loop invariants; the index list is arbitrary, so abort and success are both characterised.
* Note: Sizes below 2^31 and unsigned int indices.
* Theorems: `C09_punctured`, `C09_unpunctured`, `C09_roundtrip`. Status: proved.

### C10 map and unmap implement the documented permutations

* Modelled: `map`, `unmap` for bits.
* Proof: `nth_error` equations for every position.
* Theorems: `C10_map`, `C10_unmap`, `C10_unmap_map`, `C10_map_unmap`. Status: proved.

### C11 Bitwise and bytewise in-place operations

* Modelled: `invert`, `reverse8`, `LSB8MSB`, `sum`, printing and parsing, `operator==`.
* Proof: List induction; groups of eight.
* Note: operator== on raw bytes: C11_equal_bits_refuted is the witness of the defect.
* Theorems: `C11_invert`, `C11_LSB8MSB`, `C11_reverse8`, `C11_sum_print`, `C11_from_text`, `C11_bit_access`, `C11_settfb_outside`, `C11_equal_raw`, `C11_equal_after_invert`, `C11_equal_bits_refuted`. Status: proved.

### C12 Vector storage: each allocated block has exactly one owner; no double free, no leak

* Modelled: `Vector`/`BitVector` storage (`mData`, `mStart`, `mEnd`): constructors, `resize`, `clear`, `clone`, `shift_mem`, assignment, segments, destructor (VectorHeapModel.v).
* Proof: Heap of blocks with owners; invariant preserved by every operation, by induction over histories.
* Note: C12_no_double_free also covers histories that touch dangling aliases: those end in VBadAccess, never in VBadFree.
* Theorems: `C12_no_double_free`, `C12_one_owner`, `C12_no_leak`, `C12_destroy`. Status: proved.

### C13 Aliases share storage, clones do not

* Modelled: as C12, with reads and writes.
* Proof: Same heap; a write is tracked through every live vector.
* Theorems: `C13_segment_shares`, `C13_write_read`, `C13_segment_bounds`, `C13_copy_of_owner`, `C13_const_copy`, `C13_clone_segment`, `C13_copy_of_alias`. Status: proved.

### C14 Assigning a vector to itself or to part of itself

* Modelled: assignment operators of `Vector` and `BitVector`.
* Proof: The three defects hold in every state in which the operation is a self operation; assignment of distinct vectors is correct.
* Note: Defects: C14_self_assign_loses_contents, C14_assign_own_view_dangles, C14_self_shift_empties hold for every such state.
* Theorems: `C14_assign_distinct`, `C14_shift_distinct`, `C14_self_assign_loses_contents`, `C14_assign_own_view_dangles`, `C14_self_assign_alias`, `C14_self_shift_empties`, `C14_self_assign_keeps_refuted`. Status: proved.

### C15 Hard decision of a soft vector

* Modelled: `SoftVector(const BitVector&)`, `sliced`, printing.
* Proof: Floats by class (NaN, infinities, rationals) with the IEEE comparison; only comparisons and constants occur.
* Theorems: `C15_slice_soft`, `C15_sliced`, `C15_print`, `C15_print_bits`, `C15_access`, `C15_unknown`. Status: proved.

### C16 F16 fixed-point arithmetic error bounds

* Modelled: `F16` integer operations.
* Proof: Arithmetic over `Z`, represented rationals as fractions over 2^16.
* Note: Integer operations; float conversions are the subject of C59.
* Theorems: `C16_int_exact`, `C16_add_exact`, `C16_sub_exact`, `C16_mul_floor`, `C16_div_trunc`, `C16_compare`. Status: proved.

### C17 F16 has no saturation and chained assignment is wrong

* Modelled: as C16.
* Proof: Exact overflow condition; the value returned by the copy assignment computed.
* Theorems: `C17_add_overflow`, `C17_mul_wraps`, `C17_mul_saturation_refuted`, `C17_div_zero`, `C17_chained_assignment`. Status: proved.

### C18 PointerFIFO behaves as an unbounded double-ended queue

* Modelled: `PointerFIFO` with its free list of cells (ListModel.v).
* Proof: Heap of cells; refinement to an ideal deque by induction over histories.
* Theorems: `C18_fifo_refines_deque`, `C18_no_crosslink`, `C18_null_ambiguous`. Status: proved.

### C19 SingleLinkList keeps order, count and total size

* Modelled: `SingleLinkList` with client nodes.
* Proof: As C18; duties of the client are a predicate on histories, shown necessary by witnesses.
* Note: Nodes are client objects; the duties of the client are the predicate allowed_run, refuted without it by two witnesses.
* Theorems: `C19_list_refines_deque`, `C19_double_push_refuted`, `C19_resized_node_refuted`. Status: proved.

### C20 InterthreadQueue delivers every written item exactly once in FIFO order

* Modelled: `InterthreadQueue::read/readNoBlock/read(timeout)/write/write_front` (InterthreadModel.v).
* Proof: Transition system of threads, mutex and condition variable; ghost sequence of puts; invariant.
* Note: Any number of threads, any schedule, spurious wake-ups included; items compared without NULLs, which are consumed silently.
* Theorems: `C20_linearizable`, `C20_fifo`, `C20_exactly_once`, `C20_read_not_null`, `C20_returned_is_taken`. Status: proved.

### C21 No lost wake-up on an unconnected InterthreadQueue

* Modelled: as C20.
* Proof: Counting invariant: sleepers, signals under way, items queued.
* Note: C21_null_write_refuted is the witness for the defect with NULL writes.
* Theorems: `C21_wakeups_cover_items`, `C21_no_lost_wakeup`, `C21_null_write_refuted`. Status: proved.

### C22 Connected queues and iqWaitForEither

* Modelled: `iqConnect`, `iqWaitForEither`.
* Proof: Invariant with one waiter; witnesses and a lemma for every continuation for the defects.
* Note: Defects: C22_timeout_spins_forever (for every continuation), C22_wrong_reader_refuted.
* Theorems: `C22_single_waiter`, `C22_timeout_spins_forever`, `C22_wrong_reader_refuted`. Status: proved.

### C23 InterthreadQueueWithWait wait-for-drain

* Modelled: `InterthreadQueueWithWait`.
* Proof: As C21 with two conditions.
* Note: Defects: C23_two_drainers_refuted, C23_null_refuted.
* Theorems: `C23_linearizable`, `C23_fifo`, `C23_single_drainer`, `C23_readers_woken`, `C23_two_drainers_refuted`, `C23_null_refuted`. Status: proved.

### C24 InterthreadMap is a linearizable map with blocking get

* Modelled: `InterthreadMap` write/remove/get/getNoBlock.
* Proof: Linearisation at the locked region; wake-up invariant per key.
* Note: InterthreadMap1::size reads without the mutex and is not modelled.
* Theorems: `C24_linearizable`, `C24_contents`, `C24_get_latest`, `C24_no_lost_wakeup`. Status: proved.

### C25 InterthreadMap ownership of stored pointers

* Modelled: the deletions of `InterthreadMap` and its base class.
* Proof: Ghost multiset of deleted pointers.
* Note: Defects: C25_rewrite_dangles, C25_rewrite_refuted, C25_destructor_leaks.
* Theorems: `C25_accounting`, `C25_deleted_once`, `C25_displaced_deleted`, `C25_rewrite_dangles`, `C25_rewrite_refuted`, `C25_destructor_leaks`. Status: proved.

### C26 InterthreadPriorityQueue returns the smallest element and conserves the contents

* Modelled: `InterthreadPriorityQueue`.
* Proof: priority_queue by contract, ties by an arbitrary choice; multisets.
* Note: std::priority_queue is modelled by the contract of top/pop, ties resolved by an arbitrary choice argument.
* Theorems: `C26_linearizable`, `C26_read_least`, `C26_exactly_once`, `C26_no_lost_wakeup`. Status: proved.

### C27 Binary semaphore has no lost wake-up and coalesces posts

* Modelled: `Semaphore`.
* Proof: Invariant of flag, sleepers and wake-ups; counting posts and gets.
* Theorems: `C27_linearizable`, `C27_wakeup_on_the_way`, `C27_no_lost_wakeup`, `C27_gets_bounded`. Status: proved.

### C28 Mutex mutual exclusion and lock counting

* Modelled: `Mutex` (lock counting, recorded sites), `Signal::wait` (ThreadsModel.v).
* Proof: Invariant over all interleavings.
* Note: pthread mutexes by their specification (recursive, glibc condition waits). Defects: C28_recursive_wait_keeps_mutex, C28_lockcnt_waiter_refuted.
* Theorems: `C28_mutual_exclusion`, `C28_lockcnt`, `C28_lockcnt_depth`, `C28_sites_in_bounds`, `C28_released`, `C28_free_when_idle`, `C28_mutext_names_holder`, `C28_recursive_wait_keeps_mutex`, `C28_lockcnt_waiter_refuted`. Status: proved.

### C29 timedlock reports success only when the lock was obtained

* Modelled: `Mutex::timedlock`, `lock(file,line)` with the deadline of `Timeval::future`.
* Proof: Case analysis of the deadline; system call by specification.
* Note: Defect for every affected clock value: C29_timedlock_wrong.
* Theorems: `C29_timedlock_sound`, `C29_timedlock_wrong`, `C29_timedlock_false`, `C29_lock_has_mutex`, `C29_affected_timeouts`. Status: proved.

### C30 ScopedLockMultiple acquires all locks without deadlock and restores ownership

* Modelled: `ScopedLockMultiple` as a program of lock, trylock and unlock steps.
* Proof: Per-thread program invariant; absence of deadlock from "blocks only while holding nothing"; deadlock witness.
* Note: Defect: C30_deadlock_refuted. Livelock (endless retries) is not excluded and not claimed.
* Theorems: `C30_constructor_holds_all`, `C30_scopes_exclude`, `C30_destructor_restores`, `C30_no_hold_and_wait`, `C30_no_deadlock`, `C30_deadlock_refuted`. Status: proved.

### C31 Timeval::future adds the offset exactly and normalises

* Modelled: `Timeval::future`, `timespec`.
* Proof: Integer arithmetic with the 32-bit fields.
* Note: Defect: C31_invalid_deadline.
* Theorems: `C31_future_exact`, `C31_future_normal_iff`, `C31_timespec_valid_iff`, `C31_invalid_deadline`. Status: proved.

### C32 Timeval differences and passed()

* Modelled: `Timeval::delta`, `remaining`, `passed`, `addMinutes`.
* Proof: Integer arithmetic; bounds exact.
* Note: Defects: C32_delta_overflows, C32_passed_unnormalised_refuted, addMinutes wraps from 71582789 minutes on.
* Theorems: `C32_delta_accurate`, `C32_delta_antisymmetric`, `C32_delta_additive`, `C32_remaining_of_future`, `C32_passed_iff_later`, `C32_remaining_passed`, `C32_delta_overflows`, `C32_passed_unnormalised_refuted`, `C32_addMinutes_exact_iff`. Status: proved.

### C33 Base64 encode/decode round trip

* Modelled: `base64EncodeToString`, `base64DecodeToString` (CodecModel.v).
* Proof: Groups of three and four against RFC 4648 written over bit strings.
* Note: Defect: C33_truncated_accepted.
* Theorems: `C33_encode_rfc4648`, `C33_roundtrip`, `C33_roundtrip_spaces`, `C33_whitespace_ignored`, `C33_length`, `C33_error_iff`, `C33_truncated_accepted`. Status: proved.

### C34 Hex encode/decode round trip and rejection

* Modelled: `hexDecodeToString` and the hex branch of `encodeToString`.
* Proof: Induction; exact error condition.
* Note: C34_error_iff gives the exact error condition.
* Theorems: `C34_encode`, `C34_decode`, `C34_roundtrip`, `C34_error_iff`, `C34_output_length`. Status: proved.

### C35 Encoding dispatch is total and case-sensitive

* Modelled: `decodeToString`, `encodeToString`.
* Proof: Case analysis on the name.
* Note: Defects: C35_stale_error, C35_case_sensitive.
* Theorems: `C35_binary_identity`, `C35_unknown_rejected`, `C35_roundtrip`, `C35_stale_error`, `C35_case_sensitive`. Status: proved.

### C36 URL encoding

* Modelled: `URLEncode`.
* Proof: Independent URL decoder; which bytes survive is an iff.
* Note: Defects: C36_roundtrip_iff says exactly which strings survive; C36_not_injective_refuted.
* Theorems: `C36_shape`, `C36_unreserved_kept`, `C36_roundtrip_iff`, `C36_escaped`, `C36_not_injective_refuted`, `C36_slash_becomes_dot`, `C36_nul_not_escaped`. Status: proved.

### C37 gcd

* Modelled: `gcd` (UtilsModel.v).
* Proof: Fuel as recursion depth; Euclid, Fibonacci-style bound; divergence for all fuels.
* Note: Depth of the recursion is the fuel; Diverge for every fuel is endless recursion.
* Theorems: `C37_positive`, `C37_zero`, `C37_mixed_signs`, `C37_both_negative`. Status: proved.

### C38 replaceAll

* Modelled: `replaceAll`.
* Proof: Inductive relation "leftmost non-overlapping replacement", shown functional.
* Note: replaced is an inductive specification, shown to determine the result.
* Theorems: `C38_replaced`, `C38_unique`, `C38_absent`, `C38_empty_search`. Status: proved.

### C39 String splitting

* Modelled: `cstrSplit`, `stringSplit`, `cstrGetArg`.
* Proof: Buffers with positions against maximal runs.
* Theorems: `C39_cstrSplit`, `C39_stringSplit`, `C39_separators`, `C39_cstrGetArg`, `C39_no_field`. Status: proved.

### C40 Reference-counted pointers delete exactly once, at the last release

* Modelled: `RefCntBase`, `RefCntPointer` (RefCntModel.v).
* Proof: Heap of objects and pointers, also inside objects; invariant over histories, cascades of deletions included.
* Note: Histories of one thread (or serialised ones); duties of the caller are the predicate allowed. Limits by witness: C40_overflow_refuted, C40_cycle_leaks, C40_member_release_refuted.
* Theorems: `C40_safe`, `C40_count`, `C40_pointee_alive`, `C40_deleted_once`, `C40_last_release`, `C40_dead_stays_dead`, `C40_overflow_refuted`, `C40_cycle_leaks`, `C40_member_release_refuted`. Status: proved.

### C41 128-bit random/key hex conversion round trip

* Modelled: `uintToString`, `stringToUint`.
* Proof: Positional numerals.
* Theorems: `C41_roundtrip`, `C41_digits`, `C41_digits32`, `C41_wrong_length`. Status: proved.

### C42 Formatted strings are truncated only where documented

* Modelled: `format`, `osprintf`.
* Proof: vsnprintf by specification; lengths.
* Note: The formatted text is an argument; vsnprintf by its specification.
* Theorems: `C42_format_whole`, `C42_format_long`, `C42_format_199`, `C42_osprintf`. Status: proved.

### C43 Statistic accumulates count, min, max, sum of the samples

* Modelled: `Statistic<int>`.
* Proof: Fold invariants; sums as doubles rounded to 53 bits.
* Note: The rounding of the final division is left out; doubles of the running sum are rounded to 53 bits.
* Theorems: `C43_count`, `C43_initial`, `C43_min_max`, `C43_average`, `C43_empty`, `C43_wrap_refuted`, `C43_rounding`, `C43_sum_rounded_refuted`. Status: proved.

### C44 Configuration values: read your writes

* Modelled: `ConfigurationTable` lookup, set, remove, purge, getAllPairs and the SQL they send (ConfigModel.v, SqlModel.v).
* Proof: Refinement of cache and database to a map, over histories of any number of tables; the SQL text is lexed, parsed and executed by the specification.
* Note: SQLite is specified by SqlModel.v (lexer, parser and effect of the statement forms used). defines() is lookup succeeding and is not stated separately.
* Theorems: `C44_refines_map`, `C44_read_your_writes`, `C44_removed`, `C44_remove_absent_refuted`, `C44_all_pairs`. Status: proved.

### C45 Configuration cache staleness is bounded by three seconds

* Modelled: `checkCacheAge` and the cache.
* Proof: Invariant: each cached entry was prescribed at a moment since the last purge.
* Note: Defects: C45_two_tables_refuted (any length of time), C45_clock_set_back_refuted, C45_failed_read_cached_refuted.
* Theorems: `C45_three_seconds`, `C45_two_tables_refuted`, `C45_clock_set_back_refuted`, `C45_failed_read_cached_refuted`. Status: proved.

### C46 Numeric configuration round trip

* Modelled: `ConfigurationRecord::number`, `set(key,long)`, `getBool`.
* Proof: Numerals of three bases against positional values.
* Note: getFloat is not modelled.
* Theorems: `C46_num_roundtrip`, `C46_decimal`, `C46_hex`, `C46_octal`, `C46_no_number`, `C46_bool`, `C46_words_are_false_refuted`. Status: proved.

### C47 Configuration SQL statements carry keys and values verbatim

* Modelled: the SQL texts of set, remove and lookup.
* Proof: Lexer run on the text built from arbitrary keys and values; injection witnesses.
* Note: SQLite by the specification in SqlModel.v. Defects: C47_injection_refuted, C47_doubled_quote_refuted, C47_apostrophe_key_refuted, C47_remove_all_refuted, C47_column_name_refuted, C47_description_refuted.
* Theorems: `C47_set_verbatim`, `C47_remove_verbatim`, `C47_lookup_verbatim`, `C47_nul_rejected`, `C47_injection_refuted`, `C47_doubled_quote_refuted`, `C47_apostrophe_key_refuted`, `C47_remove_all_refuted`, `C47_column_name_refuted`, `C47_description_refuted`. Status: proved.

### C48 Validation of configuration values

* Modelled: `isValidValue` with `isValidIP`, `getMinMaxStepping`, `isInValRange<int>` (ValidModel.v).
* Proof: Declarative specification per type, both directions.
* Note: regcomp/regexec and float ranges are parameters, instantiated in C93 and C94; inet_pton and stream extraction by the specifications in ValidModel.v.
* Theorems: `C48_boolean`, `C48_optional`, `C48_regex`, `C48_string`, `C48_choice`, `C48_choice_undescribed`, `C48_address`, `C48_cidr`, `C48_host_and_port`, `C48_address_and_port`, `C48_address_list`, `C48_port`, `C48_file_path`, `C48_range`, `C48_delimiter_refuted`, `C48_trailing_refuted`, `C48_saturated_refuted`, `C48_choice_refuted`, `C48_list_ports_refuted`, `C48_ranges_refuted`, `C48_unset_refuted`. Status: proved.

### C49 Vector-valued configuration entries

* Modelled: `getVectorOfStrings`, `getVector`.
* Proof: Maximal runs; strtol lemmas of C46.
* Note: Values without NUL; numbers need fields without white space other than the space (C49_tab_refuted shows why).
* Theorems: `C49_strings`, `C49_runs_unique`, `C49_words_roundtrip`, `C49_numbers`, `C49_numbers_roundtrip`, `C49_tab_refuted`. Status: proved.

### C50 SimpleKeyValue parsing

* Modelled: `SimpleKeyValue`.
* Proof: Split specification; fold over items.
* Note: C50_all_texts: every text without NUL is covered.
* Theorems: `C50_get_last`, `C50_get_other`, `C50_key_with_equals_refuted`, `C50_all_texts`, `C50_leak_refuted`, `C50_getNum_flag_refuted`, `C50_getNum`. Status: proved.

### C51 HashString hash quality

* Modelled: `HashString`.
* Proof: Injectivity of the step for differences of one character; counting argument for nine characters; collision witnesses.
* Note: Nine is the exact limit: C51_ten_characters_refuted.
* Theorems: `C51_one_character`, `C51_nine_ascii`, `C51_ten_characters_refuted`, `C51_bytes_refuted`, `C51_greater_refuted`, `C51_order`. Status: proved.

### C52 Per-file log level caching is fresh within 1000 calls

* Modelled: level names, look-up and cache of the Logger (LoggerModel.v).
* Proof: Each cached level is tagged with the query it came from; invariant over histories, with and without threads.
* Note: The key/value store, getStr and the schema default are parameters. Defects: C52_collision_refuted, C52_held_up_refuted; C52_limit_reached shows that 1000 is exact.
* Theorems: `C52_level_names`, `C52_lookup`, `C52_prescribed_unique`, `C52_corrects`, `C52_fresh`, `C52_fresh_short_names`, `C52_limit_reached`, `C52_collision_refuted`, `C52_threads`, `C52_held_up_refuted`. Status: proved.

### C53 Alarm list keeps the most recent alarms

* Modelled: `addAlarm`.
* Proof: List lemmas: last n elements.
* Note: Defect: C53_negative_limit_refuted.
* Theorems: `C53_last_alarms`, `C53_changing_limits`, `C53_kept`, `C53_negative_limit_refuted`. Status: proved.

### C54 Reporting counters are conserved

* Modelled: `ReportingTable` counters, batches and commits of several threads (ReportModel.v).
* Proof: Conservation equation as an invariant.
* Note: SQLite is specified by ReportModel.v (a row per name, UPDATE ... WHERE name= with double quotes). Defects: the four theorems ending in _refuted.
* Theorems: `C54_accounting`, `C54_never_more`, `C54_conserved`, `C54_commit`, `C54_max`, `C54_failed_update_refuted`, `C54_created_late_refuted`, `C54_clear_pending_refuted`, `C54_column_refuted`. Status: proved.

### C55 Reporting names fit their buffers

* Modelled: indexed names and command buffers.
* Proof: Lengths of numerals.
* Note: create_range with real buffers; C55_whole_range_refuted holds for every start.
* Theorems: `C55_buffer`, `C55_injective`, `C55_range`, `C55_range_fails`, `C55_whole_range_refuted`, `C55_command_limits`, `C55_command_overflow`. Status: proved.

### C56 Database retry loops are bounded and faithful

* Modelled: `sqlite3_prepare_statement`, `sqlite3_run_query`, `sqlite_command`, `sqlQuery` (SqlModel.v).
* Proof: Induction on the retries with arbitrary results.
* Note: The results of the database functions are arbitrary sequences.
* Theorems: `C56_run_query`, `C56_prepare`, `C56_no_tries_refuted`, `C56_command`, `C56_query_stops`, `C56_query_step`, `C56_query_start`. Status: proved.

### C57 Single-instance registration

* Modelled: `SelfDetect` (SignalModel.v).
* Proof: Transition system of processes and files; invariant; witnesses for races and crashes.
* Note: Process numbers are not reused within a history. Defects: C57_race_refuted, C57_second_exit_refuted, C57_stale_refuted, C57_long_names_refuted.
* Theorems: `C57_pid_file`, `C57_same_program`, `C57_long_names_refuted`, `C57_single_instance`, `C57_file_names_instance`, `C57_refused`, `C57_exit`, `C57_restart`, `C57_race_refuted`, `C57_second_exit_refuted`, `C57_stale_refuted`, `C57_signals`. Status: proved.

### C58 Signal handlers run in registration order, once each

* Modelled: `UnixSignal`.
* Proof: List of handlers with handlers that register handlers; fuel bounds the calls.
* Note: The core writer and the shell command are not modelled. Defect: C58_reregister_refuted.
* Theorems: `C58_registered`, `C58_out_of_range`, `C58_caught`, `C58_delivery_general`, `C58_delivery`, `C58_reregister_refuted`. Status: proved.

### C60 First lines of a text and concatenation

* Modelled: `firstlines`, `stringcat`.
* Proof: Split into lines.
* Theorems: `C60_firstlines`, `C60_lines_complete`, `C60_lines_shape`, `C60_stringcat`. Status: proved.

### C61 Pretty tables are aligned

* Modelled: `printPrettyTable`.
* Proof: Positions of columns computed from widths.
* Theorems: `C61_aligned`, `C61_width`, `C61_tabs`, `C61_table`, `C61_columns_dropped`, `C61_long_cell`. Status: proved.

### C62 BitSet

* Modelled: `BitSet`.
* Proof: `Z.testbit`.
* Theorems: `C62_set_clear`, `C62_large_undefined`. Status: proved.

### C63 Database attributes

* Modelled: `sqlite_set_attr`, `sqlite_get_attr`, `condition_c`.
* Proof: As C47, with the buffers of 100 bytes.
* Note: SQLite by the specification in SqlModel.v; CREATE TABLE is taken to succeed.
* Theorems: `C63_set_get`, `C63_too_long`, `C63_missing`, `C63_long_name_refuted`, `C63_injection_refuted`. Status: proved.

### C64 Log records and groups

* Modelled: `Log::~Log`, `LogGroup`.
* Proof: Case analysis; dangling pointer as `UB`.
* Note: Reading freed memory is undefined behaviour in the model. Defect: C64_group_set_refuted.
* Theorems: `C64_groups_unset`, `C64_group_set_refuted`, `C64_record`, `C64_group_index`, `C64_group_unknown`, `C64_case`. Status: proved.

### C65 Contents after concatenating, filling and copying vectors

* Modelled: `concat`, `fill`, `copyToSegment`, `segmentCopyTo`.
* Proof: Heap of C12 with contents; exact changes for every live vector.
* Note: One cell per element. Defect: C65_overlap_refuted.
* Theorems: `C65_fill`, `C65_fill_range`, `C65_copyToSegment`, `C65_segmentCopyTo`, `C65_overlap_refuted`, `C65_concat`. Status: proved.

### C66 Bounds checks of vectors

* Modelled: bounds checks of `VectorBase`, `Vector`, `BitVector` in 64-bit address arithmetic (VectorBoundsModel.v).
* Proof: Arithmetic with wrap.
* Note: Pointer arithmetic as compiled on a flat 64-bit address space. Defects: C66_minus_one_refuted, C66_tail_refuted, C66_negative_span_refuted.
* Theorems: `C66_size`, `C66_index`, `C66_segment`, `C66_segment_holds`, `C66_head`, `C66_tail`, `C66_fill_range`, `C66_minus_one_refuted`, `C66_tail_refuted`, `C66_negative_span_refuted`, `C66_null`. Status: proved.

### C67 UDP datagrams

* Modelled: `DatagramSocket::write`, `writeBack`, `read` (both forms) and `UDPSocket::destination` on byte memory with uninitialised cells (SocketModel.v).
* Proof: Invariant over all histories: what the two address buffers hold.
* Note: The network and the resolver are arguments of the model; Linux rules for sendto, recvfrom and select. Defects: C67_write_back_first_refuted, C67_text_arrives (last part).
* Theorems: `C67_write`, `C67_no_destination`, `C67_write_back`, `C67_write_back_first_refuted`, `C67_text`, `C67_read`, `C67_read_result`, `C67_timeout`, `C67_text_arrives`. Status: proved.

### C68 Host names and ports

* Modelled: both `resolveAddress` functions (SocketModel.v); gethostbyname is an argument.
* Proof: Case analysis; decimal numbers by the lemmas of NumProofs.v.
* Note: gethostbyname is an argument. Defects: C68_missing_port (leak), C68_bad_port_refuted.
* Theorems: `C68_resolve`, `C68_host_port`, `C68_roundtrip`, `C68_missing_port`, `C68_bad_port_refuted`. Status: proved.

### C69 Unix datagram sockets

* Modelled: `UDDSocket::open`, `destination` and the inherited calls (SocketModel.v).
* Proof: Invariant over all histories: the family bytes of the destination stay 0.
* Note: Linux layout of sockaddr_un. Defects: C69_open, C69_destination (overruns), C69_write_refuted, C69_write_back_first_refuted, C69_example (nameless sender).
* Theorems: `C69_open`, `C69_write_refuted`, `C69_destination`, `C69_write_back`, `C69_write_back_first_refuted`. Status: proved.

### C70 Socket descriptors

* Modelled: descriptor table of the process with the opening and closing calls of the socket classes (SocketModel.v).
* Proof: Invariant over all histories: objects alive and table entries correspond; a free descriptor exists by counting.
* Note: socket() and bind() succeed in the model; the lowest free descriptor is taken. Defects: C70_close_refuted, C70_reopen_refuted, C70_unopened_refuted.
* Theorems: `C70_own`, `C70_close_refuted`, `C70_reopen_refuted`, `C70_unopened_refuted`. Status: proved.

### C71 Database statements

* Modelled: the statement handling of all functions of `sqlite3util.cpp` with explicit open statements (StmtModel.v).
* Proof: Invariant over all programs: open statements and query objects correspond. The row loop by induction over the rows.
* Note: The database is an oracle for the answers of its calls. Defects: C71_no_tries_refuted, C71_copy_refuted.
* Theorems: `C71_exists`, `C71_number`, `C71_text`, `C71_command`, `C71_string`, `C71_just_string`, `C71_integer`, `C71_program`, `C71_no_tries_refuted`, `C71_copy_refuted`, `C71_rows`. Status: proved.

### C59 F16 and floats

* Modelled: F16Float.v: IEEE single numbers as pairs m * 2^e, infinities, not-a-number; rounding to nearest even after each operation; sum, product, quotient, comparison, conversion from and to int32_t (undefined out of range); then the operations of F16.h as written..
* Proof: F16FloatProofs.v proves the rounding facts in integers and lifts them to rationals (a quotient is rounded through one sticky bit). Adding one half is shown to be harmless by cases on the exponent, which also yields exactly the exceptional numbers. The claims compare words with rationals.
* Note: Complete for finite single floats, infinities and not-a-number; the sign of zero is not kept.
* Theorems: `C59_convert`, `C59_convert_refuted`, `C59_not_finite`, `C59_double`, `C59_float`, `C59_roundtrip`, `C59_roundtrip_refuted`, `C59_compare`, `C59_compare_refuted`, `C59_mul`, `C59_div`, `C59_div_zero`. Status: proved.

### C72 Default SQL file

* Modelled: `getDefaultSQL`; how SQLite reads a script of the forms used (SchemaModel.v).
* Proof: Running the lexer over the pieces of the text; induction over the keys.
* Note: SQLite's reading of the file (comments, statements, INSERT OR IGNORE) is specified in SchemaModel.v. Text with NUL is read like any other character. Defects: C72_quote_refuted.
* Theorems: `C72_defaults`, `C72_again`, `C72_quote_refuted`. Status: proved.

### C73 TeX documentation

* Modelled: `getTeX` (SchemaModel.v) on top of `replaceAll` (UtilsModel.v).
* Proof: The two replacements equal one character-wise escape by C38; the three filters partition the schema.
* Note: Defect: C73_special_refuted.
* Theorems: `C73_sections`, `C73_special_refuted`. Status: proved.

### C74 Searching the configuration

* Modelled: `find`, SQLite's LIKE (SchemaModel.v).
* Proof: LIKE with a pattern between percent signs is shown equivalent to containing it up to case.
* Note: SQLite's LIKE is specified in SchemaModel.v for ASCII letters; the statement is assumed to run without errors. Defects: C74_wildcard_refuted.
* Theorems: `C74_find`, `C74_wildcard_refuted`. Status: proved.

### C75 The schema

* Modelled: the schema part of the constructor, `keyDefinedInSchema`, `isStatic`, `getSimilarKeys`, `gCmdName` (SchemaModel.v).
* Proof: Sortedness is kept by insertion; lookups after inserting by induction over the inserted list.
* Note: std::map is a list in ascending order of keys; bytes are compared as unsigned. Defect: C75_validate_refuted.
* Theorems: `C75_schema`, `C75_library`, `C75_lookup`, `C75_validate`, `C75_validate_refuted`, `C75_similar`, `C75_name`. Status: proved.

### C76 Printing a configuration key

* Modelled: `printKey`, `printDescription`, `typeToString`, `visibilityLevelToString` (SchemaModel.v).
* Proof: Induction over the list of choices or ranges, with positions as in C48.
* Note: Defects: C76_plain_refuted; the doubled scope is part of C76_description.
* Theorems: `C76_choices`, `C76_ranges`, `C76_plain_refuted`, `C76_other`, `C76_names`, `C76_key`, `C76_description`. Status: proved.

### C77 Threads run their task once

* Modelled: class Thread, `thread_main`, `start`, `start2`, `join`; pthread creation and joining by specification (TaskModel.v).
* Proof: Invariant over all interleavings tying each thread's position to its history; exact characterisation of aborts and of undefined behaviour.
* Note: pthread_create, pthread_join and pthread_attr_setstacksize as specified by POSIX and glibc (minimum stack 16384). Defects: C77_alert_refuted; the kept thread is C77_unjoined.
* Theorems: `C77_life`, `C77_goes_on`, `C77_undefined`, `C77_start`, `C77_start2`, `C77_join`, `C77_freed`, `C77_unjoined`, `C77_alert_refuted`, `C77_new`. Status: proved.

### C78 Lines written with COUT and CERR

* Modelled: The macros COUT and CERR with the recursive lock of their stream (StreamModel.v).
* Proof: Invariant over all interleavings: the output is a list of whole lines followed by the pieces of the lock's owner.
* Note: One stream is modelled; each stream has its own lock. Defects: C78_nested_refuted, C78_throw_refuted.
* Theorems: `C78_lines`, `C78_complete`, `C78_progress`, `C78_nested_refuted`, `C78_throw_refuted`. Status: proved.

### C79 Memory leak counters

* Modelled: `MemStats`, `memChkNew`, `memChkDel`, the detector class and its label (LeakModel.v).
* Proof: Induction over the events with distinct object numbers.
* Note: Each counter operation is one step: mMemNow and mMemTotal are changed under a lock; mMemMap is not, so the label law holds for programs that label in one thread. Defects: C79_copy_refuted, C79_labels_refuted.
* Theorems: `C79_law`, `C79_now`, `C79_total`, `C79_no_alarm`, `C79_copy_refuted`, `C79_labels`, `C79_labels_refuted`. Status: proved.

### C80 Scanning texts with myscanf

* Modelled: the four `myscanf`; parsing of the format and matching by sscanf (ScanModel.v).
* Proof: Induction over the directives against a declarative relation between format, text and pieces, shown to be a function.
* Note: sscanf is specified from C11 and glibc in ScanModel.v; the strings are distinct objects; widths below 2^31; the stack is large enough. Defects: C80_one_refuted, C80_chr_refuted.
* Theorems: `C80_scan`, `C80_determined`, `C80_one`, `C80_one_refuted`, `C80_chr_refuted`, `C80_all`, `C80_pair`, `C80_set`, `C80_range`, `C80_format`. Status: proved.

### C81 Texts of times

* Modelled: `isoTime`, `timestr`, the calendar of gmtime_r (IsoModel.v).
* Proof: The year by bounds on days before a year, months by induction over their lengths; texts field by field.
* Note: gmtime_r is the Gregorian calendar without leap seconds (C81_calendar checks it day by day), localtime_r shifts by an arbitrary function of the time. Defect: C81_local_refuted.
* Theorems: `C81_calendar`, `C81_iso`, `C81_fields`, `C81_undefined`, `C81_order`, `C81_injective`, `C81_local`, `C81_local_refuted`, `C81_timestr`, `C81_default`. Status: proved.

### C82 Read-write lock

* Modelled: `RWLock::wlock`, `rlock`, `trywlock`, `tryrlock`, `unlock` (RwModel.v).
* Proof: Invariant over histories: the state of the lock is what the calls of each thread entitle it to.
* Note: pthread_rwlock is specified as in glibc with the default attributes (readers preferred, EDEADLK for the writing thread); fewer than 2^29 readers. Defects: C82_relock_refuted, C82_upgrade_refuted, C82_starvation_refuted.
* Theorems: `C82_exclusion`, `C82_calls`, `C82_relock_refuted`, `C82_upgrade_refuted`, `C82_starvation_refuted`. Status: proved.

### C83 Energy and signal to noise of soft bits

* Modelled: `SoftVector::getEnergy`, `getSNR` (SoftModel.v), over the floats of F16Float.v with double added.
* Proof: Error bounds of single operations are composed along the loops by induction (SoftProofs.v); exact cases by showing that each rounding is exact.
* Note: IEEE single and double with rounding to nearest even after each operation; the limits of the range of double are left out, and zeros have no sign. Defects: C83_average_refuted, C83_clamp_refuted.
* Theorems: `C83_energy`, `C83_nan`, `C83_empty`, `C83_certain`, `C83_average_refuted`, `C83_snr`, `C83_unknown`, `C83_defined`, `C83_clamp_refuted`. Status: proved.

### C84 Initialisation of logging and the log file

* Modelled: `gLogInit`, `gLogInitWithFile`, `Log::get`, `_LOG`, `LOG`, the message of `lookupLevel2`, `LogGroupInit` (LogFileModel.v) on top of LoggerModel.v.
* Proof: Each event either only writes records or opens the file and then writes records; induction over histories. The file is compared with what went to syslog.
* Note: One thread; writing to the open file succeeds and nobody else changes it; gConfig.set succeeds; thread number and time in a record are given. Defects: C84_mutex_refuted, C84_mutex_again_refuted, C84_pid_refuted.
* Theorems: `C84_file`, `C84_opens`, `C84_level`, `C84_mutex`, `C84_mutex_refuted`, `C84_mutex_again_refuted`, `C84_complaint`, `C84_line`, `C84_range`, `C84_pid_refuted`, `C84_pid`, `C84_cmd`, `C84_groups`. Status: proved.

### C85 The committer of the reporting tables and its end

* Modelled: the constructor, `reportingBatchCommitter` one step at a time, `reportShutdown` (ReportLifeModel.v) on top of ReportModel.v.
* Proof: Step lemmas for one table with one committer, built on the accounting of C54; induction over event lists; a measure for the end of a thread.
* Note: gReports is the table constructed first; reads and writes of mReportRunning are atomic; commands and buffers as in C54. Defects: C85_shutdown_refuted, C85_early_refuted, C85_second_refuted.
* Theorems: `C85_conserved`, `C85_delivered`, `C85_alive`, `C85_stops`, `C85_ends`, `C85_stores`, `C85_pending`, `C85_done`, `C85_answers`, `C85_flag_set`, `C85_shutdown_refuted`, `C85_early_refuted`, `C85_second_refuted`. Status: proved.

### C86 Configuration values read as floats

* Modelled: `number`, `floatNumber` with their warnings, `getFloat` (FloatNumModel.v), with strtof from its grammar to exact integer rounding.
* Proof: The rounded quotient is compared with every float by cross multiplication on the common grid; neighbouring floats are not both even, hence monotone; texts by the grammar.
* Note: strtof and strtol as the C standard has them in the C locale (rounding to nearest, ties to even); the sign of zero is dropped. Defect: C86_octal_refuted.
* Theorems: `C86_decimal`, `C86_hex`, `C86_words`, `C86_no_number`, `C86_exact`, `C86_roundtrip`, `C86_monotone`, `C86_integer`, `C86_set`, `C86_agree`, `C86_octal_refuted`, `C86_number`, `C86_values`, `C86_warn`. Status: proved.

### C87 Database lookups by number and by text

* Modelled: The statements the lookups build and what SQLite selects for them on tables with typed cells (RowModel.v).
* Proof: The statement text is lexed back for arbitrary names and keys; comparison with affinities is characterised by `means`; the rows by induction over the table.
* Note: SELECT with = and column affinities of SQLite modelled for NULL, integers and texts; real numbers and blobs left out. Defects: C87_cut_refuted, C87_format_refuted, C87_agree_refuted, C87_quote_refuted.
* Theorems: `C87_query_u`, `C87_query_c`, `C87_steps`, `C87_columns`, `C87_lookup_u`, `C87_lookup_text`, `C87_lookup_number`, `C87_exists`, `C87_single_u`, `C87_single_c`, `C87_down`, `C87_agree`, `C87_agree_refuted`, `C87_cut_refuted`, `C87_format_refuted`, `C87_quote_refuted`. Status: proved.

### C88 Initialised scalars and fields of a message

* Modelled: The scalar macros for all integer types, bool and enumerations, the field classes, and messages of fields (ScalarModel.v).
* Proof: Conversion and arithmetic per type; sequences by induction with the exact integer as ghost; messages from C03.
* Note: Float_z and Double_z are left out. Defect: C88_width_refuted.
* Theorems: `C88_convert`, `C88_wrap`, `C88_int`, `C88_returns`, `C88_read`, `C88_message`, `C88_roundtrip`, `C88_field`, `C88_width_refuted`. Status: proved.

### C89 Times as seconds, and sleeping

* Modelled: Double arithmetic of seconds and timef, printing on streams, sleepf and msleep (SecondsModel.v).
* Proof: Half an ulp per operation, summed exactly over the rationals; the six digits from the nearest whole number of microseconds.
* Note: Doubles round to 53 bits at every operation. Within a tenth of a nanosecond of 10 and of 2^32 microseconds sleepf is left open. Defects: C89_limit_refuted, C89_stream_refuted, C89_sleepf_refuted, C89_msleep_refuted.
* Theorems: `C89_seconds`, `C89_timef`, `C89_order`, `C89_elapsed`, `C89_print`, `C89_digits`, `C89_timespec`, `C89_limit_refuted`, `C89_stream_refuted`, `C89_sleepf`, `C89_sleepf_whole`, `C89_sleepf_refuted`, `C89_msleep`, `C89_msleep_refuted`. Status: proved.

### C90 Construction of a configuration table

* Modelled: The constructor with its dump, tables that could not be opened, both hooks, all calls (StartModel.v).
* Proof: The invariant of C44 on the cache, kept by the dump and by every call with and without the hook; case analysis for unopened tables.
* Note: Reads while the database answers, keys and values that cannot be confused with SQL (C47). Defects: C90_unopened (crossCheck), C90_not_answering_refuted.
* Theorems: `C90_open`, `C90_listed`, `C90_no_exception`, `C90_calls`, `C90_cached`, `C90_find`, `C90_unopened`, `C90_not_answering_refuted`. Status: proved.

### C91 What a printf format denotes

* Modelled: The parser and the conversions of printf, Mutex::mutext (PrintfModel.v).
* Proof: A grammar with a relation for the numerals and the padding; parser and conversion agree with it in both directions, by induction over the format.
* Note: Without %g, %f and %p; the cut to the buffers is C42. Defects of use: C91_octal_refuted, C91_text_as_format_refuted.
* Theorems: `C91_render`, `C91_defined`, `C91_unique`, `C91_exists`, `C91_not_cut`, `C91_decimal`, `C91_times`, `C91_statements`, `C91_cell`, `C91_mutext`, `C91_octal_refuted`, `C91_text_as_format`, `C91_text_as_format_refuted`. Status: proved.

### C92 Threads that use a configuration table at the same time

* Modelled: The steps of getStr, set, remove, purge and isValidValue between two points where another thread may come in, with lock, cache, schema, clock and rows (TableThreadsModel.v).
* Proof: An invariant over all runs relates the state of the thread holding the lock to the replay of the calls so far with the sequential model of C44-C47; a second one, for any calls, says who holds a lock and that the entry about to be read is there; a measure for the end.
* Note: A step does one access to shared memory; sqlite serialises the statements; without the update hook and cross checks. Defects: C92_two_tables_refuted, C92_unknown_refuted.
* Theorems: `C92_linearizable`, `C92_no_dangling`, `C92_ends`, `C92_only_races`, `C92_race_free`, `C92_two_tables_refuted`, `C92_unknown_refuted`. Status: proved.

### C93 Regular expressions

* Modelled: A parser by recursive descent for regcomp, a search following all positions at once for regexec, and class Regexp (RegexModel.v).
* Proof: The syntax trees and their meaning are specified separately (RegexSpec.v); the parser is sound and complete for the trees by induction, with enough fuel; the sets of positions are shown to be the relation of the meaning, where repetitions without progress can be left out.
* Note: regcomp and regexec are modelled after POSIX and, where that leaves the result open, the GNU C library, in the C locale. Defect: C93_unanchored_refuted.
* Theorems: `C93_compile`, `C93_unique`, `C93_invalid`, `C93_outside`, `C93_search`, `C93_match`, `C93_Regexp`, `C93_literal`, `C93_constants`, `C93_string`, `C93_regex_key`, `C93_unanchored_refuted`. Status: proved.

### C94 Ranges of floats, and reading values that were checked

* Modelled: isInValRange<float> with operator>> for floats and the comparisons (FloatRangeModel.v), as the argument of isValidValue of C48.
* Proof: Reading a text is shown to give the nearest float by the lemmas of C86, the comparison of floats by monotonicity of rounding; for texts of digits, points and hyphens the stream and strtof agree.
* Note: Reading a float from a stream after libstdc++. Defects: C94_trailing_refuted, C94_rounding_refuted, C94_bound_refuted, C94_octal_refuted.
* Theorems: `C94_range`, `C94_within`, `C94_outside`, `C94_getFloat`, `C94_getNum`, `C94_trailing_refuted`, `C94_rounding_refuted`, `C94_bound_refuted`, `C94_octal_refuted`. Status: proved.

### C95 Bit fields with any index and length

* Modelled: The four functions on addresses with wrap-around (FieldAddrModel.v).
* Proof: Loop invariants over addresses; C95_as_lists and C95_peek_as_lists relate the memory to the list models of C01, C02 and C04.
* Note: Flat memory; unmapped addresses are not modelled. Defects: C95_before_refuted, C95_behind_refuted, C95_long_refuted.
* Theorems: `C95_fill`, `C95_nothing`, `C95_as_lists`, `C95_peek`, `C95_peek_as_lists`, `C95_before_refuted`, `C95_behind_refuted`, `C95_long_refuted`. Status: proved.

### C96 Signals and registrations with threads

* Modelled: Threads as stacks of interrupted registrations and handlings, recursive locks, dispositions, the insertion in two steps (SigThreadsModel.v).
* Proof: Invariants over all interleavings; for C96_progress a signal that waits for a lock was delivered before that signal was first ignored and after the ones its thread holds, so a cycle would contradict the order of time; C96_end by a measure.
* Note: Handlers return and do not register (C58 has those that do, in one thread); printf and the allocations in the handler, which take locks of the C library, are left out. Defects: C96_deadlock_refuted, C96_interrupted_refuted, C96_early_refuted, C96_twice_refuted, C96_once_refuted.
* Theorems: `C96_exclusion`, `C96_torn`, `C96_defined`, `C96_calls`, `C96_progress`, `C96_end`, `C96_dies`, `C96_arrives`, `C96_killed`, `C96_register`, `C96_register_progress`, `C96_order`, `C96_deadlock_refuted`, `C96_interrupted_refuted`, `C96_early_refuted`, `C96_twice_refuted`, `C96_once_refuted`, `C96_core`. Status: proved.

### C97 Reference-counted pointers with threads

* Modelled: Objects with count, lock and members, variables owned by threads, and for each thread the stage of its incRefCnt or decRefCnt with the pointers still to be released by destructors (RefThreadsModel.v).
* Proof: Invariant over all interleavings: count = pointers + pending releases, exactly one thread deletes once that is zero, the lock belongs to the thread in the critical stage; members are older than their object, so no cycle; C97_ends by a measure.
* Note: An assignment is a copy followed by a release and is not a step of its own (C40 has it, for one thread); messages and the count read for them are left out. Defects: C97_limit_refuted, C97_race_refuted, C97_steal_refuted.
* Theorems: `C97_safe`, `C97_alive`, `C97_count`, `C97_count_always`, `C97_no_leak`, `C97_abort`, `C97_progress`, `C97_ends`, `C97_limit_refuted`, `C97_race_refuted`, `C97_steal_refuted`. Status: proved.

### C98 Log records and alarms with threads

* Modelled: Threads with a place in ~Log, addAlarm and gGetLoggerAlarms, three recursive locks, the list of alarms, stderr, system log and file (LogThreadsModel.v).
* Proof: Invariants over all interleavings: who is in a critical place owns the lock; outputs plus what is pending equal what was logged; C98_progress by the order of the locks, C98_ends by a measure.
* Note: gLogToConsole, gLogToFile and sLoggerInited do not change. Defects: C98_mixed_refuted, C98_deadlock_refuted, C98_throw_refuted.
* Theorems: `C98_defined`, `C98_syslog`, `C98_file`, `C98_alarms`, `C98_last_alarms`, `C98_copy`, `C98_progress`, `C98_ends`, `C98_alone`, `C98_mixed_refuted`, `C98_deadlock_refuted`, `C98_throw_refuted`. Status: proved.

### C99 A whole LOG statement

* Modelled: The three parts as mutually recursive functions with the depth as fuel; state: both caches, rows, alarms, records; environment: clock and success of each statement (LogStmtModel.v; specification LogStmtSpec.v).
* Proof: The depth is bounded by unfolding; each call is shown to be a step (records, statements, failures, alarms, agreement of the cache), steps compose; C99_run by induction over the statements.
* Note: One thread, no log group. Defects: C99_silenced_refuted, C99_throws_refuted, C99_no_limit_refuted, C99_again_refuted.
* Theorems: `C99_ends`, `C99_ndebug`, `C99_records`, `C99_prescribed`, `C99_remembered`, `C99_alarms`, `C99_run`, `C99_silenced_refuted`, `C99_throws_refuted`, `C99_no_limit_refuted`, `C99_again_refuted`. Status: proved.

### C100 UDPSockets talking to each other

* Modelled: A host with sockets as records of their buffers (SocketModel.v), port, mode and queue; calls as operations with the fate of each packet as an argument; a writeBack with an address never filled in is UB, a read that waits Diverge (NetModel.v; specification over the trace of calls and results in NetSpec.v).
* Proof: An invariant relating each socket to the trace (mode, destination, arrivals = read ++ queue, source) is kept by every call; C100_echo and the others follow from it.
* Note: The rules of the kernel for UDP are part of the model (last socket bound to a port gets its packets, as Linux does with SO_REUSEADDR). One call at a time. Defects: C100_cut_refuted, C100_text_refuted, C100_stolen_refuted.
* Theorems: `C100_fifo`, `C100_read`, `C100_send`, `C100_port`, `C100_open`, `C100_defined`, `C100_oneway`, `C100_echo`, `C100_text`, `C100_cut_refuted`, `C100_text_refuted`, `C100_stolen_refuted`. Status: proved.

### C101 UnixSignal objects from construction to destruction

* Modelled: Objects by number with their members (mSaveFiles possibly never set), dispositions per signal; calls and signals as operations (SigObjModel.v; specification over the calls made in SigObjSpec.v).
* Proof: An invariant relating objects and dispositions to the calls made, kept by every operation; the text of Dump by splitting it at line ends, colons and commas.
* Note: One thread; handlers return and register nothing (C58, C96 have those). Defects: C101_other_refuted, C101_delete_refuted, C101_late_refuted, C101_uninit_refuted.
* Theorems: `C101_disposition`, `C101_deliver`, `C101_not_caught`, `C101_handle`, `C101_new`, `C101_defined`, `C101_dump`, `C101_dump_tells`, `C101_other_refuted`, `C101_delete_refuted`, `C101_late_refuted`, `C101_uninit_refuted`. Status: proved.

### C102 What a Statistic prints

* Modelled: `Statistic::text`, the quotient of `getAvg` rounded, sprintf %.3g, strchr and strcpy, and the conversion %g with digits rounded to nearest, halves to even (StatTextModel.v, on SecondsModel.v).
* Proof: The power of ten of the first digit by induction, the digits by rounding, the text taken apart into sign, digits, fraction and exponent as strtof reads them (FloatNumProps.v); C43 for the fields.
* Note: Samples of type int and unsigned; doubles rounded to 53 bits; stream flags other than fixed and precision as at the start. Defects: C102_million_refuted, C102_average_refuted, C102_sticky_refuted.
* Theorems: `C102_number`, `C102_zero`, `C102_text`, `C102_empty`, `C102_million_refuted`, `C102_front`, `C102_tells`, `C102_average_refuted`, `C102_sticky_refuted`. Status: proved.

### C103 Calls that wait up to a number of milliseconds

* Modelled: One thread in a timed call, stage by stage, with the clock in microseconds, the mutex and the contents; the surroundings as events (TimedModel.v, on TimevalModel.v).
* Proof: An invariant over all sequences of events relating deadline, rest and time of sleep to the clock; the number of steps by a budget that only wake-ups and refused times refill; C103_as_queue and C103_as_map relate a turn to the bodies of InterthreadModel.v.
* Note: One call in arbitrary surroundings. Defects: C103_long_refuted, C103_spin_refuted, C103_set_back_refuted, C103_either_refuted.
* Theorems: `C103_null`, `C103_item`, `C103_deadline`, `C103_asleep`, `C103_over`, `C103_woken`, `C103_goes_on`, `C103_steps`, `C103_short`, `C103_long_refuted`, `C103_spin_refuted`, `C103_set_back_refuted`, `C103_either_refuted`, `C103_as_queue`, `C103_as_map`. Status: proved.

### C104 Values that pass validation are read as what was validated

* Modelled: Nothing new: the models of validation, schema, tables and logger together (ValidModel.v, SchemaModel.v, ConfigModel.v, LoggerModel.v).
* Proof: The grammars of the numbers of C48 and C46 are compared (C104_number); the keys of the library by computation on the schema they are defined by.
* Note: Defects: C104_octal_refuted, C104_hex_refuted, C104_names_refuted.
* Theorems: `C104_number`, `C104_range`, `C104_port`, `C104_boolean`, `C104_tries`, `C104_alarms`, `C104_file`, `C104_level`, `C104_defaults`, `C104_alarms_kept`, `C104_octal_refuted`, `C104_hex_refuted`, `C104_names_refuted`. Status: proved.

### C105 A message of fields with parity travels over UDP

* Modelled: Nothing new of the library: two client programs (build and parse) on the models of bit vectors and sockets (BitVectorModel.v, NetModel.v).
* Proof: C03, C05, C07 and C100 in a row; syndromes and fields depend on the bits only; the difference of two packets is a burst, so C06 applies.
* Note: Defects: C105_short_refuted, C105_cut_refuted.
* Theorems: `C105_delivered`, `C105_damaged`, `C105_bytes`, `C105_zeros`, `C105_short_refuted`, `C105_cut_refuted`. Status: proved.

### C106 Bit vector operations whose operands share storage

* Modelled: the same functions as in BitVectorModel.v, with every read and write on one list of cells (AliasModel.v).
* Proof: The loops are runs of block assignments; such a run is right if every step reads what was there at the start, and a wrong step shows in the result for a memory with a single nonzero cell (AliasProofs.v). The puncturing loops simulate those of C09.
* Note: Defects: C106_map_in_place, C106_unmap_in_place, C106_pack_in_place, C106_unpunctured_in_place_refuted.
* Theorems: `C106_map`, `C106_map_only`, `C106_map_in_place`, `C106_unmap`, `C106_unmap_only`, `C106_unmap_in_place`, `C106_pack`, `C106_unpack`, `C106_pack_in_place`, `C106_punctured`, `C106_punctured_in_place`, `C106_unpunctured`, `C106_unpunctured_in_place_refuted`, `C106_fill`. Status: proved.

### C107 The file of defaults, run by sqlite3 and read through the table

* Modelled: getDefaultSQL and the SQL reader (SchemaModel.v), the table with its cache (ConfigModel.v); the rows of the first are the database of the second.
* Proof: C72 gives the rows after the file, C44 the answers of the table from its contents; two contents that agree in every value, defaults included, give the same answers to every history.
* Note: Defect: C107_upgrade_refuted.
* Theorems: `C107_installed`, `C107_others`, `C107_transparent`, `C107_builtin`, `C107_upgrade_refuted`, `C107_removed`. Status: proved.

### C108 A message with parity through an interleaver, puncturing and soft bits

* Modelled: the functions of BitVectorModel.v one after the other; the client programs are definitions of SoftChainProps.v.
* Proof: C09 and C10 give the vector of the receiver position by position, C06 that a wrong one is refused, C03 and C05 that the right one is read and accepted.
* Note: Defect: C108_punctured_refuted.
* Theorems: `C108_sent`, `C108_received`, `C108_any`, `C108_delivered`, `C108_accepted`, `C108_noise`, `C108_punctured_refuted`. Status: proved.

### C109 Iterating a queue while other threads use it, and connected queues

* Modelled: list nodes with identity, one mutex and counter per queue, the mutex in use, one iterator per thread, threads asleep in read(); steps of the threads in any order.
* Proof: An invariant over all histories (nodes are used once, the counter is depth plus sleepers) and an induction over the schedule: a step of another thread leaves the queue and the iterator alone because the mutex is held.
* Note: Defects: C109_assert_refuted, C109_connected_refuted, second half of C109_chain, C109_read_under_lock.
* Theorems: `C109_loop`, `C109_loop_defined`, `C109_excluded`, `C109_assert`, `C109_assert_refuted`, `C109_connected_refuted`, `C109_connect`, `C109_chain`, `C109_read_under_lock`. Status: proved.

### C110 The queue whose elements carry the links, used by threads that own what they write

* Modelled: the bodies of the queue over the list of C19, with the container's calls as they are; a failed body leaves its failure in place of the data.
* Proof: A simulation between monitors: bodies that agree step by step give the same executions (C19 for one step); that the element written is not in the queue follows from counting calls, effects and takes with C20.
* Note: Defects: C110_twice_refuted.
* Theorems: `C110_simulates`, `C110_contents`, `C110_no_lost_wakeup`, `C110_empty`, `C110_twice_refuted`. Status: proved.

### C111 format called with std::string and numbers

* Modelled: the nine functions, the ranks of the conversions and the choice of the best one, and what each parameter is made of.
* Proof: The choice is compared with the declarative one on all lists of up to four types by computation and beyond four by the number of parameters; then induction over the arguments, and C91 and C42 for the text.
* Note: Overload resolution as the C++ standard has it; without nullptr, enumerations and classes with conversions. The directives are those of C91. Defects: C111_zero_refuted, C111_cut_refuted, C111_string_refuted.
* Theorems: `C111_choice`, `C111_refused`, `C111_made`, `C111_dots`, `C111_same`, `C111_text`, `C111_throws`, `C111_callers`, `C111_zero_refuted`, `C111_cut_refuted`, `C111_string_refuted`. Status: proved.

### C112 What an F16 and a vector print

* Modelled: printing of a float (%g and, if fixed, %f), of an F16 and of a vector with any way to print an element.
* Proof: The text stands for a number within half a unit of the sixth digit (C102, C89); the float nearest to it is nearer to the word than half a word, which C59 and C86 turn into equality; words are found by C49.
* Note: The stream has precision 6, is fixed or not, and has no width or other flags; zero, infinities and NaN of C112_float are left out. Defects: C112_ten_refuted, C112_float_refuted, C112_fixed_refuted.
* Theorems: `C112_f16`, `C112_read_back`, `C112_tells`, `C112_ten_refuted`, `C112_fixed`, `C112_fixed_refuted`, `C112_numbers`, `C112_f16s`, `C112_float`, `C112_float_refuted`. Status: proved.

### C113 A Statistic of floats or doubles

* Modelled: addPoint, getCurrent, getAvg and text over doubles with denormals and infinities, rounded to nearest even.
* Proof: A sum of two doubles has only a relative error, as no digit is below the last one of a denormal; the errors are added up by induction over the samples. The text by C102_number.
* Note: The sign of zero is left out, as is what is printed for a million samples or more, which does not depend on their type (C102). Defects: C113_nan_refuted, C113_infinite_refuted, C113_first_refuted, C113_between_refuted, C113_order_refuted, C113_overflow_refuted.
* Theorems: `C113_extremes`, `C113_sum`, `C113_average`, `C113_float_average`, `C113_exact`, `C113_text`, `C113_nan_refuted`, `C113_infinite_refuted`, `C113_first_refuted`, `C113_between_refuted`, `C113_order_refuted`, `C113_overflow_refuted`. Status: proved.

### C114 Iterating an InterthreadMap under its lock

* Modelled: map nodes with identity in key order, one recursive mutex, one iterator per thread, threads asleep in get(); steps of the threads in any order.
* Proof: While a thread holds the mutex a run can be reduced to the steps of that thread (a simulation); then an invariant: the iterator is at the first node beyond the last key, and a node keeps its key until it is erased.
* Note: The bodies use write, getNoBlock and remove; get() is in the defect. Timeouts are in C103, deletions in C25. Defects: C114_erase_refuted, C114_unlocked_refuted, C114_get_refuted, C114_endless_refuted.
* Theorems: `C114_loop`, `C114_order`, `C114_complete`, `C114_snapshot`, `C114_bound`, `C114_defined`, `C114_runs`, `C114_others`, `C114_erase_refuted`, `C114_unlocked_refuted`, `C114_get_refuted`, `C114_get`, `C114_endless_refuted`. Status: proved.

### C115 Copies of a PointerFIFO

* Modelled: the nodes of all FIFOs in one memory, a copy as a copy of the four members, the member functions of C18 on the common memory.
* Proof: The invariant of C18 with a frame: a call changes only the nodes of its own FIFO or new ones, and the FIFOs that may be used have no node in common.
* Note: Defects: C115_lost_refuted, C115_below_refuted, C115_replaced_refuted, C115_leak_refuted.
* Theorems: `C115_moves`, `C115_lost_refuted`, `C115_below_refuted`, `C115_replaced_refuted`, `C115_leak_refuted`. Status: proved.

### C116 A chain of threads joined by queues

* Modelled: the queues, the workers with their places in read() and write() and the producers that have put but not signalled, with put, signal, take or sleep, and wake-up as steps.
* Proof: Counts of each value over queues and hands; for order the concatenation of queues and hands from the last to the first; for wake-ups that a queue with a sleeper has no more items than signals and awakened readers on the way; a measure that every step lowers.
* Note: Defects: C116_reorder_refuted, C116_null_refuted.
* Theorems: `C116_conserved`, `C116_order`, `C116_rest`, `C116_bound`, `C116_through`, `C116_finishes`, `C116_reorder_refuted`, `C116_null_refuted`. Status: proved.

### C117 Printing objects through pointers

* Modelled: a stream with text, base, width, fill, side and failure; text() as a list of insertions and manipulators, nested; str, both operators <<.
* Proof: Induction over the nested lists; the library's padding is computed in the model.
* Note: Defects: C117_silent_refuted, C117_text_refuted.
* Theorems: `C117_str`, `C117_print`, `C117_failed`, `C117_nested`, `C117_stream`, `C117_silent_refuted`, `C117_text_refuted`. Status: proved.

### C118 The text and the memory of a backtrace

* Modelled: the stack as a list of names, memory as the number of blocks lost and a list of answers to requests.
* Proof: Induction over the names and over the calls.
* Note: Defects: C118_leak_refuted, C118_throws_refuted, C118_depth_refuted. That the copy of the message needs memory holds for the string class of C++11.
* Theorems: `C118_text`, `C118_told`, `C118_memory`, `C118_leak_refuted`, `C118_throws_refuted`, `C118_depth_refuted`. Status: proved.

### C119 ScopedLock in programs that return and throw

* Modelled: programs as statements with a stack of what is to be done at the end of each, exceptions and returns that run the destructors on it, recursive mutexes with lockcnt.
* Proof: Invariant over all schedules: the depth of a mutex is the number of its blocks on the stack of the holder; for progress a chain of waiting threads would have growing mutexes.
* Note: Defects: C119_bare_refuted, C119_order_refuted, C119_copy_refuted. Programs that only act, with the conditions free; mutexes as in C28.
* Theorems: `C119_held`, `C119_released`, `C119_progress`, `C119_bare_refuted`, `C119_order_refuted`, `C119_copy_refuted`. Status: proved.

### C120 Life of an InterthreadQueue and of what is in it

* Modelled: queues with elements and the number of the queue whose mutex they lock, destroyed queues, elements with whether they were deleted; constructor, copy, assignment, iqConnect, destructor, clear, flushNoDelete, write, readNoBlock, size.
* Proof: Invariant over all programs that keep the rules: mutexes in use exist, the elements of the program and of all queues are a list without repetition and are there; by permutations of that list.
* Note: Defects: C120_connect_refuted, C120_dangling_refuted, C120_copy_refuted, C120_outlives_refuted, C120_flush_refuted. One thread; C109 has the threads.
* Theorems: `C120_defined`, `C120_owned`, `C120_reverse`, `C120_connect_refuted`, `C120_dangling_refuted`, `C120_copy_refuted`, `C120_outlives_refuted`, `C120_flush_refuted`. Status: proved.

### C121 Threads that use one datagram socket

* Modelled: threads with their calls in steps (lookup, select, recvfrom, copying of addresses in two halves), a queue of packets, mSource, mDestination, the mode and the static result of gethostbyname.
* Proof: All steps as an inductive relation; invariants over all schedules: packets taken and by whom, mSource as that of the last packet taken by the only reader, mDestination as the fold of the thread's calls; for waiting, that select of the only reader stays true.
* Note: Defects: C121_timeout_refuted, C121_answer_refuted, C121_mixed_refuted, C121_destination_refuted, C121_lookup_refuted. That the kernel copies addresses in two steps is assumed where it is against the code; sendto and recvfrom do not fail.
* Theorems: `C121_program`, `C121_once`, `C121_reply`, `C121_defined`, `C121_returns`, `C121_nonblocking`, `C121_write`, `C121_timeout_refuted`, `C121_answer_refuted`, `C121_mixed_refuted`, `C121_destination_refuted`, `C121_lookup_refuted`. Status: proved.

### C122 The heap of a priority queue and elements that change

* Modelled: mQ as a vector of pointers kept as a binary heap as in libstdc++, elements with a priority that can be changed or deleted, a comparison through the pointers.
* Proof: The hole in the heap: what holds around it is kept on the way down and on the way up, so that the whole is a heap when the hole is filled; each move is a permutation. Then invariants over all careful programs.
* Note: Defects: C122_null_refuted, C122_change_refuted, C122_order_refuted. The heap is that of libstdc++ (push_heap, adjust_heap); one call at a time, the threads and the waiting are in C26.
* Theorems: `C122_defined`, `C122_least`, `C122_peek`, `C122_sorted`, `C122_clear`, `C122_once`, `C122_null_refuted`, `C122_change_refuted`, `C122_order_refuted`. Status: proved.

### C123 Copies of socket objects, and descriptors used after they were closed

* Modelled: the table of descriptors of the process with the lowest free one given out, objects with mSocketFD, other code with its own descriptors, the size of fd_set.
* Proof: A second run of the program without descriptors (which socket each object stands for, what was released); an invariant ties it to the table over all programs. The lost socket by an invariant of the second run.
* Note: Defects: C123_copy_refuted, C123_assign_refuted, C123_race_refuted, C123_select_refuted. socket and bind do not fail; fd 0 to 2 are not set apart.
* Theorems: `C123_own`, `C123_open`, `C123_copy_refuted`, `C123_race_refuted`, `C123_assign_refuted`, `C123_select_refuted`. Status: proved.

### C124 Destroying a queue, map or semaphore when the last message has come

* Modelled: writers and a reader in steps of lock, put, signal, unlock, sleep and destroy, with the signal under the mutex or after it as in the source; a step on a destroyed object is undefined.
* Proof: An invariant over all schedules: messages are got, in the object or still to be put; a writer that has put its message and has the mutex leaves it there until it unlocks, so when the reader has all, no writer is in a call.
* Note: Defect: C124_last_refuted. That a mutex may be destroyed as soon as it is unlocked is what POSIX asks of it.
* Theorems: `C124_safe`, `C124_end`, `C124_progress`, `C124_last_refuted`. Status: proved.

### C125 Connecting a queue that threads are using

* Modelled: two queues, their mutexes and signals, threads that read, write and connect, in steps of lock, access, wait, unlock and signal, with the pointers read where the source reads them; two threads in one list, and a wait with a mutex not held, are undefined.
* Proof: An invariant over all runs: a thread in a call on a queue has or waits for the mutex and the signal the queue now points to. iqConnect keeps it as no other thread is in a call on A. For the one reader: if it sleeps and the queue holds an element, a writer of the queue is past the put and before the signal.
* Note: Defects: C125_sleeper_refuted, C125_wait_refuted, C125_writer_refuted, C125_readers_refuted.
* Theorems: `C125_defined`, `C125_alone`, `C125_fifo`, `C125_wakes`, `C125_rest`, `C125_sleeper_refuted`, `C125_wait_refuted`, `C125_writer_refuted`, `C125_readers_refuted`. Status: proved.

### C126 A registered process, signals and its end

* Modelled: a process as the list of steps still to do; exit puts the calls of e and the destructors there, a signal that is caught puts the steps of its handler in front; dispositions, files, mFile and mListFiles are the state; walking a list that is destroyed or half changed is undefined.
* Proof: An invariant over all runs on the shape of the steps still to do: frames of handlers, each somewhere in Exit with what it has removed so far, on top of the program or of exit. While a handler runs files are only removed, so frames below keep what they removed.
* Note: Defects: C126_window_refuted, C126_late_refuted, C126_push_refuted, C126_twice_refuted, C126_files_refuted. That several processes share a pid file is in C57, signals with threads are in C96.
* Theorems: `C126_defined`, `C126_removed`, `C126_only`, `C126_kept`, `C126_ends`, `C126_window_refuted`, `C126_late_refuted`, `C126_push_refuted`, `C126_twice_refuted`, `C126_files_refuted`. Status: proved.

### C127 Log records of static objects

* Modelled: the stack of the static objects that are there; constructors and destructors log; the static variables of gGetLoggingLevel are pushed at its first call; use of an object that is not on the stack is undefined.
* Proof: Each record keeps Logger.cpp's objects and gConfig on the stack and at most pushes the static variables; induction over construction gives the stack at the end of main, in which the static variables are either below all objects that may ask for them or not asked for again.
* Note: Defects: C127_alarm_refuted, C127_early_refuted, C127_late_refuted, C127_cache_refuted, C127_file_refuted, each for every program of its kind. The level of a file is a fixed valid number, sLogCache is not flushed and the alarms are not cut here.
* Theorems: `C127_settled`, `C127_guard`, `C127_alarm_refuted`, `C127_early_refuted`, `C127_late_refuted`, `C127_cache_refuted`, `C127_file_refuted`. Status: proved.

### C128 A bit vector kept as text in the configuration

* Modelled: the functions of BitVectorModel, CodecModel and ConfigModel one after the other; the string given to unpack has a NUL behind its characters.
* Proof: The texts are within the alphabets of RFC 4648, so without quotes and NUL, and set keeps them (C44); decoding and unpacking undo encoding and packing (C07, C35).
* Note: Defects: C128_short_refuted, C128_zeros_refuted, C128_binary_refuted. The program that calls the functions one after the other is not in the source. Builds on C07, C33 to C35, C44 and C47.
* Theorems: `C128_survives`, `C128_distinct`, `C128_long`, `C128_short_refuted`, `C128_zeros_refuted`, `C128_binary_refuted`. Status: proved.

### C129 Memory leak counters with threads

* Modelled: threads step by step: the mutex, reading and writing the counters as two steps, the beginning and the end of an access to mMemMap and of text(); overlapping accesses are undefined.
* Proof: An invariant over all runs: the thread between reading and writing holds the mutex, so what it has read is still there; what has been counted and what threads have still to count add up to the programs.
* Note: Defects: C129_destroy_refuted, C129_label_refuted, C129_text_refuted. Copies of objects and the contents of mMemMap, for one thread, are in C79.
* Theorems: `C129_counts`, `C129_defined`, `C129_progress`, `C129_ends`, `C129_destroy_refuted`, `C129_label_refuted`, `C129_text_refuted`. Status: proved.

### C130 Memory leak counters of static objects

* Modelled: the stack of static objects that are there; constructors and destructors of detectors with their use of the mutex, the counters and mMemMap; use of an object that is not there is undefined.
* Proof: Induction over the objects before and after those of Utils.cpp and over main; what is on the stack decides whether each use is defined.
* Note: Defect: C130_cleared_refuted. Counters of objects in one thread after construction are in C79, with threads in C129.
* Theorems: `C130_settled`, `C130_iff`, `C130_cleared_refuted`. Status: proved.

All properties listed are expressed in the model; none is skipped as inexpressible.

## 4. Defects of the code established by theorems

Each is a theorem about the model of the code as it is, not a failed proof.

* **C11** operator== compares raw bytes, so an inverted vector never equals a freshly built vector with the same bits. (`C11_equal_bits_refuted`)
* **C14** self-assignment of an owning BitVector leaves uninitialised contents; assigning a vector from a segment of itself leaves it pointing to freed memory; Vector self-shift empties it. Assignment between distinct, non-overlapping vectors always yields the source contents. (`C14_self_assign_keeps_refuted`)
* **C21** after a NULL write, read() consumes the NULL and goes to sleep although an item is queued behind it and its signal is spent. (`C21_null_write_refuted`)
* **C22** after expiry with both queues empty the call spins forever while holding the shared mutex, so no writer can ever get in; and with two blocked readers on two connected queues a single signal can wake the wrong one and leave an item queued with its reader asleep for ever. With one waiting thread (and no NULL writes) no wake-up is lost. (`C22_wrong_reader_refuted`)
* **C23** with two waiters, one clear() (or reads) can leave one of them asleep for ever although the queue is empty; removing a NULL item does not wake the waiter. (`C23_two_drainers_refuted`, `C23_null_refuted`)
* **C25** writing the pointer already stored deletes it and keeps it (dangling); destruction of the map deletes nothing because the overriding deleter is no longer active in the base destructor (leak). (`C25_rewrite_refuted`)
* **C28** waiting on a condition with the mutex locked twice keeps it locked, and the count of a sleeping thread makes ScopedLockMultiple's assertion lockcnt()==1 fail for a rightful owner. (`C28_lockcnt_waiter_refuted`)
* **C29** when the microseconds of the clock plus the sub-second part of the timeout are exactly one second the deadline is invalid, the system call fails with EINVAL and timedlock returns true at once without the lock; every timeout that is not a whole number of seconds is affected once a second. lock(file,line), whose timeout is a whole second, always goes on with the mutex held.
* **C30** with mutexes owned on entry it may block while holding one, and two such threads can deadlock although the documentation promises otherwise. (`C30_deadlock_refuted`)
* **C33** a single left-over character (a truncated text) is accepted silently.
* **C35** names are compared case-sensitively although the type used is documented as case-insensitive; an error left over from an earlier call is never cleared.
* **C36** the digit table has an extra 0, so digits A..F are printed wrongly, different inputs get equal encodings and decoding does not return the input; NUL is not escaped. (`C36_not_injective_refuted`)
* **C37** 0 together with a non-negative number divides by zero (undefined); a negative number and a positive one it does not divide, and two different negative numbers, recurse for ever.
* **C38** an empty search string never terminates.
* **C39** contrary to its comment, the last slot does not receive the rest of the line. cstrGetArg(n) returns the n-th run with exact start and length or NULL.
* **C40** the 32768th pointer makes the count negative and every later copy or release aborts; freeing a member that alone keeps its owner alive writes to freed memory; cycles are never deleted. (`C40_overflow_refuted`, `C40_member_release_refuted`)
* **C42** for a text of exactly 199 characters the last one is lost. The stream variant returns the whole text below 296 characters and otherwise the first 296 followed by three dots.
* **C43** after 2^32 samples the minimum and maximum are forgotten; beyond 2^53 each sum is rounded to the nearest double, so samples are lost from it. (`C43_wrap_refuted`, `C43_sum_rounded_refuted`)
* **C44** remove returns true also when there was nothing to remove. (`C44_remove_absent_refuted`)
* **C45** the purge time is shared by all tables, so with a second table in use a table stays stale for any length of time; after the clock is set back by n seconds values stay stale until it has caught up; a failed read is cached as the default value or as missing. (`C45_two_tables_refuted`, `C45_clock_set_back_refuted`, `C45_failed_read_cached_refuted`)
* **C47** a value with double quotes can write other keys or be stored differently from what the cache shows; a key with an apostrophe can be set but not removed; one key removes every row; a key that is a column name finds any row; a schema description with an apostrophe makes its key impossible to set. (`C47_injection_refuted`, `C47_doubled_quote_refuted`, `C47_apostrophe_key_refuted`, `C47_remove_all_refuted`, `C47_column_name_refuted`, `C47_description_refuted`)
* **C48** where the delimiter is missing, the whole value is taken as both parts, so a bare address can pass as address/prefix or address:port and a bare number as host:port; text behind numbers is ignored; choices without descriptions accept only tails of the list; ports in address lists are looked up at the first colon of the whole list; only the first of several ranges counts; a range that ends at the largest int has no upper bound; a blank port and an unknown key read uninitialised memory. (`C48_delimiter_refuted`, `C48_trailing_refuted`, `C48_saturated_refuted`, `C48_choice_refuted`, `C48_list_ports_refuted`, `C48_ranges_refuted`, `C48_unset_refuted`)
* **C49** a lone tab makes getVector return the next number twice. (`C49_tab_refuted`)
* **C50** getNum never sets the flag to true; every addItems call leaks its copy of the text, and one more copy for each item without '='; a key containing '=' can never be found. (`C50_key_with_equals_refuted`, `C50_leak_refuted`, `C50_getNum_flag_refuted`)
* **C51** alphanumeric strings of ten characters can collide, as can strings of two bytes with bytes above 127, and operator== then calls different strings equal; operator> is the same as operator<. (`C51_ten_characters_refuted`, `C51_bytes_refuted`, `C51_greater_refuted`)
* **C52** longer names can share a hash and so a level; a thread held up between look-up and insertion brings back a level of any age. (`C52_collision_refuted`, `C52_held_up_refuted`)
* **C53** a negative limit counts as about four thousand million. (`C53_negative_limit_refuted`)
* **C54** a failed update loses increments; so does a commit before creation; clear spares pending increments; a counter called NAME increments all counters. (`C54_failed_update_refuted`, `C54_created_late_refuted`, `C54_clear_pending_refuted`, `C54_column_refuted`)
* **C55** beyond these limits the stack is overwritten; creating a range up to UINT_MAX never ends. (`C55_whole_range_refuted`)
* **C56** with zero tries an uninitialised statement is finalised. (`C56_no_tries_refuted`)
* **C57** overlapping starts both succeed; Exit runs again (atexit) and removes the file of a successor; a crash, or a signal before registration is complete, leaves a file that blocks every later start; longer names are cut, so different programs exclude each other. (`C57_long_names_refuted`, `C57_race_refuted`, `C57_second_exit_refuted`, `C57_stale_refuted`)
* **C58** a handler that registers itself for its own signal is called forever. (`C58_reregister_refuted`)
* **C61** columns from the 31st on are dropped; a cell of 249 characters or more is cut and runs into the next one.
* **C62** larger bit numbers are not checked (undefined shift).
* **C63** a stored attribute with a name of more than 78 characters cannot be found; a value with apostrophes can write other attributes. (`C63_long_name_refuted`, `C63_injection_refuted`)
* **C64** configuring the level of any group reads freed memory. (`C64_group_set_refuted`)
* **C65** copying between overlapping ranges, as in shifting a vector within itself, is undefined. (`C65_overlap_refuted`)
* **C66** the index -1 is accepted by every vector; a tail that begins behind the end is accepted and gives a vector whose size() aborts; a segment of negative length is accepted. (`C66_minus_one_refuted`, `C66_tail_refuted`, `C66_negative_span_refuted`)
* **C67** writeBack before the first packet uses uninitialised memory; texts of more than 1499 characters arrive without their NUL. (`C67_write_back_first_refuted`)
* **C68** a text without colon leaks memory; a port that is no number counts as 0, larger numbers are taken modulo 65536. (`C68_bad_port_refuted`)
* **C69** longer paths overrun the stack in open, and paths of more than 253 characters the object in destination; destination never sets the address family, so write always fails and sends nothing, whatever was called before; a packet from a socket without a name leaves the previous sender in place, so the answer goes to the wrong socket; writeBack before the first named packet uses uninitialised memory. (`C69_write_refuted`, `C69_write_back_first_refuted`)
* **C70** after close() the destructor closes the descriptor again, which by then may be another's file; a second open() leaks the first descriptor; destroying a Unix socket that was never opened closes an arbitrary descriptor. (`C70_close_refuted`, `C70_reopen_refuted`, `C70_unopened_refuted`)
* **C71** zero tries finalise an uninitialised pointer; copying a sqlQuery finalises its statement twice. (`C71_no_tries_refuted`, `C71_copy_refuted`)
* **C59** one half is added in single precision, so the float next below half a step gives one step, and every odd word between 128 and 256 moves a step away from zero when converted from its own exact float; the 64 largest words do not survive f(); beyond 256 different numbers compare equal. (`C59_convert_refuted`, `C59_roundtrip_refuted`, `C59_compare_refuted`)
* **C72** an apostrophe in a default has the file refused or what follows it read as SQL; a description with both kinds of quotes or a line break in the program name have it refused. (`C72_quote_refuted`)
* **C73** other characters special to TeX (# % & $ { }) pass as they are, and a text already escaped is broken. (`C73_special_refuted`)
* **C74** an underscore in the pattern matches any character and a percent sign any text; a double quote has the statement refused and nothing printed. (`C74_wildcard_refuted`)
* **C75** validating a value for a key outside the schema adds that key to the schema, with no type set; lookups of it then give an empty value instead of failing. (`C75_validate_refuted`)
* **C76** in a list of choices without descriptions each line has the whole rest of the list followed by the whole list; the scope same across neighbours is printed twice. (`C76_plain_refuted`)
* **C77** a negative stack size for start2 becomes a huge one; a thread not joined is kept by the system for ever, even after its object is destroyed; the alert for a failed creation always names error 1. (`C77_alert_refuted`)
* **C78** if computing a piece itself uses the macro, its line is written inside the other one; if it throws, the lock is never released and every later use waits for ever. (`C78_nested_refuted`, `C78_throw_refuted`)
* **C79** copies are counted when destroyed but not when made, so making a copy and destroying both gives -1, or aborts with debugging on; an object never labelled is taken off the count of the empty label when destroyed; labelling again or assigning leaves counts of objects that are gone. (`C79_copy_refuted`, `C79_labels_refuted`)
* **C80** the form with one string reads a buffer never written whenever nothing was taken; %c leaves the text without its NUL, so that memory never written is read. (`C80_one_refuted`, `C80_chr_refuted`)
* **C81** the text of a local time has no zone, so when the clock is put back two times have the same text. (`C81_local_refuted`)
* **C82** errors of locking are ignored, so that a thread which has it for writing and locks again is told nothing, has no second lock, and after its first unlock another may write; a thread that has it for reading and calls wlock waits for ever whatever the others do; readers that overlap can keep a writer out for any length of time. (`C82_relock_refuted`, `C82_upgrade_refuted`, `C82_starvation_refuted`)
* **C83** ten certain bits have an average energy greater than 1; a noisier vector may be given a ratio above 999, the ratio of all cleaner ones. (`C83_average_refuted`, `C83_clamp_refuted`)
* **C84** after that nothing but initialising changes the level for mutexes, and initialising again does not either while the old one is cached; after gLogInitWithFile alone all records carry the process number 0. (`C84_mutex_refuted`, `C84_mutex_again_refuted`, `C84_pid_refuted`)
* **C85** an increment made before the shutdown while a commit is being written is never stored; a shutdown before the committer thread begins is lost for ever; after the end nothing is stored though incr answers true; tables other than gReports, and gReports if it could not be opened, store nothing at all, and in the second case a committer of another table throws the increments away. (`C85_shutdown_refuted`, `C85_early_refuted`, `C85_second_refuted`)
* **C86** with a leading zero it does not (017 is 15 and 17). (`C86_octal_refuted`)
* **C87** beyond these bounds a key of 12 finds the row of 1; in an untyped column number and text find different rows; a key with a quote can select every row, and a key equal to a column name is compared with that column. (`C87_agree_refuted`, `C87_cut_refuted`, `C87_format_refuted`, `C87_quote_refuted`)
* **C88** the width of a field is not enforced: a field of 3 bits counts from 7 to 8 and on, and what is read back differs. (`C88_width_refuted`)
* **C89** from 2^33 seconds on the digits are wrong, printing leaves the stream in fixed format, sleepf(0.000249) sleeps 248 microseconds and sleepf of infinity is undefined, msleep(4294968) sleeps 704 microseconds and msleep(-1) more than an hour. (`C89_limit_refuted`, `C89_stream_refuted`, `C89_sleepf_refuted`, `C89_msleep_refuted`)
* **C90** crossCheck on it is undefined unless a hook was set; and if the database does not answer during the construction the defaults are returned for three seconds though it answers again. (`C90_not_answering_refuted`)
* **C92** the time of the last purge is one static variable for all tables, each of which has its own lock, so reads of two tables race. Defect: isValidValue takes no lock, and for an unknown name it makes an entry in the schema: this races with getStr and set, and getStr, which would throw, returns an empty text. (`C92_two_tables_refuted`, `C92_unknown_refuted`)
* **C93** whoever writes a schema pattern without anchors, for instance [0-9]+, accepts any value that contains an accepted one. (`C93_unanchored_refuted`)
* **C94** behind the number anything of these characters may follow (1.2.3.4, 2-7), a value without a number counts as 0, numbers a little outside are accepted (3.0000001 for an upper bound 3.0) and steppings are not looked at; a missing bound is an uninitialised variable; a leading zero is ignored by the check but getNum reads the value as octal, so 010 is accepted for 10:20 and read as 8. (`C94_trailing_refuted`, `C94_rounding_refuted`, `C94_bound_refuted`, `C94_octal_refuted`)
* **C95** every negative index whose field ends before the end of the vector is accepted, and the memory before the vector overwritten; peekField behind the vector returns what lies there; peekFieldReversed of more than 2^31 chars returns 0. (`C95_before_refuted`, `C95_behind_refuted`, `C95_long_refuted`)
* **C96** two threads that register and are each interrupted by the signal the other registers for wait for ever; a signal that interrupts the insertion for it reads a list half changed; one that comes after signal and before the insertion ends the process without its handler; two threads may both call all handlers for a signal; a signal whose default is to be ignored is handled only once. (`C96_deadlock_refuted`, `C96_interrupted_refuted`, `C96_early_refuted`, `C96_twice_refuted`, `C96_once_refuted`)
* **C97** with 32768 pointers the next copy and the destruction of any of them abort; free() reads the count without the lock while another thread may be writing it; copying a variable that another thread is destroying touches a deleted object, as the lock is inside the object. (`C97_limit_refuted`, `C97_race_refuted`, `C97_steal_refuted`)
* **C98** stderr is written without a lock, so two alarms may come on one line; a critical record inside gConfig can block two threads for ever; without a limit (and default) an alarm throws with alarmsLock held, reaches no log, and blocks the alarms of all other threads. (`C98_mixed_refuted`, `C98_deadlock_refuted`, `C98_throw_refuted`)
* **C99** one failed look-up silences a file for the next thousand LOG statements; a failed look-up when the three seconds of the cache end makes LOG throw; without Log.Alarms.Max an alarm ends the program; if the database cannot be written an unknown level is an alarm again and again and drives out the others. (`C99_silenced_refuted`, `C99_throws_refuted`, `C99_no_limit_refuted`, `C99_again_refuted`)
* **C100** a packet of 1501 to 65507 bytes is cut though the sender is told that all was sent; so a text of 1500 characters or more arrives without its NUL; and because of SO_REUSEADDR a port in use can be opened again without an error, after which the new socket gets every packet and the old one none. (`C100_cut_refuted`, `C100_text_refuted`, `C100_stolen_refuted`)
* **C101** handlers registered with any other object never run though the signal is caught; the end of any object, also one never used, makes every signal below 64 take its default effect again, whether gSigVec or the program handled it or it was ignored (SIGPIPE then ends the process); after the end of gSigVec a signal registered with another object is undefined; Handler of an object whose TarName was not called reads a member never set, unless the object is global. (`C101_other_refuted`, `C101_delete_refuted`, `C101_late_refuted`, `C101_uninit_refuted`)
* **C102** from a million samples on that are not all the same the number is shortened with strcpy between places that overlap, which is undefined (where strcpy copies from the front three digits of it are shown); the average shown can be greater than the greatest value shown; after a Timeval was printed on a stream, averages there are printed with fixed digits. (`C102_million_refuted`, `C102_average_refuted`, `C102_sticky_refuted`)
* **C103** from 2147484000 milliseconds on it is undefined; once a second, while the clock stands, it tests again and again with the mutex locked instead of sleeping; if the clock is set back it sleeps longer by that; iqWaitForEither that finds both queues empty a millisecond after its deadline keeps the mutex and never returns. (`C103_long_refuted`, `C103_spin_refuted`, `C103_set_back_refuted`, `C103_either_refuted`)
* **C104** validation reads decimal where getNum reads octal behind a zero, so 010 passes for Log.Alarms.Max and counts as 8, and 08 passes for Control.NumSQLTries and counts as 0, as does port 080; hexadecimal numbers are read but never pass; five of the names the logger knows do not pass. (`C104_octal_refuted`, `C104_hex_refuted`, `C104_names_refuted`)
* **C105** unpack has no length, so a packet shorter than the message makes it read what was never received; this happens to every message of more than 12000 bits, which read cuts to 1500 bytes while write reports that all was sent. (`C105_short_refuted`, `C105_cut_refuted`)
* **C106** nothing checks for shared storage; in place the only permutation that map or unmap does right is the identity, unpack over its own bytes is wrong beyond eight bits, and copyUnPunctured onto a vector that starts at the same cell replaces everything from the first index on by 0.5. (`C106_unpunctured_in_place_refuted`)
* **C107** INSERT OR IGNORE keeps the rows of an earlier version, so after the files of two versions a key nobody ever set reads as the default of the old version; remove brings the new one. (`C107_upgrade_refuted`)
* **C108** slicing takes an erasure for 0, so a message with a single punctured bit that is 1 is refused though there was no noise. (`C108_punctured_refuted`)
* **C109** the assertion of begin() does not see whose lock it is, so it passes without the lock while another thread is in read() or holds it, and the iterator is then left without its element; after iqConnect qGetLock is a mutex the queue no longer uses, so an element can be taken away under the iterator; connected from the first to the last, the first of three queues does not share; a thread that calls read() on an empty queue under the lock keeps it while it sleeps: nobody can write and it never gets an element. (`C109_assert_refuted`, `C109_connected_refuted`)
* **C111** format("%d",0) throws, and so does a 0 beside one other number; beside a text a long or a double is cut to an int, so that %ld is undefined and 4294967297 printed as 1; a std::string after two numbers does not compile. (`C111_zero_refuted`, `C111_cut_refuted`, `C111_string_refuted`)
* **C112** for every whole number from 10 up, it and the next F16 print the same, so that printing a vector of F16 or of floats loses information; on a fixed stream 128 and one 65536th is printed well enough but converted to the next even word. (`C112_ten_refuted`, `C112_fixed_refuted`, `C112_float_refuted`)
* **C113** one NaN, or infinities of both signs, make the average NaN for ever, a NaN as the first sample also the least and the greatest; ten samples of 0.1 have an average below all of them; the average depends on the order (2^53, 1, -2^53 gives 0); two samples near the largest double have an infinite average. (`C113_nan_refuted`, `C113_infinite_refuted`, `C113_first_refuted`, `C113_between_refuted`, `C113_order_refuted`, `C113_overflow_refuted`)
* **C114** removing the current entry makes the next step undefined; without the lock begin() is not refused and another thread may remove the entry under the iterator; get() of a missing key under the lock sleeps with the lock for ever and shuts out every other thread; a loop that writes a key ahead of itself at every turn never ends. (`C114_erase_refuted`, `C114_unlocked_refuted`, `C114_get_refuted`, `C114_endless_refuted`)
* **C115** nothing prevents the use of both. Then the same pointers are handed out twice, and taking from one makes the other lose the rest while its size still counts them; what is put into the copy appears in the original, whose size becomes 2^32-1; with a FIFO emptied after use, what is put into the copy replaces what is put into the original. And a FIFO that is destroyed or assigned to never gives its nodes back. (`C115_lost_refuted`, `C115_below_refuted`, `C115_replaced_refuted`, `C115_leak_refuted`)
* **C116** with two threads reading one queue the order can change; a NULL put in front of an item can leave the item in the queue with the reader asleep for ever. (`C116_reorder_refuted`, `C116_null_refuted`)
* **C117** if text() fails in the middle the text is cut short and the stream still counts as good; text(os) called directly does depend on the flags of os and leaves its own behind. (`C117_silent_refuted`, `C117_text_refuted`)
* **C118** each call in which memory runs out while the names are put together loses the block of backtrace_symbols for good, so n such calls lose n blocks; the call throws although everything is caught if there is no memory for the copy of the message; functions beyond the 30th are left out without a sign. (`C118_leak_refuted`, `C118_throws_refuted`, `C118_depth_refuted`)
* **C119** with lock() and unlock() a throw or return leaves the mutex locked for ever; with different orders two threads can stop for ever; a ScopedLock can be copied, and then unlocks twice: two threads get within blocks of one mutex, and lockcnt() ends at -1. (`C119_bare_refuted`, `C119_order_refuted`, `C119_copy_refuted`)
* **C120** once a queue is destroyed nothing can be called on those connected to it, not even the destructor, so of two local queues the first must not be connected to the second; copying a queue that is not empty, then destroying both, deletes the elements twice; an empty copy, too, uses the original's mutex and may not outlive it; flushNoDelete() leaks what no one else has. (`C120_connect_refuted`, `C120_dangling_refuted`, `C120_copy_refuted`, `C120_outlives_refuted`, `C120_flush_refuted`)
* **C121** of two threads that read with a timeout one can wait without limit, both having been told of the same packet; if two threads read, the answer of one can go to the client of the other, or to the address of one with the port of the other, where nobody sent from; a message written while another thread calls destination() can go to the new address with the old port; without gethostbyname2_r the result of the lookup is used after the mutex is released, so that destination() can take the address of a host another thread looks up. (`C121_timeout_refuted`, `C121_answer_refuted`, `C121_mixed_refuted`, `C121_destination_refuted`, `C121_lookup_refuted`)
* **C122** NULL written to a queue that is not empty is dereferenced, and so is anything written to a queue with NULL alone; an element whose priority changes while it is queued can be returned before a smaller one; one deleted while queued is dereferenced by the next write; one written twice is deleted twice by clear; elements that compare equal do not come out in the order written (of four equal ones the third is read second). (`C122_null_refuted`, `C122_change_refuted`, `C122_order_refuted`)
* **C123** sockets can be copied, and the destructor of a copy closes the descriptor of the original, whose packets then go to whatever socket is opened next, and whose destructor closes that socket or another's file; an object assigned to loses its socket, which can never be closed; a socket closed by one thread while another is between select and recvfrom in read with a timeout makes that read take a packet of the socket opened next; read with a timeout on a descriptor of 1024 or more writes beyond the end of its fd_set. (`C123_copy_refuted`, `C123_race_refuted`, `C123_assign_refuted`, `C123_select_refuted`)
* **C124** the write of InterthreadQueue, InterthreadQueueWithWait and InterthreadPriorityQueue signals after it has unlocked the mutex (on purpose, as the comment says), so a reader that has the last message and destroys the queue can be first, and the write then signals a condition variable that no longer exists. (`C124_last_refuted`)
* **C125** iqConnect takes no mutex and does not look whether A is in use. Called while a thread sleeps in A.read, later writes to A signal elsewhere and the thread sleeps for ever with its element in the queue, or, woken, it waits with a mutex it does not hold, which is undefined; called in the middle of A.write, another thread gets into the same list under the new mutex. And connected queues share one signal, of which write wakes one waiter: with a reader on each queue it can wake the wrong one, and the right one sleeps for ever. (`C125_sleeper_refuted`, `C125_wait_refuted`, `C125_writer_refuted`, `C125_readers_refuted`)
* **C126** a signal that by default does not end a process, such as SIGWINCH when the terminal is resized or SIGTSTP, removes the pid file and the registered files though the program goes on, so that a second instance can start; a signal after the destructor of gSelf and before that of gSigVec makes Exit walk a destroyed list; one within RegisterFile makes it walk a list that is half changed; a program that registers under two names leaves the first pid file behind, after which it cannot be started again under that name; files registered by a program that does not register itself are not removed. (`C126_window_refuted`, `C126_late_refuted`, `C126_push_refuted`, `C126_twice_refuted`, `C126_files_refuted`)
* **C127** the flag sLoggerInited, meant to make early records safe, does not cover the following, all undefined: a record of priority CRIT or graver after Logger.cpp's objects but before gConfig, as addAlarm asks gConfig; LOG of any priority before gConfig; a record of priority CRIT or graver in the destructor of an object constructed before Logger.cpp's, as the flag is never reset; LOG in the destructor of an object constructed before the first LOG, as the static variables of gGetLoggingLevel are destroyed before it; any record before Logger.cpp's objects once gLogInit has opened the log file, as gLogToLock is not guarded. (`C127_alarm_refuted`, `C127_early_refuted`, `C127_late_refuted`, `C127_cache_refuted`, `C127_file_refuted`)
* **C128** a value that was cut short is not noticed by decodeToString and unpack: if one byte is missing its bits silently become zeros, from the NUL behind the string, if more are missing unpack reads out of bounds; in the encoding binary, which encodeToString offers as well, a vector with a zero byte when packed, and no quote before it, cannot be set. (`C128_short_refuted`, `C128_zeros_refuted`, `C128_binary_refuted`)
* **C129** mMemMap is not guarded by the mutex of the counters, and the destructor of every such object accesses it, labelled or not; so two threads that each destroy an object, of whatever classes, or one that labels with RN_MEMLOG and one that destroys, may be in the map at the same time, which is undefined; text() reads the counters without the mutex, while other threads change them. (`C129_destroy_refuted`, `C129_label_refuted`, `C129_text_refuted`)
* **C130** even where the zeros of an unconstructed mutex work as a mutex, the constructor of gMemStats clears what was counted before it, so those objects are missing from the counters in main, and their destructors access mMemMap after it has been destroyed. (`C130_cleared_refuted`)

## 5. Simplifications

* Memory never runs out; `new` succeeds; strings and vectors are shorter than 2^31 or 2^32
  elements where a theorem says so, otherwise indices are unbounded numbers.  C66 and C95 treat
  address wrap-around separately.
* Log output and diagnostic printing are left out of functions that also do something else.
* `isspace`, `isalnum`, `strcasecmp` are those of the C locale; characters above 127 are negative
  `char`s where the code depends on it.
* pthread calls succeed except where a failure is the point (C29).
* Locks are steps of the transition systems in C20–C30; in C40, C44–C50 and C54 calls that hold
  a lock for their whole duration are atomic.
* Configuration: the schema does not change except where C75 and C92 say so; a `HashStringMap` is
  ordered by string, because `HashString::operator<` is not const and cannot be used by `std::less`.
* Times are integers; a clock reading is an argument.

## 6. Parts of the repository that are left out

Code that no definition cites, file by file; declarations whose bodies are cited and `#include` lines
are not listed.

* `*Test.cpp`, `README`, `Makefile.am`, `example.config`: not part of the library.
* BitVector.h: the constructors of `SoftVector` that only forward to `Vector`, and its casts.
* Configuration.h: declarations and members that return a field.
* F16.h: `raw`.
* Interthread.h: the scoped iterators (not compiled); `PtrList` and `PointerCompare` are taken as the deque
  and the order of C20 and C26.
* Logger.cpp, Logger.h: `gLogEarly` (one call of `vsyslog`) and the macros that only choose a level.
* MemoryLeak.h: the macros that are empty when counting is off.
* Reporting.cpp: the text of the statement that creates the table.
* Threads.cpp, Threads.h: `ScopedPointer` (not compiled) and the messages of mutexes to syslog.
* UnixSignal.cpp: the contents of the core file and the text of the command that collects files.
* Utils.cpp, Utils.h: `ATimer` (not compiled).
* sqlite3util.cpp: functions that are not compiled, the statement that switches on write-ahead logging.
* Exit.h and Variables.cpp: a table of exit codes, and the global objects.


## 7. How to read seeded/LOG.jsonl

One line per edit of the model that was tried. Hand-written edits have ids beginning with m, edits made by a script (a changed literal, operator or constant) ids beginning with a.

* `failed` lists the theorems that no longer go through, directly or because a lemma they use no longer goes through. A theorem listed there need not be false of the edited model: only its proof is known to fail. Edits whose claim begins with "nothing" change no claim, and what fails for them is the proof script only.
* "(build stops: ...)" says where the build ended; for the edits made by a script the first failure ends the run, so later theorems were not tried.
* Lines whose note says that the edited model does not compile, that the edit was not applied or that the build ran out of time are no evidence for any theorem.
* Lines with nothing under `failed` and no such note are edits that survived; the claim says why it stays true, or the note or `tightened` says what followed. For m8-A2 and m9-D6 it was not settled whether the edit matters, for m6-E2 the repetition with the tightened theorem did not finish.
