{
 "claims": [
  {
   "property": "C01",
   "status": "proved",
   "theorems": [
    "C01_hashmap_is_finite_map"
   ],
   "note": "Whole client histories, arbitrary key type with an equivalence and a compatible hash; histories shorter than the documented table limit."
  },
  {
   "property": "C02",
   "status": "proved",
   "theorems": [
    "C02_hashtable_history",
    "C02_hashtable_slots"
   ],
   "note": "Refinement of every history to the multiset spec, plus partition of the slots into free list and chains."
  },
  {
   "property": "C03",
   "status": "proved",
   "theorems": [
    "C03_iteration_exactly_once"
   ],
   "note": ""
  },
  {
   "property": "C04",
   "status": "proved",
   "theorems": [
    "C04_erase_at_position",
    "C04_erase_if_walk"
   ],
   "note": ""
  },
  {
   "property": "C05",
   "status": "partial",
   "theorems": [
    "C05_addOrReplace_refuted",
    "C05_addOrReplace_partial"
   ],
   "note": "False of the code: addOrReplace of a value equal to a stored one keeps the old one; proved for keys not yet present."
  },
  {
   "property": "C06",
   "status": "proved",
   "theorems": [
    "C06_randomlookup"
   ],
   "note": ""
  },
  {
   "property": "C07",
   "status": "proved",
   "theorems": [
    "C07_rotating_map_ages",
    "C07_lookup_from_history"
   ],
   "note": ""
  },
  {
   "property": "C08",
   "status": "proved",
   "theorems": [
    "C08_deque_is_fifo_list"
   ],
   "note": "Whole client histories, with capacity; aborts exactly where specified."
  },
  {
   "property": "C09",
   "status": "partial",
   "theorems": [
    "C09_deque_iterators_partial",
    "C09_negative_plus_refuted"
   ],
   "note": "False of the code: it + d with negative d crossing the array start; everything else proved for every reachable deque."
  },
  {
   "property": "C10",
   "status": "proved",
   "theorems": [
    "C10_priority_queue"
   ],
   "note": "Whole client histories, any total preorder, <= or < comparator."
  },
  {
   "property": "C11",
   "status": "proved",
   "theorems": [
    "C11_replaceTop_is_pop_push"
   ],
   "note": ""
  },
  {
   "property": "C12",
   "status": "partial",
   "theorems": [
    "C12_push_in_bounds_partial",
    "C12_push_in_bounds_refuted"
   ],
   "note": "False of the code for initial size 0, the default for elements larger than 1024 bytes; proved for positive initial sizes."
  },
  {
   "property": "C13",
   "status": "proved",
   "theorems": [
    "C13_copies_isolated"
   ],
   "note": "Any call on any reachable set of buffers leaves the readable contents of every buffer that is not its target unchanged."
  },
  {
   "property": "C14",
   "status": "proved",
   "theorems": [
    "C14_byte_fifo",
    "C14_read_back",
    "C14_allowed_calls_return",
    "C14_shared_write_reported"
   ],
   "note": "Every history of calls that return is a history of independent byte strings; documented calls on a writable buffer return; writes to a shared non-copy-on-write buffer abort."
  },
  {
   "property": "C15",
   "status": "partial",
   "theorems": [
    "C15_write_partial",
    "C15_shared_refuted",
    "C15_stream_overflow_refuted"
   ],
   "note": "Holds for a buffer with its own storage. False for one that shares storage with slack: refuted with a history where write/extend abort and appendFromStream writes out of bounds."
  },
  {
   "property": "C16",
   "status": "proved",
   "theorems": [
    "C16_find_first_occurrence",
    "C16_empty_needle"
   ],
   "note": ""
  },
  {
   "property": "C17",
   "status": "proved",
   "theorems": [
    "C17_number_encoding",
    "C17_sufficient_digits",
    "C17_decode_number"
   ],
   "note": ""
  },
  {
   "property": "C18",
   "status": "proved",
   "theorems": [
    "C18_number_order",
    "C18_data_order"
   ],
   "note": ""
  },
  {
   "property": "C19",
   "status": "partial",
   "theorems": [
    "C19_data_round_trip",
    "C19_explicit_digits",
    "C19_large_refuted"
   ],
   "note": "Proved for data below 2^27 bytes. Digit counts are int32_t: 2^28 bytes cannot be encoded (C19_large_refuted)."
  },
  {
   "property": "C20",
   "status": "proved",
   "theorems": [
    "C20_split_join",
    "C20_join_split",
    "C20_join",
    "C20_empty_separator"
   ],
   "note": "Strings up to 2^31 characters (positions are ints in the code)."
  },
  {
   "property": "C21",
   "status": "proved",
   "theorems": [
    "C21_hex_round_trip",
    "C21_hex2raw_reads"
   ],
   "note": "Data below 2^31 bytes (sizes are 32-bit)."
  },
  {
   "property": "C22",
   "status": "partial",
   "theorems": [
    "C22_maybehex_partial",
    "C22_maybehexstring_printable",
    "C22_maybehex_refuted",
    "C22_not_injective_refuted"
   ],
   "note": "False as stated: printable hex-looking strings are decoded. The partial theorem gives exactly the inputs that round-trip."
  },
  {
   "property": "C23",
   "status": "proved",
   "theorems": [
    "C23_escapeUnprintable",
    "C23_injective",
    "C23_plain_unchanged"
   ],
   "note": ""
  },
  {
   "property": "C24",
   "status": "proved",
   "theorems": [
    "C24_mysqlEscape",
    "C24_no_special"
   ],
   "note": "Stated against a reader for MySQL string literals."
  },
  {
   "property": "C25",
   "status": "partial",
   "theorems": [
    "C25_ipv4_round_trip_partial",
    "C25_broadcast_refuted",
    "C25_ipv4_injective",
    "C25_dotted_quad"
   ],
   "note": "Fails for 255.255.255.255 only. inet_addr is a library function modelled from its documentation."
  },
  {
   "property": "C26",
   "status": "proved",
   "theorems": [
    "C26_history",
    "C26_stable_bijection",
    "C26_getString_total"
   ],
   "note": "For histories below the documented capacity of the hash table (2 * 141650939 strings). The hash function is arbitrary; the one StringId.hpp names (HashTable_hashbytes) is not defined in the pinned tree."
  },
  {
   "property": "C27",
   "status": "partial",
   "theorems": [
    "C27_interning",
    "C27_no_undefined_behaviour",
    "C27_huge_string_refuted"
   ],
   "note": "For strings below 2^31-16 bytes and histories within the hash table capacity; refuted for a string of 2^31 bytes, whose size computation turns negative and which is written past the buffer. Any buffer size (the code has 512 KiB)."
  },
  {
   "property": "C28",
   "status": "partial",
   "theorems": [
    "C28_compare_partial",
    "C28_dictionary_order",
    "C28_embedded_nul_refuted"
   ],
   "note": "Holds for strings without NUL bytes; refuted with embedded NULs: different strings compare equal, and this equality is not transitive."
  },
  {
   "property": "C29",
   "status": "partial",
   "theorems": [
    "C29_mix_bijective",
    "C29_hash_of_all_bytes_partial",
    "C29_blocks_equidistributed",
    "C29_long_keys_refuted",
    "C29_hashes_are_words",
    "C29_small_integers_injective"
   ],
   "note": "Holds for keys shorter than 2^32 bytes; refuted for longer ones, since the remaining length is kept in a uint32_t: a key whose length is a multiple of 2^32 hashes like its length alone."
  },
  {
   "property": "C30",
   "status": "partial",
   "theorems": [
    "C30_lower_bound",
    "C30_lower_bound_unique",
    "C30_default_unsigned",
    "C30_default_signed_partial",
    "C30_default_signed_refuted"
   ],
   "note": "Proved for every comparer and estimator satisfying the documented contract and for the default estimator of unsigned 64-bit values (through Flocq binary64). For signed 64-bit values it holds when last-first fits in int64, and is refuted (signed overflow) otherwise."
  },
  {
   "property": "C31",
   "status": "proved",
   "theorems": [
    "C31_equal",
    "C31_hash",
    "C31_less",
    "C31_strict_total_order",
    "C31_any_pairs_agree",
    "C31_assign"
   ],
   "note": "All coordinates have one type in the model. BitsetAnyTupleHash names a nonexistent member and cannot be instantiated, so it is not modelled."
  },
  {
   "property": "C32",
   "status": "proved",
   "theorems": [
    "C32_merge_equals_all_samples",
    "C32_mean_variance",
    "C32_grouping_and_order_irrelevant",
    "C32_double_count_min_max",
    "C32_double_integer_sums_exact",
    "C32_double_sum_depends_on_grouping_refuted"
   ],
   "note": "Exact arithmetic, as the quantifier says: every tree of adds, merges and resets. For IEEE doubles count/min/max are exact for all samples and the sums for integers below 2^53; the rounded sum does depend on the grouping (refuted by a witness)."
  },
  {
   "property": "C33",
   "status": "partial",
   "theorems": [
    "C33_total_count",
    "C33_fixed_bins",
    "C33_scalable_bins",
    "C33_growable_bins",
    "C33_reported_edges",
    "C33_growth_limit",
    "C33_double_bin_out_of_bounds_refuted",
    "C33_scalable_empty_range_never_returns_refuted",
    "C33_growable_wraps_refuted",
    "C33_no_bins_refuted",
    "C33_index_check_off_by_one_refuted"
   ],
   "note": "Total count: any arithmetic including IEEE doubles, whenever the run completes. Right bin: exact arithmetic, all three modes. False of the code in doubles (bin index may equal num_bins: heap overflow), for scalable with low = high (never returns) and for growable beyond 2^31 bins (wraps). The Accum and logarithmic variants are claims C73 to C75."
  },
  {
   "property": "C34",
   "status": "proved",
   "theorems": [
    "C34_group_routes_each_sample",
    "C34_unique_destination"
   ],
   "note": "Exact arithmetic, every strictly increasing range list of at least two boundaries and every finite sample list below 2^64 samples."
  },
  {
   "property": "C35",
   "status": "partial",
   "theorems": [
    "C35_accounting_partial",
    "C35_too_many_buffers_refuted",
    "C35_merge_empty_refuted"
   ],
   "note": "Every history of additions, merges of other objects, resets and queries (samples compared as integers, i.e. any totally ordered values), under 1e14 samples. False of the code in two corners that the theorem excludes: more buffers than cells per buffer (the public constructor picks such sizes, e.g. error 0.1665 for 9991 samples; the first collapse writes past an array), and merging a never-used object into a used one (reads before an array)."
  },
  {
   "property": "C36",
   "status": "proved",
   "theorems": [
    "C36_searches",
    "C36_exact_before_collapse",
    "C36_rank"
   ],
   "note": "Both searches on every reachable object and every index. Exactness for all sample lists that fit, quantiles as exact rationals; C36_rank relates the rank the code asks for (it subtracts 1e-15 from q) to ceil(q*n)."
  },
  {
   "property": "C37",
   "status": "proved",
   "theorems": [
    "C37_rank_error"
   ],
   "note": "The bound is half of the sum of (weight - 1) over all collapses, plus one half, for every sample list and any sizes the constructor accepts with no more buffers than cells."
  },
  {
   "property": "C38",
   "status": "proved",
   "theorems": [
    "C38_cube_history",
    "C38_cube_of_samples"
   ],
   "note": "Every operation of StatsCube and its base HashTupleStats against maps from tuples and patterns; tied to the HashMap, HashUnique and Tuples models. Statistics over exact arithmetic in the second theorem; any statistics in the first. OptionalCubeFn and PruneFn look only at coordinates that are not any."
  },
  {
   "property": "C39",
   "status": "proved",
   "theorems": [
    "C39_every_combination_once",
    "C38_cube_history"
   ],
   "note": "walkZeros on any data; C38_cube_history has it after any program."
  },
  {
   "property": "C40",
   "status": "partial",
   "theorems": [
    "C40_sequence_partial",
    "C40_max_negative_refuted",
    "C40_overflow_refuted"
   ],
   "note": "Every history of samples, resets and mode changes, all three modes, any even max_retain, exact arithmetic. points_per_bucket is the least power of two that fits. Missing: under MergeMax negative samples are lost (the running maximum starts at 0, refuted), and after max_retain*2^30 samples the int points_per_bucket overflows (refuted)."
  },
  {
   "property": "C41",
   "status": "partial",
   "theorems": [
    "C41_autocovariance_partial",
    "C41_autocorrelation",
    "C41_short_refuted"
   ],
   "note": "exact arithmetic; for every history of samples and resets, lag < N and lag <= max_lag: equal to the textbook estimator, autocorrelation within [-1,1]; for N <= lag the unsigned subtraction wraps (refuted); rounding of doubles and iscorrelated95 not covered"
  },
  {
   "property": "C42",
   "status": "proved",
   "theorems": [
    "C42_add",
    "C42_least_squares"
   ],
   "note": "exact arithmetic; unique minimiser among all lines; fails exactly when no two x differ"
  },
  {
   "property": "C43",
   "status": "partial",
   "theorems": [
    "C43_constructor",
    "C43_ema_partial",
    "C43_min_max",
    "C43_double_refuted"
   ],
   "note": "Any set of rates and any samples, in exact arithmetic: closed form, mean during warm-up, convexity, minEMA/maxEMA. Missing: with doubles rounding can push the average above the maximum sample (refuted)."
  },
  {
   "property": "C44",
   "status": "partial",
   "theorems": [
    "C44_micro_roundtrip",
    "C44_nano_roundtrip",
    "C44_same_instant",
    "C44_monotone",
    "C44_least_tfrac",
    "C44_extraction",
    "C44_to_double",
    "C44_double_roundtrip",
    "C44_seconds_nearest",
    "C44_seconds_out_of_range",
    "C44_seconds_refuted",
    "C44_offset",
    "C44_signed_double"
   ],
   "note": "With the IEEE double arithmetic of the code: round trips of every (second, microsecond) and (second, nanosecond) pair, strict monotonicity, the Tfrac is the least one not before the instant, exact extraction from every 64-bit Tfrac, correctly rounded TfracToDouble, exact round trip through double below 2^53. Partial because secondsToTfrac is undefined for doubles whose fraction rounds up to a whole second (C44_seconds_refuted gives 1-2^-53) and for negative seconds; everywhere else it is proved within half a Tfrac."
  },
  {
   "property": "C45",
   "status": "partial",
   "theorems": [
    "C45_randInt_range",
    "C45_unbiased_first_accepted",
    "C45_unbiased",
    "C45_unbiased_accepts",
    "C45_fallback_small",
    "C45_fallback_refuted",
    "C45_longlong",
    "C45_bool",
    "C45_bool_fast",
    "C45_double_open",
    "C45_double_closed",
    "C45_double_open53",
    "C45_double_closed53",
    "C45_temper_bijection"
   ],
   "note": "For every generator of 32-bit words. The counting statement holds for the UINT32_MAX of <stdint.h> and every max; the fallback definition in the header (0xFFFFFFF, a digit short) makes it false for max above 2^28-1, shown by C45_fallback_refuted. Doubles are IEEE binary64 (Flocq). Termination of randIntUnbiased is stated relative to the generator handing out an accepted word."
  },
  {
   "property": "C46",
   "status": "proved",
   "theorems": [
    "C46_permutes",
    "C46_reaches_every_permutation",
    "C46_one_way"
   ],
   "note": "For ranges of fewer than 2^32 elements and any generator; each permutation of different elements belongs to exactly one sequence of choices."
  },
  {
   "property": "C47",
   "status": "proved",
   "theorems": [
    "C47_linearizable",
    "C47_no_update_lost",
    "C47_counter_is_word",
    "C47_obstruction_free"
   ],
   "note": "Every width, any number of threads, every schedule; the counter word is sequentially consistent (all writes to it are locked instructions or xchg). Memory fences towards other locations are not modelled."
  },
  {
   "property": "C48",
   "status": "partial",
   "theorems": [
    "C48_glibc_and_yield_locks",
    "C48_atomic_spin_lock_partial",
    "C48_atomic_spin_lock_refuted",
    "C48_free_lock_is_taken"
   ],
   "note": "GlibcPosixSpinLock and SpinLockYield: all schedules, up to 2^31 threads, on x86-TSO, including that no protected update is lost. AtomicSpinLock: false of the code (its counter wraps after 2^32 spins and a second thread enters); proved for executions shorter than 2^31 steps."
  },
  {
   "property": "C49",
   "status": "proved",
   "theorems": [
    "C49_no_deadlock",
    "C49_waits_for_a_running_thread",
    "C49_out_of_order_aborts",
    "C49_no_undefined_behaviour",
    "C49_scope_exit_never_aborts",
    "C49_double_unlock_deadlock_refuted"
   ],
   "note": "For correct use (fixed level per mutex, prepare() called, no lock object temporarily unlocked twice at once). The last condition is not checked by the code and is needed: a deadlock without it is exhibited."
  },
  {
   "property": "C50",
   "status": "partial",
   "theorems": [
    "C50_log",
    "C50_latest_partial",
    "C50_order_refuted",
    "C50_ids",
    "C50_storage_stays",
    "C50_parse",
    "C50_parse_level_refuted",
    "C50_parse_refuses"
   ],
   "note": "The exact behaviour of every history of calls is proved (C50_log), ids are stable and unique, the level storage never moves under readers, and parseDebugString sets what its text says. Partial: the latest matching setting rules only under the hypothesis of C50_latest_partial; with several matching prefixes set before the first use the earliest one wins (C50_order_refuted); parsed levels above 255 wrap (C50_parse_level_refuted)."
  },
  {
   "property": "C51",
   "status": "proved",
   "theorems": [
    "C51_most_specific",
    "C51_unique"
   ],
   "note": "A definition is an abstract value; parsing of definitions and the construction of the Stats object from it are not modelled. Names shorter than 2^31 characters."
  },
  {
   "property": "C52",
   "status": "proved",
   "theorems": [
    "C52_wraps",
    "C52_line_length",
    "C52_text_kept",
    "C52_fitting_unchanged",
    "C52_idempotent"
   ],
   "note": "Positions are unbounded naturals: texts shorter than 2^31 characters. getHelpWidth is a parameter."
  },
  {
   "property": "C53",
   "status": "partial",
   "theorems": [
    "C53_intervals_partial",
    "C53_interval_no",
    "C53_gap_refuted",
    "C53_reset_refuted",
    "C53_zero_interval_refuted",
    "C53_double_refuted"
   ],
   "note": "exact arithmetic; contents of every interval, length, counts, rejection of times going back; false corners shown as refutations: empty interval dereferences NULL, reset keeps overall statistics, zero interval and large double times never return"
  },
  {
   "property": "C54",
   "status": "proved",
   "theorems": [
    "C54_eq_meaning",
    "C54_coherent",
    "C54_epsilon",
    "C54_double_symmetric",
    "C54_double_coherent",
    "C54_infinity_refuted",
    "C54_epsilon_underflow_refuted"
   ],
   "note": "exact arithmetic as stated, and also for all finite doubles with the real rounding; infinities and an epsilon that underflows to 0 are shown as refutations"
  },
  {
   "property": "C55",
   "status": "partial",
   "theorems": [
    "C55_all_combines",
    "C55_printed",
    "C55_groups_partial",
    "C55_groups_refuted",
    "C55_print_null_refuted"
   ],
   "note": "full property for objects that are not three StatsSeriesGroups, any may be NULL; with three groups two leading All samples abort (refuted); printing with NULL entries is undefined (refuted)"
  },
  {
   "property": "C56",
   "status": "partial",
   "theorems": [
    "C56_push_own_element_partial",
    "C56_push_own_element_refuted"
   ],
   "note": "False of the code when the push has to grow the deque (use after destruction); proved otherwise."
  },
  {
   "property": "C57",
   "status": "partial",
   "theorems": [
    "C57_selfVerify_partial",
    "C57_selfVerify_refuted"
   ],
   "note": "False of the code for the default <= comparator with ties; proved for strict comparators."
  },
  {
   "property": "C58",
   "status": "partial",
   "theorems": [
    "C58_encodeBackward_partial",
    "C58_encodeBackward_refuted"
   ],
   "note": "False of the code when more digits are requested than the data fills, the documented use: out-of-bounds read."
  },
  {
   "property": "C59",
   "status": "partial",
   "theorems": [
    "C59_csv_round_trip_partial",
    "C59_csv_quotes_refuted",
    "C59_csv_newline_refuted",
    "C59_csv_injective"
   ],
   "note": "False for strings with no comma that start with a quote or contain a line break."
  },
  {
   "property": "C60",
   "status": "proved",
   "theorems": [
    "C60_prefixequal",
    "C60_suffixequal"
   ],
   "note": ""
  },
  {
   "property": "C61",
   "status": "partial",
   "theorems": [
    "C61_self_append_partial",
    "C61_self_append_refuted",
    "C61_self_assign_refuted",
    "C61_self_operator_assign"
   ],
   "note": "operator= to itself proved; append(self) holds only when the bytes fit without growing (otherwise reads freed memory); assign(self) empties the buffer."
  },
  {
   "property": "C62",
   "status": "partial",
   "theorems": [
    "C62_appendEntireStream_partial",
    "C62_appendFromStream_partial",
    "C62_shared_refuted"
   ],
   "note": "Proved for buffers with their own storage; refuted for a copy sharing empty storage with slack."
  },
  {
   "property": "C63",
   "status": "partial",
   "theorems": [
    "C63_replace_partial",
    "C63_replace_wraps_refuted"
   ],
   "note": "Proved when offset+length does not wrap size_t; refuted when it does."
  },
  {
   "property": "C64",
   "status": "proved",
   "theorems": [
    "C64_eps_guarantee",
    "C64_default"
   ],
   "note": "For every sample list within nbound, any history of queries, resets and merges of equally built objects. binomials are computed exactly in the model (doubles in the code). C64_default instantiates the default 0.01 / 1e9."
  },
  {
   "property": "C65",
   "status": "partial",
   "theorems": [
    "C65_gauss",
    "C65_solve",
    "C65_build",
    "C65_tiny_pivot_refuted",
    "C65_zero_columns_refuted",
    "C65_size_refuted"
   ],
   "note": "exact arithmetic with a positive epsilon; singular detection is by epsilon, so a system with a tiny pivot is reported unsolvable (refuted); gaussEliminate(0) and 32 bit size overflow are undefined behaviour (refuted)"
  },
  {
   "property": "C66",
   "status": "proved",
   "theorems": [
    "C66_hashunique_is_set"
   ],
   "note": "Every operation of HashUnique against a finite set, for every hash and equality that agree; tied to the HashTable model. Sequences below the table limit."
  },
  {
   "property": "C67",
   "status": "partial",
   "theorems": [
    "C67_seeded_sequence",
    "C67_sequence_unique",
    "C67_array_seeded",
    "C67_empty_array",
    "C67_never_all_zero",
    "C67_array_never_all_zero",
    "C67_reseed_bools_refuted"
   ],
   "note": "The generator is proved to be MT19937 and never to die out for all seeds, all nonempty seed arrays and all numbers of draws. Partial: seeding again does not reset the leftover bits of randBoolFast (C67_reseed_bools_refuted) and an empty seed array is undefined (C67_empty_array)."
  },
  {
   "property": "C68",
   "status": "partial",
   "theorems": [
    "C68_micro",
    "C68_micro_four_words_refuted",
    "C68_micro_period",
    "C68_micro_alive",
    "C68_lagged_partial",
    "C68_lagged_safe",
    "C68_multiple",
    "C68_recurrence_refuted",
    "C68_carry_refuted",
    "C68_seeding",
    "C68_reproducible_refuted"
   ],
   "note": "Reproducibility from a seed is false of the code: MarsagliaInner::init leaves the member i unset, so the first randInt() reads an indeterminate value. MicroRandInner assigns x twice and never z, so it has 64 bits of state instead of 128. The lagged recurrence is proved for every state whose index is set, except at products that are positive multiples of 2^32-1, where the code deviates as C68_multiple says."
  },
  {
   "property": "C69",
   "status": "partial",
   "theorems": [
    "C69_deadline",
    "C69_whole_seconds",
    "C69_monotone",
    "C69_negative",
    "C69_wait_result",
    "C69_timedlock",
    "C69_sleep_refuted"
   ],
   "note": "Deadlines are proved for now + seconds below 2^53 seconds; beyond 2^63 the conversion of floor(seconds) is undefined. The fallback pthread_mutex_timedlock sleeps 0 ns (busy waits) while clock and deadline have the same tv_nsec (C69_sleep_refuted). What the kernel does with the deadline is not modelled."
  },
  {
   "property": "C70",
   "status": "partial",
   "theorems": [
    "C70_decimal_signed",
    "C70_decimal_unsigned_partial",
    "C70_decimal_total",
    "C70_minus_refuted",
    "C70_char_refuted",
    "C70_base",
    "C70_stream",
    "C70_stream_0x",
    "C70_stream_refuses",
    "C70_garbage_refuted"
   ],
   "note": "Exact for signed types in base 10. False of the code for: a minus sign with an unsigned type (wraps), trailing text in bases 8 and 16 (ignored), 8-bit types (the character code). lexical_cast and the stream extraction are modelled from their documentation (libstdc++, C locale)."
  },
  {
   "property": "C71",
   "status": "partial",
   "theorems": [
    "C71_stable",
    "C71_count",
    "C71_environment",
    "C71_positive_refuted"
   ],
   "note": "Linux branch; files shorter than 2^31-1 bytes. NUMBER_OF_PROCESSORS=-1 is accepted and gives -1."
  },
  {
   "property": "C72",
   "status": "partial",
   "theorems": [
    "C72_mode",
    "C72_percentile",
    "C72_monotone",
    "C72_double_safe",
    "C72_outside",
    "C72_zero_refuted"
   ],
   "note": "Values in exact arithmetic, fixed and scalable histograms; memory safety also with doubles. percentile(0) is 0, outside the range, when the first bin is empty (C72_zero_refuted)."
  },
  {
   "property": "C73",
   "status": "partial",
   "theorems": [
    "C73_counts_as_uniform",
    "C73_scalable",
    "C73_fixed",
    "C73_reset",
    "C73_odd_bins_refuted",
    "C73_growable_refuted",
    "C73_value_off_by_one_refuted"
   ],
   "note": "Counts agree with the plain histogram in every arithmetic; per-bin sums are proved in exact arithmetic. False in corners, each with a witness: an odd bin count overflows the value array in the constructor, the growable flag is ignored, and value(numBins()) passes its check."
  },
  {
   "property": "C74",
   "status": "partial",
   "theorems": [
    "C74_total_count",
    "C74_scalable_bins",
    "C74_fixed_bins",
    "C74_refused",
    "C74_mode",
    "C74_percentile",
    "C74_monotone",
    "C74_double_safe",
    "C74_reset",
    "C74_index_off_by_one_refuted",
    "C74_bin_width_refuted",
    "C74_is_scalable_refuted",
    "C74_zero_refuted",
    "C74_far_sample_refuted",
    "C74_empty_range_refuted",
    "C74_infinity_refuted",
    "C74_reset_refuted"
   ],
   "note": "The count is proved in every arithmetic with any log and exp; the contents of the bins, mode and percentile over the real numbers with the true logarithm. Not proved: how far rounding of log() moves a sample that is close to the end of a bin. False of the code in corners, shown by the _refuted theorems: index equal to the number of bins, binWidth(), isScalable(), percentile(0), reset() of a widened histogram, equal ends, a far sample on a fixed range, infinity on a scalable one."
  },
  {
   "property": "C75",
   "status": "partial",
   "theorems": [
    "C75_bins",
    "C75_value_off_by_one_refuted",
    "C75_nonpositive_refuted"
   ],
   "note": "Counts and sums over the real numbers. False of the code: value(numBins()) reads outside; values that are not positive are counted, where the plain histogram refuses them."
  },
  {
   "property": "C76",
   "status": "partial",
   "theorems": [
    "C76_integral",
    "C76_sizes",
    "C76_infinite",
    "C76_convert",
    "C76_awkward_refuted",
    "C76_out_of_range",
    "C76_checked_convert",
    "C76_nan_refuted",
    "C76_large_refuted"
   ],
   "note": "The test and the conversion are characterised exactly for every double. The claim fails for NaN, which passes the test although converting it is undefined. It fails for exact integers above 2^49, which fail the test. It fails for the doubles next below one half and odd integers between 2^52 and 2^53, which are converted to an integer more than one half away. Partial for these three corners of the code."
  },
  {
   "property": "C77",
   "status": "partial",
   "theorems": [
    "C77_inverse",
    "C77_quantile",
    "C77_positive",
    "C77_zero",
    "C77_domain",
    "C77_negative_refuted",
    "C77_negative_doubles_refuted",
    "C77_quantile_refuted"
   ],
   "note": "In real arithmetic with the real erf (an integral), termination and the 10^-14 bound are proved for every y in (0, 1-2^-53]. In doubles the bound is proved for any returned value and any library functions, but not termination. For negative y the code never returns; refuted in both arithmetics."
  },
  {
   "property": "C78",
   "status": "partial",
   "theorems": [
    "C78_never_continues",
    "C78_bounded",
    "C78_ready",
    "C78_default",
    "C78_order",
    "C78_registered",
    "C78_exception",
    "C78_throw_fn",
    "C78_nested",
    "C78_bad_message",
    "C78_std_exception_refuted",
    "C78_slicing_refuted",
    "C78_register_refuted"
   ],
   "note": "Holds for programs and hooks that end, print, throw AssertBoostExceptions or fail assertions. Refuted corners of the code: a hook that throws another std::exception runs twice and hides the message, an exception of a derived class is sliced, and hooks that register or clear hooks of the running kind are undefined behaviour."
  },
  {
   "property": "C79",
   "status": "partial",
   "theorems": [
    "C79_safe_partial",
    "C79_steady",
    "C79_accurate",
    "C79_default_accurate",
    "C79_use_tod",
    "C79_slow",
    "C79_answers",
    "C79_backwards_refuted",
    "C79_use_tod_refuted",
    "C79_negative_refuted",
    "C79_boot_refuted"
   ],
   "note": "Readings of the counter and of gettimeofday, the measured rate and the measured latency are arguments; the measuring loops themselves are not modelled. False in corners, each with a witness: time runs back when the clock recalibrates; AUFSO_UseTod without calibrateClock and negative intervals are undefined; just after a reset of the counter the first answer lies in 1970."
  },
  {
   "property": "C80",
   "status": "partial",
   "theorems": [
    "C80_safe_partial",
    "C80_join",
    "C80_exclusive",
    "C80_once",
    "C80_start",
    "C80_join_waits",
    "C80_kill",
    "C80_mask_partial",
    "C80_nosignals",
    "C80_mask_refuted",
    "C80_detached_refuted",
    "C80_kill_refuted",
    "C80_destroy_refuted"
   ],
   "note": "POSIX threads are a small model of their own; one client thread, as PThread.hpp asks. False in corners, each with a witness: a failed start of a PThreadNoSignals leaves every signal of the client blocked; an object that was started detached can never be started again; kill before start or after join, and destruction before join, are undefined. The header says start can be called several times; C80_start shows that it throws until the thread is joined."
  },
  {
   "property": "C81",
   "status": "partial",
   "theorems": [
    "C81_moment",
    "C81_moment_above",
    "C81_density_partial",
    "C81_density_refuted",
    "C81_solve2",
    "C81_findZero",
    "C81_findZero_refuted",
    "C81_target",
    "C81_start",
    "C81_fit_partial",
    "C81_fit_refuted",
    "C81_normal",
    "C81_number_partial",
    "C81_usage_partial",
    "C81_usage_refuted"
   ],
   "note": "In exact arithmetic. The parts that are false of the program are refuted: the tolerances are absolute, so small desired values are accepted whatever they are; a small Newton step counts as success; a fit with a negative log_sigma draws above the limit; the lower cut-off of the density compares with a logarithm; a call without arguments dereferences a null pointer. That drand48 and the polar method give normally distributed numbers is not modelled."
  },
  {
   "property": "C82",
   "status": "partial",
   "theorems": [
    "C82_history_partial",
    "C82_no_leak",
    "C82_reference",
    "C82_prune_pure",
    "C82_copy_refuted",
    "C82_cube_keys",
    "C82_factory_throw_refuted",
    "C82_zero_walk_leak_refuted",
    "C82_null_factory_refuted"
   ],
   "note": "HashTupleStats and the cube of StatsCube with the statistics on an explicit heap; all histories of touch, walks that change what they see or throw, zero walks, prune with a stateful or throwing predicate, clear, kept references and the destructor. Proved as specified; false of the code, with witnesses: a throwing factory leaves a null entry that the next walk follows, a throwing walk function leaks the empty statistic of a zero walk, StatsCube follows a null result of the factory, and a copy of the object deletes the statistics twice."
  },
  {
   "property": "C83",
   "status": "partial",
   "theorems": [
    "C83_history_partial",
    "C83_destroyed_refuted",
    "C83_columns_refuted",
    "C83_terminator_partial",
    "C83_terminator_refuted"
   ],
   "note": "Every program of making, setting and reading options and parsing command lines and files, for every behaviour of the boost parsers, equals the specification by history. False of the code, with theorems: once an option object is destroyed no later parse succeeds, a COLUMNS variable that is not a number aborts every program at its first parse, and arguments after -- are taken by hidden options."
  },
  {
   "property": "C84",
   "status": "partial",
   "theorems": [
    "C84_scan_partial",
    "C84_no_growth",
    "C84_growth_safe",
    "C84_growth_refuted",
    "C84_reserve_refuted",
    "C84_reset_partial",
    "C84_reset_refuted",
    "C84_single_stuck"
   ],
   "note": "Proved for every table, every batch of changes between turns and every hash function, as long as the number of chains stays the same. False of the code, with theorems: a change that enlarges the table makes the scan miss elements or show them twice, a reserve that shrinks a cleared table makes partialReset assert, and reset() on an iterator whose table was emptied is not end() and shows a value nobody added."
  },
  {
   "property": "C85",
   "status": "partial",
   "theorems": [
    "C85_pointer_partial",
    "C85_room",
    "C85_add_own",
    "C85_assign_partial",
    "C85_pointer_refuted",
    "C85_assign_refuted"
   ],
   "note": "Proved for every table, growth policy of the vector and client program that does not change keys, as long as the element is not removed and the size stays within the capacity the pointer was obtained under; reserve(n) gives that capacity. False without room: the next add can move the table (C85_pointer_refuted), and m[a] = m[b] reads or writes a dangling reference for either order of evaluation (C85_assign_refuted)."
  },
  {
   "property": "C86",
   "status": "partial",
   "theorems": [
    "C86_accept_partial",
    "C86_forms_partial",
    "C86_continue",
    "C86_reject",
    "C86_no_failure_partial",
    "C86_other_exception",
    "C86_vacuous_refuted",
    "C86_drops_hooks"
   ],
   "note": "Proved for every code under test that registers no hooks, every message list without the text \"no invariant happened\", and every state without hooks. False for a list that holds that text (C86_vacuous_refuted)."
  },
  {
   "property": "C87",
   "status": "partial",
   "theorems": [
    "C87_environment",
    "C87_parts",
    "C87_deptool_partial",
    "C87_malformed",
    "C87_total",
    "C87_command",
    "C87_absent_refuted",
    "C87_long_line",
    "C87_long_line_refuted"
   ],
   "note": "Proved for every environment and every output of lines of at most 198 characters. False: the promised empty structure when deptool is not installed (C87_absent_refuted), and outputs with longer lines (C87_long_line_refuted)."
  },
  {
   "property": "C88",
   "status": "partial",
   "theorems": [
    "C88_own_clock",
    "C88_same_clock_partial",
    "C88_no_deadlock",
    "C88_failure_ends",
    "C88_uninitialised",
    "C88_early_refuted",
    "C88_store_refuted"
   ],
   "note": "Proved for every schedule, number of threads and use of keys by other code, if perThreadInit has returned before the first call of perThread, and for the same clock at every call if pthread_setspecific does not fail. False otherwise (C88_early_refuted, C88_store_refuted)."
  },
  {
   "property": "C89",
   "status": "partial",
   "theorems": [
    "C89_finite_partial",
    "C89_accuracy_partial",
    "C89_single",
    "C89_equal_integers",
    "C89_no_samples",
    "C89_resets",
    "C89_overflow_refuted",
    "C89_equal_samples_refuted",
    "C89_cancellation_refuted",
    "C89_relative_refuted"
   ],
   "note": "Proved in IEEE doubles for every program of adds, merges and resets whose samples are at most 2^e in magnitude with -500 <= e <= 480, and up to 2^53 samples per object, with error bounds relative to the largest sample. False for larger samples (NaN), for equal samples that are not integers (deviation above 0), for close ones (deviation 0) and for relconf95 of samples that are not positive."
  },
  {
   "property": "C90",
   "status": "partial",
   "theorems": [
    "C90_first_use_alone_partial",
    "C90_after_quiet_partial",
    "C90_round_trip_partial",
    "C90_right_or_undefined",
    "C90_published_early_refuted",
    "C90_two_tables_refuted"
   ],
   "note": "Proved for every schedule and number of threads if the first decode of the program returned before another began, and for any schedule of first uses once a decode has returned and none is under way. False for overlapping first uses. Sequentially consistent interleavings."
  },
  {
   "property": "C91",
   "status": "partial",
   "theorems": [
    "C91_push_own_partial",
    "C91_push_full_refuted",
    "C91_push_tie_refuted",
    "C91_update_top_partial",
    "C91_update_top_refuted"
   ],
   "note": "push(top()) works while there is room. False of the code: on a full queue the argument is read after its array was deleted; with a strict comparator and ties push may add another element than the one passed; replaceTop(top()) after changing the top in place loses it and duplicates another element whenever it has to move."
  },
  {
   "property": "C92",
   "status": "partial",
   "theorems": [
    "C92_fixed",
    "C92_new_is_empty",
    "C92_scalable",
    "C92_log_scalable",
    "C92_reset_range_refuted",
    "C92_grown_refuted",
    "C92_inherited_refuted",
    "C92_series_group_refuted"
   ],
   "note": "Proved for Stats, StatsSeries, StatsSequence (reset), the four histogram classes and StatsHistogramGroup with uniform sub-histograms (reset): with fixed ranges reset() gives back the constructed object after every history and another_new() returns an equal one, in every arithmetic; for scalable ranges another_new() equals the reset object (rationals for uniform, reals for logarithmic). False of the code: reset() keeps a doubled range, a growable histogram that grew to an odd number of bins has a different successor, StatsSeriesGroup::reset keeps its Stats part, and StatsQuantile, StatsEMA, StatsSequence, StatsSeriesGroup and StatsHistogramGroup inherit another_new() and return a plain Stats. StatsEMA::reset is unimplemented."
  },
  {
   "property": "C93",
   "status": "proved",
   "theorems": [
    "C93_kth",
    "C93_any",
    "C93_refused",
    "C93_exact",
    "C93_eps",
    "C93_adjustment_needed"
   ],
   "note": "getQuantile with its index computed in IEEE doubles (Flocq), for every object reachable by additions, merges, resets and queries with fewer than 1e14 samples; the histories exclude the corners refuted under C35. The parameters of the constructor are exact rationals, as in C64."
  },
  {
   "property": "C94",
   "status": "partial",
   "theorems": [
    "C94_ranges",
    "C94_ranges_any",
    "C94_count_refuted",
    "C94_other",
    "C94_tail",
    "C94_rome"
   ],
   "note": "In IEEE doubles (Flocq), for every object reachable by additions, merges, resets and queries (corners refuted under C35 excluded). Exact up to 8192 ranges; beyond that the number of rows is bounded and C94_count_refuted shows that it can be off by one. The text around the numbers and printf rounding are not modelled."
  },
  {
   "property": "C95",
   "status": "partial",
   "theorems": [
    "C95_fits_partial",
    "C95_exact_partial",
    "C95_whole",
    "C95_overflow_refuted",
    "C95_too_much_refuted",
    "C95_error",
    "C95_read0",
    "C95_read"
   ],
   "note": "readN is right when at most nbyte bytes are left, and when the lengths of the reads add up to nbyte; C95_overflow_refuted shows that on every longer file a single short read makes it write behind the buffer. The kernel is a script of short reads and failures."
  },
  {
   "property": "C96",
   "status": "partial",
   "theorems": [
    "C96_partial",
    "C96_negative",
    "C96_two_sided_refuted",
    "C96_never"
   ],
   "note": "Exact rational autocorrelation, real logarithm and square root, fewer than 2^32 samples. The test is one-sided, unlike its comment (C96_two_sided_refuted)."
  },
  {
   "property": "C97",
   "status": "partial",
   "theorems": [
    "C97_partial",
    "C97_refuted",
    "C97_all_or_nothing",
    "C97_empty_refuted"
   ],
   "note": "With the samples in one buffer the result is right exactly when twice their number is the buffer size plus one (C97_partial); for every other number all later queries abort (C97_refuted). For objects with more buffers C97_all_or_nothing says what can happen when the call returns; that it returns is not proved."
  },
  {
   "property": "C98",
   "status": "partial",
   "theorems": [
    "C98_partial",
    "C98_255_refuted",
    "C98_negative_refuted",
    "C98_no_category_refuted"
   ],
   "note": "For elements whose level has no minus sign, in any program of LintelLog calls. 255 is refused, -4294967295 is taken as 1, a missing category is taken as the empty name. The XML parser is not modelled."
  },
  {
   "property": "C99",
   "status": "partial",
   "theorems": [
    "C99_partial",
    "C99_flags_ignored_refuted",
    "C99_negative_refuted"
   ],
   "note": "Missing: for LogAccum scalable and growable and for Log growable are dropped without a complaint, and a negative number of bins is converted to one above 2^31."
  },
  {
   "property": "C100",
   "status": "proved",
   "theorems": [
    "C100_range_equal"
   ],
   "note": ""
  },
  {
   "property": "C101",
   "status": "partial",
   "theorems": [
    "C101_partial",
    "C101_long_refuted",
    "C101_error_refuted"
   ],
   "note": "False for texts of 1024 characters and more, and on a formatting error."
  },
  {
   "property": "C102",
   "status": "partial",
   "theorems": [
    "C102_partial",
    "C102_order",
    "C102_overflow_refuted",
    "C102_fits_refuted"
   ],
   "note": "Undefined outside of 64 bits, and for a last second before 1970 whose nanoseconds would fit."
  },
  {
   "property": "C103",
   "status": "proved",
   "theorems": [
    "C103_process_statistics",
    "C103_unreadable"
   ],
   "note": "The file is a line of numbers as the Linux kernel writes it."
  },
  {
   "property": "C104",
   "status": "partial",
   "theorems": [
    "C104_partial",
    "C104_leak_refuted",
    "C104_copy_refuted",
    "C104_large_refuted",
    "C104_outside_refuted"
   ],
   "note": "For programs that use living matrices, inside of them, without copies and with sizes whose product is an unsigned int. False: every resize leaks its array; copies share it and free it twice; larger sizes wrap."
  },
  {
   "property": "C105",
   "status": "partial",
   "theorems": [
    "C105_partial",
    "C105_roundtrip",
    "C105_high_refuted"
   ],
   "note": "For ASCII strings, \"C\" locale. Characters from 128 to 254 are passed to <ctype.h> as negative numbers, which is undefined."
  },
  {
   "property": "C106",
   "status": "partial",
   "theorems": [
    "C106_partial",
    "C106_nul_refuted"
   ],
   "note": "strtod itself is a parameter. False for strings with a NUL: what follows it is ignored."
  },
  {
   "property": "C107",
   "status": "partial",
   "theorems": [
    "C107_partial",
    "C107_given_back",
    "C107_series_refuted",
    "C107_growth_refuted",
    "C107_logaccum_refuted"
   ],
   "note": "Which memory is held is exact for every program. Given back completely only without growable histograms and StatsHistogramLogAccum; deleting a StatsSeries is undefined (delete of arrays)."
  },
  {
   "property": "C108",
   "status": "proved",
   "theorems": [
    "C108_downcast",
    "C108_upcast",
    "C108_crosscast",
    "C108_ref",
    "C108_roundtrip"
   ],
   "note": "Public, non-virtual inheritance. dynamic_cast is modelled as the language defines it."
  },
  {
   "property": "C109",
   "status": "partial",
   "theorems": [
    "C109_partial",
    "C109_tell",
    "C109_relative_refuted",
    "C109_minus_one_refuted",
    "C109_modes",
    "C109_open",
    "C109_reopen_refuted"
   ],
   "note": "fflush and lseek as POSIX defines them, and without errors of the device. Positions are right; the result of fseek64 is wrong for relative seeks and for -1; freopen64 keeps one descriptor more in use each time."
  },
  {
   "property": "C110",
   "status": "proved",
   "theorems": [
    "C110_exclusive",
    "C110_guarded",
    "C110_self"
   ],
   "note": "Threads with scopes, exceptions and handlers under any schedule; a mutex of the default kind. pthread_mutex_init and destroy are not modelled."
  },
  {
   "property": "C111",
   "status": "proved",
   "theorems": [
    "C111_raw",
    "C111_dense"
   ],
   "note": "For hash functions that agree with equality, on every table a program can build. The order of the raw vector is not fixed."
  },
  {
   "property": "C112",
   "status": "proved",
   "theorems": [
    "C112_chain_lengths"
   ],
   "note": "The numbers passed to stats.add, in order; what a statistic makes of them is C32 and others."
  },
  {
   "property": "C113",
   "status": "proved",
   "theorems": [
    "C113_default",
    "C113_all",
    "C113_means"
   ],
   "note": "Over exact arithmetic, below the size limit of the hash table; the walk order is left open."
  },
  {
   "property": "C114",
   "status": "partial",
   "theorems": [
    "C114_rate",
    "C114_between",
    "C114_useful",
    "C114_measure",
    "C114_ends_partial",
    "C114_ends_refuted"
   ],
   "note": "Exact arithmetic; the readings are a script and the test of the confidence interval is a parameter. Ending is proved if 400 measurements always suffice; otherwise the loop never ends although it says it tries again. Pauses and messages are not modelled."
  },
  {
   "property": "C115",
   "status": "partial",
   "theorems": [
    "C115_latency",
    "C115_initial",
    "C115_still_refuted",
    "C115_outlier_refuted"
   ],
   "note": "Exact arithmetic. False of the code: the cycles per quantum are averaged without sorting, so one outlier spoils them; with a clock that stands still the latency is never returned."
  },
  {
   "property": "C116",
   "status": "partial",
   "theorems": [
    "C116_no_scaling",
    "C116_scaling",
    "C116_refuses",
    "C116_answers_partial",
    "C116_answers_refuted",
    "C116_left_open",
    "C116_closes_refuted"
   ],
   "note": "The names and files under /sys/devices/system/cpu are arguments. False of the code: an empty file, or one whose first line is long or holds a zero byte, ends the program instead of counting as scaling; when scaling is found the directory is never closed."
  },
  {
   "property": "C117",
   "status": "partial",
   "theorems": [
    "C117_read",
    "C117_read_bytes",
    "C117_write",
    "C117_extend",
    "C117_wrap_refuted",
    "C117_align_refuted"
   ],
   "note": "On the ByteBuffer model of C13-C15. False of the code: when elements times sizeof(T) wraps, any number is accepted; writeStartAs is not aligned after an odd number of bytes."
  },
  {
   "property": "C118",
   "status": "partial",
   "theorems": [
    "C118_cdf",
    "C118_cdf_shape",
    "C118_beyond_partial",
    "C118_beyond_refuted",
    "C118_pdf",
    "C118_quantile",
    "C118_cdf_double",
    "C118_beyond_double",
    "C118_pdf_double"
   ],
   "note": "Over real numbers with the true erf and exp and the constants of the code as doubles; also in doubles for every erf and exp with a known error (C118_pdf_double for arguments up to 2^500). False of the code: probAbsNormal of a negative number is not 1."
  },
  {
   "property": "C119",
   "status": "partial",
   "theorems": [
    "C119_fqdn",
    "C119_long_name",
    "C119_fqdn_refuted",
    "C119_error",
    "C119_error_xsi",
    "C119_wide",
    "C119_wide_back",
    "C119_multibyte_refuted"
   ],
   "note": "gethostname, getaddrinfo, strerror_r and the facet of the locale are arguments. False of the code: host names above 1023 bytes are cut off or end the program; characters of several bytes are converted byte by byte."
  }
 ]
}
