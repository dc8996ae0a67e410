{
 "claims": [
  {
   "property": "C01",
   "status": "proved",
   "theorems": [
    "C01_core_masks_one_copy",
    "C01_basic_masks_one_copy",
    "C01_tmr_masks_one_copy"
   ],
   "note": "All three containers, arbitrary T with lawful ==, arbitrary copy and value."
  },
  {
   "property": "C02",
   "status": "proved",
   "theorems": [
    "C02_core_history",
    "C02_basic_history",
    "C02_basic_hasErrors"
   ],
   "note": "History induction for the two containers with repair(); hasErrors characterised."
  },
  {
   "property": "C03",
   "status": "proved",
   "theorems": [
    "C03_stats_exact",
    "C03_detected_is_sum"
   ],
   "note": "Counters and callback log equal the independent reference bookkeeping (an inductive relation proved functional)."
  },
  {
   "property": "C04",
   "status": "proved",
   "theorems": [
    "C04_masks_one_copy",
    "C04_hasErrors",
    "C04_repair"
   ],
   "note": "Every unordered_map iteration order (arbitrary permutation chosen afresh at every call) and every spaced history."
  },
  {
   "property": "C05",
   "status": "partial",
   "theorems": [
    "C05_error_count_refuted",
    "C05_two_repairs_counted_once_refuted"
   ],
   "note": "REFUTED by the code: repair() calls set(), which zeroes the counter, so getErrorCount() is at most 1 after any history (proved for all histories)."
  },
  {
   "property": "C06",
   "status": "partial",
   "theorems": [
    "C06_float_single_flip_partial",
    "C06_float_single_flip_refuted"
   ],
   "note": "REFUTED as stated: stored NaN, or sign flip of a stored zero, in copy 0 is returned corrupted. The exact condition (iff) is proved for every value, copy and bit."
  },
  {
   "property": "C07",
   "status": "proved",
   "theorems": [
    "C07_space_bitLevelVote_is_majority",
    "C07_bitLevelVote_is_majority"
   ],
   "note": "All arithmetic types of 1,2,4,8 bytes (long double is not modelled: the 16-byte memcpy into an 8-byte temporary is out of scope of the anchors)."
  },
  {
   "property": "C08",
   "status": "proved",
   "theorems": [
    "C08_integer_votes_are_majority",
    "C08_float_votes_are_majority"
   ],
   "note": "Integers: every strategy and every content of the uninitialised upper bytes; float/double: same unless zeros of opposite sign meet (exact hypothesis in the theorem)."
  },
  {
   "property": "C09",
   "status": "proved",
   "theorems": [
    "C09_disjoint_upsets_corrected"
   ],
   "note": "All three masks arbitrary as long as no bit position is hit twice."
  },
  {
   "property": "C10",
   "status": "partial",
   "theorems": [
    "C10_single_bit_recognised_partial",
    "C10_small_types_refuted",
    "C10_no_ub_up_to_32_bits_partial",
    "C10_ub_for_64_bit_refuted"
   ],
   "note": "REFUTED: 1/2-byte types read uninitialised bytes; 64-bit types execute an out-of-range shift exactly when the upset is not inside bits 0-7, 8-15, 16-23 or 24-63 (iff proved). Positive: exact-width types always recognise a single bit; no UB up to 32 bits."
  },
  {
   "property": "C11",
   "status": "partial",
   "theorems": [
    "C11_enhanced_voting_never_adjacent_refuted",
    "C11_enhanced_tmr_adjacent_partial"
   ],
   "note": "REFUTED for EnhancedVoting (never reports ADJACENT_BITS, for any input); proved for EnhancedTMR's detector for runs of 2 and 3."
  },
  {
   "property": "C12",
   "status": "partial",
   "theorems": [
    "C12_agreeing_pair_wins",
    "C12_equal_weights_majority_partial",
    "C12_zero_weights_refuted"
   ],
   "note": "REFUTED for zero weights (result is all ones, for all distinct integers). Agreement case proved; equal weights give the majority for weights in [2^-100,2^100]."
  },
  {
   "property": "C54",
   "status": "partial",
   "theorems": [
    "C54_byte_error_is_one_byte_partial",
    "C54_byte_error_64_refuted"
   ],
   "note": "Proved as iff for 32-bit types; REFUTED for 64-bit types (any multi-bit mask within bits 24-63 is BYTE_ERROR)."
  },
  {
   "property": "C55",
   "status": "partial",
   "theorems": [
    "C55_confidence_pattern_agrees",
    "C55_confidence_range_partial",
    "C55_small_type_confidence_refuted"
   ],
   "note": "Same pattern proved for all types; range proved for exact-width types; REFUTED for 1-byte types (uninitialised bytes make it negative)."
  },
  {
   "property": "C13",
   "status": "proved",
   "theorems": [
    "C13_all_crc_agree"
   ],
   "note": "Five implementations incl. generated and literal table, all byte strings. memory::MemoryScrubber's sixth variant is wrong, see C57."
  },
  {
   "property": "C14",
   "status": "proved",
   "theorems": [
    "C14_bursts_detected",
    "C14_injective_up_to_4_bytes"
   ],
   "note": "Arbitrary length; <= 4-byte injectivity as second theorem."
  },
  {
   "property": "C15",
   "status": "proved",
   "theorems": [
    "C15_double_bit_errors_detected",
    "C15_bound_is_tight"
   ],
   "note": "Bound 2^29 bytes shown exact by a second theorem."
  },
  {
   "property": "C56",
   "status": "proved",
   "theorems": [
    "C56_six_bit_flips_detected"
   ],
   "note": ""
  },
  {
   "property": "C57",
   "status": "partial",
   "theorems": [
    "C57_scrubber_crc_blind_refuted"
   ],
   "note": "REFUTED: the literal table misses one row (252 initialisers); for every context a one-bit flip is invisible."
  },
  {
   "property": "C16",
   "status": "proved",
   "theorems": [
    "C16_one_copy_and_checksum_masked",
    "C16_integers_exact",
    "C16_repair_restores"
   ],
   "note": "Every type, copy index and corrupted cell; float zero may come back with the corrupted copy's sign (r = v or r = the corrupted pattern, proved). NaN is C58."
  },
  {
   "property": "C17",
   "status": "proved",
   "theorems": [
    "C17_survivor_found",
    "C17_space_survivor_found",
    "C17_any_corruption_up_to_4_bytes"
   ],
   "note": "Bursts of up to 32 bits in two copies; any corruption for <= 4 bytes; both classes."
  },
  {
   "property": "C18",
   "status": "partial",
   "theorems": [
    "C18_detected_is_corrected_plus_uncorrectable",
    "C18_get_counts_checksum_errors_partial",
    "C18_disagreement_counted_refuted"
   ],
   "note": "Balance proved over all histories. REFUTED: copies disagreeing with valid checksums are voted over without counting. get counts exactly the checksum errors (proved)."
  },
  {
   "property": "C19",
   "status": "proved",
   "theorems": [
    "C19_one_copy_and_checksum_masked",
    "C19_integers_exact",
    "C19_repair_restores",
    "C19_statistics_balance"
   ],
   "note": "Same scope as C16, plus balance of the statistics."
  },
  {
   "property": "C20",
   "status": "partial",
   "theorems": [
    "C20_terminates_partial",
    "C20_integers_terminate",
    "C20_terminates_refuted",
    "C20_reachable_refuted"
   ],
   "note": "REFUTED: two finite copies of which one is zero, third non-finite, no valid checksum: get() recurses forever. The exact set of such states is proved (iff); integers always terminate."
  },
  {
   "property": "C58",
   "status": "partial",
   "theorems": [
    "C58_nan_is_protected_refuted",
    "C58_nan_value_corruption_partial"
   ],
   "note": "REFUTED for every NaN (verify() is false right after set, one corrupted cell wins). Value-only corruption is survived (proved)."
  },
  {
   "property": "C59",
   "status": "proved",
   "theorems": [
    "C59_median_of_distinct"
   ],
   "note": ""
  },
  {
   "property": "C60",
   "status": "proved",
   "theorems": [
    "C60_vote_stays_finite"
   ],
   "note": ""
  },
  {
   "property": "C61",
   "status": "partial",
   "theorems": [
    "C61_verify_success_means_agreement_refuted",
    "C61_verify_sound_for_value_upsets_partial"
   ],
   "note": "REFUTED: verify() never compares the copies when the checksums are valid. Sound for value upsets that leave checksums alone (proved)."
  },
  {
   "property": "C21",
   "status": "proved",
   "theorems": [
    "C21_get_returns_agreed_value"
   ],
   "note": "Every state, clock, draw, voting mode; the callback is assumed not to call back (that case is C62)."
  },
  {
   "property": "C22",
   "status": "proved",
   "theorems": [
    "C22_health_in_range",
    "C22_health_positive_with_setRawCopy"
   ],
   "note": "binary64 arithmetic via Flocq, every history; (0,1] with setRawCopy."
  },
  {
   "property": "C23",
   "status": "partial",
   "theorems": [
    "C23_clone_refuted",
    "C23_other_operations_return_partial"
   ],
   "note": "REFUTED for every state: clone() re-locks the mutex it holds. All other operations return with the mutex released (proved over histories)."
  },
  {
   "property": "C24",
   "status": "partial",
   "theorems": [
    "C24_integers",
    "C24_all_types_partial",
    "C24_repair_restores",
    "C24_nan_key_refuted"
   ],
   "note": "Proved for all integer types and for float/double unless the corrupted copy is a NaN whose checksum also matches; REFUTED there: NaN is inserted as a std::map key (broken strict weak order)."
  },
  {
   "property": "C25",
   "status": "partial",
   "theorems": [
    "C25_minority_wins_refuted",
    "C25_pair_wins_partial"
   ],
   "note": "REFUTED by a reachable state (degraded health): a checksum-valid minority wins. Proved: the pair wins on every reachable state when the third copy fails its checksum or is not healthier than both."
  },
  {
   "property": "C26",
   "status": "proved",
   "theorems": [
    "C26_ranges",
    "C26_history_is_most_recent"
   ],
   "note": ""
  },
  {
   "property": "C62",
   "status": "partial",
   "theorems": [
    "C62_reentrant_callback_refuted"
   ],
   "note": "REFUTED for every state in which copy 0 fails its CRC. Non-re-entrant callbacks always return: C23_other_operations_return_partial."
  },
  {
   "property": "C63",
   "status": "partial",
   "theorems": [
    "C63_bad_crc_returned_refuted"
   ],
   "note": "REFUTED: within the verification interval, draw 0 returns copy 0 with a bad CRC."
  },
  {
   "property": "C27",
   "status": "proved",
   "theorems": [
    "C27_integral",
    "C27_float_double"
   ],
   "note": "Integral template for every width; float/double specialisations for every non-NaN v (zero may come back with the corrupted copy's sign)."
  },
  {
   "property": "C28",
   "status": "partial",
   "theorems": [
    "C28_repair_result_partial",
    "C28_restored_iff_no_bit_set_partial",
    "C28_second_upset_wins_refuted",
    "C28_float_double_restored"
   ],
   "note": "REFUTED: every 0->1 flip is taken for a stuck bit at once and never repaired; a second upset of another copy is then returned. Exact result of repair() proved; float/double specialisations do restore."
  },
  {
   "property": "C29",
   "status": "partial",
   "theorems": [
    "C29_stuck_at_1_partial",
    "C29_stuck_at_0_refuted",
    "C29_vote_stays_correct"
   ],
   "note": "Stuck-at-1 proved (identified after 3 repairs, excluded from the vote for all later contents). REFUTED for stuck-at-0, for any number of repairs."
  },
  {
   "property": "C30",
   "status": "partial",
   "theorems": [
    "C30_integers_exact_partial",
    "C30_bool_refuted",
    "C30_float_refuted",
    "C30_float_exact_partial"
   ],
   "note": "Proved for all 8 integer types. REFUTED for bool (true reads back false); floats just above 1e6 are also changed (witness + exact condition)."
  },
  {
   "property": "C31",
   "status": "partial",
   "theorems": [
    "C31_exact_copy_refuted",
    "C31_unsigned_never_masked_refuted",
    "C31_other_copies_partial",
    "C31_approximation_error_partial",
    "C31_signed_multiples_masked_partial",
    "C31_all_exact_config_masks"
   ],
   "note": "REFUTED: corruption of the EXACT copy is returned unless reduce(v) = clamp(v) (iff); never masked for unsigned types. Copies 1 and 2: proved."
  },
  {
   "property": "C64",
   "status": "partial",
   "theorems": [
    "C64_unsigned_constant_refuted",
    "C64_signed_clamp_partial"
   ],
   "note": "REFUTED for unsigned types: the clamp is the constant 2^(w-1)+1. Proved for signed types."
  },
  {
   "property": "C32",
   "status": "partial",
   "theorems": [
    "C32_vote",
    "C32_applies_to_arithmetic_types",
    "C32_zero_executions_refuted"
   ],
   "note": "Proved for n >= 1 over every stateful operation and every result type with a strict weak order (shown for all arithmetic types away from NaN); ties go to the smallest result. REFUTED for n = 0: end() is dereferenced."
  },
  {
   "property": "C33",
   "status": "proved",
   "theorems": [
    "C33_checkpoints"
   ],
   "note": "For arbitrary clocks (not only monotone), capacities including 0 and intervals."
  },
  {
   "property": "C34",
   "status": "partial",
   "theorems": [
    "C34_second_set_lost_refuted",
    "C34_first_set_lost_refuted",
    "C34_spaced_sets_partial"
   ],
   "note": "REFUTED: a set() less than 30 s after the last accepted one is silently not checkpointed, rollback() restores the older value (or fails). Proved when sets are at least the interval apart."
  },
  {
   "property": "C65",
   "status": "partial",
   "theorems": [
    "C65_repair_always_reports_success_partial",
    "C65_copies_still_differ_refuted"
   ],
   "note": "REFUTED: repair() returns true in every state (the comparison reads the same memory), also when a copy stays wrong."
  },
  {
   "property": "C66",
   "status": "proved",
   "theorems": [
    "C66_get_under_faults",
    "C66_get_without_faults"
   ],
   "note": "Integral T, tracker without identified stuck bits (as after set())."
  },
  {
   "property": "C35",
   "status": "proved",
   "theorems": [
    "C35_fixed_vector_is_bounded_list"
   ],
   "note": "operator[] is covered under its documented precondition i < size."
  },
  {
   "property": "C36",
   "status": "proved",
   "theorems": [
    "C36_fixed_map_is_bounded_map"
   ],
   "note": "For every key type with an equality test that decides equality."
  },
  {
   "property": "C37",
   "status": "partial",
   "theorems": [
    "C37_blocks_safe_partial",
    "C37_throws_iff_full_partial",
    "C37_size_overflow_refuted",
    "C37_overaligned_refuted",
    "C37_zero_at_capacity_refuted"
   ],
   "note": "REFUTED for requests whose byte size wraps modulo 2^64 (granted although larger than the pool), for over-aligned T, and for allocate(0) on a full pool (out-of-range subscript). Proved for n >= 1 without wrap and storage aligned for T, over every history."
  },
  {
   "property": "C38",
   "status": "partial",
   "theorems": [
    "C38_scrub_restores_partial",
    "C38_get_value_or_error_partial",
    "C38_error_iff_loose_burst_refuted",
    "C38_small_types_junk_refuted"
   ],
   "note": "REFUTED: get() reports ValueCorruptionError for one corrupted copy exactly when the upset is a loose burst (characterised), and for 1/2-byte types also depending on uninitialised bytes. scrub() always restores; get() never returns a third value."
  },
  {
   "property": "C39",
   "status": "proved",
   "theorems": [
    "C39_get_repairs",
    "C39_scrub_reports_change"
   ],
   "note": "Integers of at most 4 bytes, any junk in the temporaries. scrub() without argument does not compile and is not modelled."
  },
  {
   "property": "C40",
   "status": "proved",
   "theorems": [
    "C40_roundtrip",
    "C40_single_stored_bit",
    "C40_spread_flips_corrected",
    "C40_exact_loss"
   ],
   "note": "With the exact set of lost logical bits for every flip mask."
  },
  {
   "property": "C41",
   "status": "partial",
   "theorems": [
    "C41_adjacent_flips_corrupt_refuted",
    "C41_boundary_pairs_partial"
   ],
   "note": "REFUTED for every value and logical bit: adjacent stored bits 3i,3i+1 and 3i+1,3i+2 belong to the same logical bit. Only boundary pairs are harmless."
  },
  {
   "property": "C67",
   "status": "partial",
   "theorems": [
    "C67_converted_allocator_refuted",
    "C67_equal_but_not_interchangeable_refuted",
    "C67_reset_usable_partial"
   ],
   "note": "REFUTED: the converting constructor leaves next_free_ indeterminate; operator== ignores that storage is per object. reset() makes it usable."
  },
  {
   "property": "C68",
   "status": "partial",
   "theorems": [
    "C68_transform_value_partial",
    "C68_error_not_propagated_refuted"
   ],
   "note": "REFUTED for errors (get() of the propagated error reads uninitialised copies); proved for values. bind() does not compile for ProtectedValue results and is not modelled."
  },
  {
   "property": "C42",
   "status": "proved",
   "theorems": [
    "C42_counters_exact",
    "C42_history_bounded_at_every_moment"
   ],
   "note": "All interleavings of atomic steps (sequentially consistent), counters modulo 2^64; history contents, order and per-thread completeness."
  },
  {
   "property": "C43",
   "status": "partial",
   "theorems": [
    "C43_objects_interfere_refuted",
    "C43_counters_independent_partial"
   ],
   "note": "REFUTED: the function-local statics of updateErrorRate are shared by all objects (C43_objects_interfere_refuted). Proved part: the counters are independent."
  },
  {
   "property": "C44",
   "status": "proved",
   "theorems": [
    "C44_registry_history",
    "C44_scrub_sees_memory"
   ],
   "note": "All histories with fewer than 2^64 registrations; callbacks are arbitrary functions of the memory."
  },
  {
   "property": "C69",
   "status": "partial",
   "theorems": [
    "C69_rate_never_above_half_refuted",
    "C69_racing_rate_refuted"
   ],
   "note": "REFUTED: seconds(1).count() is 1 while time differences are in clock ticks, so a single thread never reports more than 0.5/s however fast errors arrive; a race makes the difference wrap to about 2^64."
  },
  {
   "property": "C70",
   "status": "partial",
   "theorems": [
    "C70_rate_after_reset_refuted",
    "C70_torn_reset_refuted",
    "C70_reset_alone_partial"
   ],
   "note": "REFUTED: the statics survive reset (rate above 10^6 after one error) and a reset inside a recordError leaves counters inconsistent. Proved part: reset with nothing else running gives a fresh tracker."
  },
  {
   "property": "C71",
   "status": "partial",
   "theorems": [
    "C71_distribution_200_percent_refuted",
    "C71_distribution_quiescent_partial"
   ],
   "note": "REFUTED: 200% with one preemption. Proved part: with nothing else running all entries are in [0,1]."
  },
  {
   "property": "C72",
   "status": "proved",
   "theorems": [
    "C72_recent_errors",
    "C72_no_deadlock"
   ],
   "note": "All interleavings, no reset on the object; progress of the whole system."
  },
  {
   "property": "C73",
   "status": "partial",
   "theorems": [
    "C73_reentrant_callback_refuted",
    "C73_plain_callbacks_partial"
   ],
   "note": "REFUTED: scrubOnce holds the non-recursive mutex while running callbacks. Proved part: callbacks that do not call back run once each, in order."
  },
  {
   "property": "C74",
   "status": "partial",
   "theorems": [
    "C74_no_scrub_after_stop_partial",
    "C74_stop_completes_partial",
    "C74_concurrent_start_terminates_refuted"
   ],
   "note": "Proved for one controlling thread; REFUTED for two concurrent start() calls (std::terminate)."
  },
  {
   "property": "C75",
   "status": "partial",
   "theorems": [
    "C75_handles_sequential_partial",
    "C75_concurrent_registration_refuted",
    "C75_after_move_refuted"
   ],
   "note": "Proved for sequential histories; REFUTED for two racing registrations and after a move."
  },
  {
   "property": "C76",
   "status": "partial",
   "theorems": [
    "C76_untouched_small_regions_partial",
    "C76_untouched_65_bytes_refuted",
    "C76_blocks_unlike_the_last_refuted"
   ],
   "note": "Proved for regions of at most 64 bytes; REFUTED for larger ones (only the last block's checksum is kept)."
  },
  {
   "property": "C77",
   "status": "partial",
   "theorems": [
    "C77_corruption_accepted_refuted",
    "C77_all_counted_corrected_refuted",
    "C77_blind_refuted",
    "C77_small_region_report_partial"
   ],
   "note": "REFUTED: memory is never written, all detected errors are counted corrected, corrupted contents are accepted by the next cycle, and the CRC is blind to some changes. Proved part: exact report condition for small regions."
  },
  {
   "property": "C78",
   "status": "partial",
   "theorems": [
    "C78_move_deadlock_refuted",
    "C78_move_loses_thread_refuted"
   ],
   "note": "REFUTED: deadlock reachable, and every completed move leaves the new object without a thread. No positive part holds."
  },
  {
   "property": "C79",
   "status": "partial",
   "theorems": [
    "C79_backup_restore_partial",
    "C79_compare_counts_partial",
    "C79_byte_count_backup_refuted",
    "C79_byte_count_compare_refuted"
   ],
   "note": "REFUTED for the documented byte size (out-of-bounds when sizeof(T) > 1); proved when size is the number of elements."
  },
  {
   "property": "C45",
   "status": "partial",
   "theorems": [
    "C45_add_sub_partial",
    "C45_multiply_floor_partial",
    "C45_multiply_real_partial",
    "C45_multiply_wraps_partial",
    "C45_divide_partial",
    "C45_divide_negative_refuted",
    "C45_multiply_64_refuted"
   ],
   "note": "REFUTED: dividing a negative value shifts it left (undefined in C++17), and 64-bit multiplication overflows on representable products. The rest (add/sub, floor multiplication up to 32 bits, truncating division) is proved."
  },
  {
   "property": "C46",
   "status": "proved",
   "theorems": [
    "C46_min_max",
    "C46_select",
    "C46_clamp",
    "C46_sign",
    "C46_abs",
    "C46_abs_of_the_most_negative"
   ],
   "note": ""
  },
  {
   "property": "C47",
   "status": "partial",
   "theorems": [
    "C47_flip_one_bit_partial",
    "C47_flip_involutive_partial",
    "C47_out_of_range",
    "C47_isBitSet",
    "C47_float_flip",
    "C47_count_is_hamming",
    "C47_hamming_metric",
    "C47_one_flip_is_distance_one",
    "C47_one_float_flip_is_distance_one",
    "C47_bool_refuted",
    "C47_other_sizes_refuted"
   ],
   "note": "REFUTED for bool and, for countBitDifferences, for object sizes other than 1/2/4/8; proved for all integer types, float and double."
  },
  {
   "property": "C48",
   "status": "partial",
   "theorems": [
    "C48_success_status_refuted",
    "C48_agrees_partial",
    "C48_getValue",
    "C48_void_agrees",
    "C48_predefined"
   ],
   "note": "REFUTED: Result<T>(StatusCode::SUCCESS) is not successful although its status is. Proved for every other construction and for Result<void>."
  },
  {
   "property": "C80",
   "status": "partial",
   "theorems": [
    "C80_double_roundtrip_partial",
    "C80_to_double_value_partial",
    "C80_float_roundtrip_partial",
    "C80_float_roundtrip_refuted"
   ],
   "note": "double: proved for all formats of at most 32 bits; float: proved below 2^24, REFUTED above."
  },
  {
   "property": "C81",
   "status": "partial",
   "theorems": [
    "C81_half_squared_refuted",
    "C81_of_int_partial"
   ],
   "note": "REFUTED for signed T with FracBits = bits-1 (0.5*0.5 = -0.25); int construction proved for the others."
  },
  {
   "property": "C82",
   "status": "partial",
   "theorems": [
    "C82_copy_error_result_refuted"
   ],
   "note": "REFUTED: reads an uninitialised scalar. No positive part holds for scalar T."
  },
  {
   "property": "C49",
   "status": "partial",
   "theorems": [
    "C49_field_partial",
    "C49_remainder_unique",
    "C49_pow_refuted"
   ],
   "note": "Field laws, table safety, domain_error proved for all elements of GF16 and GF1024; pow REFUTED when log*power wraps around in unsigned int, proved below."
  },
  {
   "property": "C50",
   "status": "partial",
   "theorems": [
    "C50_gf256_refuted",
    "C50_other_fields_partial"
   ],
   "note": "REFUTED: field_size wraps to 0 in uint8_t, the tables are empty and the constructor accesses them out of range; GF16 and GF1024 proved to construct."
  },
  {
   "property": "C51",
   "status": "proved",
   "theorems": [
    "C51_generator_polynomial",
    "C51_beyond_the_field"
   ],
   "note": ""
  },
  {
   "property": "C52",
   "status": "partial",
   "theorems": [
    "C52_roundtrip_refuted",
    "C52_roundtrip_partial"
   ],
   "note": "REFUTED: the last check symbol is always 0 and syndromes are computed at other roots, so decode(encode(x)) is x or undefined behaviour; undefined for every nonzero x with fewer data than check symbols."
  },
  {
   "property": "C53",
   "status": "partial",
   "theorems": [
    "C53_interleave_refuted",
    "C53_interleave_partial",
    "C53_surviving_bits_partial"
   ],
   "note": "REFUTED; the vectors that survive are characterised exactly."
  },
  {
   "property": "C83",
   "status": "partial",
   "theorems": [
    "C83_syndromes_partial",
    "C83_nsym_255_refuted"
   ],
   "note": "REFUTED for nsym = 255 (uint8_t counter, endless loop) in GF1024; proved for all nsym < 255."
  },
  {
   "property": "C84",
   "status": "partial",
   "theorems": [
    "C84_no_correction_refuted",
    "C84_decode_partial",
    "C84_field_level_refuted"
   ],
   "note": "REFUTED: no word is ever corrected (returned unchanged when its syndromes vanish, otherwise out-of-bounds access)."
  },
  {
   "property": "C85",
   "status": "partial",
   "theorems": [
    "C85_encode_refuted",
    "C85_encode_partial"
   ],
   "note": "REFUTED when a symbol of the object is not a field element (any byte >= 16 for 4-bit symbols); proved otherwise."
  },
  {
   "property": "C86",
   "status": "partial",
   "theorems": [
    "C86_never_false_refuted",
    "C86_short_input_partial"
   ],
   "note": "REFUTED: true or undefined behaviour, never false for a word of full length; proved false for short input."
  },
  {
   "property": "C87",
   "status": "proved",
   "theorems": [
    "C87_chien_search"
   ],
   "note": ""
  },
  {
   "property": "C88",
   "status": "proved",
   "theorems": [
    "C88_set_get"
   ],
   "note": ""
  },
  {
   "property": "C89",
   "status": "proved",
   "theorems": [
    "C89_hamming_single",
    "C89_hamming_double_detected"
   ],
   "note": ""
  },
  {
   "property": "C90",
   "status": "partial",
   "theorems": [
    "C90_hamming_check_byte_refuted",
    "C90_hamming_overall_byte_partial"
   ],
   "note": "REFUTED for the six parity bytes (getValue flips data bit 2^k-1); proved for the overall parity byte."
  },
  {
   "property": "C91",
   "status": "partial",
   "theorems": [
    "C91_secded_single_refuted",
    "C91_secded_single_partial"
   ],
   "note": "REFUTED for bits i with an odd number of ones in i+1 (reported uncorrectable); proved for the others, detection proved for all."
  },
  {
   "property": "C92",
   "status": "partial",
   "theorems": [
    "C92_secded_double_refuted",
    "C92_secded_double_partial"
   ],
   "note": "REFUTED: detected always, but miscorrected (third bit flipped, success reported) exactly when (i+1) xor (k+1) has odd weight and is at most 32."
  },
  {
   "property": "C93",
   "status": "proved",
   "theorems": [
    "C93_secded_check_byte"
   ],
   "note": ""
  },
  {
   "property": "C94",
   "status": "proved",
   "theorems": [
    "C94_rs_detects_everything"
   ],
   "note": ""
  },
  {
   "property": "C95",
   "status": "proved",
   "theorems": [
    "C95_rs_single_byte",
    "C95_rs_check_byte"
   ],
   "note": ""
  },
  {
   "property": "C96",
   "status": "partial",
   "theorems": [
    "C96_true_means_clean_refuted",
    "C96_true_means_clean_partial"
   ],
   "note": "REFUTED: markInvalid, damaged SECDED overall parity and damaged hash bytes are never cleared though true is returned; proved after any single-bit data error."
  },
  {
   "property": "C97",
   "status": "proved",
   "theorems": [
    "C97_interleaving"
   ],
   "note": ""
  },
  {
   "property": "C98",
   "status": "proved",
   "theorems": [
    "C98_injected_damage",
    "C98_outside_the_range"
   ],
   "note": "For rates up to 1; beyond, the conversion to unsigned is undefined (C98_outside_the_range)."
  },
  {
   "property": "C99",
   "status": "partial",
   "theorems": [
    "C99_checksum_single_byte_partial",
    "C99_checksum_refuted"
   ],
   "note": "REFUTED for two-bit corruptions and after assignment through the base class; proved for any corruption confined to one byte."
  },
  {
   "property": "C100",
   "status": "partial",
   "theorems": [
    "C100_triple_get_partial",
    "C100_conversion_refuted",
    "C100_threshold"
   ],
   "note": "REFUTED for the implicit conversion (reads the unprotected base value) and for AdaptiveTMRProtection below its threshold; proved for getValue() of integer types."
  },
  {
   "property": "C101",
   "status": "partial",
   "theorems": [
    "C101_blocks_disjoint_partial",
    "C101_default_map_partial",
    "C101_same_level_zones_refuted",
    "C101_zero_bytes_refuted"
   ],
   "note": "REFUTED for zone maps with two zones of one level and for zero-byte requests; proved for every history over one zone per level (including the default map) with requests of at least one byte."
  },
  {
   "property": "C102",
   "status": "partial",
   "theorems": [
    "C102_preferred_zone_partial",
    "C102_zone_lost_after_overflow_refuted"
   ],
   "note": "REFUTED after the first overflow (the reference assignment overwrites the zone table: the zone is lost for every later history); proved for every history without overflow."
  },
  {
   "property": "C103",
   "status": "partial",
   "theorems": [
    "C103_next_zone_partial",
    "C103_malloc_despite_room_refuted",
    "C103_low_importance_in_shielded_zone_refuted"
   ],
   "note": "REFUTED: only one fallback zone is tried and LOW_IMPORTANCE overflows into HIGHLY_SHIELDED; proved for the next level's zone before the first overflow."
  },
  {
   "property": "C104",
   "status": "partial",
   "theorems": [
    "C104_usage_partial",
    "C104_failed_malloc_counted_refuted"
   ],
   "note": "REFUTED after a failed malloc (counted for ever); proved otherwise."
  },
  {
   "property": "C105",
   "status": "proved",
   "theorems": [
    "C105_diagnostics"
   ],
   "note": ""
  },
  {
   "property": "C106",
   "status": "partial",
   "theorems": [
    "C106_score_partial",
    "C106_score_out_of_range_refuted"
   ],
   "note": "REFUTED when failed requests are counted and the total wraps; proved for up to 2^49 live bytes without failed malloc."
  },
  {
   "property": "C107",
   "status": "partial",
   "theorems": [
    "C107_constructor_partial",
    "C107_inverted_zone_refuted"
   ],
   "note": "REFUTED for zones with start > end; proved otherwise."
  },
  {
   "property": "C108",
   "status": "partial",
   "theorems": [
    "C108_stl_partial",
    "C108_stl_wraps_refuted"
   ],
   "note": "REFUTED when n*sizeof(T) wraps; proved otherwise."
  },
  {
   "property": "C109",
   "status": "partial",
   "theorems": [
    "C109_levels_in_range_partial",
    "C109_levels_emergency_partial",
    "C109_levels_always_partial",
    "C109_minimum_refuted"
   ],
   "note": "REFUTED when the minimum powers exceed the budget (components up to criticality 0.7 run at half their minimum); proved otherwise, with the emergency levels exactly."
  },
  {
   "property": "C110",
   "status": "partial",
   "theorems": [
    "C110_within_budget_partial",
    "C110_exactly_refuted",
    "C110_emergency_refuted"
   ],
   "note": "REFUTED exactly (rounding) and in emergency mode (over budget, or negative); proved up to (3n+152)*2^-52 relative when the minimum fits."
  },
  {
   "property": "C111",
   "status": "proved",
   "theorems": [
    "C111_history_independent"
   ],
   "note": ""
  },
  {
   "property": "C112",
   "status": "proved",
   "theorems": [
    "C112_bookkeeping",
    "C112_total"
   ],
   "note": ""
  },
  {
   "property": "C113",
   "status": "partial",
   "theorems": [
    "C113_score_in_unit_interval_partial",
    "C113_below_zero_refuted",
    "C113_not_a_number_refuted"
   ],
   "note": "REFUTED in emergency mode (negative) and for min = max (NaN); proved when the minimum fits."
  },
  {
   "property": "C114",
   "status": "partial",
   "theorems": [
    "C114_alone_near_max_partial",
    "C114_exact_maximum_refuted",
    "C114_second_gets_nothing_refuted",
    "C114_criticality_zero_refuted"
   ],
   "note": "REFUTED: 100 steps are shared by all components, rounding stops short of the maximum, criticality 0 is never raised; proved to 2^-40 for one component."
  },
  {
   "property": "C115",
   "status": "proved",
   "theorems": [
    "C115_budgets_ordered",
    "C115_budget_of_state"
   ],
   "note": ""
  },
  {
   "property": "C116",
   "status": "proved",
   "theorems": [
    "C116_criticality_first"
   ],
   "note": ""
  },
  {
   "property": "C117",
   "status": "proved",
   "theorems": [
    "C117_edac"
   ],
   "note": ""
  },
  {
   "property": "C118",
   "status": "proved",
   "theorems": [
    "C118_tmr"
   ],
   "note": ""
  },
  {
   "property": "C119",
   "status": "proved",
   "theorems": [
    "C119_scrubbing"
   ],
   "note": ""
  },
  {
   "property": "C120",
   "status": "partial",
   "theorems": [
    "C120_defined_partial",
    "C120_unprotected_partial",
    "C120_empty_memory_refuted"
   ],
   "note": "REFUTED for an empty memory (distribution over an empty range, remainder by zero); proved for memories of 1 to 2^28-1 bytes."
  },
  {
   "property": "C121",
   "status": "partial",
   "theorems": [
    "C121_metrics_partial",
    "C121_no_events_refuted"
   ],
   "note": "REFUTED for an empty event list (0/0); proved with at least one event."
  },
  {
   "property": "C122",
   "status": "proved",
   "theorems": [
    "C122_tmr_ber"
   ],
   "note": ""
  },
  {
   "property": "C123",
   "status": "partial",
   "theorems": [
    "C123_edac_ber_partial",
    "C123_intact_but_ber_refuted"
   ],
   "note": "REFUTED: two upsets of one byte are one correction, and NONE counts errors without making them; proved for EDAC in the direction ber = 0 => restored."
  },
  {
   "property": "C124",
   "status": "proved",
   "theorems": [
    "C124_positions",
    "C124_burst"
   ],
   "note": ""
  },
  {
   "property": "C125",
   "status": "proved",
   "theorems": [
    "C125_flips",
    "C125_stuck"
   ],
   "note": ""
  },
  {
   "property": "C126",
   "status": "partial",
   "theorems": [
    "C126_defined_partial",
    "C126_small_types_refuted"
   ],
   "note": "REFUTED for 8, 16 and 32-bit types: the bitset is read past the value; proved for types of whole 64-bit words."
  },
  {
   "property": "C127",
   "status": "partial",
   "theorems": [
    "C127_changes_partial",
    "C127_unchanged_refuted"
   ],
   "note": "REFUTED for bursts (positions drawn twice cancel) and stuck-at faults (the bit may already have the value); proved for the flipping patterns."
  },
  {
   "property": "C128",
   "status": "proved",
   "theorems": [
    "C128_twice"
   ],
   "note": ""
  },
  {
   "property": "C129",
   "status": "proved",
   "theorems": [
    "C129_random_bit_flip",
    "C129_inject"
   ],
   "note": ""
  },
  {
   "property": "C130",
   "status": "partial",
   "theorems": [
    "C130_distinct_partial",
    "C130_nothing_refuted"
   ],
   "note": "REFUTED: the same bit drawn twice flips nothing; proved for distinct bits."
  },
  {
   "property": "C131",
   "status": "proved",
   "theorems": [
    "C131_counts",
    "C131_all"
   ],
   "note": ""
  },
  {
   "property": "C132",
   "status": "proved",
   "theorems": [
    "C132_upsets"
   ],
   "note": ""
  },
  {
   "property": "C133",
   "status": "proved",
   "theorems": [
    "C133_regions"
   ],
   "note": ""
  },
  {
   "property": "C134",
   "status": "partial",
   "theorems": [
    "C134_nothing_partial",
    "C134_undefined_refuted"
   ],
   "note": "REFUTED for a zero duration (Poisson mean 0) and for FaultInjector on an empty region; proved for a missing environment or memory."
  },
  {
   "property": "C135",
   "status": "proved",
   "theorems": [
    "C135_event"
   ],
   "note": ""
  },
  {
   "property": "C136",
   "status": "proved",
   "theorems": [
    "C136_run"
   ],
   "note": ""
  },
  {
   "property": "C137",
   "status": "proved",
   "theorems": [
    "C137_rates",
    "C137_missions"
   ],
   "note": ""
  },
  {
   "property": "C138",
   "status": "partial",
   "theorems": [
    "C138_monotone_partial",
    "C138_beyond_geo_refuted"
   ],
   "note": "REFUTED across 36000 km, where the factor drops from 5.6 to 5; proved on either side."
  },
  {
   "property": "C139",
   "status": "proved",
   "theorems": [
    "C139_level"
   ],
   "note": "Hypothesis: the sum of the two counts fits in uint32_t (C140 treats the rest)."
  },
  {
   "property": "C140",
   "status": "partial",
   "theorems": [
    "C140_more_errors_partial",
    "C140_wraps_refuted"
   ],
   "note": "REFUTED: the two counts are added in uint32_t, so 2^31+2^31 counts as none; proved while the sum fits."
  },
  {
   "property": "C141",
   "status": "partial",
   "theorems": [
    "C141_counted_partial",
    "C141_dropped_refuted"
   ],
   "note": "REFUTED: a call less than a second after the last assessment is dropped with its counts; proved for the others."
  },
  {
   "property": "C142",
   "status": "proved",
   "theorems": [
    "C142_notifications"
   ],
   "note": ""
  },
  {
   "property": "C143",
   "status": "partial",
   "theorems": [
    "C143_observing_partial",
    "C143_calls_back_refuted"
   ],
   "note": "REFUTED: callbacks run with the mutex held, so locking again is undefined; proved for callbacks that only observe."
  },
  {
   "property": "C144",
   "status": "proved",
   "theorems": [
    "C144_handles"
   ],
   "note": ""
  },
  {
   "property": "C145",
   "status": "partial",
   "theorems": [
    "C145_raised_partial",
    "C145_never_reverts_refuted",
    "C145_lost_early_refuted"
   ],
   "note": "REFUTED: nothing reverts the level, and a quiet assessment one second later drops it below the former level; proved: raised by one, at most MAXIMUM."
  },
  {
   "property": "C146",
   "status": "proved",
   "theorems": [
    "C146_quiet"
   ],
   "note": ""
  },
  {
   "property": "C147",
   "status": "proved",
   "theorems": [
    "C147_burst"
   ],
   "note": ""
  },
  {
   "property": "C148",
   "status": "proved",
   "theorems": [
    "C148_settings"
   ],
   "note": ""
  },
  {
   "property": "C149",
   "status": "proved",
   "theorems": [
    "C149_manual"
   ],
   "note": ""
  },
  {
   "property": "C150",
   "status": "proved",
   "theorems": [
    "C150_spaced"
   ],
   "note": ""
  },
  {
   "property": "C151",
   "status": "partial",
   "theorems": [
    "C151_hysteresis_partial",
    "C151_single_level_refuted"
   ],
   "note": "REFUTED after construction, setEnvironment and the EXTREME shortcut, none of which starts the five minutes; proved relative to the last change by the score."
  },
  {
   "property": "C152",
   "status": "partial",
   "theorems": [
    "C152_extreme_partial",
    "C152_suppressed_refuted"
   ],
   "note": "REFUTED: the check is skipped within ten seconds of the previous one; proved after ten seconds."
  },
  {
   "property": "C153",
   "status": "proved",
   "theorems": [
    "C153_notifications"
   ],
   "note": ""
  },
  {
   "property": "C154",
   "status": "proved",
   "theorems": [
    "C154_monotone"
   ],
   "note": ""
  },
  {
   "property": "C155",
   "status": "partial",
   "theorems": [
    "C155_agreeing_partial",
    "C155_unknown_partial",
    "C155_differ_refuted"
   ],
   "note": "REFUTED for LUNAR and ISS; proved for LEO, GEO, MOON, MARS, JUPITER (and the long names), and for names unknown to both."
  },
  {
   "property": "C156",
   "status": "proved",
   "theorems": [
    "C156_forward",
    "C156_wrong_size",
    "C156_patterns"
   ],
   "note": ""
  },
  {
   "property": "C157",
   "status": "proved",
   "theorems": [
    "C157_statistics"
   ],
   "note": ""
  },
  {
   "property": "C158",
   "status": "partial",
   "theorems": [
    "C158_vote_refuted",
    "C158_vote_partial"
   ],
   "note": "REFUTED: when both copies of an activation are hit in the same bit they outvote the right value, and the loss is counted as a correction. Proved whenever that coincidence does not happen (different single-bit upsets of one float never compare equal)."
  },
  {
   "property": "C159",
   "status": "partial",
   "theorems": [
    "C159_struck_weight_refuted",
    "C159_struck_weight_partial"
   ],
   "note": "REFUTED at every level: weights are MultibitProtection objects with coding scheme NONE, so no upset is ever detected. Proved: the damage is confined to that weight and nothing is counted."
  },
  {
   "property": "C160",
   "status": "proved",
   "theorems": [
    "C160_radiation_confined",
    "C160_radiation_returns"
   ],
   "note": ""
  },
  {
   "property": "C161",
   "status": "partial",
   "theorems": [
    "C161_repair_refuted",
    "C161_repair_partial"
   ],
   "note": "REFUTED: the repair pass finds no errors (scheme NONE). Proved: it never damages an intact network."
  },
  {
   "property": "C162",
   "status": "proved",
   "theorems": [
    "C162_set_weights"
   ],
   "note": ""
  },
  {
   "property": "C163",
   "status": "partial",
   "theorems": [
    "C163_set_weights_atomic_refuted",
    "C163_set_weights_atomic_partial"
   ],
   "note": "REFUTED: rows before the first row of the wrong length have been set when the exception is thrown. Proved: exactly these rows, and all-or-nothing for the other two errors."
  },
  {
   "property": "C164",
   "status": "proved",
   "theorems": [
    "C164_set_biases"
   ],
   "note": ""
  },
  {
   "property": "C165",
   "status": "proved",
   "theorems": [
    "C165_layer_copies"
   ],
   "note": ""
  },
  {
   "property": "C166",
   "status": "partial",
   "theorems": [
    "C166_layer_edits_refuted"
   ],
   "note": "REFUTED for every edit and for radiation: the copies are never read, and raw_setWeight does not update them."
  },
  {
   "property": "C167",
   "status": "partial",
   "theorems": [
    "C167_training_refuted",
    "C167_training_partial"
   ],
   "note": "REFUTED for all data: train() never changes a parameter. Proved: it returns the mean squared error of the unchanged network."
  },
  {
   "property": "C168",
   "status": "partial",
   "theorems": [
    "C168_accuracy_refuted",
    "C168_accuracy_partial"
   ],
   "note": "REFUTED: it returns 1 - MSE, which can be negative. Proved: the exact value."
  },
  {
   "property": "C169",
   "status": "proved",
   "theorems": [
    "C169_construction",
    "C169_too_few_layers",
    "C169_relu",
    "C169_activation_function"
   ],
   "note": ""
  },
  {
   "property": "C170",
   "status": "proved",
   "theorems": [
    "C170_inference_harmless"
   ],
   "note": ""
  },
  {
   "property": "C171",
   "status": "proved",
   "theorems": [
    "C171_scores"
   ],
   "note": ""
  },
  {
   "property": "C172",
   "status": "proved",
   "theorems": [
    "C172_weighted_plurality"
   ],
   "note": ""
  },
  {
   "property": "C173",
   "status": "proved",
   "theorems": [
    "C173_plurality"
   ],
   "note": ""
  },
  {
   "property": "C174",
   "status": "partial",
   "theorems": [
    "C174_majority_refuted",
    "C174_heaviest_partial"
   ],
   "note": "REFUTED: one implementation with reliability 1.0 outvotes three with 0.3. Proved: the answer with strictly more summed reliability wins."
  },
  {
   "property": "C175",
   "status": "partial",
   "theorems": [
    "C175_failure_raises_refuted",
    "C175_failure_partial"
   ],
   "note": "REFUTED: from 0.2 with a history of successes a failure gives 0.27. Proved: a failure never gives more than a success would, and lowers or keeps the score once the window holds only failures."
  },
  {
   "property": "C176",
   "status": "proved",
   "theorems": [
    "C176_window"
   ],
   "note": ""
  },
  {
   "property": "C177",
   "status": "partial",
   "theorems": [
    "C177_shrink_refuted",
    "C177_resize_partial"
   ],
   "note": "REFUTED: shrinking keeps the oldest outcomes. Proved: scores and names do not change, growing keeps every outcome, setting the same size changes nothing."
  },
  {
   "property": "C178",
   "status": "partial",
   "theorems": [
    "C178_size0_refuted",
    "C178_defined_partial"
   ],
   "note": "REFUTED for history size 0 (erase(begin()) of an empty vector). Proved: with a positive size every call is defined."
  },
  {
   "property": "C179",
   "status": "proved",
   "theorems": [
    "C179_excluded"
   ],
   "note": ""
  },
  {
   "property": "C180",
   "status": "partial",
   "theorems": [
    "C180_answers_refuted",
    "C180_answers_partial"
   ],
   "note": "REFUTED: the fallback calls the most reliable implementation again, not one that answers; a registration under the empty name is never used as fallback. Proved: a consulted implementation that answers suffices, and the exact fallback."
  },
  {
   "property": "C181",
   "status": "proved",
   "theorems": [
    "C181_execute_effects"
   ],
   "note": ""
  },
  {
   "property": "C182",
   "status": "proved",
   "theorems": [
    "C182_most_reliable"
   ],
   "note": ""
  },
  {
   "property": "C183",
   "status": "proved",
   "theorems": [
    "C183_registration"
   ],
   "note": ""
  },
  {
   "property": "C184",
   "status": "proved",
   "theorems": [
    "C184_exclusion"
   ],
   "note": ""
  },
  {
   "property": "C185",
   "status": "proved",
   "theorems": [
    "C185_recall"
   ],
   "note": ""
  },
  {
   "property": "C186",
   "status": "proved",
   "theorems": [
    "C186_training"
   ],
   "note": ""
  },
  {
   "property": "C187",
   "status": "proved",
   "theorems": [
    "C187_no_guessing"
   ],
   "note": ""
  },
  {
   "property": "C188",
   "status": "partial",
   "theorems": [
    "C188_similar_refuted",
    "C188_probability_partial"
   ],
   "note": "REFUTED: the class's own static members hide the vector overloads, so nothing is ever similar (0.1). Proved: the exact probability."
  },
  {
   "property": "C189",
   "status": "partial",
   "theorems": [
    "C189_input_refuted",
    "C189_input_partial"
   ],
   "note": "REFUTED: the input is ignored. Proved: results never depend on the input."
  },
  {
   "property": "C190",
   "status": "partial",
   "theorems": [
    "C190_closest_refuted",
    "C190_suggestion_partial"
   ],
   "note": "REFUTED: the smallest taught output is used, whatever the suspect output. Proved: what a suggestion can be."
  },
  {
   "property": "C191",
   "status": "proved",
   "theorems": [
    "C191_thresholds"
   ],
   "note": ""
  },
  {
   "property": "C192",
   "status": "proved",
   "theorems": [
    "C192_seventy_percent"
   ],
   "note": ""
  },
  {
   "property": "C193",
   "status": "proved",
   "theorems": [
    "C193_output_size"
   ],
   "note": ""
  },
  {
   "property": "C194",
   "status": "partial",
   "theorems": [
    "C194_big_kernel_refuted",
    "C194_by_one_partial"
   ],
   "note": "REFUTED: the unsigned subtraction wraps and the output dimension is at least 2^39 (2^64-1 for stride 1). Proved: off by one with stride 1 gives an empty output."
  },
  {
   "property": "C195",
   "status": "proved",
   "theorems": [
    "C195_cross_correlation"
   ],
   "note": ""
  },
  {
   "property": "C196",
   "status": "proved",
   "theorems": [
    "C196_rounding"
   ],
   "note": ""
  },
  {
   "property": "C197",
   "status": "partial",
   "theorems": [
    "C197_overflow_refuted",
    "C197_defined_partial"
   ],
   "note": "REFUTED: 16.16 values overflow int in the accumulation. Proved: for 8- and 16-bit storage forward() always returns."
  },
  {
   "property": "C198",
   "status": "proved",
   "theorems": [
    "C198_masking"
   ],
   "note": ""
  },
  {
   "property": "C199",
   "status": "proved",
   "theorems": [
    "C199_repair"
   ],
   "note": ""
  },
  {
   "property": "C200",
   "status": "proved",
   "theorems": [
    "C200_parameters"
   ],
   "note": ""
  },
  {
   "property": "C201",
   "status": "proved",
   "theorems": [
    "C201_masks",
    "C201_flags"
   ],
   "note": ""
  },
  {
   "property": "C202",
   "status": "proved",
   "theorems": [
    "C202_enhanced_int"
   ],
   "note": ""
  },
  {
   "property": "C203",
   "status": "partial",
   "theorems": [
    "C203_flags_refuted",
    "C203_flags_partial"
   ],
   "note": "REFUTED: when all three agree neither flag is written. Proved: the flags are right on every disagreement."
  },
  {
   "property": "C204",
   "status": "partial",
   "theorems": [
    "C204_enhanced_float_refuted",
    "C204_enhanced_float_partial"
   ],
   "note": "REFUTED: the float is cast to size_t, undefined for negative, NaN and huge results. Proved: masked for results in [0, 2^63]."
  },
  {
   "property": "C205",
   "status": "partial",
   "theorems": [
    "C205_stuck_masks_refuted",
    "C205_stuck_masks_partial"
   ],
   "note": "REFUTED: a correct 0 or INT_MAX is discarded and the one wrong value is returned as corrected. Proved: masked when the right value does not look stuck."
  },
  {
   "property": "C206",
   "status": "partial",
   "theorems": [
    "C206_no_false_alarm_refuted",
    "C206_no_false_alarm_partial"
   ],
   "note": "REFUTED: three zeros give confidence 0.2 and a detected error. Proved: no alarm for values that do not look stuck."
  },
  {
   "property": "C207",
   "status": "proved",
   "theorems": [
    "C207_all_suspicious"
   ],
   "note": ""
  },
  {
   "property": "C208",
   "status": "proved",
   "theorems": [
    "C208_scores",
    "C208_one_of_three"
   ],
   "note": ""
  },
  {
   "property": "C209",
   "status": "partial",
   "theorems": [
    "C209_masks_refuted",
    "C209_masks_partial"
   ],
   "note": "REFUTED: four faults in execution 1 and then one in execution 2 return the wrong value. Proved: masked for ever while it is always the same execution that disagrees."
  },
  {
   "property": "C210",
   "status": "partial",
   "theorems": [
    "C210_no_reward_refuted",
    "C210_no_reward_partial"
   ],
   "note": "REFUTED: a three-way disagreement raises all scores. Proved: no score rises when some two agree."
  },
  {
   "property": "C211",
   "status": "proved",
   "theorems": [
    "C211_level_monotone",
    "C211_strategy"
   ],
   "note": ""
  },
  {
   "property": "C212",
   "status": "proved",
   "theorems": [
    "C212_interval_range"
   ],
   "note": ""
  },
  {
   "property": "C213",
   "status": "proved",
   "theorems": [
    "C213_interval_antitone"
   ],
   "note": ""
  },
  {
   "property": "C214",
   "status": "proved",
   "theorems": [
    "C214_emergency",
    "C214_monotone",
    "C214_outside"
   ],
   "note": ""
  },
  {
   "property": "C215",
   "status": "proved",
   "theorems": [
    "C215_level"
   ],
   "note": ""
  },
  {
   "property": "C216",
   "status": "partial",
   "theorems": [
    "C216_phase_kept_refuted",
    "C216_phase_kept_partial"
   ],
   "note": "REFUTED: a quiet environment update after entering CRITICAL_OPERATION gives BASIC_TMR. Proved: the level holds until the next update or phase."
  },
  {
   "property": "C217",
   "status": "partial",
   "theorems": [
    "C217_strategy_refuted",
    "C217_strategy_partial"
   ],
   "note": "REFUTED: entering LAUNCH before the first update reads the uninitialised environment. Proved: after an update the strategy has the level in force."
  },
  {
   "property": "C218",
   "status": "partial",
   "theorems": [
    "C218_phase_ignored_refuted",
    "C218_phase_ignored_partial"
   ],
   "note": "REFUTED: phase and criticality are ignored. Proved: for every history, executions are the same with all phase entries removed and any criticality."
  },
  {
   "property": "C219",
   "status": "proved",
   "theorems": [
    "C219_protected_int"
   ],
   "note": ""
  },
  {
   "property": "C220",
   "status": "partial",
   "theorems": [
    "C220_protected_float_refuted",
    "C220_protected_float_partial"
   ],
   "note": "REFUTED: a two-layer network runs EnhancedTMR, a negative result is undefined behaviour. Proved: masked for results in [0, 2^63]."
  },
  {
   "property": "C221",
   "status": "proved",
   "theorems": [
    "C221_single_layer",
    "C221_shares"
   ],
   "note": ""
  },
  {
   "property": "C222",
   "status": "proved",
   "theorems": [
    "C222_forward"
   ],
   "note": ""
  },
  {
   "property": "C223",
   "status": "partial",
   "theorems": [
    "C223_empty_input_refuted",
    "C223_empty_input_partial"
   ],
   "note": "REFUTED: an empty input divides by zero. Proved: every other input returns."
  },
  {
   "property": "C224",
   "status": "partial",
   "theorems": [
    "C224_struck_weight_refuted",
    "C224_struck_weight_partial"
   ],
   "note": "REFUTED: all three executions read the same corrupted weight. Proved: only the output of that weight's row can change."
  },
  {
   "property": "C225",
   "status": "proved",
   "theorems": [
    "C225_stores"
   ],
   "note": ""
  },
  {
   "property": "C226",
   "status": "proved",
   "theorems": [
    "C226_delay"
   ],
   "note": ""
  },
  {
   "property": "C227",
   "status": "proved",
   "theorems": [
    "C227_synergy"
   ],
   "note": ""
  },
  {
   "property": "C228",
   "status": "proved",
   "theorems": [
    "C228_emergency"
   ],
   "note": ""
  },
  {
   "property": "C229",
   "status": "proved",
   "theorems": [
    "C229_settled"
   ],
   "note": ""
  },
  {
   "property": "C230",
   "status": "proved",
   "theorems": [
    "C230_step",
    "C230_history"
   ],
   "note": ""
  },
  {
   "property": "C231",
   "status": "proved",
   "theorems": [
    "C231_bytes"
   ],
   "note": ""
  },
  {
   "property": "C232",
   "status": "proved",
   "theorems": [
    "C232_fate"
   ],
   "note": ""
  },
  {
   "property": "C233",
   "status": "proved",
   "theorems": [
    "C233_choice",
    "C233_step"
   ],
   "note": ""
  },
  {
   "property": "C234",
   "status": "partial",
   "theorems": [
    "C234_run_ends_partial",
    "C234_run_ends_refuted"
   ],
   "note": "REFUTED: with a time step of 0 or less runSimulation never returns; proved for every positive step."
  },
  {
   "property": "C235",
   "status": "proved",
   "theorems": [
    "C235_step",
    "C235_run",
    "C235_new"
   ],
   "note": "whole-second steps for the exact sum; every step for the per-step statement"
  },
  {
   "property": "C236",
   "status": "partial",
   "theorems": [
    "C236_any_profile_refuted",
    "C236_any_profile_partial"
   ],
   "note": "REFUTED: an empty profile (despite the constructor's fallback), fewer durations than environments, more probabilities than environments, or an infinite duration make the run index out of bounds or convert out of range; proved for proper profiles."
  },
  {
   "property": "C237",
   "status": "partial",
   "theorems": [
    "C237_energy_budget_refuted",
    "C237_energy_budget_partial"
   ],
   "note": "REFUTED: budget, costs and the low threshold have no effect on any run (proved for all runs); the settings are always one of the three configured ones."
  },
  {
   "property": "C238",
   "status": "proved",
   "theorems": [
    "C238_monotone"
   ],
   "note": ""
  },
  {
   "property": "C239",
   "status": "proved",
   "theorems": [
    "C239_profiles",
    "C239_flown"
   ],
   "note": ""
  },
  {
   "property": "C240",
   "status": "proved",
   "theorems": [
    "C240_spaced",
    "C240_often",
    "C240_only_if_enabled"
   ],
   "note": ""
  },
  {
   "property": "C241",
   "status": "partial",
   "theorems": [
    "C241_corrected_is_repaired_refuted",
    "C241_corrected_is_repaired_partial"
   ],
   "note": "REFUTED: protection only counts; a corrected event leaves the memory corrupted. Proved: the memory after a run does not depend on the configuration at all."
  },
  {
   "property": "C242",
   "status": "proved",
   "theorems": [
    "C242_memory"
   ],
   "note": ""
  },
  {
   "property": "C243",
   "status": "partial",
   "theorems": [
    "C243_uptime_refuted",
    "C243_uptime_partial"
   ],
   "note": "REFUTED: a run without errors reports uptime 0; proved: in [0,1], and 1 when every detected error was corrected."
  },
  {
   "property": "C244",
   "status": "partial",
   "theorems": [
    "C244_stay_refuted",
    "C244_stay_partial"
   ],
   "note": "REFUTED: the choice may pick the same environment again and again; proved: a single environment is never left."
  },
  {
   "property": "C245",
   "status": "proved",
   "theorems": [
    "C245_rejected",
    "C245_accepted"
   ],
   "note": ""
  },
  {
   "property": "C246",
   "status": "partial",
   "theorems": [
    "C246_never_refuted",
    "C246_defined_partial"
   ],
   "note": "REFUTED: probability 0 (and 1e-10) converts an infinity or a too large float to int. Proved: defined for p >= 2^-27 with counts that fit."
  },
  {
   "property": "C247",
   "status": "proved",
   "theorems": [
    "C247_injection",
    "C247_overflow"
   ],
   "note": "With the exact boundary where the int counter overflows."
  },
  {
   "property": "C248",
   "status": "partial",
   "theorems": [
    "C248_no_effect_refuted",
    "C248_visible_partial"
   ],
   "note": "REFUTED for every reachable network: flips hit the copies getLayers() gives access to, which forward does not read. Proved: visible there."
  },
  {
   "property": "C249",
   "status": "partial",
   "theorems": [
    "C249_nothing_learnt_refuted",
    "C249_usable_partial"
   ],
   "note": "REFUTED for every reachable network: no call changes the parameters. Proved: the network stays usable, sizes kept."
  },
  {
   "property": "C250",
   "status": "partial",
   "theorems": [
    "C250_always_zero_refuted",
    "C250_same_partial"
   ],
   "note": "REFUTED: for every history on non-empty data drop and recovery are 0. Proved: train() and getStats() agree."
  },
  {
   "property": "C251",
   "status": "partial",
   "theorems": [
    "C251_all_equal_refuted",
    "C251_range_partial"
   ],
   "note": "REFUTED: all analysed weights get 1/2, or NaN when the loss is not finite. Proved: entries are 0 or 1/2 with a finite loss. exp is a parameter (exp(-0)=1)."
  },
  {
   "property": "C252",
   "status": "proved",
   "theorems": [
    "C252_analysis",
    "C252_every_call"
   ],
   "note": ""
  },
  {
   "property": "C253",
   "status": "partial",
   "theorems": [
    "C253_other_network_refuted",
    "C253_same_sizes_partial"
   ],
   "note": "REFUTED: the map keeps the first network's sizes and is written out of bounds. Proved: same sizes work."
  },
  {
   "property": "C254",
   "status": "partial",
   "theorems": [
    "C254_empty_refuted",
    "C254_no_epochs_partial"
   ],
   "note": "REFUTED: out of bounds with targeting, NaN statistics otherwise. Proved: no epochs, no change."
  },
  {
   "property": "C255",
   "status": "partial",
   "theorems": [
    "C255_batches_partial",
    "C255_bad_batch_refuted"
   ],
   "note": "REFUTED for batch sizes 0 (division by zero) and below 0 (nothing is trained). Proved for all positive batch sizes."
  },
  {
   "property": "C256",
   "status": "proved",
   "theorems": [
    "C256_total",
    "C256_frequency"
   ],
   "note": "For targeting off; freq characterised for p >= 2^-27."
  },
  {
   "property": "C257",
   "status": "partial",
   "theorems": [
    "C257_ranking_refuted",
    "C257_milder_partial",
    "C257_settings"
   ],
   "note": "REFUTED: SOLAR_FLARE injects less than MARS, EARTH more than EARTH_ORBIT. Proved for the environments whose factors are ordered."
  },
  {
   "property": "C258",
   "status": "proved",
   "theorems": [
    "C258_connections",
    "C258_answers"
   ],
   "note": ""
  },
  {
   "property": "C259",
   "status": "partial",
   "theorems": [
    "C259_ignored_refuted",
    "C259_base_partial"
   ],
   "note": "REFUTED for every network: forward() ignores all connections and projections. Proved: the base class result."
  },
  {
   "property": "C260",
   "status": "partial",
   "theorems": [
    "C260_nothing_added_refuted",
    "C260_harmless_partial"
   ],
   "note": "REFUTED: nothing is added. Proved: the call can be left out of any history."
  },
  {
   "property": "C261",
   "status": "proved",
   "theorems": [
    "C261_round_trip",
    "C261_same_connections"
   ],
   "note": "For every content of the map that fits into size_t, every order."
  },
  {
   "property": "C262",
   "status": "partial",
   "theorems": [
    "C262_not_restored_refuted",
    "C262_example_refuted",
    "C262_projections_partial"
   ],
   "note": "REFUTED: the layers are never restored, projections become the identity. Proved: what is restored."
  },
  {
   "property": "C263",
   "status": "partial",
   "theorems": [
    "C263_failed_load_refuted",
    "C263_missing_file_partial",
    "C263_layers_partial"
   ],
   "note": "REFUTED: connections are cleared before the failure. Proved: the layers never change, and a missing file or a failure before the connections are read leaves everything unchanged."
  },
  {
   "property": "C264",
   "status": "partial",
   "theorems": [
    "C264_truncated_refuted",
    "C264_damage_refuted",
    "C264_wrong_connection_refuted",
    "C264_complete_partial"
   ],
   "note": "REFUTED for every saved file and every cut behind the first 8 bytes. Proved: complete files."
  },
  {
   "property": "C265",
   "status": "partial",
   "theorems": [
    "C265_undefined_refuted",
    "C265_bad_byte_refuted",
    "C265_saved_partial"
   ],
   "note": "REFUTED: files shorter than 8 bytes read an uninitialised size, a flag byte other than 0 or 1. Proved for saved files cut behind 8 bytes."
  },
  {
   "property": "C266",
   "status": "partial",
   "theorems": [
    "C266_invalid_connection_refuted",
    "C266_enough_layers_partial"
   ],
   "note": "REFUTED. Proved for networks with at least as many layers."
  },
  {
   "property": "C267",
   "status": "partial",
   "theorems": [
    "C267_full_disk_refuted",
    "C267_cannot_open_partial"
   ],
   "note": "REFUTED for every content: the writes are not checked. Proved for a disk with room."
  },
  {
   "property": "C268",
   "status": "partial",
   "theorems": [
    "C268_several_samples_refuted",
    "C268_one_sample_partial",
    "C268_accuracy_refuted"
   ],
   "note": "REFUTED: all data is one input vector, several samples throw; accuracy can be negative. Proved for one sample: the exact values, and nothing is trained."
  },
  {
   "property": "C269",
   "status": "partial",
   "theorems": [
    "C269_allocate_partial",
    "C269_object_partial",
    "C269_array_partial",
    "C269_deallocate",
    "C269_canary_refuted"
   ],
   "note": "REFUTED for CANARY: the returned pointer is not the tracked one. Proved for the other levels, for deallocate and for the typed forms."
  },
  {
   "property": "C270",
   "status": "partial",
   "theorems": [
    "C270_roundtrip_partial",
    "C270_canary_refuted"
   ],
   "note": "REFUTED for CANARY: deallocate answers false and the block leaks. Proved for the other levels."
  },
  {
   "property": "C271",
   "status": "proved",
   "theorems": [
    "C271_current",
    "C271_totals",
    "C271_deallocations",
    "C271_count"
   ],
   "note": "Totals modulo 2^64; count tied to isAllocated."
  },
  {
   "property": "C272",
   "status": "partial",
   "theorems": [
    "C272_peak_count_partial",
    "C272_peak_bytes_partial",
    "C272_reset_refuted"
   ],
   "note": "REFUTED after resetStats (peaks 0 below the current values). Proved for histories without resetStats; bytes while the live bytes are below 2^64."
  },
  {
   "property": "C273",
   "status": "proved",
   "theorems": [
    "C273_reset"
   ],
   "note": "For every reachable manager."
  },
  {
   "property": "C274",
   "status": "proved",
   "theorems": [
    "C274_unknown",
    "C274_double",
    "C274_no_bad_free"
   ],
   "note": "Unknown, double free, and no bad free for every reachable manager."
  },
  {
   "property": "C275",
   "status": "partial",
   "theorems": [
    "C275_own_partial",
    "C275_canary_refuted",
    "C275_array_refuted"
   ],
   "note": "REFUTED: sizes wrap (CANARY near SIZE_MAX, allocateArray). Proved below 2^60."
  },
  {
   "property": "C276",
   "status": "partial",
   "theorems": [
    "C276_iff_partial",
    "C276_completes_partial",
    "C276_ecc_tmr_refuted"
   ],
   "note": "REFUTED: ECC and TMR write behind the block for every unaligned size > 0. Proved: exact condition, and NONE, CRC, CANARY always complete."
  },
  {
   "property": "C277",
   "status": "partial",
   "theorems": [
    "C277_quiet_partial",
    "C277_overwrites_refuted",
    "C277_unknown"
   ],
   "note": "REFUTED: CANARY overwrites the first and last eight bytes (or is out of bounds), ECC and TMR write behind the block. Proved for NONE and CRC."
  },
  {
   "property": "C278",
   "status": "partial",
   "theorems": [
    "C278_counts_partial",
    "C278_allocate_refuted",
    "C278_unprotect_refuted",
    "C278_status"
   ],
   "note": "REFUTED: allocate with a level reports unprotected, unprotectMemory subtracts twice. Proved: the status, and the counts for histories without unprotectMemory."
  },
  {
   "property": "C279",
   "status": "partial",
   "theorems": [
    "C279_never_true_refuted",
    "C279_deadlock_refuted",
    "C279_unknown_partial"
   ],
   "note": "REFUTED: never true; locks the mutex again for every live allocation. Proved: false for unknown pointers."
  },
  {
   "property": "C280",
   "status": "partial",
   "theorems": [
    "C280_protected_refuted",
    "C280_unprotect_first_partial"
   ],
   "note": "REFUTED: the mutex is locked again for every protected block. Proved: works after unprotectMemory."
  },
  {
   "property": "C281",
   "status": "proved",
   "theorems": [
    "C281_canaries"
   ],
   "note": "Sizes below 2^60."
  },
  {
   "property": "C282",
   "status": "partial",
   "theorems": [
    "C282_zero",
    "C282_aligned_partial",
    "C282_aligned_refuted"
   ],
   "note": "ALIGNED REFUTED for CANARY with alignment above 8. Zeroing proved for all levels (sizes below 2^60), alignment for the other levels."
  },
  {
   "property": "C283",
   "status": "proved",
   "theorems": [
    "C283_out_of_memory",
    "C283_out_of_memory_typed"
   ],
   "note": "allocate, allocateObject, allocateArray."
  },
  {
   "property": "C284",
   "status": "proved",
   "theorems": [
    "C284_register",
    "C284_unregister",
    "C284_others_keep"
   ],
   "note": "For fewer than 2^64 - 2 registrations."
  },
  {
   "property": "C285",
   "status": "partial",
   "theorems": [
    "C285_leaks",
    "C285_canary_object_refuted"
   ],
   "note": "checkForLeaks proved; REFUTED for objects made with CANARY (they leak). NONE and CRC objects: see C286."
  },
  {
   "property": "C286",
   "status": "proved",
   "theorems": [
    "C286_ownership",
    "C286_no_leak",
    "C286_all_gone",
    "C286_make_step"
   ],
   "note": "Levels NONE and CRC; also: when all pointer objects are null nothing is allocated."
  },
  {
   "property": "C287",
   "status": "proved",
   "theorems": [
    "C287_percentages"
   ],
   "note": "For any std::log and std::exp that answer doubles, any noise in [0,2]."
  },
  {
   "property": "C288",
   "status": "partial",
   "theorems": [
    "C288_no_connection_refuted",
    "C288_negative_dropout_refuted",
    "C288_partial"
   ],
   "note": "REFUTED: layer lists without a connection (empty, one layer, a zero width throughout) and dropout -0.5 convert an unrepresentable number to size_t. Proved for networks with 1 <= weights < 2^53 and dropout in [0,1]."
  },
  {
   "property": "C289",
   "status": "proved",
   "theorems": [
    "C289_accounting",
    "C289_stronger"
   ],
   "note": "For networks with 1 <= weights < 2^53, given 0 <= log <= 40 there."
  },
  {
   "property": "C290",
   "status": "partial",
   "theorems": [
    "C290_refuted",
    "C290_partial"
   ],
   "note": "REFUTED: the noise is seeded by the level too. Proved when the noise is the same."
  },
  {
   "property": "C291",
   "status": "partial",
   "theorems": [
    "C291_refuted",
    "C291_partial"
   ],
   "note": "REFUTED: SOLAR_FLARE has a higher radiation level than DEEP_SPACE but gives a higher accuracy, even with equal noise. Proved for the tester's own order of environments with equal noise."
  },
  {
   "property": "C292",
   "status": "partial",
   "theorems": [
    "C292_refuted",
    "C292_monte_refuted"
   ],
   "note": "REFUTED: proved that data and epochs have no influence at all."
  },
  {
   "property": "C293",
   "status": "proved",
   "theorems": [
    "C293_monte_carlo"
   ],
   "note": "Given only that the square of a number up to 200 lies in [0,65536]."
  },
  {
   "property": "C294",
   "status": "proved",
   "theorems": [
    "C294_monte_errors"
   ],
   "note": "1 <= trials < 2^37, 1 <= weights < 2^53."
  },
  {
   "property": "C295",
   "status": "partial",
   "theorems": [
    "C295_seeds",
    "C295_offset_refuted"
   ],
   "note": "Seeds proved distinct (as the engine sees them, modulo 2^32); the offset part is REFUTED: it has no effect."
  },
  {
   "property": "C296",
   "status": "partial",
   "theorems": [
    "C296_best",
    "C296_order_refuted"
   ],
   "note": "First best proved for the scan libstdc++ performs; REFUTED: the ordering is not irreflexive, so the library promises nothing."
  },
  {
   "property": "C297",
   "status": "partial",
   "theorems": [
    "C297_refuted",
    "C297_partial",
    "C297_monte_recorded"
   ],
   "note": "REFUTED: testArchitecture records nothing. Proved: exactly the Monte Carlo and range calls record one result each."
  },
  {
   "property": "C298",
   "status": "partial",
   "theorems": [
    "C298_partial",
    "C298_refuted"
   ],
   "note": "REFUTED: each save appends all results so far. Proved: the exact content, k(k+1)/2 rows after k recordings."
  },
  {
   "property": "C299",
   "status": "partial",
   "theorems": [
    "C299_width_refuted",
    "C299_dropout_refuted",
    "C299_partial",
    "C299_dropout_partial"
   ],
   "note": "REFUTED: maximum and step have no influence; proved that exactly the minimum is tested."
  },
  {
   "property": "C300",
   "status": "partial",
   "theorems": [
    "C300_refuted",
    "C300_partial"
   ],
   "note": "REFUTED: zero Monte Carlo trials record an empty architecture for EARTH. Proved when every Monte Carlo call has a trial and a list of the right shape."
  },
  {
   "property": "C301",
   "status": "partial",
   "theorems": [
    "C301_refuted",
    "C301_partial"
   ],
   "note": "REFUTED: three dropout rates closer than 1e-6 give a cycle a < b < c < a. Proved: a strict total order when the dropout rates are equal or at least 1e-6 apart."
  },
  {
   "property": "C302",
   "status": "partial",
   "theorems": [
    "C302_refuted",
    "C302_partial",
    "C302_separated"
   ],
   "note": "REFUTED for NaN dropout rates. Proved for every pair of rates in [0,1]; with rates at least 1e-6 apart equality is identity."
  },
  {
   "property": "C303",
   "status": "proved",
   "theorems": [
    "C303_grid",
    "C303_once",
    "C303_count_free",
    "C303_count_fixed"
   ],
   "note": "Exact membership, no duplicates, count in both modes."
  },
  {
   "property": "C304",
   "status": "partial",
   "theorems": [
    "C304_valid",
    "C304_all",
    "C304_grid_refuted",
    "C304_partial"
   ],
   "note": "Random configurations are exactly those built from the options; REFUTED that the grid has them all (three layers, equal widths, residual with one hidden layer). Proved equal for a fixed number of at least two hidden layers."
  },
  {
   "property": "C305",
   "status": "proved",
   "theorems": [
    "C305_best",
    "C305_completes"
   ],
   "note": "First best, iteration count, and completion, for every noise and number of trials."
  },
  {
   "property": "C306",
   "status": "partial",
   "theorems": [
    "C306_empty_refuted",
    "C306_no_trials_refuted",
    "C306_no_iterations_refuted",
    "C306_no_options_refuted"
   ],
   "note": "REFUTED: no options, no trials or no iterations return uninitialised numbers or subscript an empty vector. Completion otherwise is C305_completes and C311_completes."
  },
  {
   "property": "C307",
   "status": "proved",
   "theorems": [
    "C307_tested"
   ],
   "note": "Exact table, for every earlier table."
  },
  {
   "property": "C308",
   "status": "proved",
   "theorems": [
    "C308_random"
   ],
   "note": "For every stream: whenever it returns, exactly max new different configurations."
  },
  {
   "property": "C309",
   "status": "partial",
   "theorems": [
    "C309_hangs_refuted"
   ],
   "note": "REFUTED: when fewer than max untested configurations are left it never returns, for every stream and however long it runs."
  },
  {
   "property": "C310",
   "status": "partial",
   "theorems": [
    "C310_refuted",
    "C310_grid_partial"
   ],
   "note": "REFUTED: random search forgets better earlier results. Proved for grid search among grid configurations."
  },
  {
   "property": "C311",
   "status": "proved",
   "theorems": [
    "C311_evolution",
    "C311_completes"
   ],
   "note": "For every stream: population size, validity under crossover and mutation, elitism, the first best of all evaluated, the exact table, completion."
  },
  {
   "property": "C312",
   "status": "partial",
   "theorems": [
    "C312_no_population_refuted",
    "C312_no_generations_refuted"
   ],
   "note": "REFUTED in both cases; C311 needs at least one configuration and one generation."
  },
  {
   "property": "C313",
   "status": "partial",
   "theorems": [
    "C313_grid_refuted",
    "C313_random_partial",
    "C313_evolution_partial"
   ],
   "note": "REFUTED for grid search, which tests again. Proved for random and evolutionary search: recorded Monte Carlo results = growth of the table."
  },
  {
   "property": "C314",
   "status": "partial",
   "theorems": [
    "C314_no_labels_refuted",
    "C314_partial"
   ],
   "note": "REFUTED: without labels it divides by zero. Proved otherwise for labels that are not NaN."
  },
  {
   "property": "C315",
   "status": "proved",
   "theorems": [
    "C315_grid",
    "C315_random",
    "C315_evolution"
   ],
   "note": "All three searches."
  },
  {
   "property": "C316",
   "status": "proved",
   "theorems": [
    "C316_histories",
    "C316_keeps"
   ],
   "note": "Every history of sensible calls (at least one trial, configuration and generation)."
  },
  {
   "property": "C317",
   "status": "proved",
   "theorems": [
    "C317_encode"
   ],
   "note": ""
  },
  {
   "property": "C318",
   "status": "proved",
   "theorems": [
    "C318_deterministic"
   ],
   "note": ""
  },
  {
   "property": "C319",
   "status": "partial",
   "theorems": [
    "C319_range_partial",
    "C319_reconstruction_refuted"
   ],
   "note": "REFUTED: without votes every decoded value is NaN or in [0, 1.75], so inputs of 2 or more are never reproduced. Missing: the range when activations are voted on."
  },
  {
   "property": "C320",
   "status": "proved",
   "theorems": [
    "C320_sample",
    "C320_seeds"
   ],
   "note": "Formula, seeds modulo 2^32; short vectors are out-of-bounds reads."
  },
  {
   "property": "C321",
   "status": "partial",
   "theorems": [
    "C321_protect_partial",
    "C321_protect_refuted"
   ],
   "note": "REFUTED: above 0.5 values are moved and the move counted as a corrected error; above 0.1 a value of 2^127 becomes infinite. Proved: unchanged up to 0.5 below 2^127."
  },
  {
   "property": "C322",
   "status": "partial",
   "theorems": [
    "C322_linear_partial",
    "C322_sizes_partial",
    "C322_network_refuted"
   ],
   "note": "REFUTED with use_interpolation: alpha 1 gives the interpolation network's answer. Proved for linear interpolation; sizes; short vectors are out-of-bounds reads without use_interpolation."
  },
  {
   "property": "C323",
   "status": "proved",
   "theorems": [
    "C323_generate"
   ],
   "note": ""
  },
  {
   "property": "C324",
   "status": "partial",
   "theorems": [
    "C324_training_refuted"
   ],
   "note": "REFUTED: no training function changes a weight."
  },
  {
   "property": "C325",
   "status": "partial",
   "theorems": [
    "C325_train_partial",
    "C325_divisor_refuted"
   ],
   "note": "REFUTED: the divisor is one too many when the batch size divides the number of samples. Proved: exact formula."
  },
  {
   "property": "C326",
   "status": "partial",
   "theorems": [
    "C326_zero_batch_refuted"
   ],
   "note": "REFUTED: batch size 0 never returns, or divides by zero on no data. Batch sizes other than 0 terminate: C325, C329."
  },
  {
   "property": "C327",
   "status": "partial",
   "theorems": [
    "C327_partition_partial",
    "C327_split_partial",
    "C327_split_refuted"
   ],
   "note": "REFUTED: 2^24+3 samples and split 0 throw, a NaN split is undefined. Proved: always a partition; sizes within 4 up to 2^24 samples and split in [0,1]."
  },
  {
   "property": "C328",
   "status": "proved",
   "theorems": [
    "C328_batches"
   ],
   "note": ""
  },
  {
   "property": "C329",
   "status": "proved",
   "theorems": [
    "C329_early_stopping"
   ],
   "note": ""
  },
  {
   "property": "C330",
   "status": "partial",
   "theorems": [
    "C330_empty_refuted",
    "C330_when_partial"
   ],
   "note": "REFUTED: one sample and the default split leave nothing to train on and every training loss is NaN. Proved: which losses are NaN."
  },
  {
   "property": "C331",
   "status": "proved",
   "theorems": [
    "C331_stats"
   ],
   "note": ""
  },
  {
   "property": "C332",
   "status": "partial",
   "theorems": [
    "C332_load_refuted",
    "C332_load_partial"
   ],
   "note": "REFUTED: loadModel returns false for every file. Proved: and changes nothing."
  },
  {
   "property": "C333",
   "status": "partial",
   "theorems": [
    "C333_file_partial",
    "C333_weights_refuted"
   ],
   "note": "REFUTED: no weight is written. Proved: dimensions and options come back."
  },
  {
   "property": "C334",
   "status": "partial",
   "theorems": [
    "C334_destroy_refuted",
    "C334_destroy_partial"
   ],
   "note": "REFUTED: destroying an object that loaded another object's file frees the other's string. Proved: otherwise defined."
  },
  {
   "property": "C335",
   "status": "partial",
   "theorems": [
    "C335_truncated_refuted",
    "C335_failed_load_refuted",
    "C335_unopened_partial"
   ],
   "note": "REFUTED: shorter than 24 bytes reads an indeterminate count; a refused allocation leaves the file's dimensions with the old networks. Proved: a file that cannot be opened changes nothing."
  },
  {
   "property": "C336",
   "status": "partial",
   "theorems": [
    "C336_narrow_refuted",
    "C336_train_partial"
   ],
   "note": "REFUTED: more latent than input dimensions with use_interpolation reads out of bounds. Proved: otherwise train answers."
  },
  {
   "property": "C337",
   "status": "proved",
   "theorems": [
    "C337_copy"
   ],
   "note": ""
  },
  {
   "property": "C338",
   "status": "proved",
   "theorems": [
    "C338_radiation",
    "C338_nothing_else"
   ],
   "note": ""
  },
  {
   "property": "C339",
   "status": "proved",
   "theorems": [
    "C339_config"
   ],
   "note": ""
  },
  {
   "property": "C340",
   "status": "proved",
   "theorems": [
    "C340_evaluate"
   ],
   "note": ""
  },
  {
   "property": "C341",
   "status": "proved",
   "theorems": [
    "C341_comprehensive"
   ],
   "note": ""
  },
  {
   "property": "C342",
   "status": "proved",
   "theorems": [
    "C342_usable"
   ],
   "note": ""
  },
  {
   "property": "C343",
   "status": "proved",
   "theorems": [
    "C343_range"
   ],
   "note": ""
  },
  {
   "property": "C344",
   "status": "partial",
   "theorems": [
    "C344_refuted",
    "C344_partial"
   ],
   "note": "REFUTED: std::min(0.999, NaN) is 0.999, so a NaN rate scores at least as high as any rate (C344_refuted). Proved: an infinite rate scores 0 when exp(-inf) = 0."
  },
  {
   "property": "C345",
   "status": "proved",
   "theorems": [
    "C345_rate"
   ],
   "note": ""
  },
  {
   "property": "C346",
   "status": "proved",
   "theorems": [
    "C346_protection"
   ],
   "note": ""
  },
  {
   "property": "C347",
   "status": "proved",
   "theorems": [
    "C347_depends"
   ],
   "note": ""
  },
  {
   "property": "C348",
   "status": "partial",
   "theorems": [
    "C348_refuted",
    "C348_partial"
   ],
   "note": "REFUTED: at rate 0 an ASIC with ECC scores 0.999 with every TMR approach. Proved: without ECC any TMR approach scores strictly above none at rate 0."
  },
  {
   "property": "C349",
   "status": "partial",
   "theorems": [
    "C349_refuted",
    "C349_partial"
   ],
   "note": "REFUTED: type NONE, which is not available, scores at least 0.84 at rate 0. Proved: it never scores above a real type with the same settings."
  },
  {
   "property": "C350",
   "status": "proved",
   "theorems": [
    "C350_history"
   ],
   "note": ""
  },
  {
   "property": "C351",
   "status": "partial",
   "theorems": [
    "C351_refuted",
    "C351_partial"
   ],
   "note": "REFUTED: the counters stay 0 whatever fails (log_error is never called). Proved: a fresh accelerator reports none and no call changes that."
  },
  {
   "property": "C352",
   "status": "proved",
   "theorems": [
    "C352_created"
   ],
   "note": ""
  },
  {
   "property": "C353",
   "status": "partial",
   "theorems": [
    "C353_refuted",
    "C353_partial"
   ],
   "note": "REFUTED: every type but NONE is reported missing, yet create_accelerator makes one that is available and initialises. Proved: create_best_available makes a detected type."
  },
  {
   "property": "C354",
   "status": "proved",
   "theorems": [
    "C354_best"
   ],
   "note": ""
  },
  {
   "property": "C355",
   "status": "partial",
   "theorems": [
    "C355_refuted",
    "C355_partial"
   ],
   "note": "REFUTED: the factory only makes the base class, so execute answers false after every history. Proved: it always completes and leaves the buffer alone."
  },
  {
   "property": "C356",
   "status": "proved",
   "theorems": [
    "C356_initialize"
   ],
   "note": ""
  },
  {
   "property": "C357",
   "status": "proved",
   "theorems": [
    "C357_software"
   ],
   "note": ""
  },
  {
   "property": "C358",
   "status": "partial",
   "theorems": [
    "C358_refuted",
    "C358_partial"
   ],
   "note": "REFUTED: initialize under COMPLETE turns software TMR off even though it fails, and no later initialize turns it on again, not even for a configuration without TMR. Proved: as long as the configuration is not changed."
  },
  {
   "property": "C359",
   "status": "proved",
   "theorems": [
    "C359_three"
   ],
   "note": ""
  },
  {
   "property": "C360",
   "status": "proved",
   "theorems": [
    "C360_majority"
   ],
   "note": ""
  },
  {
   "property": "C361",
   "status": "partial",
   "theorems": [
    "C361_refuted",
    "C361_partial"
   ],
   "note": "REFUTED: the sum overflows for large floats, the vote is infinite. Proved: within 3*M*2^-24 + 2^-148 of the mean when |x| <= M <= 2^98."
  },
  {
   "property": "C362",
   "status": "proved",
   "theorems": [
    "C362_nan"
   ],
   "note": ""
  },
  {
   "property": "C363",
   "status": "partial",
   "theorems": [
    "C363_refuted",
    "C363_partial"
   ],
   "note": "REFUTED: an accelerator that shortens its output makes execute index out of range. Proved: defined when no run shortens the buffer."
  },
  {
   "property": "C364",
   "status": "proved",
   "theorems": [
    "C364_system"
   ],
   "note": ""
  },
  {
   "property": "C365",
   "status": "partial",
   "theorems": [
    "C365_refuted",
    "C365_partial"
   ],
   "note": "REFUTED: it lowers the score when the accelerator's score is between 1e-6 and 0.499. Proved: it raises it from 0.501 on."
  },
  {
   "property": "C366",
   "status": "proved",
   "theorems": [
    "C366_diagnostics"
   ],
   "note": ""
  },
  {
   "property": "C367",
   "status": "partial",
   "theorems": [
    "C367_construct_refuted",
    "C367_construct_partial"
   ],
   "note": "REFUTED: a side of length 0 divides by zero. Proved: every other grid is built or refused as stated."
  },
  {
   "property": "C368",
   "status": "proved",
   "theorems": [
    "C368_positions"
   ],
   "note": ""
  },
  {
   "property": "C369",
   "status": "partial",
   "theorems": [
    "C369_roundtrip_refuted",
    "C369_roundtrip_partial"
   ],
   "note": "REFUTED: the index is cut to an int, so a 65536x65536 field reads outside its storage and two points of a 65537x65536 field share one cell. Proved for fields of up to 2^31 points."
  },
  {
   "property": "C370",
   "status": "proved",
   "theorems": [
    "C370_history"
   ],
   "note": ""
  },
  {
   "property": "C371",
   "status": "proved",
   "theorems": [
    "C371_coherent"
   ],
   "note": ""
  },
  {
   "property": "C372",
   "status": "proved",
   "theorems": [
    "C372_evolve"
   ],
   "note": ""
  },
  {
   "property": "C373",
   "status": "proved",
   "theorems": [
    "C373_klein_gordon"
   ],
   "note": ""
  },
  {
   "property": "C374",
   "status": "partial",
   "theorems": [
    "C374_dirac_refuted"
   ],
   "note": "REFUTED: evolveField returns without touching any field."
  },
  {
   "property": "C375",
   "status": "proved",
   "theorems": [
    "C375_maxwell"
   ],
   "note": ""
  },
  {
   "property": "C376",
   "status": "partial",
   "theorems": [
    "C376_atomic_refuted"
   ],
   "note": "REFUTED: with two photon fields of different grids the step throws out_of_range after changing points. C375 shows that fields of one grid never get that far."
  },
  {
   "property": "C377",
   "status": "proved",
   "theorems": [
    "C377_energy"
   ],
   "note": ""
  },
  {
   "property": "C378",
   "status": "partial",
   "theorems": [
    "C378_steps_refuted",
    "C378_steps_partial"
   ],
   "note": "REFUTED: steps is not used; one step is made whatever it says, even 0. Proved: grids, spacings and types are kept and one number per field is answered."
  },
  {
   "property": "C379",
   "status": "proved",
   "theorems": [
    "C379_simulate"
   ],
   "note": ""
  },
  {
   "property": "C380",
   "status": "partial",
   "theorems": [
    "C380_tunneling_refuted",
    "C380_tunneling_partial"
   ],
   "note": "REFUTED: a temperature of -1 K gives NaN, there is no guard on the temperature. Proved for temperature 0 and positive doubles between 2^-300 and 2^300."
  },
  {
   "property": "C381",
   "status": "proved",
   "theorems": [
    "C381_guards"
   ],
   "note": ""
  },
  {
   "property": "C382",
   "status": "proved",
   "theorems": [
    "C382_critical"
   ],
   "note": ""
  },
  {
   "property": "C383",
   "status": "proved",
   "theorems": [
    "C383_flip"
   ],
   "note": ""
  },
  {
   "property": "C384",
   "status": "partial",
   "theorems": [
    "C384_monotone_refuted",
    "C384_monotone_partial"
   ],
   "note": "REFUTED: at a tenth of the critical charge a tunnelling term is dropped and the probability falls. Proved from a tenth of the critical charge on, and against charges of at most zero."
  },
  {
   "property": "C385",
   "status": "partial",
   "theorems": [
    "C385_upset_refuted",
    "C385_upset_partial"
   ],
   "note": "REFUTED: beyond 2^32 the cast to uint32_t is undefined before the clamp to 8 is reached, and for an infinite charge. Proved up to 2^30 times the critical charge."
  },
  {
   "property": "C386",
   "status": "proved",
   "theorems": [
    "C386_upset_order"
   ],
   "note": "For charges up to 2^30 times the critical charge; beyond see C385."
  },
  {
   "property": "C387",
   "status": "partial",
   "theorems": [
    "C387_charge_refuted",
    "C387_charge_partial"
   ],
   "note": "REFUTED: the energy is not used. Proved: the bounds in the LET and the exceptions."
  },
  {
   "property": "C388",
   "status": "proved",
   "theorems": [
    "C388_corrections"
   ],
   "note": ""
  },
  {
   "property": "C389",
   "status": "partial",
   "theorems": [
    "C389_cap_refuted",
    "C389_cap_partial"
   ],
   "note": "REFUTED: below the temperature threshold the capped factor is multiplied again by up to 2.5 for the default parameters. Proved from the threshold on."
  },
  {
   "property": "C390",
   "status": "partial",
   "theorems": [
    "C390_transition_refuted",
    "C390_transition_partial"
   ],
   "note": "REFUTED: when energy, temperature and hbar are zero the quotient is NaN, and the answer is NaN, 1 or 0 by particle. Proved for positive hbar."
  },
  {
   "property": "C391",
   "status": "partial",
   "theorems": [
    "C391_displacement_refuted",
    "C391_displacement_partial"
   ],
   "note": "REFUTED: with the default parameters the zero point term, whose hbar is converted a second time, gives more than 10 MeV. Proved: the lower bound and the exceptions."
  },
  {
   "property": "C392",
   "status": "partial",
   "theorems": [
    "C392_cascade_refuted",
    "C392_cascade_partial"
   ],
   "note": "REFUTED: below the threshold the default distribution is returned, which is not empty. Proved above the threshold."
  },
  {
   "property": "C393",
   "status": "proved",
   "theorems": [
    "C393_decoherence"
   ],
   "note": ""
  },
  {
   "property": "C394",
   "status": "partial",
   "theorems": [
    "C394_sensitivity_refuted",
    "C394_sensitivity_partial"
   ],
   "note": "REFUTED: below 100 nm every device has a sensitivity above 65536, since an energy in eV is divided by the charge of the electron once more. Proved: the order, the fall with the size, and the documented values from 100 nm on."
  },
  {
   "property": "C395",
   "status": "proved",
   "theorems": [
    "C395_apply"
   ],
   "note": "For a size and size times duration of at most 2^40, beyond which see C396."
  },
  {
   "property": "C396",
   "status": "partial",
   "theorems": [
    "C396_duration_refuted"
   ],
   "note": "REFUTED: for one MiB and the longest duration the number of impacts does not fit in a uint32_t and the cast is undefined. C395 is the positive part."
  },
  {
   "property": "C397",
   "status": "proved",
   "theorems": [
    "C397_nothing"
   ],
   "note": ""
  },
  {
   "property": "C398",
   "status": "proved",
   "theorems": [
    "C398_phase_at_time"
   ],
   "note": ""
  },
  {
   "property": "C399",
   "status": "partial",
   "theorems": [
    "C399_long_mission_refuted",
    "C399_long_mission_partial"
   ],
   "note": "REFUTED: when the durations add up to more than 64 bits a late query overflows a signed integer. Proved for queries inside phases that end within 64 bits."
  },
  {
   "property": "C400",
   "status": "proved",
   "theorems": [
    "C400_worst_case"
   ],
   "note": ""
  },
  {
   "property": "C401",
   "status": "partial",
   "theorems": [
    "C401_worst_case_nan_refuted",
    "C401_worst_case_nan_partial"
   ],
   "note": "REFUTED: a NaN flux in the first environment hides all others. Proved when the first flux is a number, whatever the others are."
  },
  {
   "property": "C402",
   "status": "proved",
   "theorems": [
    "C402_exposure_accuracy"
   ],
   "note": ""
  },
  {
   "property": "C403",
   "status": "proved",
   "theorems": [
    "C403_exposure_grows"
   ],
   "note": ""
  },
  {
   "property": "C404",
   "status": "proved",
   "theorems": [
    "C404_standard_missions"
   ],
   "note": ""
  },
  {
   "property": "C405",
   "status": "proved",
   "theorems": [
    "C405_fallback_and_worst"
   ],
   "note": ""
  },
  {
   "property": "C406",
   "status": "partial",
   "theorems": [
    "C406_phase_independence_refuted",
    "C406_phase_independence_partial"
   ],
   "note": "REFUTED: on Moon and Mars missions the outbound and the return leg share one environment. Proved for every other pair of phases."
  },
  {
   "property": "C407",
   "status": "proved",
   "theorems": [
    "C407_missions_independent"
   ],
   "note": ""
  },
  {
   "property": "C408",
   "status": "proved",
   "theorems": [
    "C408_settings"
   ],
   "note": ""
  },
  {
   "property": "C409",
   "status": "proved",
   "theorems": [
    "C409_presets"
   ],
   "note": ""
  },
  {
   "property": "C410",
   "status": "proved",
   "theorems": [
    "C410_flux_finite"
   ],
   "note": "exp is any function with the bounds of exp_lib and cos any function into [-1, 1]."
  },
  {
   "property": "C411",
   "status": "proved",
   "theorems": [
    "C411_seu_probability"
   ],
   "note": ""
  },
  {
   "property": "C412",
   "status": "proved",
   "theorems": [
    "C412_activity"
   ],
   "note": ""
  },
  {
   "property": "C413",
   "status": "partial",
   "theorems": [
    "C413_illegal_refuted",
    "C413_recovery_partial"
   ],
   "note": "REFUTED: a NaN activity makes every flux NaN and the next flare sets the activity to 1; a flare of intensity -4 gives negative fluxes. Proved: setting any number, infinities included, brings the activity back into [0, 1]."
  },
  {
   "property": "C414",
   "status": "partial",
   "theorems": [
    "C414_flare_persists_refuted",
    "C414_restored_partial"
   ],
   "note": "REFUTED: nothing calls the decay function the flare stores; after a flare of at least 0.1 the proton flux stays up by 5 percent whatever follows short of setSolarActivity. Proved: setting the earlier activity restores every flux exactly."
  },
  {
   "property": "C415",
   "status": "partial",
   "theorems": [
    "C415_fresh_material_refuted",
    "C415_material_partial"
   ],
   "note": "REFUTED: the constructor computes the attenuation from an uninitialised material (undefined behaviour; here any int), so two new environments can differ. Proved: after the first setShielding nothing depends on it."
  },
  {
   "property": "C416",
   "status": "proved",
   "theorems": [
    "C416_thicker_shield"
   ],
   "note": ""
  },
  {
   "property": "C417",
   "status": "partial",
   "theorems": [
    "C417_factor_refuted",
    "C417_rise_partial"
   ],
   "note": "REFUTED: the factor is 1 + 100 i, yet no flux rises more than sixfold and heavy ions do not rise at all. Proved: electrons and protons do not fall (to 1e-3)."
  },
  {
   "property": "C418",
   "status": "proved",
   "theorems": [
    "C418_activity_law"
   ],
   "note": ""
  },
  {
   "property": "C419",
   "status": "proved",
   "theorems": [
    "C419_mission_order"
   ],
   "note": ""
  },
  {
   "property": "C420",
   "status": "partial",
   "theorems": [
    "C420_solar_probe_refuted"
   ],
   "note": "REFUTED: the distance to the Sun is a constant 1 AU, so the branch is never taken and a solar probe has exactly the flux of a geostationary satellite (also polar and equatorial LEO are the same)."
  },
  {
   "property": "C421",
   "status": "proved",
   "theorems": [
    "C421_anomaly"
   ],
   "note": ""
  },
  {
   "property": "C422",
   "status": "partial",
   "theorems": [
    "C422_longitude_refuted",
    "C422_longitude_partial"
   ],
   "note": "REFUTED: 320 degrees and -40 degrees name the centre of the anomaly, but only the latter has its protons. Proved for missions other than LEO."
  },
  {
   "property": "C423",
   "status": "proved",
   "theorems": [
    "C423_latitude_altitude"
   ],
   "note": ""
  },
  {
   "property": "C424",
   "status": "proved",
   "theorems": [
    "C424_heatmap"
   ],
   "note": ""
  },
  {
   "property": "C425",
   "status": "proved",
   "theorems": [
    "C425_orbit_position"
   ],
   "note": ""
  },
  {
   "property": "C426",
   "status": "partial",
   "theorems": [
    "C426_negative_time_refuted",
    "C426_negative_time_partial"
   ],
   "note": "REFUTED: for every time up to 0 the longitude is at most -180, e.g. -195 at -1 h. Proved: it is in [-540, 180)."
  },
  {
   "property": "C427",
   "status": "proved",
   "theorems": [
    "C427_distance_symmetric"
   ],
   "note": "sin is any odd function, cos and atan2 any functions."
  },
  {
   "property": "C428",
   "status": "proved",
   "theorems": [
    "C428_distance_itself"
   ],
   "note": ""
  },
  {
   "property": "C429",
   "status": "proved",
   "theorems": [
    "C429_dose"
   ],
   "note": ""
  },
  {
   "property": "C430",
   "status": "proved",
   "theorems": [
    "C430_rates_finite"
   ],
   "note": "std::pow returns doubles; nothing else is assumed about exp and pow."
  },
  {
   "property": "C431",
   "status": "proved",
   "theorems": [
    "C431_shield_bounds"
   ],
   "note": "std::pow returns doubles; for NaN thickness exp(NaN) and pow(NaN, y) are NaN."
  },
  {
   "property": "C432",
   "status": "proved",
   "theorems": [
    "C432_thicker_shield"
   ],
   "note": "exp and pow monotone, pow maps [0,1] to itself."
  },
  {
   "property": "C433",
   "status": "proved",
   "theorems": [
    "C433_rate_law"
   ],
   "note": ""
  },
  {
   "property": "C434",
   "status": "proved",
   "theorems": [
    "C434_environments"
   ],
   "note": ""
  },
  {
   "property": "C435",
   "status": "proved",
   "theorems": [
    "C435_activity"
   ],
   "note": "C435_dip shows that rates do not simply grow with activity."
  },
  {
   "property": "C436",
   "status": "proved",
   "theorems": [
    "C436_events"
   ],
   "note": "The integer distribution stays in its range."
  },
  {
   "property": "C437",
   "status": "proved",
   "theorems": [
    "C437_expected_events"
   ],
   "note": ""
  },
  {
   "property": "C438",
   "status": "partial",
   "theorems": [
    "C438_empty_runs_refuted",
    "C438_runs_complete_partial"
   ],
   "note": "REFUTED: the Poisson distribution is given a mean that is not positive, which is undefined. C438_runs_complete_partial: runs of 1e-6 to 1e9 days with at least one bit complete."
  },
  {
   "property": "C439",
   "status": "proved",
   "theorems": [
    "C439_mission_segments"
   ],
   "note": ""
  },
  {
   "property": "C440",
   "status": "partial",
   "theorems": [
    "C440_environment_lost_refuted",
    "C440_rest_kept_partial"
   ],
   "note": "REFUTED: the simulator is left in the environment of the last segment. C440_rest_kept_partial: everything else is kept, and after a TID run the environment is the old one or one of the trajectory."
  },
  {
   "property": "C441",
   "status": "partial",
   "theorems": [
    "C441_bad_trajectory_refuted",
    "C441_mission_completes_partial"
   ],
   "note": "REFUTED: front() of an empty vector, or durations read past their end. C441_mission_completes_partial: a well-formed trajectory can be set after any history and its mission completes."
  },
  {
   "property": "C442",
   "status": "proved",
   "theorems": [
    "C442_presets"
   ],
   "note": ""
  },
  {
   "property": "C443",
   "status": "proved",
   "theorems": [
    "C443_dose_keys"
   ],
   "note": ""
  },
  {
   "property": "C444",
   "status": "proved",
   "theorems": [
    "C444_dose_ignores_activity"
   ],
   "note": ""
  },
  {
   "property": "C445",
   "status": "proved",
   "theorems": [
    "C445_dose_days"
   ],
   "note": ""
  },
  {
   "property": "C446",
   "status": "partial",
   "theorems": [
    "C446_bits_beyond_memory_refuted",
    "C446_bits_bound_partial"
   ],
   "note": "REFUTED: an SEL in an 8-bit memory affects 1024 bits. C446_bits_bound_partial: every event affects 1 to 1048576 bits."
  },
  {
   "property": "C447",
   "status": "proved",
   "theorems": [
    "C447_factory"
   ],
   "note": ""
  },
  {
   "property": "C448",
   "status": "proved",
   "theorems": [
    "C448_energies"
   ],
   "note": ""
  },
  {
   "property": "C449",
   "status": "proved",
   "theorems": [
    "C449_zero_point"
   ],
   "note": ""
  },
  {
   "property": "C450",
   "status": "proved",
   "theorems": [
    "C450_devices"
   ],
   "note": ""
  },
  {
   "property": "C451",
   "status": "proved",
   "theorems": [
    "C451_defaults"
   ],
   "note": ""
  },
  {
   "property": "C452",
   "status": "proved",
   "theorems": [
    "C452_gate"
   ],
   "note": ""
  },
  {
   "property": "C453",
   "status": "partial",
   "theorems": [
    "C453_caps_refuted",
    "C453_enhancement_partial"
   ],
   "note": "REFUTED as stated: temperature alone adds up to 20 % and size alone up to 32 % (C453_caps_refuted). Proved: range [1, 1.6] (1.21 and 1.33 for one effect alone) for all doubles, monotonicity, saturation, no effect from 150 K and 20 nm on."
  },
  {
   "property": "C454",
   "status": "proved",
   "theorems": [
    "C454_tunnelling"
   ],
   "note": ""
  },
  {
   "property": "C455",
   "status": "proved",
   "theorems": [
    "C455_klein_gordon"
   ],
   "note": ""
  },
  {
   "property": "C456",
   "status": "proved",
   "theorems": [
    "C456_zero_point"
   ],
   "note": ""
  },
  {
   "property": "C457",
   "status": "proved",
   "theorems": [
    "C457_corrected_counts"
   ],
   "note": ""
  },
  {
   "property": "C458",
   "status": "partial",
   "theorems": [
    "C458_size_effect_refuted",
    "C458_decides_only_partial"
   ],
   "note": "REFUTED as stated: once corrections apply the result is the same for every feature size, because the Klein-Gordon term always falls to its lower clamp (C458_size_effect_refuted). Proved: the size only takes part in the decision."
  },
  {
   "property": "C459",
   "status": "partial",
   "theorems": [
    "C459_all_types_refuted",
    "C459_scope_partial"
   ],
   "note": "REFUTED as stated: heavy ions, positrons, muons and neutrinos are skipped (C459_all_types_refuted). Proved: exactly the four known particles are corrected, value by value."
  },
  {
   "property": "C460",
   "status": "proved",
   "theorems": [
    "C460_parameters"
   ],
   "note": ""
  },
  {
   "property": "C461",
   "status": "proved",
   "theorems": [
    "C461_settings"
   ],
   "note": ""
  },
  {
   "property": "C462",
   "status": "proved",
   "theorems": [
    "C462_predictions_in_range"
   ],
   "note": ""
  },
  {
   "property": "C463",
   "status": "partial",
   "theorems": [
    "C463_recovers_refuted",
    "C463_levels_partial"
   ],
   "note": "REFUTED as stated: after one NaN rate every prediction is 1 whatever is observed later (C463_recovers_refuted). Proved: after one NaN level the predictions no longer depend on the level, for ever."
  },
  {
   "property": "C464",
   "status": "proved",
   "theorems": [
    "C464_nothing_to_learn"
   ],
   "note": ""
  },
  {
   "property": "C465",
   "status": "partial",
   "theorems": [
    "C465_bands_refuted",
    "C465_bands_partial"
   ],
   "note": "REFUTED as stated: the low band uses 4.0 where 0.04 was meant, so a rate just below 1e-8 is answered with 4.0 and 0 with a negative rate (C465_bands_refuted). Proved: the three higher bands exactly, monotone from 1e-8 up, and in the low band monotone and at least 0.01."
  },
  {
   "property": "C466",
   "status": "proved",
   "theorems": [
    "C466_values"
   ],
   "note": ""
  },
  {
   "property": "C467",
   "status": "proved",
   "theorems": [
    "C467_order_kept"
   ],
   "note": ""
  },
  {
   "property": "C468",
   "status": "partial",
   "theorems": [
    "C468_softmax_refuted",
    "C468_others_partial"
   ],
   "note": "REFUTED as stated: SOFTMAX gives the identity (C468_softmax_refuted). Proved: the other four non-linear types differ from the identity, with the values of C466."
  },
  {
   "property": "C469",
   "status": "proved",
   "theorems": [
    "C469_repairs_while_wanted"
   ],
   "note": ""
  },
  {
   "property": "C470",
   "status": "partial",
   "theorems": [
    "C470_destroy_refuted",
    "C470_disable_first_partial"
   ],
   "note": "REFUTED as stated: the scrubber is a member of the base class, so it is stopped only after the derived part is gone, and its thread can make a pure virtual call in between (C470_destroy_refuted). Proved: no such call in any schedule of a program that disables before it destroys."
  },
  {
   "property": "C471",
   "status": "proved",
   "theorems": [
    "C471_no_deadlock"
   ],
   "note": ""
  },
  {
   "property": "C472",
   "status": "partial",
   "theorems": [
    "C472_exclusive_refuted",
    "C472_off_partial"
   ],
   "note": "REFUTED as stated: nothing keeps a repair out of an inference (C472_exclusive_refuted). Proved: there is none when auto-scrubbing was not wanted when the inference began."
  },
  {
   "property": "C473",
   "status": "proved",
   "theorems": [
    "C473_console"
   ],
   "note": ""
  },
  {
   "property": "C474",
   "status": "partial",
   "theorems": [
    "C474_asked_file_refuted",
    "C474_opened_file_partial"
   ],
   "note": "REFUTED as stated: a second init with another path goes on writing to the file opened first (C474_asked_file_refuted). Proved: exactly which file, if any, each line goes to, for every history."
  },
  {
   "property": "C475",
   "status": "partial",
   "theorems": [
    "C475_race_refuted",
    "C475_log_only_partial",
    "C475_any_threads_partial"
   ],
   "note": "REFUTED as stated: the level is read without the mutex, so a logging call races with init (C475_race_refuted). Proved in every schedule: for any programs, init included, file and console agree whenever the mutex is free and the threads never deadlock; for threads that only log, each thread finds its lines in its order."
  },
  {
   "property": "C476",
   "status": "proved",
   "theorems": [
    "C476_range_and_symmetry"
   ],
   "note": ""
  },
  {
   "property": "C477",
   "status": "partial",
   "theorems": [
    "C477_one_means_equal_refuted",
    "C477_equal_means_one_partial"
   ],
   "note": "REFUTED as stated: vectors that differ by little also get 1, and a vector holding an infinity gets NaN against itself (C477_one_means_equal_refuted). Proved: every non-empty vector of finite floats gets exactly 1 against itself."
  },
  {
   "property": "C478",
   "status": "proved",
   "theorems": [
    "C478_error_rate_falls"
   ],
   "note": ""
  },
  {
   "property": "C479",
   "status": "proved",
   "theorems": [
    "C479_error_rate_bound"
   ],
   "note": ""
  }
 ]
}