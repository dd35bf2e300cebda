{
 "claims": [
  {
   "property": "C01",
   "status": "proved",
   "theorems": [
    "C01_push_and_pop_is_bounded_queue",
    "C01_push_and_pop_memory_safe",
    "C01_push_and_pop_storage",
    "C01_push_and_pop_copy"
   ],
   "note": "Refinement of the cursor arithmetic to a bounded list queue for every history; capacities up to 2^30 (above that follower+idx overflows int)."
  },
  {
   "property": "C02",
   "status": "proved",
   "theorems": [
    "C02_fifo_exposes_last_window",
    "C02_fifo_full_turn",
    "C02_fifo_unfilled",
    "C02_fifo_fill"
   ],
   "note": "Every push history, length up to 2^31."
  },
  {
   "property": "C03",
   "status": "partial",
   "theorems": [
    "C03_push_and_pop_resize_refuted",
    "C03_push_and_pop_grow_not_empty_refuted",
    "C03_fifo_resize_refuted",
    "C03_push_and_pop_resize_clear_partial",
    "C03_fifo_grow_partial"
   ],
   "note": "False of the code: resize keeps leader/follower/running_index. Witnesses plus the cases that work (resize+clear; growing a FiFo)."
  },
  {
   "property": "C04",
   "status": "proved",
   "theorems": [
    "C04_at_is_exact",
    "C04_index_is_exact",
    "C04_write_changes_one_element",
    "C04_write_out_of_range_throws"
   ],
   "note": "Reads and writes through at()/operator[] for every array, index and build mode; release-build out-of-range operator[] is UB in the model."
  },
  {
   "property": "C05",
   "status": "partial",
   "theorems": [
    "C05_arrays_have_value_semantics_partial",
    "C05_self_assignment_refuted",
    "C05_self_assignment_exactly"
   ],
   "note": "Value semantics for every history of copies and writes between distinct objects; self-assignment of a dynamic array is refuted (frees its own storage first). C05_self_assignment_exactly covers every program: a self-assigned array keeps its size and every element becomes indeterminate, nothing else changes."
  },
  {
   "property": "C06",
   "status": "partial",
   "theorems": [
    "C06_stencil_reads_window_partial",
    "C06_stencil_writes_window_partial",
    "C06_stencil_creation_checked_partial",
    "C06_resettle_checked_partial",
    "C06_stencil_at_memory_safe_partial",
    "C06_stencil_index_unsafe_only_at_end_partial",
    "C06_index_past_end_refuted",
    "C06_outside_window_unreported_refuted",
    "C06_at_zero_throws_refuted",
    "C06_substencil_checked_partial",
    "C06_substencil_escapes_refuted"
   ],
   "note": "Window reads/writes and creation checks hold; the boundary cases are refuted with witnesses (index one past the end, accesses outside the window but inside the parent, at(0) on an empty window, sub-stencils)."
  },
  {
   "property": "C07",
   "status": "proved",
   "theorems": [
    "C07_guards_report_exactly_corruption",
    "C07_in_range_programs_never_reported",
    "C07_resizing_rearms"
   ],
   "note": "Guard report is equivalent to a changed guard byte, for every size and every pattern of stores; after a resize only stores made since are reported."
  },
  {
   "property": "C08",
   "status": "proved",
   "theorems": [
    "C08_comma_init_in_order",
    "C08_comma_init_bounded",
    "C08_comma_init_empty_array"
   ],
   "note": "Every number of values, including too many, and the empty array."
  },
  {
   "property": "C09",
   "status": "partial",
   "theorems": [
    "C09_round_trip_partial",
    "C09_bytes_little_endian_partial",
    "C09_wrong_size_refused_partial",
    "C09_eight_bytes_refuted",
    "C09_short_array_sign_extended_refuted"
   ],
   "note": "All values of the types up to four bytes round trip and the encoding is little-endian for all widths; reading back eight-byte types is undefined for every value (int shifted by >= 32), and short arrays are sign-extended - both refuted."
  },
  {
   "property": "C10",
   "status": "partial",
   "theorems": [
    "C10_cstring_canonical_partial",
    "C10_ranges",
    "C10_string_canonical_partial",
    "C10_minimum_undefined_refuted",
    "C10_string_minimum_undefined_refuted",
    "C10_negative_char_refuted",
    "C10_own_buffer_partial"
   ],
   "note": "Every type, buffer and value except the minimum of int/long/long long (negation overflows) and negative char (unsigned routine), which are refuted with witnesses."
  },
  {
   "property": "C11",
   "status": "partial",
   "theorems": [
    "C11_hex_accepts_partial",
    "C11_hex_rejects_partial",
    "C11_unfinished_token_refuted"
   ],
   "note": "Every string: accepted exactly when made of tokens and spaces, except that an unfinished final token is dropped silently (refuted)."
  },
  {
   "property": "C12",
   "status": "proved",
   "theorems": [
    "C12_digit_round_trip",
    "C12_other_values_rejected"
   ],
   "note": "All integers and characters, debug and release."
  },
  {
   "property": "C13",
   "status": "proved",
   "theorems": [
    "C13_format_valid"
   ],
   "note": "Every history of precisions; vsnprintf itself is not modelled."
  },
  {
   "property": "C14",
   "status": "partial",
   "theorems": [
    "C14_decimal_text_partial",
    "C14_sequences_round_trip_partial",
    "C14_cap_is_close_partial",
    "C14_no_overflow",
    "C14_maximum_rejected_refuted",
    "C14_zero_comma_refuted",
    "C14_long_text_cut_refuted"
   ],
   "note": "Every text up to 25 digits, every type, every continuation: exact below the cap (maximum with last digit zeroed) and OutOfRange above; sequences of printed integers read back. Refuted: maxima are rejected, \"0,\" is an error, over-long texts are cut. Absence of overflow proved for all device schedules."
  },
  {
   "property": "C15",
   "status": "partial",
   "theorems": [
    "C15_hex_exact_partial",
    "C15_hex_wraps_refuted",
    "C15_hex_large_refuted",
    "C15_hex_all_partial"
   ],
   "note": "Exact up to 0x7fff, rejected in 0xCCC0..0x7FFFF; refuted for all of 0x8000..0xCCBF (16-bit accumulator wraps) and larger values. C15_hex_all_partial says for every text which value is read and when it is rejected."
  },
  {
   "property": "C16",
   "status": "partial",
   "theorems": [
    "C16_whole_numbers_partial",
    "C16_fractions_partial",
    "C16_last_digit_lost_refuted",
    "C16_single_precision_step_refuted",
    "C16_long_cut_refuted"
   ],
   "note": "Exact rational arithmetic in place of float rounding; proved when something follows the number; refuted at end of stream (last digit always lost), for the 0.1f step, and beyond 25 digits."
  },
  {
   "property": "C17",
   "status": "proved",
   "theorems": [
    "C17_console_preserves_bytes",
    "C17_console_no_overflow",
    "C17_shared_file_preserves_bytes",
    "C17_flush_hands_over"
   ],
   "note": "Block lengths below 2^32 (the loop counter is unsigned int); fputs/fflush/fwrite accept every byte.  The NUL case is C81."
  },
  {
   "property": "C18",
   "status": "partial",
   "theorems": [
    "C18_string_device_queue_partial",
    "C18_single_writes_overflow_refuted",
    "C18_write_after_clear_refuted"
   ],
   "note": "Missing: single-byte writes after clear or beyond 256 bytes past the initial text, which leave the allocation (refuted)."
  },
  {
   "property": "C19",
   "status": "partial",
   "theorems": [
    "C19_registry_partial",
    "C19_failed_open_locks_refuted",
    "C19_flush_failure_frees_refuted"
   ],
   "note": "Missing: histories with failing opens or flushes, which leave the mutex locked or free an instance in use (refuted).  Fewer than 2^32 operations."
  },
  {
   "property": "C20",
   "status": "proved",
   "theorems": [
    "C20_short_timeouts",
    "C20_long_timeouts"
   ],
   "note": "Terminal driver VTIME is modelled as 100 ms units.  Timeouts from 25.6 s on are C82."
  },
  {
   "property": "C21",
   "status": "proved",
   "theorems": [
    "C21_temporary_format",
    "C21_permanent_format"
   ],
   "note": "Printing after temporary and after permanent settings, for the nine integer types; the converter's buffer holds arbitrary bytes. Texts are specified by digit values and by the numeral specification shared with C10."
  },
  {
   "property": "C22",
   "status": "proved",
   "theorems": [
    "C22_temporary_uses_do_not_leak",
    "C22_histories_complete"
   ],
   "note": "Erasure theorem over all histories plus totality of ordinary histories."
  },
  {
   "property": "C23",
   "status": "proved",
   "theorems": [
    "C23_rethrow_preserves",
    "C23_what_is_the_report",
    "C23_report_determines_chain"
   ],
   "note": "Error(flag).what() belongs to another package and is a parameter."
  },
  {
   "property": "C24",
   "status": "proved",
   "theorems": [
    "C24_emissions_reach_connected_slots",
    "C24_once_per_shared_topic",
    "C24_names_are_ordered"
   ],
   "note": "Refinement of the manager's topic map, publication pointers and per-sigslot sets to a relation of connections; emission enumerates the routes, restores every lock and counter. One thread, callbacks do not use sigslots."
  },
  {
   "property": "C25",
   "status": "proved",
   "theorems": [
    "C25_disconnect_safe"
   ],
   "note": "The complement (the only member of a topic in both roles) is C91."
  },
  {
   "property": "C26",
   "status": "proved",
   "theorems": [
    "C26_shared_connection_lives_with_last_copy"
   ],
   "note": "Assignment between unrelated objects is C92."
  },
  {
   "property": "C27",
   "status": "proved",
   "theorems": [
    "C27_addition_exact",
    "C27_comparisons_exact"
   ],
   "note": "All normalised operands, both forms of addition, both build modes. Overflow of 64-bit seconds not modelled."
  },
  {
   "property": "C28",
   "status": "partial",
   "theorems": [
    "C28_subtraction_exact_partial",
    "C28_normalised_partial",
    "C28_difference_normalised_refuted",
    "C28_comparison_after_difference_refuted"
   ],
   "note": "Exact for all operands; normalised exactly if the nanoseconds of the operands differ by less than a second, which they do unless the signs are opposite. The opposite-sign case is refuted (no carry in operator-)."
  },
  {
   "property": "C29",
   "status": "proved",
   "theorems": [
    "C29_watch_exact",
    "C29_splits_add_up",
    "C29_cpuwatch_from_construction"
   ],
   "note": "Clock = arbitrary non-decreasing list of readings."
  },
  {
   "property": "C30",
   "status": "partial",
   "theorems": [
    "C30_no_drift_partial",
    "C30_rebased_into_future_partial",
    "C30_valid_deadline_refuted",
    "C30_new_snoozer_ok_partial"
   ],
   "note": "No drift and rebasing hold for every clock; a deadline with tv_nsec = 10^9 is reachable (wrap test uses > instead of >=), refuted with a witness and characterised (only at whole seconds)."
  },
  {
   "property": "C31",
   "status": "partial",
   "theorems": [
    "C31_millisleep_exact_partial",
    "C31_constructed_sleeps_exact_partial",
    "C31_subsecond_sleeps_exact_partial",
    "C31_sleep_exact_partial",
    "C31_micro_invalid_request_refuted",
    "C31_nano_stale_seconds_refuted",
    "C31_calls_exactly"
   ],
   "note": "MilliSleep full; Micro/NanoSleep operator()(x) refuted (tv_sec not updated); proved for constructed durations and sub-second durations. C31_calls_exactly: the call is right exactly when the constructor's and the call's durations are both below a second."
  },
  {
   "property": "C32",
   "status": "proved",
   "theorems": [
    "C32_printing_exact",
    "C32_printing_injective"
   ],
   "note": "Decimal rendering of long by the standard library is assumed canonical."
  },
  {
   "property": "C33",
   "status": "proved",
   "theorems": [
    "C33_mutual_exclusion",
    "C33_mutual_exclusion_debug_any_client",
    "C33_trylock",
    "C33_waiters_get_in"
   ],
   "note": "pthread mutex by contract; wrapper code step by step; any number of threads; debug builds need no client discipline."
  },
  {
   "property": "C34",
   "status": "proved",
   "theorems": [
    "C34_locks_counts_holders_and_waiters"
   ],
   "note": "load and store of the counter are separate steps; proved when no thread is preempted between them; arbitrary interleavings are C95 (refuted)."
  },
  {
   "property": "C35",
   "status": "proved",
   "theorems": [
    "C35_at_most_one_worker",
    "C35_start_result"
   ],
   "note": "one calling thread; several callers are C98 (refuted)."
  },
  {
   "property": "C36",
   "status": "proved",
   "theorems": [
    "C36_thread_lifecycle",
    "C36_second_start_busy"
   ],
   "note": "cancel is C100, failed creation C102, second join C103 (all refuted)."
  },
  {
   "property": "C37",
   "status": "proved",
   "theorems": [
    "C37_mutual_exclusion",
    "C37_trylock",
    "C37_unlock_releases"
   ],
   "note": "signals are C109, extra unlocks C108, destruction of objects C112 (refuted)."
  },
  {
   "property": "C38",
   "status": "proved",
   "theorems": [
    "C38_deadline"
   ],
   "note": "exactness is C110 (refuted)."
  },
  {
   "property": "C39",
   "status": "proved",
   "theorems": [
    "C39_real_time_round_trip",
    "C39_higher_levels_strictly_higher"
   ],
   "note": "scheduler range of at least ten levels (POSIX guarantees 32)."
  },
  {
   "property": "C40",
   "status": "proved",
   "theorems": [
    "C40_flags_are_sets",
    "C40_set_then_kept",
    "C40_stays_in_int",
    "C40_starts_empty",
    "C40_predefined_bits"
   ],
   "note": "int bit patterns; flags are single bits 0..30; any sequence of operations."
  },
  {
   "property": "C41",
   "status": "proved",
   "theorems": [
    "C41_valid_line_is_read_back",
    "C41_order_is_irrelevant"
   ],
   "note": "complete for programs without exclusive groups; reserved characters in values are listed in item_ok; exceptions are C125, C129"
  },
  {
   "property": "C42",
   "status": "proved",
   "theorems": [
    "C42_accepted_line_is_meaningful"
   ],
   "note": "sound for programs without groups and positional arguments and for plain words; the excluded words are C124, C127, C128"
  },
  {
   "property": "C43",
   "status": "proved",
   "theorems": [
    "C43_exactly_one_of_each_group"
   ],
   "note": "groups of switches, value and positional arguments; combined grouped switches and multi-valued members are C130"
  },
  {
   "property": "C44",
   "status": "proved",
   "theorems": [
    "C44_wrap_is_equivalent_and_in_range",
    "C44_wrap_idempotent",
    "C44_arithmetic_is_wrapped",
    "C44_double_range_and_idempotent",
    "C44_double_error"
   ],
   "note": "Exact arithmetic for all angles; range and idempotence also with every operation rounded to double."
  },
  {
   "property": "C45",
   "status": "proved",
   "theorems": [
    "C45_triangle_holds_binomials"
   ],
   "note": "Degrees up to 33; induction over the two loops. Degrees from 34 on are C136."
  },
  {
   "property": "C46",
   "status": "proved",
   "theorems": [
    "C46_evaluation_is_the_sum",
    "C46_derivative_is_the_derivative",
    "C46_shift_moves_the_graph"
   ],
   "note": "Sum, limit of difference quotients, and p(x-s), for coefficient lists of any length (shift up to degree 33)."
  },
  {
   "property": "C47",
   "status": "proved",
   "theorems": [
    "C47_linear",
    "C47_point_slope",
    "C47_cubic_with_slopes",
    "C47_cubic_with_accelerations",
    "C47_quintic",
    "C47_equal_abscissae_not_finite"
   ],
   "note": "Includes first and second derivatives after the final shift; equal abscissae give non-finite coefficients (theorem)."
  },
  {
   "property": "C48",
   "status": "proved",
   "theorems": [
    "C48_division"
   ],
   "note": "Ring identities over all coefficients."
  },
  {
   "property": "C49",
   "status": "proved",
   "theorems": [
    "C49_linear_roots",
    "C49_quadratic_roots",
    "C49_degenerate_quadratic",
    "C49_cubic_roots"
   ],
   "note": "Linear, quadratic, cubic incl. double roots, Cardano and the trigonometric case; the symmetric single-root case is C135."
  },
  {
   "property": "C50",
   "status": "proved",
   "theorems": [
    "C50_linear_extrema",
    "C50_cubic_extrema"
   ],
   "note": "Attained and bounding, for all intervals, by the extreme value theorem and Fermat."
  },
  {
   "property": "C51",
   "status": "proved",
   "theorems": [
    "C51_intersection_is_on_both_lines"
   ],
   "note": "Intersection lies on both lines and is the only common point; a throw means relatively equal slopes."
  },
  {
   "property": "C52",
   "status": "proved",
   "theorems": [
    "C52_natural",
    "C52_clamped",
    "C52_sizes_checked"
   ],
   "note": "Natural and clamped cubic splines over the reals, any number of points: interpolation, C2 at all times, end conditions, safe evaluation; debug builds check the sizes."
  },
  {
   "property": "C53",
   "status": "proved",
   "theorems": [
    "C53_heuristic"
   ],
   "note": "Any number of points over the reals; slopes at inner points are the means of the chord slopes."
  },
  {
   "property": "C54",
   "status": "proved",
   "theorems": [
    "C54_smooth_linear",
    "C54_large_bound",
    "C54_sizes_checked"
   ],
   "note": "Shape, C2 smoothness and bound of the smooth linear spline; large enough bounds always succeed; debug builds check the sizes."
  },
  {
   "property": "C55",
   "status": "proved",
   "theorems": [
    "C55_tension",
    "C55_sizes_checked"
   ],
   "note": "Natural tension splines over the reals, any number of points; debug builds check the sizes."
  },
  {
   "property": "C56",
   "status": "proved",
   "theorems": [
    "C56_distance_is_the_minimum"
   ],
   "note": "Minimum over the segment, attained, including degenerate segments."
  },
  {
   "property": "C57",
   "status": "proved",
   "theorems": [
    "C57_coefficients_vanish_at_the_ends"
   ],
   "note": "Non-vertical segments; vertical ones are C139."
  },
  {
   "property": "C58",
   "status": "proved",
   "theorems": [
    "C58_distance_is_the_minimum"
   ],
   "note": "The trajectory must have at least one pose (see C147); floats are exact reals."
  },
  {
   "property": "C59",
   "status": "partial",
   "theorems": [
    "C59_append_refuted",
    "C59_never_appends",
    "C59_append_to_empty_partial"
   ],
   "note": "Refuted: Eigen's comma initialiser overwrites the target and never grows it; only the case of an empty target appends. C59_never_appends covers every non-empty call."
  },
  {
   "property": "C60",
   "status": "proved",
   "theorems": [
    "C60_concatenation_composes",
    "C60_heading_in_range",
    "C60_associative",
    "C60_identity",
    "C60_extension_is_concatenation",
    "C60_legacy_product",
    "C60_legacy_inverse",
    "C60_legacy_relative",
    "C60_legacy_construction"
   ],
   "note": "Exact arithmetic. Matrix storage must hold a rotation (the class never checks). Self-extension is C144."
  },
  {
   "property": "C61",
   "status": "proved",
   "theorems": [
    "C61_wheel_update",
    "C61_rates_reproduce_the_velocity",
    "C61_base_differential",
    "C61_recovers_the_motion"
   ],
   "note": "Exact arithmetic; bias and radius non-zero where the code divides by them."
  },
  {
   "property": "C62",
   "status": "proved",
   "theorems": [
    "C62_running_equals_batch"
   ],
   "note": "Exact arithmetic; reading an uninitialised member would be an undefined outcome in the model. The rounded counter is C148."
  },
  {
   "property": "C63",
   "status": "proved",
   "theorems": [
    "C63_eigen_decomposition",
    "C63_axes_draw_the_ellipse"
   ],
   "note": "Exact arithmetic, double and float versions alike; rounding is C150. The 3-D ellipsoids call Eigen's solver and are not modelled."
  },
  {
   "property": "C64",
   "status": "proved",
   "theorems": [
    "C64_x_intercept"
   ],
   "note": "Exact arithmetic. A vertical major axis makes tan(pi/2) undefined in exact arithmetic (no double is pi/2), so it is excluded."
  },
  {
   "property": "C65",
   "status": "proved",
   "theorems": [
    "C65_laws",
    "C65_meaning",
    "C65_integers"
   ],
   "note": "Floating point comparison over all reals and precisions in [0,1)."
  },
  {
   "property": "C66",
   "status": "proved",
   "theorems": [
    "C66_durations"
   ],
   "note": "Any number of waypoints and joints, over the reals."
  },
  {
   "property": "C67",
   "status": "partial",
   "theorems": [
    "C67_stopwatch_splits_from_construction_partial",
    "C67_stopwatch_construction_refuted"
   ],
   "note": "Refuted: the constructor reads the clock twice; the exact discrepancy is proved."
  },
  {
   "property": "C68",
   "status": "proved",
   "theorems": [
    "C68_frequency_monitor_exact",
    "C68_new_monitor",
    "C68_rate"
   ],
   "note": "hz (float division) is not modelled; the count and interval are (C68_rate). 100000 s is the cap on the minimum interval, as in the code."
  },
  {
   "property": "C69",
   "status": "partial",
   "theorems": [
    "C69_error_is_latest_failure_partial",
    "C69_error_is_sticky_refuted"
   ],
   "note": "Refuted (flag is never reset by a success); the exact behaviour - flag of the latest failure - is proved for every history."
  },
  {
   "property": "C70",
   "status": "proved",
   "theorems": [
    "C70_string_to_int_exact",
    "C70_rejects_others",
    "C70_print_read_identity"
   ],
   "note": "operator>> of istringstream is modelled by the C++ standard's grammar (C locale, base 10)."
  },
  {
   "property": "C71",
   "status": "partial",
   "theorems": [
    "C71_bool_partial",
    "C71_bool_overruns_refuted",
    "C71_exactly"
   ],
   "note": "Refuted for buffers that are too small; proved, with the exact bytes touched, for buffers of five (true) or six (false) cells and more. C71_exactly: a buffer is respected if and only if it has room for the word and its terminator."
  },
  {
   "property": "C72",
   "status": "proved",
   "theorems": [
    "C72_words"
   ],
   "note": "All texts; device never pauses or fails inside a word."
  },
  {
   "property": "C73",
   "status": "partial",
   "theorems": [
    "C73_failures_reported_partial",
    "C73_characters_partial",
    "C73_string_swallows_refuted"
   ],
   "note": "Integers and floats for every schedule; strings and booleans refuted."
  },
  {
   "property": "C74",
   "status": "partial",
   "theorems": [
    "C74_target_unchanged_partial",
    "C74_hex_zeroes_refuted"
   ],
   "note": "Floats, and integers of texts without x; a failed hexadecimal read zeroes the target (refuted)."
  },
  {
   "property": "C75",
   "status": "partial",
   "theorems": [
    "C75_uninterrupted_partial",
    "C75_streams_interfere_refuted"
   ],
   "note": "Refuted by a 12-step schedule over the static digit buffer; uninterrupted runs proved equal to the sequential parser."
  },
  {
   "property": "C76",
   "status": "partial",
   "theorems": [
    "C76_destruction_loses_bytes_refuted",
    "C76_flushed_destruction_partial"
   ],
   "note": "False without an explicit flush."
  },
  {
   "property": "C77",
   "status": "partial",
   "theorems": [
    "C77_empty_flush_refuted",
    "C77_flush_succeeds_partial"
   ],
   "note": "False when nothing is buffered, e.g. after writing exactly 4096 bytes."
  },
  {
   "property": "C78",
   "status": "proved",
   "theorems": [
    "C78_append_mode"
   ],
   "note": "Append mode, every previous content and every sequence of block writes; the OS takes a block whole or fails."
  },
  {
   "property": "C79",
   "status": "partial",
   "theorems": [
    "C79_console_input_partial",
    "C79_byte_255_refuted"
   ],
   "note": "Byte 255 is taken for the end of input."
  },
  {
   "property": "C80",
   "status": "proved",
   "theorems": [
    "C80_short_timeout_read"
   ],
   "note": "All timeouts from 1 to 99 ms and all arrival schedules; the OS side of polling is a contract."
  },
  {
   "property": "C81",
   "status": "partial",
   "theorems": [
    "C81_console_nul_refuted",
    "C81_console_partial"
   ],
   "note": "False: fputs stops at the first NUL. C81_console_partial: after a final flush the output equals what was written exactly when no NUL was written."
  },
  {
   "property": "C82",
   "status": "partial",
   "theorems": [
    "C82_large_timeouts_refuted",
    "C82_never_longer_refuted",
    "C82_timeouts_partial"
   ],
   "note": "False: the tenths of a second are stored in one byte. C82_timeouts_partial gives the wait for every timeout; it is the intended one exactly below 25600 ms."
  },
  {
   "property": "C83",
   "status": "partial",
   "theorems": [
    "C83_new_mode_keeps_tail_refuted",
    "C83_new_mode_partial"
   ],
   "note": "False when the old content is longer: the file is not truncated."
  },
  {
   "property": "C84",
   "status": "partial",
   "theorems": [
    "C84_zero_timeout_refuted",
    "C84_timeouts_partial"
   ],
   "note": "False: the polling loop does not run and the count is never set. C84_timeouts_partial: exactly the timeout 0 is affected."
  },
  {
   "property": "C85",
   "status": "partial",
   "theorems": [
    "C85_float_temporary_partial",
    "C85_float_leak_refuted",
    "C85_string_leak_refuted"
   ],
   "note": "Refuted: float formatters whose permanent alignment is NoAlign start padding after one temporary use, string formatters keep every temporary setting. Partial: erasure theorem for float formatters with another alignment and non-negative precisions."
  },
  {
   "property": "C86",
   "status": "partial",
   "theorems": [
    "C86_three_arguments_history_refuted",
    "C86_first_use_undefined_refuted",
    "C86_three_arguments_partial"
   ],
   "note": "Refuted: the alignment of the previous temporary use is reused, and before the first one it is indeterminate. C86_three_arguments_partial: the text printed for every remembered alignment."
  },
  {
   "property": "C87",
   "status": "partial",
   "theorems": [
    "C87_float_text_partial",
    "C87_float_truncated_refuted",
    "C87_scientific_refuted",
    "C87_temporary_partial",
    "C87_settings_partial",
    "C87_scientific_text_refuted"
   ],
   "note": "Refuted: texts longer than 29 characters are cut, more than 20 decimals are never printed, the scientific base prints a fixed sentence. Partial: texts of at most 29 characters with at most 20 decimals, with permanent settings (C87_settings_partial) and with settings for one value (C87_temporary_partial). snprintf itself is a parameter (precision to text)."
  },
  {
   "property": "C88",
   "status": "partial",
   "theorems": [
    "C88_minimum_undefined_refuted",
    "C88_negative_char_refuted",
    "C88_values_partial"
   ],
   "note": "Refuted for the smallest int/long and for negative char, inherited from the converters (C10). C88_values_partial covers every other value of every type."
  },
  {
   "property": "C89",
   "status": "proved",
   "theorems": [
    "C89_string_format",
    "C89_string_settings"
   ],
   "note": "Text length and width restricted so that int arithmetic does not overflow."
  },
  {
   "property": "C90",
   "status": "partial",
   "theorems": [
    "C90_print_before_text_refuted",
    "C90_print_without_data_partial",
    "C90_print_twice_partial"
   ],
   "note": "Refuted: the string formatter never initialises its flag. Partial: the others."
  },
  {
   "property": "C91",
   "status": "partial",
   "theorems": [
    "C91_lonely_disconnect_undefined",
    "C91_signal_on_its_own_topic_refuted"
   ],
   "note": "Refuted: the end iterator of the topic map is dereferenced; shown to happen in every state where the signal is the only member in both roles."
  },
  {
   "property": "C92",
   "status": "partial",
   "theorems": [
    "C92_assignment_frees_early_refuted",
    "C92_assignment_leaks_refuted",
    "C92_between_copies_partial",
    "C92_counts_refuted"
   ],
   "note": "Refuted: operator= does not adjust the handle counts. C92_between_copies_partial: assignment between handles of one connection changes nothing; C92_counts_refuted: between others one count ends one too low and the other one too high."
  },
  {
   "property": "C93",
   "status": "partial",
   "theorems": [
    "C93_circular_signals_refuted",
    "C93_any_circle_refuted",
    "C93_ordered_partial"
   ],
   "note": "Refuted: unbounded recursion, for every stack depth and every circle (C93_any_circle_refuted). C93_ordered_partial: emission ends whenever the connections can be ordered; C24 covers the delivered values."
  },
  {
   "property": "C94",
   "status": "partial",
   "theorems": [
    "C94_topic_disconnect_refuted",
    "C94_topic_disconnect",
    "C94_slot_refuted_for_all"
   ],
   "note": "Refuted (member of SigSlot, not reachable through Signal and Slot), for every world by C94_slot_refuted_for_all."
  },
  {
   "property": "C95",
   "status": "partial",
   "theorems": [
    "C95_concurrent_lock_counter_refuted",
    "C95_uninterrupted_partial"
   ],
   "note": "Witness: two threads, 16 steps, counter ends at 2^32-1. C95_uninterrupted_partial: 0 at the end whenever no thread is preempted in the middle of an update and no lock call failed."
  },
  {
   "property": "C96",
   "status": "partial",
   "theorems": [
    "C96_failed_lock_leaves_counter_refuted",
    "C96_failed_locks_counted_partial"
   ],
   "note": "Witness in debug build. C96_failed_locks_counted_partial: the counter exceeds the truth by exactly the number of failed lock calls."
  },
  {
   "property": "C97",
   "status": "partial",
   "theorems": [
    "C97_timed_trylock_waits_refuted",
    "C97_timed_trylock_partial"
   ],
   "note": "the duration is passed as an absolute time; partial theorem states what is left."
  },
  {
   "property": "C98",
   "status": "partial",
   "theorems": [
    "C98_concurrent_starts_one_worker_refuted",
    "C98_starts_apart_partial"
   ],
   "note": "Witness schedule with two callers. C98_starts_apart_partial: with starts that do not overlap at most one worker runs."
  },
  {
   "property": "C99",
   "status": "partial",
   "theorems": [
    "C99_failed_start_is_reported_refuted",
    "C99_failed_start_can_be_retried_refuted",
    "C99_debug_reports_partial"
   ],
   "note": "Release build returns true without a worker; no later start can launch one in either build. C99_debug_reports_partial: in debug builds start() returns true as often as a worker begins."
  },
  {
   "property": "C100",
   "status": "partial",
   "theorems": [
    "C100_cancel_is_safe_refuted",
    "C100_cancel_partial",
    "C100_cancel_refuted_everywhere"
   ],
   "note": "Refuted wherever cancel finds the thread (C100_cancel_refuted_everywhere): freed twice or used after it was freed, unless a cancellation point inside the function stops the thread first (C100_cancel_partial)."
  },
  {
   "property": "C101",
   "status": "partial",
   "theorems": [
    "C101_is_running_refuted",
    "C101_is_running_partial"
   ],
   "note": "task pointer is never reset; partial: true exactly from the start on."
  },
  {
   "property": "C102",
   "status": "partial",
   "theorems": [
    "C102_destroy_after_failed_start_refuted",
    "C102_destroy_partial",
    "C102_failed_start"
   ],
   "note": "pthread_detach of a handle never set. C102_destroy_partial: after a failed start, destruction is defined exactly when join was called before. C102_failed_start: what a failed start reports."
  },
  {
   "property": "C103",
   "status": "partial",
   "theorems": [
    "C103_join_twice_refuted",
    "C103_never_started_partial",
    "C103_join_again_refuted"
   ],
   "note": "pthread_join of a joined handle. C103_never_started_partial: joining an object never started returns however often it is called. C103_join_again_refuted: in every history without cancel a join after a completed join is undefined."
  },
  {
   "property": "C104",
   "status": "proved",
   "theorems": [
    "C104_nice_levels_round_trip",
    "C104_values"
   ],
   "note": "Linux setpriority contract, privileged; C104_values gives the niceness of every level."
  },
  {
   "property": "C105",
   "status": "partial",
   "theorems": [
    "C105_background_round_trip_refuted",
    "C105_levels_partial"
   ],
   "note": "Background is the one level that does not read back (C105_levels_partial, after any requests without a real-time level)."
  },
  {
   "property": "C106",
   "status": "partial",
   "theorems": [
    "C106_refusal_is_reported_refuted",
    "C106_refusal_is_reported_partial"
   ],
   "note": "High unprivileged returns true; partial: Critical and real-time levels do report."
  },
  {
   "property": "C107",
   "status": "partial",
   "theorems": [
    "C107_leaving_real_time_refuted",
    "C107_requests_partial"
   ],
   "note": "C107_requests_partial gives what is read back after every sequence of requests with the privilege: the latest real-time level if there was one, else the latest niceness."
  },
  {
   "property": "C108",
   "status": "partial",
   "theorems": [
    "C108_extra_unlock_is_harmless_refuted",
    "C108_extra_unlock_partial"
   ],
   "note": "releases somebody else's lock; race raises the count to 2; partial: harmless on a free semaphore without interference."
  },
  {
   "property": "C109",
   "status": "partial",
   "theorems": [
    "C109_lock_survives_signals_refuted",
    "C109_signals_partial"
   ],
   "note": "C109_signals_partial: with k interrupted lock() calls at most k + 1 processes are inside."
  },
  {
   "property": "C110",
   "status": "partial",
   "theorems": [
    "C110_exact_deadline_refuted",
    "C110_deadline_partial"
   ],
   "note": "C110_deadline_partial: late exactly when the nanoseconds add up to 999999999."
  },
  {
   "property": "C111",
   "status": "proved",
   "theorems": [
    "C111_same_name_same_semaphore"
   ],
   "note": "registry of one name, sem_open by contract."
  },
  {
   "property": "C112",
   "status": "partial",
   "theorems": [
    "C112_destroy_keeps_the_name_refuted",
    "C112_same_name_partial"
   ],
   "note": "C112_same_name_partial: two objects share the semaphore exactly when none was destroyed between their constructions."
  },
  {
   "property": "C113",
   "status": "proved",
   "theorems": [
    "C113_shared_memory"
   ],
   "note": "value abstracted to one number, constructor four atomic steps."
  },
  {
   "property": "C114",
   "status": "partial",
   "theorems": [
    "C114_overlapping_attach_refuted",
    "C114_overlapping_attach_partial"
   ],
   "note": "C114_overlapping_attach_partial: calls may interleave in any way as long as nobody writes before the creator's constructor has returned."
  },
  {
   "property": "C115",
   "status": "partial",
   "theorems": [
    "C115_creator_may_leave_refuted",
    "C115_creator_may_leave_partial"
   ],
   "note": "C115_creator_may_leave_partial: harmless if nobody attaches afterwards."
  },
  {
   "property": "C116",
   "status": "partial",
   "theorems": [
    "C116_smaller_storage_refuted",
    "C116_larger_storages_partial",
    "C116_two_exactly"
   ],
   "note": "C116_larger_storages_partial: harmless if no process attaches with a smaller Storage than those before. C116_two_exactly: for two processes exactly then."
  },
  {
   "property": "C117",
   "status": "proved",
   "theorems": [
    "C117_test_flag"
   ],
   "note": "characterises testFlag for arbitrary values."
  },
  {
   "property": "C118",
   "status": "partial",
   "theorems": [
    "C118_combination_needs_all_refuted",
    "C118_each_flag_partial"
   ],
   "note": "C118_each_flag_partial: all flags of a combination are set exactly when each alone tests true."
  },
  {
   "property": "C119",
   "status": "proved",
   "theorems": [
    "C119_double_dash_protects_labelled"
   ],
   "note": "From every parser state; the double dash where an argument may start."
  },
  {
   "property": "C120",
   "status": "proved",
   "theorems": [
    "C120_labels_are_unique",
    "C120_duplicates_throw"
   ],
   "note": "Every declaration sequence, built-in arguments included."
  },
  {
   "property": "C121",
   "status": "proved",
   "theorems": [
    "C121_values_are_default_or_allowed"
   ],
   "note": "Every program and argument vector; constraints are value lists."
  },
  {
   "property": "C122",
   "status": "proved",
   "theorems": [
    "C122_usage_wrapping_keeps_text_and_width",
    "C122_indentation"
   ],
   "note": "Texts whose first line can be broken; widths and content of the printed lines, and the column of every line (C122_indentation)."
  },
  {
   "property": "C123",
   "status": "partial",
   "theorems": [
    "C123_usage_of_long_names_refuted",
    "C123_usage_of_long_names_refuted_for_all",
    "C123_exactly"
   ],
   "note": "refuted: when the first line has no blank, comma or bar the code reads s[-1] (undefined), for every such text (refuted_for_all). C123_exactly: printing is defined if and only if the text fits on one line or its first line holds a blank, comma or bar. Texts that can be broken are C122."
  },
  {
   "property": "C124",
   "status": "partial",
   "theorems": [
    "C124_unknown_word_rejected_refuted",
    "C124_known_words_partial",
    "C124_standard_words"
   ],
   "note": "refuted: the built-in ignore switch has flag '-', so a single-dash word with an inner dash switches on \"ignore the rest\"; C124_known_words_partial: in an accepted line without such words every word is a label, the value of one, a positional value, or a dash followed by characters of switches and asterisks; C124_standard_words: exactly which words the built-in arguments of every accepted program answer to"
  },
  {
   "property": "C125",
   "status": "partial",
   "theorems": [
    "C125_values_with_asterisk_refuted",
    "C125_other_texts_partial"
   ],
   "note": "refuted: '*' doubles as the marker of a consumed switch character. Partial: every text as a word of its own, and exactly the texts without asterisk in the joined form (positional: after the first character, and not starting with a dash)"
  },
  {
   "property": "C126",
   "status": "partial",
   "theorems": [
    "C126_parsers_are_independent_refuted",
    "C126_optional_positional_refuted",
    "C126_harmless_lines_partial"
   ],
   "note": "refuted: the ignore flag, the delimiter and the optional-positional marker are static and never reset; C126_harmless_lines_partial: after a program without optional positional arguments whose line has no word that names the ignore switch or contains its flag, every further program is set up as in a fresh process"
  },
  {
   "property": "C127",
   "status": "partial",
   "theorems": [
    "C127_empty_words_rejected_refuted",
    "C127_other_words_partial"
   ],
   "note": "refuted: a lone dash or dash-star word is accepted silently; C127_other_words_partial: an accepted word that is neither a label nor positional is a dash followed by characters of switches and asterisks"
  },
  {
   "property": "C128",
   "status": "partial",
   "theorems": [
    "C128_empty_number_rejected_refuted",
    "C128_other_texts_partial"
   ],
   "note": "refuted: the default is kept for a value argument, a multi-value argument reads an indeterminate element; C128_other_texts_partial: for every non-empty text exactly the readable ones are accepted, with the number they denote"
  },
  {
   "property": "C129",
   "status": "partial",
   "theorems": [
    "C129_short_and_long_agree_refuted",
    "C129_short_and_long_agree_partial"
   ],
   "note": "refuted: a switch whose flag occurs in the value consumes that character first. Partial: for every line the short forms of which are understood (no switch character in a joined value), writing the long forms has the same effect"
  },
  {
   "property": "C130",
   "status": "partial",
   "theorems": [
    "C130_groups_with_combined_switches_refuted",
    "C130_groups_of_repeatable_arguments_refuted",
    "C130_groups_and_required_partial"
   ],
   "note": "refuted: -xb -a sets both members; -xa is rejected; two multi-valued members compensate for missing required arguments. Partial: without repeatable group members and combined grouped switches both halves hold"
  },
  {
   "property": "C131",
   "status": "partial",
   "theorems": [
    "C131_counting_switch_terminates_refuted",
    "C131_always_defined_partial"
   ],
   "note": "refuted: flag '*' loops forever (undefined: loop without side effects that never ends); C131_always_defined_partial: otherwise, for lines without empty words and counts that leave room for the characters of the line, every outcome is defined"
  },
  {
   "property": "C132",
   "status": "partial",
   "theorems": [
    "C132_float_wrap_refuted",
    "C132_single_precision_partial",
    "C132_single_error_partial"
   ],
   "note": "False: the float nearest to pi wraps below -pi and back (bit by bit). C132_single_precision_partial: with every operation rounded, for every float the result is within that float of 0, and wrapping again changes it only if it is that float or its negative; C132_single_error_partial: the result is within (|a| + 8) / 2^23 of an angle equivalent to a (overflow is not modelled)"
  },
  {
   "property": "C133",
   "status": "proved",
   "theorems": [
    "C133_rotation_matrix_round_trip",
    "C133_angle_of_rotation",
    "C133_rotations_compose"
   ],
   "note": "Exact arithmetic."
  },
  {
   "property": "C134",
   "status": "proved",
   "theorems": [
    "C134_degrees_round_trip"
   ],
   "note": "Exact arithmetic."
  },
  {
   "property": "C135",
   "status": "partial",
   "theorems": [
    "C135_cubic_roots_finite_refuted",
    "C135_exactly_partial"
   ],
   "note": "False: x^3+x yields NaN; C135_exactly_partial: this happens for exactly the cubics c3((x-m)^3+p(x-m)) with p > 0"
  },
  {
   "property": "C136",
   "status": "partial",
   "theorems": [
    "C136_triangle_of_any_degree_refuted",
    "C136_overflow_exactly"
   ],
   "note": "False: degree 34 and above overflows int while filling the triangle (undefined behaviour); C136_overflow_exactly shows this is the exact boundary; smaller degrees are C45 and C46."
  },
  {
   "property": "C137",
   "status": "partial",
   "theorems": [
    "C137_failure_flag_reset_refuted",
    "C137_flag_partial"
   ],
   "note": "False: the flag is never reset; C137_flag_partial: it tells whether any intersection so far has failed"
  },
  {
   "property": "C138",
   "status": "partial",
   "theorems": [
    "C138_mixed_comparison_consistent_refuted",
    "C138_whole_partial"
   ],
   "note": "False: integer-left overload compares exactly. C138_whole_partial: for whole numbers on the right and precisions too fine to confuse two integers of that size the implication holds."
  },
  {
   "property": "C139",
   "status": "partial",
   "theorems": [
    "C139_vertical_coefficients_refuted",
    "C139_vertical_partial"
   ],
   "note": "False: C has the wrong sign (the unit test expects it); C139_vertical_partial: the line described is the mirrored one, right exactly for segments on the y axis"
  },
  {
   "property": "C140",
   "status": "partial",
   "theorems": [
    "C140_cubic_degrades_refuted",
    "C140_exactly"
   ],
   "note": "False: division by zero for every such cubic. C140_exactly gives the exact condition under which the search divides by zero; C140_inflection covers cubics whose only root is their inflection point."
  },
  {
   "property": "C141",
   "status": "partial",
   "theorems": [
    "C141_repeated_abscissae_refuted",
    "C141_repeated_abscissae_refuted_for_all"
   ],
   "note": "refuted for every data set with two equal neighbouring abscissae and every constructor: the outcome is non-finite coefficients, never an exception (C141_repeated_abscissae_refuted_for_all)"
  },
  {
   "property": "C142",
   "status": "partial",
   "theorems": [
    "C142_debug_range_check",
    "C142_release_out_of_bounds",
    "C142_release_out_of_bounds_refuted",
    "C142_release_partial"
   ],
   "note": "The debug range check is proved for all three kinds of spline and their derivatives; C142_release_partial: the release build reads out of bounds for every point past the end of any spline and goes on with the first piece before its beginning."
  },
  {
   "property": "C143",
   "status": "partial",
   "theorems": [
    "C143_too_few_points_refuted",
    "C143_points_needed_partial"
   ],
   "note": "refuted: no points (heuristic), two points (tension) or one point (smooth linear) is undefined behaviour; C143_points_needed_partial: how many points each constructor needs, for all increasing abscissae"
  },
  {
   "property": "C144",
   "status": "partial",
   "theorems": [
    "C144_early_partial",
    "C144_self_extension_refuted",
    "C144_self_extension_exactly"
   ],
   "note": "Refuted for left-to-right evaluation (mandatory since C++17): the second coefficient reads the overwritten first. C144_self_extension_exactly characterises the poses for which it is right."
  },
  {
   "property": "C145",
   "status": "proved",
   "theorems": [
    "C145_conversion_preserves_the_motion",
    "C145_storages_agree"
   ],
   "note": "Exact arithmetic."
  },
  {
   "property": "C146",
   "status": "proved",
   "theorems": [
    "C146_vector_to_trajectory",
    "C146_set_then_get",
    "C146_front_and_back",
    "C146_resize_keeps",
    "C146_poses_and_twists"
   ],
   "note": "Containers of trajectories of any length."
  },
  {
   "property": "C147",
   "status": "partial",
   "theorems": [
    "C147_empty_trajectory_refuted",
    "C147_exactly_the_empty_one"
   ],
   "note": "Refuted for the empty trajectory, and only for it."
  },
  {
   "property": "C148",
   "status": "partial",
   "theorems": [
    "C148_counter_exactly",
    "C148_counter_refuted"
   ],
   "note": "Refuted for both types; C148_counter_exactly gives the exact value min(k, 2^24) resp. min(k, 2^53)."
  },
  {
   "property": "C149",
   "status": "partial",
   "theorems": [
    "C149_y_intercept_refuted",
    "C149_uncorrelated_is_zero",
    "C149_exactly"
   ],
   "note": "Refuted: the code multiplies by sin(angle) where cos(angle) is needed. C149_uncorrelated_is_zero shows a whole family, and C149_exactly shows that for covariances whose longer axis is not vertical the second intercept is right if and only if both variances are equal and the correlation is positive."
  },
  {
   "property": "C150",
   "status": "partial",
   "theorems": [
    "C150_axes_in_doubles_refuted",
    "C150_uncorrelated_partial"
   ],
   "note": "Refuted bit-exactly: variances 1 and 2, covariance 2^-60. C150_uncorrelated_partial: without correlation the axes are exactly the coordinate axes, for all variances."
  },
  {
   "property": "C151",
   "status": "partial",
   "theorems": [
    "C151_no_waypoints_refuted",
    "C151_validate"
   ],
   "note": "validate is exact for a non-empty trajectory; with no waypoints the unsigned segment count wraps and both functions read outside the list (refuted witness)."
  },
  {
   "property": "C152",
   "status": "proved",
   "theorems": [
    "C152_linear_outcome",
    "C152_linear_path"
   ],
   "note": "rates as configured at the first waypoint or zero; the number of stretching rounds is a parameter (C154 is about termination)."
  },
  {
   "property": "C153",
   "status": "partial",
   "theorems": [
    "C153_end_rate_partial",
    "C153_end_rate_refuted"
   ],
   "note": "refuted: the end rate is k times the requested one with 0 < k <= 1/2, because the last pulled-forward time is doubled after the tangents were built; right only for rest (partial theorem)."
  },
  {
   "property": "C154",
   "status": "partial",
   "theorems": [
    "C154_linear_finishes",
    "C154_never_finishes",
    "C154_linear_terminates_refuted",
    "C154_bounded_terminates_refuted"
   ],
   "note": "refuted for the default (zero) maximum accelerations, for last segments under a millisecond, and for a short last segment with rest at the end: the data of the exception always stretches the first segment. Proved to finish at once for large bounds."
  },
  {
   "property": "C155",
   "status": "partial",
   "theorems": [
    "C155_evaluate",
    "C155_before_interpolation_refuted"
   ],
   "note": "refuted before the first interpolation: the evaluators read element size()-1 of an empty array."
  },
  {
   "property": "C156",
   "status": "partial",
   "theorems": [
    "C156_equal",
    "C156_dimensions_refuted"
   ],
   "note": "refuted for different dimensions: equality depends on the order or reads outside the shorter waypoint."
  },
  {
   "property": "C157",
   "status": "partial",
   "theorems": [
    "C157_one_owner",
    "C157_copies_refuted"
   ],
   "note": "proved for one owner; refuted for copies (the implicit copy shares the pointers)."
  },
  {
   "property": "C158",
   "status": "proved",
   "theorems": [
    "C158_characters_raw",
    "C158_characters_formatted"
   ],
   "note": "Every text, both modes."
  },
  {
   "property": "C159",
   "status": "proved",
   "theorems": [
    "C159_booleans",
    "C159_no_word"
   ],
   "note": "Every word, any preceding blanks and rest."
  },
  {
   "property": "C160",
   "status": "proved",
   "theorems": [
    "C160_distance_metric"
   ],
   "note": "Metric laws over the reals."
  },
  {
   "property": "C161",
   "status": "proved",
   "theorems": [
    "C161_signs",
    "C161_cube_root"
   ],
   "note": "Every real; cube_root over the reals."
  },
  {
   "property": "C162",
   "status": "proved",
   "theorems": [
    "C162_fraction_accessors",
    "C162_negative"
   ],
   "note": "Every normalised time, positive or negative, in exact integer arithmetic."
  },
  {
   "property": "C163",
   "status": "partial",
   "theorems": [
    "C163_redimension_partial",
    "C163_nominal_rates_refuted"
   ],
   "note": "Redimensioning gives the right sizes (partial); refuted in full, as the nominal rates become zero and the trajectory no longer validates."
  },
  {
   "property": "C164",
   "status": "proved",
   "theorems": [
    "C164_histories_stay_bounded",
    "C164_write_results",
    "C164_console_counts"
   ],
   "note": "Every history of writes and flushes with OS failures at any point."
  },
  {
   "property": "C165",
   "status": "proved",
   "theorems": [
    "C165_only_the_last_positional_is_optional"
   ],
   "note": "Every declaration sequence in a fresh process."
  },
  {
   "property": "C166",
   "status": "proved",
   "theorems": [
    "C166_group_member_given_repeatedly"
   ],
   "note": "One exclusive group, repeatable member given any positive number of times."
  },
  {
   "property": "C167",
   "status": "partial",
   "theorems": [
    "C167_tension_path",
    "C167_spline_law",
    "C167_refusals",
    "C167_release_unchecked_refuted"
   ],
   "note": "The path of the tension interpolation: end conditions, inner waypoints, differentiability, bounds on the leading and trailing curves; refusals of debug builds; release builds check nothing (refuted with two waypoints: out of range access)."
  },
  {
   "property": "C168",
   "status": "partial",
   "theorems": [
    "C168_leading_join_partial",
    "C168_leading_join_refuted"
   ],
   "note": "Continuously differentiable if the last segment was not lengthened; refuted in general by five waypoints whose trailing loop lengthens the last segment, where the position jumps at the end of the leading curve."
  },
  {
   "property": "C169",
   "status": "partial",
   "theorems": [
    "C169_tension_finishes",
    "C169_default_bound_refuted"
   ],
   "note": "Finishes iff all bounds are positive; the default bound of zero never finishes."
  },
  {
   "property": "C170",
   "status": "partial",
   "theorems": [
    "C170_accelerations_partial",
    "C170_ample_bounds",
    "C170_accelerations_refuted",
    "C170_leading_jump_refuted"
   ],
   "note": "Holds when the first and last segments are not lengthened, which large enough bounds guarantee; refuted by five waypoints in a line started from rest; the acceleration jumps at the end of the leading curve whatever the bound."
  },
  {
   "property": "C171",
   "status": "partial",
   "theorems": [
    "C171_client_no_leak",
    "C171_no_leak_partial",
    "C171_server_refuted",
    "C171_serial_refuted",
    "C171_file_refuted"
   ],
   "note": "Full for socket clients. For servers, serial ports and files refuted with unboundedly many lost descriptors; partial for every device when none of the losing calls (accepting a client, bind failure in the constructor, opening failure after ::open, opening an open file) happens."
  },
  {
   "property": "C172",
   "status": "partial",
   "theorems": [
    "C172_own_partial",
    "C172_foreign_close_refuted",
    "C172_foreign_file_refuted",
    "C172_server_refuted",
    "C172_unopened_refuted",
    "C172_stale_client_refuted"
   ],
   "note": "Refuted for sockets (hung up, closed or never opened, then destroyed); partial when sockets are closed and destroyed only while open; for clients that condition is exact."
  },
  {
   "property": "C173",
   "status": "partial",
   "theorems": [
    "C173_client_status",
    "C173_server_status_partial",
    "C173_server_refuted",
    "C173_serial_status_partial",
    "C173_file_status_partial",
    "C173_reopen_refuted",
    "C173_closed",
    "C173_failed_close_refuted",
    "C173_constructors",
    "C173_listen"
   ],
   "note": "Proved for clients; partial for servers (bind succeeds), ports (stop bits accepted) and files (not open before); refuted otherwise. C173_listen: accepting a connection answers with a fresh descriptor or leaves everything as it was."
  },
  {
   "property": "C174",
   "status": "partial",
   "theorems": [
    "C174_open_refuted",
    "C174_static_partial",
    "C174_timeout_refuted"
   ],
   "note": "Both ways of constructing and opening a port read an indeterminate member (refuted); partial for objects in zeroed storage."
  },
  {
   "property": "C175",
   "status": "proved",
   "theorems": [
    "C175_stream",
    "C175_progress",
    "C175_peek",
    "C175_write"
   ],
   "note": "For clients and servers, all interleavings; reads below 2^31 bytes."
  },
  {
   "property": "C176",
   "status": "partial",
   "theorems": [
    "C176_hangup_partial",
    "C176_empty_read_refuted",
    "C176_reset_client",
    "C176_reset_server_refuted",
    "C176_write",
    "C176_write_failed"
   ],
   "note": "Partial for reads of at least one byte; refuted for empty reads and for resets on servers."
  },
  {
   "property": "C177",
   "status": "partial",
   "theorems": [
    "C177_client_disconnected",
    "C177_server_read_partial",
    "C177_server_refuted"
   ],
   "note": "Proved for clients; servers only check in read."
  },
  {
   "property": "C178",
   "status": "partial",
   "theorems": [
    "C178_remaining_partial",
    "C178_remaining_refuted",
    "C178_server_failure",
    "C178_client_failure_refuted"
   ],
   "note": "Partial when the upper half of the uninitialised variable is zero; otherwise refuted."
  },
  {
   "property": "C179",
   "status": "partial",
   "theorems": [
    "C179_error_partial",
    "C179_client_write_refuted"
   ],
   "note": "Partial: every call but a client's write and failed remaining."
  },
  {
   "property": "C180",
   "status": "partial",
   "theorems": [
    "C180_same_partial",
    "C180_differ_refuted"
   ],
   "note": "Exact list of errno values where the two classifications differ."
  },
  {
   "property": "C181",
   "status": "partial",
   "theorems": [
    "C181_recognised_partial",
    "C181_known",
    "C181_mislabelled_refuted"
   ],
   "note": "Exact sets of errno values behind the affected classifications."
  },
  {
   "property": "C182",
   "status": "proved",
   "theorems": [
    "C182_uniform",
    "C182_ends"
   ],
   "note": "Rounding as IEEE binary32/binary64 (Flocq, round to nearest even); rand() any function with answers in 0..2^31-1."
  },
  {
   "property": "C183",
   "status": "partial",
   "theorems": [
    "C183_finite_partial",
    "C183_float_refuted",
    "C183_polar"
   ],
   "note": "Exact polar transform (C183_polar) with the arithmetic of the type rounded operation by operation, up to the final logarithm and root."
  },
  {
   "property": "C184",
   "status": "proved",
   "theorems": [
    "C184_returns",
    "C184_stuck"
   ],
   "note": "Sufficient condition for every library, and one library for which the loop never ends."
  },
  {
   "property": "C185",
   "status": "partial",
   "theorems": [
    "C185_uniform",
    "C185_even_partial",
    "C185_left_over_refuted",
    "C185_unseeded"
   ],
   "note": "Histories over the state shared by all generators of one type (rand's state and two static locals). Refuted for gaussian numbers for every library and every seed."
  },
  {
   "property": "C186",
   "status": "partial",
   "theorems": [
    "C186_shared_refuted",
    "C186_latest_seed_partial"
   ],
   "note": "Refuted for every library and seed; C186_latest_seed_partial: the uniform numbers after the latest construction are those of its seed alone, whatever happened before"
  },
  {
   "property": "C187",
   "status": "partial",
   "theorems": [
    "C187_product",
    "C187_inverse",
    "C187_relative",
    "C187_rigid",
    "C187_storage",
    "C187_any_matrix_refuted"
   ],
   "note": "The refuted theorem shows what happens with a matrix that is no rotation, which the API accepts. Exact arithmetic."
  },
  {
   "property": "C188",
   "status": "proved",
   "theorems": [
    "C188_lift",
    "C188_homomorphism"
   ],
   "note": "Proved."
  },
  {
   "property": "C189",
   "status": "partial",
   "theorems": [
    "C189_quaternion",
    "C189_axis_angle_quaternion",
    "C189_angle_axis_refuted",
    "C189_angle_axis_ignored",
    "C189_any_quaternion_refuted"
   ],
   "note": "The angle-axis constructor is a stub (TODO in the source): refuted. The quaternion constructor is proved for unit quaternions and refuted for others."
  },
  {
   "property": "C190",
   "status": "proved",
   "theorems": [
    "C190_rotate",
    "C190_polar",
    "C190_distance",
    "C190_normalize",
    "C190_arithmetic",
    "C190_access"
   ],
   "note": "Proved."
  },
  {
   "property": "C191",
   "status": "partial",
   "theorems": [
    "C191_norm",
    "C191_integer_norm",
    "C191_integer_norm_refuted"
   ],
   "note": "Proved for doubles (exact arithmetic) and characterised for int; homogeneity is refuted for int."
  },
  {
   "property": "C192",
   "status": "partial",
   "theorems": [
    "C192_normalize_refuted",
    "C192_normalize_axis_refuted",
    "C192_rotate_refuted",
    "C192_distance",
    "C192_sums",
    "C192_normalize_partial",
    "C192_rotate_partial"
   ],
   "note": "Normalize is refuted with the rounded arithmetic of doubles and characterised by C192_normalize_partial; C192_rotate_partial gives what rotating keeps (exact trigonometry, truncated); distance and sums are proved."
  },
  {
   "property": "C193",
   "status": "partial",
   "theorems": [
    "C193_fourth_partial",
    "C193_coordinates",
    "C193_element",
    "C193_short_comma",
    "C193_fourth_refuted"
   ],
   "note": "The full invariant is refuted by three ways to write the fourth element; the partial theorem covers debug constructors and coordinate setters."
  },
  {
   "property": "C194",
   "status": "partial",
   "theorems": [
    "C194_text",
    "C194_block_is_bytes",
    "C194_latest_header_refuted",
    "C194_default_refuted",
    "C194_default_with_flags",
    "C194_direct_log_refuted"
   ],
   "note": "The text of the log is proved for every schedule; three readings of the interface are refuted. The rendering of a time stamp is that of TimeModel."
  },
  {
   "property": "C195",
   "status": "partial",
   "theorems": [
    "C195_whole_messages_partial",
    "C195_whole_messages_refuted"
   ],
   "note": "Whole messages under two conditions (short, flushed at once); refuted without them by a concrete schedule."
  },
  {
   "property": "C196",
   "status": "partial",
   "theorems": [
    "C196_flush_partial",
    "C196_flush_refuted"
   ],
   "note": "Proved with some mode enabled; refuted when all modes are disabled."
  },
  {
   "property": "C197",
   "status": "partial",
   "theorems": [
    "C197_lift",
    "C197_round_trip",
    "C197_flatten_partial",
    "C197_flatten_refuted",
    "C197_matrix_quaternion"
   ],
   "note": "Conversions proved over exact reals; flattening an arbitrary transform is refuted."
  },
  {
   "property": "C198",
   "status": "proved",
   "theorems": [
    "C198_line"
   ],
   "note": "Proved."
  },
  {
   "property": "C199",
   "status": "partial",
   "theorems": [
    "C199_rotation",
    "C199_same_quaternion_refuted",
    "C199_exactly",
    "C199_any_axis"
   ],
   "note": "Equality of the two quaternions is refuted at -pi, equality up to sign is proved. C199_exactly: they are equal if and only if the heading is above -2/3 pi."
  },
  {
   "property": "C200",
   "status": "proved",
   "theorems": [
    "C200_endpoints",
    "C200_steady"
   ],
   "note": "Over exact reals, with the exact exponential and logarithm of Sophus."
  },
  {
   "property": "C201",
   "status": "partial",
   "theorems": [
    "C201_endpoints_partial",
    "C201_stays_level",
    "C201_endpoints_refuted",
    "C201_coplanar_check_refuted"
   ],
   "note": "Proved for planar relative motion; refuted for tilted frames (debug) and frames at different heights (release)."
  },
  {
   "property": "C202",
   "status": "proved",
   "theorems": [
    "C202_straight",
    "C202_endpoints"
   ],
   "note": "Proved."
  },
  {
   "property": "C203",
   "status": "partial",
   "theorems": [
    "C203_stamp_from_double",
    "C203_huge_undefined_refuted"
   ],
   "note": "Doubles are Flocq's binary64 format without an upper exponent bound, every operation rounded to nearest even. The _refuted theorem gives the undefined behaviour at 2^63."
  },
  {
   "property": "C204",
   "status": "partial",
   "theorems": [
    "C204_round_trip_partial",
    "C204_round_trip_epoch_partial",
    "C204_round_trip_exact_refuted",
    "C204_present_day_refuted"
   ],
   "note": "The exact round trip is false (_refuted, with 1 s 2 ns and 1700000000 s 100 ns); the _partial theorems give the true error bounds. Negative stamps are not covered."
  },
  {
   "property": "C205",
   "status": "partial",
   "theorems": [
    "C205_statistics_exact_arithmetic",
    "C205_empty_undefined_refuted",
    "C205_variance_is_square_of_deviation_refuted"
   ],
   "note": "Exact arithmetic (no rounding of the double operations, which C203 and C204 do cover). Missing: rounding errors of the sums."
  },
  {
   "property": "C206",
   "status": "partial",
   "theorems": [
    "C206_columns_line_up",
    "C206_minimal_width_refuted",
    "C206_negative_zero_refuted",
    "C206_empty_refuted",
    "C206_given_width"
   ],
   "note": "Columns line up and a given width is respected for all containers without negative zero whose texts have at most 29 characters. Refuted: the automatic width is not minimal (9.5 with precision 2 gets a blank too many), a negative zero spoils the alignment, and an empty container with automatic width throws (debug) or reads the first element of nothing (release)."
  },
  {
   "property": "C207",
   "status": "partial",
   "theorems": [
    "C207_temporaries_do_not_last",
    "C207_two_calls_refuted",
    "C207_setter_in_between_refuted"
   ],
   "note": "Holds for every history in which each call is streamed before the next one. Refuted if a second call with temporary settings, or a setter, comes between a call and its streaming."
  },
  {
   "property": "C208",
   "status": "partial",
   "theorems": [
    "C208_temporaries_do_not_last",
    "C208_matrix_layout",
    "C208_transform_layout",
    "C208_pending_temporary_refuted"
   ],
   "note": "Layout and histories proved for matrices of any shape and for transforms. Refuted: a call without temporary settings made while a call with temporary settings was not yet streamed prints with the temporary ones."
  },
  {
   "property": "C209",
   "status": "partial",
   "theorems": [
    "C209_byte_text",
    "C209_streamed_twice",
    "C209_bytes_twice_refuted"
   ],
   "note": "Byte text proved for every container. Numbers: streamed twice throws in a debug build. Refuted for bytes: the byte formatters never reset their state, so the second streaming is not noticed; a fresh one in a release build dereferences null."
  },
  {
   "property": "C210",
   "status": "partial",
   "theorems": [
    "C210_values_partial",
    "C210_copy_sets_original_refuted",
    "C210_copy_forgets_refuted",
    "C210_dangling_refuted",
    "C210_assignment_refuted",
    "C210_copy_of_pending",
    "C210_prints_once"
   ],
   "note": "Formatters behave as values in programs in which every copy prints at once. Refuted otherwise: the copies share pointers to the members of the original, so a setter on the copy changes the original, the copy forgets its own settings, assignment does the same, and printing a copy after the original is destroyed is undefined. FormatNumber has the same pointers; floats and doubles are modelled."
  },
  {
   "property": "C211",
   "status": "partial",
   "theorems": [
    "C211_windows_partial",
    "C211_at_first_byte_refuted",
    "C211_at_exactly"
   ],
   "note": "Proved for every program whose windows lie in the buffer and whose indices lie in their windows. Refuted for at(): it refuses the first byte of the buffer, and hands out bytes outside the window (C211_at_exactly). Iterators are offsets."
  },
  {
   "property": "C212",
   "status": "partial",
   "theorems": [
    "C212_checked_partial",
    "C212_one_past_refuted",
    "C212_empty_window_refuted",
    "C212_leaves_window_refuted",
    "C212_failed_resettle_refuted",
    "C212_reversed_refuted",
    "C212_release_refuted"
   ],
   "note": "Proved for every program up to its first exception, except for the statements that touch the byte one past the buffer (index equal to the end, front of a window at the end) or before it (back of an empty window at the beginning). Refuted: those statements; windows and indices are held to the buffer, not to the window; a failed resettle leaves the stencil changed, so that filling it after catching the exception overruns the buffer; pointers in the wrong order are accepted; release builds check nothing."
  },
  {
   "property": "C213",
   "status": "partial",
   "theorems": [
    "C213_success",
    "C213_failure_partial",
    "C213_unwritten_buffer_refuted",
    "C213_failure_loses_refuted"
   ],
   "note": "Success and the error table are proved for every library. Refuted: on failure the buffer is read before anyone knows whether it was written, the result string is overwritten and the buffer is lost."
  },
  {
   "property": "C214",
   "status": "proved",
   "theorems": [
    "C214_exclusion",
    "C214_recursive",
    "C214_unlock"
   ],
   "note": "CRITICAL_SECTION as documented: recursive, one owner; construction and destruction not modelled."
  },
  {
   "property": "C215",
   "status": "partial",
   "theorems": [
    "C215_counter",
    "C215_counts_threads_refuted"
   ],
   "note": "Full for fewer than 2^32 locks and calls in progress; the documented reading (number of threads) is refuted."
  },
  {
   "property": "C216",
   "status": "partial",
   "theorems": [
    "C216_uninterrupted_partial",
    "C216_success_holds",
    "C216_may_block_refuted",
    "C216_refuses_free_refuted",
    "C216_holder_refused_refuted"
   ],
   "note": "C216_uninterrupted_partial covers a trylock with no step of another thread in between; with such steps it may block or refuse a free mutex (refutations)."
  },
  {
   "property": "C217",
   "status": "partial",
   "theorems": [
    "C217_start_partial",
    "C217_default_throws_refuted",
    "C217_constructor_loses_refuted"
   ],
   "note": "C217_start_partial excludes the priorities for which a debug build throws after creating the thread (refuted for those) and histories in which a constructor threw."
  },
  {
   "property": "C218",
   "status": "partial",
   "theorems": [
    "C218_one_worker",
    "C218_busy",
    "C218_retry_refuted"
   ],
   "note": "Histories in which a constructor threw are excluded (see C217_constructor_loses_refuted); a failed start counts as started (refuted)."
  },
  {
   "property": "C219",
   "status": "partial",
   "theorems": [
    "C219_safe",
    "C219_nothing_lost",
    "C219_destroy_kills_refuted",
    "C219_is_running_refuted"
   ],
   "note": "Killing a thread is taken as immediate; destroying kills instead of detaching and isRunning stays true after the function returned (refuted)."
  },
  {
   "property": "C220",
   "status": "partial",
   "theorems": [
    "C220_now",
    "C220_elapsed_partial",
    "C220_restart_refuted",
    "C220_split_refuted"
   ],
   "note": "C220_elapsed_partial is for watches that are not restarted; restart() and split() do not work because stamp() does not take the time (refuted for every history)."
  },
  {
   "property": "C221",
   "status": "partial",
   "theorems": [
    "C221_new",
    "C221_milli",
    "C221_call_partial",
    "C221_micro_refuted",
    "C221_stale_refuted"
   ],
   "note": "C221_call_partial is an equivalence; the structure handed to ecl_time_lite's sleep is modelled, not the sleeping. unsigned long has 32 bits."
  },
  {
   "property": "C222",
   "status": "partial",
   "theorems": [
    "C222_read_back",
    "C222_success",
    "C222_failure",
    "C222_monotone",
    "C222_real_time_refuted",
    "C222_foreign"
   ],
   "note": "Full; the missing exception for real time levels is refuted."
  },
  {
   "property": "C223",
   "status": "proved",
   "theorems": [
    "C223_settings",
    "C223_reopen",
    "C223_timeout"
   ],
   "note": "Full, for the flag values of Linux; tcsetattr is assumed to apply what it is given."
  },
  {
   "property": "C224",
   "status": "partial",
   "theorems": [
    "C224_bytes_partial",
    "C224_high_bit_refuted",
    "C224_corrupted_refuted"
   ],
   "note": "C224_bytes_partial excludes eight data bits with parity, for which the claim is refuted; the line discipline of Linux is part of the specification."
  },
  {
   "property": "C225",
   "status": "partial",
   "theorems": [
    "C225_settings_partial",
    "C225_rates_refuted",
    "C225_two_stop_bits_refuted",
    "C225_one_and_a_half_refuted",
    "C225_parity_check_refuted"
   ],
   "note": "C225_settings_partial covers one stop bit and rates up to 115200; the rest is refuted."
  },
  {
   "property": "C226",
   "status": "partial",
   "theorems": [
    "C226_open_partial",
    "C226_freed_refuted",
    "C226_events_refuted",
    "C226_lost_events_exactly"
   ],
   "note": "An open port has a handle and a waiting thread (proved, if threads can be created); freeing the port and the event handles is refuted for all histories; C226_lost_events_exactly counts the event handles lost by every call."
  },
  {
   "property": "C227",
   "status": "partial",
   "theorems": [
    "C227_close_waits_refuted",
    "C227_close_closed",
    "C227_threadless",
    "C227_constructor_refuted"
   ],
   "note": "Closing a closed port returns (proved), so does closing one without event thread; closing an open one waits for the event thread (refuted for all histories), the opening constructor is undefined behaviour."
  },
  {
   "property": "C228",
   "status": "proved",
   "theorems": [
    "C228_wrapped",
    "C228_history"
   ],
   "note": "Proved for every nesting of copies and references over every kind of function object."
  },
  {
   "property": "C229",
   "status": "partial",
   "theorems": [
    "C229_references_share",
    "C229_copies_are_separate",
    "C229_unary_copies_are_separate",
    "C229_lifetime",
    "C229_lifetime_refuted"
   ],
   "note": "Sharing and separation are proved; use of a reference after its object's death is undefined behaviour (refuted)."
  },
  {
   "property": "C230",
   "status": "partial",
   "theorems": [
    "C230_value",
    "C230_value_temporary",
    "C230_reference",
    "C230_temporary_dead",
    "C230_conversion_dead",
    "C230_temporary_refuted",
    "C230_literal_reference"
   ],
   "note": "Values and references proved; temporaries bound to const references are dead (proved for all, with a witness that calling is undefined behaviour)."
  },
  {
   "property": "C231",
   "status": "partial",
   "theorems": [
    "C231_void",
    "C231_value_refuted",
    "C231_value_never",
    "C231_wrappers_refuted"
   ],
   "note": "Proved for functions that return void; for all others the classes do not compile (refuted)."
  },
  {
   "property": "C232",
   "status": "proved",
   "theorems": [
    "C232_parameter"
   ],
   "note": "Proved for all histories."
  },
  {
   "property": "C233",
   "status": "proved",
   "theorems": [
    "C233_one_instance",
    "C233_progress"
   ],
   "note": "Proved for all interleavings by an invariant; the C++11 guard of static locals is the contract."
  },
  {
   "property": "C234",
   "status": "partial",
   "theorems": [
    "C234_same_rotation",
    "C234_round_trip",
    "C234_other_axes_refuted",
    "C234_not_normal"
   ],
   "note": "Proved over the reals; the check for other axes is refuted."
  },
  {
   "property": "C235",
   "status": "partial",
   "theorems": [
    "C235_all_sent",
    "C235_null_refuted",
    "C235_total"
   ],
   "note": "Proved for inputs without null bytes; refuted with one."
  },
  {
   "property": "C236",
   "status": "partial",
   "theorems": [
    "C236_line_refuted",
    "C236_last_partial",
    "C236_race_refuted"
   ],
   "note": "Refuted for every line with a newline; proved for a last line without one; the race with the constructor is refuted."
  },
  {
   "property": "C237",
   "status": "partial",
   "theorems": [
    "C237_stamped_partial",
    "C237_empty_line_refuted",
    "C237_all_shown",
    "C237_hex_times_refuted"
   ],
   "note": "All characters are shown (proved); stamps are proved if no line is empty, refuted otherwise and for hexadecimal output."
  },
  {
   "property": "C238",
   "status": "partial",
   "theorems": [
    "C238_shown_partial",
    "C238_failed_read_refuted"
   ],
   "note": "Proved for 0 to 255 bytes; a failed read is undefined behaviour (refuted)."
  },
  {
   "property": "C239",
   "status": "partial",
   "theorems": [
    "C239_in_order_partial",
    "C239_lost_refuted",
    "C239_char",
    "C239_count",
    "C239_remaining",
    "C239_remaining_failed"
   ],
   "note": "Proved for all histories in which no wait fails; refuted otherwise."
  },
  {
   "property": "C240",
   "status": "partial",
   "theorems": [
    "C240_read_error_refuted",
    "C240_write",
    "C240_empty_write_refuted"
   ],
   "note": "Writes proved; errors of reads and empty writes refuted."
  },
  {
   "property": "C241",
   "status": "partial",
   "theorems": [
    "C241_block_partial",
    "C241_unblock",
    "C241_zero_refuted",
    "C241_negative_refuted",
    "C241_numbers",
    "C241_described"
   ],
   "note": "Proved for positive times; zero and negative times refuted."
  },
  {
   "property": "C242",
   "status": "partial",
   "theorems": [
    "C242_escaped",
    "C242_read_back_partial",
    "C242_ampersand_refuted",
    "C242_message_refuted"
   ],
   "note": "Escaping proved for all texts, reading back for those without &; refuted with & and for the message."
  },
  {
   "property": "C243",
   "status": "partial",
   "theorems": [
    "C243_balanced",
    "C243_listed",
    "C243_described",
    "C243_or_partial",
    "C243_or_counted",
    "C243_or_refuted"
   ],
   "note": "Balance and completeness proved for all command lines; the separators are characterised and refuted."
  },
  {
   "property": "C244",
   "status": "partial",
   "theorems": [
    "C244_returned",
    "C244_refused",
    "C244_throwing",
    "C244_stale_refuted"
   ],
   "note": "Files of ofile_pos.cpp and ofile_w32.cpp; answers of the system are inputs. C244_stale_refuted: after an exception error() keeps its old value."
  },
  {
   "property": "C245",
   "status": "partial",
   "theorems": [
    "C245_moved_partial",
    "C245_other_file_refuted",
    "C245_short_refuted",
    "C245_nothing_refuted"
   ],
   "note": "Refuted theorems show a name of another file, a partial block and an empty write. Missing from the partial theorem: those histories."
  },
  {
   "property": "C246",
   "status": "partial",
   "theorems": [
    "C246_defined_partial",
    "C246_close_refuted",
    "C246_flush_refuted"
   ],
   "note": "C246_close_refuted: a failed fclose leaves a dangling stream that is closed again. C246_flush_refuted: flush() succeeds on a file that is not open."
  },
  {
   "property": "C247",
   "status": "partial",
   "theorems": [
    "C247_once",
    "C247_catches_up_refuted",
    "C247_thrice_partial",
    "C247_endless_refuted",
    "C247_on_time"
   ],
   "note": "The Windows file has the same text as the POSIX one. C247_thrice_partial needs readings less than a period apart; C247_endless_refuted shows why. C247_on_time covers a call made exactly at the deadline."
  },
  {
   "property": "C248",
   "status": "partial",
   "theorems": [
    "C248_text_partial",
    "C248_fail_refuted",
    "C248_after_cut_refuted",
    "C248_flush_refuted",
    "C248_empty_refuted",
    "C248_closed"
   ],
   "note": "Streams on the output files of OErrModel; texts of numbers are inputs. C248_fail_refuted contradicts the documentation of fail(), C248_flush_refuted the same for refused flushes. C248_empty_refuted: empty texts throw in debug builds."
  },
  {
   "property": "C249",
   "status": "partial",
   "theorems": [
    "C249_file",
    "C249_others_partial",
    "C249_serial_partial",
    "C249_serial_refuted",
    "C249_server_refuted"
   ],
   "note": "Devices other than files are abstracted to the answer of open(). Refuted for server streams without exceptions and for vanishing serial ports."
  },
  {
   "property": "C250",
   "status": "partial",
   "theorems": [
    "C250_numbers",
    "C250_columns_partial",
    "C250_columns_exactly",
    "C250_columns_refuted"
   ],
   "note": "The texts of numbers come from the integer formatter model. C250_columns_exactly: columns line up exactly for degrees up to 22 and for 25."
  },
  {
   "property": "C251",
   "status": "partial",
   "theorems": [
    "C251_poly_words",
    "C251_poly_injective",
    "C251_poly_refuted",
    "C251_cubic_lines",
    "C251_smooth_lines",
    "C251_smooth_refuted"
   ],
   "note": "Doubles are given by the text \"%.2f\" makes of them. C251_poly_refuted: the formatter's buffer cuts texts of more than 29 characters. C251_smooth_refuted: default constructed smoothed spline."
  },
  {
   "property": "C252",
   "status": "partial",
   "theorems": [
    "C252_brackets_partial",
    "C252_brackets_refuted"
   ],
   "note": "C252_brackets_refuted shows the unbalanced case, z_0 not zero and z_f zero; all others match."
  },
  {
   "property": "C253",
   "status": "partial",
   "theorems": [
    "C253_array",
    "C253_stencil_partial",
    "C253_stencil_refuted",
    "C253_stencil_outside",
    "C253_points",
    "C253_pose2",
    "C253_pose3"
   ],
   "note": "Elements are given by the text the stream makes of them. C253_stencil_refuted: stencils that reach outside."
  },
  {
   "property": "C254",
   "status": "proved",
   "theorems": [
    "C254_history",
    "C254_parts",
    "C254_set_parts",
    "C254_pointers",
    "C254_vector"
   ],
   "note": "Values are elements of any type; vectors are Eigen vectors of 2, 3 or 6 elements."
  },
  {
   "property": "C255",
   "status": "proved",
   "theorems": [
    "C255_start",
    "C255_join_cancel",
    "C255_cancel_table"
   ],
   "note": "The number the system returned is the input. Messages are not modelled."
  },
  {
   "property": "C256",
   "status": "partial",
   "theorems": [
    "C256_trylock_partial",
    "C256_trylock_release",
    "C256_negative_refuted",
    "C256_duration",
    "C256_lock",
    "C256_make_partial",
    "C256_make_refuted"
   ],
   "note": "The number the system returned is the input. C256_negative_refuted and C256_make_refuted are release builds."
  },
  {
   "property": "C257",
   "status": "partial",
   "theorems": [
    "C257_semaphores",
    "C257_clocks",
    "C257_shared_partial",
    "C257_shared_refuted"
   ],
   "note": "C257_shared_refuted: errno is overwritten before it is classified."
  },
  {
   "property": "C258",
   "status": "partial",
   "theorems": [
    "C258_right_handed",
    "C258_axes_partial",
    "C258_equal_refuted",
    "C258_unsorted",
    "C258_indefinite",
    "C258_default"
   ],
   "note": "The eigenvalues and eigenvectors the solver answers are an input: unit eigenvectors that are linearly independent. C258_axes_partial needs three different eigenvalues; C258_equal_refuted shows why. Reals instead of floats."
  },
  {
   "property": "C259",
   "status": "partial",
   "theorems": [
    "C259_synopsis",
    "C259_long_name_refuted",
    "C259_builtin"
   ],
   "note": "Lines as lists of characters; blanks between words are not counted because wrapping moves them. C259_long_name_refuted holds for every name over 72 characters without a separator."
  },
  {
   "property": "C260",
   "status": "partial",
   "theorems": [
    "C260_shown_word_is_accepted",
    "C260_shown_alike",
    "C260_error_name",
    "C260_optional_unlabelled_refuted",
    "C260_repeated_switch_refuted"
   ],
   "note": "C260_shown_alike is for the blank as delimiter and leaves out the built-in \"--\" switch. The two refuted theorems hold for every argument of the kind."
  },
  {
   "property": "C261",
   "status": "partial",
   "theorems": [
    "C261_long_usage_partial",
    "C261_message_refuted",
    "C261_failure",
    "C261_version",
    "C261_flag_breaks",
    "C261_layout",
    "C261_headings",
    "C261_long_names",
    "C261_usage_exactly",
    "C261_descriptions"
   ],
   "note": "C261_usage_exactly gives the exact condition under which the usage text is printed, since spacePrint reads outside the string otherwise (C123). Descriptions of built-in switches are tokens. C261_layout, C261_headings and C261_long_names fix columns, headings and which names carry a type."
  },
  {
   "property": "C262",
   "status": "partial",
   "theorems": [
    "C262_allowed_values",
    "C262_bar_refuted"
   ],
   "note": "Strings and integers as values."
  },
  {
   "property": "C263",
   "status": "proved",
   "theorems": [
    "C263_nearest",
    "C263_order",
    "C263_multiples"
   ],
   "note": "The branch of constants.hpp with M_PI. Bounds on pi come from Machin's formula of the standard library."
  },
  {
   "property": "C264",
   "status": "partial",
   "theorems": [
    "C264_texts_partial",
    "C264_no_leak_partial",
    "C264_copy_refuted",
    "C264_copy_shares_refuted",
    "C264_assign_refuted",
    "C264_dangling_refuted",
    "C264_no_memory_refuted"
   ],
   "note": "Copying converters is refuted (double free, shared texts), so is the documented error for lack of memory. Integral overloads; floats and bool are in other properties."
  },
  {
   "property": "C265",
   "status": "partial",
   "theorems": [
    "C265_report",
    "C265_level_readable",
    "C265_after_set_partial",
    "C265_background_refuted",
    "C265_failures"
   ],
   "note": "The system's answers are inputs, the same for repeated questions. Background is refuted: it is shown as Normal, as in C105."
  },
  {
   "property": "C266",
   "status": "partial",
   "theorems": [
    "C266_iteration_partial",
    "C266_iteration_refuted",
    "C266_pushes_in_order",
    "C266_no_storage",
    "C266_with_value",
    "C266_pop_empty_refuted"
   ],
   "note": "Iteration in order is refuted once the queue has gone round or is not full; taking from an empty queue is refused in debug builds only."
  },
  {
   "property": "C267",
   "status": "partial",
   "theorems": [
    "C267_failures_are_explained",
    "C267_word_shown_partial",
    "C267_word_shown_refuted",
    "C267_undefined_refuted",
    "C267_missing_refuted_for_all",
    "C267_what_partial",
    "C267_what_refuted_for_all",
    "C267_refused_declarations",
    "C267_same_name_partial",
    "C267_same_name_refuted"
   ],
   "note": "Every failing parse hands over an exception that explains it, and every refused declaration of a labelled argument is reported with a true reason. Refuted: the unmatched word is shown with asterisks, the word undefined is hidden, missing arguments are not named, a clash of descriptions is called a clash of names, and what() invalidates earlier texts."
  }
 ]
}