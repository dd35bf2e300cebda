# Formal model of ecl_core in Rocq

The source in `/repo` (stonier/ecl_core, C++) was read as text; nothing was built or run.
The model lives in `rocq/theories`. Each area has up to three files:

* `XModel.v`      – definitions only, each citing file and lines in `/repo`;
* `XProofs.v`     – lemmas, invariants, refinements, and the independent specifications;
* `XProperties.v` – only property theorems, closed by `exact`, each followed by `Print Assumptions`.

## Conventions of the model

* **Outcomes.** A C++ call is modelled by `res A := Ok a | Throw e | UB`. `UB` is a distinct outcome
  (out-of-bounds access, signed overflow, modulo by zero, use after free, double free).
* **Builds.** `ecl_assert_throw` and `ecl_debug_throw` are active only in debug builds
  (`ecl_exceptions/include/ecl/exceptions/macros.hpp:84-127`), so those models take `debug : bool`.
* **Integers.** Mathematical `Z` with the wrap (`mod 2^32`, `mod 2^64`, two's complement) written explicitly
  wherever the C++ type can wrap; signed overflow is `UB`. The platform is LP64 little-endian, 8-bit bytes.
* **Floating point.** `double`/`float` code is modelled over the reals `R` of Coq's standard library
  ("exact arithmetic" in the property texts); NaN / division by zero / square root of a negative number
  are explicit error outcomes. Rounding is not modelled except where a theorem says so.
* **Concurrency.** Threads are interleaved atomic steps (sequential consistency); the granularity is
  stated in each model. OS primitives (pthread mutex, POSIX semaphores, mmap, clocks) are modelled by their
  documented contracts and belong to the trusted base.
* **False properties.** Where the code violates the property text, a theorem `..._refuted` gives a witness
  and a theorem `..._partial` proves the part which holds; MANIFEST status is then `partial`.

## Trusted base

* Coq 8.16.1's kernel.
* The reading of the C++ source (no extraction or execution ties model and code).
* Axioms: `Print Assumptions` is printed below every property theorem; the last section lists its answer for each of them.
  Discrete areas are
  "Closed under the global context". Areas over `R` use the standard library's real number axioms
  (`ClassicalDedekindReals.sig_forall_dec`, `ClassicalDedekindReals.sig_not_dec`,
  `FunctionalExtensionality.functional_extensionality_dep`, and, where trigonometric/inverse functions or
  Coquelicot are involved, `Classical_Prop.classic`). No axiom is added by this development.

## Plan per property

| id | area / files | modelled | proof method |
|----|--------------|----------|--------------|
| C01 | Ring | PushAndPop fixed and dynamic: cursors, wrap, drop-oldest | refinement to a bounded list queue, induction over histories |
| C02 | Ring | FiFo running index | invariant: storage is a rotation of the last n values |
| C03 | Ring | resize of both rings (cursors not reset) | refutation witness + partial: safe when cursors are inside the new storage/after clear |
| C04 | ArrayM | Array at / [] / write, debug and release | case analysis, functional spec on lists |
| C05 | ArrayM | heap of array blocks, copy, assignment with delete/new | heap invariant; self-assignment refutation |
| C06 | ArrayM | Stencil checks as coded | refutations (off by one, window not checked) + partial |
| C07 | ArrayM | guarded byte memory | induction on write histories |
| C08 | ArrayM | BoundedListInitialiser | induction on the value list |
| C09 | Conv | to/from byte arrays incl. int promotion of shifts | arithmetic on base-256 digits; refutation for 8 byte types |
| C10 | Conv | backwards digit loop into buffers | induction on the number; refutation for INT_MIN |
| C11 | Conv | hex parser state machine | grammar spec, both directions; refutation for truncated token |
| C12 | Conv | digit converters | case analysis |
| C13 | Conv | format specifier buffer with history | invariant over histories |
| C14 | Stream | getIntegerFromStream | loop invariant; numeral spec; boundary refutation |
| C15 | Stream | parseHexInteger | loop invariant, refutation beyond 0x7fff |
| C16 | Stream | getFloatFromStream over rationals | loop invariant; EOF refutation |
| C17 | Dev | CharBuffer, SharedFile/OConsole write+flush | invariant over histories |
| C18 | Dev | String device with allocation size | invariant for block histories, refutation for byte writes |
| C19 | Dev | shared file registry + its mutex | invariant over histories; lock-leak refutation |
| C20 | Dev | Serial::block branch arithmetic | arithmetic; wrap refutation |
| C21 | Fmt | FormatNumber padding | list reasoning |
| C22 | Fmt | permanent / temporary setting pointers | invariants; FormatFloat leak refutation |
| C23 | Exc | message composition | induction over depth |
| C24-C26 | Sig | manager topic map, sigslot sets, handle counts | refinement to a relation; refutations |
| C27, C28, C32 | Time | TimeStampBase | integer arithmetic |
| C29-C31 | Time | StopWatch, Snooze, sleeps | induction over clock histories |
| C33-C36 | Threads | interleaving transition systems | inductive invariants over all schedules; race witnesses |
| C37, C38 | Ipc | sem_t counter, check-then-post unlock | inductive invariant; race witness |
| C39 | Threads | priority arithmetic | integer arithmetic |
| C40 | Util | Flags on bit patterns | Z bitwise lemmas |
| C41-C43 | Cmd | TCLAP argument processing and parse loop | induction over argument vectors |
| C44 | Angle | wrap_angle over R with fmod | real arithmetic |
| C45-C51 | Poly | polynomials, blueprints, division, roots, extrema | induction / field / nra |
| C52-C55 | Spline | tridiagonal solves and splines | induction over knots, calculus on polynomials |
| C56-C60 | Geom | segments, odometry, poses | nra / field, induction |
| C61-C66 | Pose, Stat, Traj | kinematics, Welford recurrence, ellipses, durations | field / induction |
| C67, C68, C162 | Time | StopWatch constructor (two clock reads), frequency monitor windows, fraction accessors | induction over clock histories; witness |
| C69-C71 | Conv | error flags over histories, istringstream integers, boolean to C string | induction over histories and texts; witnesses |
| C72-C75, C158, C159 | Stream | word, boolean and character extraction; failing devices; the static digit buffer shared by threads | device schedules by induction; 12-step witness for the race |
| C76-C84, C164 | Dev | destruction, flush results, open modes, console input, serial timeouts, return values of writes | invariants over histories; witnesses |
| C85-C90 | Fmt | float and string formatters, temporary settings, extreme values, use without data | erasure theorems over histories; witnesses |
| C91-C94 | Sig | lone members of a topic, assignment, recursive emission, leaving a topic | witnesses, two of them for every state of the bad shape |
| C95-C107 | Thread | lock counter races, failed locks, timed trylock, starts, cancel, join, priorities | witnesses as schedules; partial theorems where a discipline helps |
| C108-C116 | Ipc | extra unlocks, signals, deadlines, names, shared memory creation and removal | invariants; witnesses as schedules |
| C117, C118 | Util | testFlag on arbitrary values | bitwise lemmas; witness |
| C119-C131, C165, C166 | Cmd | double dash, label uniqueness, constraints, usage wrapping, reserved characters, static state, groups, positional arguments | induction over words and declarations; witnesses |
| C132-C134 | Angle | single precision wrap, rotation matrices, degrees | bit-exact witness (SpecFloat); real trigonometry |
| C135-C138, C140, C161 | Poly | degenerate cubics, large triangles, failure flag, mixed fuzzy comparison, signs and cube roots | witnesses; real analysis |
| C139 | Seg | vertical segments | witness |
| C141-C143 | Spline | repeated abscissae, evaluation outside the domain, too few points | witnesses, and for every point outside |
| C144-C147, C160 | Pose | aliasing, storages, trajectory containers, metric | case analysis; witness |
| C148-C150 | Stat | rounded counter, y intercept, rounded axes | Flocq rounding by induction; witnesses |
| C151-C157, C163 | Traj | validation, linear interpolation, evaluation, waypoints, ownership | induction over waypoints and rounds; witnesses |
| C167-C170 | Traj (TensCurve, TensTraj1-4) | tension spline interpolation: shape of the result, joins, termination, accelerations, checks | invariants and measures of the three loops, diagonal dominance of the tridiagonal system, real analysis; witnesses |
| C171-C174 | Sock | descriptor table of a process with any number of socket clients, servers, serial ports, output files and other code; the outcome of each system call is part of the event | invariants over histories; witnesses, some with unboundedly many lost descriptors |
| C175-C179 | Sock | data path of a connected socket: arrivals, reads, peeks, remaining, writes, hang-ups | invariant over interleavings, case analysis; witnesses |
| C180, C181 | Errno | errno classification tables of ecl_devices (Linux numbering) | comparison for every errno |
| C182-C186 | Rand | RandomNumberGenerator over float and double with any rand(); state shared by all generators of one type | Flocq rounding lemmas, induction over histories; witnesses for every library |
| C187-C193 | Pose3 | LegacyPose3D, CartesianPoint (double and int, two dimensions), HomogeneousPoint, Euclidean norms; Eigen's matrix and quaternion formulas transcribed | matrix algebra (adjugate), polar form, ring identities; Flocq evaluation for the integer witnesses |
| C194-C196 | Log | LogStream (modes, headers, stamps, the LOG and FLUSH macros) of several threads over one shared file, with the private buffer of each SharedFile from Dev | invariant over every schedule: bytes of the file labelled with their stream; a second invariant for whole messages |
| C197-C202 | Soph | toPose2D, toPose3D, points2DToSophusTransform, PlanarRotation2Quaternion, Interpolator<SE3f>, PlanarInterpolator, SlidingInterpolator; the exponential and logarithm of Sophus and the matrix/quaternion conversions of Eigen transcribed (without the small-angle Taylor branches) | algebra of a + bK + cK^2 for the cross product K with a unit vector; quaternion of a rotation matrix by cofactor identities; polar form |
| C203-C205 | TData | TimeStampBase(double), stamp(double), operator double(), with every operation rounded as binary64; TimeData in exact arithmetic | whole and fractional parts of a double are doubles; half-ulp error bounds; mean square about any point is the spread plus the squared distance to the mean |
| C206-C209 | CFmt | FloatContainerFormatter, ByteArrayFormatter, BytePushAndPopFormatter, FloatMatrixFormatter, SE3fFormatter over the float formatter of Fmt; numbers are a sign and a real magnitude, printed as the exact decimal rounding | logarithm bounds for the width; simulation of histories by fresh formatters; witnesses |
| C210 | FCopy | heap of Format<float>/Format<double> objects whose members are pointers into themselves, copied member by member | simulation relation between heap and values; witnesses |
| C211, C212 | PSten | Stencil<unsigned char*> and Stencil<const unsigned char*>, several stencils on one buffer | simulation by windows on a list; invariant of checked programs; witnesses |
| C213 | RPath | ecl::realpath over any answer of the C library | induction over calls, case analysis over errno; witnesses |
| C214-C216 | WMut | the mutex of Windows as atomic steps of any number of threads | invariants over all schedules; witnesses |
| C217-C219 | WThr | one Thread object on Windows, its tasks, handles and operating system threads | invariant over all histories; witnesses |
| C220-C222 | WTim | time stamps, stopwatch, sleeps and priorities of Windows | induction over histories; arithmetic; witnesses |
| C223-C225 | SCfg | the settings of serial ports on Linux and Windows | decoding of the flags for every combination; witnesses |
| C226-C227 | WSer | opening and closing serial ports on Windows | invariant over histories of calls and of the event thread; witnesses |
| C228-C233 | FObj | function objects, reference wrappers, Parameter, Singleton: objects live in cells, functions are a parameter | induction on the nesting of wrappers and on histories; invariant over interleavings for the singleton; witnesses |
| C234-C238 | App | the programs of ecl_core_apps/src/utils: yaw conversions, the loops that send and show bytes | real analysis; induction on the input; witnesses |
| C239-C241 | WSio | reading, writing and time-outs of serial ports on Windows | induction on histories with all answers of the system; witnesses |
| C242-C243 | Doc | the DocBook description of a command line | loops equal to a character-wise map; induction on arguments and groups; witnesses |
| C244-C246 | OErr | output files: errors reported, bytes taken, closing and destruction, answers of the system as inputs | cases per call; induction on histories; witnesses |
| C247 | Time, Snz | the snoozer when it has fallen behind (the Windows source has the same text) | comparison of clock readings; induction on readings; witnesses |
| C248-C249 | FStr | text streams on files: insertions, manipulators, fail(), constructors | invariant of an open stream; induction on items; witnesses |
| C250-C253 | Show | the printing operators of triangles, polynomials, splines, functions, arrays, stencils, points and poses | texts as lists of characters read back as words, lines and brackets; induction on lists; witnesses |
| C254 | Odom | accessors of odometry and helpers for pointers to trajectories | induction on histories of sets |
| C255-C257 | PErr | what threads, mutexes, priorities, clocks, semaphores and shared memory make of the numbers the system returns | case analysis over every number; witnesses |
| C258 | Ell | covariance ellipsoids in space, the solver's answer being an input | algebra over the reals; witness |
| C259-C262 | Usage | names of arguments, one-line and complete usage, version and failure texts | induction over arguments and declarations, C122 for each text; witnesses |
| C263 | Const | the mathematical constants as rounded numbers | bounds of pi by Machin's formula, rounding by comparison |
| C264 | CBuf | buffers, converters and the strings handed out as a heap of blocks | refinement of a value specification, counting of blocks |
| C265 | Diag | get_priority and print_priority_diagnostics over the answers of the system | texts as lines; C39 and C104 for the levels |
| C266 | Pap | the iterators and the other constructors of PushAndPop | the representation invariant of C01; witnesses |
| C267 | Msg | the exceptions of the parser with their texts; which one a failing parse, constructor or add throws | the parse loop again, with the invariant that the current word is the typed one with asterisks for known switches |

Every property has a short account of what is and is not covered in `MANIFEST.json` (`note`).

## Testing the theorems against wrong programs

`tools/mutate.py` copies the theories to a scratch directory, applies one edit to a model file, recompiles the dependants and
reports which theorems and examples no longer compile. `seeded/LOG.jsonl` has one line per attempt: the definition edited, the
edit, the claim it breaks, the theorems that failed, and the theorems that were added or tightened because the edit had
survived. A line with `"result": "survived"` is followed later by the line of the re-run after the tightening. A few edits are
equivalent programs (for example a degenerate segment handled by the projection branch); they are marked as such.

## Not modelled

* Apple variants and the Windows variants, except the mutex, threads, time stamps, sleeps, priorities, serial settings and serial ports of Windows (WMut, WThr, WTim, SCfg, WSer, WSio); build tooling; licence, config and error enumerations beyond what is cited.
* ecl_devices: socket addresses, options and blocking modes; descriptors under concurrent threads; the OS side of files, serial ports and the console is a contract (a file takes all bytes or fails; VTIME
  counts tenths of a second). Blocks of 2^32 bytes and more (the loop counters are unsigned int).
* ecl_linear_algebra: Eigen's own algorithms, Sophus's own (their formulas are transcribed where used), streaming of Sophus transforms. Eigen's comma initialiser, block copies and 2x2 inverse are
  modelled where ecl calls them. The eigen-solver that
  CovarianceEllipsoid calls in three dimensions is an input: any independent unit eigenvectors.
* ecl_geometry: `Pose2D::operator*` hands a Pose2D to `concatenate_poses` and `Pose2D()` initialises a vector with one number; both
  would not compile when instantiated, so only the free functions are modelled. `Pose2D::translation()` and
  `rotationMatrix()` return references to temporaries. `LegacyPose2D::operator*` between different storages reads private members
  of another instance of the template, `operator*=` exists for matrix storage only.
* ecl_streams: the formatted text of floats (snprintf) is a parameter.
* ecl_threads, ecl_ipc: the kernel scheduler; weak memory (interleavings are sequentially consistent).
* ecl_command_line: the wording of the built-in switches' descriptions (tokens); custom visitors and constraints other
  than value lists; option prefixes and delimiters are those of this fork.
* ecl_manipulators: accelerations and names of waypoints (unused by the interpolations), the approximate comparison operator.
* Floating point rounding, overflow and NaN, except in C44 (doubles), C132, C148, C150, C182-C184, C192, C203, C204, and as the outcome `FNonFinite`, which
  ends a computation at the first value that is not finite; the code would go on with infinities or NaN.

<!-- assumptions: begin -->

## What Print Assumptions lists for each theorem

Generated by `tools/assumptions.py` from the compiled theories.

* No axioms ("Closed under the global context") (624 theorems): C01_push_and_pop_copy, C01_push_and_pop_is_bounded_queue, C01_push_and_pop_memory_safe, C01_push_and_pop_storage, C02_fifo_exposes_last_window, C02_fifo_fill, C02_fifo_full_turn, C02_fifo_unfilled, C03_fifo_grow_partial, C03_fifo_resize_refuted, C03_push_and_pop_grow_not_empty_refuted, C03_push_and_pop_resize_clear_partial, C03_push_and_pop_resize_refuted, C04_at_is_exact, C04_index_is_exact, C04_write_changes_one_element, C04_write_out_of_range_throws, C05_arrays_have_value_semantics_partial, C05_self_assignment_exactly, C05_self_assignment_refuted, C06_at_zero_throws_refuted, C06_index_past_end_refuted, C06_outside_window_unreported_refuted, C06_resettle_checked_partial, C06_stencil_at_memory_safe_partial, C06_stencil_creation_checked_partial, C06_stencil_index_unsafe_only_at_end_partial, C06_stencil_reads_window_partial, C06_stencil_writes_window_partial, C06_substencil_checked_partial, C06_substencil_escapes_refuted, C07_guards_report_exactly_corruption, C07_in_range_programs_never_reported, C07_resizing_rearms, C08_comma_init_bounded, C08_comma_init_empty_array, C08_comma_init_in_order, C09_bytes_little_endian_partial, C09_eight_bytes_refuted, C09_round_trip_partial, C09_short_array_sign_extended_refuted, C09_wrong_size_refused_partial, C10_cstring_canonical_partial, C10_minimum_undefined_refuted, C10_negative_char_refuted, C10_own_buffer_partial, C10_ranges, C10_string_canonical_partial, C10_string_minimum_undefined_refuted, C11_hex_accepts_partial, C11_hex_rejects_partial, C11_unfinished_token_refuted, C12_digit_round_trip, C12_other_values_rejected, C13_format_valid, C14_cap_is_close_partial, C14_decimal_text_partial, C14_long_text_cut_refuted, C14_maximum_rejected_refuted, C14_no_overflow, C14_sequences_round_trip_partial, C14_zero_comma_refuted, C15_hex_all_partial, C15_hex_exact_partial, C15_hex_large_refuted, C15_hex_wraps_refuted, C16_fractions_partial, C16_last_digit_lost_refuted, C16_long_cut_refuted, C16_single_precision_step_refuted, C16_whole_numbers_partial, C17_console_no_overflow, C17_console_preserves_bytes, C17_flush_hands_over, C17_shared_file_preserves_bytes, C18_single_writes_overflow_refuted, C18_string_device_queue_partial, C18_write_after_clear_refuted, C19_failed_open_locks_refuted, C19_flush_failure_frees_refuted, C19_registry_partial, C20_long_timeouts, C20_short_timeouts, C21_permanent_format, C21_temporary_format, C22_histories_complete, C22_temporary_uses_do_not_leak, C23_report_determines_chain, C23_rethrow_preserves, C23_what_is_the_report, C24_emissions_reach_connected_slots, C24_names_are_ordered, C24_once_per_shared_topic, C25_disconnect_safe, C26_shared_connection_lives_with_last_copy, C27_addition_exact, C27_comparisons_exact, C28_comparison_after_difference_refuted, C28_difference_normalised_refuted, C28_normalised_partial, C28_subtraction_exact_partial, C29_cpuwatch_from_construction, C29_splits_add_up, C29_watch_exact, C30_new_snoozer_ok_partial, C30_no_drift_partial, C30_rebased_into_future_partial, C30_valid_deadline_refuted, C31_calls_exactly, C31_constructed_sleeps_exact_partial, C31_micro_invalid_request_refuted, C31_millisleep_exact_partial, C31_nano_stale_seconds_refuted, C31_sleep_exact_partial, C31_subsecond_sleeps_exact_partial, C32_printing_exact, C32_printing_injective, C33_mutual_exclusion, C33_mutual_exclusion_debug_any_client, C33_trylock, C33_waiters_get_in, C34_locks_counts_holders_and_waiters, C35_at_most_one_worker, C35_start_result, C36_second_start_busy, C36_thread_lifecycle, C37_mutual_exclusion, C37_trylock, C37_unlock_releases, C38_deadline, C39_higher_levels_strictly_higher, C39_real_time_round_trip, C40_flags_are_sets, C40_predefined_bits, C40_set_then_kept, C40_starts_empty, C40_stays_in_int, C41_order_is_irrelevant, C41_valid_line_is_read_back, C42_accepted_line_is_meaningful, C43_exactly_one_of_each_group, C45_triangle_holds_binomials, C59_append_to_empty_partial, C59_never_appends, C65_integers, C67_stopwatch_construction_refuted, C67_stopwatch_splits_from_construction_partial, C68_frequency_monitor_exact, C68_new_monitor, C68_rate, C69_error_is_latest_failure_partial, C69_error_is_sticky_refuted, C70_print_read_identity, C70_rejects_others, C70_string_to_int_exact, C71_bool_overruns_refuted, C71_bool_partial, C71_exactly, C72_words, C73_characters_partial, C73_failures_reported_partial, C73_string_swallows_refuted, C74_hex_zeroes_refuted, C74_target_unchanged_partial, C75_streams_interfere_refuted, C75_uninterrupted_partial, C76_destruction_loses_bytes_refuted, C76_flushed_destruction_partial, C77_empty_flush_refuted, C77_flush_succeeds_partial, C78_append_mode, C79_byte_255_refuted, C79_console_input_partial, C80_short_timeout_read, C81_console_nul_refuted, C81_console_partial, C82_large_timeouts_refuted, C82_never_longer_refuted, C82_timeouts_partial, C83_new_mode_keeps_tail_refuted, C83_new_mode_partial, C84_timeouts_partial, C84_zero_timeout_refuted, C85_float_leak_refuted, C85_float_temporary_partial, C85_string_leak_refuted, C86_first_use_undefined_refuted, C86_three_arguments_history_refuted, C86_three_arguments_partial, C87_float_text_partial, C87_float_truncated_refuted, C87_scientific_refuted, C87_scientific_text_refuted, C87_settings_partial, C87_temporary_partial, C88_minimum_undefined_refuted, C88_negative_char_refuted, C88_values_partial, C89_string_format, C89_string_settings, C90_print_before_text_refuted, C90_print_twice_partial, C90_print_without_data_partial, C91_lonely_disconnect_undefined, C91_signal_on_its_own_topic_refuted, C92_assignment_frees_early_refuted, C92_assignment_leaks_refuted, C92_between_copies_partial, C92_counts_refuted, C93_any_circle_refuted, C93_circular_signals_refuted, C93_ordered_partial, C94_slot_refuted_for_all, C94_topic_disconnect, C94_topic_disconnect_refuted, C95_concurrent_lock_counter_refuted, C95_uninterrupted_partial, C96_failed_lock_leaves_counter_refuted, C96_failed_locks_counted_partial, C97_timed_trylock_partial, C97_timed_trylock_waits_refuted, C98_concurrent_starts_one_worker_refuted, C98_starts_apart_partial, C99_debug_reports_partial, C99_failed_start_can_be_retried_refuted, C99_failed_start_is_reported_refuted, C100_cancel_is_safe_refuted, C100_cancel_partial, C100_cancel_refuted_everywhere, C101_is_running_partial, C101_is_running_refuted, C102_destroy_after_failed_start_refuted, C102_destroy_partial, C102_failed_start, C103_join_again_refuted, C103_join_twice_refuted, C103_never_started_partial, C104_nice_levels_round_trip, C104_values, C105_background_round_trip_refuted, C105_levels_partial, C106_refusal_is_reported_partial, C106_refusal_is_reported_refuted, C107_leaving_real_time_refuted, C107_requests_partial, C108_extra_unlock_is_harmless_refuted, C108_extra_unlock_partial, C109_lock_survives_signals_refuted, C109_signals_partial, C110_deadline_partial, C110_exact_deadline_refuted, C111_same_name_same_semaphore, C112_destroy_keeps_the_name_refuted, C112_same_name_partial, C113_shared_memory, C114_overlapping_attach_partial, C114_overlapping_attach_refuted, C115_creator_may_leave_partial, C115_creator_may_leave_refuted, C116_larger_storages_partial, C116_smaller_storage_refuted, C116_two_exactly, C117_test_flag, C118_combination_needs_all_refuted, C118_each_flag_partial, C119_double_dash_protects_labelled, C120_duplicates_throw, C120_labels_are_unique, C121_values_are_default_or_allowed, C122_indentation, C122_usage_wrapping_keeps_text_and_width, C123_exactly, C123_usage_of_long_names_refuted, C123_usage_of_long_names_refuted_for_all, C124_known_words_partial, C124_standard_words, C124_unknown_word_rejected_refuted, C125_other_texts_partial, C125_values_with_asterisk_refuted, C126_harmless_lines_partial, C126_optional_positional_refuted, C126_parsers_are_independent_refuted, C127_empty_words_rejected_refuted, C127_other_words_partial, C128_empty_number_rejected_refuted, C128_other_texts_partial, C129_short_and_long_agree_partial, C129_short_and_long_agree_refuted, C130_groups_and_required_partial, C130_groups_of_repeatable_arguments_refuted, C130_groups_with_combined_switches_refuted, C131_always_defined_partial, C131_counting_switch_terminates_refuted, C132_float_wrap_refuted, C146_front_and_back, C146_poses_and_twists, C146_resize_keeps, C146_set_then_get, C146_vector_to_trajectory, C150_axes_in_doubles_refuted, C150_uncorrelated_partial, C157_copies_refuted, C157_one_owner, C158_characters_formatted, C158_characters_raw, C159_booleans, C159_no_word, C162_fraction_accessors, C162_negative, C164_console_counts, C164_histories_stay_bounded, C164_write_results, C165_only_the_last_positional_is_optional, C166_group_member_given_repeatedly, C171_client_no_leak, C171_file_refuted, C171_no_leak_partial, C171_serial_refuted, C171_server_refuted, C172_foreign_close_refuted, C172_foreign_file_refuted, C172_own_partial, C172_server_refuted, C172_stale_client_refuted, C172_unopened_refuted, C173_client_status, C173_closed, C173_constructors, C173_failed_close_refuted, C173_file_status_partial, C173_listen, C173_reopen_refuted, C173_serial_status_partial, C173_server_refuted, C173_server_status_partial, C174_open_refuted, C174_static_partial, C174_timeout_refuted, C175_peek, C175_progress, C175_stream, C175_write, C176_empty_read_refuted, C176_hangup_partial, C176_reset_client, C176_reset_server_refuted, C176_write, C176_write_failed, C177_client_disconnected, C177_server_read_partial, C177_server_refuted, C178_client_failure_refuted, C178_remaining_partial, C178_remaining_refuted, C178_server_failure, C179_client_write_refuted, C179_error_partial, C180_differ_refuted, C180_same_partial, C181_known, C181_mislabelled_refuted, C181_recognised_partial, C190_access, C192_sums, C193_element, C193_short_comma, C194_block_is_bytes, C194_default_refuted, C194_default_with_flags, C194_direct_log_refuted, C194_latest_header_refuted, C194_text, C195_whole_messages_partial, C195_whole_messages_refuted, C196_flush_partial, C196_flush_refuted, C209_byte_text, C209_bytes_twice_refuted, C210_assignment_refuted, C210_copy_forgets_refuted, C210_copy_of_pending, C210_copy_sets_original_refuted, C210_dangling_refuted, C210_prints_once, C210_values_partial, C211_at_exactly, C211_at_first_byte_refuted, C211_windows_partial, C212_checked_partial, C212_empty_window_refuted, C212_failed_resettle_refuted, C212_leaves_window_refuted, C212_one_past_refuted, C212_release_refuted, C212_reversed_refuted, C213_failure_loses_refuted, C213_failure_partial, C213_success, C213_unwritten_buffer_refuted, C214_exclusion, C214_recursive, C214_unlock, C215_counter, C215_counts_threads_refuted, C216_holder_refused_refuted, C216_may_block_refuted, C216_refuses_free_refuted, C216_success_holds, C216_uninterrupted_partial, C217_constructor_loses_refuted, C217_default_throws_refuted, C217_start_partial, C218_busy, C218_one_worker, C218_retry_refuted, C219_destroy_kills_refuted, C219_is_running_refuted, C219_nothing_lost, C219_safe, C220_elapsed_partial, C220_now, C220_restart_refuted, C220_split_refuted, C221_call_partial, C221_micro_refuted, C221_milli, C221_new, C221_stale_refuted, C222_failure, C222_foreign, C222_monotone, C222_read_back, C222_real_time_refuted, C222_success, C223_reopen, C223_settings, C223_timeout, C224_bytes_partial, C224_corrupted_refuted, C224_high_bit_refuted, C225_one_and_a_half_refuted, C225_parity_check_refuted, C225_rates_refuted, C225_settings_partial, C225_two_stop_bits_refuted, C226_events_refuted, C226_freed_refuted, C226_lost_events_exactly, C226_open_partial, C227_close_closed, C227_close_waits_refuted, C227_constructor_refuted, C227_threadless, C228_history, C228_wrapped, C229_copies_are_separate, C229_lifetime, C229_lifetime_refuted, C229_references_share, C229_unary_copies_are_separate, C230_conversion_dead, C230_literal_reference, C230_reference, C230_temporary_dead, C230_temporary_refuted, C230_value, C230_value_temporary, C231_value_never, C231_value_refuted, C231_void, C231_wrappers_refuted, C232_parameter, C233_one_instance, C233_progress, C235_all_sent, C235_null_refuted, C235_total, C236_last_partial, C236_line_refuted, C236_race_refuted, C237_all_shown, C237_empty_line_refuted, C237_hex_times_refuted, C237_stamped_partial, C238_failed_read_refuted, C238_shown_partial, C239_char, C239_count, C239_in_order_partial, C239_lost_refuted, C239_remaining, C239_remaining_failed, C240_empty_write_refuted, C240_read_error_refuted, C240_write, C241_block_partial, C241_described, C241_negative_refuted, C241_numbers, C241_unblock, C241_zero_refuted, C242_ampersand_refuted, C242_escaped, C242_message_refuted, C242_read_back_partial, C243_balanced, C243_described, C243_listed, C243_or_counted, C243_or_partial, C243_or_refuted, C244_refused, C244_returned, C244_stale_refuted, C244_throwing, C245_moved_partial, C245_nothing_refuted, C245_other_file_refuted, C245_short_refuted, C246_close_refuted, C246_defined_partial, C246_flush_refuted, C247_catches_up_refuted, C247_endless_refuted, C247_on_time, C247_once, C247_thrice_partial, C248_after_cut_refuted, C248_closed, C248_empty_refuted, C248_fail_refuted, C248_flush_refuted, C248_text_partial, C249_file, C249_others_partial, C249_serial_partial, C249_serial_refuted, C249_server_refuted, C250_columns_exactly, C250_columns_partial, C250_columns_refuted, C250_numbers, C251_cubic_lines, C251_poly_injective, C251_poly_refuted, C251_poly_words, C251_smooth_lines, C251_smooth_refuted, C252_brackets_partial, C252_brackets_refuted, C253_array, C253_points, C253_pose2, C253_pose3, C253_stencil_outside, C253_stencil_partial, C253_stencil_refuted, C254_history, C254_parts, C254_pointers, C254_set_parts, C254_vector, C255_cancel_table, C255_join_cancel, C255_start, C256_duration, C256_lock, C256_make_partial, C256_make_refuted, C256_negative_refuted, C256_trylock_partial, C256_trylock_release, C257_clocks, C257_semaphores, C257_shared_partial, C257_shared_refuted, C259_builtin, C259_long_name_refuted, C259_synopsis, C260_error_name, C260_optional_unlabelled_refuted, C260_repeated_switch_refuted, C260_shown_alike, C260_shown_word_is_accepted, C261_descriptions, C261_failure, C261_flag_breaks, C261_headings, C261_layout, C261_long_names, C261_long_usage_partial, C261_message_refuted, C261_usage_exactly, C261_version, C262_allowed_values, C262_bar_refuted, C264_assign_refuted, C264_copy_refuted, C264_copy_shares_refuted, C264_dangling_refuted, C264_no_leak_partial, C264_no_memory_refuted, C264_texts_partial, C265_after_set_partial, C265_background_refuted, C265_failures, C265_level_readable, C265_report, C266_iteration_partial, C266_iteration_refuted, C266_no_storage, C266_pop_empty_refuted, C266_pushes_in_order, C266_with_value, C267_failures_are_explained, C267_missing_refuted_for_all, C267_refused_declarations, C267_same_name_partial, C267_same_name_refuted, C267_undefined_refuted, C267_what_partial, C267_what_refuted_for_all, C267_word_shown_partial, C267_word_shown_refuted.

* `ClassicalDedekindReals.sig_forall_dec` (3 theorems): C59_append_refuted, C136_triangle_of_any_degree_refuted, C163_redimension_partial.

* `ClassicalDedekindReals.sig_forall_dec`, `FunctionalExtensionality.functional_extensionality_dep` (56 theorems): C46_derivative_is_the_derivative, C46_evaluation_is_the_sum, C46_shift_moves_the_graph, C47_cubic_with_accelerations, C47_cubic_with_slopes, C47_equal_abscissae_not_finite, C47_linear, C47_point_slope, C47_quintic, C48_division, C49_linear_roots, C50_linear_extrema, C51_intersection_is_on_both_lines, C52_clamped, C52_natural, C52_sizes_checked, C53_heuristic, C56_distance_is_the_minimum, C57_coefficients_vanish_at_the_ends, C62_running_equals_batch, C65_laws, C65_meaning, C66_durations, C136_overflow_exactly, C137_failure_flag_reset_refuted, C137_flag_partial, C138_mixed_comparison_consistent_refuted, C138_whole_partial, C139_vertical_coefficients_refuted, C139_vertical_partial, C142_release_out_of_bounds, C142_release_out_of_bounds_refuted, C151_no_waypoints_refuted, C151_validate, C155_before_interpolation_refuted, C155_evaluate, C156_dimensions_refuted, C156_equal, C161_signs, C163_nominal_rates_refuted, C187_any_matrix_refuted, C187_inverse, C187_product, C187_relative, C187_storage, C189_angle_axis_ignored, C189_any_quaternion_refuted, C189_quaternion, C190_arithmetic, C193_coordinates, C193_fourth_partial, C193_fourth_refuted, C208_matrix_layout, C208_pending_temporary_refuted, C208_temporaries_do_not_last, C208_transform_layout.

* `ClassicalDedekindReals.sig_forall_dec`, `ClassicalDedekindReals.sig_not_dec`, `FunctionalExtensionality.functional_extensionality_dep` (57 theorems): C44_arithmetic_is_wrapped, C44_wrap_idempotent, C44_wrap_is_equivalent_and_in_range, C49_degenerate_quadratic, C49_quadratic_roots, C54_sizes_checked, C55_sizes_checked, C58_distance_is_the_minimum, C60_associative, C60_concatenation_composes, C60_extension_is_concatenation, C60_heading_in_range, C60_identity, C61_base_differential, C61_rates_reproduce_the_velocity, C61_recovers_the_motion, C61_wheel_update, C63_axes_draw_the_ellipse, C63_eigen_decomposition, C133_rotations_compose, C134_degrees_round_trip, C141_repeated_abscissae_refuted, C141_repeated_abscissae_refuted_for_all, C142_debug_range_check, C142_release_partial, C144_early_partial, C144_self_extension_exactly, C144_self_extension_refuted, C147_empty_trajectory_refuted, C147_exactly_the_empty_one, C160_distance_metric, C187_rigid, C188_lift, C189_angle_axis_refuted, C189_axis_angle_quaternion, C190_distance, C191_integer_norm, C191_integer_norm_refuted, C191_norm, C192_distance, C192_rotate_partial, C192_rotate_refuted, C197_lift, C197_matrix_quaternion, C199_any_axis, C199_exactly, C199_rotation, C199_same_quaternion_refuted, C205_empty_undefined_refuted, C205_statistics_exact_arithmetic, C205_variance_is_square_of_deviation_refuted, C258_axes_partial, C258_default, C258_equal_refuted, C258_indefinite, C258_right_handed, C258_unsorted.

* `ClassicalDedekindReals.sig_forall_dec`, `ClassicalDedekindReals.sig_not_dec`, `Classical_Prop.classic`, `FunctionalExtensionality.functional_extensionality_dep` (104 theorems): C44_double_error, C44_double_range_and_idempotent, C49_cubic_roots, C50_cubic_extrema, C54_large_bound, C54_smooth_linear, C55_tension, C60_legacy_construction, C60_legacy_inverse, C60_legacy_product, C60_legacy_relative, C64_x_intercept, C132_single_error_partial, C132_single_precision_partial, C133_angle_of_rotation, C133_rotation_matrix_round_trip, C135_cubic_roots_finite_refuted, C135_exactly_partial, C140_cubic_degrades_refuted, C140_exactly, C143_points_needed_partial, C143_too_few_points_refuted, C145_conversion_preserves_the_motion, C145_storages_agree, C148_counter_exactly, C148_counter_refuted, C149_exactly, C149_uncorrelated_is_zero, C149_y_intercept_refuted, C152_linear_outcome, C152_linear_path, C153_end_rate_partial, C153_end_rate_refuted, C154_bounded_terminates_refuted, C154_linear_finishes, C154_linear_terminates_refuted, C154_never_finishes, C161_cube_root, C167_refusals, C167_release_unchecked_refuted, C167_spline_law, C167_tension_path, C168_leading_join_partial, C168_leading_join_refuted, C169_default_bound_refuted, C169_tension_finishes, C170_accelerations_partial, C170_accelerations_refuted, C170_ample_bounds, C170_leading_jump_refuted, C182_ends, C182_uniform, C183_finite_partial, C183_float_refuted, C183_polar, C184_returns, C184_stuck, C185_even_partial, C185_left_over_refuted, C185_uniform, C185_unseeded, C186_latest_seed_partial, C186_shared_refuted, C188_homomorphism, C190_normalize, C190_polar, C190_rotate, C192_normalize_axis_refuted, C192_normalize_partial, C192_normalize_refuted, C197_flatten_partial, C197_flatten_refuted, C197_round_trip, C198_line, C200_endpoints, C200_steady, C201_coplanar_check_refuted, C201_endpoints_partial, C201_endpoints_refuted, C201_stays_level, C202_endpoints, C202_straight, C203_huge_undefined_refuted, C203_stamp_from_double, C204_present_day_refuted, C204_round_trip_epoch_partial, C204_round_trip_exact_refuted, C204_round_trip_partial, C206_columns_line_up, C206_empty_refuted, C206_given_width, C206_minimal_width_refuted, C206_negative_zero_refuted, C207_setter_in_between_refuted, C207_temporaries_do_not_last, C207_two_calls_refuted, C209_streamed_twice, C234_not_normal, C234_other_axes_refuted, C234_round_trip, C234_same_rotation, C263_multiples, C263_nearest, C263_order.

<!-- assumptions: end -->
