{
"C01": {
"note": "Refinement of the cursor arithmetic to a bounded list queue for every history; capacities up to 2^30 (above that follower+idx overflows int)."
},
"C02": {
"note": "Every push history, length up to 2^31."
},
"C03": {
"note": "False of the code: resize keeps leader/follower/running_index. Witnesses plus the cases that work (resize+clear; growing a FiFo)."
},
"C04": {
"note": "Reads and writes through at()/operator[] for every array, index and build mode; release-build out-of-range operator[] is UB in the model."
},
"C05": {
"note": "Value semantics for every history of copies and writes between distinct objects; self-assignment of a dynamic array is refuted (frees its own storage first). C05_self_assignment_exactly covers every program: a self-assigned array keeps its size and every element becomes indeterminate, nothing else changes."
},
"C06": {
"note": "Window reads/writes and creation checks hold; the boundary cases are refuted with witnesses (index one past the end, accesses outside the window but inside the parent, at(0) on an empty window, sub-stencils)."
},
"C07": {
"note": "Guard report is equivalent to a changed guard byte, for every size and every pattern of stores; after a resize only stores made since are reported."
},
"C08": {
"note": "Every number of values, including too many, and the empty array."
},
"C09": {
"note": "All values of the types up to four bytes round trip and the encoding is little-endian for all widths; reading back eight-byte types is undefined for every value (int shifted by >= 32), and short arrays are sign-extended - both refuted."
},
"C10": {
"note": "Every type, buffer and value except the minimum of int/long/long long (negation overflows) and negative char (unsigned routine), which are refuted with witnesses."
},
"C11": {
"note": "Every string: accepted exactly when made of tokens and spaces, except that an unfinished final token is dropped silently (refuted)."
},
"C12": {
"note": "All integers and characters, debug and release."
},
"C13": {
"note": "Every history of precisions; vsnprintf itself is not modelled."
},
"C14": {
"note": "Every text up to 25 digits, every type, every continuation: exact below the cap (maximum with last digit zeroed) and OutOfRange above; sequences of printed integers read back. Refuted: maxima are rejected, \"0,\" is an error, over-long texts are cut. Absence of overflow proved for all device schedules."
},
"C15": {
"note": "Exact up to 0x7fff, rejected in 0xCCC0..0x7FFFF; refuted for all of 0x8000..0xCCBF (16-bit accumulator wraps) and larger values. C15_hex_all_partial says for every text which value is read and when it is rejected."
},
"C16": {
"note": "Exact rational arithmetic in place of float rounding; proved when something follows the number; refuted at end of stream (last digit always lost), for the 0.1f step, and beyond 25 digits."
},
"C17": {
"note": "Block lengths below 2^32 (the loop counter is unsigned int); fputs/fflush/fwrite accept every byte.  The NUL case is C81."
},
"C18": {
"note": "Missing: single-byte writes after clear or beyond 256 bytes past the initial text, which leave the allocation (refuted)."
},
"C19": {
"note": "Missing: histories with failing opens or flushes, which leave the mutex locked or free an instance in use (refuted).  Fewer than 2^32 operations."
},
"C20": {
"note": "Terminal driver VTIME is modelled as 100 ms units.  Timeouts from 25.6 s on are C82."
},
"C21": {
"note": "Printing after temporary and after permanent settings, for the nine integer types; the converter's buffer holds arbitrary bytes. Texts are specified by digit values and by the numeral specification shared with C10."
},
"C22": {
"note": "Erasure theorem over all histories plus totality of ordinary histories."
},
"C23": {
"note": "Error(flag).what() belongs to another package and is a parameter."
},
"C24": {
"note": "Refinement of the manager's topic map, publication pointers and per-sigslot sets to a relation of connections; emission enumerates the routes, restores every lock and counter. One thread, callbacks do not use sigslots."
},
"C25": {
"note": "The complement (the only member of a topic in both roles) is C91."
},
"C26": {
"note": "Assignment between unrelated objects is C92."
},
"C27": {
"note": "All normalised operands, both forms of addition, both build modes. Overflow of 64-bit seconds not modelled."
},
"C28": {
"note": "Exact for all operands; normalised exactly if the nanoseconds of the operands differ by less than a second, which they do unless the signs are opposite. The opposite-sign case is refuted (no carry in operator-)."
},
"C29": {
"note": "Clock = arbitrary non-decreasing list of readings."
},
"C30": {
"note": "No drift and rebasing hold for every clock; a deadline with tv_nsec = 10^9 is reachable (wrap test uses > instead of >=), refuted with a witness and characterised (only at whole seconds)."
},
"C31": {
"note": "MilliSleep full; Micro/NanoSleep operator()(x) refuted (tv_sec not updated); proved for constructed durations and sub-second durations. C31_calls_exactly: the call is right exactly when the constructor's and the call's durations are both below a second."
},
"C32": {
"note": "Decimal rendering of long by the standard library is assumed canonical."
},
"C33": {
"note": "pthread mutex by contract; wrapper code step by step; any number of threads; debug builds need no client discipline."
},
"C34": {
"note": "load and store of the counter are separate steps; proved when no thread is preempted between them; arbitrary interleavings are C95 (refuted)."
},
"C35": {
"note": "one calling thread; several callers are C98 (refuted)."
},
"C36": {
"note": "cancel is C100, failed creation C102, second join C103 (all refuted)."
},
"C37": {
"note": "signals are C109, extra unlocks C108, destruction of objects C112 (refuted)."
},
"C38": {
"note": "exactness is C110 (refuted)."
},
"C39": {
"note": "scheduler range of at least ten levels (POSIX guarantees 32)."
},
"C40": {
"note": "int bit patterns; flags are single bits 0..30; any sequence of operations."
},
"C41": {
"note": "complete for programs without exclusive groups; reserved characters in values are listed in item_ok; exceptions are C125, C129"
},
"C42": {
"note": "sound for programs without groups and positional arguments and for plain words; the excluded words are C124, C127, C128"
},
"C43": {
"note": "groups of switches, value and positional arguments; combined grouped switches and multi-valued members are C130"
},
"C44": {
"note": "Exact arithmetic for all angles; range and idempotence also with every operation rounded to double."
},
"C45": {
"note": "Degrees up to 33; induction over the two loops. Degrees from 34 on are C136."
},
"C46": {
"note": "Sum, limit of difference quotients, and p(x-s), for coefficient lists of any length (shift up to degree 33)."
},
"C47": {
"note": "Includes first and second derivatives after the final shift; equal abscissae give non-finite coefficients (theorem)."
},
"C48": {
"note": "Ring identities over all coefficients."
},
"C49": {
"note": "Linear, quadratic, cubic incl. double roots, Cardano and the trigonometric case; the symmetric single-root case is C135."
},
"C50": {
"note": "Attained and bounding, for all intervals, by the extreme value theorem and Fermat."
},
"C51": {
"note": "Intersection lies on both lines and is the only common point; a throw means relatively equal slopes."
},
"C52": {
"note": "Natural and clamped cubic splines over the reals, any number of points: interpolation, C2 at all times, end conditions, safe evaluation; debug builds check the sizes."
},
"C53": {
"note": "Any number of points over the reals; slopes at inner points are the means of the chord slopes."
},
"C54": {
"note": "Shape, C2 smoothness and bound of the smooth linear spline; large enough bounds always succeed; debug builds check the sizes."
},
"C55": {
"note": "Natural tension splines over the reals, any number of points; debug builds check the sizes."
},
"C56": {
"note": "Minimum over the segment, attained, including degenerate segments."
},
"C57": {
"note": "Non-vertical segments; vertical ones are C139."
},
"C58": {
"note": "The trajectory must have at least one pose (see C147); floats are exact reals."
},
"C59": {
"note": "Refuted: Eigen's comma initialiser overwrites the target and never grows it; only the case of an empty target appends. C59_never_appends covers every non-empty call."
},
"C60": {
"note": "Exact arithmetic. Matrix storage must hold a rotation (the class never checks). Self-extension is C144."
},
"C61": {
"note": "Exact arithmetic; bias and radius non-zero where the code divides by them."
},
"C62": {
"note": "Exact arithmetic; reading an uninitialised member would be an undefined outcome in the model. The rounded counter is C148."
},
"C63": {
"note": "Exact arithmetic, double and float versions alike; rounding is C150. The 3-D ellipsoids call Eigen's solver and are not modelled."
},
"C64": {
"note": "Exact arithmetic. A vertical major axis makes tan(pi/2) undefined in exact arithmetic (no double is pi/2), so it is excluded."
},
"C65": {
"note": "Floating point comparison over all reals and precisions in [0,1)."
},
"C66": {
"note": "Any number of waypoints and joints, over the reals."
},
"C67": {
"note": "Refuted: the constructor reads the clock twice; the exact discrepancy is proved."
},
"C68": {
"note": "hz (float division) is not modelled; the count and interval are (C68_rate). 100000 s is the cap on the minimum interval, as in the code."
},
"C69": {
"note": "Refuted (flag is never reset by a success); the exact behaviour - flag of the latest failure - is proved for every history."
},
"C70": {
"note": "operator>> of istringstream is modelled by the C++ standard's grammar (C locale, base 10)."
},
"C71": {
"note": "Refuted for buffers that are too small; proved, with the exact bytes touched, for buffers of five (true) or six (false) cells and more. C71_exactly: a buffer is respected if and only if it has room for the word and its terminator."
},
"C72": {
"note": "All texts; device never pauses or fails inside a word."
},
"C73": {
"note": "Integers and floats for every schedule; strings and booleans refuted."
},
"C74": {
"note": "Floats, and integers of texts without x; a failed hexadecimal read zeroes the target (refuted)."
},
"C75": {
"note": "Refuted by a 12-step schedule over the static digit buffer; uninterrupted runs proved equal to the sequential parser."
},
"C76": {
"note": "False without an explicit flush."
},
"C77": {
"note": "False when nothing is buffered, e.g. after writing exactly 4096 bytes."
},
"C78": {
"note": "Append mode, every previous content and every sequence of block writes; the OS takes a block whole or fails."
},
"C79": {
"note": "Byte 255 is taken for the end of input."
},
"C80": {
"note": "All timeouts from 1 to 99 ms and all arrival schedules; the OS side of polling is a contract."
},
"C81": {
"note": "False: fputs stops at the first NUL. C81_console_partial: after a final flush the output equals what was written exactly when no NUL was written."
},
"C82": {
"note": "False: the tenths of a second are stored in one byte. C82_timeouts_partial gives the wait for every timeout; it is the intended one exactly below 25600 ms."
},
"C83": {
"note": "False when the old content is longer: the file is not truncated."
},
"C84": {
"note": "False: the polling loop does not run and the count is never set. C84_timeouts_partial: exactly the timeout 0 is affected."
},
"C85": {
"note": "Refuted: float formatters whose permanent alignment is NoAlign start padding after one temporary use, string formatters keep every temporary setting. Partial: erasure theorem for float formatters with another alignment and non-negative precisions."
},
"C86": {
"note": "Refuted: the alignment of the previous temporary use is reused, and before the first one it is indeterminate. C86_three_arguments_partial: the text printed for every remembered alignment."
},
"C87": {
"note": "Refuted: texts longer than 29 characters are cut, more than 20 decimals are never printed, the scientific base prints a fixed sentence. Partial: texts of at most 29 characters with at most 20 decimals, with permanent settings (C87_settings_partial) and with settings for one value (C87_temporary_partial). snprintf itself is a parameter (precision to text)."
},
"C88": {
"note": "Refuted for the smallest int/long and for negative char, inherited from the converters (C10). C88_values_partial covers every other value of every type."
},
"C89": {
"note": "Text length and width restricted so that int arithmetic does not overflow."
},
"C90": {
"note": "Refuted: the string formatter never initialises its flag. Partial: the others."
},
"C91": {
"note": "Refuted: the end iterator of the topic map is dereferenced; shown to happen in every state where the signal is the only member in both roles."
},
"C92": {
"note": "Refuted: operator= does not adjust the handle counts. C92_between_copies_partial: assignment between handles of one connection changes nothing; C92_counts_refuted: between others one count ends one too low and the other one too high."
},
"C93": {
"note": "Refuted: unbounded recursion, for every stack depth and every circle (C93_any_circle_refuted). C93_ordered_partial: emission ends whenever the connections can be ordered; C24 covers the delivered values."
},
"C94": {
"note": "Refuted (member of SigSlot, not reachable through Signal and Slot), for every world by C94_slot_refuted_for_all."
},
"C95": {
"note": "Witness: two threads, 16 steps, counter ends at 2^32-1. C95_uninterrupted_partial: 0 at the end whenever no thread is preempted in the middle of an update and no lock call failed."
},
"C96": {
"note": "Witness in debug build. C96_failed_locks_counted_partial: the counter exceeds the truth by exactly the number of failed lock calls."
},
"C97": {
"note": "the duration is passed as an absolute time; partial theorem states what is left."
},
"C98": {
"note": "Witness schedule with two callers. C98_starts_apart_partial: with starts that do not overlap at most one worker runs."
},
"C99": {
"note": "Release build returns true without a worker; no later start can launch one in either build. C99_debug_reports_partial: in debug builds start() returns true as often as a worker begins."
},
"C100": {
"note": "Refuted wherever cancel finds the thread (C100_cancel_refuted_everywhere): freed twice or used after it was freed, unless a cancellation point inside the function stops the thread first (C100_cancel_partial)."
},
"C101": {
"note": "task pointer is never reset; partial: true exactly from the start on."
},
"C102": {
"note": "pthread_detach of a handle never set. C102_destroy_partial: after a failed start, destruction is defined exactly when join was called before. C102_failed_start: what a failed start reports."
},
"C103": {
"note": "pthread_join of a joined handle. C103_never_started_partial: joining an object never started returns however often it is called. C103_join_again_refuted: in every history without cancel a join after a completed join is undefined."
},
"C104": {
"note": "Linux setpriority contract, privileged; C104_values gives the niceness of every level."
},
"C105": {
"note": "Background is the one level that does not read back (C105_levels_partial, after any requests without a real-time level)."
},
"C106": {
"note": "High unprivileged returns true; partial: Critical and real-time levels do report."
},
"C107": {
"note": "C107_requests_partial gives what is read back after every sequence of requests with the privilege: the latest real-time level if there was one, else the latest niceness."
},
"C108": {
"note": "releases somebody else's lock; race raises the count to 2; partial: harmless on a free semaphore without interference."
},
"C109": {
"note": "C109_signals_partial: with k interrupted lock() calls at most k + 1 processes are inside."
},
"C110": {
"note": "C110_deadline_partial: late exactly when the nanoseconds add up to 999999999."
},
"C111": {
"note": "registry of one name, sem_open by contract."
},
"C112": {
"note": "C112_same_name_partial: two objects share the semaphore exactly when none was destroyed between their constructions."
},
"C113": {
"note": "value abstracted to one number, constructor four atomic steps."
},
"C114": {
"note": "C114_overlapping_attach_partial: calls may interleave in any way as long as nobody writes before the creator's constructor has returned."
},
"C115": {
"note": "C115_creator_may_leave_partial: harmless if nobody attaches afterwards."
},
"C116": {
"note": "C116_larger_storages_partial: harmless if no process attaches with a smaller Storage than those before. C116_two_exactly: for two processes exactly then."
},
"C117": {
"note": "characterises testFlag for arbitrary values."
},
"C118": {
"note": "C118_each_flag_partial: all flags of a combination are set exactly when each alone tests true."
},
"C119": {
"note": "From every parser state; the double dash where an argument may start."
},
"C120": {
"note": "Every declaration sequence, built-in arguments included."
},
"C121": {
"note": "Every program and argument vector; constraints are value lists."
},
"C122": {
"note": "Texts whose first line can be broken; widths and content of the printed lines, and the column of every line (C122_indentation)."
},
"C123": {
"note": "refuted: when the first line has no blank, comma or bar the code reads s[-1] (undefined), for every such text (refuted_for_all). C123_exactly: printing is defined if and only if the text fits on one line or its first line holds a blank, comma or bar. Texts that can be broken are C122."
},
"C124": {
"note": "refuted: the built-in ignore switch has flag '-', so a single-dash word with an inner dash switches on \"ignore the rest\"; C124_known_words_partial: in an accepted line without such words every word is a label, the value of one, a positional value, or a dash followed by characters of switches and asterisks; C124_standard_words: exactly which words the built-in arguments of every accepted program answer to"
},
"C125": {
"note": "refuted: '*' doubles as the marker of a consumed switch character. Partial: every text as a word of its own, and exactly the texts without asterisk in the joined form (positional: after the first character, and not starting with a dash)"
},
"C126": {
"note": "refuted: the ignore flag, the delimiter and the optional-positional marker are static and never reset; C126_harmless_lines_partial: after a program without optional positional arguments whose line has no word that names the ignore switch or contains its flag, every further program is set up as in a fresh process"
},
"C127": {
"note": "refuted: a lone dash or dash-star word is accepted silently; C127_other_words_partial: an accepted word that is neither a label nor positional is a dash followed by characters of switches and asterisks"
},
"C128": {
"note": "refuted: the default is kept for a value argument, a multi-value argument reads an indeterminate element; C128_other_texts_partial: for every non-empty text exactly the readable ones are accepted, with the number they denote"
},
"C129": {
"note": "refuted: a switch whose flag occurs in the value consumes that character first. Partial: for every line the short forms of which are understood (no switch character in a joined value), writing the long forms has the same effect"
},
"C130": {
"note": "refuted: -xb -a sets both members; -xa is rejected; two multi-valued members compensate for missing required arguments. Partial: without repeatable group members and combined grouped switches both halves hold"
},
"C131": {
"note": "refuted: flag '*' loops forever (undefined: loop without side effects that never ends); C131_always_defined_partial: otherwise, for lines without empty words and counts that leave room for the characters of the line, every outcome is defined"
},
"C132": {
"note": "False: the float nearest to pi wraps below -pi and back (bit by bit). C132_single_precision_partial: with every operation rounded, for every float the result is within that float of 0, and wrapping again changes it only if it is that float or its negative; C132_single_error_partial: the result is within (|a| + 8) / 2^23 of an angle equivalent to a (overflow is not modelled)"
},
"C133": {
"note": "Exact arithmetic."
},
"C134": {
"note": "Exact arithmetic."
},
"C135": {
"note": "False: x^3+x yields NaN; C135_exactly_partial: this happens for exactly the cubics c3((x-m)^3+p(x-m)) with p > 0"
},
"C136": {
"note": "False: degree 34 and above overflows int while filling the triangle (undefined behaviour); C136_overflow_exactly shows this is the exact boundary; smaller degrees are C45 and C46."
},
"C137": {
"note": "False: the flag is never reset; C137_flag_partial: it tells whether any intersection so far has failed"
},
"C138": {
"note": "False: integer-left overload compares exactly. C138_whole_partial: for whole numbers on the right and precisions too fine to confuse two integers of that size the implication holds."
},
"C139": {
"note": "False: C has the wrong sign (the unit test expects it); C139_vertical_partial: the line described is the mirrored one, right exactly for segments on the y axis"
},
"C140": {
"note": "False: division by zero for every such cubic. C140_exactly gives the exact condition under which the search divides by zero; C140_inflection covers cubics whose only root is their inflection point."
},
"C141": {
"note": "refuted for every data set with two equal neighbouring abscissae and every constructor: the outcome is non-finite coefficients, never an exception (C141_repeated_abscissae_refuted_for_all)"
},
"C142": {
"note": "The debug range check is proved for all three kinds of spline and their derivatives; C142_release_partial: the release build reads out of bounds for every point past the end of any spline and goes on with the first piece before its beginning."
},
"C143": {
"note": "refuted: no points (heuristic), two points (tension) or one point (smooth linear) is undefined behaviour; C143_points_needed_partial: how many points each constructor needs, for all increasing abscissae"
},
"C144": {
"note": "Refuted for left-to-right evaluation (mandatory since C++17): the second coefficient reads the overwritten first. C144_self_extension_exactly characterises the poses for which it is right."
},
"C145": {
"note": "Exact arithmetic."
},
"C146": {
"note": "Containers of trajectories of any length."
},
"C147": {
"note": "Refuted for the empty trajectory, and only for it."
},
"C148": {
"note": "Refuted for both types; C148_counter_exactly gives the exact value min(k, 2^24) resp. min(k, 2^53)."
},
"C149": {
"note": "Refuted: the code multiplies by sin(angle) where cos(angle) is needed. C149_uncorrelated_is_zero shows a whole family, and C149_exactly shows that for covariances whose longer axis is not vertical the second intercept is right if and only if both variances are equal and the correlation is positive."
},
"C150": {
"note": "Refuted bit-exactly: variances 1 and 2, covariance 2^-60. C150_uncorrelated_partial: without correlation the axes are exactly the coordinate axes, for all variances."
},
"C151": {
"note": "validate is exact for a non-empty trajectory; with no waypoints the unsigned segment count wraps and both functions read outside the list (refuted witness)."
},
"C152": {
"note": "rates as configured at the first waypoint or zero; the number of stretching rounds is a parameter (C154 is about termination)."
},
"C153": {
"note": "refuted: the end rate is k times the requested one with 0 < k <= 1/2, because the last pulled-forward time is doubled after the tangents were built; right only for rest (partial theorem)."
},
"C154": {
"note": "refuted for the default (zero) maximum accelerations, for last segments under a millisecond, and for a short last segment with rest at the end: the data of the exception always stretches the first segment. Proved to finish at once for large bounds."
},
"C155": {
"note": "refuted before the first interpolation: the evaluators read element size()-1 of an empty array."
},
"C156": {
"note": "refuted for different dimensions: equality depends on the order or reads outside the shorter waypoint."
},
"C157": {
"note": "proved for one owner; refuted for copies (the implicit copy shares the pointers)."
},
"C158": {
"note": "Every text, both modes."
},
"C159": {
"note": "Every word, any preceding blanks and rest."
},
"C160": {
"note": "Metric laws over the reals."
},
"C161": {
"note": "Every real; cube_root over the reals."
},
"C162": {
"note": "Every normalised time, positive or negative, in exact integer arithmetic."
},
"C163": {
"note": "Redimensioning gives the right sizes (partial); refuted in full, as the nominal rates become zero and the trajectory no longer validates."
},
"C164": {
"note": "Every history of writes and flushes with OS failures at any point."
},
"C165": {
"note": "Every declaration sequence in a fresh process."
},
"C166": {
"note": "One exclusive group, repeatable member given any positive number of times."
},
"C167": {
"note": "The path of the tension interpolation: end conditions, inner waypoints, differentiability, bounds on the leading and trailing curves; refusals of debug builds; release builds check nothing (refuted with two waypoints: out of range access)."
},
"C168": {
"note": "Continuously differentiable if the last segment was not lengthened; refuted in general by five waypoints whose trailing loop lengthens the last segment, where the position jumps at the end of the leading curve."
},
"C169": {
"note": "Finishes iff all bounds are positive; the default bound of zero never finishes."
},
"C170": {
"note": "Holds when the first and last segments are not lengthened, which large enough bounds guarantee; refuted by five waypoints in a line started from rest; the acceleration jumps at the end of the leading curve whatever the bound."
},
"C171": {
"note": "Full for socket clients. For servers, serial ports and files refuted with unboundedly many lost descriptors; partial for every device when none of the losing calls (accepting a client, bind failure in the constructor, opening failure after ::open, opening an open file) happens."
},
"C172": {
"note": "Refuted for sockets (hung up, closed or never opened, then destroyed); partial when sockets are closed and destroyed only while open; for clients that condition is exact."
},
"C173": {
"note": "Proved for clients; partial for servers (bind succeeds), ports (stop bits accepted) and files (not open before); refuted otherwise. C173_listen: accepting a connection answers with a fresh descriptor or leaves everything as it was."
},
"C174": {
"note": "Both ways of constructing and opening a port read an indeterminate member (refuted); partial for objects in zeroed storage."
},
"C175": {
"note": "For clients and servers, all interleavings; reads below 2^31 bytes."
},
"C176": {
"note": "Partial for reads of at least one byte; refuted for empty reads and for resets on servers."
},
"C177": {
"note": "Proved for clients; servers only check in read."
},
"C178": {
"note": "Partial when the upper half of the uninitialised variable is zero; otherwise refuted."
},
"C179": {
"note": "Partial: every call but a client's write and failed remaining."
},
"C180": {
"note": "Exact list of errno values where the two classifications differ."
},
"C181": {
"note": "Exact sets of errno values behind the affected classifications."
},
"C182": {
"note": "Rounding as IEEE binary32/binary64 (Flocq, round to nearest even); rand() any function with answers in 0..2^31-1."
},
"C183": {
"note": "Exact polar transform (C183_polar) with the arithmetic of the type rounded operation by operation, up to the final logarithm and root."
},
"C184": {
"note": "Sufficient condition for every library, and one library for which the loop never ends."
},
"C185": {
"note": "Histories over the state shared by all generators of one type (rand's state and two static locals). Refuted for gaussian numbers for every library and every seed."
},
"C186": {
"note": "Refuted for every library and seed; C186_latest_seed_partial: the uniform numbers after the latest construction are those of its seed alone, whatever happened before"
},
"C187": {
"note": "The refuted theorem shows what happens with a matrix that is no rotation, which the API accepts. Exact arithmetic."
},
"C188": {
"note": "Proved."
},
"C189": {
"note": "The angle-axis constructor is a stub (TODO in the source): refuted. The quaternion constructor is proved for unit quaternions and refuted for others."
},
"C190": {
"note": "Proved."
},
"C191": {
"note": "Proved for doubles (exact arithmetic) and characterised for int; homogeneity is refuted for int."
},
"C192": {
"note": "Normalize is refuted with the rounded arithmetic of doubles and characterised by C192_normalize_partial; C192_rotate_partial gives what rotating keeps (exact trigonometry, truncated); distance and sums are proved."
},
"C193": {
"note": "The full invariant is refuted by three ways to write the fourth element; the partial theorem covers debug constructors and coordinate setters."
},
"C194": {
"note": "The text of the log is proved for every schedule; three readings of the interface are refuted. The rendering of a time stamp is that of TimeModel."
},
"C195": {
"note": "Whole messages under two conditions (short, flushed at once); refuted without them by a concrete schedule."
},
"C196": {
"note": "Proved with some mode enabled; refuted when all modes are disabled."
},
"C197": {
"note": "Conversions proved over exact reals; flattening an arbitrary transform is refuted."
},
"C198": {
"note": "Proved."
},
"C199": {
"note": "Equality of the two quaternions is refuted at -pi, equality up to sign is proved. C199_exactly: they are equal if and only if the heading is above -2/3 pi."
},
"C200": {
"note": "Over exact reals, with the exact exponential and logarithm of Sophus."
},
"C201": {
"note": "Proved for planar relative motion; refuted for tilted frames (debug) and frames at different heights (release)."
},
"C202": {
"note": "Proved."
},
"C203": {
"note": "Doubles are Flocq's binary64 format without an upper exponent bound, every operation rounded to nearest even. The _refuted theorem gives the undefined behaviour at 2^63."
},
"C204": {
"note": "The exact round trip is false (_refuted, with 1 s 2 ns and 1700000000 s 100 ns); the _partial theorems give the true error bounds. Negative stamps are not covered."
},
"C205": {
"note": "Exact arithmetic (no rounding of the double operations, which C203 and C204 do cover). Missing: rounding errors of the sums."
},
"C206": {
"note": "Columns line up and a given width is respected for all containers without negative zero whose texts have at most 29 characters. Refuted: the automatic width is not minimal (9.5 with precision 2 gets a blank too many), a negative zero spoils the alignment, and an empty container with automatic width throws (debug) or reads the first element of nothing (release)."
},
"C207": {
"note": "Holds for every history in which each call is streamed before the next one. Refuted if a second call with temporary settings, or a setter, comes between a call and its streaming."
},
"C208": {
"note": "Layout and histories proved for matrices of any shape and for transforms. Refuted: a call without temporary settings made while a call with temporary settings was not yet streamed prints with the temporary ones."
},
"C209": {
"note": "Byte text proved for every container. Numbers: streamed twice throws in a debug build. Refuted for bytes: the byte formatters never reset their state, so the second streaming is not noticed; a fresh one in a release build dereferences null."
},
"C210": {
"note": "Formatters behave as values in programs in which every copy prints at once. Refuted otherwise: the copies share pointers to the members of the original, so a setter on the copy changes the original, the copy forgets its own settings, assignment does the same, and printing a copy after the original is destroyed is undefined. FormatNumber has the same pointers; floats and doubles are modelled."
},
"C211": {
"note": "Proved for every program whose windows lie in the buffer and whose indices lie in their windows. Refuted for at(): it refuses the first byte of the buffer, and hands out bytes outside the window (C211_at_exactly). Iterators are offsets."
},
"C212": {
"note": "Proved for every program up to its first exception, except for the statements that touch the byte one past the buffer (index equal to the end, front of a window at the end) or before it (back of an empty window at the beginning). Refuted: those statements; windows and indices are held to the buffer, not to the window; a failed resettle leaves the stencil changed, so that filling it after catching the exception overruns the buffer; pointers in the wrong order are accepted; release builds check nothing."
},
"C213": {
"note": "Success and the error table are proved for every library. Refuted: on failure the buffer is read before anyone knows whether it was written, the result string is overwritten and the buffer is lost."
},
"C214": {
"note": "CRITICAL_SECTION as documented: recursive, one owner; construction and destruction not modelled."
},
"C215": {
"note": "Full for fewer than 2^32 locks and calls in progress; the documented reading (number of threads) is refuted."
},
"C216": {
"note": "C216_uninterrupted_partial covers a trylock with no step of another thread in between; with such steps it may block or refuse a free mutex (refutations)."
},
"C217": {
"note": "C217_start_partial excludes the priorities for which a debug build throws after creating the thread (refuted for those) and histories in which a constructor threw."
},
"C218": {
"note": "Histories in which a constructor threw are excluded (see C217_constructor_loses_refuted); a failed start counts as started (refuted)."
},
"C219": {
"note": "Killing a thread is taken as immediate; destroying kills instead of detaching and isRunning stays true after the function returned (refuted)."
},
"C220": {
"note": "C220_elapsed_partial is for watches that are not restarted; restart() and split() do not work because stamp() does not take the time (refuted for every history)."
},
"C221": {
"note": "C221_call_partial is an equivalence; the structure handed to ecl_time_lite's sleep is modelled, not the sleeping. unsigned long has 32 bits."
},
"C222": {
"note": "Full; the missing exception for real time levels is refuted."
},
"C223": {
"note": "Full, for the flag values of Linux; tcsetattr is assumed to apply what it is given."
},
"C224": {
"note": "C224_bytes_partial excludes eight data bits with parity, for which the claim is refuted; the line discipline of Linux is part of the specification."
},
"C225": {
"note": "C225_settings_partial covers one stop bit and rates up to 115200; the rest is refuted."
},
"C226": {
"note": "An open port has a handle and a waiting thread (proved, if threads can be created); freeing the port and the event handles is refuted for all histories; C226_lost_events_exactly counts the event handles lost by every call."
},
"C227": {
"note": "Closing a closed port returns (proved), so does closing one without event thread; closing an open one waits for the event thread (refuted for all histories), the opening constructor is undefined behaviour."
},
"C228": {
"note": "Proved for every nesting of copies and references over every kind of function object."
},
"C229": {
"note": "Sharing and separation are proved; use of a reference after its object's death is undefined behaviour (refuted)."
},
"C230": {
"note": "Values and references proved; temporaries bound to const references are dead (proved for all, with a witness that calling is undefined behaviour)."
},
"C231": {
"note": "Proved for functions that return void; for all others the classes do not compile (refuted)."
},
"C232": {
"note": "Proved for all histories."
},
"C233": {
"note": "Proved for all interleavings by an invariant; the C++11 guard of static locals is the contract."
},
"C234": {
"note": "Proved over the reals; the check for other axes is refuted."
},
"C235": {
"note": "Proved for inputs without null bytes; refuted with one."
},
"C236": {
"note": "Refuted for every line with a newline; proved for a last line without one; the race with the constructor is refuted."
},
"C237": {
"note": "All characters are shown (proved); stamps are proved if no line is empty, refuted otherwise and for hexadecimal output."
},
"C238": {
"note": "Proved for 0 to 255 bytes; a failed read is undefined behaviour (refuted)."
},
"C239": {
"note": "Proved for all histories in which no wait fails; refuted otherwise."
},
"C240": {
"note": "Writes proved; errors of reads and empty writes refuted."
},
"C241": {
"note": "Proved for positive times; zero and negative times refuted."
},
"C242": {
"note": "Escaping proved for all texts, reading back for those without &; refuted with & and for the message."
},
"C243": {
"note": "Balance and completeness proved for all command lines; the separators are characterised and refuted."
},
"C244": {
"note": "Files of ofile_pos.cpp and ofile_w32.cpp; answers of the system are inputs. C244_stale_refuted: after an exception error() keeps its old value."
},
"C245": {
"note": "Refuted theorems show a name of another file, a partial block and an empty write. Missing from the partial theorem: those histories."
},
"C246": {
"note": "C246_close_refuted: a failed fclose leaves a dangling stream that is closed again. C246_flush_refuted: flush() succeeds on a file that is not open."
},
"C247": {
"note": "The Windows file has the same text as the POSIX one. C247_thrice_partial needs readings less than a period apart; C247_endless_refuted shows why. C247_on_time covers a call made exactly at the deadline."
},
"C248": {
"note": "Streams on the output files of OErrModel; texts of numbers are inputs. C248_fail_refuted contradicts the documentation of fail(), C248_flush_refuted the same for refused flushes. C248_empty_refuted: empty texts throw in debug builds."
},
"C249": {
"note": "Devices other than files are abstracted to the answer of open(). Refuted for server streams without exceptions and for vanishing serial ports."
},
"C250": {
"note": "The texts of numbers come from the integer formatter model. C250_columns_exactly: columns line up exactly for degrees up to 22 and for 25."
},
"C251": {
"note": "Doubles are given by the text \"%.2f\" makes of them. C251_poly_refuted: the formatter's buffer cuts texts of more than 29 characters. C251_smooth_refuted: default constructed smoothed spline."
},
"C252": {
"note": "C252_brackets_refuted shows the unbalanced case, z_0 not zero and z_f zero; all others match."
},
"C253": {
"note": "Elements are given by the text the stream makes of them. C253_stencil_refuted: stencils that reach outside."
},
"C254": {
"note": "Values are elements of any type; vectors are Eigen vectors of 2, 3 or 6 elements."
},
"C255": {
"note": "The number the system returned is the input. Messages are not modelled."
},
"C256": {
"note": "The number the system returned is the input. C256_negative_refuted and C256_make_refuted are release builds."
},
"C257": {
"note": "C257_shared_refuted: errno is overwritten before it is classified."
},
"C258": {
"note": "The eigenvalues and eigenvectors the solver answers are an input: unit eigenvectors that are linearly independent. C258_axes_partial needs three different eigenvalues; C258_equal_refuted shows why. Reals instead of floats."
},
"C259": {
"note": "Lines as lists of characters; blanks between words are not counted because wrapping moves them. C259_long_name_refuted holds for every name over 72 characters without a separator."
},
"C260": {
"note": "C260_shown_alike is for the blank as delimiter and leaves out the built-in \"--\" switch. The two refuted theorems hold for every argument of the kind."
},
"C261": {
"note": "C261_usage_exactly gives the exact condition under which the usage text is printed, since spacePrint reads outside the string otherwise (C123). Descriptions of built-in switches are tokens. C261_layout, C261_headings and C261_long_names fix columns, headings and which names carry a type."
},
"C262": {
"note": "Strings and integers as values."
},
"C263": {
"note": "The branch of constants.hpp with M_PI. Bounds on pi come from Machin's formula of the standard library."
},
"C264": {
"note": "Copying converters is refuted (double free, shared texts), so is the documented error for lack of memory. Integral overloads; floats and bool are in other properties."
},
"C265": {
"note": "The system's answers are inputs, the same for repeated questions. Background is refuted: it is shown as Normal, as in C105."
},
"C266": {
"note": "Iteration in order is refuted once the queue has gone round or is not full; taking from an empty queue is refused in debug builds only."
},
"C267": {
"note": "Every failing parse hands over an exception that explains it, and every refused declaration of a labelled argument is reported with a true reason. Refuted: the unmatched word is shown with asterisks, the word undefined is hidden, missing arguments are not named, a clash of descriptions is called a clash of names, and what() invalidates earlier texts."
}
}