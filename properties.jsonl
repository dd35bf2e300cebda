{"id": "C01", "title": "Push-and-pop buffer is a bounded queue that drops the oldest", "statement": "A push-and-pop buffer created for n elements behaves exactly like a FIFO queue holding at most n elements: pushing onto a full buffer silently discards the oldest element, popping returns elements in arrival order, size() is the queue length, element i is the i-th oldest, and no operation ever touches memory outside the buffer. Popping an empty buffer throws in debug builds.", "quantifier": "every capacity n>=1, every element type, every finite history of push_back / pop_front / clear / size / element reads", "why_tests_cant": "wrap-around positions, full and empty states combine in unboundedly many histories", "anchors": ["ecl_containers/include/ecl/containers/push_and_pop/push_and_pop_fixed.hpp: PushAndPop", "ecl_containers/include/ecl/containers/push_and_pop/push_and_pop_dynamic.hpp: PushAndPop"]}
{"id": "C02", "title": "Cyclic FIFO always exposes the most recent window", "statement": "After any sequence of pushes into a cyclic FIFO of length n (initially filled), reading index i in 0..n-1 gives the i-th oldest of the last n values pushed (or the initial fill where fewer were pushed), with no access outside the storage.", "quantifier": "every length n>=1, every initial fill, every finite push history, every index 0<=i<n", "why_tests_cant": "histories longer than any test wrap the running index arbitrarily often", "anchors": ["ecl_containers/include/ecl/containers/fifo.hpp: FiFo::push_back, FiFo::operator[]"]}
{"id": "C03", "title": "Resizing a ring buffer leaves it usable", "statement": "After resize(m) on a push-and-pop buffer or a cyclic FIFO that has been used, subsequent pushes and reads stay inside the new storage and behave as an (empty or refilled) buffer of the new length.", "quantifier": "every previous history, every old and new capacity >= 1, every continuation", "why_tests_cant": "the failing interleavings depend on where the cursors stood when the resize happened", "anchors": ["ecl_containers/include/ecl/containers/fifo.hpp: FiFo::resize", "ecl_containers/include/ecl/containers/push_and_pop/push_and_pop_dynamic.hpp: PushAndPop::resize"]}
{"id": "C04", "title": "Checked array access never leaves the array", "statement": "at(i) returns element i when i is in range and throws otherwise in every build; indexing with [] throws out-of-range in debug builds and never touches memory outside the array there; in release builds in-range indexing is exact. Writes through an index change that element only.", "quantifier": "every array size, every index (32 bit), every content, debug and release builds", "why_tests_cant": "all indices and sizes including the extreme unsigned values", "anchors": ["ecl_containers/include/ecl/containers/array/array_dynamic_no_mem_check.hpp: Array", "ecl_containers/include/ecl/containers/array/array_no_mem_check.hpp: Array"]}
{"id": "C05", "title": "Copying and assigning dynamic arrays is by value", "statement": "Copy construction and assignment between distinct dynamic arrays give an equal array whose later modification never affects the source; assigning an array to itself leaves it unchanged.", "quantifier": "all arrays, all later write histories, aliased and non-aliased operands", "why_tests_cant": "aliasing and later histories are unbounded", "anchors": ["ecl_containers/include/ecl/containers/array/array_dynamic_no_mem_check.hpp: Array::operator=, copy constructor, resize, clear"]}
{"id": "C06", "title": "A stencil confines access to its window", "statement": "A stencil opened on [start, start+n) of an array reads and writes exactly the elements of that window; an index outside the window is reported (throws) by at() in every build and by [] in debug builds; sub-stencils never extend beyond their parent.", "quantifier": "every array size, window, index and nesting of sub-stencils, debug and release builds", "why_tests_cant": "boundary indices relative to both the window and the array for every size", "anchors": ["ecl_containers/include/ecl/containers/stencil/stencil.hpp: Stencil", "ecl_containers/include/ecl/containers/stencil/specialisations.hpp: Stencil"]}
{"id": "C07", "title": "Buffer guards detect exactly the corruption of guard bytes", "statement": "For memory-checked arrays: programs writing only inside the array never trip bufferUnderRun/bufferOverRun/bufferOverFlow; any sequence of stray writes after which some guard byte differs from its magic value is reported, on the correct side; resizing re-arms the guards.", "quantifier": "every size, every finite sequence of in-range and stray byte writes", "why_tests_cant": "quantifies over all write histories", "anchors": ["ecl_containers/include/ecl/containers/array/array_mem_check.hpp", "ecl_containers/include/ecl/containers/array/array_dynamic_mem_check.hpp"]}
{"id": "C08", "title": "Comma initialisation fills in order and never overruns", "statement": "Array comma-initialisation stores the k-th listed value in element k, leaves the others unchanged, and listing more values than the array holds throws in debug builds instead of writing outside.", "quantifier": "every array size and every list of values", "why_tests_cant": "all list lengths versus all sizes", "anchors": ["ecl_containers/include/ecl/containers/initialiser.hpp: BoundedListInitialiser", "ecl_containers/include/ecl/containers/array/array_no_mem_check.hpp: operator<<"]}
{"id": "C09", "title": "Byte array serialisation of integers round trips", "statement": "Converting an integral value to its little-endian byte array and back yields the same value, for every integral type the converters support; byte k of the array is bits 8k..8k+7 of the value.", "quantifier": "every value of char, short, int, long, long long and their unsigned versions", "why_tests_cant": "2^64 values; the failing ones need particular high bytes", "anchors": ["ecl_converters/include/ecl/converters/to_byte_array.hpp: IntegralToByteArray", "ecl_converters/include/ecl/converters/from_byte_array.hpp: FromByteArray"]}
{"id": "C10", "title": "Decimal conversion writes the canonical numeral and never overruns", "statement": "Converting an integer to a C string produces its canonical decimal numeral (minus sign, no leading zeros) whenever the supplied buffer is large enough, returns failure when it is not, and in no case writes outside the supplied buffer or executes undefined arithmetic.", "quantifier": "every value of every supported integral type, every buffer size", "why_tests_cant": "all values times all buffer sizes, including the minimum of each signed type", "anchors": ["ecl_converters/include/ecl/converters/char_strings.hpp: convertUnsignedIntegral, convertSignedIntegral, Converter<char*,...>", "ecl_converters/include/ecl/converters/string.hpp: Converter<std::string,int>"]}
{"id": "C11", "title": "Hex byte strings are parsed exactly", "statement": "The hex-string parser returns the listed bytes for any text made of 0xHH tokens with optional spaces between them; any text that is not of that form is reported as a conversion error and yields no bytes.", "quantifier": "every input string of any length", "why_tests_cant": "infinite set of strings", "anchors": ["ecl_converters/include/ecl/converters/to_byte_array.hpp: Converter<std::vector<char>,char*>"]}
{"id": "C12", "title": "Digit converters accept exactly the single digits", "statement": "Converting an integer to a digit character and back is the identity on 0..9 and every other integer is rejected (throws in debug builds).", "quantifier": "every int / unsigned int and every char", "why_tests_cant": "whole 32-bit input space, debug and release builds", "anchors": ["ecl_converters/include/ecl/converters/char.hpp: Converter<char,...>", "ecl_converters/include/ecl/converters/integers.hpp: Converter<int,char>"]}
{"id": "C13", "title": "Float-to-string precision bookkeeping stays a valid printf format", "statement": "Whatever sequence of precisions a float/double to C-string converter has been asked for before, the format it hands to the C library is a null terminated \"%.<p>f\" with p the requested precision capped to 0..20 (or \"%f\" when no precision is given), inside its fixed-size storage.", "quantifier": "every finite history of requested precisions (any int)", "why_tests_cant": "the converter keeps state between calls; all histories matter", "anchors": ["ecl_converters/include/ecl/converters/char_strings.hpp: Converter<char*,float>, Converter<char*,double> (641-805)"]}
{"id": "C14", "title": "Integers written to a text stream read back unchanged", "statement": "Extracting an integer from a text stream that contains its decimal numeral followed by a separator yields that integer without error, for every value of the type; text denoting a value outside the type is reported as an error and never silently wraps.", "quantifier": "every value of every integral type; every numeral text", "why_tests_cant": "the whole value range including the extreme values", "anchors": ["ecl_streams/include/ecl/streams/text_streams/input_text_stream.hpp: getIntegerFromStream"]}
{"id": "C15", "title": "Hexadecimal integers on a text stream are read exactly or rejected", "statement": "Extracting 0x-prefixed numbers yields exactly the denoted value or an error, never a different value.", "quantifier": "every hexadecimal digit string", "why_tests_cant": "all digit strings; wrap-around only shows for particular magnitudes", "anchors": ["ecl_streams/include/ecl/streams/text_streams/input_text_stream.hpp: parseHexInteger"]}
{"id": "C16", "title": "Decimal fractions on a text stream are read in full", "statement": "Extracting a floating point number consumes all of its digits and yields their decimal value, whether or not anything follows it in the stream.", "quantifier": "every digit string with optional sign and fraction, every continuation of the stream", "why_tests_cant": "all texts and all stream ends", "anchors": ["ecl_streams/include/ecl/streams/text_streams/input_text_stream.hpp: getFloatFromStream"]}
{"id": "C17", "title": "Buffered output preserves the byte sequence", "statement": "For a console or shared file device, the bytes handed to the operating system followed by the bytes still buffered are exactly the concatenation of all bytes written, in order, for every history of single-byte writes, block writes and flushes (for consoles: of text without NUL bytes); a flush leaves nothing buffered; the internal buffer never overflows.", "quantifier": "every finite write/flush history, blocks of any length, any content; debug and release builds", "why_tests_cant": "blocks of arbitrary length straddle the fixed 4096-byte buffer in unboundedly many ways", "anchors": ["ecl_devices/src/lib/shared_file.cpp: SharedFile::write, flush", "ecl_devices/src/lib/console.cpp: OConsole, EConsole", "ecl_devices/include/ecl/devices/detail/character_buffer.hpp: CharBuffer, CharStringBuffer"]}
{"id": "C18", "title": "The string device is a memory-safe byte queue", "statement": "Bytes read from a string device are the bytes written, in order, each once; remaining() is the number still unread; no write, read, clear or c_str call touches memory outside the device's allocation.", "quantifier": "every finite history of byte/block writes, reads, clear, str, c_str", "why_tests_cant": "overflow needs long or specially interleaved histories", "anchors": ["ecl_devices/src/lib/string.cpp: String"]}
{"id": "C19", "title": "Shared output files stay open exactly while someone uses them", "statement": "A shared file name is opened once on first registration, stays registered while at least one handle exists, is closed exactly when the last handle goes away, and a failed operation leaves the registry usable by other threads.", "quantifier": "every interleaved history of opens and closes over any set of names, including failing opens", "why_tests_cant": "reference counts depend on complete histories; lock leaks only show on later operations", "anchors": ["ecl_devices/src/lib/shared_file.cpp: SharedFileManager::RegisterSharedFile, DeRegisterSharedFile"]}
{"id": "C20", "title": "Serial read timeouts are honoured", "statement": "After block(timeout_ms) a read waits for at least the requested time if it is below 100 ms (exceeding it by less than 5 ms), and for the requested time rounded down to tenths of a second for timeouts below 25.6 s.", "quantifier": "every timeout from 1 to 25599 ms, every previous configuration", "why_tests_cant": "all timeouts and rounding cases", "anchors": ["ecl_devices/src/lib/serial_pos.cpp: Serial::block", "ecl_devices/include/ecl/devices/serial_pos.hpp: Serial::read"]}
{"id": "C21", "title": "Integer formatting pads to width without losing digits", "statement": "Formatting an integer with a width w, an alignment and a base - as permanent settings or for one value only - prints the text of that number with blanks added on the correct side(s) so that the total length is max(w, text length); stripping blanks returns the text. In base 10 the text is the number's numeral; hex and binary texts have one digit per nibble / bit of the type after 0x / 0b and denote the two's complement value.", "quantifier": "every integer type, every value of it that can be converted to decimal (see C10, C88), every width from -2^31+100 to 2^31-1, every alignment and base, every previous history, any content of the shared conversion buffer", "why_tests_cant": "all values times all widths times all formatter states", "anchors": ["ecl_formatters/include/ecl/formatters/number.hpp: FormatNumber"]}
{"id": "C22", "title": "Temporary settings of an integer formatter do not leak", "statement": "Erase from the history of an integer formatter every use with explicitly passed (temporary) settings: everything printed with the permanent settings, and the permanent settings themselves, stay the same. Histories of ordinary settings and values complete without error.", "quantifier": "every integer type, every history of permanent configuration and temporary uses", "why_tests_cant": "stateful; leaks appear only in particular orders of calls", "anchors": ["ecl_formatters/include/ecl/formatters/number.hpp: FormatNumber"]}
{"id": "C23", "title": "Exception chaining preserves cause and order of locations", "statement": "Re-raising a standard (or data) exception through any number of stack levels keeps the original error flag, detail message and data; what() is the complete report, whose location text lists every level from the outermost rethrow to the original throw, in order; and (for exceptions without data) two chains with the same report have the same locations, flag text and message.", "quantifier": "every depth of rethrow, every flag, message and data text without NUL, every single-line location string", "why_tests_cant": "unbounded nesting", "anchors": ["ecl_exceptions/src/lib/standard_exception.cpp: StandardException", "ecl_exceptions/include/ecl/exceptions/data_exception.hpp: DataException"]}
{"id": "C24", "title": "Signals reach exactly the connected slots", "statement": "Emitting a signal invokes every slot connected to one of the signal's topics exactly once per shared topic, with the emitted data, and no other slot; signals connected as slots pass the signal on in the same way; connecting twice to the same topic has no extra effect; disconnected or destroyed slots are never invoked; the history runs without errors or deadlock.", "quantifier": "every single-threaded history of constructions, connects, disconnects, copies, destructions and emissions over any number of signals, slots and topics in which signals do not pass signals on in circles, assignment is only between copies, and no signal is disconnected or finally destroyed while it is the only member of a topic in both roles (C91-C93)", "why_tests_cant": "unbounded histories and connection graphs", "anchors": ["ecl_sigslots/include/ecl/sigslots/sigslot.hpp: SigSlot::emit, process, connectSignal, connectSlot, disconnect", "ecl_sigslots/include/ecl/sigslots/manager.hpp: SigSlotsManager", "ecl_sigslots/include/ecl/sigslots/topic.hpp: Topic"]}
{"id": "C25", "title": "Disconnecting removes exactly the own connections", "statement": "After any such history, disconnecting a slot, or a signal which is not the only member of a topic in both roles, succeeds, removes all of its own connections and no other connection.", "quantifier": "every history as in C24, every signal and slot alive then", "why_tests_cant": "every connection history and every order of disconnection", "anchors": ["ecl_sigslots/include/ecl/sigslots/sigslot.hpp: SigSlot::disconnect", "ecl_sigslots/include/ecl/sigslots/manager.hpp: SigSlotsManager::disconnect"]}
{"id": "C26", "title": "Copied signals and slots share one connection that lives as long as the last copy", "statement": "Copies of a slot or signal share the underlying connection; its memory and its memberships exist exactly as long as at least one copy exists, so it is released exactly once, when the last copy is destroyed.", "quantifier": "every history of copy construction, destruction and assignment between copies (together with all other operations, as in C24)", "why_tests_cant": "every history", "anchors": ["ecl_sigslots/include/ecl/sigslots/signal.hpp: Signal", "ecl_sigslots/include/ecl/sigslots/slot.hpp: Slot"]}
{"id": "C27", "title": "Time stamps form an exactly ordered additive structure", "statement": "Adding time stamps is exact in nanoseconds and always yields a normalised result (|nsec| < 10^9, signs agreeing); the comparison operators agree with the order of the exact nanosecond value on normalised stamps.", "quantifier": "all pairs of normalised time stamps (any signs)", "why_tests_cant": "carry and sign combinations over 64-bit ranges", "anchors": ["ecl_time/src/lib/timestamp_base.cpp: operator+, operator+=, comparison operators"]}
{"id": "C28", "title": "Time stamp differences are exact and normalised", "statement": "Subtracting two normalised time stamps gives the exact difference as a normalised time stamp.", "quantifier": "all pairs of normalised time stamps (any signs)", "why_tests_cant": "borrow/sign combinations", "anchors": ["ecl_time/src/lib/timestamp_base.cpp: operator-, operator-="]}
{"id": "C29", "title": "Watch splits add up", "statement": "With a clock that never runs backwards, every elapsed() and split() since a restart() (for a CPU watch also since construction) is exact, normalised and non-negative, and the sum of consecutive split() times equals the time from the restart to the last split.", "quantifier": "every non-decreasing clock history and every sequence of split/elapsed/restart calls", "why_tests_cant": "all histories and clock values", "anchors": ["ecl_time/src/lib/stopwatch.cpp: StopWatch", "ecl_time/src/lib/cpuwatch_rt.cpp: CpuWatch"]}
{"id": "C30", "title": "Periodic snoozing does not drift and always sleeps to a valid deadline", "statement": "A periodic snooze that keeps up wakes at exactly start + k*period for the k-th call; each absolute deadline handed to the OS has its nanoseconds field in [0, 10^9); when it has fallen behind, the next deadline lies in the future and is re-based on the current time.", "quantifier": "every period, start time and clock history", "why_tests_cant": "a particular nanosecond boundary has to be hit exactly", "anchors": ["ecl_time/src/lib/snooze_pos.cpp: Snooze"]}
{"id": "C31", "title": "Sleep objects request the duration they were given", "statement": "Milli/Micro/NanoSleep ask the OS to sleep for exactly the requested duration with a valid timespec, whichever sequence of construction and calls preceded.", "quantifier": "every duration and every history of calls on one object", "why_tests_cant": "stateful objects; large durations", "anchors": ["ecl_time/src/lib/sleep_pos.cpp: MilliSleep, MicroSleep, NanoSleep"]}
{"id": "C32", "title": "Printed time stamps denote the time", "statement": "Streaming a normalised time stamp prints a decimal number with exactly nine fractional digits that denotes its exact value, including negative fractions of a second.", "quantifier": "all normalised time stamps", "why_tests_cant": "zero padding and sign cases across the full range", "anchors": ["ecl_time/include/ecl/time/timestamp_base.hpp: operator<<"]}
{"id": "C33", "title": "Mutual exclusion", "statement": "For any number of threads using lock/trylock/unlock on one mutex (each unlocking only when it holds it), at most one thread is inside the critical section in every interleaving, trylock never blocks and succeeds only when free.", "quantifier": "every number of threads, every interleaving", "why_tests_cant": "schedules are unbounded", "anchors": ["ecl_threads/src/lib/mutex_pos.cpp: Mutex"]}
{"id": "C34", "title": "The lock counter reports holders and waiters", "statement": "At every quiescent point locks() equals the number of threads that hold the mutex or are blocked in lock(), provided the threads follow the locking discipline and no thread is preempted in the middle of an update of the counter.", "quantifier": "every number of threads, every such schedule of lock, trylock, timed trylock and unlock", "why_tests_cant": "schedules and thread counts are unbounded", "anchors": ["ecl_threads/src/lib/mutex_pos.cpp: Mutex::lock, unlock, trylock", "ecl_threads/include/ecl/threads/mutex_pos.hpp: locks"]}
{"id": "C35", "title": "A threadable object runs at most one worker", "statement": "When start() is called from one thread only, start() on a running threadable returns false and launches nothing, at most one worker exists at any time, and after the worker finishes the object can be started again.", "quantifier": "every interleaving of one caller with the workers", "why_tests_cant": "worker progress interleaves arbitrarily with start", "anchors": ["ecl_threads/include/ecl/threads/threadable.hpp: Threadable"]}
{"id": "C36", "title": "Thread objects manage their task safely", "statement": "Without cancel, with at most one join and successful thread creation, a thread object starts at most one thread, later starts report busy, its function object is freed exactly once, join returns only after the function has finished, and destroying the object at any moment is safe.", "quantifier": "every history of start/join/isRunning/destroy against every progress of the spawned thread", "why_tests_cant": "the spawned thread progresses arbitrarily between the calls", "anchors": ["ecl_threads/include/ecl/threads/thread_pos.hpp: Thread, ThreadTask", "ecl_threads/src/lib/thread_pos.cpp: Thread::start, join, ~Thread"]}
{"id": "C37", "title": "Semaphores give mutual exclusion across processes", "statement": "When every process unlocks only what it locked and no signal interrupts lock(), at most one process holds the semaphore in every interleaving, trylock succeeds exactly when it is free, and unlock by the holder frees it.", "quantifier": "any number of processes, every interleaving of lock/trylock/unlock", "why_tests_cant": "schedules are unbounded", "anchors": ["ecl_ipc/src/lib/semaphore_pos.cpp: Semaphore::lock, unlock, trylock, count"]}
{"id": "C38", "title": "Timed semaphore locking waits until now + timeout", "statement": "trylock(timeout) computes a normalised absolute deadline that is never earlier than now + timeout, at most one second later, and exact unless the nanoseconds add up to 999999999.", "quantifier": "every current time and every non-negative timeout", "why_tests_cant": "the arithmetic has corner cases at single values among 10^18", "anchors": ["ecl_ipc/src/lib/semaphore_pos.cpp: Semaphore::trylock(const Duration&)"]}
{"id": "C39", "title": "Real-time priority levels map consistently", "statement": "Setting a real-time priority level and querying it returns the same level, higher levels get strictly higher scheduler priorities, and all requested values lie in the scheduler's legal range.", "quantifier": "every scheduler range of at least ten levels, every real-time level", "why_tests_cant": "the range is a property of the platform", "anchors": ["ecl_threads/src/lib/priority_pos.cpp: set_priority, get_priority"]}
{"id": "C40", "title": "Flag sets behave like sets", "statement": "Or-ing flags sets exactly those flags, and-ing keeps the common ones, xor toggles, complement inverts, clear empties; testFlag(f) of a single-bit flag is true exactly when f was set and not cleared since.", "quantifier": "every sequence of operations on flag sets over any bit patterns", "why_tests_cant": "all histories", "anchors": ["ecl_utilities/include/ecl/utilities/flags.hpp: Flags"]}
{"id": "C41", "title": "Command lines are parsed to exactly the given settings", "statement": "For a program without exclusive groups whose argument names and flags avoid the characters NUL, '*' and the delimiter, parsing the words that spell out a valid assignment of values to the declared switches, counting switches, value, multi-value and positional arguments (short, long or combined form; values that can be read, are permitted, and do not contain a character the word syntax reserves) succeeds and the getters return exactly those values (multi-values in order), unmentioned arguments their defaults, independent of the order in which different arguments appear.", "quantifier": "every declaration set and every valid argument vector", "why_tests_cant": "combinatorial input space", "anchors": ["ecl_command_line/include/ecl/command_line/cmd_line.hpp: CmdLine::parse", "ecl_command_line/include/ecl/command_line/value_arg.hpp: ValueArg", "ecl_command_line/include/ecl/command_line/switch_arg.hpp: SwitchArg", "ecl_command_line/include/ecl/command_line/multi_arg.hpp: MultiArg", "ecl_command_line/include/ecl/command_line/arg.hpp: Arg"]}
{"id": "C42", "title": "Accepted command lines are meaningful", "statement": "For a program without exclusive groups and positional arguments, a parse of plain words (no NUL, not '--' or '--ignore_rest', no single-dash word with an inner dash) that succeeds was given a sequence of declared arguments: no switch or single-valued argument twice, every required argument present, every value readable and permitted, and the getters return what the words say. Everything else is rejected.", "quantifier": "every declaration set and every vector of plain words", "why_tests_cant": "infinite input space", "anchors": ["ecl_command_line/include/ecl/command_line/cmd_line.hpp: CmdLine::parse", "ecl_command_line/include/ecl/command_line/xor_handler.hpp: XorHandler"]}
{"id": "C43", "title": "Exactly one of mutually exclusive arguments", "statement": "For groups declared exclusive (xor) of switches, value arguments and positional arguments, a successful parse of a line that does not combine a grouped switch with others in one word has exactly one member of each group set, and the others keep their initial values.", "quantifier": "every xor group and every argument vector without combined grouped switches", "why_tests_cant": "infinite input space", "anchors": ["ecl_command_line/include/ecl/command_line/xor_handler.hpp: XorHandler::check", "ecl_command_line/include/ecl/command_line/cmd_line.hpp: CmdLine::xorAdd, parse", "ecl_command_line/include/ecl/command_line/switch_arg.hpp: combinedSwitchesMatch"]}
{"id": "C44", "title": "Angle wrapping", "statement": "Wrapping an angle yields an equivalent angle (differing by a multiple of 2*pi) in [-pi, pi]; wrapping is idempotent; angle arithmetic always yields wrapped angles. In doubles the result differs from an equivalent angle by at most (|a| + 8) / 2^52.", "quantifier": "every real angle (exact arithmetic)", "why_tests_cant": "all magnitudes and both signs, boundaries", "anchors": ["ecl_geometry/src/lib/angle.cpp: wrap_angle", "ecl_geometry/include/ecl/geometry/angle.hpp: Angle"]}
{"id": "C45", "title": "Pascal's triangle holds binomial coefficients", "statement": "Entry j of row i of the triangle for degree N is the binomial coefficient (i+j choose j), rows are contiguous, row i has N+1-i entries, and iterating a row never leaves the storage.", "quantifier": "every N up to 33 (the coefficients fit an int) and every row", "why_tests_cant": "all N and rows", "anchors": ["ecl_geometry/include/ecl/geometry/pascals_triangle.hpp: PascalsTriangle", "ecl_geometry/src/lib/pascals_triangle.cpp"]}
{"id": "C46", "title": "Polynomial evaluation, derivative and shift", "statement": "Evaluating a polynomial gives sum a_i x^i; derivative() is its derivative; shift_horizontal(s) turns p(x) into p(x-s).", "quantifier": "every degree (up to 33 for the shift), coefficients, argument and shift (exact arithmetic)", "why_tests_cant": "all degrees and real arguments", "anchors": ["ecl_geometry/include/ecl/geometry/polynomial.hpp: Polynomial"]}
{"id": "C47", "title": "Interpolating polynomials meet their boundary conditions", "statement": "Linear, cubic (first or second derivative) and quintic interpolation through two abscissae meet every prescribed value and derivative at both ends.", "quantifier": "all boundary data with distinct abscissae (exact arithmetic)", "why_tests_cant": "continuum of inputs", "anchors": ["ecl_geometry/src/lib/polynomial_blueprints.cpp"]}
{"id": "C48", "title": "Synthetic division", "statement": "Dividing a quadratic or cubic polynomial p by (x - f) returns q and r with p(x) = (x - f) q(x) + r for all x, and r = p(f).", "quantifier": "all coefficients, factors, arguments (exact arithmetic)", "why_tests_cant": "continuum of inputs", "anchors": ["ecl_geometry/src/lib/polynomial.cpp: Division"]}
{"id": "C49", "title": "Polynomial roots are exactly the real roots", "statement": "The roots returned for linear, quadratic and cubic polynomials are real numbers at which the polynomial vanishes and include every real root, each once; for a cubic, unless it is symmetric about a single real root.", "quantifier": "all coefficients with non-zero leading coefficient (exact arithmetic); cubics c((x-m)^3+p(x-m)+q) with q=0 and p>0 excepted", "why_tests_cant": "continuum of inputs with many discriminant cases", "anchors": ["ecl_geometry/src/lib/polynomial.cpp: Roots"]}
{"id": "C50", "title": "Extrema on an interval are the true extrema", "statement": "Maximum/Minimum of a linear or cubic function on [a,b] bound the function everywhere on the interval and are attained there.", "quantifier": "all coefficients and all intervals a<=b (exact arithmetic)", "why_tests_cant": "continuum of points per polynomial", "anchors": ["ecl_geometry/src/lib/polynomial.cpp: Maximum, Minimum"]}
{"id": "C51", "title": "Line intersection", "statement": "The intersection of two lines with clearly different slopes lies on both lines; lines reported as failing have nearly equal slopes.", "quantifier": "all line pairs (exact arithmetic)", "why_tests_cant": "continuum of inputs", "anchors": ["ecl_geometry/src/lib/polynomial.cpp: Intersection"]}
{"id": "C52", "title": "C2 cubic splines interpolate smoothly", "statement": "A natural or clamped cubic spline passes through all data points, has continuous first and second derivatives at every interior knot and satisfies its end conditions; evaluation inside the domain never reads outside the stored segments.", "quantifier": "any number (>=2) of points with strictly increasing abscissae (exact arithmetic)", "why_tests_cant": "unbounded number of knots, continuum of data", "anchors": ["ecl_geometry/src/lib/cubic_spline_blueprints.cpp: C2CubicSpline", "ecl_geometry/src/lib/cubic_spline.cpp: CubicSpline"]}
{"id": "C53", "title": "Derivative-heuristic cubic splines interpolate with continuous slope", "statement": "The heuristic spline passes through all data points with continuous first derivative and the requested end slopes; at inner points the slope is the mean of the slopes of the two adjacent chords.", "quantifier": "any number (>=2) of points with strictly increasing abscissae (exact arithmetic)", "why_tests_cant": "unbounded number of knots", "anchors": ["ecl_geometry/src/lib/cubic_spline_blueprints.cpp: DerivativeHeuristicCubicSpline"]}
{"id": "C54", "title": "Smooth linear splines respect the acceleration bound", "statement": "Constructing a smooth linear spline either reports that the bound cannot be met or gives a curve that starts and ends at the first and last data point, goes through the middle of every inner segment, has continuous first and second derivatives, and whose second derivative stays below the requested bound in magnitude everywhere; for any data a large enough bound is accepted; evaluation inside the domain never reads outside the stored pieces.", "quantifier": "any number (>=2) of points with strictly increasing abscissae, any bound (exact arithmetic)", "why_tests_cant": "continuum of points, unbounded number of corners", "anchors": ["ecl_geometry/src/lib/smooth_linear_spline.cpp: SmoothLinearSpline"]}
{"id": "C55", "title": "Tension splines interpolate smoothly", "statement": "A natural tension spline through at least three points passes through all of them, has continuous first and second derivative everywhere and zero second derivative at the ends, and on every segment the second derivative minus the squared tension times the value is a straight line; construction and evaluation inside the domain are memory safe.", "quantifier": "any number (>=3) of points with strictly increasing abscissae, any tension > 0 (exact arithmetic)", "why_tests_cant": "unbounded number of knots, continuum of data", "anchors": ["ecl_geometry/src/lib/tension_spline_blueprints.cpp: C2TensionSpline", "ecl_geometry/src/lib/tension_function.cpp: TensionFunction", "ecl_geometry/src/lib/tension_spline.cpp"]}
{"id": "C56", "title": "Point to segment distance", "statement": "squaredDistanceFromPoint is the minimum of the squared distances from the point to all points of the segment.", "quantifier": "all segments (including degenerate ones) and all points (exact arithmetic)", "why_tests_cant": "continuum of points on the segment", "anchors": ["ecl_geometry/src/lib/linear_segment.cpp: LinearSegment::squaredDistanceFromPoint"]}
{"id": "C57", "title": "Line coefficients of a segment", "statement": "The published coefficients A, B, C of a segment satisfy A x + B y + C = 0 at both end points and are not both zero in A, B.", "quantifier": "all segments that are not vertical (exact arithmetic)", "why_tests_cant": "special directions", "anchors": ["ecl_geometry/src/lib/linear_segment.cpp: LinearSegment::LinearSegment"]}
{"id": "C58", "title": "Distance to a trajectory", "statement": "The distance from a position to a trajectory of at least one pose is the minimum distance to the polyline through its poses.", "quantifier": "all trajectories of length >= 1 and positions (exact arithmetic)", "why_tests_cant": "unbounded lengths", "anchors": ["ecl_geometry/src/lib/odometry_helper.cpp: distance"]}
{"id": "C59", "title": "Appending trajectories concatenates them", "statement": "addAtEnd(target, addition) leaves target equal to the concatenation of the old target and the addition.", "quantifier": "all trajectories", "why_tests_cant": "all lengths", "anchors": ["ecl_geometry/src/lib/odometry_helper.cpp: addAtEnd"]}
{"id": "C60", "title": "Planar poses compose as rigid motions", "statement": "Concatenating poses composes the rigid motions they describe; it is associative with the zero pose as identity (headings modulo 2*pi); extending a pose in place by another pose object equals concatenation; a legacy pose built from a position and heading describes that motion, its product composes motions, its inverse is a two-sided inverse, and relative() is the factor that multiplies the reference pose to give the pose back.", "quantifier": "all poses whose stored rotation is a rotation (exact arithmetic)", "why_tests_cant": "continuum of inputs", "anchors": ["ecl_geometry/include/ecl/geometry/pose2d.hpp: concatenate_poses, extend_pose", "ecl_geometry/include/ecl/geometry/legacy_pose2d.hpp: LegacyPose2D"]}
{"id": "C61", "title": "Differential drive kinematics are consistent", "statement": "Wheel rates computed for a base velocity reproduce that base velocity when the wheels turn at them for any time (translation and heading change); wheel increments give the mean arc length and the wrapped heading change of the kinematic model; the base motion recovered between two poses is their signed distance and wrapped heading difference, and it gives back the motion that produced the second pose.", "quantifier": "all non-zero wheel radii and axle lengths, all velocities, increments and poses (exact arithmetic)", "why_tests_cant": "continuum of inputs", "anchors": ["ecl_mobile_robot/src/lib/differential_drive.cpp: DifferentialDriveKinematics"]}
{"id": "C62", "title": "Running statistics equal batch statistics", "statement": "After any sequence of samples and clears size() is the number of samples since the last clear, mean() their arithmetic mean (0 if none) and variance() their unbiased sample variance (0 for fewer than two); no uninitialised member is ever read.", "quantifier": "all finite call sequences (exact arithmetic)", "why_tests_cant": "unbounded sequences", "anchors": ["ecl_statistics/include/ecl/statistics/cumulative_statistics.hpp: CumulativeStatistics"]}
{"id": "C63", "title": "Covariance ellipses are eigen-decompositions", "statement": "For a symmetric positive semi-definite 2x2 covariance the computed lengths are the square roots of the eigenvalues (largest first) and the axes are unit eigenvectors orthogonal to each other; for a positive definite one the ellipse drawn from them is the ellipse of the matrix.", "quantifier": "all symmetric positive semi-definite 2x2 matrices (exact arithmetic)", "why_tests_cant": "continuum of inputs", "anchors": ["ecl_statistics/src/lib/covariance_ellipsoid.cpp: CovarianceEllipsoid<double,2>::compute, CovarianceEllipsoid<float,2>::compute"]}
{"id": "C64", "title": "The x intercept of a covariance ellipse lies on the ellipse", "statement": "The first intercept magnitude is the distance from the centre at which the ellipse meets the x axis.", "quantifier": "all symmetric positive definite 2x2 matrices whose major axis is not vertical (exact arithmetic)", "why_tests_cant": "continuum of inputs", "anchors": ["ecl_statistics/src/lib/covariance_ellipsoid.cpp: CovarianceEllipsoid<double,2>::intercepts"]}
{"id": "C65", "title": "Fuzzy comparison laws", "statement": "isApprox is reflexive, symmetric, never equates numbers of opposite sign or a non-zero number with zero for precision < 1, and isApproxOrLessThan(x,y) holds whenever x<=y.", "quantifier": "all real numbers and precisions (exact arithmetic)", "why_tests_cant": "continuum of inputs", "anchors": ["ecl_math/include/ecl/math/fuzzy.hpp: isApprox, isApproxOrLessThan"]}
{"id": "C66", "title": "Waypoint durations respect the nominal rates", "statement": "For a trajectory with at least one waypoint and positive nominal rates, initialising the waypoint durations never shortens a duration, changes nothing else, and on success leaves every duration positive, long enough for every joint to reach the next waypoint at its nominal rate, and either as configured or exactly as long as some joint needs; it reports failure exactly when some segment has no displacement and no positive duration.", "quantifier": "all numbers of waypoints and joints, all angles, durations and positive rates (exact arithmetic)", "why_tests_cant": "unbounded dimensions and real inputs", "anchors": ["ecl_manipulators/src/lib/trajectory.cpp: initialiseWaypointDurations"]}
{"id": "C67", "title": "A freshly constructed stopwatch measures splits and elapsed time from one origin", "statement": "For a StopWatch that has only been constructed, the sum of its split() times equals its elapsed() time at the last split.", "quantifier": "every non-decreasing clock history and every sequence of split/elapsed calls after construction", "why_tests_cant": "the discrepancy is the gap between two clock readings, usually below the resolution a test looks at", "anchors": ["ecl_time/src/lib/stopwatch.cpp: StopWatch::StopWatch"]}
{"id": "C68", "title": "The frequency monitor reports each window exactly", "statement": "With a clock that never runs backwards, each analysis that closes a window reports the number of updates since the previous one, whether there were any, and the shortest and longest interval between updates; analyses inside a window leave the report unchanged.", "quantifier": "every history of updates and analyses and every non-decreasing clock", "why_tests_cant": "unbounded histories and arbitrary times", "anchors": ["ecl_time/src/lib/frequency.cpp: FrequencyMonitor::update, FrequencyMonitor::analyse"]}
{"id": "C69", "title": "A converter's error() describes its latest conversion", "statement": "After any sequence of conversions with one converter object (no-exception handling, i.e. release builds), error() is NoError exactly when the most recent conversion succeeded.", "quantifier": "every finite sequence of conversions on one converter object", "why_tests_cant": "depends on the whole history of the object", "anchors": ["ecl_converters/include/ecl/converters/char.hpp", "ecl_converters/include/ecl/converters/integers.hpp", "ecl_errors/include/ecl/errors/handlers.hpp: ErrorHandler"]}
{"id": "C70", "title": "String to int reads exactly the integer texts", "statement": "Converting a string to an int succeeds exactly on optional leading white space, optional sign and decimal digits whose value fits an int with nothing after them, and then returns that value; every other string is a ConversionError. Printing an int with the string converter and reading it back is the identity.", "quantifier": "every string of any length; every int above the minimum", "why_tests_cant": "infinite set of strings", "anchors": ["ecl_converters/include/ecl/converters/integers.hpp: Converter<int,std::string>", "ecl_converters/include/ecl/converters/string.hpp: Converter<std::string,int>"]}
{"id": "C71", "title": "Boolean to C string stays inside the buffer", "statement": "Converting a boolean to a C string writes \"true\" or \"false\" with its terminator inside the supplied buffer, or reports failure when it does not fit.", "quantifier": "both booleans, every buffer size and surrounding memory", "why_tests_cant": "an overrun corrupts neighbouring memory silently", "anchors": ["ecl_converters/include/ecl/converters/char_strings.hpp: Converter<char*,bool>"]}
{"id": "C72", "title": "String extraction yields the blank-separated words", "statement": "Repeatedly extracting strings from a text stream yields exactly the maximal runs of characters other than space and newline, in order and without error, and then a ReadError.", "quantifier": "every text of any length", "why_tests_cant": "infinite set of texts", "anchors": ["ecl_streams/include/ecl/streams/text_streams/input_text_stream.hpp: operator>>(std::string&), skipLeadingWhiteSpace"]}
{"id": "C73", "title": "Device read failures during extraction are reported", "statement": "If the device reports a read failure while a value is being extracted from a text stream, fail() is true afterwards.", "quantifier": "every schedule of device results, every value type", "why_tests_cant": "failures at every position of every text", "anchors": ["ecl_streams/include/ecl/streams/text_streams/input_text_stream.hpp: operator>>"]}
{"id": "C74", "title": "A failed numeric extraction leaves the target unchanged", "statement": "When extracting a number from a text stream fails, the target variable keeps its previous value.", "quantifier": "every schedule of device results, every numeric type", "why_tests_cant": "all texts and device behaviours", "anchors": ["ecl_streams/include/ecl/streams/text_streams/input_text_stream.hpp: operator>>, getIntegerFromStream, parseHexInteger"]}
{"id": "C75", "title": "Threads reading from different streams do not interfere", "statement": "Two threads extracting integers of the same type from two different stream objects of the same kind obtain the values their own streams contain, whatever the scheduling.", "quantifier": "every interleaving of two extractions", "why_tests_cant": "needs particular interleavings", "anchors": ["ecl_streams/include/ecl/streams/text_streams/input_text_stream.hpp: getIntegerFromStream (static digits buffer)"]}
{"id": "C76", "title": "Destroying an output device does not lose bytes", "statement": "When a console or shared file object is destroyed, every byte written to it has been handed to the operating system.", "quantifier": "every write/flush history", "why_tests_cant": "depends on what is buffered at the end of any history", "anchors": ["ecl_devices/src/lib/shared_file.cpp: ~SharedFile", "ecl_devices/include/ecl/devices/console.hpp: ~OConsole"]}
{"id": "C77", "title": "Flushing a healthy shared file succeeds", "statement": "flush() on a shared file whose operating system file accepts writes returns true and does not throw, whatever was written before.", "quantifier": "every write/flush history", "why_tests_cant": "depends on the fill level reached by a history", "anchors": ["ecl_devices/src/lib/shared_file.cpp: SharedFile::flush", "ecl_devices/src/lib/ofile_pos.cpp: OFile::write"]}
{"id": "C78", "title": "Append mode preserves existing content", "statement": "A file opened in Append mode and written to contains its previous content followed by everything written, in order.", "quantifier": "every previous content, every sequence of block writes", "why_tests_cant": "all contents and histories", "anchors": ["ecl_devices/src/lib/ofile_pos.cpp: OFile::open, write"]}
{"id": "C79", "title": "Console input delivers every byte", "statement": "Reading a character from the console delivers every byte value that arrives and reports the end only at end of input.", "quantifier": "every byte value", "why_tests_cant": "a narrowing error concerns single byte values", "anchors": ["ecl_devices/src/lib/console.cpp: IConsole::read"]}
{"id": "C80", "title": "Serial reads with short timeouts deliver the first data to arrive", "statement": "With a timeout of 1 to 99 ms a read returns the number of bytes found by the first successful poll within the timeout and 0 only if every poll came back empty.", "quantifier": "every timeout from 1 to 99 ms and every arrival schedule", "why_tests_cant": "depends on arrival times", "anchors": ["ecl_devices/include/ecl/devices/serial_pos.hpp: Serial::read", "ecl_devices/src/lib/serial_pos.cpp: Serial::block"]}
{"id": "C81", "title": "Console output is binary safe", "statement": "Console output passes NUL bytes and everything after them to the operating system like any other byte.", "quantifier": "every write/flush history with any byte values", "why_tests_cant": "all byte contents", "anchors": ["ecl_devices/src/lib/console.cpp: OConsole::flush (fputs)"]}
{"id": "C82", "title": "Long serial timeouts do not turn the port non-blocking", "statement": "After block(timeout_ms) with any timeout of at least 100 ms a read waits for the requested time rounded down to tenths of a second.", "quantifier": "every timeout representable in the argument type", "why_tests_cant": "narrowing conversions only bite for large values", "anchors": ["ecl_devices/src/lib/serial_pos.cpp: Serial::block"]}
{"id": "C83", "title": "New mode replaces existing content", "statement": "A file opened in New mode and written to contains exactly what was written.", "quantifier": "every previous content, every sequence of block writes", "why_tests_cant": "depends on the relative lengths of old and new content", "anchors": ["ecl_devices/src/lib/ofile_pos.cpp: OFile::open"]}
{"id": "C84", "title": "A zero serial timeout is well defined", "statement": "After block(0) a read returns a definite count.", "quantifier": "every configuration and arrival schedule", "why_tests_cant": "reads of uninitialised variables are invisible to tests", "anchors": ["ecl_devices/include/ecl/devices/serial_pos.hpp: Serial::read"]}
{"id": "C85", "title": "Temporary settings of float and string formatters do not leak", "statement": "Formatting one float or one string with explicitly passed settings never changes how later values are formatted with the formatter's permanent settings.", "quantifier": "every float/string formatter, every history of permanent configuration and temporary uses", "why_tests_cant": "stateful; leaks appear only in particular orders of calls", "anchors": ["ecl_formatters/include/ecl/formatters/floats.hpp: FormatFloat", "ecl_formatters/include/ecl/formatters/strings.hpp: Format<std::string>", "ecl_formatters/src/lib/strings.cpp"]}
{"id": "C86", "title": "Temporary width and base determine the output by themselves", "statement": "Formatting an integer with temporary width and base (no alignment given) prints the same text whatever was formatted before, starting with the first use of a new formatter.", "quantifier": "every value, width, base and history", "why_tests_cant": "depends on the history of the object", "anchors": ["ecl_formatters/include/ecl/formatters/number.hpp: FormatNumber::operator()(n,w,b)"]}
{"id": "C87", "title": "Float formatting keeps all digits", "statement": "Formatting a float with precision p prints all of its digits: the full fixed-point text with p decimals (or its scientific text), padded to the width.", "quantifier": "every float value, precision, width and alignment", "why_tests_cant": "all values times all precisions", "anchors": ["ecl_formatters/include/ecl/formatters/floats.hpp: FormatFloat"]}
{"id": "C88", "title": "Integer formatting covers every value of the type", "statement": "Decimal formatting prints the right numeral for every value of the integer type, including the smallest ones and negative chars.", "quantifier": "every value of every integer type", "why_tests_cant": "all values", "anchors": ["ecl_formatters/include/ecl/formatters/number.hpp: FormatNumber", "ecl_converters/src/lib/char_strings.cpp"]}
{"id": "C89", "title": "String formatting prints the whole string, padded", "statement": "Formatting a string with a width and an alignment prints the whole string, with blanks only added on the correct side(s) so that the total length is max(width, length).", "quantifier": "every string of length at most 2^31-1, every width from 0 to 2^31-1, every alignment, every previous state", "why_tests_cant": "all strings times all widths", "anchors": ["ecl_formatters/include/ecl/formatters/strings.hpp: Format<std::string>"]}
{"id": "C90", "title": "Printing a formatter without data is reported", "statement": "Inserting a formatter into a stream without having given it a value raises a usage error in debug mode and prints nothing in release mode.", "quantifier": "every formatter and every history after which no value is pending", "why_tests_cant": "initial states depend on uninitialised memory", "anchors": ["ecl_formatters/include/ecl/formatters/strings.hpp: Format<std::string>", "ecl_formatters/include/ecl/formatters/number.hpp: operator<<", "ecl_formatters/include/ecl/formatters/floats.hpp: operator<<"]}
{"id": "C91", "title": "A signal on its own topic can be disconnected", "statement": "Disconnecting or destroying a signal which is connected to a topic both as a signal and as a slot is safe, also when nobody else is connected to the topic.", "quantifier": "every connection history", "why_tests_cant": "the failure depends on who else is connected", "anchors": ["ecl_sigslots/include/ecl/sigslots/manager.hpp: SigSlotsManager::disconnect", "ecl_sigslots/include/ecl/sigslots/sigslot.hpp: SigSlot::disconnect"]}
{"id": "C92", "title": "Assigning signals and slots keeps connections consistent", "statement": "After assigning one slot (signal) to another, the shared connection lives until both are destroyed, and the connection the target had before is released.", "quantifier": "every history with assignments", "why_tests_cant": "every history", "anchors": ["ecl_sigslots/include/ecl/sigslots/signal.hpp: operator=", "ecl_sigslots/include/ecl/sigslots/slot.hpp: operator="]}
{"id": "C93", "title": "Emission always terminates", "statement": "Emitting a signal invokes finitely many slots and returns, also when signals pass signals on in a circle.", "quantifier": "every connection graph", "why_tests_cant": "every graph", "anchors": ["ecl_sigslots/include/ecl/sigslots/sigslot.hpp: SigSlot::emit"]}
{"id": "C94", "title": "A sigslot can leave a single topic and come back", "statement": "After disconnecting a sigslot from one topic it can be connected to that topic again, and disconnecting it from everything stays safe.", "quantifier": "every history", "why_tests_cant": "every history", "anchors": ["ecl_sigslots/include/ecl/sigslots/sigslot.hpp: SigSlot::disconnect(const std::string&)"]}
{"id": "C95", "title": "The lock counter survives concurrent locking", "statement": "When all threads lock and unlock properly and all have finished, locks() is 0 whatever the interleaving.", "quantifier": "every schedule", "why_tests_cant": "needs a rare preemption between two instructions", "anchors": ["ecl_threads/src/lib/mutex_pos.cpp: Mutex::lock, unlock"]}
{"id": "C96", "title": "A failed lock leaves the counter unchanged", "statement": "A lock() that throws (debug build, self relock) leaves locks() as it was.", "quantifier": "every history", "why_tests_cant": "depends on the order of increment and system call", "anchors": ["ecl_threads/src/lib/mutex_pos.cpp: Mutex::lock"]}
{"id": "C97", "title": "A timed trylock waits for its duration", "statement": "trylock(duration) succeeds when the mutex is released within the duration.", "quantifier": "every current time, duration and release time", "why_tests_cant": "timing dependent", "anchors": ["ecl_threads/src/lib/mutex_pos.cpp: Mutex::trylock(Duration&)"]}
{"id": "C98", "title": "Concurrent starts launch one worker", "statement": "When several threads call start() on a threadable at the same time, one worker is launched.", "quantifier": "every interleaving of several callers", "why_tests_cant": "needs a rare preemption between check and set", "anchors": ["ecl_threads/include/ecl/threads/threadable.hpp: Threadable::start"]}
{"id": "C99", "title": "A failed threadable start is reported and can be retried", "statement": "When the worker thread cannot be created start() does not return true, and a later start() can succeed.", "quantifier": "every history with failing thread creation", "why_tests_cant": "needs resource exhaustion", "anchors": ["ecl_threads/include/ecl/threads/threadable.hpp: Threadable::start", "ecl_threads/include/ecl/threads/thread_pos.hpp: Thread"]}
{"id": "C100", "title": "Cancelling a thread is memory safe", "statement": "cancel() at any moment frees the task exactly once and never touches freed memory.", "quantifier": "every moment of the cancelled thread's life", "why_tests_cant": "depends on the progress of the other thread", "anchors": ["ecl_threads/src/lib/thread_pos.cpp: Thread::cancel", "ecl_threads/include/ecl/threads/thread_pos.hpp: ThreadTask::EntryPoint"]}
{"id": "C101", "title": "isRunning tells whether the thread still runs", "statement": "isRunning() is false once the thread's function has finished.", "quantifier": "every history and every progress of the thread", "why_tests_cant": "depends on the progress of the other thread", "anchors": ["ecl_threads/include/ecl/threads/thread_pos.hpp: Thread::isRunning"]}
{"id": "C102", "title": "A thread object whose start failed can be destroyed", "statement": "Destroying a thread object after a failed start is safe.", "quantifier": "every history with a failed start", "why_tests_cant": "needs resource exhaustion", "anchors": ["ecl_threads/src/lib/thread_pos.cpp: Thread::start, ~Thread"]}
{"id": "C103", "title": "Joining twice is harmless", "statement": "A second join() on a finished thread returns or reports an error.", "quantifier": "every history", "why_tests_cant": "undefined behaviour may look harmless in a test", "anchors": ["ecl_threads/src/lib/thread_pos.cpp: Thread::join"]}
{"id": "C104", "title": "Ordinary priority levels read back", "statement": "Setting Critical, High, Normal or Low priority with sufficient privilege on a process that is not real-time reads back the same level.", "quantifier": "every starting niceness and each of the levels", "why_tests_cant": "privileges and the starting state vary", "anchors": ["ecl_threads/src/lib/priority_pos.cpp: set_priority, get_priority"]}
{"id": "C105", "title": "Background priority reads back", "statement": "Setting Background priority reads back Background.", "quantifier": "every starting niceness", "why_tests_cant": "platform clamp", "anchors": ["ecl_threads/src/lib/priority_pos.cpp: set_priority, get_priority"]}
{"id": "C106", "title": "A refused priority change is reported", "statement": "set_priority reports failure whenever the system refuses the request.", "quantifier": "every level, privileged or not", "why_tests_cant": "tests normally run unprivileged or as root, not both", "anchors": ["ecl_threads/src/lib/priority_pos.cpp: set_priority"]}
{"id": "C107", "title": "A thread can leave real-time scheduling", "statement": "Setting an ordinary level after a real-time level reads back the ordinary level.", "quantifier": "every sequence of priority changes", "why_tests_cant": "needs real-time privileges", "anchors": ["ecl_threads/src/lib/priority_pos.cpp: set_priority"]}
{"id": "C108", "title": "Extra unlocks of a semaphore have no effect", "statement": "unlock() by a process that does not hold the semaphore changes nothing.", "quantifier": "every interleaving", "why_tests_cant": "needs a race between check and post", "anchors": ["ecl_ipc/src/lib/semaphore_pos.cpp: Semaphore::unlock"]}
{"id": "C109", "title": "Signals do not break semaphore locking", "statement": "lock() returns only with the semaphore held, also when a signal handler runs meanwhile.", "quantifier": "every interleaving with signals", "why_tests_cant": "needs a signal in a small window", "anchors": ["ecl_ipc/src/lib/semaphore_pos.cpp: Semaphore::lock"]}
{"id": "C110", "title": "Timed semaphore deadline is exact", "statement": "trylock(timeout) waits until exactly now + timeout.", "quantifier": "every current time and timeout", "why_tests_cant": "wrong for one nanosecond value in 10^9", "anchors": ["ecl_ipc/src/lib/semaphore_pos.cpp: Semaphore::trylock(const Duration&)"]}
{"id": "C111", "title": "Equal names mean the same semaphore", "statement": "All semaphore objects constructed with one name refer to the same semaphore as long as none of them has been destroyed.", "quantifier": "every sequence of constructions by any number of processes", "why_tests_cant": "number of processes unbounded", "anchors": ["ecl_ipc/src/lib/semaphore_pos.cpp: Semaphore::Semaphore"]}
{"id": "C112", "title": "Destroying one semaphore object does not affect the others", "statement": "After one of several semaphore objects of a name is destroyed, newly constructed ones still exclude the remaining ones.", "quantifier": "every history of construction and destruction", "why_tests_cant": "needs several processes in a particular order", "anchors": ["ecl_ipc/src/lib/semaphore_pos.cpp: Semaphore::~Semaphore"]}
{"id": "C113", "title": "Shared memory is shared", "statement": "Every attached process reads the last value written by any of them (the default value before any write) and no access faults, when the creator stays attached, all use the same data type and constructors do not overlap other operations.", "quantifier": "every such history of attach, write, read and detach by any number of processes", "why_tests_cant": "histories and process counts are unbounded", "anchors": ["ecl_ipc/include/ecl/ipc/shared_memory_pos.hpp: SharedMemory", "ecl_ipc/src/lib/shared_memory_pos.cpp: SharedMemoryBase::open"]}
{"id": "C114", "title": "Attaching concurrently loses no data", "statement": "A value written by an attached process stays until somebody overwrites it, also when the creator is still constructing.", "quantifier": "every interleaving", "why_tests_cant": "needs a race of two constructors", "anchors": ["ecl_ipc/include/ecl/ipc/shared_memory_pos.hpp: SharedMemory::SharedMemory"]}
{"id": "C115", "title": "The creator may leave", "statement": "After the creator detaches, processes attaching later still share the data of those attached.", "quantifier": "every history", "why_tests_cant": "needs several processes in a particular order", "anchors": ["ecl_ipc/include/ecl/ipc/shared_memory_pos.hpp: SharedMemory::~SharedMemory"]}
{"id": "C116", "title": "A mismatching storage type cannot hurt others", "statement": "A process attaching with another storage type does not make accesses of the others fault.", "quantifier": "every combination of storage sizes", "why_tests_cant": "fault depends on page boundaries", "anchors": ["ecl_ipc/include/ecl/ipc/shared_memory_pos.hpp: SharedMemory::SharedMemory"]}
{"id": "C117", "title": "testFlag on arbitrary flag values", "statement": "testFlag(f) is true exactly when the set and f share a bit, or both are empty.", "quantifier": "every pair of bit patterns", "why_tests_cant": "2^64 pairs", "anchors": ["ecl_utilities/include/ecl/utilities/flags.hpp: Flags::testFlag"]}
{"id": "C118", "title": "A combination of flags tests all of them", "statement": "testFlag of a combination is true only if all its flags are set.", "quantifier": "every pair of bit patterns", "why_tests_cant": "2^64 pairs", "anchors": ["ecl_utilities/include/ecl/utilities/flags.hpp: Flags::testFlag"]}
{"id": "C119", "title": "Words after -- leave labelled arguments alone", "statement": "When a parse reaches the word '--' at a position where an argument may start and later succeeds, no word after it changes the value of any labelled argument.", "quantifier": "every program, every parser state and every continuation", "why_tests_cant": "infinite input space", "anchors": ["ecl_command_line/include/ecl/command_line/cmd_line.hpp: CmdLine::parse", "ecl_command_line/include/ecl/command_line/ignore_rest_visitor.hpp: IgnoreRestVisitor", "ecl_command_line/include/ecl/command_line/arg.hpp: Arg::ignoreRest"]}
{"id": "C120", "title": "No two arguments share a label", "statement": "A program whose declarations are all accepted has no two arguments with the same name or the same flag (including the built-in ones), so a word identifies at most one argument.", "quantifier": "every declaration sequence", "why_tests_cant": "infinite space of declaration sets", "anchors": ["ecl_command_line/include/ecl/command_line/cmd_line.hpp: CmdLine::add", "ecl_command_line/include/ecl/command_line/arg.hpp: Arg::operator=="]}
{"id": "C121", "title": "Stored values are defaults or permitted", "statement": "After any successful parse each value argument holds its declared default or a value permitted by its constraint, and each element of a multi-value argument is permitted.", "quantifier": "every program and every argument vector", "why_tests_cant": "infinite input space", "anchors": ["ecl_command_line/include/ecl/command_line/value_arg.hpp: ValueArg::_extractValue", "ecl_command_line/include/ecl/command_line/multi_arg.hpp: MultiArg::_extractValue", "ecl_command_line/include/ecl/command_line/constraint.hpp: Constraint"]}
{"id": "C122", "title": "Usage text wraps without losing text", "statement": "Printing a text whose first line has a place to break writes lines of at most 75 columns, indented at least as requested, that contain all non-blank characters of the text in order.", "quantifier": "every text and every indentation", "why_tests_cant": "infinite input space", "anchors": ["ecl_command_line/include/ecl/command_line/std_output.hpp: StdOutput::spacePrint"]}
{"id": "C123", "title": "Usage text of any program can be printed", "statement": "Printing the usage text reads only inside the text, also when it starts with a word longer than the line.", "quantifier": "every text", "why_tests_cant": "only long program names trigger it", "anchors": ["ecl_command_line/include/ecl/command_line/std_output.hpp: StdOutput::spacePrint"]}
{"id": "C124", "title": "Unknown words are rejected", "statement": "A word that names no declared argument makes the parse fail.", "quantifier": "every word that is not declared", "why_tests_cant": "infinite input space", "anchors": ["ecl_command_line/include/ecl/command_line/switch_arg.hpp: SwitchArg::combinedSwitchesMatch, processArg", "ecl_command_line/include/ecl/command_line/cmd_line.hpp: CmdLine::_emptyCombined, parse"]}
{"id": "C125", "title": "Any value text can be passed", "statement": "Any text without NUL can be passed as a value of a string argument, in each of the three forms (positional, separate word, joined by the delimiter).", "quantifier": "every value text", "why_tests_cant": "infinite input space", "anchors": ["ecl_command_line/include/ecl/command_line/arg.hpp: Arg::_hasBlanks", "ecl_command_line/include/ecl/command_line/unlabeled_value_arg.hpp: UnlabeledValueArg::processArg", "ecl_command_line/include/ecl/command_line/value_arg.hpp: ValueArg::processArg"]}
{"id": "C126", "title": "Parsers in one process are independent", "statement": "Declaring and parsing a program gives the same result whether or not another parser was used before in the process.", "quantifier": "every pair of programs and lines", "why_tests_cant": "needs histories of parsers", "anchors": ["ecl_command_line/include/ecl/command_line/arg.hpp: Arg::ignoreRestRef, delimiterRef", "ecl_command_line/include/ecl/command_line/optional_unlabeled_tracker.hpp: OptionalUnlabeledTracker"]}
{"id": "C127", "title": "Words that name nothing are rejected", "statement": "A word made of a dash and blanked-out characters only is rejected.", "quantifier": "every such word", "why_tests_cant": "infinite input space", "anchors": ["ecl_command_line/include/ecl/command_line/cmd_line.hpp: CmdLine::_emptyCombined"]}
{"id": "C128", "title": "Empty value text of a number is rejected", "statement": "Passing an empty text where a number is expected is reported as an error.", "quantifier": "every numeric argument", "why_tests_cant": "rare input", "anchors": ["ecl_command_line/include/ecl/command_line/value_arg.hpp: VALUE_ARG_HELPER::ValueExtractor::extractValue", "ecl_command_line/include/ecl/command_line/multi_arg.hpp: MULTI_ARG_HELPER::ValueExtractor::extractValue"]}
{"id": "C129", "title": "Short and long form agree", "statement": "With a delimiter such as '=', -f=v and --file=v have the same effect.", "quantifier": "every value text and declaration set", "why_tests_cant": "depends on the other declarations", "anchors": ["ecl_command_line/include/ecl/command_line/value_arg.hpp: ValueArg::processArg", "ecl_command_line/include/ecl/command_line/switch_arg.hpp: SwitchArg::combinedSwitchesMatch"]}
{"id": "C130", "title": "Exclusive groups hold however the arguments are written", "statement": "Exactly one member of an exclusive group is set after a successful parse, and required arguments are present, also when switches are combined in one word or the members are multi-valued.", "quantifier": "every program with groups and every line", "why_tests_cant": "combinatorial input space", "anchors": ["ecl_command_line/include/ecl/command_line/xor_handler.hpp: XorHandler::check", "ecl_command_line/include/ecl/command_line/switch_arg.hpp: SwitchArg::processArg", "ecl_command_line/include/ecl/command_line/multi_arg.hpp: MultiArg::processArg"]}
{"id": "C131", "title": "Counting switches terminate", "statement": "Parsing a combined word with a counting switch ends, for every flag character.", "quantifier": "every flag character", "why_tests_cant": "needs an unusual flag", "anchors": ["ecl_command_line/include/ecl/command_line/multi_switch_arg.hpp: MultiSwitchArg::processArg"]}
{"id": "C132", "title": "Angles in single precision stay in range", "statement": "Wrapping an Angle<float> gives a value in [-pi,pi] and wrapping again changes nothing.", "quantifier": "every float", "why_tests_cant": "one float in four billion breaks it", "anchors": ["ecl_geometry/include/ecl/geometry/angle.hpp: Angle, wrap_angle"]}
{"id": "C133", "title": "Angles and rotation matrices agree", "statement": "An angle in (-pi,pi] converted to a rotation matrix and back is unchanged, the angle of any rotation matrix reproduces that matrix, and matrix products correspond to wrapped sums of angles.", "quantifier": "all angles and all rotation matrices (exact arithmetic)", "why_tests_cant": "continuum of inputs, quadrant cases", "anchors": ["ecl_geometry/include/ecl/geometry/angle.hpp: Angle::rotationMatrix"]}
{"id": "C134", "title": "Degrees and radians are inverse", "statement": "Conversion from degrees to radians and back, in either order, is the identity.", "quantifier": "all real numbers (exact arithmetic)", "why_tests_cant": "continuum of inputs", "anchors": ["ecl_geometry/include/ecl/geometry/angle.hpp: degrees_to_radians, radians_to_degrees"]}
{"id": "C135", "title": "Every cubic with a real root gets finite roots", "statement": "The roots of a cubic with non-zero leading coefficient are finite numbers.", "quantifier": "all cubics", "why_tests_cant": "needs the exactly symmetric case", "anchors": ["ecl_geometry/src/lib/polynomial.cpp: Roots<CubicPolynomial>"]}
{"id": "C136", "title": "Triangles and shifts exist for every degree", "statement": "Pascal's triangle and shift_horizontal are defined for every degree.", "quantifier": "every degree", "why_tests_cant": "tests use small degrees", "anchors": ["ecl_geometry/include/ecl/geometry/pascals_triangle.hpp: PascalsTriangle", "ecl_geometry/include/ecl/geometry/polynomial.hpp: Polynomial::shift_horizontal"]}
{"id": "C137", "title": "Intersection failure flag reflects the last operation", "statement": "fail() of an Intersection object is true exactly if its last operation failed.", "quantifier": "every history of calls on one object", "why_tests_cant": "needs a history of calls", "anchors": ["ecl_geometry/include/ecl/geometry/polynomial.hpp: Intersection, FunctionMath::fail", "ecl_geometry/src/lib/polynomial.cpp: Intersection"]}
{"id": "C138", "title": "Mixed fuzzy comparisons agree", "statement": "isApprox(x,y) implies isApproxOrLessThan(x,y) also for an integer x and a double y.", "quantifier": "all integers, doubles and precisions", "why_tests_cant": "continuum of inputs", "anchors": ["ecl_math/include/ecl/math/fuzzy.hpp: isApproxOrLessThan"]}
{"id": "C139", "title": "Line coefficients of vertical segments", "statement": "A x + B y + C = 0 at the end points of a vertical segment.", "quantifier": "all vertical segments", "why_tests_cant": "the unit test asserts the wrong value", "anchors": ["ecl_geometry/src/lib/linear_segment.cpp: LinearSegment::LinearSegment"]}
{"id": "C140", "title": "Cubic root finding degrades to quadratic", "statement": "Roots of a cubic whose leading coefficient is zero are the roots of the remaining quadratic, as quadratics degrade to linear functions.", "quantifier": "all cubics with zero leading coefficient", "why_tests_cant": "special coefficient", "anchors": ["ecl_geometry/src/lib/polynomial.cpp: Roots<CubicPolynomial>"]}
{"id": "C141", "title": "Repeated abscissae are reported", "statement": "A spline constructor given two equal abscissae raises an exception rather than returning a spline with infinite or NaN coefficients.", "quantifier": "all data sets", "why_tests_cant": "a statement about every data set; false, refuted with a witness for each kind of spline", "anchors": ["ecl_geometry/src/lib/cubic_spline_blueprints.cpp", "ecl_geometry/src/lib/smooth_linear_spline.cpp"]}
{"id": "C142", "title": "Evaluating a spline outside its domain is safe", "statement": "Evaluating a spline or its derivatives outside the domain is refused with an out of range exception. (True of debug builds; in release builds every point beyond the right end makes the search read past the end of the array.)", "quantifier": "all splines, all points outside the domain, both build modes", "why_tests_cant": "continuum of points; undefined behaviour is not observable by a test", "anchors": ["ecl_geometry/src/lib/cubic_spline.cpp: operator()", "ecl_geometry/src/lib/tension_spline.cpp: operator()", "ecl_geometry/src/lib/smooth_linear_spline.cpp: operator()"]}
{"id": "C143", "title": "Spline constructors refuse too few points", "statement": "Every spline constructor refuses data sets that are too small for it with an exception, without touching memory outside its arrays.", "quantifier": "all data set sizes", "why_tests_cant": "undefined behaviour is not observable by a test; false, refuted for three of the four constructors", "anchors": ["ecl_geometry/src/lib/cubic_spline_blueprints.cpp: DerivativeHeuristicCubicSpline", "ecl_geometry/src/lib/tension_spline_blueprints.cpp: C2TensionSpline", "ecl_geometry/src/lib/smooth_linear_spline.cpp: SmoothLinearSpline"]}
{"id": "C144", "title": "A pose can extend itself", "statement": "Extending a pose by itself (p *= p) equals concatenating it with itself.", "quantifier": "all poses, both operand evaluation orders", "why_tests_cant": "depends on the operand evaluation order chosen by the compiler and on the pose", "anchors": ["ecl_geometry/include/ecl/geometry/pose2d.hpp: extend_pose, Pose2D::operator*="]}
{"id": "C145", "title": "The two storages of a legacy pose agree", "statement": "Converting a legacy pose between matrix and angle storage keeps the motion it describes, and product, inverse and relative() give the same motions in either storage.", "quantifier": "all legacy poses whose stored rotation is a rotation (exact arithmetic)", "why_tests_cant": "continuum of inputs", "anchors": ["ecl_geometry/include/ecl/geometry/legacy_pose2d.hpp: Pose2DMath, LegacyPose2D"]}
{"id": "C146", "title": "Trajectories hold the poses they are made of", "statement": "A trajectory made from a vector has its elements as columns in order; setting a column changes exactly that column; front and back are the first and last; resizing keeps the columns that fit; the poses and twists of an odometry trajectory are those of its columns.", "quantifier": "all lengths, indices in range and contents", "why_tests_cant": "unbounded lengths", "anchors": ["ecl_geometry/src/lib/odometry_helper.cpp: vectorToTrajectory, setAt, getAt, getFront, getBack, resize, getPoses, getTwists"]}
{"id": "C147", "title": "Queries of an empty trajectory are defined", "statement": "distance(), getFront() and getBack() have a defined outcome for every trajectory, including one without poses.", "quantifier": "all trajectories", "why_tests_cant": "undefined behaviour may go unnoticed in a test", "anchors": ["ecl_geometry/src/lib/odometry_helper.cpp: distance, getFront, getBack"]}
{"id": "C148", "title": "The sample counter counts every sample", "statement": "size() of CumulativeStatistics<T> equals the number of samples pushed since the last clear.", "quantifier": "all numbers of samples, T = float and double, with the counter rounded as the type does", "why_tests_cant": "needs more than 2^24 (2^53) samples", "anchors": ["ecl_statistics/include/ecl/statistics/cumulative_statistics.hpp: push_back, size"]}
{"id": "C149", "title": "The y intercept of a covariance ellipse lies on the ellipse", "statement": "The second intercept magnitude is the distance from the centre at which the ellipse meets the y axis.", "quantifier": "all symmetric positive definite 2x2 matrices", "why_tests_cant": "continuum of inputs; wrong for most of them", "anchors": ["ecl_statistics/src/lib/covariance_ellipsoid.cpp: CovarianceEllipsoid<double,2>::intercepts"]}
{"id": "C150", "title": "Computed ellipse axes stay orthogonal in doubles", "statement": "With IEEE double arithmetic the two computed axes of a positive definite covariance are close to orthogonal.", "quantifier": "all symmetric positive definite 2x2 matrices of doubles", "why_tests_cant": "cancellation for particular inputs only", "anchors": ["ecl_statistics/src/lib/covariance_ellipsoid.cpp: CovarianceEllipsoid<double,2>::compute"]}
{"id": "C151", "title": "Validating waypoints", "statement": "validateWaypoints(min) answers true exactly when there are at least min waypoints and every waypoint but the last has positive nominal rates, and validating or initialising a trajectory without waypoints is safe.", "quantifier": "all minimums and waypoint lists", "why_tests_cant": "unbounded lists; the empty case wraps an unsigned count", "anchors": ["ecl_manipulators/src/lib/trajectory.cpp: validateWaypoints, initialiseWaypointDurations"]}
{"id": "C152", "title": "A linear interpolation is smooth, bounded and hits its end points", "statement": "linearSplineInterpolation throws exactly for waypoints that are too few, have a non-positive nominal rate or an empty segment; otherwise it never fails, never shortens a duration, and when it returns every joint's path is twice continuously differentiable on the whole duration, starts at the first waypoint's angle with its rate and without acceleration, ends at the last waypoint's angle without acceleration, never exceeds the joint's maximum acceleration, and takes longer than the durations add up to.", "quantifier": "all dimensions, waypoint lists, rates, maximum accelerations, numbers of stretching rounds and times", "why_tests_cant": "real-valued inputs, unbounded retries", "anchors": ["ecl_manipulators/src/lib/trajectory.cpp: linearSplineInterpolation, generateLinearSplines, operator(), derivative, dderivative", "ecl_geometry/src/lib/smooth_linear_spline.cpp"]}
{"id": "C153", "title": "A linear interpolation ends with the requested rate", "statement": "After linearSplineInterpolation every joint has the last waypoint's rate at the end of the trajectory.", "quantifier": "all waypoint lists and maximum accelerations for which it returns", "why_tests_cant": "real-valued inputs", "anchors": ["ecl_manipulators/src/lib/trajectory.cpp: generateLinearSplines (t_pullforward doubled after the final tangents were built)"]}
{"id": "C154", "title": "Linear interpolation terminates", "statement": "linearSplineInterpolation returns for every acceptable list of waypoints: its retries, which stretch segments, end.", "quantifier": "all acceptable waypoints and maximum accelerations, any number of rounds", "why_tests_cant": "a test cannot observe non-termination nor all inputs", "anchors": ["ecl_manipulators/src/lib/trajectory.cpp: linearSplineInterpolation, generateLinearSplines"]}
{"id": "C155", "title": "Evaluating a trajectory", "statement": "On a trajectory whose pieces follow one another from 0, evaluation within the duration uses a piece whose domain contains the time (both builds); after the end it gives the value at the end, except that debug builds throw beyond a tenth of a millisecond; before 0 debug builds throw; evaluating before any interpolation is safe.", "quantifier": "all piece lists, times and builds", "why_tests_cant": "all real times and piece boundaries", "anchors": ["ecl_manipulators/src/lib/trajectory.cpp: operator(), derivative, dderivative", "ecl_geometry/include/ecl/geometry/spline_function.hpp"]}
{"id": "C156", "title": "Comparing waypoints", "statement": "operator== on waypoints is symmetric and true exactly when the joint angles agree, operator!= is its negation, and waypoints of different dimensions are different.", "quantifier": "all pairs of waypoints", "why_tests_cant": "all sizes, including different ones", "anchors": ["ecl_manipulators/include/ecl/manipulators/waypoint.hpp: operator==, operator!="]}
{"id": "C157", "title": "Trajectories own their spline functions", "statement": "However often a trajectory is interpolated, its functions are deleted exactly once and none leaks; copies of a trajectory can be destroyed independently.", "quantifier": "all sequences of interpolations, copies", "why_tests_cant": "all histories; double deletes are silent", "anchors": ["ecl_manipulators/include/ecl/manipulators/trajectory.hpp: ~Trajectory, implicit copy", "ecl_manipulators/src/lib/trajectory.cpp: clearSplines"]}
{"id": "C158", "title": "Character extraction delivers the characters", "statement": "Repeatedly extracting characters from a text stream yields, in unformatted mode, every character of the text in order and, in formatted mode, every character other than space and newline in order, without error; the next extraction is a ReadError.", "quantifier": "every text of any length, both modes", "why_tests_cant": "infinite set of texts", "anchors": ["ecl_streams/include/ecl/streams/text_streams/input_text_stream.hpp: operator>>(char&), skipLeadingWhiteSpace"]}
{"id": "C159", "title": "Boolean extraction accepts exactly the spellings of true and false", "statement": "Extracting a bool from a text stream succeeds with the right value exactly if the next blank-separated word is true, True, TRUE, false, False or FALSE; any other word is a ConversionError and a missing word a ReadError, both leaving the target unchanged.", "quantifier": "every word, preceded by any blanks and followed by the end of the stream, a pause or a blank", "why_tests_cant": "infinite set of words and surroundings", "anchors": ["ecl_streams/include/ecl/streams/text_streams/input_text_stream.hpp: operator>>(bool&), operator>>(std::string&)"]}
{"id": "C160", "title": "The distance of two poses is a metric on positions", "statement": "The distance of two poses is non-negative, symmetric, zero exactly if the positions coincide, satisfies the triangle inequality, and the squared distance is its square.", "quantifier": "all triples of poses, over the reals", "why_tests_cant": "uncountably many poses", "anchors": ["ecl_geometry/src/lib/odometry_helper.cpp: distance(Pose2D, Pose2D), distanceSqared"]}
{"id": "C161", "title": "Signs and cube roots cover every number", "statement": "sign, psign and nsign times the absolute value give the number back, sign is zero exactly at zero, psign is 1 and nsign -1 there; cube_root is the unique number whose cube is the argument, also for negative arguments.", "quantifier": "every real", "why_tests_cant": "uncountably many arguments", "anchors": ["ecl_math/include/ecl/math/simple.hpp: sign, psign, nsign, cube_root"]}
{"id": "C162", "title": "Millisecond and microsecond accessors are the whole units of the fractional second", "statement": "For a normalised time, sec() together with msec() (usec()) is the time in whole milliseconds (microseconds), rounded towards zero.", "quantifier": "every normalised time, positive or negative", "why_tests_cant": "unbounded set of times", "anchors": ["ecl_time/include/ecl/time/timestamp_base.hpp: TimeStampBase::msec, usec"]}
{"id": "C163", "title": "A redimensioned waypoint is like a new one of that size", "statement": "Redimensioning a waypoint gives a waypoint that can be used wherever one constructed with that dimension can. False: the nominal rates of a redimensioned waypoint are zero (a new one has ones), so a trajectory that contains it before its end never validates.", "quantifier": "every waypoint, dimension and trajectory around it", "why_tests_cant": "unbounded trajectories and dimensions", "anchors": ["ecl_manipulators/include/ecl/manipulators/waypoint.hpp: WayPoint::redimension, WayPoint(unsigned int)"]}
{"id": "C164", "title": "Write results tell the truth", "statement": "Writing to a buffered device returns the number of bytes taken; when the underlying file refuses the block that a write completes, the write is a WriteError (debug) or -1 (release), and every other write succeeds. The buffer stays within bounds over any history of successes and failures.", "quantifier": "every history of writes and flushes, every pattern of file failures, every block", "why_tests_cant": "unbounded histories and failure patterns", "anchors": ["ecl_devices/src/lib/shared_file.cpp: SharedFile::write, SharedFile::flush", "ecl_devices/src/lib/console.cpp: OConsole::write"]}
{"id": "C165", "title": "Only the last positional argument of a command line may be optional", "statement": "When a program's argument declarations are accepted in a fresh process, every single-valued positional argument that is followed by another positional argument was declared as required; declaring any positional argument after an optional one is refused.", "quantifier": "all declaration sequences (single arguments and exclusive groups of any size), delimiters and help settings", "why_tests_cant": "The sequences of declarations are unbounded; tests check a few orders.", "anchors": ["ecl_command_line/include/ecl/command_line/unlabeled_value_arg.hpp UnlabeledValueArg", "ecl_command_line/include/ecl/command_line/optional_unlabeled_tracker.hpp OptionalUnlabeledTracker::check"]}
{"id": "C166", "title": "A repeatable member of an exclusive group may be given any number of times", "statement": "In a program with one exclusive group and otherwise only optional arguments, a command line that gives values to a single repeatable member of the group, any positive number of times and by flag or by name, is accepted; all values are read back in order, and no other member of the group counts as set.", "quantifier": "all programs of that shape, all members, all non-empty sequences of readable and permitted values", "why_tests_cant": "The number of repetitions and the programs are unbounded; counting the group twice only shows for some lengths.", "anchors": ["ecl_command_line/include/ecl/command_line/xor_handler.hpp XorHandler::check", "ecl_command_line/include/ecl/command_line/multi_arg.hpp MultiArg::allowMore"]}
{"id": "C167", "title": "Tension interpolation goes through the waypoints from rest to rest or at the given rates", "statement": "A joint trajectory interpolated with tension splines is defined from time zero to its duration; it starts and ends at the first and last waypoint's angles with their configured rates (zero when not configured) and no acceleration, passes through every inner waypoint at a time given by the durations, is differentiable except possibly where the leading curve ends, and its leading and trailing curves respect the maximum accelerations. Waypoints keep their angles and are never given less time than asked. Debug builds refuse exactly the waypoints that cannot be interpolated or are fewer than five; other builds check nothing.", "quantifier": "all dimensions, waypoints, tensions > 0, maximum accelerations", "why_tests_cant": "continuum of inputs and times; the three lengthening loops run any number of times", "anchors": ["ecl_manipulators/src/lib/trajectory.cpp: tensionSplineInterpolation, generateTensionSplines", "ecl_manipulators/include/ecl/manipulators/trajectory.hpp: operator(), derivative, dderivative"]}
{"id": "C168", "title": "Tension trajectories have no jumps", "statement": "The position and velocity of a tension spline trajectory are continuous everywhere, in particular where the leading curve hands over to the spline. (False when the trailing loop lengthens the last segment: the spline is regenerated but the leading curve is not; proved when the last segment is not lengthened.)", "quantifier": "all waypoints, accelerations, tensions, times", "why_tests_cant": "depends on which of three unbounded loops lengthened which segment; the jump is small", "anchors": ["ecl_manipulators/src/lib/trajectory.cpp:203-263"]}
{"id": "C169", "title": "Tension interpolation finishes exactly for positive bounds", "statement": "Interpolating acceptable waypoints with tension splines finishes if and only if every maximum acceleration is positive; with the zero accelerations a trajectory is created with it loops for ever.", "quantifier": "all waypoints, bounds, tensions", "why_tests_cant": "termination of nested loops with no bound; non-termination cannot be tested", "anchors": ["ecl_manipulators/src/lib/trajectory.cpp:66-263", "ecl_manipulators/include/ecl/manipulators/trajectory.hpp: Trajectory()"]}
{"id": "C170", "title": "Tension trajectories respect the maximum accelerations", "statement": "At every time the acceleration of every joint of a tension spline trajectory is at most its maximum acceleration. (Proved when neither the first nor the last segment is lengthened, which is so for large enough bounds; false otherwise, as the knots are not checked again after the ends were lengthened. The acceleration also jumps where the leading curve ends.)", "quantifier": "all waypoints, bounds, tensions, joints and times", "why_tests_cant": "the bound is on a continuum of times and depends on the histories of three loops", "anchors": ["ecl_manipulators/src/lib/trajectory.cpp:66-263"]}
{"id": "C171", "title": "A device leaves no descriptor behind", "statement": "While a socket, serial port or output file exists the process holds at most one descriptor it obtained, and only while it reports itself open; once destroyed, none. (Proved for socket clients; false for servers, which leave one per accepted client, for serial ports whose opening fails after the device was opened, and for files opened twice; proved for histories without those calls.)", "quantifier": "all histories of construction, opening, listening, hang-ups, closing and destruction of any number of devices and other code, all outcomes of the system calls, all builds", "why_tests_cant": "leaks depend on failure paths of the operating system and on the order of calls over the whole process", "anchors": ["ecl_devices/src/lib/socket_client_pos.cpp: open, close", "ecl_devices/src/lib/socket_server_pos.cpp: open, listen", "ecl_devices/src/lib/serial_pos.cpp: open, close", "ecl_devices/src/lib/ofile_pos.cpp: open, close"]}
{"id": "C172", "title": "A device closes only its own descriptor", "statement": "Every descriptor a device closes is one it obtained and has not closed yet; in particular what other objects report open stays open. (False: sockets close whatever number they last held when closed or destroyed while not open; exact for clients. Proved when sockets are closed and destroyed only while open() is true.)", "quantifier": "all histories of any number of devices and other code, all outcomes of the system calls", "why_tests_cant": "needs descriptor numbers re-used between a hang-up and a destruction", "anchors": ["ecl_devices/src/lib/socket_client_pos.cpp:59-62", "ecl_devices/include/ecl/devices/socket_client_pos.hpp:69-82", "ecl_devices/include/ecl/devices/socket_server_pos.hpp:65-110"]}
{"id": "C173", "title": "open() tells whether opening succeeded", "statement": "After open(...) returns or throws, open() is true exactly if it succeeded. (Proved for clients; false for a server that could not bind its port, and for files and ports that were open already.)", "quantifier": "all states of the device and outcomes of the system calls", "why_tests_cant": "failing system calls in every state", "anchors": ["ecl_devices/src/lib/socket_server_pos.cpp:85-91", "ecl_devices/src/lib/serial_pos.cpp:97-104", "ecl_devices/src/lib/ofile_pos.cpp:63-97"]}
{"id": "C174", "title": "Serial ports can be constructed and opened", "statement": "Constructing a serial port with or without arguments and calling it in any order has defined behaviour. (False: the opening constructor does not set the open flag before reading it, the default constructor does not set the timeout that opening reads; holds for objects in zeroed storage.)", "quantifier": "all histories of port calls and outcomes", "why_tests_cant": "indeterminate members usually look harmless", "anchors": ["ecl_devices/src/lib/serial_pos.cpp:69-79, 106, 267", "ecl_devices/include/ecl/devices/serial_pos.hpp:144"]}
{"id": "C175", "title": "Bytes read from a socket are the bytes sent", "statement": "The bytes returned by the successful reads of a connection, in order, followed by the bytes still waiting, are the bytes the peer sent before leaving; peeks return what the next read would and take nothing; a read with bytes waiting returns between one and the requested number.", "quantifier": "all interleavings of arrivals, reads, peeks, other calls, failures and the peer leaving; clients and servers", "why_tests_cant": "all schedules and chunkings of the stream", "anchors": ["ecl_devices/src/lib/socket_client_pos.cpp:139-188", "ecl_devices/src/lib/socket_server_pos.cpp:125-155"]}
{"id": "C176", "title": "Hang-ups are reported when, and only when, the peer is gone", "statement": "A read reports a hang-up only after the peer has left and every byte was read; a connection reset is reported as a hang-up. (False for reads of zero bytes, which close a live connection, and for servers, which report a reset as a problem first.)", "quantifier": "all connection states and read sizes", "why_tests_cant": "resets and empty reads in every state", "anchors": ["ecl_devices/src/lib/socket_client_pos.cpp:152-171", "ecl_devices/src/lib/socket_server_pos.cpp:129-140"]}
{"id": "C177", "title": "A socket that is not open says so", "statement": "After closing or a hang-up every read, peek, remaining and write answers that the socket is disconnected, until it is opened again. (False for a server's peek, remaining and write.)", "quantifier": "all continuations", "why_tests_cant": "all sequences of calls and arrivals after the hang-up", "anchors": ["ecl_devices/src/lib/socket_client_pos.cpp:139-236", "ecl_devices/src/lib/socket_server_pos.cpp:125-195"]}
{"id": "C178", "title": "remaining() is the number of bytes waiting", "statement": "remaining() on an open socket returns the number of bytes that can be read, or reports the failure of the query. (False: the upper half of the result is uninitialised; a client returns an arbitrary number without error when the query fails.)", "quantifier": "all connection states and contents of the uninitialised variable", "why_tests_cant": "the uninitialised variable usually holds zero", "anchors": ["ecl_devices/src/lib/socket_client_pos.cpp:190-202", "ecl_devices/src/lib/socket_server_pos.cpp:157-167"]}
{"id": "C179", "title": "error() describes the last socket call", "statement": "After a call on an open socket, error() holds an error exactly if the call reported a problem. (False for a client's successful write, which keeps an earlier error.)", "quantifier": "all calls, states and outcomes", "why_tests_cant": "pairs of a failing and a succeeding call", "anchors": ["ecl_devices/src/lib/socket_client_pos.cpp:213-236", "ecl_devices/src/lib/socket_server_pos.cpp:174-195"]}
{"id": "C180", "title": "A failure is classified alike whether thrown or returned", "statement": "For every failing system call and every errno, the flag of the exception and the error code stored in builds without exceptions are the same. (False exactly for a missing file, an unknown host, a busy name server and an unreachable network or host.)", "quantifier": "all errno values and failing calls", "why_tests_cant": "every errno of every call", "anchors": ["ecl_devices/src/lib/detail/error_handler.cpp", "ecl_devices/src/lib/detail/exception_handler_pos.cpp", "ecl_devices/include/ecl/devices/detail/socket_error_handler_pos.hpp", "ecl_devices/src/lib/detail/socket_exception_handler_pos.cpp"]}
{"id": "C181", "title": "Blocking, interruption and refusal are recognised", "statement": "A call that would block is reported as blocking, an interrupted one as interrupted and a forbidden one as a permissions error, and nothing else is. (False for reads that time out, and for forbidden reads, writes and connections: the case labels join two constants with a logical or.)", "quantifier": "all errno values and failing calls", "why_tests_cant": "every errno of every call", "anchors": ["ecl_devices/include/ecl/devices/detail/socket_error_handler_pos.hpp:112-207", "ecl_devices/src/lib/detail/socket_exception_handler_pos.cpp:99-204"]}
{"id": "C182", "title": "Uniform random numbers stay in their range", "statement": "uniform() is between 0 and 1 (both ends occur) and uniform(range) between -range and range, whatever rand() answers and however the arithmetic rounds; larger draws never give smaller numbers.", "quantifier": "all draws, all representable ranges, float and double", "why_tests_cant": "2^31 draws times all ranges, with rounding", "anchors": ["ecl_time/include/ecl/time/random_number_generator.hpp:51-59"]}
{"id": "C183", "title": "Gaussian random numbers are numbers", "statement": "gaussian(std, mu) returns a finite number. (Proved for double, within 14 std of mu; false for float, where two draws at the middle of rand()'s range give a NaN.)", "quantifier": "all histories of calls and all draws", "why_tests_cant": "the failing draws are a few in 2^31, squared", "anchors": ["ecl_time/include/ecl/time/random_number_generator.hpp:61-87"]}
{"id": "C184", "title": "Drawing a gaussian number returns", "statement": "gaussian() returns as soon as rand() answers two successive numbers in the middle half of its range; with a rand() that only answers 0 it never does.", "quantifier": "all random sequences", "why_tests_cant": "rejection loop without bound", "anchors": ["ecl_time/include/ecl/time/random_number_generator.hpp:74-78"]}
{"id": "C185", "title": "A seed determines the numbers that follow", "statement": "After constructing a generator with a given seed the numbers drawn are the same in every run, whatever happened before. (Proved for uniform numbers, and for all numbers after an even count of gaussian draws; otherwise the first gaussian number is left over from before the seeding.)", "quantifier": "all histories before and after seeding", "why_tests_cant": "all histories before the seeding", "anchors": ["ecl_time/include/ecl/time/random_number_generator.hpp:41-44,61-87"]}
{"id": "C186", "title": "Random generators do not influence each other", "statement": "The numbers of one generator do not depend on other generators being constructed or used. (False: rand() is shared; constructing another generator with the same seed makes the first repeat itself.)", "quantifier": "all programs with several generators", "why_tests_cant": "all interleavings of generators", "anchors": ["ecl_time/include/ecl/time/random_number_generator.hpp:38-49"]}
{"id": "C187", "title": "Poses in space are rigid motions", "statement": "For 3D poses whose matrix is a rotation: the product stands for one motion after the other, is associative and has the default pose as unit; inverse() undoes the motion on both sides; relative() is the pose that takes the reference to the pose and does not depend on the common frame; rotations stay rotations and distances are kept. (The constructors and setters take any matrix; with one that is no rotation inverse() is no inverse.)", "quantifier": "all rotations and translations with real coordinates", "why_tests_cant": "uncountably many poses", "anchors": ["ecl_geometry/include/ecl/geometry/legacy_pose3d.hpp:80-283"]}
{"id": "C188", "title": "Planar poses embed in space", "statement": "A 3D pose made from (or assigned) a 2D pose of either storage moves points as the 2D pose does and keeps their height, whatever the target held before; products, inverses, relative poses and identity can be taken before or after the conversion.", "quantifier": "all planar poses, both storages, all previous contents of the target", "why_tests_cant": "uncountably many poses", "anchors": ["ecl_geometry/include/ecl/geometry/legacy_pose3d.hpp:106-113,163-171"]}
{"id": "C189", "title": "Poses in space from quaternions, angles and axes", "statement": "A pose built from a unit quaternion and a translation turns v to q v q* and then shifts; products of quaternions become products of poses; a pose built from an angle and a unit axis turns by that angle about that axis. (The angle-axis constructor ignores both arguments and always builds the identity; a quaternion that is not a unit gives a matrix that is no rotation.)", "quantifier": "all unit quaternions, all angles and unit axes, all translations", "why_tests_cant": "uncountably many inputs", "anchors": ["ecl_geometry/include/ecl/geometry/legacy_pose3d.hpp:115-142"]}
{"id": "C190", "title": "Points of the plane", "statement": "For points with real coordinates rotate() keeps norms and distances, adds to the angle and composes; get_angle() and Norm() are the polar coordinates; distance() is a metric; Normalize() returns the norm and leaves a unit vector in the same direction (the x axis for the origin); comparison, sums and indexed access behave as for pairs, an index outside throws in debug builds.", "quantifier": "all points, angles and indices", "why_tests_cant": "uncountably many points", "anchors": ["ecl_geometry/include/ecl/geometry/cartesian_point.hpp:344-485"]}
{"id": "C191", "title": "Euclidean norms are norms", "statement": "euclidean_norm and EuclideanNorm in two and three dimensions are nonnegative, zero only at the origin, homogeneous and satisfy the triangle inequality, and the three dimensional one extends the two dimensional one. (On int the result is the norm rounded down when the sum of squares fits an int, and undefined otherwise: homogeneity is false.)", "quantifier": "all coordinates", "why_tests_cant": "infinitely many coordinates", "anchors": ["ecl_math/include/ecl/math/norms.hpp:39-97"]}
{"id": "C192", "title": "Points of the plane with integer coordinates", "statement": "CartesianPoint2i has the properties of points: Normalize() leaves a unit vector, rotate() keeps the norm, distance() is the distance. (False for Normalize and rotate, which truncate: (3,4) and even (49,0) become the origin; a normalised coordinate is nonzero only if its magnitude was the truncated norm, and rotating never lengthens. distance() is rounded down, undefined when a square overflows.)", "quantifier": "all integer points", "why_tests_cant": "2^64 points and uncountably many angles", "anchors": ["ecl_geometry/include/ecl/geometry/cartesian_point.hpp:423-479"]}
{"id": "C193", "title": "The fourth element of a homogeneous point is one", "statement": "Every homogeneous point has fourth element one, after any sequence of calls; the coordinate setters change their coordinate only. (Proved for all constructors of a debug build followed by coordinate setters; the comma initialiser, the vector behind the point and, in release builds, the constructor from four numbers accept anything.)", "quantifier": "all constructors and sequences of calls", "why_tests_cant": "unbounded histories and real coordinates", "anchors": ["ecl_geometry/include/ecl/geometry/homogeneous_point.hpp:62-178"]}
{"id": "C194", "title": "A log holds what was logged", "statement": "For log streams constructed with a file name, every history of mode, header and stamp calls and LOG/FLUSH macros never throws out of the log stream's own calls and writes, for each LOG of an enabled mode, the stamp, the header of the mode and the text, and nothing for a disabled mode. (Refuted readings: enabling a mode again does not change its header; a default constructed stream reads uninitialised flags; log() on a disabled mode writes and, with headers on, enables it.)", "quantifier": "all programs of every stream, all schedules, debug and release", "why_tests_cant": "unbounded histories and interleavings", "anchors": ["ecl_streams/src/lib/log_stream.cpp:32-68", "ecl_streams/include/ecl/streams/log_stream.hpp:44-61,110-142"]}
{"id": "C195", "title": "Messages of log streams that share a file stay whole", "statement": "When several log streams write to the same shared file, the file is a sequence of whole messages and each stream's messages appear in the order it logged them. (Proved when each message is shorter than the buffer and flushed at once; a message as long as the buffer can be torn apart.)", "quantifier": "all numbers of streams, programs and schedules", "why_tests_cant": "the interleavings cannot be enumerated", "anchors": ["ecl_streams/src/lib/log_stream.cpp:32-68", "ecl_devices/src/lib/shared_file.cpp:177-216"]}
{"id": "C196", "title": "FLUSH brings a log up to date", "statement": "After FLUSH on a log stream everything logged through it before is in the file. (Proved when some mode is enabled at the FLUSH; with every mode disabled the macro does nothing.)", "quantifier": "all programs of every stream and all schedules", "why_tests_cant": "unbounded histories and interleavings", "anchors": ["ecl_streams/include/ecl/streams/log_stream.hpp:54-61", "ecl_devices/src/lib/shared_file.cpp:200-216"]}
{"id": "C197", "title": "Planar poses and transforms of space convert into each other", "statement": "The transform made from a planar pose turns by its heading about the vertical and moves by its position; converting it back gives the pose with the heading wrapped to (-pi, pi]; a transform that leaves heights alone survives the conversion to a planar pose and back. (Refuted for every transform: height, roll and pitch are dropped silently.)", "quantifier": "all real positions and headings, all unit transforms and all points", "why_tests_cant": "uncountable inputs; angles wrap", "anchors": ["ecl_linear_algebra/src/lib/sophus_helpers.cpp:23-45,72-78"]}
{"id": "C198", "title": "The transform of a line between two points", "statement": "points2DToSophusTransform gives a rigid motion that sends the origin to the first point and the point of the x axis at the distance between the points to the second, and leaves heights alone; also when the points coincide.", "quantifier": "all pairs of points", "why_tests_cant": "uncountable inputs, all four quadrants and the degenerate line", "anchors": ["ecl_linear_algebra/src/lib/sophus_helpers.cpp:51-61"]}
{"id": "C199", "title": "The quaternion of a planar rotation", "statement": "PlanarRotation2Quaternion gives, by its call operator and by convert, a unit quaternion that turns by the angle; the two agree up to sign. (Refuted: that they are the same quaternion, even for angles in [-pi, pi].)", "quantifier": "all angles", "why_tests_cant": "uncountable inputs; the branches of the matrix conversion depend on the angle", "anchors": ["ecl_linear_algebra/include/ecl/linear_algebra/sophus/helpers.hpp:94-118"]}
{"id": "C200", "title": "Interpolation between transforms", "statement": "The interpolator of two rigid transforms gives the first at 0 and the second at 1, is a rigid transform at every time, and moves steadily: what happens during a stretch of time depends on its length only.", "quantifier": "all pairs of rigid transforms, all times, all points", "why_tests_cant": "uncountable inputs; half turns and the identity are special cases of the logarithm", "anchors": ["ecl_linear_algebra/include/ecl/linear_algebra/sophus/interpolators.hpp:48-66"]}
{"id": "C201", "title": "Planar interpolation", "statement": "The planar interpolator gives the first transform at 0 and the second at 1, never changes heights and moves steadily. (Proved when the two transforms differ by a planar motion; refuted otherwise: a tilt passes the check of a debug build, and a release build also accepts frames at different heights; the end is then missed.)", "quantifier": "all pairs of rigid transforms, all times, all points, debug and release", "why_tests_cant": "uncountable inputs", "anchors": ["ecl_linear_algebra/src/lib/sophus_interpolators.cpp:24-49"]}
{"id": "C202", "title": "Sliding interpolation", "statement": "The sliding interpolator moves the origin of the frame along the straight line between its two places at constant speed, has at each time the orientation of the plain interpolator, and gives the first transform at 0 and the second at 1.", "quantifier": "all pairs of rigid transforms, all times, all points", "why_tests_cant": "uncountable inputs", "anchors": ["ecl_linear_algebra/src/lib/sophus_interpolators.cpp:55-66"]}
{"id": "C203", "title": "Time stamps made from doubles", "statement": "A time stamp made from (or stamped with) a number of seconds held in a double has the whole seconds cut toward zero, less than a second of nanoseconds with the same sign, and a value within one nanosecond (and one rounding) of the number. A number of 2^63 or more is undefined behaviour.", "quantifier": "all doubles", "why_tests_cant": "about 2^64 inputs, and the rounding of the product with 10^9 could carry the nanoseconds to a full second for any of them", "anchors": ["ecl_time/src/lib/timestamp_base.cpp:28-32", "ecl_time/src/lib/timestamp_base.cpp:47-51"]}
{"id": "C204", "title": "Time stamps through doubles and back", "statement": "Converting a time stamp to double and back returns the stamp. (False: a nanosecond is lost even after one second, and about a hundred in present-day epoch times; proved: below 16777215 s the seconds return and at most one nanosecond is lost, below 2^31 - 1 s the error is at most 120 ns.)", "quantifier": "all non-negative normalised stamps below the bound", "why_tests_cant": "more than 10^18 stamps and the rounding error depends on the last bits of each", "anchors": ["ecl_time/include/ecl/time/timestamp_base.hpp:134", "ecl_time/src/lib/timestamp_base.cpp:28-32"]}
{"id": "C205", "title": "Statistics of timings", "statement": "average() of the durations pushed since the last clear() is their mean cut to a nanosecond, stdDev() their standard deviation to a nanosecond and variance() their variance to 10^-9; variance() is the square of stdDev(). (The last is false: the variance, cut to 10^-9, of short timings is zero. Without any duration all three are undefined behaviour.)", "quantifier": "all non-empty lists of durations below 10^9 s, in exact arithmetic", "why_tests_cant": "unbounded lists", "anchors": ["ecl_time/src/lib/time_data.cpp:26-52", "ecl_time/include/ecl/time/time_data.hpp:43-51"]}
{"id": "C206", "title": "Automatic width lines up the columns of a container", "statement": "Streaming a container of floats through its formatter with automatic width prints every number in a column of the same width, wide enough for all of them and at most three characters wider than needed; with a given width every number is right aligned in it.", "quantifier": "every container of floats whose texts fit the 30 character buffer, every precision from 0 to 20, every width, both build types", "why_tests_cant": "the width is computed from logarithms of the extremes, so the edge is at every power of ten and at every rounding carry", "anchors": ["ecl_containers/include/ecl/containers/common/formatters.hpp:FloatContainerFormatter", "ecl_containers/include/ecl/containers/array/formatters.hpp"]}
{"id": "C207", "title": "Temporary settings of a container formatter last for one text", "statement": "Whatever texts were printed with temporary precision and width, later texts appear as if printed by a fresh formatter with the permanent settings.", "quantifier": "every sequence of setters, calls with and without temporary settings, each streamed at once", "why_tests_cant": "the property is about all histories of a stateful object", "anchors": ["ecl_containers/include/ecl/containers/common/formatters.hpp:FloatContainerFormatter"]}
{"id": "C208", "title": "Temporary settings of matrix and transform formatters last for one text", "statement": "Matrices and transforms are printed in the documented layout, and texts printed with temporary settings do not influence later ones.", "quantifier": "every sequence of calls on every matrix and transform, every width and precision", "why_tests_cant": "the property is about all histories of a stateful object and all matrix shapes", "anchors": ["ecl_linear_algebra/include/ecl/linear_algebra/eigen/formatters.hpp:FloatMatrixFormatter", "ecl_linear_algebra/include/ecl/linear_algebra/sophus/formatters.hpp:SE3fFormatter"]}
{"id": "C209", "title": "A formatter prints the container it was last given, once", "statement": "Byte containers are printed as two hexadecimal digits per byte; streaming a formatter twice without a new call is reported in a debug build.", "quantifier": "every container, every earlier call, both build types", "why_tests_cant": "ranges over all containers and histories", "anchors": ["ecl_containers/include/ecl/containers/array/formatters.hpp", "ecl_containers/include/ecl/containers/push_and_pop/formatters.hpp", "ecl_containers/include/ecl/containers/common/formatters.hpp"]}
{"id": "C210", "title": "Formatters can be copied like values", "statement": "A copy of a float formatter has its own settings: changing or printing one of them does not influence the other, in whatever order they are used and destroyed.", "quantifier": "every program that creates, copies, assigns, sets, calls, streams and destroys formatters", "why_tests_cant": "the sharing only shows up in particular interleavings of copies, setters and destruction", "anchors": ["ecl_formatters/include/ecl/formatters/floats.hpp:Format<float>", "ecl_formatters/include/ecl/formatters/floats.hpp:Format<double>"]}
{"id": "C211", "title": "Stencils of a plain buffer are shared views of it", "statement": "Whatever is read, written, filled or re-windowed through any number of stencils made on one byte buffer, each shows exactly the bytes of its window of that buffer, and writes through one are visible through all others.", "quantifier": "every program over any number of stencils on a buffer of any size, indices inside their windows, both build types", "why_tests_cant": "ranges over all programs and buffer sizes", "anchors": ["ecl_containers/include/ecl/containers/stencil/specialisations.hpp:Stencil<unsigned char*>", "ecl_containers/include/ecl/containers/stencil/specialisations.hpp:Stencil<const unsigned char*>"]}
{"id": "C212", "title": "A debug build stops stencils of a plain buffer from leaving it", "statement": "In a debug build no program using stencils of a buffer reads or writes outside the buffer: it is stopped by an exception first.", "quantifier": "every program with arbitrary windows and indices", "why_tests_cant": "ranges over all programs, including ones that are wrong", "anchors": ["ecl_containers/include/ecl/containers/stencil/specialisations.hpp:Stencil<unsigned char*>", "ecl_containers/include/ecl/containers/initialiser.hpp:BoundedListInitialiser"]}
{"id": "C213", "title": "Resolving a path reports success and failure faithfully", "statement": "realpath returns no error exactly if the path was resolved, then delivers the resolved path; otherwise it returns the documented error for the reason, leaves the result alone and keeps no memory.", "quantifier": "every answer of the C library, every errno, every sequence of calls", "why_tests_cant": "failures of the operating system cannot be provoked one by one, and the buffer's content on failure is unspecified", "anchors": ["ecl_filesystem/src/lib/realpath.cpp:realpath", "ecl_filesystem/include/ecl/filesystem/realpath.hpp"]}
{"id": "C214", "title": "A mutex on Windows excludes and is recursive", "statement": "Whatever the schedule, at most one thread holds a Windows mutex; a thread that holds it can lock it again without waiting, and holds it until it has unlocked it as often; unlocking is well defined exactly for the holder.", "quantifier": "any number of threads and every interleaving of the atomic steps of lock, trylock and unlock", "why_tests_cant": "schedules cannot be enumerated", "anchors": ["ecl_threads/src/lib/mutex_w32.cpp:Mutex::lock", "ecl_threads/src/lib/mutex_w32.cpp:Mutex::unlock"]}
{"id": "C215", "title": "The lock counter of a Windows mutex", "statement": "locks() equals the number of locks held plus the lock and unlock calls in progress; when no call is in progress it is the number of locks held. It does not count threads, as its documentation says.", "quantifier": "any number of threads and every interleaving, fewer than 2^32 locks and calls in progress", "why_tests_cant": "schedules cannot be enumerated", "anchors": ["ecl_threads/include/ecl/threads/mutex_w32.hpp:Mutex::locks", "ecl_threads/src/lib/mutex_w32.cpp"]}
{"id": "C216", "title": "trylock on Windows", "statement": "trylock returns true only with the mutex held; an uninterrupted trylock takes the mutex if nobody holds it or has a call in progress and refuses otherwise. It is not a proper try: it can block, refuse a free mutex, and refuse the holder of a recursive mutex.", "quantifier": "any number of threads and every interleaving", "why_tests_cant": "the window between the test and the lock is a few instructions wide", "anchors": ["ecl_threads/src/lib/mutex_w32.cpp:Mutex::trylock"]}
{"id": "C217", "title": "Starting a thread on Windows", "statement": "The answer of start tells whether the thread exists: no error exactly if it was created, and then it is the only one running. Refuted in debug builds for the default, unknown, normal and critical priorities, for which start throws although the thread runs; a throwing constructor loses the thread, its handle and its task.", "quantifier": "every history of constructions, starts, cancels, joins, destructions and thread progress; every priority and every answer of the system", "why_tests_cant": "histories and system failures cannot be enumerated", "anchors": ["ecl_threads/src/lib/thread_win.cpp:Thread::start", "ecl_threads/src/lib/thread_win.cpp:Thread::Thread"]}
{"id": "C218", "title": "One worker per thread object on Windows", "statement": "At most one of the threads started by an object is running at any time; a started object refuses another start, changing nothing, until it is cancelled. That includes a start that failed.", "quantifier": "every history of calls on the object and of thread progress, both build types", "why_tests_cant": "histories cannot be enumerated", "anchors": ["ecl_threads/src/lib/thread_win.cpp:Thread::start", "ecl_threads/src/lib/thread_win.cpp:Thread::cancel"]}
{"id": "C219", "title": "Joining, cancelling and destroying a thread on Windows", "statement": "No thread reads a task that was freed; join returns only when the thread no longer runs; cancelling and destroying leave no handle, task or running thread behind. Refuted: destroying detaches the thread (it is killed), isRunning is false once the function returned.", "quantifier": "every history of calls on the object and of thread progress", "why_tests_cant": "histories cannot be enumerated", "anchors": ["ecl_threads/src/lib/thread_win.cpp:Thread::cancel", "ecl_threads/src/lib/thread_win.cpp:Thread::join", "ecl_threads/include/ecl/threads/thread_win.hpp:Thread::isRunning"]}
{"id": "C220", "title": "Time stamps and stopwatches on Windows", "statement": "A new time stamp holds the time of the clock exactly and normalised; a stopwatch's elapsed() is the time since its construction. Refuted: restart() restarts it, split() returns the time since the last split (it is always zero).", "quantifier": "every clock and every history of calls", "why_tests_cant": "histories and clocks cannot be enumerated", "anchors": ["ecl_time/src/lib/timestamp_win.cpp:TimeStamp::stamp", "ecl_time/src/lib/stopwatch.cpp"]}
{"id": "C221", "title": "Sleeps on Windows ask for the duration given", "statement": "Every sleeper asks for the duration it was constructed with, a MilliSleep for the duration given last; calls with micro- and nanoseconds ask for the duration given exactly if it and that of the construction are below one second (refuted otherwise).", "quantifier": "every 32 bit duration and every history of calls", "why_tests_cant": "durations and histories cannot be enumerated", "anchors": ["ecl_time/src/lib/sleep_win.cpp"]}
{"id": "C222", "title": "Thread priorities on Windows", "statement": "A priority that was set is read back, real time levels as the first of them; setting succeeds exactly if the system agrees and the priority is neither default nor unknown, and otherwise changes nothing; a higher priority is a higher level. Refuted: every failure throws in a debug build.", "quantifier": "every priority, level and answer of the system", "why_tests_cant": "needs the operating system to refuse", "anchors": ["ecl_threads/src/lib/priority_win.cpp:set_priority", "ecl_threads/src/lib/priority_win.cpp:get_priority"]}
{"id": "C223", "title": "A serial port is set up as asked", "statement": "Opening a serial port sets rate, data bits, stop bits and parity as asked, with no flow control, line editing, echo, signals or output processing, whatever the object was used for before; one and a half stop bits are refused.", "quantifier": "every combination of settings, every timeout and every earlier state of the object", "why_tests_cant": "needs hardware and every earlier state", "anchors": ["ecl_devices/src/lib/serial_pos.cpp:Serial::open", "ecl_devices/include/ecl/devices/serial_parameters.hpp"]}
{"id": "C224", "title": "Bytes pass a serial port unchanged", "statement": "Between two ports with the same settings every byte that fits into the data bits is delivered unchanged, and bytes that fail the parity check are recognisable. Refuted: with eight data bits and a parity the highest bit is cleared; a byte that fails the check is delivered as a zero.", "quantifier": "every byte and every combination of settings", "why_tests_cant": "needs two machines, line errors and every setting", "anchors": ["ecl_devices/src/lib/serial_pos.cpp:Serial::open"]}
{"id": "C225", "title": "A serial port on Windows is set up as asked", "statement": "Opening a serial port on Windows sets rate, data bits, stop bits and parity as asked. Refuted: rates above 115200 and two stop bits read behind the end of a table, one and a half stop bits become two, the parity is not checked.", "quantifier": "every combination of settings and every earlier state of the port", "why_tests_cant": "out of range reads need not be visible", "anchors": ["ecl_devices/src/lib/serial_w32.cpp:Serial::open", "ecl_devices/include/ecl/devices/serial_parameters.hpp"]}
{"id": "C226", "title": "Closing a serial port on Windows frees it", "statement": "A serial port that says it is open can be used, and once closed or destroyed the port can be opened again. Refuted: no call ever closes the handle of a port that was opened, because the event thread forgets it first, so the port cannot be opened again while the process runs; each successful open also takes two event handles that are never closed.", "quantifier": "every history of opening, closing, destroying and events of the device, for every answer of the system", "why_tests_cant": "needs Windows, a serial device and every order of calls and events", "anchors": ["ecl_devices/src/lib/serial_w32.cpp:Serial::open", "ecl_devices/src/lib/serial_w32.cpp:Serial::close", "ecl_devices/src/lib/serial_w32.cpp:event_proc"]}
{"id": "C227", "title": "Closing a serial port on Windows returns", "statement": "close() returns whatever the device does, and constructing a port opens it. Refuted: closing an open port returns only after the event thread's wait for a byte has ended; the opening constructor reads a flag that was never written. Closing a port that is not open returns and changes nothing.", "quantifier": "every history of opening, closing, destroying and events of the device", "why_tests_cant": "a silent device and uninitialised memory cannot be excluded by a test", "anchors": ["ecl_devices/src/lib/serial_w32.cpp:Serial::close", "ecl_devices/src/lib/serial_w32.cpp:Serial::Serial"]}
{"id": "C228", "title": "A function object does what its function does", "statement": "Calling a function object, or any stack of copies and references around it, has the effects and the result of calling the function, member function or functor it was made from, with the same arguments and the bound ones, call after call.", "quantifier": "every program, kind of function object, nesting of wrappers, arguments, state of memory and number of calls", "why_tests_cant": "tests try a few nestings of a few functions", "anchors": ["ecl_utilities/include/ecl/utilities/function_objects.hpp:NullaryFreeFunction", "ecl_utilities/include/ecl/utilities/function_objects.hpp:UnaryFunctionCopy", "ecl_utilities/include/ecl/utilities/function_objects.hpp:NullaryFunctionReference"]}
{"id": "C229", "title": "Copies own their state, references share it", "statement": "All references to one function object see and change its one state; a copy changes only its own state; a copy may outlive the original and a reference may not. That references are always safe is refuted.", "quantifier": "every sequence of calls through references and copies, and every program", "why_tests_cant": "tests do not call through dead references", "anchors": ["ecl_utilities/include/ecl/utilities/function_objects.hpp:NullaryFunctionCopy", "ecl_utilities/include/ecl/utilities/function_objects.hpp:NullaryFunctionReference", "ecl_utilities/include/ecl/utilities/references.hpp:ref"]}
{"id": "C230", "title": "A bound argument is what was bound", "statement": "Binding a value to a function that takes a value keeps it, also from a temporary; binding an object to a function that takes a reference passes that object. A temporary or a converted value bound to a const reference is dead when the function object is called: refuted there, although the source says temporaries pass through unscathed. Binding a temporary to a reference does not compile.", "quantifier": "every program, type, value and later state of memory", "why_tests_cant": "reading a dead temporary often gives the right value in a test", "anchors": ["ecl_utilities/include/ecl/utilities/function_objects.hpp:generateFunctionObject", "ecl_utilities/include/ecl/utilities/function_objects.hpp:BoundUnaryFreeFunction"]}
{"id": "C231", "title": "Any function can be made into a function object", "statement": "Binding an object to a member function with arguments works if the function returns void. Refuted for all other member functions: the bound classes do not compile; ReferenceWrapper::pointer() and UnaryFunctionReference for void do not compile either, the latter unless the wrapper's class is named.", "quantifier": "every member function, object and argument", "why_tests_cant": "templates that are not instantiated by a test are not compiled", "anchors": ["ecl_utilities/include/ecl/utilities/function_objects.hpp:BoundUnaryMemberFunction", "ecl_utilities/include/ecl/utilities/function_objects.hpp:PartiallyBoundUnaryMemberFunction", "ecl_utilities/include/ecl/utilities/references.hpp:ReferenceWrapper::pointer"]}
{"id": "C232", "title": "A Parameter returns the value last given", "statement": "After any sequence of assignments, calls and reads, each read of a Parameter returns the value last given to it, or the one it was constructed with.", "quantifier": "every type, first value and sequence of operations", "why_tests_cant": "histories are unbounded", "anchors": ["ecl_utilities/include/ecl/utilities/parameter.hpp:Parameter"]}
{"id": "C233", "title": "There is one instance of a Singleton", "statement": "However many threads ask for the instance, at most one is constructed, no thread gets it before it is constructed, and a thread that waits for it can go on once the thread that constructs it is done or has failed.", "quantifier": "every interleaving of any number of threads, with constructors that may throw", "why_tests_cant": "schedules cannot be enumerated by tests", "anchors": ["ecl_utilities/include/ecl/utilities/singleton.hpp:Singleton::instance"]}
{"id": "C234", "title": "The yaw programs are inverse to each other", "statement": "For every unit quaternion about z, the program prints the angle of its rotation, without complaint, in radians and degrees; a yaw within two turns is returned by converting it there and back. Refuted: quaternions that rotate about x alone are not complained about, and the complaint is printed only if both x and y are nonzero. For |w| > 1 the result is not a number.", "quantifier": "every real yaw and quaternion", "why_tests_cant": "the claim is about all real numbers", "anchors": ["ecl_core_apps/src/utils/yaw2quaternion.cpp:main", "ecl_core_apps/src/utils/quaternion2yaw.cpp:main"]}
{"id": "C235", "title": "The terminal programs send everything that is typed", "statement": "What the serial and socket programs write is, piece by piece, exactly what was typed, in pieces of at most 79 bytes, and the loop ends with the input. Refuted if the input contains null bytes, after which the rest of the line is lost; never more is sent than was typed.", "quantifier": "every input", "why_tests_cant": "inputs are unbounded; the buffer of 80 bytes matters for long lines only", "anchors": ["ecl_core_apps/src/utils/serial.cpp:Writer::loop", "ecl_core_apps/src/utils/socket_client.cpp:Writer::loop", "ecl_core_apps/src/utils/socket_server.cpp:Writer::loop"]}
{"id": "C236", "title": "The hex program sends the bytes that are typed", "statement": "A line of hexadecimal numbers is sent as those bytes. Refuted for every line that ends in a newline: the newline is an illegal character, the program terminates (debug) or uses an empty vector (release). It holds for a last line without a newline. Input before the constructor is through uses a converter that does not exist yet.", "quantifier": "every line, build and schedule of the constructor", "why_tests_cant": "the race shows only under some schedules", "anchors": ["ecl_core_apps/src/utils/hex.cpp:Writer::run"]}
{"id": "C237", "title": "Time stamps are shown before each line", "statement": "With time stamps on, the socket readers show the time before the first character of each line, and every character that arrived in order. Refuted if a line is empty: the next line has no stamp. With hexadecimal output every character is stamped with the time of the first.", "quantifier": "every sequence of arrivals, pauses and options", "why_tests_cant": "arrivals are unbounded", "anchors": ["ecl_core_apps/src/utils/socket_client.cpp:Reader::loop", "ecl_core_apps/src/utils/socket_server.cpp:Reader::loop"]}
{"id": "C238", "title": "The serial readers show what was read", "statement": "The serial programs show the bytes that read() returned, if it returned any number up to 255. Refuted for a failed read: -1 is stored in an unsigned long and the loop runs beyond the buffer.", "quantifier": "every result of read", "why_tests_cant": "a failing device is hard to provoke", "anchors": ["ecl_core_apps/src/utils/serial.cpp:Reader::run", "ecl_core_apps/src/utils/hex.cpp:Reader::run"]}
{"id": "C239", "title": "Serial ports on Windows deliver bytes in order", "statement": "What has been read, followed by what has not been read yet, is what arrived; the number returned is that of the bytes stored and at most the number asked for; as many as remaining() says can be read at once. Refuted if waiting for the result fails: the operation goes on and takes bytes that no read returns.", "quantifier": "every history of arrivals, reads and writes, and every answer of the system", "why_tests_cant": "the system's answers cannot be enumerated by tests", "anchors": ["ecl_devices/src/lib/serial_w32.cpp:Serial::read", "ecl_devices/src/lib/serial_w32.cpp:Serial::remaining"]}
{"id": "C240", "title": "Serial ports on Windows report errors", "statement": "A write returns the number of the bytes sent, which are the first ones of the buffer; in debug builds it throws if that is none. Refuted: a failed read is not told from an empty one; an empty write throws in debug builds; a refused write is not told from an empty one in release builds.", "quantifier": "every buffer and every answer of the system", "why_tests_cant": "failures of the system are hard to provoke", "anchors": ["ecl_devices/src/lib/serial_w32.cpp:Serial::read", "ecl_devices/src/lib/serial_w32.cpp:Serial::write"]}
{"id": "C241", "title": "Time-outs of serial ports on Windows are the given ones", "statement": "block(t) makes read wait for the first byte for t milliseconds, for 0 < t < 2^31; unblock() makes it return at once. Refuted: block(0) is accepted and sets a combination the system does not describe; negative times throw in debug builds only and become weeks in release builds.", "quantifier": "every time-out and build", "why_tests_cant": "waiting for weeks cannot be tested", "anchors": ["ecl_devices/src/lib/serial_w32.cpp:Serial::block", "ecl_devices/src/lib/serial_w32.cpp:Serial::unblock"]}
{"id": "C242", "title": "Texts in the DocBook description are those of the program", "statement": "For every ID and description the substitution ends and leaves no < or >; a text without & is read back from the document as it was, an ID without its brackets. Refuted: & is not escaped, so that a description that contains &lt; is read back as another; name, message and version are not escaped at all.", "quantifier": "every text", "why_tests_cant": "texts are unbounded, and the substitution loop has no bound", "anchors": ["ecl_command_line/include/ecl/command_line/docbook_output.hpp:DocBookOutput::substituteSpecialChars", "ecl_command_line/include/ecl/command_line/docbook_output.hpp:DocBookOutput::removeChar", "ecl_command_line/include/ecl/command_line/docbook_output.hpp:DocBookOutput::printShortArg", "ecl_command_line/include/ecl/command_line/docbook_output.hpp:DocBookOutput::printLongArg"]}
{"id": "C243", "title": "The DocBook description is well formed and complete", "statement": "For every command line all tags are closed in order, every argument is listed once in the synopsis and described once in the options, those in exclusive groups first. Of exclusive alternatives exactly all but the last are followed by OR if there are as many groups as members in the group; refuted in general, because the number of groups is used for the number of members.", "quantifier": "every set of arguments and groups", "why_tests_cant": "sets of arguments are unbounded", "anchors": ["ecl_command_line/include/ecl/command_line/docbook_output.hpp:DocBookOutput::usage"]}
{"id": "C244", "title": "error() of an output file tells how the last call went", "statement": "If a call returns, it returns false or -1 exactly if error() then names an error, and otherwise returns true or the number of bytes with error() NoError; exceptions are never thrown by builds without them and, with NDEBUG, only by opening and closing. Refuted for calls that throw: error() is what it was before.", "quantifier": "every build, call, answer of the system and state of the object", "why_tests_cant": "depends on failures of the system after any history", "anchors": ["ecl_devices/src/lib/ofile_pos.cpp:OFile::open", "ecl_devices/src/lib/ofile_pos.cpp:OFile::close", "ecl_devices/src/lib/ofile_pos.cpp:OFile::write", "ecl_devices/src/lib/ofile_pos.cpp:OFile::flush", "ecl_devices/src/lib/ofile_w32.cpp:OFile"]}
{"id": "C245", "title": "What an output file reports as written is in the file its filename() names", "statement": "For every history in which the system never takes part of a block and never refuses to open a file while another is open, the bytes taken are exactly those the writes reported, each under the name filename() had. Refuted in general: after a failed open of a second file writes go to the first under the name of the second; a block partly written is reported as not written; writing nothing is an error, and undefined for an empty container.", "quantifier": "every build and history of calls and answers of the system", "why_tests_cant": "histories are unbounded", "anchors": ["ecl_devices/src/lib/ofile_pos.cpp:OFile::open", "ecl_devices/src/lib/ofile_pos.cpp:OFile::write", "ecl_devices/include/ecl/devices/ofile_pos.hpp:OFile::write"]}
{"id": "C246", "title": "Output files can be closed and destroyed whatever the system does", "statement": "No history in which fclose never fails and no empty container is written meets undefined behaviour, destruction included. Refuted: after a close() that fails the object counts as open and destroying it or closing it again closes the stream a second time; flush() of a file that is not open reports success.", "quantifier": "every build and history of calls and answers of the system", "why_tests_cant": "histories are unbounded and failures of fclose are rare", "anchors": ["ecl_devices/src/lib/ofile_pos.cpp:OFile::close", "ecl_devices/src/lib/ofile_pos.cpp:OFile::~OFile", "ecl_devices/src/lib/ofile_pos.cpp:OFile::flush"]}
{"id": "C247", "title": "A snoozer that has fallen behind", "statement": "A snoozer that does not validate reads the clock exactly once per call and sleeps to the next deadline if that lies ahead; one that validates reads it twice or three times if the readings lie less than a period apart. Refuted: without validation a snoozer that has fallen behind does not return immediately to catch up but sleeps for a period from now; with validation a call has no bounded depth, since a reading a period late is answered by a deeper call.", "quantifier": "every snoozer and sequence of clock readings", "why_tests_cant": "clock readings are an unbounded input that a test cannot choose", "anchors": ["ecl_time/src/lib/snooze_pos.cpp:Snooze::operator()", "ecl_time/src/lib/snooze_pos.cpp:Snooze::validate", "ecl_time/src/lib/snooze_win.cpp:Snooze"]}
{"id": "C248", "title": "A file stream writes what is inserted and fail() tells whether that went well", "statement": "While the system takes everything, a file opened by a file stream holds exactly the texts of the items inserted, in order, nothing is thrown and fail() is false (in debug builds for texts that are not empty); nothing reaches a file that is not open. Refuted: no insertion ever changes fail(), so a failed write is not told and an old error stays; in debug builds inserting an empty text throws.", "quantifier": "every build, sequence of items and pattern of failing writes", "why_tests_cant": "sequences and failures are unbounded", "anchors": ["ecl_streams/include/ecl/streams/text_streams/output_text_stream.hpp:OutputTextStream::operator<<", "ecl_streams/include/ecl/streams/text_streams/base_text_stream.hpp:BaseTextStream::fail", "ecl_streams/include/ecl/streams/manipulators/end_of_line.hpp:EndOfLine", "ecl_streams/include/ecl/streams/manipulators/clear_screen.hpp:ClearScreen"]}
{"id": "C249", "title": "A stream whose device could not be opened says so", "statement": "Constructing a stream on a file, shared file or connection throws the error of the device exactly if the device could not be opened, or without exceptions leaves that error in the stream exactly then. Refuted for servers without exceptions, whose streams never tell, and for serial ports whose device file vanishes during construction.", "quantifier": "every build and answer of the system", "why_tests_cant": "failures of the system cannot all be provoked", "anchors": ["ecl_streams/include/ecl/streams/file_streams.hpp:OFileStream", "ecl_streams/include/ecl/streams/shared_file_stream.hpp:SharedFileStream", "ecl_streams/include/ecl/streams/serial_stream.hpp:SerialStream", "ecl_streams/include/ecl/streams/socket_streams.hpp:SocketClientStream", "ecl_streams/include/ecl/streams/socket_streams.hpp:SocketServerStream"]}
{"id": "C250", "title": "A printed triangle of Pascal shows the binomials", "statement": "Printing Pascal's triangle of degree n gives lines whose words are the decimal numerals of the binomials, line i being diagonal i; up to degree 22, and at 25, all numbers stand in columns. Refuted for columns at exactly all other degrees, where a number is wider than its column.", "quantifier": "every degree at which the entries fit an int, both builds, every state of the formatter's static buffers", "why_tests_cant": "degrees and earlier formatting form an unbounded input", "anchors": ["ecl_geometry/include/ecl/geometry/pascals_triangle.hpp:operator<<", "ecl_formatters/include/ecl/formatters/number.hpp:Format<int>"]}
{"id": "C251", "title": "Printed polynomials and splines show their coefficients", "statement": "A printed polynomial consists of the coefficients to two decimals with the powers of x, in order, so that two of one degree print alike only if they agree to two decimals; cubic splines print a line per polynomial and smoothed linear splines segments and corners in turn. Refuted: coefficients of more than 26 digits lose their last digits, so that different ones print alike; printing a smoothed spline that was only default constructed throws in debug builds and is undefined in release builds.", "quantifier": "every list of coefficients, every spline, both builds", "why_tests_cant": "lists are unbounded", "anchors": ["ecl_geometry/include/ecl/geometry/polynomial.hpp:operator<<", "ecl_geometry/include/ecl/geometry/cubic_spline.hpp:operator<<", "ecl_geometry/include/ecl/geometry/smooth_linear_spline.hpp:operator<<"]}
{"id": "C252", "title": "The brackets of a printed tension function match", "statement": "In the text of a tension function every bracket is closed by one of its kind. Refuted if z_0 is not zero and z_f is: then a brace stays open and the divisor is missing.", "quantifier": "every tension function", "why_tests_cant": "coefficients are unbounded", "anchors": ["ecl_geometry/include/ecl/geometry/tension_function.hpp:operator<<"]}
{"id": "C253", "title": "Printed arrays, stencils, points and poses show their elements in order", "statement": "The words of a printed array are a bracket, its elements in order and a bracket; a stencil inside its array prints that part; points print their coordinates; a planar pose prints position and heading to three decimals; a spatial pose prints three lines with rows of the rotation and elements of the translation. Refuted for stencils: some can be made that reach outside the array, and printing those reads outside.", "quantifier": "every array, stencil, point and pose", "why_tests_cant": "contents are unbounded", "anchors": ["ecl_containers/include/ecl/containers/array/array_mem_check.hpp:operator<<", "ecl_containers/include/ecl/containers/stencil/stencil.hpp:operator<<", "ecl_geometry/include/ecl/geometry/legacy_pose2d.hpp:operator<<", "ecl_geometry/include/ecl/geometry/cartesian_point.hpp:operator<<", "ecl_geometry/include/ecl/geometry/legacy_pose3d.hpp:operator<<"]}
{"id": "C254", "title": "Odometry accessors read what was last set", "statement": "After any number of sets every coordinate of an odometry has the value last given to it; pose, twist and position are the parts the accessors read; setting a coordinate of a part sets it in the whole; a pointer to a trajectory is empty if null or without columns; a vector of odometries becomes a trajectory with its elements as columns.", "quantifier": "every history of sets, every vector", "why_tests_cant": "histories and vectors are unbounded", "anchors": ["ecl_geometry/include/ecl/geometry/odometry_helper.hpp", "ecl_geometry/src/lib/odometry_helper.cpp"]}
{"id": "C255", "title": "Threads report failures of the system", "statement": "Whatever the system answers to starting, joining or cancelling a thread, a debug build throws on every failure and on nothing else, and a release build returns from start() the code the debug build throws. The flag thrown by cancel() differs from that of the table written for it only for numbers the call does not return.", "quantifier": "every number the system can return", "why_tests_cant": "failures cannot all be provoked", "anchors": ["ecl_threads/src/lib/thread_pos.cpp:Thread::start", "ecl_threads/src/lib/thread_pos.cpp:Thread::join", "ecl_threads/src/lib/thread_pos.cpp:Thread::cancel", "ecl_threads/include/ecl/threads/thread_exceptions_pos.hpp"]}
{"id": "C256", "title": "A mutex is said to be locked only if it is", "statement": "In debug builds trylock answers true exactly if it locked, false exactly if the mutex was held or time ran out, and throws otherwise; for durations that are not negative both builds answer whether the mutex was free; debug builds throw on every failed lock, unlock and construction. Refuted in release builds: every other failure counts as locked, for example a try for a negative duration, and a constructor that could not initialise the mutex returns.", "quantifier": "every number the system can return, every duration below a second", "why_tests_cant": "failures cannot all be provoked", "anchors": ["ecl_threads/src/lib/mutex_pos.cpp:Mutex::trylock", "ecl_threads/src/lib/mutex_pos.cpp:Mutex::lock", "ecl_threads/src/lib/mutex_pos.cpp:Mutex::Mutex", "ecl_threads/include/ecl/threads/mutex_pos.hpp"]}
{"id": "C257", "title": "Semaphores, clocks and shared memory name the failure of the system", "statement": "A semaphore is said to be locked exactly if it was; opening and mapping shared memory throw exactly on failures; in debug builds reading clocks, sleeping and constructing semaphores do too, with a flag that follows from the number returned, while release builds are silent. Refuted for mapping: the number is read after closing and unlinking, so that a failure of those replaces it.", "quantifier": "every number the system can return", "why_tests_cant": "failures cannot all be provoked", "anchors": ["ecl_ipc/src/lib/semaphore_pos.cpp:Semaphore", "ecl_ipc/src/lib/shared_memory_pos.cpp:SharedMemoryManager", "ecl_time/src/lib/timestamp_pos.cpp:TimeStamp", "ecl_time/src/lib/sleep_pos.cpp"]}
{"id": "C258", "title": "Axes of a covariance ellipsoid in space", "statement": "For every symmetric positive definite 3x3 covariance, whatever unit eigenvectors the solver finds: the lengths are positive, axis i is a unit eigenvector whose eigenvalue is the square of length i, and the axes form a right-handed system; with three different eigenvalues the axes are perpendicular and together with the lengths rebuild the covariance. Refuted for equal eigenvalues: a general solver may find axes that are not perpendicular. A covariance with a negative eigenvalue gives values that are not finite.", "quantifier": "every matrix and every answer a solver may give", "why_tests_cant": "real matrices and solver answers are unbounded", "anchors": ["ecl_statistics/src/lib/covariance_ellipsoid.cpp:CovarianceEllipsoid<float,3>::compute", "ecl_statistics/include/ecl/statistics/covariance_ellipsoid.hpp"]}
{"id": "C259", "title": "The synopsis shows every argument", "statement": "For a program name of at most 72 characters the one-line usage is printed without failure, no line is wider than 75 columns, and apart from blanks it holds the program's name, every exclusive group in braces with bars between its members, then every other argument, in order. However arguments are declared, the built-in switches stand as [--] [--version] [-h] between the labelled and the unlabelled arguments. Refuted for longer names without a separator: the string is read outside its bounds.", "quantifier": "every program name, every set of declarations", "why_tests_cant": "names, arguments and groups are unbounded", "anchors": ["ecl_command_line/include/ecl/command_line/std_output.hpp:StdOutput::_shortUsage", "ecl_command_line/include/ecl/command_line/cmd_line.hpp:CmdLine::_constructor"]}
{"id": "C260", "title": "How arguments are named to the user", "statement": "The name shown for a labelled argument is a word it accepts, in brackets exactly if it may be left out; labelled arguments shown alike have the same flag or, without flags, the same name; the name in an error message determines the argument. Refuted: optional unlabelled arguments look required, and repeatable switches are shown with a value they do not take.", "quantifier": "every pair of declarations, every type description", "why_tests_cant": "declarations are unbounded", "anchors": ["ecl_command_line/include/ecl/command_line/arg.hpp:Arg::shortID", "ecl_command_line/include/ecl/command_line/arg.hpp:Arg::toString", "ecl_command_line/include/ecl/command_line/multi_switch_arg.hpp:MultiSwitchArg::shortID", "ecl_command_line/include/ecl/command_line/unlabeled_value_arg.hpp:UnlabeledValueArg::shortID"]}
{"id": "C261", "title": "The complete usage describes every argument", "statement": "If every long form, description and the message fit a line or have a separator in their first line, the complete usage is printed without failure within 75 columns and holds, blanks apart, for every group its members separated by OR, every other argument with its description, and the message, in order. A labelled argument with a flag always meets the condition for its long form. Refuted for a message of 73 letters: nothing can be printed. A failure prints the argument and the error first, then the short usage with a hint to --help if help and version exist and the complete usage otherwise; the version text is the program's name and its version.", "quantifier": "every set of declarations and every message", "why_tests_cant": "texts are unbounded", "anchors": ["ecl_command_line/include/ecl/command_line/std_output.hpp:StdOutput::_longUsage", "ecl_command_line/include/ecl/command_line/arg.hpp:Arg::longID", "ecl_command_line/include/ecl/command_line/std_output.hpp:StdOutput::failure", "ecl_command_line/include/ecl/command_line/std_output.hpp:StdOutput::version"]}
{"id": "C262", "title": "Allowed values are listed", "statement": "The type shown for an argument restricted to a list of values is those values in order separated by bars, so that cutting at the bars gives every one of them if no value holds a bar itself. Refuted otherwise: two different lists look the same.", "quantifier": "every list of values", "why_tests_cant": "lists and values are unbounded", "anchors": ["ecl_command_line/include/ecl/command_line/values_constraint.hpp:ValuesConstraint"]}
{"id": "C263", "title": "Constants are the nearest numbers", "statement": "pi, two_pi, pi_2 and pi_4 are the doubles, and their _f variants the floats, nearest to the numbers they are named after: no other number of that many binary digits is as near. The doubles lie below and the floats above the exact values; multiples are exact multiples of one another.", "quantifier": "every number with 53 or 24 binary digits", "why_tests_cant": "the exact values are irrational and the numbers compared with are unbounded", "anchors": ["ecl_math/include/ecl/math/constants.hpp:pi", "ecl_math/include/ecl/math/constants.hpp:two_pi_f"]}
{"id": "C264", "title": "Buffers of character string converters", "statement": "Whatever converters to character strings a program creates (with memory of their own or over arrays of the caller), uses and destroys, in whatever interleaving: a string read before the next conversion of its converter (and before the destruction of a converter that owns the memory) is the decimal text of the number converted, and once the converters are destroyed no memory of theirs is left. A copy of a converter frees the buffer again and overwrites its strings; assignment loses a buffer. Lack of memory is reported as an error.", "quantifier": "every sequence of creations, conversions, reads and destructions; every integral type, number and buffer size", "why_tests_cant": "sequences of operations on any number of converters are unbounded; overwritten and freed texts often still look right", "anchors": ["ecl_converters/include/ecl/converters/char_strings.hpp:CharStringBuffer", "ecl_converters/include/ecl/converters/char_strings.hpp:Converter<char*,void>"]}
{"id": "C265", "title": "Priority diagnostics", "statement": "The priority diagnostics show the limits of real-time priorities as decimal numbers, the scheduler and, in the last line, the level get_priority answers; the level can be read off. After a level was set (with the privilege to do so) the report names that level. Where the system has no round robin scheduling or does not tell its scheduler, the build decides between an exception and a sentence, and get_priority answers Unknown.", "quantifier": "every answer of the system, every build and every level", "why_tests_cant": "the answers depend on the machine, its limits and the privileges of the process", "anchors": ["ecl_threads/src/lib/priority_pos.cpp:print_priority_diagnostics", "ecl_threads/src/lib/priority_pos.cpp:get_priority"]}
{"id": "C266", "title": "Iterating over PushAndPop and constructing it", "statement": "Iterating over a PushAndPop visits its elements in order. In the code it visits the cells of the storage: all elements are among them, one after another going round, and they come first and in order as long as there were only pushes and room for them. A queue constructed without storage is empty and must be resized before use; one constructed with a value is an empty queue. Taking from an empty queue is refused.", "quantifier": "every history of operations, every capacity and value", "why_tests_cant": "histories are unbounded; small ones have not gone round yet and look right", "anchors": ["ecl_containers/include/ecl/containers/push_and_pop/push_and_pop_dynamic.hpp:begin", "ecl_containers/include/ecl/containers/push_and_pop/push_and_pop_dynamic.hpp:PushAndPop"]}
{"id": "C267", "title": "Messages about wrong lines and declarations", "statement": "When parsing fails the exception handed to the output says what is wrong: its kind, the reason, the argument concerned as declared, the value as it was typed, and for a word that matches nothing that word. A refused declaration is reported with a reason that is true of it. The text returned by what() remains that exception's text. In the code the unmatched word is shown with the characters of known switches replaced by asterisks, the word \"undefined\" is not shown, missing arguments are not named, an argument clashing by description is reported as having the same name, and every call of what() invalidates the texts returned by earlier calls.", "quantifier": "every parser, state, line and declaration, every sequence of what() calls", "why_tests_cant": "lines, declarations and sequences of calls are unbounded", "anchors": ["ecl_command_line/include/ecl/command_line/arg_exception.hpp:ArgException", "ecl_command_line/include/ecl/command_line/cmd_line.hpp:parse", "ecl_command_line/include/ecl/command_line/arg.hpp:Arg", "ecl_command_line/include/ecl/command_line/optional_unlabeled_tracker.hpp:check"]}
