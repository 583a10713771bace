{
 "C03": "REFUTED as stated: everything after the first padded block is ignored (\"QQ==QQ==\" decodes to \"A\"). Proved: exact acceptance for input without '=', the exact constraints on accepted padded input, and that decoding never reads outside its argument.",
 "C10": "REFUTED as stated: decoder::byte does not skip to the byte boundary as encoder::byte does, so a raw byte written after an unaligned bit code is read from the wrong place. Proved for raw bytes written on byte boundaries.",
 "C100": "partial: proved that join() waits for all threads under every schedule and every order of calls (C100_join), and for an owner that joins before it creates, runs or destroys again (and nobody else opening descriptors in between) that no more threads serve than asked for, that connections and closed descriptors are the server's own, that nothing is undefined while all threads can be made, and that after stop() every thread ends within four steps and join() returns. False of the code: join() after a run() that could not make its threads follows a null pointer; a server stopped but not joined must not be destroyed; join() does not return while a silent client keeps a connection; run() without join() brings old threads back; a thread that has read the descriptor may take a stranger's connection; two stop()s at a time may close somebody else's descriptor; serv() on a running server returns false but has replaced the port; run(-1) throws and stays running. The states of a thread are between its reads of shared data; the closing of the connections themselves is C58 and Fd_Model.",
 "C101": "partial: rows are proved for all histories (C101_rows, C101_fetch); execute() is proved to run the query prepared latest on the connection (C101_execute), which is its own if no other was prepared since (C101_own_partial); run() runs its own (C101_run); the settings are proved for words, and for the password exactly characterised (C101_connect). False of the code: all statements share the unnamed prepared statement, so a statement prepared before begin_transaction() runs BEGIN when executed, and ROLLBACK after the connection object is gone; values in the connection string are not quoted, so a password may name another host and an empty host swallows the port; a row that cannot be read is never passed (C101_bad_row). The server is any function of its state; libpq's reading of connection strings is specified after its manual. While the server can be reached, a lost session costs one call (C101_restored).",
 "C102": "Proved for every first service whose types are four-byte integers, char, double, strings, vectors, maps with ordered keys and classes that name themselves (nested in any way), with names that Haskell accepts and tells apart, against servers of version 1, for every sequence of proper calls whose results hold no negative integers, NaN or -0. Refuted: other versions; negative results come as large positive numbers; integers of other sizes and floats put the connection out of step or hang; characters above 255 lose bits; bool, stream, classes as map keys and classes without members make the module not compile, as do many pairs of names; services after the first are left out.",
 "C103": "Proved for the documented command line with PHP and Haskell when the compiler, the shell and the file system go along, for headers whose name has its suffix only at the end; and, for all command lines and all courses of events, which files can be touched at all. Refuted: files of the user are deleted by the languages that are not implemented; status 0 after failures; a file left after a failed compilation; options with two dashes or blanks; suffixes inside the name; undefined behaviour without temporary files and for Haskell without services.",
 "C104": "Partial: values_partial is for programs that store new documents and clones only; values_refuted, merge_refuted and finite_refuted show that the claim is false of the code for programs that copy.",
 "C105": "C105_place_partial: the error comes with reading some character c of the text; the place is that of c or of what follows c; if c is not the last character, every text that begins like this fails with the same place, no RFC 8259 text begins like this (texts below 2^28-2 bytes), and in texts without quotation marks the place is that of c. C105_same_outcome: counting does not change the outcome, so C68 and C69 apply. Refuted: in strings the place is one too far (C105_place_refuted: wrong escapes; C105_line_refuted: a line feed in a string is reported in the next line). Missing: at the very end of the text (numbers out of range, an exponent without digits) nothing is said about continuations; end_of_data carries no place.",
 "C106": "C106_orderly: in every reached state each thread takes its connections in turn, each CGI object works on one at a time and for one thread only, each connection is worked on at most once. C106_closes: an accepted connection is closed after at most four more turns of its thread. C106_run: run(false) returns and has started thread_num threads (C106_started) if clones and threads can be made; C106_run_nothing: no socket, negative number. C106_safe_partial: if clones and threads can be made no thread uses a destroyed server. Refuted: a failing second run() followed by the destructor lets a thread begin in a destroyed server (C106_safe_refuted); join(), the destructor and run(true) never return once a thread runs (C106_join_refuted, C106_sync_refuted: the threads have no end); a run() that throws leaves threads serving (C106_failed_start_refuted); a second run() doubles the threads (C106_twice_refuted); an exception that is not a std::exception ends the process (C106_survives_refuted).",
 "C107": "C107_single, C107_same: for all schedules, one object at most, the same for all; exceptions of the constructor are passed on once. C107_ends, C107_enters: a call that has the mutex ends within three own steps, one that waits gets it when it is free. C107_safe_partial: nothing undefined while the static mutex exists and can be locked. Refuted: a call before the static mutex is made or after it is gone (C107_before_refuted, C107_after_refuted), a mutex that cannot be locked (C107_lock_refuted: the function ends without return), a constructor that calls instance() waits for ever (C107_recursion_refuted).",
 "C108": "C108_once_partial, C108_released_partial, C108_safe_partial: for all sequences of operations in which no address is handed over twice, each object is held by one scoped_ptr and deleted once. Refuted without the guard: reset(get()) deletes what it keeps (C108_reset_refuted); two scoped_ptrs with one address (C108_two_refuted). C108_bool: the tests.",
 "C109": "C109_socket_partial: 0 <= q < 2^31 is handed over well formed and right up to a microsecond; C109_deadline_partial: deadlines are right up to three microseconds until 2106. C109_refused: negative times are refused by stream_socket and server_socket. Refuted: mprpc sockets take negative times as waiting for ever or are undefined (C109_mprpc_negative_refuted); times below a microsecond wait for ever (C109_tiny_refuted); long times, infinity and NaN are undefined (C109_long_refuted, C109_deadline_refuted).",
 "C110": "C110_tries: for any resolver; C110_connect_partial: for the library's, unless the host has a NUL or the address is 255.255.255.255; C110_unknown, C110_accept; C110_resolver_partial: the resolver set last is used, if the mutex can be locked. Refuted: 255.255.255.255 is dropped (C110_broadcast_refuted), a host is cut at a NUL (C110_nul_refuted), a lock that fails loses the resolver or follows a null pointer (C110_lock_refuted).",
 "C111": "kept holds exactly for doubles that are nearest to a number of at most six digits (iff); precision_refuted: other doubles change; special_refuted: infinities and NaN are not read back; rest_refuted: following text is ignored or makes the number unreadable (12euro); to_int_partial: doubles that are integers below 10^6, to_int_refuted: 1e6 becomes 1. operator<< and operator>> of libstdc++ in the C locale are modelled by their documented conversions. C111_stable: a second trip changes nothing; C111_digits: texts of at most six digits come back as the same number.",
 "C112": "C112_unit and C112_gaussian are full; C112_below_partial holds for a > 2^-1022 and C112_below_refuted shows that it fails for every smaller positive a; C112_between_partial gives [a,b] instead of [a,b), which C112_between_refuted shows to be false; C112_wide_refuted for differences that overflow. The values sqrt, log, sin and cos give are not modelled: r1 and r2 are arbitrary functions of the two draws.",
 "C113": "C113_value_partial and C113_compare_partial: before 2^33 seconds; C113_late_refuted shows that the bound is sharp. C113_order: all normalised times. C113_elapsed_partial: the clock has not been set back; C113_back_refuted says what happens otherwise, for every pair of times.",
 "C114": "C114_answers_partial for every schedule (sizes below 2^31; a larger one is converted to int); C114_order_refuted: for the schedule given there is no order with exact answers. Locking is taken as never failing, as in C53.",
 "C115": "Refuted where the text is rounded twice, for the sign of zero and for unsigned integers from 2^63 on. Everything else is proved for all floats; conversion of too large numbers follows IEEE 754.",
 "C116": "C locale, width 0, skipws set. Blanks are the six ASCII ones; U+3000 is part of a word. Code points above 0x10FFFF are written as nothing (C05).",
 "C117": "Partial: one thread; the control blocks are those of libstdc++ as documented; the destructor of the object does nothing with pointers. C117_once_partial: given once, deleted at most once, there exactly while some shared_ptr points to it. C117_use_count, C117_released, C117_values (what every pointer points to after each operation), C117_lock, C117_lock_empty, C117_this. C117_safe_partial: undefined only for null dereferenced and shared_from_this of a dead object. False if one address is handed over twice: C117_twice_refuted.",
 "C118": "Partial: kept exactly for floats that are nearest to a number of at most six digits (C118_kept, iff); C118_precision_refuted: others change; C118_special_refuted: infinities and NaN are not read back; C118_to_double_refuted: lexical_cast from float to double goes through six digits, 16777216 becomes 16777200. C118_text, C118_read, C118_sound, C118_back, C118_stable, C118_digits, C118_to_double, C118_to_float are for all floats. operator<< and operator>> of libstdc++ in the C locale, with strtof correctly rounding.",
 "C119": "Proved for one thread; that other threads are kept out meanwhile is C49 and C55. An empty unique_ptr and an unlock() that throws end the program (examples).",
 "C12": "Proved for every type except std::set/unordered_set of a bare arithmetic type; REFUTED there: the reader inserts an uninitialised variable after the short read (set.h:52-54).",
 "C120": "Partial: for texts without NUL and, for telling the parts, file names without colon. False otherwise (witnesses): a message after a NUL is not shown; with colons in the name two errors can have the same text.",
 "C121": "Proved for programs of any length while the system does what it is asked (C121_history_partial), transposing by name also onto itself (C121_transpose_partial), and that other files never change (C121_others, any failures). False of the code: rows appended after a failed open vanish silently (C121_open_failed_refuted), row_num() of a closed writer dereferences a null pointer (C121_row_num_refuted), a writer destroyed while open leaves a missing or stale offset file (C121_destructor_refuted), a missing data file opens with 0 (C121_missing_data_refuted) and transposes to an empty matrix with 0 (C121_transpose_refuted), a full disk is not noticed (C121_full_disk_refuted), and matrix_transpose empties its destination before returning -1 (C121_statistics_refuted).",
 "C122": "Partial: proved in full for queries, rows, execute, stale statements and handles. Two parts of the claim are false of the code: while a statement has rows on the way (until fetch_row has returned false) begin, commit and rollback send nothing and return normally, because the result of mysql_query is not looked at (C122_commit_refuted), and other statements cannot be executed or prepared (C122_two_refuted); and prepare after a failed reconnection calls mysql_stmt_init(NULL) (C122_null_refuted, which shows that nothing else does). The client library is modelled after its manual.",
 "C123": "Partial: a call that was cut off behind its name is run if the function takes no arguments, whatever version the caller has, and the caller is told of an error (C123_run_refuted); everything else of the statement is proved (C123_histories_partial, C123_arrived) for proper calls as in C57, functions that return, and argument types without sets or maps of numbers (reading a piece of one is undefined, C12). Timeouts of writes are not modelled.",
 "C124": "Proved: the protocol of handles (C124_protocol), that living objects have theirs (C124_there), and connect (C124_connect), for all answers and all failures of allocation. That everything is given back (C124_bounded_partial, C124_all_partial) holds unless memory runs out between PQexecPrepared and the postgresql_result that is to hold its result; there the PGresult is lost (C124_lost_refuted, statement.cpp:94-99). One thread; an exception out of the ROLLBACK in the connection's destructor ends the program (C96), and histories end there.",
 "C125": "Proved: results, TCP_NODELAY, timeouts, listening sockets, sockets without descriptor. Refuted: set_nodelay also turns SO_KEEPALIVE on or off (TCP_DEFER_ACCEPT is passed at the level SOL_SOCKET, where its number 9 is SO_KEEPALIVE; C125_keepalive_refuted, C125_keepalive_expected_refuted), and never defers accepting; a set_timeout that returns false may have set the timeout for receiving (C125_half_refuted). Guard of C125_timeout_partial: representable times from 0 to below 2^31 seconds (C109 has the others). Numbers of options as on Linux x86; the options of accepted sockets are not modelled.",
 "C126": "C126_any_bytes_partial and C126_fresh_partial: all types without bool and without sets of bare numbers. C126_any_order and C126_first_stays: which elements sets and maps have that were not written in order or with repetitions. C126_bool_refuted: a byte from 2 on is copied into a bool, which is undefined. C126_set_refuted: a set of numbers whose stream ends inserts an uninitialised number. Memory for sizes taken from corrupt input is assumed to be there.",
 "C127": "C127_result_partial, C127_whole and C127_message: a cut reply gives an error, never a value, for all result types but sets of bare numbers (C12). Refuted: that errors are reported as sent. C127_name_refuted: a cut NotFound names another method, with NULs; C127_uninitialised_refuted: of a VersionMismatch cut in front of the numbers uninitialised numbers are thrown; C127_number_refuted: one cut inside the numbers reports a wrong version. The caller's side over a stream that ends; the server's side of a failed write is not modelled.",
 "C128": "Over the socket model of C30; requests and answers are any protocol whose requests have a byte and whose answers end with a flush, as all of base.cpp's do. Functions that throw are not modelled; a request that is cut is C123's subject.",
 "C13": "REFUTED: on an archive that ends before the terminator the loop of iostream.h:104-114 never ends. Proved to terminate on complete encodings.",
 "C15": "Round trip proved for compact and pretty printing, escaped or not, for all values whose strings hold no U+0000, whose floating numbers are zero or normal, and texts below 2^30 bytes (int buffer size): values without floating numbers come back the same, floating numbers come back rounded to 12 digits (C15_floats_partial), and the document is equal by operator== if 12 digits are enough (C15_short_floats_partial). U+0000 is lost (C15_nul_refuted, C16); subnormal numbers are rejected, see C94. An object is an association list in iteration order; sharing through shared_ptr is in C104.",
 "C16": "Refuted: print stops at the first NUL byte. Every other well-formed string round-trips.",
 "C17": "Proved for all byte streams. What the UTF-8 reader answers for a malformed character depends on istreambuf_iterator comparison in the library; the theorem holds for any function into {0, U+FFFD}.",
 "C18": "Refuted: 1e5 at the end of the stream reads as 1.0; -, 1. and 007 are accepted. Every other RFC number token is read at its full correctly rounded value in every context; out of range numbers are rejected. strtod is modelled as correctly rounding (glibc).",
 "C19": "Refuted: merge is shallow, b's nested object replaces a's. Exact keys, right bias, associativity, idempotence and rejection of non-objects proved. Values are trees, so that inputs are untouched holds by construction; the result shares its children with the inputs in the code.",
 "C20": "Refuted for optionals of nullable types and (from_json<int>) silent truncation. Round trip through any member order proved for all other nested types incl. classes with named members; from_json succeeds exactly on the right kinds (a double also reads an integer). float and unsigned: see C115.",
 "C21": "Round trip for every table of NUL-free fields, every choice of quoting and of line breaks, under the guard that no field ends at a position 1024*2^k of its row (C21_small_rows: always so for rows of up to 1024 bytes).",
 "C22": "Refuted: unterminated quotes, a comma/quote/CR at the end of the input are read past, and a field ending exactly at the end of the buffer writes its NUL outside. Proved safe for CSV files within the guard and for quote-free text of short lines ending in LF; termination for all inputs.",
 "C24": "Parts recovered for every composed reference (absolute or relative) with no percent-encoding in the authority, host names not beginning with an IPv4 address, four-digit IPv6 groups with :: for one or for leading groups; print/parse with a scheme and a path starting with a slash. Refuted outside (encoded userinfo/host, names like 1.2.3.4.example, [::1], IPvFuture, mailto:joe).",
 "C25": "Refuted: parse_userinfo skips three extra bytes after an encoded byte (http://%41). Proved in bounds and total for all strings with at least three bytes behind each encoded byte.",
 "C26": "C26_header_map: for every sequence of set, erase and non-const get. Reading a missing name by the non-const [] or get inserts it with an empty value; the specification says so.",
 "C27": "C27_send and C27_read_partial: round trip for every kernel segmentation and following bytes. Refuted for values with a leading blank (stripped) and for lines longer than 4094 bytes (cut at line_limit, the rest becomes a new field).",
 "C28": "C28_chunked_partial: every chunking, with extensions and trailer, for bodies without the byte 255. C28_chunked_refuted: underflow returns char, so 255 is taken for EOF. C28_negative_size_refuted: chunk size -1 leads to memcpy with a negative size. C28_readers_end: otherwise no undefined behaviour, for any peer.",
 "C29": "C29_content_length_partial: exactly n bytes for n > 0. C29_zero_length_refuted: for n = 0 the stream goes on delivering what follows.",
 "C30": "C30_sent, C30_flushed, C30_short_write: the bytes given to the kernel are the bytes written, in order, for every sequence of calls and every behaviour of ::send. C30_received, C30_received_all, C30_stays_connected: read, getc and getline return the received bytes in order and once for every segmentation; less than asked for only at the end of the connection.",
 "C31": "C31_reconnect_refuted: connect and close keep rdbuf and wrbuf, so a byte written before reaches the new peer and an old received byte is delivered. C31_reconnect_partial says exactly what crosses over: the contents of the two buffers; with both empty the socket starts clean.",
 "C32": "Proved for all byte strings (NUL included) and every valid percent-encoding, not only uri_encode's; parsing is total on every text. Maps are association lists: order of iteration not modelled.",
 "C37": "C37_search_partial and C37_distinct_partial cover construct() (sorting, the double array, failure links, output marks) and search() for every dictionary of NUL-free words and every text of less than 2^31 bytes, including the absence of out-of-range accesses and termination. C37_long_refuted: in longer texts the places come out negative, since they are int. Not modelled: int overflow of node indices and word numbers, i.e. dictionaries of about 2^31 nodes or words. C37_nul_matters shows why NUL-free is needed.",
 "C38": "C38_kmp_first_occurrence_partial: queries and texts of less than 2^31 elements, offsets from 0 on. C38_seen_partial says which part of a text of any size is searched; C38_long_refuted: of a text of 2^31 to 2^32-1 elements nothing is, so an occurrence at its front is missed; C38_negative_refuted: a negative offset reads in front of the text. Not covered: queries of 2^31 elements and more.",
 "C41": "Proved of rows whose columns are below INT_MAX and whose matrices take less than 2^31 bytes (6 bytes per entry at most): write, open, get_row (vector and map), row_num, get_row_size; transposing for every amount of free memory exchanges rows and columns; twice gives the original without trailing empty rows. The code overflows an int on column INT_MAX and on matrices of 2^31 bytes and more (refuted theorems).",
 "C42": "Every file without NUL: lines either say one thing or are malformed (proved exhaustive and exclusive); a NUL cuts its line. When reading fails in the middle, the rest and the unfinished line are lost without an error (C42_read_failure).",
 "C43": "Any type T, given by the set of its values: the exact result in lowest terms, or an overflow that needs a number larger than twice the square of the largest operand. Only == exists as a comparison. operator<<: the text of integral types other than char, whatever the value.",
 "C44": "fft computes the Fourier sums over every commutative ring with a principal root for all power-of-two lengths up to 2^32 and refuses other lengths; ifft after fft multiplies by the length. Refuted: ifft does not divide by the length, so ifft(fft(x)) = n*x; above 2^32 elements the int counter overflows and fft never returns. Floating-point rounding is outside the property.",
 "C45": "For every generator; doubles as exact integers over 2^53, the one rounded product rounded to nearest even; every number below the argument can come (C45_next_int_reaches). next_gaussian, next_double(a) and next_double(a,b) as doubles: C112.",
 "C46": "For every seed and every number of calls, whatever the uninitialised array held.",
 "C47": "All types of 1 or more bytes (specialised: char, short, int and unsigned; generic: any size) on both kinds of machine. Signed left shifts wrap as gcc defines.",
 "C48": "False without normalisation (witnesses): the constructor accepts microseconds outside 0..999999, < is then not the order of instants, and microseconds can overflow. Partial: + and - exact modulo the wrap of seconds whenever the microseconds do not overflow; undo and order for normalised times. operator double and the other comparisons: C113.",
 "C49": "Proved for every schedule of any number of threads, one memory access or pthread call per step (sequentially consistent memory). For a plain mutex the callers must unlock only what they locked (C49_discipline_needed shows why).",
 "C50": "Proved for both kinds of mutex, any recursion depth, any interleaving.",
 "C51": "Lock, unlock and wait are atomic steps of the monitor machine (justified by C49/C50); timeouts are nondeterministic; sequentially consistent memory.",
 "C52": "Same monitor machine as C51; swap is modelled with its nested lock, take and put.",
 "C53": "Proved for every schedule, with dup, unget and destruction; includes absence of lost wakeups and deadlocks. size() and empty(): C114.",
 "C54": "REFUTED for q<>1: wait(q) waits for q units but takes one (qsem.h:59), so two threads can each be granted 2 units of a semaphore of 3. Proved: linearizable as a semaphore when every wait asks for one unit; no deadlock and no lost wake-up for all q; as-coded behaviour linearizable for all q. int overflow of the quantity not modelled.",
 "C55": "REFUTED: read_lock(sec) with sec<1e-9 returns the pthread code as a bool, so its result is inverted (rwmutex.cpp:99); a scoped_rlock with timeout 0 leaks the lock or unlocks what it does not hold. Proved for every other call.",
 "C56": "First half (is_stopped()/wait_until_stopped() only after every worker has left) proved for every schedule, with any number of workers, stops, restarts and waiters, and the converse while every start makes a thread; deadlock freedom as reachability of STOPPED. Second half: released if one thread waits; refuted for two waiters (notify_one) and for a server without workers. stop() may also end by an exception of one of its calls (an rpc_error when the reply is cut): then the other workers are not told, and a second stop() does nothing (C56_stop_throws_refuted).",
 "C57": "Proved for all services, arguments, results, client sets up to the number of workers and call sequences (calls atomic). Refuted parts have their own theorems: names with white space are truncated in method_not_found, an rpc_error inside the function is never answered, any other exception ends the server, reserved names cannot be called, idle clients hold workers, and a truncated request to a nullary function is executed without its version.",
 "C58": "Writes: proved for every sequence of system call outcomes. Replies: join is proved to return the reply with its id behind any other messages, for every cutting of the stream, and replies joined in order of arrival all arrive; that no reply is dropped for another caller is false (C58_reply_dropped_refuted): join throws away every other reply. msgpack-c is described by its format (C58_msgpack_codec), theorems hold for any codec.",
 "C59": "Bounded, answers only from the resolver, and no crash without the assertion, for every schedule; exact bookkeeping, hits and LRU eviction for calls that do not overlap. Refuted: with expire_second > 0 nothing ever expires (the access time is refreshed before it is tested); two threads missing the same key make the assertion fail and leak access stamps; max_size <= 0 is undefined behaviour.",
 "C60": "Value round trip, integer ranges and mismatching types proved for all values; arity holds for execute up to 9 arguments and fetch_row up to 7 targets. Refuted beyond: execute with 10 arguments writes behind a vector of 9; fetch_row with 8, 9, 10 targets wants one column less and reads behind the row.",
 "C61": "Round trip for all 2^32 addresses within the 16-byte buffer, equality and order; 'malformed gives none' is false of the code (trailing text, blanks, signs, numbers that wrap into range): the exact set of accepted texts is proved instead.",
 "C62": "Heap model of any objects and holders refines plain values for every program, with throwing allocations; no use after delete, no double delete, no leak. Values copy to equal values by assumption.",
 "C63": "Round trip proved for every integral type of any width except that a blank char throws (refuted); out-of-range text throws for signed types and bool; unsigned types accept a minus sign and wrap (refuted), everything else proved.",
 "C64": "The semi-voiced mark is REFUTED: take_handakuten_tbl is a copy of the voiced table for KI..TO, so e.g. half-width KI + semi-voiced mark becomes KU (C64_semivoiced_mark_refuted); and U+FF60 becomes U+0000 (C64_parenthesis_refuted). Everything else is proved: every other half-width character, hyphens, all other characters, and the semi-voiced mark for all characters outside U+30AD..U+30C8.",
 "C65": "REFUTED: the decoder fetches eight bytes at a time, so attach(buf) on a buffer without eight bytes of slack reads outside it.",
 "C66": "REFUTED: ids read from the archive index the id-to-key vector without a check and are not required to be distinct.",
 "C67": "REFUTED: an element above INT_MAX makes lower_bound return end() and the store goes past the table.",
 "C68": "Missing: a number ending in a single exponent digit as the last character of the stream (false: C68_last_digit_refuted); texts of 2^30 bytes and more.",
 "C69": "Inputs below 2^28-2 bytes; above, the int buffer size can overflow. Recursion depth (stack overflow on deep nesting) is not modelled.",
 "C71": "Refuted: optional<int> and the like copy an uninitialised T. Proved for types whose optionals hold only default-initialised types.",
 "C72": "Refuted: after a number and trailing white space a second parse throws parse_error; operator>> loses the look-ahead character after a number.",
 "C73": "False of the code (witnesses): a value line starting with two dashes hides the next boundary if that starts within the boundary's length; a quoted name with a semicolon is cut; several files for one name in a nested multipart/mixed part are refused when lines end in CRLF, because the inner boundary is taken with its CR. Partial: exact, including the header kept in file_info, for parts in which each line starting with two dashes is followed in the part by as many bytes as the boundary has, and names without quote, semicolon, CR, LF. Nested parts with LF line ends only by example. Termination proved for every text.",
 "C74": "Round trip proved for every zone. False of the constructor from components: isdst is read uninitialised, and wherever the flag matters the result depends on it. Partial: right if the flag found is right. yday and wday are only copied.",
 "C75": "Proved for value, unknown method, wrong type and exception. False of the code: an rpc_error thrown by the function is never answered, missing arguments are not noticed, and a request whose method is not a string ends the server (refuted theorems).",
 "C76": "Proved for queries whose string constants hold no question mark; with one, it is replaced and numbered too (C76_constant_refuted). The SQL reading is reduced to text outside quotes, quoted constants and parameters.",
 "C77": "Booleans, integers, strings without NUL and NULL round trip. Refuted: strings with NUL are cut; times whose microseconds end in zero come back with fewer; whole seconds call atoi(NULL). Doubles are rounded to 10 decimals (C77_float_collapse_refuted) and come back as the nearest double to that (C77_float_back_partial), so unchanged exactly if they are the nearest to some number with ten decimals (C77_float_kept), as all from 2^19 on (C77_float_large); the server is to show doubles by texts that determine them. Infinities and NaN are not modelled here.",
 "C78": "Proved for arguments other than NULL; NULL is sent as an empty string (C78_null_refuted). What the client library makes of a MYSQL_BIND is taken from its manual.",
 "C79": "Proved for the column types the driver knows, signed values, and the right daylight saving flag; refuted for unsigned columns, VARCHAR and decimal columns, and booleans. What mysql_stmt_fetch writes is taken from the manual.",
 "C80": "Sending is proved in full for a header without Content-Length. Receiving is proved for messages with a body (Content-Length), with chunks and without a body, for URIs that the parser reads, lines up to 4094 bytes and fields as in C27. False of the code: the received header has empty fields Transfer-Encoding and Content-Length more; the body of a message without one is what follows on the connection; a status line without a code leaves code_ uninitialized; a request line with an encoded byte near the end of the host is read out of bounds (C25).",
 "C81": "For every kernel (writing) and for kernels that do not fail (reading).",
 "C82": "Proved for requests as in C80 (lines up to 4094 bytes, URIs the parser reads, body with Content-Length), forms as in C32 and C73. False of the code: the variable of a field with a hyphen keeps the hyphen (HTTP_USER-AGENT, not HTTP_USER_AGENT as RFC 3875 says); a body sent in chunks is ignored, since only CONTENT_LENGTH is asked.",
 "C83": "Proved for every program, every page and every status, for fields that fit on a line with different names and without Content-Length; a body longer than the limit is answered by the page 500 without calling the program. False of the code: the page 'Request is too short' is never delivered (the end of the stream has closed the socket, sending throws); a multipart form without boundary throws before the page 'Invalid html protocol'.",
 "C84": "Sides up to 2^32 (C44). Data stored row by row keeps transformed rows when length_error is thrown for the number of rows (C84_unchanged_refuted), and a pitch of 0 divides by zero (C84_pitch_refuted). The inverse is not scaled.",
 "C85": "Arithmetic of the component type is that of a ring or field (no overflow, no rounding). normalize needs an exact square root and a nonzero vector; over integers the factors are rounded to 0 (C85_integers_refuted). The outer products in component_by_array cannot be instantiated.",
 "C86": "Indices out of range are undefined behaviour or abort (C86_index_refuted); reading a text with too few numbers copies variables that were never set (C86_short_refuted). Vectors of double: each component comes back rounded to six digits (C86_double_text); after an infinity or NaN the remaining variables are never set (C86_double_text_refuted). Vectors of char come back exactly if no component is a blank (C86_char_text_partial, C86_char_text_refuted). Vectors of float: the same (C86_float_text, C86_float_text_refuted, C86_float_special_refuted); a number too large becomes the largest one and fails the stream (C86_double_large, C86_float_large); texts with too few numbers leave variables unset (C86_double_short_refuted, C86_float_short_refuted). Vectors of long double as text are not modelled.",
 "C87": "Holds for programs that move only objects that are not open. Moving an open one unmaps and closes the file, because the temporary that takes the old members over is destroyed (C87_move_refuted); the moved object later closes a descriptor that may belong to another (C87_theft_refuted). A closed object keeps its size (C87_size_refuted).",
 "C88": "pthread_join answers 0 only when the thread has ended, pthread_detach of a joinable thread succeeds (as the code assumes).",
 "C89": "2^63 seconds or more, and infinity, are converted to time_t out of range (C89_long_refuted).",
 "C90": "A unit of /proc/meminfo is 1024 bytes but the code counts 1000, so both numbers are 2.3 % too small (C90_bytes_refuted); free memory or cache of 2 TiB or more overflows atoi, undefined behaviour (C90_free_refuted).",
 "C91": "Assumes that the compiler elides the copy in the macro tag__ (it is guaranteed from C++17 on).",
 "C92": "The text determines the tree only if no name has punctuation in it (C92_text_partial): NAMED_MEMBER takes any text as the name, so two types can have one text (C92_text_refuted). All floating types print as float, so the text does not determine the format in an archive (C92_format_refuted).",
 "C93": "Proved for values without floating numbers and U+0000 (C93_each_partial, C93_round_trip_partial) and for values of any type without json in it whose doubles are +0 or normal and have at most 12 decimal digits (C93_floats_partial), each text below 2^30 bytes. Other floating numbers are rounded to 12 digits (C93_double_refuted), -0 becomes +0 (C93_minus_zero_refuted) and strings are cut at U+0000 (C93_nul_refuted).",
 "C94": "Reading back holds for normal numbers and zero: the text of a subnormal number is rejected by the parser (C94_subnormal_refuted). Numbers with more digits come back changed (C94_digits_refuted). The printing and reading of digits is the C library's, modelled as correctly rounding.",
 "C95": "Proved for all programs and kernels under guards: no copied socket, create not called on a server_socket that is alive, mprpc's server not stopped between sock.get() and ::accept, no ::close interrupted; for the release of all descriptors also that ::close does not fail. Each guard is needed (_refuted): NO_INTR repeats an interrupted ::close, though Linux has released the descriptor; implicit copies close twice; create forgets or closes twice the descriptor; accept loses the connection when closing the fresh object's socket fails; accept on a closed, possibly reused descriptor. After a failed connect or a lost connection a stream_socket can never connect again (C95_retry_refuted).",
 "C96": "PostgreSQL: for all answers nothing is stored in part, a block that throws stores nothing, one that ends normally stores all unless a failing run was caught in it. MySQL: atomic while the connection holds and no BEGIN, COMMIT or ROLLBACK is rejected. False of the code otherwise (_refuted): MySQL's run and query silently reconnect, so a block can be stored in part, stay after a rollback, or be lost although it ended normally; results of BEGIN and COMMIT are not looked at; uncaught_exception() rolls back blocks run during unwinding; nested blocks; PostgreSQL's COMMIT after a caught failure rolls back silently; failing COMMIT or ROLLBACK and deleting a lost connection terminate the program (C++11 destructors).",
 "C97": "Proved for URLs accepted by the parser's guards (C24): port 80 and no fragment for the request text, ports below 65536 for the connection, bodies of nonzero length, in chunks (no byte 255) or up to the end of the connection. Refuted: ports above 65535 wrap around, Host lacks the port, the fragment is sent, a URL without scheme gives a malformed target, HTTP:// is refused, truncated bodies end like whole ones, Content-Length 0 reads on.",
 "C98": "Proved for every list of services whose types are integers of 1, 2 or 4 bytes, double, strings, vectors, maps with such integers or strings as keys, and classes that name themselves and all their members (nested in any way), with names that PHP accepts and tells apart; for every sequence of proper calls, when fread gets what it asks for and results contain no empty string. Refuted: servers of another version than 1 refuse every call; empty strings come back as false, empty keys as 0; eight-byte integers come back as null and leave the connection out of step; floats come back as null; bool, char and stream types make the program fail; classes with the same name are confused; a short fread cuts strings off.",
 "C99": "Proved: FastCGI streams deliver the bytes of the request in any order of looking and taking (C99_stream) and pass on what is written, or a beginning of it after a failed call (C99_output, C99_output_failure); the FastCGI loop answers each request as a process of its own would, in order, until the program throws (C99_fcgi); the command line in every spelling gives port, threads and timeout, the last counting (C99_options), the first bad setting ends with its message (C99_exit), the server never listens with a port or a number of threads out of range (C99_range); the words -s and --server choose the server (C99_mode). False: requests after one that throws are not served (C99_later_served_refuted); numbers with trailing text are taken and large ones wrap (C99_number_refuted, C99_too_large_refuted); a second server in the process ignores the options (C99_again_refuted, C99_again); joined or abbreviated spellings of the server option do not choose the server (C99_mode_refuted)."
}
